(** The memory of the XML-RPC values (xml-rpc/vortex_xml_rpc_types.c): values, structs, members, arrays,
    calls and responses, who owns them and when they are released, and the functions that take a value
    out of a response and release it (vortex_xml_rpc_unmarshall_*_sync, xml-rpc/vortex_xml_rpc.c
    2382-2944).

    The memory is a list of cells, an address being a place of the list; a cell released is never used
    again.  A release is done with the list of the references still to be dropped instead of the
    recursion of the code, which releases the contents before the container: the same but for values
    that contain themselves.  Memory is never exhausted. *)
From Coq Require Import String.
From Verif Require Import Base CodecModel GreetModel HdrModel MsgModel.
Open Scope list_scope.
Open Scope Z_scope.

(** * 1. Cells *)

(** The union of XmlRpcMethodValue (148-177); the double as "%g" writes it. *)
Inductive vk :=
| KInt (z : Z) | KBool (z : Z) | KDbl (g : bytes) | KStr (s : option nat) | KB64 (s : option nat)
| KStruct (s : option nat) | KArr (a : option nat) | KDate | KNone.
(** XmlRpcStruct, XmlRpcStructMember and XmlRpcArray (179-240), XmlRpcMethodCall and XmlRpcMethodResponse
    (51-145).  Of a struct, the members added; of an array and of a call, all the places and how many were
    added. *)
Inductive cell :=
| CStr (b : bytes)
| CVal (k : vk)
| CMem (name : bytes) (v : nat)
| CStruct (count refs : Z) (ms : list nat)
| CArr (refs : Z) (added : nat) (vals : list (option nat))
| CCall (added : nat) (vals : list (option nat))
| CResp (v : option nat) (text : option nat) (fault : option (Z * nat)).

(** A reference: what is expected there, and where. *)
Inductive tag := TStr | TVal | TMem | TStruct | TArr | TCall | TResp.
Definition ref : Type := tag * nat.
Definition tag_of (c : cell) : tag :=
  match c with
  | CStr _ => TStr | CVal _ => TVal | CMem _ _ => TMem | CStruct _ _ _ => TStruct | CArr _ _ _ => TArr
  | CCall _ _ => TCall | CResp _ _ _ => TResp
  end.
Definition tag_eqb (a b : tag) : bool :=
  match a, b with
  | TStr, TStr | TVal, TVal | TMem, TMem | TStruct, TStruct | TArr, TArr | TCall, TCall | TResp, TResp => true
  | _, _ => false
  end.
Definition heap : Type := list (option cell).
Definition cell_at (h : heap) (p : nat) : option cell := match nth_error h p with Some (Some c) => Some c | _ => None end.
Definition look (h : heap) (r : ref) : outcome cell :=
  match cell_at h (snd r) with
  | Some c => if tag_eqb (tag_of c) (fst r) then Ok c else UB
  | None => UB
  end.
Definition put (h : heap) (p : nat) (c : cell) : heap := upd_nth h p (Some c).
Definition alloc (h : heap) (c : cell) : heap * nat := (h ++ [Some c], length h).

Definition opt (t : tag) (o : option nat) : list ref := match o with Some p => [(t, p)] | None => [] end.
(** What is released with a cell: vortex_xml_rpc_method_value_free (1788-1826), struct_free (2911-2942),
    struct_member_free (2952-2968), array_free (3041-3064), method_call_free (1583-1603) and
    method_response_free (2081-2099).  Of an array and of a call, the places up to the number added. *)
Definition kids_of (k : vk) : list ref :=
  match k with
  | KStr s | KB64 s => opt TStr s
  | KStruct s => opt TStruct s
  | KArr a => opt TArr a
  | _ => []
  end.
Definition kids (c : cell) : list ref :=
  match c with
  | CStr _ => []
  | CVal k => kids_of k
  | CMem _ v => [(TVal, v)]
  | CStruct _ _ ms => map (pair TMem) ms
  | CArr _ n vs | CCall n vs => flat_map (opt TVal) (firstn n vs)
  | CResp v t f => opt TVal v ++ opt TStr t ++ match f with Some (_, s) => [(TStr, s)] | None => [] end
  end.
(** The references counted; the other cells have one owner. *)
Definition count_of (c : cell) : Z := match c with CStruct _ n _ => n | CArr n _ _ => n | _ => 1 end.
Definition recount (c : cell) (n : Z) : cell :=
  match c with CStruct k _ ms => CStruct k n ms | CArr _ a vs => CArr n a vs | _ => c end.

(** Dropping the references of [w].  [fuel] is the number of references there are: it never ends before
    (if it did, the outcome would be undefined). *)
Fixpoint release (fuel : nat) (h : heap) (w : list ref) : outcome heap :=
  match w with
  | [] => Ok h
  | r :: w =>
      match fuel with
      | O => UB
      | S fuel =>
          let! c := look h r in
          let n := count_of c - 1 in
          if n =? 0 then release fuel (upd_nth h (snd r) None) (kids c ++ w)
          else release fuel (put h (snd r) (recount c n)) w
      end
  end.
Definition all_kids (h : heap) : list ref := flat_map (fun o => match o with Some c => kids c | None => [] end) h.
Definition drop (h : heap) (w : list ref) : outcome heap := release (length w + length (all_kids h)) h w.

(** * 2. The functions *)

(** [s_chan]: the fault texts kept in the data of the channel (vortex_channel_set_data_full,
    src/vortex_channel.c 4883-4904, the key being the text, released by the hash). *)
Record vst := mkV { s_heap : heap; s_chan : list (bytes * nat) }.
Inductive ret := RNone | RPtr (p : option nat) | RSync (value : option nat) (num : Z) (fault : option nat).

Inductive op :=
| OStrNew (b : bytes) | OStrFree (p : nat)
| OInt (z : Z) | OBool (z : Z) | ODbl (g : bytes) | ONone | ODate (given : bool)
| OText (b64 : bool) (b : option bytes)           (* XML_RPC_STRING_VALUE or XML_RPC_BASE64_VALUE *)
| OTextRef (b64 : bool) (p : option nat)          (* the _REF_ types *)
| OStructV (p : option nat) | OArrV (p : option nat)
| OCopy (v : nat) | OValFree (v : nat) | ONullify (v : nat)
| OStructNew (n : Z) | OStructRef (p : nat) | OStructFree (p : nat)
| OMemNew (name : bytes) (v : option nat) | OMemFree (m : nat) | OAddMem (s m : nat)
| OArrNew (n : Z) | OArrRef (p : nat) | OArrFree (p : nat) | OArrAdd (a : nat) (v : option nat) | OArrSet (a : nat) (i : Z) (v : option nat)
| OCallNew (n : Z) | OCallAdd (c v : nat) | OCallSet (c : nat) (i : Z) (v : nat) | OCallCreate (c : nat) (b : bytes) | OCallFree (c : nat)
| OResp (v : nat) | OFault (code : Z) (text : bytes) | ORespFree (r : nat) | ORespNullify (r : nat) | OShow (r : nat)
| OIntSync (r : nat) | OStrSync (r : nat) | OStructSync (r : nat) | OArrSync (r : nat)
| OChanClose.

Definition give (s : vst) (c : cell) : outcome (vst * ret) :=
  let '(h, p) := alloc (s_heap s) c in Ok (mkV h (s_chan s), RPtr (Some p)).
Definition dropped (s : vst) (w : list ref) : outcome (vst * ret) :=
  let! h := drop (s_heap s) w in Ok (mkV h (s_chan s), RNone).
(** vortex_xml_rpc_method_value_new (382-481). *)
Definition text_kind (b64 : bool) (p : nat) : vk := if b64 then KB64 (Some p) else KStr (Some p).
Definition new_text (s : vst) (b64 : bool) (b : bytes) : outcome (vst * ret) :=
  let '(h, p) := alloc (s_heap s) (CStr b) in
  give (mkV h (s_chan s)) (CVal (text_kind b64 p)).
Definition bytes_at (h : heap) (p : nat) : outcome bytes :=
  let! c := look h (TStr, p) in match c with CStr b => Ok b | _ => UB end.
Definition val_at (h : heap) (v : nat) : outcome vk :=
  let! c := look h (TVal, v) in match c with CVal k => Ok k | _ => UB end.
(** vortex_xml_rpc_struct_ref (2380-2388) and array_ref (3025-3033). *)
Definition ref_more (h : heap) (r : ref) : outcome heap :=
  let! c := look h r in Ok (put h (snd r) (recount c (count_of c + 1))).
(** vortex_xml_rpc_method_value_copy (548-582). *)
Definition copy (s : vst) (v : nat) : outcome (vst * ret) :=
  let! k := val_at (s_heap s) v in
  match k with
  | KInt _ | KBool _ | KDbl _ | KNone => give s (CVal k)
  | KStr None => new_text s false []
  | KB64 None => new_text s true []
  | KStr (Some p) => let! b := bytes_at (s_heap s) p in new_text s false b
  | KB64 (Some p) => let! b := bytes_at (s_heap s) p in new_text s true b
  | KStruct None | KArr None => give s (CVal KNone)
  | KStruct (Some p) => let! h := ref_more (s_heap s) (TStruct, p) in give (mkV h (s_chan s)) (CVal k)
  | KArr (Some p) => let! h := ref_more (s_heap s) (TArr, p) in give (mkV h (s_chan s)) (CVal k)
  | KDate => Ok (s, RPtr None)
  end.
(** vortex_xml_rpc_method_value_nullify (642-680). *)
Definition null_kind (k : vk) : vk :=
  match k with KStr _ => KStr None | KB64 _ => KB64 None | KStruct _ => KStruct None | KArr _ => KArr None | _ => k end.
Definition nullify (h : heap) (v : nat) : outcome heap :=
  let! k := val_at h v in Ok (put h v (CVal (null_kind k))).
(** vortex_xml_rpc_method_value_stringify (599-633): the text, or NULL. *)
Definition stringify (h : heap) (v : option nat) : outcome (option bytes) :=
  match v with
  | None => Ok None
  | Some v =>
      let! k := val_at h v in
      match k with
      | KInt z | KBool z => Ok (Some (dec z))
      | KDbl g => Ok (Some g)
      | KStr (Some p) | KB64 (Some p) => let! b := bytes_at h p in Ok (Some b)
      | _ => Ok None
      end
  end.

Record rsp := mkR { r_val : option nat; r_text : option nat; r_fault : option (Z * nat) }.
Definition resp_at (h : heap) (r : nat) : outcome rsp :=
  let! c := look h (TResp, r) in match c with CResp v t f => Ok (mkR v t f) | _ => UB end.
(** The texts of the channel once one more is set: one that is equal is replaced, and released. *)
Definition same (b : bytes) (e : bytes * nat) : bool := bytes_eqb (fst e) b.
Definition chan_refs (l : list (bytes * nat)) : list ref := map (fun e => (TStr, snd e)) l.
Definition keep_fault (s : vst) (b : bytes) : outcome (vst * option nat) :=
  let '(h, p) := alloc (s_heap s) (CStr b) in
  let! h := drop h (chan_refs (filter (same b) (s_chan s))) in
  Ok (mkV h ((b, p) :: filter (fun e => negb (same b e)) (s_chan s)), Some p).
(** __vortex_xml_rpc_unmarshall_common_sync (2382-2436): the value, or the fault code and its text. *)
Definition common_sync (s : vst) (r : nat) : outcome (vst * option nat * Z * option nat) :=
  let! c := resp_at (s_heap s) r in
  match r_fault c with
  | None => Ok (s, r_val c, -1, None)
  | Some (code, t) =>
      let! b := bytes_at (s_heap s) t in
      let! (s, p) := keep_fault s b in
      Ok (s, None, code, p)
  end.
(** vortex_xml_rpc_method_value_get_as_string, as_struct, as_array and as_int (1859-1966). *)
Definition as_text (k : vk) : option nat := match k with KStr s => s | _ => None end.
Definition as_struct (k : vk) : option nat := match k with KStruct s => s | _ => None end.
Definition as_arr (k : vk) : option nat := match k with KArr s => s | _ => None end.
Definition as_num (k : vk) : Z := match k with KInt z | KBool z => z | _ => -1 end.
(** The functions themselves (2461-2482, 2560-2586, 2773-2813 and 2901-2944, without an unmarshaller; the
    response is not NULL): [get], what is returned; [clear], vortex_xml_rpc_unmarshall_string_sync
    nullifies the value before the response is released.  The number: the int, or the fault code. *)
Definition sync (s : vst) (r : nat) (get : vk -> option nat) (num : vk -> Z) (clear : bool) : outcome (vst * ret) :=
  let! (s, v, code, f) := common_sync s r in
  match v with
  | None => let! (s, _) := dropped s [(TResp, r)] in Ok (s, RSync None code f)
  | Some v =>
      let! k := val_at (s_heap s) v in
      let! h := (if clear then nullify (s_heap s) v else Ok (s_heap s)) in
      let! (s, _) := dropped (mkV h (s_chan s)) [(TResp, r)] in
      Ok (s, RSync (get k) (num k) f)
  end.

(** vortex_xml_rpc_struct_add_member (2605-2621). *)
Definition add_member (h : heap) (s m : nat) : outcome heap :=
  let! c := look h (TStruct, s) in
  match c with
  | CStruct count refs ms => Ok (if zlen ms <? count then put h s (CStruct count refs (ms ++ [m])) else h)
  | _ => UB
  end.
(** vortex_xml_rpc_array_add (3173-3185) and array_set (3145-3157). *)
Definition arr_add (h : heap) (a : nat) (v : option nat) : outcome heap :=
  let! c := look h (TArr, a) in
  match c with
  | CArr refs n vs => Ok (if (n <? length vs)%nat then put h a (CArr refs (S n) (upd_nth vs n v)) else h)
  | _ => UB
  end.
Definition arr_set (h : heap) (a : nat) (i : Z) (v : option nat) : outcome heap :=
  let! c := look h (TArr, a) in
  match c with
  | CArr refs n vs => Ok (if (0 <=? i) && (i <? zlen vs) then put h a (CArr refs n (upd_nth vs (Z.to_nat i) v)) else h)
  | _ => UB
  end.
(** vortex_xml_rpc_array_get (3122-3130). *)
Definition arr_get (h : heap) (a : nat) (i : Z) : outcome (option nat) :=
  let! c := look h (TArr, a) in
  match c with
  | CArr _ n vs => Ok (if (0 <=? i) && (i <? Z.of_nat n) then nth (Z.to_nat i) vs None else None)
  | _ => UB
  end.
(** vortex_xml_rpc_method_call_add_value (874-889) and set_value (925-950). *)
Definition call_add (h : heap) (c v : nat) : outcome heap :=
  let! x := look h (TCall, c) in
  match x with
  | CCall n vs => Ok (if (n =? length vs)%nat then h else put h c (CCall (S n) (upd_nth vs n (Some v))))
  | _ => UB
  end.
Definition call_set (h : heap) (c : nat) (i : Z) (v : nat) : outcome heap :=
  let! x := look h (TCall, c) in
  match x with
  | CCall n vs =>
      if (0 <=? i) && (i <? zlen vs)
      then drop (put h c (CCall n (upd_nth vs (Z.to_nat i) (Some v)))) (opt TVal (nth (Z.to_nat i) vs None))
      else Ok h
  | _ => UB
  end.

Definition on_heap (s : vst) (o : outcome heap) : outcome (vst * ret) := let! h := o in Ok (mkV h (s_chan s), RNone).

Definition step (s : vst) (o : op) : outcome (vst * ret) :=
  match o with
  | OStrNew b => give s (CStr b)
  | OStrFree p => dropped s [(TStr, p)]
  | OInt z => give s (CVal (KInt z))
  | OBool z => give s (CVal (KBool z))
  | ODbl g => give s (CVal (KDbl g))
  | ONone => give s (CVal KNone)
  | ODate given => if given then give s (CVal KDate) else Ok (s, RPtr None)
  | OText b64 b => new_text s b64 (match b with Some b => b | None => [] end)
  | OTextRef b64 None => new_text s b64 []
  | OTextRef b64 (Some p) => give s (CVal (text_kind b64 p))
  | OStructV None | OArrV None => give s (CVal KNone)
  | OStructV p => give s (CVal (KStruct p))
  | OArrV p => give s (CVal (KArr p))
  | OCopy v => copy s v
  | OValFree v => dropped s [(TVal, v)]
  | ONullify v => on_heap s (nullify (s_heap s) v)
  | OStructNew n => if 0 <? n then give s (CStruct n 1 []) else Ok (s, RPtr None)
  | OStructRef p => on_heap s (ref_more (s_heap s) (TStruct, p))
  | OStructFree p => dropped s [(TStruct, p)]
  | OMemNew name None => Ok (s, RPtr None)
  | OMemNew name (Some v) => give s (CMem name v)
  | OMemFree m => dropped s [(TMem, m)]
  | OAddMem p m => on_heap s (add_member (s_heap s) p m)
  | OArrNew n => if 0 <=? n then give s (CArr 1 0 (repeat None (Z.to_nat n))) else Ok (s, RPtr None)
  | OArrRef p => on_heap s (ref_more (s_heap s) (TArr, p))
  | OArrFree p => dropped s [(TArr, p)]
  | OArrAdd a v => on_heap s (arr_add (s_heap s) a v)
  | OArrSet a i v => on_heap s (arr_set (s_heap s) a i v)
  | OCallNew n => if 0 <=? n then give s (CCall 0 (repeat None (Z.to_nat n))) else Ok (s, RPtr None)
  | OCallAdd c v => on_heap s (call_add (s_heap s) c v)
  | OCallSet c i v => on_heap s (call_set (s_heap s) c i v)
  | OCallCreate c b =>
      (* vortex_xml_rpc_method_call_create_value (969-984), a string *)
      let! (s, r) := new_text s false b in
      match r with RPtr (Some v) => on_heap s (call_add (s_heap s) c v) | _ => UB end
  | OCallFree c => dropped s [(TCall, c)]
  | OResp v => give s (CResp (Some v) None None)
  | OFault code text =>
      let '(h, p) := alloc (s_heap s) (CStr text) in give (mkV h (s_chan s)) (CResp None None (Some (code, p)))
  | ORespFree r => dropped s [(TResp, r)]
  | ORespNullify r =>
      let! c := resp_at (s_heap s) r in
      Ok (mkV (put (s_heap s) r (CResp None (r_text c) (r_fault c))) (s_chan s), RNone)
  | OShow r =>
      (* vortex_xml_rpc_method_response_stringify (2260-2273) *)
      let! c := resp_at (s_heap s) r in
      match r_fault c, r_text c with
      | Some _, _ => Ok (s, RPtr None)
      | None, Some t => Ok (s, RPtr (Some t))
      | None, None =>
          let! b := stringify (s_heap s) (r_val c) in
          match b with
          | None => Ok (s, RPtr None)
          | Some b =>
              let '(h, p) := alloc (s_heap s) (CStr b) in
              Ok (mkV (put h r (CResp (r_val c) (Some p) None)) (s_chan s), RPtr (Some p))
          end
      end
  | OIntSync r => sync s r (fun _ => None) as_num false
  | OStrSync r => sync s r as_text (fun _ => -1) true
  | OStructSync r => sync s r as_struct (fun _ => -1) false
  | OArrSync r => sync s r as_arr (fun _ => -1) false
  | OChanClose => let! h := drop (s_heap s) (chan_refs (s_chan s)) in Ok (mkV h [], RNone)
  end.
Fixpoint vrun (s : vst) (os : list op) : outcome vst :=
  match os with [] => Ok s | o :: r => let! (s, _) := step s o in vrun s r end.
Definition v0 : vst := mkV [] [].

(** * 3. Checking a struct *)

(** The members of a struct, as the functions that check it read them: up to its count, a place not filled
    is NULL. *)
Definition nth_member (h : heap) (ms : list nat) (i : nat) : outcome (bytes * vk) :=
  match nth_error ms i with
  | Some m =>
      let! c := look h (TMem, m) in
      match c with CMem name v => let! k := val_at h v in Ok (name, k) | _ => UB end
  | None => UB
  end.
(** vortex_xml_rpc_struct_check_member_names (2418-2455) and check_member_types (2467-2535).  [l]: the
    texts given, as many as [member_count]. *)
Definition type_ok (t : bytes) (k : vk) : bool :=
  (if bytes_eqb t (asc "int") then match k with KInt _ => true | _ => false end else true) &&
  (if bytes_eqb t (asc "boolean") then match k with KBool _ => true | _ => false end else true) &&
  (if bytes_eqb t (asc "string") then match k with KStr _ => true | _ => false end else true) &&
  (if bytes_eqb t (asc "double") then match k with KDbl _ => true | _ => false end else true) &&
  (if bytes_eqb t (asc "base64") then match k with KB64 _ => true | _ => false end else true) &&
  (if bytes_eqb t (asc "date") then match k with KDate => true | _ => false end else true) &&
  (if bytes_eqb t (asc "struct") then match k with KStruct _ | KNone => true | _ => false end else true) &&
  (if bytes_eqb t (asc "array") then match k with KArr _ | KNone => true | _ => false end else true).
Fixpoint check_from (h : heap) (ms : list nat) (ok : bytes -> bytes * vk -> bool) (i : nat) (l : list bytes) : outcome bool :=
  match l with
  | [] => Ok true
  | t :: r => let! m := nth_member h ms i in if ok t m then check_from h ms ok (S i) r else Ok false
  end.
Definition check_struct (h : heap) (s : nat) (ok : bytes -> bytes * vk -> bool) (l : list bytes) : outcome bool :=
  let! c := look h (TStruct, s) in
  match c with
  | CStruct count _ ms => if count =? zlen l then check_from h ms ok 0 l else Ok false
  | _ => UB
  end.
Definition check_names (h : heap) (s : nat) (l : list bytes) := check_struct h s (fun t m => bytes_eqb (fst m) t) l.
Definition check_types (h : heap) (s : nat) (l : list bytes) := check_struct h s (fun t m => type_ok t (snd m)) l.
