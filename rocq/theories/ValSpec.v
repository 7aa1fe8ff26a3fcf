(** What is expected of the memory of XML-RPC values. *)
From Coq Require Import String.
From Coq Require Export Permutation.
From Verif Require Import Base CodecModel GreetModel HdrModel MsgModel ValModel.
Open Scope list_scope.
Open Scope Z_scope.

(** The references that can be used: those of the program and those that live inside something. *)
Definition usable (s : vst) (own : list ref) (r : ref) : Prop := In r own \/ In r (all_kids (s_heap s)).
Definition got (t : tag) (r : ret) (own : list ref) : list ref :=
  match r with RPtr (Some p) => (t, p) :: own | _ => own end.
(** A value that holds a text that vortex_xml_rpc_unmarshall_string_sync gives, or holds nothing. *)
Definition plain (k : vk) : Prop := match k with KB64 (Some _) | KStruct (Some _) | KArr (Some _) => False | _ => True end.

(** What a careful program does, and the references it has then, from those it had: what is given to a
    container, a value or a response is no longer its own; what is nullified or replaced is. *)
Inductive fair (s : vst) (own : list ref) : op -> (ret -> list ref) -> Prop :=
| F_str b : fair s own (OStrNew b) (fun r => got TStr r own)
| F_int z : fair s own (OInt z) (fun r => got TVal r own)
| F_bool z : fair s own (OBool z) (fun r => got TVal r own)
| F_dbl g : fair s own (ODbl g) (fun r => got TVal r own)
| F_none : fair s own ONone (fun r => got TVal r own)
| F_date b : fair s own (ODate b) (fun r => got TVal r own)
| F_text b64 b : fair s own (OText b64 b) (fun r => got TVal r own)
| F_text_ref b64 p rest : Permutation own (opt TStr p ++ rest) -> fair s own (OTextRef b64 p) (fun r => got TVal r rest)
| F_struct_v p rest : Permutation own (opt TStruct p ++ rest) -> fair s own (OStructV p) (fun r => got TVal r rest)
| F_arr_v p rest : Permutation own (opt TArr p ++ rest) -> fair s own (OArrV p) (fun r => got TVal r rest)
| F_copy v : usable s own (TVal, v) -> fair s own (OCopy v) (fun r => got TVal r own)
| F_nullify v k : usable s own (TVal, v) -> val_at (s_heap s) v = Ok k -> fair s own (ONullify v) (fun _ => kids_of k ++ own)
| F_free t p rest o : Permutation own ((t, p) :: rest) ->
    match t with
    | TStr => o = OStrFree p | TVal => o = OValFree p | TMem => o = OMemFree p | TStruct => o = OStructFree p
    | TArr => o = OArrFree p | TCall => o = OCallFree p | TResp => o = ORespFree p
    end -> fair s own o (fun _ => rest)
| F_struct n : fair s own (OStructNew n) (fun r => got TStruct r own)
| F_struct_ref p : usable s own (TStruct, p) -> fair s own (OStructRef p) (fun _ => (TStruct, p) :: own)
| F_mem name v rest : Permutation own (opt TVal v ++ rest) -> fair s own (OMemNew name v) (fun r => got TMem r rest)
| F_add_mem p m rest count refs ms : usable s own (TStruct, p) -> cell_at (s_heap s) p = Some (CStruct count refs ms) ->
    Permutation own ((TMem, m) :: rest) -> fair s own (OAddMem p m) (fun _ => if zlen ms <? count then rest else own)
| F_arr n : fair s own (OArrNew n) (fun r => got TArr r own)
| F_arr_ref p : usable s own (TArr, p) -> fair s own (OArrRef p) (fun _ => (TArr, p) :: own)
| F_arr_add a v rest refs n vs : usable s own (TArr, a) -> cell_at (s_heap s) a = Some (CArr refs n vs) ->
    Permutation own (opt TVal v ++ rest) -> fair s own (OArrAdd a v) (fun _ => if (n <? length vs)%nat then rest else own)
| F_arr_set a i v rest refs n vs : usable s own (TArr, a) -> cell_at (s_heap s) a = Some (CArr refs n vs) ->
    0 <= i < Z.of_nat n -> Permutation own (opt TVal v ++ rest) ->
    fair s own (OArrSet a i v) (fun _ => opt TVal (nth (Z.to_nat i) vs None) ++ rest)
| F_call n : fair s own (OCallNew n) (fun r => got TCall r own)
| F_call_add c v rest n vs : usable s own (TCall, c) -> cell_at (s_heap s) c = Some (CCall n vs) ->
    Permutation own ((TVal, v) :: rest) -> fair s own (OCallAdd c v) (fun _ => if (n =? length vs)%nat then own else rest)
| F_call_set c i v rest n vs : usable s own (TCall, c) -> cell_at (s_heap s) c = Some (CCall n vs) ->
    0 <= i < Z.of_nat n -> Permutation own ((TVal, v) :: rest) -> fair s own (OCallSet c i v) (fun _ => rest)
| F_call_create c b n vs : usable s own (TCall, c) -> cell_at (s_heap s) c = Some (CCall n vs) -> (n < length vs)%nat ->
    fair s own (OCallCreate c b) (fun _ => own)
| F_resp v rest : Permutation own ((TVal, v) :: rest) -> fair s own (OResp v) (fun r => got TResp r rest)
| F_fault code text : fair s own (OFault code text) (fun r => got TResp r own)
| F_resp_nullify r c : usable s own (TResp, r) -> resp_at (s_heap s) r = Ok c ->
    fair s own (ORespNullify r) (fun _ => opt TVal (r_val c) ++ own)
| F_show r : usable s own (TResp, r) -> fair s own (OShow r) (fun _ => own)
| F_int_sync r rest : Permutation own ((TResp, r) :: rest) -> fair s own (OIntSync r) (fun _ => rest)
| F_str_sync r rest : Permutation own ((TResp, r) :: rest) ->
    (forall c v k, resp_at (s_heap s) r = Ok c -> r_val c = Some v -> val_at (s_heap s) v = Ok k -> plain k) ->
    fair s own (OStrSync r) (fun x => match x with RSync (Some p) _ _ => (TStr, p) :: rest | _ => rest end)
| F_struct_sync r rest : Permutation own ((TResp, r) :: rest) -> fair s own (OStructSync r) (fun _ => rest)
| F_arr_sync r rest : Permutation own ((TResp, r) :: rest) -> fair s own (OArrSync r) (fun _ => rest)
| F_close : fair s own OChanClose (fun _ => own).

(** A careful program that ends owning [last]. *)
Fixpoint careful (s : vst) (own : list ref) (os : list op) (last : list ref) : Prop :=
  match os with
  | [] => last = own
  | o :: r => exists k, fair s own o k /\ forall s' x, step s o = Ok (s', x) -> careful s' (k x) r last
  end.

(** Nothing contains itself. *)
Definition acyclic (h : heap) : Prop :=
  exists rank : nat -> nat, forall p c r, cell_at h p = Some c -> In r (kids c) -> (rank (snd r) < rank p)%nat.
Definition in_use (h : heap) : list nat := filter (fun p => match cell_at h p with Some _ => true | None => false end) (seq 0 (length h)).

(** What a value holds, to compare a value and its copy. *)
Inductive holds := HInt (z : Z) | HBool (z : Z) | HDbl (g : bytes) | HStr (b : bytes) | HB64 (b : bytes) | HStruct (p : nat) | HArr (p : nat) | HNone | HDate.
Definition text_or (h : heap) (o : option nat) : bytes :=
  match o with Some p => match cell_at h p with Some (CStr b) => b | _ => [] end | None => [] end.
Definition holding (h : heap) (k : vk) : holds :=
  match k with
  | KInt z => HInt z | KBool z => HBool z | KDbl g => HDbl g
  | KStr o => HStr (text_or h o) | KB64 o => HB64 (text_or h o)
  | KStruct (Some p) => HStruct p | KArr (Some p) => HArr p
  | KStruct None | KArr None | KNone => HNone | KDate => HDate
  end.

(** The members of a struct in order, and the type a member has to have. *)
Definition members (h : heap) (ms : list nat) (l : list (bytes * vk)) : Prop :=
  Forall2 (fun m e => exists v, cell_at h m = Some (CMem (fst e) v) /\ cell_at h v = Some (CVal (snd e))) ms l.
(** The names of the types, and those a value has: an empty struct or array has no value. *)
Definition type_names : list bytes := map (fun s => asc s) ["int"; "boolean"; "string"; "double"; "base64"; "date"; "struct"; "array"]%string.
Definition names_of (k : vk) : list bytes :=
  map (fun s => asc s) (match k with
  | KInt _ => ["int"] | KBool _ => ["boolean"] | KStr _ => ["string"] | KDbl _ => ["double"] | KB64 _ => ["base64"] | KDate => ["date"]
  | KStruct _ => ["struct"] | KArr _ => ["array"] | KNone => ["struct"; "array"]
  end)%string.
(** The states a careful program is in, and what it owns there. *)
Definition reached (s : vst) (own : list ref) : Prop := exists os, careful v0 [] os own /\ vrun v0 os = Ok s.

(** The text that stands for a value: the number in decimal, the double as it is written, the octets of a text. *)
Inductive shows (h : heap) : vk -> bytes -> Prop :=
| Sh_int z : shows h (KInt z) (dec z)
| Sh_bool z : shows h (KBool z) (dec z)
| Sh_dbl g : shows h (KDbl g) g
| Sh_str p b : cell_at h p = Some (CStr b) -> shows h (KStr (Some p)) b
| Sh_b64 p b : cell_at h p = Some (CStr b) -> shows h (KB64 (Some p)) b.
