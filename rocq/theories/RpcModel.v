(** XML-RPC over BEEP: how values, calls and responses are written, how they are
    read back, and how a call received is dispatched and answered
    (xml-rpc/vortex_xml_rpc_types.c and xml-rpc/vortex_xml_rpc.c, "types" and "rpc"
    below; vortex_support_strtod of src/vortex_support.c 784-822).

    A document is the tree of the management messages ([MsgModel.xml]):
    [axl_doc_parse] is AXL's and given as an argument.  Strings are lists of
    octets without zero.  A double is an integer ([DZ], exact up to 2^53, %g
    and strtod computed) or anything else ([DTxt], known by a text that denotes it; the text %g
    gives for it is the argument [g]).  strtod is the one of the C locale, for
    decimal notations; "inf", "nan" and hexadecimal ones are not followed.
    A null pointer given to %s or followed is undefined behaviour, and so is
    the int read where the union holds a pointer.  long has 64 bits.  Memory
    (who owns a value) is not followed here. *)
From Coq Require Import String.
From Verif Require Import Base CodecModel MimeModel GreetModel HdrModel MsgModel.
Open Scope list_scope.

Inductive dbl := DZ (z : Z) | DTxt (t : bytes).

(** XmlRpcMethodValue, XmlRpcStruct, XmlRpcArray (types 148-235): the structs and
    arrays keep the number they were created with beside what was added; the
    items of an array may be NULL. *)
Inductive value :=
| VInt (n : Z) | VBool (n : Z) | VDouble (d : dbl) | VString (s : bytes) | VBase64 (s : bytes) | VDate
| VStruct (count : Z) (members : list (bytes * value))
| VArray (count : Z) (items : list (option value))
| VNone.

(** * Writing *)

(** The digits of a number of any size. *)
Fixpoint digits_of (fuel : nat) (n : Z) (acc : bytes) : bytes :=
  match fuel with
  | O => acc
  | S f => if n <? 10 then 48 + n :: acc else digits_of f (n / 10) (48 + n mod 10 :: acc)
  end.
Fixpoint drop_zeros (s : bytes) : bytes :=
  match s with 48 :: r => drop_zeros r | _ => s end.
(** %g of an integer below 2^63: six significant digits, rounded half to even,
    trailing zeros removed. *)
Definition gfmt (z : Z) : bytes :=
  let a := Z.abs z in
  let sign := if z <? 0 then [45] else [] in
  if a <? 1000000 then sign ++ dec a
  else
    let k := zlen (digits_of 20 a []) in
    let p := 10 ^ (k - 6) in
    let q := a / p in
    let r := a mod p in
    let q := if (p <? 2 * r) || (2 * r =? p) && Z.odd q then q + 1 else q in
    let '(q, k) := if q =? 1000000 then (100000, k + 1) else (q, k) in
    let ds := dec q in
    let frac := rev (drop_zeros (rev (tl ds))) in
    sign ++ firstn 1 ds ++ (match frac with [] => [] | _ => 46 :: frac end) ++
    [101; 43; 48 + (k - 1) / 10; 48 + (k - 1) mod 10].
Definition print_double (g : bytes -> bytes) (d : dbl) : bytes :=
  match d with DZ z => gfmt z | DTxt t => g t end.

(** A string given to %s: NULL is undefined behaviour. *)
Definition shown (o : outcome (option bytes)) : outcome bytes :=
  let! s := o in match s with Some s => Ok s | None => UB end.

(** The values of [l] shown one after the other, each inside [w]. *)
Section concat.
  Context {A : Type} (f : A -> outcome bytes).
  Fixpoint shown_all (l : list A) : outcome bytes :=
    match l with
    | [] => Ok []
    | x :: r => let! a := f x in let! b := shown_all r in Ok (a ++ b)
    end.
End concat.

(** vortex_xml_rpc_marshall_method_value (types 1390-1455), with
    marshall_struct (1288-1326) and marshall_array (1341-1376).  The dates and base64 are "not
    implemented yet" and give NULL, as a NULL value does (get_type 1836-1841). *)
Fixpoint marshal_value (g : bytes -> bytes) (v : value) : outcome (option bytes) :=
  match v with
  | VInt n => Ok (Some (asc "<value><i4>" ++ dec n ++ asc "</i4></value>"))
  | VBool n => Ok (Some (asc "<value><boolean>" ++ dec n ++ asc "</boolean></value>"))
  | VDouble d => Ok (Some (asc "<value><double>" ++ print_double g d ++ asc "</double></value>"))
  | VString s => Ok (Some (asc "<value><string><![CDATA[" ++ s ++ asc "]]></string></value>"))
  | VBase64 _ | VDate => Ok None
  | VStruct _ ms =>
      let! b := (fix go l := match l with
                             | [] => Ok []
                             | (n, m) :: r =>
                                 let! a := shown (marshal_value g m) in let! b := go r in
                                 Ok (asc "<member><name>" ++ n ++ asc "</name>" ++ a ++ asc "</member>" ++ b)
                             end) ms in
      Ok (Some (asc "<value>" ++ asc "<struct>" ++ b ++ asc "</struct>" ++ asc "</value>"))
  | VArray _ is =>
      let! b := (fix go l := match l with
                             | [] => Ok []
                             | None :: _ => UB
                             | Some m :: r =>
                                 let! a := shown (marshal_value g m) in let! b := go r in Ok (a ++ b)
                             end) is in
      Ok (Some (asc "<value>" ++ asc "<array><data>" ++ b ++ asc "</data></array>" ++ asc "</value>"))
  | VNone => Ok (Some (asc "<value><none /></value>"))
  end.

(** XmlRpcMethodCall (types 51-108): the parameters declared, in their places, and
    how many were added. *)
Record call := mkCall { c_name : bytes; c_params : list (option value); c_added : nat }.
Definition c_count (c : call) : Z := zlen (c_params c).
(** vortex_xml_rpc_method_call_new (types 296-320) *)
Definition call_new (name : bytes) (n : nat) : call := mkCall name (repeat None n) 0.
(** vortex_xml_rpc_method_call_add_value (types 874-890) *)
Definition call_add (c : call) (v : option value) : call * bool :=
  match v with
  | None => (c, false)
  | Some _ =>
      if Nat.eqb (List.length (c_params c)) (c_added c) then (c, false)
      else (mkCall (c_name c) (upd_nth (c_params c) (c_added c) v) (S (c_added c)), true)
  end.
(** vortex_xml_rpc_method_call_set_value (types 925-953): not counted as added. *)
Definition call_set (c : call) (i : Z) (v : option value) : call * bool :=
  match v with
  | None => (c, false)
  | Some _ =>
      if (0 <=? i) && (i <? c_count c) then (mkCall (c_name c) (upd_nth (c_params c) (Z.to_nat i) v) (c_added c), true)
      else (c, false)
  end.
(** vortex_xml_rpc_method_call_get_param_value (types 1101-1109) *)
Definition param_value (c : call) (i : Z) : option value :=
  if (0 <=? i) && (i <? c_count c) then nth (Z.to_nat i) (c_params c) None else None.

Definition prolog : bytes := asc "<?xml version=" ++ [34] ++ asc "1.0" ++ [34] ++ asc "?>".

(** vortex_xml_rpc_method_call_marshall (types 1498-1568) *)
Definition marshal_call (g : bytes -> bytes) (c : call) : outcome (option bytes) :=
  if negb (Nat.eqb (List.length (c_params c)) (c_added c)) then Ok None
  else
    let! ps := shown_all (fun v => match v with
                                   | None => UB
                                   | Some v => let! a := shown (marshal_value g v) in
                                               Ok (asc "<param>" ++ a ++ asc "</param>")
                                   end) (c_params c) in
    Ok (Some (prolog ++ asc "<methodCall>" ++ asc "<methodName>" ++ c_name c ++ asc "</methodName>" ++
              (match c_params c with [] => [] | _ => asc "<params>" ++ ps ++ asc "</params>" end) ++
              asc "</methodCall>")).

(** XmlRpcMethodResponse; method_response_new (types 2007-2035) *)
Inductive resp := ROk (v : value) | RFault (code : Z) (text : bytes).
Definition response_new (ok : bool) (code : Z) (text : option bytes) (v : option value) : option resp :=
  if ok then match v with Some v => Some (ROk v) | None => None end
  else match text with Some t => Some (RFault code t) | None => None end.

(** vortex_xml_rpc_method_response_marshall (types 2146-2235): here a base64 is
    written, and a date or a none gives NULL. *)
Definition marshal_response (g : bytes -> bytes) (r : resp) : outcome (option bytes) :=
  match r with
  | ROk v =>
      let put b := Ok (Some (prolog ++ asc "<methodResponse><params><param>" ++ b ++
                             asc "</param></params></methodResponse>")) in
      match v with
      | VBase64 s => put (asc "<value><base64>" ++ s ++ asc "</base64></value>")
      | VDate | VNone => Ok None
      | _ => let! b := shown (marshal_value g v) in put b
      end
  | RFault code t =>
      Ok (Some (prolog ++ asc "<methodResponse><fault><value><struct><member><name>faultCode</name><value><int>" ++ dec code ++
                asc "</int></value></member><member><name>faultString</name><value><string><![CDATA[" ++ t ++
                asc "]]></string></value></member></struct></value></fault></methodResponse>"))
  end.

(** * Reading *)

(** strtol with base 10: the value, held in 64 bits, and what is not consumed. *)

Definition strtol (s : bytes) : Z * bytes :=
  let t := skip_space s in
  let '(neg, t) := match t with 45 :: r => (true, r) | 43 :: r => (false, r) | _ => (false, t) end in
  match leading_digits t with
  | [] => (0, s)
  | ds => let v := if neg : bool then - digits_value ds else digits_value ds in
          (Z.max (- two63) (Z.min v (two63 - 1)), skipn (List.length ds) t)
  end.

(** strtod of a decimal notation: the double and what is not consumed. *)
Definition take_digits (s : bytes) : bytes * bytes :=
  let ds := leading_digits s in (ds, skipn (List.length ds) s).
Definition strtod (s : bytes) : dbl * bytes :=
  let t := skip_space s in
  let '(neg, t) := match t with 45 :: r => (true, r) | 43 :: r => (false, r) | _ => (false, t) end in
  let '(ip, t1) := take_digits t in
  let '(fp, t2) := match t1 with 46 :: r => take_digits r | _ => ([], t1) end in
  match ip ++ fp with
  | [] => (DZ 0, s)
  | _ =>
      let '(e, t3) :=
        match t2 with
        | c :: r =>
            if (c =? 101) || (c =? 69) then
              let '(eneg, r') := match r with 45 :: q => (true, q) | 43 :: q => (false, q) | _ => (false, r) end in
              match take_digits r' with
              | ([], _) => (0, t2)
              | (ds, q) => (if eneg : bool then - digits_value ds else digits_value ds, q)
              end
            else (0, t2)
        | [] => (0, t2)
        end in
      let m := digits_value (ip ++ fp) in
      let x := e - zlen fp in
      let used := firstn (List.length s - List.length t3) s in
      let exact := if m =? 0 then Some 0
                   else if 400 <? x then None
                   else if 0 <=? x then Some (m * 10 ^ x)
                   else if x <? - zlen (ip ++ fp) then None
                   else if m mod 10 ^ (- x) =? 0 then Some (m / 10 ^ (- x)) else None in
      (match exact with
       | Some a => if a <=? 9007199254740992 then DZ (if neg then - a else a) else DTxt used
       | None => DTxt used
       end, t3)
  end.
(** vortex_support_strtod (src/vortex_support.c 784-822): a point or a comma left
    is exchanged and the text read again; 0.0 if something is left. *)
Definition support_strtod (s : bytes) : dbl :=
  match strtod s with
  | (d, []) => d
  | (_, c :: r) =>
      let swap := if c =? 46 then Some 44 else if c =? 44 then Some 46 else None in
      match swap with
      | None => DZ 0
      | Some c' => match strtod (firstn (List.length s - List.length (c :: r)) s ++ c' :: r) with
                   | (d, []) => d
                   | _ => DZ 0
                   end
      end
  end.

(** vortex_xml_rpc_method_value_new_from_string (types 707-751).  The text of a
    double is never refused: the check is before the conversion. *)
Definition int_of (s : bytes) : option Z :=
  match strtol s with (v, []) => Some (s32 v) | _ => None end.
Inductive simple := TInt | TBool | TString | TDouble | TDate | TBase64.
Definition of_text (t : simple) (s : bytes) : option value :=
  match t with
  | TInt => match int_of s with Some n => Some (VInt n) | None => None end
  | TBool => match int_of s with Some n => Some (VBool n) | None => None end
  | TDouble => Some (VDouble (support_strtod s))
  | TString => Some (VString s)
  | TBase64 => Some (VBase64 s)
  | TDate => None
  end.
(** The simple types by the name of the element (rpc 405-450). *)
Definition is (n : bytes) (s : string) : bool := bytes_eqb n (asc s).
Definition simple_of (n : bytes) : option simple :=
  if is n "i4" || is n "int" then Some TInt
  else if is n "boolean" then Some TBool
  else if is n "string" then Some TString
  else if is n "double" then Some TDouble
  else if is n "dateTime.iso8601" then Some TDate
  else if is n "base64" then Some TBase64
  else None.

(** __vortex_xml_rpc_parse_value (rpc 377-470), parse_struct_value (220-283) and
    parse_array_value (297-363).  What is not a value is NULL; a member without value is
    not added though it was counted; an item that is not a value is added as NULL. *)
Fixpoint parse_value (t : xml) : option value :=
  let 'Elem n _ _ ks := t in
  if negb (is n "value") then None
  else
    match ks with
    | [] => None
    | Elem cn _ text kids :: _ =>
        if is cn "none" then Some VNone
        else
          match simple_of cn with
          | Some ty => of_text ty text
          | None =>
              if is cn "struct" then
                match kids with
                | [] => None
                | _ =>
                    Some (VStruct (zlen kids)
                      ((fix go l := match l with
                                    | [] => []
                                    | Elem _ _ _ (nm :: v :: _) :: r =>
                                        match parse_value v with
                                        | Some v => (x_text nm, v) :: go r
                                        | None => go r
                                        end
                                    | _ :: r => go r
                                    end) kids))
                end
              else if is cn "array" then
                match kids with
                | Elem dn _ _ items :: _ =>
                    if is dn "data" then
                      Some (VArray (zlen items)
                        ((fix go l := match l with [] => [] | v :: r => parse_value v :: go r end) items))
                    else None
                | [] => None
                end
              else None
          end
    end.

Fixpoint child (ks : list xml) (name : string) : option xml :=
  match ks with
  | [] => None
  | k :: r => if is (x_name k) name then Some k else child r name
  end.
Definition first_value (t : xml) : option value :=
  match x_kids t with [] => None | v :: _ => parse_value v end.

(** __vortex_xml_rpc_frame_received_parse_method_call (rpc 1624-1700) *)
Definition parse_call (doc : option xml) : option call :=
  match doc with
  | None => None
  | Some t =>
      if negb (is (x_name t) "methodCall") then None
      else
        match child (x_kids t) "methodName" with
        | None => None
        | Some nm =>
            let ps := match child (x_kids t) "params" with Some p => x_kids p | None => [] end in
            Some (fold_left (fun c p => fst (call_add c (first_value p))) ps (call_new (x_text nm) (List.length ps)))
        end
  end.

(** __vortex_xml_rpc_struct_get_member_by_name (types 2628-2653): the first one *)
Fixpoint member (ms : list (bytes * value)) (name : bytes) : option value :=
  match ms with
  | [] => None
  | (n, v) :: r => if bytes_eqb n name then Some v else member r name
  end.
(** method_value_get_as_int (types 1851-1860) and get_as_string (1872-1881) *)
Definition as_int (v : option value) : Z := match v with Some (VInt n) | Some (VBool n) => n | _ => -1 end.
Definition as_string (v : option value) : option bytes := match v with Some (VString s) => Some s | _ => None end.
Definition as_double (v : option value) : dbl := match v with Some (VDouble d) => d | _ => DZ 0 end.

(** __vortex_xml_rpc_invoke_process_reply (rpc 1160-1300) and notify_response
    (169-205): the response given to the handler, NULL if there is none.  The
    bad replies carry their own text, [BAD] below. *)
Inductive answer := AResp (r : resp) | ABad | ANull.
Definition process_reply (doc : option xml) : answer :=
  match doc with
  | None => ABad
  | Some t =>
      if negb (is (x_name t) "methodResponse") then ABad
      else
        match x_kids t with
        | [] => ABad
        | n :: _ =>
            if is (x_name n) "fault" then
              (* __vortex_xml_rpc_get_fault_values (1109-1137) *)
              match first_value n with
              | Some (VStruct _ ms) =>
                  match response_new false (as_int (member ms (asc "faultCode"))) (as_string (member ms (asc "faultString"))) None with
                  | Some r => AResp r
                  | None => ANull
                  end
              | _ => ABad
              end
            else if is (x_name n) "params" then
              match x_kids n with
              | [] => ABad
              | p :: _ => match first_value p with
                          | Some v => AResp (ROk v)
                          | None => ABad
                          end
              end
            else ABad
        end
  end.

(** * Looking into a value *)

(** vortex_xml_rpc_method_call_get_param_value_as_int (types 1154-1171): only a
    double is refused.  A none and a date keep nothing in the union, zeroed. *)
Definition param_as_int (c : call) (i : Z) : outcome Z :=
  match param_value c i with
  | None => Ok (-1)
  | Some (VDouble _) => Ok (-1)
  | Some (VInt n) | Some (VBool n) => Ok n
  | Some VNone | Some VDate => Ok 0
  | Some (VString _) | Some (VBase64 _) | Some (VStruct _ _) | Some (VArray _ _) => UB
  end.
(** vortex_xml_rpc_struct_get_member_count (types 2399-2405), get_member_value_at
    (2695-2703) and get_member_name_at (2719-2727): up to the number the struct
    was created with; a place not filled is a null pointer. *)
Definition member_count (v : value) : Z := match v with VStruct n _ => n | _ => -1 end.
Definition member_at (v : value) (i : Z) : outcome (option (bytes * value)) :=
  match v with
  | VStruct n ms =>
      if (0 <=? i) && (i <? n) then
        match nth_error ms (Z.to_nat i) with Some m => Ok (Some m) | None => UB end
      else Ok None
  | _ => Ok None
  end.
(** vortex_xml_rpc_array_count and array_get (types 3078-3131) *)
Definition array_count (v : value) : Z := match v with VArray n _ => n | _ => -1 end.
Definition array_get (v : value) (i : Z) : option value :=
  match v with
  | VArray _ is => if (0 <=? i) && (i <? zlen is) then nth (Z.to_nat i) is None else None
  | _ => None
  end.

(** * Dispatching *)

(** VortexXmlRpcServiceDispatchNode: what its validate handler says of the
    resource (None if it has none), and what its dispatch handler returns for the call. *)
Record node := mkNode { n_validate : option bool; n_dispatch : call -> option resp }.
(** The loop of __vortex_xml_rpc_frame_received (rpc 1741-1785): the nodes whose
    handler was called and the response.  A node refused by its own
    validation is tried as the ones without validation. *)
Fixpoint dispatch (i : nat) (l : list node) (c : call) : list nat * option resp :=
  match l with
  | [] => ([], None)
  | n :: r =>
      match n_validate n with
      | Some true => ([i], n_dispatch n c)
      | _ => match n_dispatch n c with
             | Some x => ([i], Some x)
             | None => let (h, x) := dispatch (S i) r c in (i :: h, x)
             end
      end
  end.
(** __vortex_xml_rpc_frame_received (rpc 1708-1805) and notify_reply (2023-2070): the
    handlers called and the reply sent. *)
Definition frame_received (g : bytes -> bytes) (l : list node) (doc : option xml) : outcome (list nat * option bytes) :=
  match parse_call doc with
  | None => Ok ([], None)
  | Some c =>
      let (h, x) := dispatch 0 l c in
      match x with
      | None => Ok (h, None)
      | Some x => let! m := marshal_response g x in Ok (h, m)
      end
  end.
