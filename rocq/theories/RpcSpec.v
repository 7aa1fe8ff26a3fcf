(** What the users of XML-RPC rely on: the document a text is, the values that can
    be sent, and the calls as a list of values. *)
From Coq Require Import String.
From Verif Require Import Base CodecModel MimeModel MimeSpec GreetModel HdrModel MsgModel MsgSpec RpcModel.
Open Scope list_scope.

(** The document of a text: the declaration of XML, then one element. *)
Definition declaration : bytes := ztext "<?xml version=" ++ [34] ++ ztext "1.0" ++ [34] ++ ztext "?>".
Definition doc_of (s : bytes) : option xml :=
  match strip declaration s with Some r => xml_of r | None => None end.

Definition int_range (n : Z) : Prop := - two31 <= n < two31.
(** The values that arrive as they were sent: texts that end no CDATA section, names without
    markup, doubles of six digits, structs and arrays that are full; no base64
    and no date. *)
Fixpoint sendable (v : value) : Prop :=
  match v with
  | VInt n | VBool n => int_range n
  | VDouble (DZ z) => -1000000 < z < 1000000
  | VDouble (DTxt _) => False
  | VString s => no_cdata_end s /\ no_nul s
  | VBase64 _ | VDate => False
  | VStruct n ms =>
      n = zlen ms /\ ms <> [] /\
      (fix all l := match l with [] => True | (nm, m) :: r => writable nm /\ sendable m /\ all r end) ms
  | VArray n is =>
      n = zlen is /\
      (fix all l := match l with [] => True | Some m :: r => sendable m /\ all r | None :: _ => False end) is
  | VNone => True
  end.
(** A call whose parameters are all there. *)
Definition call_of (name : bytes) (vs : list value) : call := mkCall name (map Some vs) (List.length vs).
(** As the application builds it: declared with its number of parameters, then filled. *)
Definition build (name : bytes) (vs : list value) : call :=
  fold_left (fun c v => fst (call_add c (Some v))) vs (call_new name (List.length vs)).

(** The responses that arrive as they were sent. *)
Definition answerable (r : resp) : Prop :=
  match r with
  | ROk (VBase64 s) => writable s
  | ROk VNone => False
  | ROk v => sendable v
  | RFault c t => int_range c /\ no_cdata_end t /\ no_nul t
  end.

(** The notation of a number: spaces, a sign, digits. *)
Definition blank (c : Z) : Prop := c = 32 \/ 9 <= c <= 13.
Definition figure (c : Z) : Prop := 48 <= c <= 57.
Inductive notation (s : bytes) (n : Z) : Prop :=
| Notation sp sign ds (SP : Forall blank sp) (FI : Forall figure ds) (NE : ds <> [])
    (SG : (sign = [] /\ n = digits_value ds) \/ (sign = [43] /\ n = digits_value ds) \/ (sign = [45] /\ n = - digits_value ds))
    (EQ : s = sp ++ sign ++ ds).
Definition typed (name : string) (t : bytes) : xml := Elem (ztext "value") [] [] [Elem (ztext name) [] t []].

(** The structs without holes, all the way down. *)
Fixpoint whole (v : value) : Prop :=
  match v with
  | VStruct n ms => n = zlen ms /\ (fix all l := match l with [] => True | (_, m) :: r => whole m /\ all r end) ms
  | VArray n is => n = zlen is /\ (fix all l := match l with [] => True | Some m :: r => whole m /\ all r | None :: r => all r end) is
  | _ => True
  end.
(** The elements every part of which is a value. *)
Fixpoint all_values (t : xml) : Prop :=
  let 'Elem _ _ _ ks := t in
  match ks with
  | Elem cn _ _ kids :: _ =>
      if bytes_eqb cn (ztext "struct") then
        (fix all l := match l with
                      | [] => True
                      | Elem _ _ _ (_ :: v :: _) :: r => parse_value v <> None /\ all_values v /\ all r
                      | _ :: _ => False
                      end) kids
      else if bytes_eqb cn (ztext "array") then
        match kids with
        | Elem _ _ _ items :: _ => (fix all l := match l with [] => True | v :: r => all_values v /\ all r end) items
        | [] => True
        end
      else True
  | [] => True
  end.
