(** The management messages of channel 0: how they are written
    (src/vortex_frame_factory.c 2883-2919, 2963-3053), how their kind is told and how
    their values are read (src/vortex_channel.c 5333-5399, 6768-6905, 7394-7424,
    7792-7845).

    A document is a tree: [axl_doc_parse] is AXL's, given as an argument, as is
    the answer of the DTD.  The content of an element is its character data,
    empty if there is none.  Strings of C are lists of octets without zero.
    A null pointer given to atoi and an atoi out of the range of int are
    undefined behaviour. *)
From Coq Require Import String.
From Verif Require Import Base CodecModel MimeModel GreetModel.
Open Scope list_scope.

Inductive xml := Elem (name : bytes) (attrs : list (bytes * bytes)) (text : bytes) (kids : list xml).
Definition x_name (t : xml) : bytes := let 'Elem n _ _ _ := t in n.
Definition x_attrs (t : xml) : list (bytes * bytes) := let 'Elem _ a _ _ := t in a.
Definition x_text (t : xml) : bytes := let 'Elem _ _ c _ := t in c.
Definition x_kids (t : xml) : list xml := let 'Elem _ _ _ k := t in k.
(** axl_node_get_attribute_value *)
Fixpoint attr_in (l : list (bytes * bytes)) (name : bytes) : option bytes :=
  match l with
  | [] => None
  | (n, v) :: r => if bytes_eqb n name then Some v else attr_in r name
  end.
Definition attr (t : xml) (name : string) : option bytes := attr_in (x_attrs t) (asc name).

(** * Writing *)

(** printf with %d *)
Fixpoint dec_of (fuel : nat) (n : Z) (acc : bytes) : bytes :=
  match fuel with
  | O => acc
  | S f => let acc := 48 + n mod 10 :: acc in if n <? 10 then acc else dec_of f (n / 10) acc
  end.
Definition dec (n : Z) : bytes := if n <? 0 then 45 :: dec_of 11 (- n) [] else dec_of 11 n [].
(** A string given to %s or printed if it is not NULL. *)
Definition opt (before : string) (v : option bytes) (after : string) : bytes :=
  match v with Some s => asc before ++ s ++ asc after | None => [] end.

Inductive encoding := EncNone | EncBase64 | EncUnknown.

(** vortex_frame_get_ok_message (2883, 2890-2895). *)
Definition ok_message : bytes := asc "<ok />".
(** vortex_frame_get_error_message (2907-2919) *)
Definition error_message (code : bytes) (content lang : option bytes) : bytes :=
  asc "<error code='" ++ code ++ asc "'" ++ opt " xml:lang='" lang "' " ++
  match content with
  | None => asc " />" ++ crlf
  | Some c => asc " >" ++ c ++ asc "</error>" ++ crlf
  end.
(** vortex_frame_get_start_message (2976-2999).  [content] is the memory at the
    pointer given: what is written ends at its first zero, whatever the size
    given is. *)
Definition start_message (n : Z) (server : option bytes) (profile : bytes) (e : encoding) (content : option bytes) : bytes :=
  asc "<start number='" ++ dec n ++ asc "'" ++ opt " serverName='" server "'" ++ asc ">" ++ crlf ++
  asc "   <profile uri='" ++ profile ++ asc "'" ++ match e with EncBase64 => asc " encoding='base64'" | _ => [] end ++
  match content with
  | None => asc " />" ++ crlf
  | Some c => asc ">" ++ asc "<![CDATA[" ++ cstr c ++ asc "]]>" ++ asc "</profile>" ++ crlf
  end ++ asc "</start>" ++ crlf.
(** vortex_frame_get_close_message (3015-3029) *)
Definition close_message (n : Z) (code : bytes) (lang content : option bytes) : bytes :=
  asc "<close number='" ++ dec n ++ asc "' code='" ++ code ++ asc "'" ++ opt " xml:lang='" lang "' " ++
  match content with
  | None => asc " />" ++ crlf
  | Some c => asc " >" ++ c ++ asc "</close>" ++ crlf
  end.
(** vortex_frame_get_start_rpy_message (3040-3050) *)
Definition start_reply (profile : bytes) (content : option bytes) : bytes :=
  asc "<profile uri='" ++ profile ++ asc "'" ++
  match content with
  | None => asc " />" ++ crlf
  | Some c => asc " >" ++ asc "<![CDATA[" ++ cstr c ++ asc "]]>" ++ asc "</profile>" ++ crlf
  end.

(** * Reading *)

(** atoi *)
Fixpoint skip_space (s : bytes) : bytes :=
  match s with c :: r => if (c =? 32) || (9 <=? c) && (c <=? 13) then skip_space r else s | [] => [] end.
Fixpoint leading_digits (s : bytes) : bytes :=
  match s with c :: r => if (48 <=? c) && (c <=? 57) then c :: leading_digits r else [] | [] => [] end.
Definition atoi (s : bytes) : outcome Z :=
  let s := skip_space s in
  let '(neg, s) := match s with
                   | 45 :: r => (true, r)
                   | 43 :: r => (false, r)
                   | _ => (false, s)
                   end in
  let v := digits_value (leading_digits s) in
  let v := if neg then - v else v in
  if (- two31 <=? v) && (v <? two31) then Ok v else UB.

Inductive kind := KStart | KClose | KError | KOk | KUnknown.
Fixpoint starts_with (p s : bytes) : bool :=
  match p, s with
  | [], _ => true
  | x :: p', y :: s' => (x =? y) && starts_with p' s'
  | _, [] => false
  end.
(** __vortex_channel_0_frame_received_identify_type (6780-6834): the first
    octets decide, then the name of the root.  The comparison (axl_memcmp)
    stops at the first difference, which the zero after the payload is.  The
    second value tells if an error 500 was sent. *)
Definition identify (payload : bytes) (doc : option xml) : kind * bool :=
  if starts_with (asc "<start") payload then (KStart, false)
  else if starts_with (asc "<close") payload then (KClose, false)
  else if starts_with (asc "<error") payload then (KError, false)
  else if starts_with (asc "<ok") payload then (KOk, false)
  else match doc with
       | None => (KUnknown, true)
       | Some t =>
           let is n := bytes_eqb (x_name t) (asc n) in
           (if is "ok"%string then KOk else if is "error"%string then KError else if is "close"%string then KClose
            else if is "start"%string then KStart else KUnknown, false)
       end.

(** __vortex_channel_0_frame_received_get_start_param (6844-6905) *)
Record start_param := mkSP {
  sp_number : Z; sp_profile : option bytes; sp_content : bytes; sp_server : option bytes; sp_enc : encoding
}.
Definition read_encoding (v : option bytes) : encoding :=
  match v with
  | None => EncNone
  | Some e => if bytes_eqb e (asc "none") then EncNone else if bytes_eqb e (asc "base64") then EncBase64 else EncUnknown
  end.
Definition get_start (doc : option xml) : outcome (option start_param) :=
  match doc with
  | None => Ok None
  | Some t =>
      match attr t "number" with
      | None => UB
      | Some v =>
          let! n := atoi v in
          (* without children the node is NULL, and so is what AXL reads from it *)
          match x_kids t with
          | [] => Ok (Some (mkSP n None [] (attr t "serverName") EncNone))
          | p :: _ => Ok (Some (mkSP n (attr p "uri") (x_text p) (attr t "serverName") (read_encoding (attr p "encoding"))))
          end
      end
  end.
(** __vortex_channel_0_frame_received_get_close_param (7394-7424) *)
Definition get_close (doc : option xml) : outcome (option (Z * option bytes)) :=
  match doc with
  | None => Ok None
  | Some t => match attr t "number" with
              | None => UB
              | Some v => let! n := atoi v in Ok (Some (n, attr t "code"))
              end
  end.
(** vortex_channel_validate_err (5333-5399); [dtd] is the answer of the DTD. *)
Definition validate_err (doc : option xml) (dtd : bool) : option (option bytes * bytes) :=
  match doc with
  | None => None
  | Some t => if dtd && bytes_eqb (x_name t) (asc "error") then Some (attr t "code", x_text t) else None
  end.

(** vortex_channel_0_frame_received (7792-7845): what is done with a message of
    channel 0.  The validation is commented out in the code (7811-7813). *)
Inductive act :=
| AStart (p : start_param) | AClose (n : Z)
| AErr (code : Z) | AShut | ANothing.
Definition received (payload : bytes) (doc : option xml) : outcome (list act) :=
  match identify payload doc with
  | (KStart, _) => let! p := get_start doc in Ok (match p with Some p => [AStart p] | None => [AErr 500] end)
  | (KClose, _) => let! p := get_close doc in Ok (match p with Some (n, _) => [AClose n] | None => [AErr 500] end)
  | (KOk, _) | (KError, _) => Ok [ANothing]
  | (KUnknown, e) => Ok ((if e then [AErr 500] else []) ++ [AShut])
  end.
