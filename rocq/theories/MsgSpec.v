(** Reading a document: the part of XML the management messages need, without
    prolog, comments, processing instructions and entities. *)
From Coq Require Import String.
From Verif Require Import Base CodecModel MimeModel MimeSpec MsgModel.
Open Scope list_scope.

Definition space (c : Z) : bool := (c =? 32) || (c =? 9) || (c =? 10) || (c =? 13).
(** What may be in a name: anything but spaces and the characters of the markup. *)
Definition markup : bytes := ztext "=<>/&[]!?'" ++ [34].
Definition in_name (c : Z) : bool := negb (space c) && negb (existsb (Z.eqb c) markup) && (0 <? c).

Fixpoint drop_spaces (s : bytes) : bytes :=
  match s with c :: r => if space c then drop_spaces r else s | [] => [] end.
Fixpoint name_of (s : bytes) : bytes * bytes :=
  match s with
  | c :: r => if in_name c then let (n, k) := name_of r in (c :: n, k) else ([], s)
  | [] => ([], [])
  end.
(** The value of an attribute up to its quote; "<" and "&" are not allowed. *)
Fixpoint value_of (q : Z) (s : bytes) : option (bytes * bytes) :=
  match s with
  | [] => None
  | c :: r => if c =? q then Some ([], r)
              else if (c =? 60) || (c =? 38) || (c =? 0) then None
              else match value_of q r with Some (v, k) => Some (c :: v, k) | None => None end
  end.
(** Character data up to the markup. *)
Fixpoint text_of (s : bytes) : option (bytes * bytes) :=
  match s with
  | [] => None
  | c :: r => if c =? 60 then Some ([], s)
              else if (c =? 38) || (c =? 0) then None
              else match text_of r with Some (v, k) => Some (c :: v, k) | None => None end
  end.
(** A CDATA section up to its end. *)
Fixpoint cdata_of (s : bytes) : option (bytes * bytes) :=
  match s with
  | [] => None
  | c :: r => match s with
              | 93 :: 93 :: 62 :: k => Some ([], k)
              | _ => if c =? 0 then None else match cdata_of r with Some (v, k) => Some (c :: v, k) | None => None end
              end
  end.
Fixpoint strip (p s : bytes) : option bytes :=
  match p, s with
  | [], _ => Some s
  | x :: p', y :: s' => if x =? y then strip p' s' else None
  | _, [] => None
  end.

(** The attributes up to the end of the tag; whether the element is empty. *)
Fixpoint attrs_of (fuel : nat) (s : bytes) : option (list (bytes * bytes) * bool * bytes) :=
  match fuel with
  | O => None
  | S f =>
      match drop_spaces s with
      | 47 :: 62 :: k => Some ([], true, k)
      | 62 :: k => Some ([], false, k)
      | _ :: _ =>
          match s with
          | d :: _ =>
              if space d then
                match name_of (drop_spaces s) with
                | ([], _) => None
                | (n, 61 :: q :: k) =>
                    if (q =? 39) || (q =? 34) then
                      match value_of q k with
                      | Some (v, k') =>
                          match attrs_of f k' with
                          | Some (l, e, k'') =>
                              if existsb (bytes_eqb n) (map fst l) then None else Some ((n, v) :: l, e, k'')
                          | None => None
                          end
                      | None => None
                      end
                    else None
                | _ => None
                end
              else None
          | [] => None
          end
      | [] => None
      end
  end.

Fixpoint elem_of (fuel : nat) (s : bytes) : option (xml * bytes) :=
  match fuel with
  | O => None
  | S f =>
      match s with
      | 60 :: r =>
          match name_of r with
          | ([], _) => None
          | (n, k) =>
              match attrs_of f k with
              | Some (l, true, k') => Some (Elem n l [] [], k')
              | Some (l, false, k') =>
                  match items_of f k' with
                  | Some (c, ks, k'') =>
                      match strip (n ++ [62]) k'' with
                      | Some k3 => Some (Elem n l c ks, k3)
                      | None => None
                      end
                  | None => None
                  end
              | None => None
              end
          end
      | _ => None
      end
  end
(** The content of an element up to its closing tag. *)
with items_of (fuel : nat) (s : bytes) : option (bytes * list xml * bytes) :=
  match fuel with
  | O => None
  | S f =>
      match strip (ztext "</") s with
      | Some k => Some ([], [], k)
      | None =>
          match strip (ztext "<![CDATA[") s with
          | Some k =>
              match cdata_of k with
              | Some (c, k') => match items_of f k' with Some (c', ks, k'') => Some (c ++ c', ks, k'') | None => None end
              | None => None
              end
          | None =>
              match s with
              | 60 :: _ =>
                  match elem_of f s with
                  | Some (t, k) => match items_of f k with Some (c', ks, k') => Some (c', t :: ks, k') | None => None end
                  | None => None
                  end
              | _ =>
                  match text_of s with
                  | Some (c, k) => match items_of f k with Some (c', ks, k') => Some (c ++ c', ks, k') | None => None end
                  | None => None
                  end
              end
          end
      end
  end.

(** The document: one element, with spaces around. *)
Definition xml_of (s : bytes) : option xml :=
  match elem_of (S (List.length s)) (drop_spaces s) with
  | Some (t, k) => match drop_spaces k with [] => Some t | _ => None end
  | None => None
  end.

(** Values that can be written between quotes, as text and in a CDATA section. *)
Definition quotable (v : bytes) : Prop := forall c, In c v -> c <> 39 /\ c <> 60 /\ c <> 38 /\ c <> 0.
Definition quotable_o (v : option bytes) : Prop := match v with Some s => quotable s | None => True end.
Definition writable (v : bytes) : Prop := forall c, In c v -> c <> 60 /\ c <> 38 /\ c <> 0.
Definition no_cdata_end (v : bytes) : Prop := ~ exists a b, v = a ++ [93; 93; 62] ++ b.
Definition no_nul (v : bytes) : Prop := ~ In 0 v.
Definition or_empty (v : option bytes) : bytes := match v with Some s => s | None => [] end.
Definition cdata_ok (c : option bytes) : Prop := match c with Some x => no_cdata_end x /\ no_nul x | None => True end.
Definition writable_o (c : option bytes) : Prop := match c with Some x => writable x | None => True end.

(** The kind of a message by the name of its element. *)
Definition kind_name (k : kind) : bytes :=
  match k with
  | KStart => ztext "start" | KClose => ztext "close" | KError => ztext "error" | KOk => ztext "ok"
  | KUnknown => []
  end.
(** A request whose channel number is the decimal notation of an int. *)
Definition number_is (t : xml) (n : Z) : Prop :=
  exists ds, attr t "number" = Some ds /\ ds <> [] /\ (forall c, In c ds -> 48 <= c <= 57) /\ digits_value ds = n /\ n < two31.
(** What is done with a message of channel 0 given as octets. *)
Definition got (m : bytes) : outcome (list act) := received m (xml_of m).
