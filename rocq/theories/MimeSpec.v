(** What a MIME entity is, stated without the parser. *)
From Coq Require Import String Ascii.
From Verif Require Import Base.

Definition ztext (s : string) : bytes := map (fun a => Z.of_N (N_of_ascii a)) (list_ascii_of_string s).

Definition field_char (c : Z) : Prop := 33 <= c <= 126 /\ c <> 58.
Definition field_name (n : bytes) : Prop := Forall field_char n /\ zlen n < 995.
Definition wsp (c : Z) : Prop := c = 32 \/ c = 9.

(** A line ends at the start of [b]: CR LF or LF, and the next line is not a
    continuation. *)
Definition line_end (b : bytes) : Prop :=
  (exists c r, b = 13 :: 10 :: c :: r /\ ~ wsp c) \/ (exists c r, b = 10 :: c :: r /\ ~ wsp c).

(** [v] is the value of a field: the first line end of [v ++ rest] is at [rest]. *)
Definition field_value (v rest : bytes) : Prop :=
  line_end rest /\ forall a b, v ++ rest = a ++ b -> (List.length a < List.length v)%nat -> ~ line_end b.

Definition eol (t : bytes) : Prop := t = [13; 10] \/ t = [10].

(** [entity c hs body]: the content [c] is the fields [hs], an empty line and
    the body. *)
Inductive entity : bytes -> list (bytes * bytes) -> bytes -> Prop :=
| en_body : forall t body, eol t -> entity (t ++ body) [] body
| en_field : forall name v t rest hs body,
    field_name name -> eol t -> field_value v (t ++ rest) -> entity rest hs body ->
    entity (name ++ 58 :: v ++ t ++ rest) ((name, v) :: hs) body.

(** The values of a field, in the order they appear. *)
Definition low (c : Z) : Z := if (65 <=? c) && (c <=? 90) then c + 32 else c.
Definition same_name (a b : bytes) : bool := bytes_eqb (map low a) (map low b).
Definition values (hs : list (bytes * bytes)) (name : bytes) : list (bytes * bytes) :=
  filter (fun h => same_name name (fst h)) hs.

(** The text of a value: up to a zero byte, without the blanks around it. *)
Definition blank (c : Z) : Prop := c = 32 \/ c = 9 \/ c = 13 \/ c = 10.
Definition no_nul (v : bytes) : Prop := Forall (fun c => c <> 0) v.
Definition text_of (v t : bytes) : Prop :=
  no_nul v -> exists a z, v = a ++ t ++ z /\ Forall blank a /\ Forall blank z /\
  (t = [] \/ (exists c r, t = c :: r /\ ~ blank c) /\ (exists c r, t = r ++ [c] /\ ~ blank c)).

(** The fields with a fixed meaning in MIME. *)
Definition usual_fields : list bytes :=
  map ztext ["content-type"; "content-transfer-encoding"; "mime-version"; "content-id"; "content-description"]%string.
Definition usual (name : bytes) : Prop := exists u, In u usual_fields /\ same_name name u = true.

(** A found header is a field with its text. *)
Definition shows (field got : bytes * bytes) : Prop := fst got = fst field /\ text_of (snd field) (snd got).
