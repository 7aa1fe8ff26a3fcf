(** What the headers of a frame are after some calls, stated from the calls. *)
From Coq Require Import String.
From Verif Require Import Base MimeSpec HdrModel.
Open Scope list_scope.

Notation header := (bytes * bytes)%type (only parsing).

(** The headers that can be told apart only by their last value: the five the
    library keeps a reference to. *)
Definition usual_names : list bytes :=
  map ztext ["content-type"; "content-transfer-encoding"; "mime-version"; "content-id"; "content-description"]%string.
Definition is_usual (name : bytes) : bool := existsb (same_name name) usual_names.

(** The values the application sees for a name. *)
Definition seen_step (name : bytes) (l : list header) (o : hop) : list header :=
  match o with
  | HSet n c => if same_name name n then (if is_usual name then [(n, c)] else l ++ [(n, c)]) else l
  | HDel n => if same_name name n then firstn 1 l else l
  end.
Definition seen (os : list hop) (name : bytes) : list header := fold_left (seen_step name) os [].

(** The size of the headers the frame reports. *)
Fixpoint hsize (done : list hop) (size : Z) (os : list hop) : Z :=
  match os with
  | [] => size
  | o :: r =>
      hsize (done ++ [o])
        (match o with
         | HSet n c => size + zlen n + zlen c + (if size =? 0 then 4 else 2)
         | HDel n =>
             match seen done n with
             | [] => size
             | (_, c) :: _ => let z := size - (zlen n + zlen c + 2) in if z =? 2 then 0 else z
             end
         end) r
  end.
Definition size_after (os : list hop) : Z := hsize [] 0 os.

(** No size on the way leaves the range of an int. *)
Definition fits (os : list hop) : Prop := forall a b, os = a ++ b -> - two31 <= size_after a < two31.

Definition no_removal (os : list hop) : Prop := forall n, ~ In (HDel n) os.

(** The values given to a name, in the order of the calls. *)
Definition given (os : list hop) (name : bytes) : list header :=
  flat_map (fun o => match o with HSet n c => if same_name name n then [(n, c)] else [] | HDel _ => [] end) os.

(** The text of a header block: a line for each header and an empty line. *)
Definition block (hs : list header) : bytes :=
  flat_map (fun h => fst h ++ ztext ": " ++ snd h ++ [13; 10]) hs ++ [13; 10].

(** The lengths of the headers set, two more for each. *)
Definition hsum (os : list hop) : Z :=
  fold_right (fun o a => match o with HSet n c => zlen n + zlen c + 2 | HDel _ => 0 end + a) 0 os.
