(** Independent specification of an HTTP CONNECT reply. *)
From Verif Require Import Base.

(** A line of text: no line feed inside. *)
Definition text (l : bytes) : Prop := ~ In 10 l.
(** The reply of a proxy: status line, header lines, empty line; each one ends
    with CR LF. *)
Definition reply (status : bytes) (headers : list bytes) : bytes :=
  status ++ [13; 10] ++ concat (map (fun h => h ++ [13; 10]) headers) ++ [13; 10].
(** "HTTP/1." then a digit 0 or 1, a space and a 2. *)
Definition is_2xx (status : bytes) : Prop :=
  exists d r, (d = 48 \/ d = 49) /\ status = [72; 84; 84; 80; 47; 49; 46; d; 32; 50] ++ r.
(** The lines of a request, as a proxy splits it. *)
Fixpoint lines_from (acc : bytes) (b : bytes) : list bytes :=
  match b with
  | [] => []
  | c :: b' => if c =? 10 then (acc ++ [c]) :: lines_from [] b' else lines_from (acc ++ [c]) b'
  end.
Definition lines (b : bytes) : list bytes := lines_from [] b.
