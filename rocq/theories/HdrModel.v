(** The MIME headers an application puts on a frame: the header nodes and their
    two links, vortex_frame_set_mime_header, vortex_frame_get_mime_header and
    the functions that walk over the headers found
    (src/vortex_frame_factory.c 64-224, 3389-3640).

    The nodes are kept in a table and the pointers between them are positions in
    that table, so that the sharing of a node by a chain and by a fast reference
    is the one of the code.  The memory of the nodes is never reused
    (axl_factory_get), and it always succeeds. *)
From Verif Require Import Base MimeModel.

(** struct _VortexMimeHeader (64-78). *)
Record hnode := mkHN { n_name : bytes; n_content : bytes; n_next : option nat; n_nh : option nat }.

(** struct _VortexMimeStatus (80-105): the nodes made so far, [first] and the
    five references to the usual headers, in the order of [fast_names]. *)
Record hst := mkHS { h_nodes : list hnode; h_first : option nat; h_fast : list (option nat) }.
(** vortex_frame_mime_status_new (111-141). *)
Definition h_new : hst := mkHS [] None [None; None; None; None; None].

(** Which of the usual headers a name is (180-188, 199-208). *)
Fixpoint fast_index (name : bytes) (l : list bytes) : option nat :=
  match l with
  | [] => None
  | k :: r => if casecmp name k then Some O else option_map S (fast_index name r)
  end.
Definition usual (name : bytes) : option nat := fast_index name fast_names.

Fixpoint upd_nth {A} (l : list A) (i : nat) (x : A) : list A :=
  match l, i with
  | [], _ => []
  | _ :: r, O => x :: r
  | y :: r, S j => y :: upd_nth r j x
  end.

(** The walk over [next_header] (211-220).  A reference to a node that does not
    exist is undefined behaviour; [None] is a walk that does not end. *)
Fixpoint walk_headers (fuel : nat) (s : hst) (p : option nat) (name : bytes) : outcome (option (option nat)) :=
  match p with
  | None => Ok (Some None)
  | Some i =>
      match fuel with
      | O => Ok None
      | S f =>
          match nth_error (h_nodes s) i with
          | None => UB
          | Some n => if casecmp name (n_name n) then Ok (Some (Some i)) else walk_headers f s (n_nh n) name
          end
      end
  end.

(** vortex_frame_mime_find (194-224). *)
Definition h_find (s : hst) (name : bytes) : outcome (option (option nat)) :=
  match usual name with
  | Some k => match nth_error (h_fast s) k with Some r => Ok (Some r) | None => UB end
  | None => walk_headers (S (length (h_nodes s))) s (h_first s) name
  end.

(** The walk to the last node over [next] (3121-3124, 3438-3440). *)
Fixpoint last_of (fuel : nat) (s : hst) (i : nat) : outcome (option nat) :=
  match fuel with
  | O => Ok None
  | S f =>
      match nth_error (h_nodes s) i with
      | None => UB
      | Some n => match n_next n with Some j => last_of f s j | None => Ok (Some i) end
      end
  end.

(** vortex_frame_mime_check_and_update_fast_ref (177-192). *)
Definition update_fast (s : hst) (i : nat) (name : bytes) : hst :=
  match usual name with
  | Some k => mkHS (h_nodes s) (h_first s) (upd_nth (h_fast s) k (Some i))
  | None => s
  end.

(** A header stored (3428-3468; the parser does the same at 3113-3136 and
    3182-3196): a first header goes before the others, a header that was there
    gets the new one after its last. *)
Definition h_store (s : hst) (name content : bytes) : outcome (option hst) :=
  let! r := h_find s name in
  match r with
  | None => Ok None
  | Some None =>
      let i := length (h_nodes s) in
      Ok (Some (update_fast (mkHS (h_nodes s ++ [mkHN name content None (h_first s)]) (Some i) (h_fast s)) i name))
  | Some (Some j) =>
      let! l := last_of (S (length (h_nodes s))) s j in
      match l with
      | None => Ok None
      | Some k =>
          match nth_error (h_nodes s) k with
          | None => UB
          | Some n =>
              let i := length (h_nodes s) in
              Ok (Some (update_fast
                (mkHS (upd_nth (h_nodes s) k (mkHN (n_name n) (n_content n) (Some i) (n_nh n))
                       ++ [mkHN name content None None])
                      (h_first s) (h_fast s)) i name))
          end
      end
  end.

Definition int_sum (a b : Z) : outcome Z :=
  if (- two31 <=? a + b) && (a + b <? two31) then Ok (a + b) else UB.

(** vortex_frame_set_mime_header with a content (3428-3476): the header is
    stored and [mime_headers_size] grows by the two lengths and 2, and by 2 more
    if it was 0. *)
Definition h_set (s : hst) (size : Z) (name content : bytes) : outcome (option (hst * Z)) :=
  let! r := h_store s name content in
  match r with
  | None => Ok None
  | Some s' =>
      let! z := int_sum size (zlen name + zlen content + 2 + (if size =? 0 then 2 else 0)) in
      Ok (Some (s', z))
  end.

(** vortex_frame_set_mime_header without content, the request to remove the
    header (3403-3425): what it does to the node found is to clear its [next];
    the size shrinks, and if 2 are left it becomes 0. *)
Definition h_remove (s : hst) (size : Z) (name : bytes) : outcome (option (hst * Z)) :=
  let! r := h_find s name in
  match r with
  | None => Ok None
  | Some None => Ok (Some (s, size))
  | Some (Some j) =>
      match nth_error (h_nodes s) j with
      | None => UB
      | Some n =>
          let! z := int_sum size (- (zlen name + zlen (n_content n) + 2)) in
          Ok (Some (mkHS (upd_nth (h_nodes s) j (mkHN (n_name n) (n_content n) None (n_nh n)))
                         (h_first s) (h_fast s),
                    if z =? 2 then 0 else z))
      end
  end.

(** One call of vortex_frame_set_mime_header. *)
Inductive hop := HSet (name content : bytes) | HDel (name : bytes).
Definition h_op (s : hst) (size : Z) (o : hop) : outcome (option (hst * Z)) :=
  match o with HSet n c => h_set s size n c | HDel n => h_remove s size n end.
Fixpoint h_run (s : hst) (size : Z) (os : list hop) : outcome (option (hst * Z)) :=
  match os with
  | [] => Ok (Some (s, size))
  | o :: r =>
      let! x := h_op s size o in
      match x with None => Ok None | Some (s', z) => h_run s' z r end
  end.

(** What the application sees from a node on: vortex_frame_mime_header_name and
    _content of the node and of each one vortex_frame_mime_header_next gives
    (3557-3616). *)
Fixpoint h_walk (fuel : nat) (s : hst) (p : option nat) : outcome (option (list (bytes * bytes))) :=
  match p with
  | None => Ok (Some [])
  | Some i =>
      match fuel with
      | O => Ok None
      | S f =>
          match nth_error (h_nodes s) i with
          | None => UB
          | Some n =>
              let! r := h_walk f s (n_next n) in
              match r with None => Ok None | Some l => Ok (Some ((n_name n, n_content n) :: l)) end
          end
      end
  end.
(** vortex_frame_get_mime_header (3532-3546) and the walk after it. *)
Definition h_get (s : hst) (name : bytes) : outcome (option (list (bytes * bytes))) :=
  let! r := h_find s name in
  match r with None => Ok None | Some p => h_walk (S (length (h_nodes s))) s p end.

(** vortex_frame_mime_header_count (3628-3642). *)
Fixpoint h_count (fuel : nat) (s : hst) (i : nat) (count : Z) : outcome (option Z) :=
  match fuel with
  | O => Ok None
  | S f =>
      match nth_error (h_nodes s) i with
      | None => UB
      | Some n => match n_next n with Some j => h_count f s j (count + 1) | None => Ok (Some count) end
      end
  end.
Definition h_get_count (s : hst) (name : bytes) : outcome (option Z) :=
  let! r := h_find s name in
  match r with
  | None => Ok None
  | Some None => Ok (Some (-1))
  | Some (Some i) => h_count (S (length (h_nodes s))) s i 1
  end.
