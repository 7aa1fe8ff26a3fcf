(** The data an application attaches to contexts, connections and channels, and who releases it:
    vortex_ctx_set_data_full and get_data (src/vortex_ctx.c 214-255), vortex_connection_set_data_full,
    delete_key_data and get_data (src/vortex_connection.c 5980-5988, 6031-6056, 6155-6164),
    vortex_channel_set_data_full, delete_data and get_data (src/vortex_channel.c 4880-4957), over the
    hash table (src/vortex_hash.c 270-300, 339-356, 492-521, 532-567, 582-601).

    Pointers are numbers, 0 is NULL; a block freed is never given out again.  The content of a string
    does not change.  The table of the axl library is a list: looking for a key reads every key stored (in the
    code those of a bucket).  The mutex, the changes told to who waits for them and allocations that fail are not here: see
    HashModel.  Destroy functions free the block and do nothing else. *)
From Coq Require Import String.
From Verif Require Import Base GreetModel.
Open Scope list_scope.

(** What is stored: key and value, and whether each has a destroy function. *)
Record ent := mkE { e_key : Z; e_kd : bool; e_val : Z; e_vd : bool }.
(** The tables of the holders (contexts, connections, channels) in the order they are created, [None] once released; the blocks freed. *)
Record dst := mkD { d_tabs : list (option (list ent)); d_freed : list Z }.
Definition dst0 : dst := mkD [] [].
Definition live (st : dst) (p : Z) : bool := negb (existsb (Z.eqb p) (d_freed st)).
Definition free_block (st : dst) (p : Z) : outcome dst :=
  if live st p then Ok (mkD (d_tabs st) (d_freed st ++ [p])) else UB.
Fixpoint set_nth {A} (l : list A) (n : nat) (a : A) : list A :=
  match l, n with [], _ => [] | _ :: r, O => a :: r | x :: r, S n => x :: set_nth r n a end.
Definition set_tab (st : dst) (h : nat) (t : option (list ent)) : dst := mkD (set_nth (d_tabs st) h t) (d_freed st).
(** The table of a holder; one released, or that never was, is undefined behaviour. *)
Definition tab (st : dst) (h : nat) : outcome (list ent) :=
  match nth_error (d_tabs st) h with Some (Some t) => Ok t | _ => UB end.
(** The keys stored are read and compared. *)
Definition keys_live (st : dst) (t : list ent) : bool := forallb (fun e => live st (e_key e)) t.
Fixpoint take (str : Z -> bytes) (s : bytes) (t : list ent) : option (ent * list ent) :=
  match t with
  | [] => None
  | e :: r => if bytes_eqb (str (e_key e)) s then Some (e, r)
              else match take str s r with Some (x, r') => Some (x, e :: r') | None => None end
  end.
Definition lookup (str : Z -> bytes) (st : dst) (t : list ent) (s : bytes) : outcome (option (ent * list ent)) :=
  if keys_live st t then Ok (take str s t) else UB.
(** axl_hash_deferred_cleanup. *)
Definition cleanup (st : dst) (e : ent) : outcome dst :=
  let! st := if e_kd e then free_block st (e_key e) else Ok st in
  if e_vd e then free_block st (e_val e) else Ok st.
(** vortex_hash_remove (src/vortex_hash.c 492-521). *)
Definition hremove (str : Z -> bytes) (st : dst) (h : nat) (s : bytes) : outcome dst :=
  let! t := tab st h in
  let! r := lookup str st t s in
  match r with
  | None => Ok st
  | Some (e, t') => cleanup (set_tab st h (Some t')) e
  end.
(** vortex_hash_replace_full (270-300): what was stored is released once the new entry is in. *)
Definition hreplace (str : Z -> bytes) (st : dst) (h : nat) (n : ent) : outcome dst :=
  let! t := tab st h in
  let! r := lookup str st t (str (e_key n)) in
  match r with
  | None => Ok (set_tab st h (Some (t ++ [n])))
  | Some (e, t') => cleanup (set_tab st h (Some (t' ++ [n]))) e
  end.
(** vortex_hash_destroy (532-567), the last reference. *)
Fixpoint cleanup_all (st : dst) (t : list ent) : outcome dst :=
  match t with [] => Ok st | e :: r => let! st := cleanup st e in cleanup_all st r end.

(** What is done.  [OMove h]: a connection that takes the place of [h], as TLS and SASL do (vortex_connection_new_empty_from_connection,
    src/vortex_connection.c 944-957).  [OFree], [OUse]: the application frees or reads a block. *)
Inductive dop :=
| ONew
| OSet (h : nat) (k v : Z) (kd vd : bool)
| ODel (chan : bool) (h : nat) (k : Z)
| OGet (h : nat) (k : Z)
| ORelease (h : nat)
| OMove (h : nat)
| OFree (p : Z)
| OUse (p : Z).
(** A pointer given to the library is read. *)
Definition reads (st : dst) (p : Z) : outcome unit := if (p =? 0) || negb (live st p) then UB else Ok tt.
(** The result is that of get_data, 0 for the others. *)
Definition dstep (str : Z -> bytes) (st : dst) (o : dop) : outcome (dst * Z) :=
  match o with
  | ONew => Ok (mkD (d_tabs st ++ [Some []]) (d_freed st), 0)
  | OSet h k v kd vd =>
      if k =? 0 then Ok (st, 0)
      else
        let! _ := reads st k in
        let! st := if v =? 0 then hremove str st h (str k) else hreplace str st h (mkE k kd v vd) in
        Ok (st, 0)
  | ODel chan h k =>
      if chan && (k =? 0) then Ok (st, 0)
      else
        let! _ := reads st k in
        let! t := tab st h in
        let! r := lookup str st t (str k) in
        match r with
        | None => Ok (st, 0)
        | Some (_, t') => Ok (set_tab st h (Some t'), 0)
        end
  | OGet h k =>
      if k =? 0 then Ok (st, 0)
      else
        let! _ := reads st k in
        let! t := tab st h in
        let! r := lookup str st t (str k) in
        Ok (st, match r with None => 0 | Some (e, _) => e_val e end)
  | ORelease h =>
      let! t := tab st h in
      let! st := cleanup_all st t in
      Ok (set_tab st h None, 0)
  | OMove h =>
      let! t := tab st h in
      let n := List.length (d_tabs st) in
      let! st := hremove str (mkD (set_nth (d_tabs st) h (Some []) ++ [Some t]) (d_freed st)) n (asc "being_closed") in
      Ok (st, 0)
  | OFree p => let! st := free_block st p in Ok (st, 0)
  | OUse p => let! _ := reads st p in Ok (st, 0)
  end.
Fixpoint drun (str : Z -> bytes) (st : dst) (os : list dop) : outcome (dst * list Z) :=
  match os with
  | [] => Ok (st, [])
  | o :: os => let! (st, z) := dstep str st o in let! (st, zs) := drun str st os in Ok (st, z :: zs)
  end.
