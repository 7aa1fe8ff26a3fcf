(** The table of I/O handlers of a context, and the sets of sockets made with it (src/vortex_io.c 918-1635; the reader, src/vortex_reader.c
    735-770, 1365-1485; the other threads that wait, src/vortex_connection.c 1463-1600 and src/vortex_frame_factory.c 1955-2061).

    A set made by the handlers of one mechanism is memory of that mechanism: given to the handlers of another it is undefined behaviour.  What the
    handlers do to the set is in the area Event.  The reader releases its set, waits for the table to change and makes a new one, as in
    __vortex_reader_change_io_mech when no other request comes between (the area Loop has those); here that is one step with the change.
    The have_dispatch of the library returns true, and one of the user is taken to. *)
From Verif Require Import Base.

(** What was compiled in (VORTEX_HAVE_POLL, VORTEX_HAVE_EPOLL, DEFAULT_EPOLL, DEFAULT_POLL). *)
Record build := mkB { k_poll : bool; k_epoll : bool; d_epoll : bool; d_poll : bool }.
Inductive mech := Sel | Pol | Epo.
(** A handler: NULL, of a mechanism, of the user. *)
Inductive hnd := HNull | HOf (m : mech) | HUser (n : nat).
Record tab := mkT { t_create : hnd; t_destroy : hnd; t_clear : hnd; t_wait : hnd; t_add : hnd; t_isset : hnd; t_have : hnd; t_disp : hnd; t_type : Z }.
Definition code (m : mech) : Z := match m with Sel => 1 | Pol => 2 | Epo => 3 end.
(** vortex_io_waiting_is_available (1046-1074). *)
Definition available (k : build) (ty : Z) : bool :=
  if ty =? 1 then true else if ty =? 2 then k_poll k else if ty =? 3 then k_epoll k else false.
(** The assignments of vortex_io_waiting_use (951-1017), one by one, for one mechanism. *)
Inductive slot := SCreate | SDestroy | SClear | SWait | SAdd | SIsSet | SHave | SDisp.
Definition set_slot (t : tab) (x : slot) (h : hnd) : tab :=
  match x with
  | SCreate => mkT h (t_destroy t) (t_clear t) (t_wait t) (t_add t) (t_isset t) (t_have t) (t_disp t) (t_type t)
  | SDestroy => mkT (t_create t) h (t_clear t) (t_wait t) (t_add t) (t_isset t) (t_have t) (t_disp t) (t_type t)
  | SClear => mkT (t_create t) (t_destroy t) h (t_wait t) (t_add t) (t_isset t) (t_have t) (t_disp t) (t_type t)
  | SWait => mkT (t_create t) (t_destroy t) (t_clear t) h (t_add t) (t_isset t) (t_have t) (t_disp t) (t_type t)
  | SAdd => mkT (t_create t) (t_destroy t) (t_clear t) (t_wait t) h (t_isset t) (t_have t) (t_disp t) (t_type t)
  | SIsSet => mkT (t_create t) (t_destroy t) (t_clear t) (t_wait t) (t_add t) h (t_have t) (t_disp t) (t_type t)
  | SHave => mkT (t_create t) (t_destroy t) (t_clear t) (t_wait t) (t_add t) (t_isset t) h (t_disp t) (t_type t)
  | SDisp => mkT (t_create t) (t_destroy t) (t_clear t) (t_wait t) (t_add t) (t_isset t) (t_have t) h (t_type t)
  end.
Definition set_type (t : tab) (ty : Z) : tab := mkT (t_create t) (t_destroy t) (t_clear t) (t_wait t) (t_add t) (t_isset t) (t_have t) (t_disp t) ty.
Inductive write := WSlot (x : slot) (h : hnd) | WType (ty : Z).
Definition apply_write (t : tab) (w : write) : tab := match w with WSlot x h => set_slot t x h | WType ty => set_type t ty end.
Definition writes (m : mech) : list write :=
  [WSlot SCreate (HOf m); WSlot SDestroy (HOf m); WSlot SClear (HOf m); WSlot SWait (HOf m); WSlot SAdd (HOf m)] ++
  match m with
  | Sel => [WSlot SIsSet (HOf m); WSlot SHave HNull; WSlot SDisp HNull]
  | _ => [WSlot SIsSet HNull; WSlot SHave (HOf m); WSlot SDisp (HOf m)]
  end ++ [WType (code m)].
Definition mech_of (ty : Z) : option mech := if ty =? 1 then Some Sel else if ty =? 2 then Some Pol else if ty =? 3 then Some Epo else None.
Definition install (t : tab) (ty : Z) : tab := match mech_of ty with Some m => fold_left apply_write (writes m) t | None => t end.
(** vortex_io_init (1571-1635). *)
Definition whole (m : mech) : tab :=
  match m with
  | Sel => mkT (HOf m) (HOf m) (HOf m) (HOf m) (HOf m) (HOf m) HNull HNull 1
  | Pol => mkT (HOf m) (HOf m) (HOf m) (HOf m) (HOf m) HNull (HOf m) (HOf m) 2
  | Epo => mkT (HOf m) (HOf m) (HOf m) (HOf m) (HOf m) HNull (HOf m) (HOf m) 3
  end.
Definition io_init (k : build) : tab := if d_epoll k then whole Epo else if d_poll k then whole Pol else whole Sel.

(** The sets there are, each with the handler that made it, [None] once released; the set of the reader, if it runs; what each turn of the
    reader could see of its sockets. *)
Record mst := mkM { m_tab : tab; m_sets : list (option hnd); m_reader : option nat; m_seen : list bool }.
Definition ms0 (k : build) : mst := mkM (io_init k) [] None [].
Definition same_hnd (a b : hnd) : bool :=
  match a, b with
  | HOf Sel, HOf Sel | HOf Pol, HOf Pol | HOf Epo, HOf Epo => true
  | HUser n, HUser m => Nat.eqb n m
  | _, _ => false
  end.
(** vortex_io_waiting_invoke_create_fd_group (1128-1140). *)
Definition make_set (s : mst) : mst * option nat :=
  match t_create (m_tab s) with
  | HNull => (s, None)
  | h => (mkM (m_tab s) (m_sets s ++ [Some h]) (m_reader s) (m_seen s), Some (List.length (m_sets s)))
  end.
(** A handler called with a set: the functions vortex_io_waiting_invoke_* (1179-1563), which do nothing without a handler. *)
Definition call (s : mst) (h : hnd) (g : nat) : outcome unit :=
  match h with
  | HNull => Ok tt
  | h => match nth_error (m_sets s) g with Some (Some h') => if same_hnd h h' then Ok tt else UB | _ => UB end
  end.
Fixpoint free_set (l : list (option hnd)) (g : nat) : list (option hnd) :=
  match l, g with [], _ => [] | _ :: r, O => None :: r | x :: r, S g => x :: free_set r g end.
(** vortex_io_waiting_invoke_destroy_fd_group (1179-1198). *)
Definition destroy (s : mst) (g : nat) : outcome mst :=
  let! _ := call s (t_destroy (m_tab s)) g in
  match t_destroy (m_tab s) with HNull => Ok s | _ => Ok (mkM (m_tab s) (free_set (m_sets s) g) (m_reader s) (m_seen s)) end.
Definition use_set (s : mst) (g : nat) : outcome unit :=
  let! _ := call s (t_clear (m_tab s)) g in
  let! _ := call s (t_add (m_tab s)) g in
  call s (t_wait (m_tab s)) g.
Definition with_tab (s : mst) (t : tab) : mst := mkM t (m_sets s) (m_reader s) (m_seen s).
Definition with_reader (s : mst) (r : option nat) : mst := mkM (m_tab s) (m_sets s) r (m_seen s).
(** vortex_io_waiting_use (918-1036), with the result. *)
Definition io_use (k : build) (s : mst) (ty : Z) : outcome (mst * bool) :=
  if negb (available k ty) then Ok (s, false)
  else if ty =? t_type (m_tab s) then Ok (s, true)
  else
    match m_reader s with
    | None => Ok (with_tab s (install (m_tab s) ty), true)
    | Some g =>
        let! s := destroy s g in
        let '(s, r) := make_set (with_tab s (install (m_tab s) ty)) in
        Ok (with_reader s r, true)
    end.

(** [MRun], the reader starts; [MTurn], one turn of its loop; [MSet], a function vortex_io_waiting_set_*, [None] being NULL; [MOpen], [MWait] and
    [MShut], another thread makes a set, waits with it and releases it. *)
Inductive mop := MRun | MTurn | MUse (ty : Z) | MSet (x : slot) (n : option nat) | MOpen | MWait (g : nat) | MShut (g : nat).
Definition mstep (k : build) (s : mst) (o : mop) : outcome mst :=
  match o with
  | MRun => match m_reader s with Some _ => Ok s | None => let '(s, r) := make_set s in Ok (with_reader s r) end
  | MTurn =>  (* 1399-1471, with a socket that changed *)
      match m_reader s with
      | None => Ok s
      | Some g =>
          let! _ := use_set s g in
          let t := m_tab s in
          let! seen := (match t_have t with
                        | HNull => let! _ := call s (t_isset t) g in Ok (match t_isset t with HNull => false | _ => true end)
                        | h => let! _ := call s h g in let! _ := call s (t_disp t) g in Ok (match t_disp t with HNull => false | _ => true end)
                        end) in
          Ok (mkM t (m_sets s) (m_reader s) (m_seen s ++ [seen]))
      end
  | MUse ty => let! (s, _) := io_use k s ty in Ok s
  | MSet x None => Ok s
  | MSet x (Some n) => Ok (with_tab s (set_slot (m_tab s) x (HUser n)))
  | MOpen => Ok (fst (make_set s))
  | MWait g => let! _ := use_set s g in Ok s
  | MShut g => destroy s g
  end.
Fixpoint mrun (k : build) (s : mst) (os : list mop) : outcome mst :=
  match os with [] => Ok s | o :: os => let! s := mstep k s o in mrun k s os end.
