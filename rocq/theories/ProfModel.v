(** The registry of profiles (src/vortex_profiles.c:46-187, 309-476, 638-687,
    1131-1152, 1203-1315, 1413-1429) and how a start request, the close of a
    channel, a frame received at the first level and a greeting use it (711-859,
    872-887, 896-1118; src/vortex_greetings.c:119-180).

    A step is an access to a field of a profile that is shared between threads,
    or a critical section of a mutex.  The mutex of the list
    (profiles_list_mutex) is followed; the one of the table is held only inside
    a step.  Reading or writing a profile whose memory was released is
    undefined behaviour; two accesses at the same time to a field are not, as if
    words were atomic.  A profile starts with its memory at zero (axl_new).
    Names are identified by numbers, as are the functions and the data of the
    application.  Reference counts have no upper limit.  MIME settings are in
    HeadModel.  AXL keeps the list in the order of insertion; the order of the
    table is not observable here.  A profile that is new for
    vortex_profiles_register_extended_start has its default handlers before any
    other thread finds it (the code puts it in the table at 664 and sets them at
    667-668).  Masks and the size of the buffer of a greeting are in GreetModel. *)
From Verif Require Import Base HdrModel.

(** A function: the default one of the library (184-202) or one of the application. *)
Inductive fn := FDefault | FApp (f : Z).
(** VortexProfile (46-62) *)
Record prof := mkP {
  p_uri : Z;
  p_start : fn; p_start_d : Z;
  p_ext : option Z; p_ext_d : Z;
  p_close : fn; p_close_d : Z;
  p_recv : option Z; p_recv_d : Z;
  p_ref : Z
}.
(** The arguments of vortex_profiles_register: None is a null pointer. *)
Record args := mkA {
  a_start : option Z; a_start_d : Z; a_close : option Z; a_close_d : Z; a_recv : option Z; a_recv_d : Z
}.
Definition or_default (f : option Z) : fn := match f with Some f => FApp f | None => FDefault end.

Inductive call :=
| CRegister (u : Z) (a : args)
| CExt (u : Z) (f : option Z) (d : Z)
| CSetRecv (u : Z) (f : option Z) (d : Z)
| CUnreg (u : Z)
| CStart (u : Z)            (* vortex_profiles_invoke_start *)
| CClose (u : Z)            (* vortex_profiles_invoke_close *)
| CFrame (u : Z)            (* vortex_profiles_invoke_frame_received *)
| CIsReg (u : Z)
| CIsStart (u : Z)
| CIsClose (u : Z)
| CIsRecv (u : Z)
| CGreet.                   (* the profiles written in a greeting *)

(** Where a thread is; [i] is the profile it has a pointer to. *)
Inductive ph :=
| RUpd (i : nat) (k : nat) (a : args)        (* 367-372, before the write number k *)
| XSet (i : nat) (f : option Z) (d : Z)      (* 680 *)
| XSetD (i : nat) (d : Z)                    (* 681 *)
| VSet (i : nat) (f : option Z) (d : Z)      (* 426 *)
| VSetD (i : nat) (d : Z)                    (* 427 *)
| UDrop (i : nat)                            (* the release of vortex_hash_remove *)
| S1 (i : nat)                               (* 740 *)
| S2 (i : nat) (e : option Z)                (* 741 *)
| S3 (i : nat) (e : option Z) (d : Z)        (* 742 *)
| S4 (i : nat) (e : option Z) (d : Z) (st : fn) (* 745-773 *)
| SRun (i : nat)                             (* inside the handler *)
| K1 (i : nat)                               (* 849 *)
| K2 (i : nat) (f : fn)                      (* 850 *)
| KRun (i : nat)
| F1 (i : nat)                               (* 1051 *)
| F2 (i : nat)                               (* the task: 912-913 *)
| F3 (i : nat) (f : Z)                       (* 914 *)
| FRun (i : nat)
| D1 (i : nat)                               (* 816 *)
| DC (i : nat)                               (* 886 *)
| DR (i : nat)                               (* 1148-1149 *)
| GNext (k : nat)                            (* src/vortex_greetings.c:126-128 *)
| GRead (k : nat) (i : nat).                 (* 132-160: reads the name *)

(** What is seen: a call to a function with its data, the answer of a function
    of the library, a name written in a greeting and its end, a frame dropped. *)
Inductive target := TExt (f d : Z) | TGlob (f d : Z) | TStart (f : fn) (d : Z) | TClose (f : fn) (d : Z) | TRecv (f d : Z).
Inductive pobs :=
| OCall (t u : Z) (x : target)
| OAns (t : Z) (b : bool)
| OName (t u : Z)
| OEnd (t : Z)
| ODrop (t u : Z).

Record pst := mkS {
  s_heap : list (option prof);
  s_tab : list (Z * nat);              (* registered_profiles *)
  s_list : list nat;                   (* profiles_list: pointers to profile_name *)
  s_lock : option Z;                   (* the owner of profiles_list_mutex *)
  s_glob : option (Z * Z);             (* global_channel_start_extended *)
  s_thr : list (Z * ph);
  s_log : list pobs
}.
Definition pst0 : pst := mkS [] [] [] None None [] [].

Definition put_heap (s : pst) (h : list (option prof)) : pst := mkS h (s_tab s) (s_list s) (s_lock s) (s_glob s) (s_thr s) (s_log s).
Definition put_thr (s : pst) (l : list (Z * ph)) : pst := mkS (s_heap s) (s_tab s) (s_list s) (s_lock s) (s_glob s) l (s_log s).
Definition put_lock (s : pst) (l : option Z) : pst := mkS (s_heap s) (s_tab s) (s_list s) l (s_glob s) (s_thr s) (s_log s).
Definition see (s : pst) (o : list pobs) : pst := mkS (s_heap s) (s_tab s) (s_list s) (s_lock s) (s_glob s) (s_thr s) (s_log s ++ o).

Definition phase_of (s : pst) (t : Z) : option ph := option_map snd (find (fun e => fst e =? t) (s_thr s)).
(** The thread goes to a phase, or ends its call. *)
Definition goes (s : pst) (t : Z) (p : ph) : pst := put_thr s ((t, p) :: filter (fun e => negb (fst e =? t)) (s_thr s)).
Definition ends (s : pst) (t : Z) : pst := put_thr s (filter (fun e => negb (fst e =? t)) (s_thr s)).

(** vortex_hash_lookup *)
Definition lookup (s : pst) (u : Z) : option nat := option_map snd (find (fun e => fst e =? u) (s_tab s)).
Definition deref (s : pst) (i : nat) : outcome prof := match nth_error (s_heap s) i with Some (Some p) => Ok p | _ => UB end.
Definition write (s : pst) (i : nat) (f : prof -> prof) : outcome pst :=
  let! p := deref s i in Ok (put_heap s (upd_nth (s_heap s) i (Some (f p)))).

Definition set_ref (n : Z) (p : prof) : prof :=
  mkP (p_uri p) (p_start p) (p_start_d p) (p_ext p) (p_ext_d p) (p_close p) (p_close_d p) (p_recv p) (p_recv_d p) n.
Definition set_start f p := mkP (p_uri p) f (p_start_d p) (p_ext p) (p_ext_d p) (p_close p) (p_close_d p) (p_recv p) (p_recv_d p) (p_ref p).
Definition set_start_d d p := mkP (p_uri p) (p_start p) d (p_ext p) (p_ext_d p) (p_close p) (p_close_d p) (p_recv p) (p_recv_d p) (p_ref p).
Definition set_ext f p := mkP (p_uri p) (p_start p) (p_start_d p) f (p_ext_d p) (p_close p) (p_close_d p) (p_recv p) (p_recv_d p) (p_ref p).
Definition set_ext_d d p := mkP (p_uri p) (p_start p) (p_start_d p) (p_ext p) d (p_close p) (p_close_d p) (p_recv p) (p_recv_d p) (p_ref p).
Definition set_close f p := mkP (p_uri p) (p_start p) (p_start_d p) (p_ext p) (p_ext_d p) f (p_close_d p) (p_recv p) (p_recv_d p) (p_ref p).
Definition set_close_d d p := mkP (p_uri p) (p_start p) (p_start_d p) (p_ext p) (p_ext_d p) (p_close p) d (p_recv p) (p_recv_d p) (p_ref p).
Definition set_recv f p := mkP (p_uri p) (p_start p) (p_start_d p) (p_ext p) (p_ext_d p) (p_close p) (p_close_d p) f (p_recv_d p) (p_ref p).
Definition set_recv_d d p := mkP (p_uri p) (p_start p) (p_start_d p) (p_ext p) (p_ext_d p) (p_close p) (p_close_d p) (p_recv p) d (p_ref p).

(** __vortex_profiles_get_and_ref (100-126) and __vortex_profiles_ref (73-90) on
    what the table has; the count of a registered profile is positive. *)
Definition get_and_ref (s : pst) (u : Z) : outcome (option nat * pst) :=
  match lookup s u with
  | None => Ok (None, s)
  | Some i =>
      let! p := deref s i in
      let! s := write s i (set_ref (p_ref p + 1)) in
      Ok (if 0 <? p_ref p + 1 then Some i else None, s)
  end.
(** __vortex_profiles_unref (153-175) *)
Definition unref (s : pst) (i : nat) : outcome pst :=
  let! p := deref s i in
  if p_ref p - 1 =? 0 then Ok (put_heap s (upd_nth (s_heap s) i None))
  else write s i (set_ref (p_ref p - 1)).

(** A new profile in the table and in the list (335-352, 657-676). *)
Definition enlist (s : pst) (u : Z) (p : prof) : pst :=
  mkS (s_heap s ++ [Some p]) (s_tab s ++ [(u, length (s_heap s))]) (s_list s ++ [length (s_heap s)])
      (s_lock s) (s_glob s) (s_thr s) (s_log s).
(** axl_list_remove_ptr *)
Fixpoint remove_ptr (l : list nat) (i : nat) : list nat :=
  match l with [] => [] | x :: r => if Nat.eqb x i then r else x :: remove_ptr r i end.

(** The call of a function that takes the mutex of the list: nothing happens
    while another thread has it. *)
Definition free_lock (s : pst) : bool := match s_lock s with None => true | Some _ => false end.

Definition begin (s : pst) (t : Z) (c : call) : outcome pst :=
  match c with
  (* 309-375 *)
  | CRegister u a =>
      if free_lock s then
        match lookup s u with
        | None => Ok (see (enlist s u (mkP u (or_default (a_start a)) (a_start_d a) None 0 (or_default (a_close a)) (a_close_d a)
                                           (a_recv a) (a_recv_d a) 1)) [OAns t true])
        | Some i => Ok (goes s t (RUpd i 0 a))
        end
      else Ok s
  (* 638-687 *)
  | CExt u f d =>
      if free_lock s then
        match lookup s u with
        | None => Ok (see (enlist s u (mkP u FDefault 0 f d FDefault 0 None 0 1)) [OAns t true])
        | Some i => Ok (goes (put_lock s (Some t)) t (XSet i f d))
        end
      else Ok s
  (* 397-433 *)
  | CSetRecv u f d =>
      if free_lock s then
        match lookup s u with
        | None => Ok (see s [OAns t false])
        | Some i => Ok (goes (put_lock s (Some t)) t (VSet i f d))
        end
      else Ok s
  (* 448-476; reads the name of the profile *)
  | CUnreg u =>
      if free_lock s then
        match lookup s u with
        | None => Ok (see s [OAns t false])
        | Some i =>
            let! _ := deref s i in
            Ok (goes (mkS (s_heap s) (filter (fun e => negb (fst e =? u)) (s_tab s)) (remove_ptr (s_list s) i) (Some t)
                          (s_glob s) (s_thr s) (s_log s)) t (UDrop i))
        end
      else Ok s
  (* 732-736 *)
  | CStart u => let! r := get_and_ref s u in match r with (None, s) => Ok (see s [OAns t false]) | (Some i, s) => Ok (goes s t (S1 i)) end
  (* 842-847 *)
  | CClose u => let! r := get_and_ref s u in match r with (None, s) => Ok (see s [OAns t false]) | (Some i, s) => Ok (goes s t (K1 i)) end
  (* 1049-1057 *)
  | CFrame u => let! r := get_and_ref s u in match r with (None, s) => Ok (see s [OAns t false]) | (Some i, s) => Ok (goes s t (F1 i)) end
  (* 1307-1315 *)
  | CIsReg u => Ok (see s [OAns t (match lookup s u with Some _ => true | None => false end)])
  (* 801-814 *)
  | CIsStart u => match lookup s u with None => Ok (see s [OAns t false]) | Some i => Ok (goes s t (D1 i)) end
  (* 872-884 *)
  | CIsClose u => match lookup s u with None => Ok (see s [OAns t false]) | Some i => Ok (goes s t (DC i)) end
  (* 1131-1145 *)
  | CIsRecv u => let! r := get_and_ref s u in match r with (None, s) => Ok (see s [OAns t false]) | (Some i, s) => Ok (goes s t (DR i)) end
  (* src/vortex_greetings.c:120 *)
  | CGreet => if free_lock s then Ok (goes (put_lock s (Some t)) t (GNext 0)) else Ok s
  end.

(** The next step of a thread; [r] is the answer of the function of the
    application that it is running, if it is. *)
Definition adv (s : pst) (t : Z) (p : ph) (r : bool) : outcome pst :=
  match p with
  | RUpd i 0 a => let! s := write s i (set_start (or_default (a_start a))) in Ok (goes s t (RUpd i 1 a))
  | RUpd i 1 a => let! s := write s i (set_start_d (a_start_d a)) in Ok (goes s t (RUpd i 2 a))
  | RUpd i 2 a => let! s := write s i (set_close (or_default (a_close a))) in Ok (goes s t (RUpd i 3 a))
  | RUpd i 3 a => let! s := write s i (set_close_d (a_close_d a)) in Ok (goes s t (RUpd i 4 a))
  | RUpd i 4 a => let! s := write s i (set_recv (a_recv a)) in Ok (goes s t (RUpd i 5 a))
  | RUpd i _ a => let! s := write s i (set_recv_d (a_recv_d a)) in Ok (see (ends s t) [OAns t true])
  | XSet i f d => let! s := write s i (set_ext f) in Ok (goes s t (XSetD i d))
  | XSetD i d => let! s := write s i (set_ext_d d) in Ok (see (ends (put_lock s None) t) [OAns t true])
  | VSet i f d => let! s := write s i (set_recv f) in Ok (goes s t (VSetD i d))
  | VSetD i d => let! s := write s i (set_recv_d d) in Ok (see (ends (put_lock s None) t) [OAns t true])
  | UDrop i => let! s := unref s i in Ok (see (ends (put_lock s None) t) [OAns t true])
  | S1 i => let! p := deref s i in Ok (goes s t (S2 i (p_ext p)))
  | S2 i e => let! p := deref s i in Ok (goes s t (S3 i e (p_ext_d p)))
  | S3 i e d => let! p := deref s i in Ok (goes s t (S4 i e d (p_start p)))
  | S4 i e d st =>
      match e, st, s_glob s with
      | Some f, _, _ => let! p := deref s i in Ok (see (goes s t (SRun i)) [OCall t (p_uri p) (TExt f d)])
      | None, FDefault, Some (f, g) => let! p := deref s i in Ok (see (goes s t (SRun i)) [OCall t (p_uri p) (TGlob f g)])
      | None, _, _ => let! p := deref s i in Ok (see (goes s t (SRun i)) [OCall t (p_uri p) (TStart st (p_start_d p))])
      end
  | SRun i => let! s := unref s i in Ok (see (ends s t) [OAns t r])
  | K1 i => let! p := deref s i in Ok (goes s t (K2 i (p_close p)))
  | K2 i f => let! p := deref s i in Ok (see (goes s t (KRun i)) [OCall t (p_uri p) (TClose f (p_close_d p))])
  | KRun i => let! s := unref s i in Ok (see (ends s t) [OAns t r])
  | F1 i =>
      let! p := deref s i in
      match p_recv p with
      | None => let! s := unref s i in Ok (see (ends s t) [OAns t false])
      | Some _ => Ok (see (goes s t (F2 i)) [OAns t true])
      end
  | F2 i =>
      let! p := deref s i in
      match p_recv p with
      | None => let! s := unref s i in Ok (see (ends s t) [ODrop t (p_uri p)])
      | Some f => Ok (goes s t (F3 i f))
      end
  | F3 i f => let! p := deref s i in Ok (see (goes s t (FRun i)) [OCall t (p_uri p) (TRecv f (p_recv_d p))])
  | FRun i => let! s := unref s i in Ok (ends s t)
  (* start is never null *)
  | D1 i => let! p := deref s i in Ok (see (ends s t) [OAns t true])
  (* close is never null *)
  | DC i => let! p := deref s i in Ok (see (ends s t) [OAns t true])
  (* 1148 reads close, not received *)
  | DR i => let! p := deref s i in let! s := unref s i in Ok (see (ends s t) [OAns t true])
  | GNext k => match nth_error (s_list s) k with
               | Some i => Ok (goes s t (GRead k i))
               | None => Ok (see (ends (put_lock s None) t) [OEnd t])
               end
  | GRead k i => let! p := deref s i in Ok (see (goes s t (GNext (S k))) [OName t (p_uri p)])
  end.

(** A thread without a call in progress calls, a thread goes on, the global
    handler is set (vortex_ctx_set_channel_start_handler). *)
Inductive pev := ECall (t : Z) (c : call) | EStep (t : Z) (r : bool) | EGlobal (g : option (Z * Z)).
Definition pstep (s : pst) (e : pev) : outcome pst :=
  match e with
  | ECall t c => match phase_of s t with None => begin s t c | Some _ => Ok s end
  | EStep t r => match phase_of s t with None => Ok s | Some p => adv s t p r end
  | EGlobal g => Ok (mkS (s_heap s) (s_tab s) (s_list s) (s_lock s) g (s_thr s) (s_log s))
  end.
Fixpoint prun (s : pst) (es : list pev) : outcome pst :=
  match es with [] => Ok s | e :: k => let! s := pstep s e in prun s k end.
