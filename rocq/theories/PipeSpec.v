(** What a caller expects of the pipe, without the functions of the model. *)
From Verif Require Import Base PipeModel.

(** A kernel gives -1 or a descriptor that is not open yet. *)
Definition fresh (fd : Z) (open : list Z) : Prop := fd = -1 \/ (0 <= fd /\ ~ In fd open).
Definition kernel_ok (a : ans) (open : list Z) : Prop :=
  fresh (a_lst a) open /\ fresh (a_cli a) (a_lst a :: open) /\ fresh (a_acc a) (a_cli a :: a_lst a :: open).
(** getsockname () does not fail. *)
Definition named (a : ans) : Prop := a_name a = 0.
Definition same_fds (x y : list Z) : Prop := forall fd, In fd x <-> In fd y.
(** stdin, stdout and stderr are open. *)
Definition std_open (open : list Z) : Prop := In 0 open /\ In 1 open /\ In 2 open.
(** A process with no other descriptor than those. *)
Definition std : list Z := [0; 1; 2].
(** The kernel keeps its contract along a run of calls: every answer is about the descriptors open at that moment. *)
Inductive kernel_run : list ans -> lock -> list Z -> Prop :=
| kr_nil : forall l o, kernel_run [] l o
| kr_cons : forall a r l o e l' o',
    kernel_ok a o -> named a -> event_fd a l o = Ok (e, l', o') -> kernel_run r l' o' -> kernel_run (a :: r) l o.
