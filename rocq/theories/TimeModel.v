(** Arithmetic with times: the deadline of a timed wait
    (src/vortex_thread.c:888-947), the next activation of a thread pool event
    (src/vortex_thread_pool.c:102-114) and the difference of two times
    (src/vortex_support.c:897-921).  [long], [time_t] and [suseconds_t] are 64
    bits wide; a signed overflow is [UB]. *)
From Verif Require Import Base.

(** struct timeval and struct timespec. *)
Record tval := mkTV { tv_sec : Z; tv_usec : Z }.
Record tspec := mkTS { ts_sec : Z; ts_nsec : Z }.

(** A result of [long] arithmetic. *)
Definition lng (x : Z) : outcome Z := if (- two63 <=? x) && (x <? two63) then Ok x else UB.

(** The deadline given to pthread_cond_timedwait (909-923). *)
Definition timedwait_deadline (now : tval) (microseconds : Z) : outcome tspec :=
  let! s := lng (microseconds + tv_usec now) in
  let! sec := if 1000000 <? s then lng (tv_sec now + Z.quot s 1000000) else Ok (tv_sec now) in
  let! ns := lng (Z.rem s 1000000 * 1000) in
  Ok (mkTS sec ns).

(** __vortex_thread_pool_increase_stamp (102-114). *)
Definition increase_stamp (next : tval) (delay : Z) : outcome tval :=
  let! s := lng (tv_usec next + delay) in
  let! sec := if 1000000 <? s then lng (tv_sec next + Z.quot s 1000000) else Ok (tv_sec next) in
  Ok (mkTV sec (Z.rem s 1000000)).

(** vortex_timeval_substract (897-921): the result, the value returned and the
    second argument, which is changed.  [nsec] is an [int]: the conversion
    keeps the low 32 bits. *)
Definition timeval_substract (a b : tval) : outcome (tval * bool * tval) :=
  let! b :=
    if tv_usec a <? tv_usec b then
      let! d := lng (tv_usec b - tv_usec a) in
      let nsec := s32 (Z.quot d 1000000 + 1) in
      if negb ((- two31 <=? 1000000 * nsec) && (1000000 * nsec <? two31)) then UB else
      let! u := lng (tv_usec b - 1000000 * nsec) in
      let! s := lng (tv_sec b + nsec) in
      Ok (mkTV s u)
    else Ok b in
  let! d := lng (tv_usec a - tv_usec b) in
  let! b :=
    if 1000000 <? d then
      let nsec := s32 (Z.quot d 1000000) in
      if negb ((- two31 <=? 1000000 * nsec) && (1000000 * nsec <? two31)) then UB else
      let! u := lng (tv_usec b + 1000000 * nsec) in
      let! s := lng (tv_sec b - nsec) in
      Ok (mkTV s u)
    else Ok b in
  let! s := lng (tv_sec a - tv_sec b) in
  let! u := lng (tv_usec a - tv_usec b) in
  Ok (mkTV s u, tv_sec a <? tv_sec b, b).
