(** Reading and writing over TLS: what the handlers of the connection return for what OpenSSL did (tls/vortex_tls.c 63-95, 131-157, 445-609).

    OpenSSL is not modelled: what each SSL_read or SSL_write did is an argument.  What SSL_get_error looks at is: the error queue of the thread,
    errno, and in the SSL object what the last call was waiting for and whether close_notify came (as in OpenSSL 1.1.1 and 3; in 3 the end of the
    stream without close_notify is a failure of the protocol, [DBad]).  The mutex of the
    connection is held during SSL_read and SSL_write but not during SSL_get_error: what other threads did to the object in between is also an
    argument.  The SSL object and the mutex are there (without them both functions return 0); SSL_pending is in the area Pend; the log is left
    out.  OpenSSL sets errno to 0 when SSL_read or SSL_write begins. *)
From Verif Require Import Base.

Definition EINTR : Z := 4.
Definition EAGAIN : Z := 11.
(** What a call of SSL_read or SSL_write did: moved octets, would block, found close_notify, found the end of the stream, failed in the system,
    failed in the protocol (this leaves an entry in the error queue of the thread). *)
Inductive did := DData (n : Z) | DWant | DClosed | DEof | DErrno (e : Z) | DBad.
Definition res_of (d : did) : Z := match d with DData n => n | DWant => -1 | DClosed => 0 | DEof => 0 | DErrno _ => -1 | DBad => -1 end.
Definition errno_of (d : did) : Z := match d with DWant => EAGAIN | DErrno e => e | _ => 0 end.
Record ssl := mkS { s_want : bool; s_shut : bool }.
Record thr := mkH { h_queue : bool; h_errno : Z }.
Definition is_want (d : did) : bool := match d with DWant => true | _ => false end.
Definition is_closed (d : did) : bool := match d with DClosed => true | _ => false end.
Definition is_bad (d : did) : bool := match d with DBad => true | _ => false end.
Definition touch (s : ssl) (d : did) : ssl := mkS (is_want d) (s_shut s || is_closed d).
Definition touch_thr (t : thr) (d : did) : thr := mkH (h_queue t || is_bad d) (errno_of d).
Inductive code := ENone | EWant | ESyscall | EZero | ESsl.
(** SSL_get_error of OpenSSL. *)
Definition get_error (s : ssl) (t : thr) (res : Z) : code :=
  if 0 <? res then ENone else if h_queue t then ESsl else if s_want s then EWant else if s_shut s then EZero else ESyscall.

(** One turn: what the call did, and what other threads did with the object before SSL_get_error. *)
Record turn := mkTn { t_did : did; t_mid : list did }.
Record ret := mkR { r_val : Z; r_ssl : ssl; r_thr : thr; r_notified : bool }.
(** vortex_tls_notify_failure_handler (131-157) with vortex_tls_log_ssl (66-94): a failure handler of the user ([Some e]: it leaves errno [e]) takes the
    place of the function that empties the error queue. *)
Definition notify (h : option Z) (t : thr) : thr := match h with Some e => mkH (h_queue t) e | None => mkH false (h_errno t) end.
(** vortex_tls_ssl_read (445-527): [None] when it retries more often than there are turns. *)
Fixpoint ssl_read (h : option Z) (s : ssl) (t : thr) (al : list turn) : option ret :=
  match al with
  | [] => None
  | a :: r =>
      let res := res_of (t_did a) in
      let t1 := touch_thr t (t_did a) in
      let s1 := fold_left touch (t_mid a) (touch s (t_did a)) in
      match get_error s1 t1 res with
      | ENone => Some (mkR res s1 t1 false)
      | EWant => Some (mkR (-2) s1 t1 false)
      | ESyscall => if res <? 0 then (if h_errno t1 =? EINTR then ssl_read h s1 t1 r else Some (mkR (-1) s1 t1 false)) else Some (mkR res s1 t1 false)
      | EZero => Some (mkR res s1 t1 false)
      | ESsl => Some (mkR (-1) s1 (notify h t1) true)
      end
  end.
(** vortex_tls_ssl_write (542-609). *)
Fixpoint ssl_write (s : ssl) (t : thr) (al : list turn) : option ret :=
  match al with
  | [] => None
  | a :: r =>
      let res := res_of (t_did a) in
      let t1 := touch_thr t (t_did a) in
      let s1 := fold_left touch (t_mid a) (touch s (t_did a)) in
      match get_error s1 t1 res with
      | ENone => Some (mkR res s1 t1 false)
      | EWant => Some (mkR (-2) s1 t1 false)
      | ESyscall => if res <? 0 then (if h_errno t1 =? EINTR then ssl_write s1 t1 r else Some (mkR (-1) s1 t1 false)) else Some (mkR (-1) s1 t1 false)
      | EZero => Some (mkR 0 s1 t1 false)
      | ESsl => Some (mkR (-1) s1 t1 false)
      end
  end.

(** One thread (the reader, the sequencer) that reads or writes several connections. *)
Inductive op := ORead (c : nat) (al : list turn) | OWrite (c : nat) (al : list turn).
Record net := mkN { n_ssl : nat -> ssl; n_thr : thr; n_vals : list Z; n_told : list bool }.
Definition net0 : net := mkN (fun _ => mkS false false) (mkH false 0) [] [].
Definition put (f : nat -> ssl) (c : nat) (s : ssl) : nat -> ssl := fun x => if Nat.eqb x c then s else f x.
Definition sstep (h : option Z) (w : net) (o : op) : option net :=
  let c := match o with ORead c _ => c | OWrite c _ => c end in
  match (match o with ORead _ al => ssl_read h (n_ssl w c) (n_thr w) al | OWrite _ al => ssl_write (n_ssl w c) (n_thr w) al end) with
  | Some r => Some (mkN (put (n_ssl w) c (r_ssl r)) (r_thr r) (n_vals w ++ [r_val r]) (n_told w ++ [r_notified r]))
  | None => None
  end.
Fixpoint srun (h : option Z) (w : net) (os : list op) : option net :=
  match os with [] => Some w | o :: r => match sstep h w o with Some w' => srun h w' r | None => None end end.
(** How the code that reads lines and the code that writes frames take a value below 0 (src/vortex_frame_factory.c 1375-1386, 1957-1960): come again. *)
Definition come_again (r : ret) : bool := (r_val r <? 0) && ((h_errno (r_thr r) =? EAGAIN) || (r_val r =? -2)).
