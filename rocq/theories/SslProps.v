(** Properties C327-C330: what reading and writing over TLS return. *)
From Verif Require Import Base SslModel SslSpec SslProofs.

(** * C327: each call tells what the transport did *)
Theorem C327_read_partial : forall h s t al d v, h_queue t = false -> s_shut s = false -> call_of al d -> read_means d v ->
  exists r, ssl_read h s t al = Some r /\ r_val r = v /\ (r_notified r = true <-> d = DBad) /\ s_shut (r_ssl r) = is_closed d /\
    (h = None \/ d <> DBad -> h_queue (r_thr r) = false).
Proof. exact read_value. Qed.
Print Assumptions C327_read_partial.
Theorem C327_write_partial : forall s t al d v, h_queue t = false -> s_shut s = false -> call_of al d -> write_means d v ->
  exists r, ssl_write s t al = Some r /\ r_val r = v /\ r_notified r = false /\ s_shut (r_ssl r) = is_closed d /\ (d <> DBad -> h_queue (r_thr r) = false).
Proof. exact write_value. Qed.
Print Assumptions C327_write_partial.
Theorem C327_data : forall h s t n mid r, 0 < n ->
  (exists x, ssl_read h s t (mkTn (DData n) mid :: r) = Some x /\ r_val x = n) /\ (exists x, ssl_write s t (mkTn (DData n) mid :: r) = Some x /\ r_val x = n).
Proof. exact data_told. Qed.
Print Assumptions C327_data.
Example C327_ex : call_of [mkTn (DErrno EINTR) []; mkTn (DErrno EINTR) []; mkTn (DData 40) []] (DData 40) /\ read_means (DData 40) 40 /\
  ssl_read None (mkS true false) (mkH false 11) [mkTn (DErrno EINTR) []; mkTn (DErrno EINTR) []; mkTn (DData 40) []] = Some (mkR 40 (mkS false false) (mkH false 0) false).
Proof. split; [exists 2%nat; reflexivity|]. split; [constructor; reflexivity|reflexivity]. Qed.

(** * C328: a connection that fails does not touch the others *)
Theorem C328_apart_partial : forall os vs, Forall2 (fun o v => exists d, plain o d v) os vs -> exists w, srun None net0 os = Some w /\ n_vals w = vs.
Proof. exact run_values. Qed.
Print Assumptions C328_apart_partial.
Example C328_ex : Forall2 (fun o v => exists d, plain o d v) [ORead 1 (one DBad); OWrite 2 (one DWant); ORead 2 (one DEof)] [-1; -2; 0].
Proof.
  repeat constructor.
  - exists DBad. apply pl_read; [exists 0%nat; reflexivity|constructor|discriminate].
  - exists DWant. apply pl_write; [exists 0%nat; reflexivity|constructor|discriminate|discriminate].
  - exists DEof. apply pl_read; [exists 0%nat; reflexivity|constructor|discriminate].
Qed.
(** A write that fails in the protocol leaves its entry in the error queue of the thread: the next connection the thread writes, which only has to wait, is
    told failed. *)
Theorem C328_write_refuted : exists os w, srun None net0 os = Some w /\ os = [OWrite 1 (one DBad); OWrite 2 (one DWant)] /\ n_vals w = [-1; -1].
Proof. exact poison_refuted. Qed.
Print Assumptions C328_write_refuted.
(** With a failure handler of the user the reads leave it too, and the handler is told of failures of connections that did not fail. *)
Theorem C328_handler_refuted : exists h os w, srun h net0 os = Some w /\ os = [ORead 1 (one DBad); ORead 2 (one DWant); ORead 3 (one DClosed)] /\
  n_vals w = [-1; -1; -1] /\ n_told w = [true; true; true].
Proof. exact poison_handler_refuted. Qed.
Print Assumptions C328_handler_refuted.

(** * C329: reading and writing one connection at the same time *)
Theorem C329_blocked_refuted : exists mid r, ssl_read None (mkS false false) (mkH false 0) [mkTn DWant mid] = Some r /\ r_val r = -1.
Proof. exact race_blocked_refuted. Qed.
Print Assumptions C329_blocked_refuted.
Theorem C329_failed_refuted : exists e mid r, e <> EINTR /\ ssl_read None (mkS false false) (mkH false 0) [mkTn (DErrno e) mid] = Some r /\ r_val r = -2.
Proof. exact race_failed_refuted. Qed.
Print Assumptions C329_failed_refuted.
Theorem C329_closed_refuted : exists mid r, ssl_write (mkS false false) (mkH false 0) [mkTn DWant mid] = Some r /\ r_val r = 0.
Proof. exact race_closed_refuted. Qed.
Print Assumptions C329_closed_refuted.

(** * C330: a read that would block does not end the connection *)
Theorem C330_again_partial : forall s t a r, t_did a = DWant -> exists x, ssl_read None s t (a :: r) = Some x /\ come_again x = true.
Proof. exact read_again. Qed.
Print Assumptions C330_again_partial.
Example C330_ex : exists x, ssl_read None (mkS false false) (mkH true 0) [mkTn DWant [DData 3; DClosed]] = Some x /\ r_val x = -1 /\ come_again x = true.
Proof. eexists. split; [reflexivity|]. split; reflexivity. Qed.
(** A failure handler that changes errno. *)
Theorem C330_handler_refuted : exists h t x, ssl_read h (mkS false false) t (one DWant) = Some x /\ come_again x = false.
Proof. exists (Some 2), (mkH true 0). eexists. split; reflexivity. Qed.
Print Assumptions C330_handler_refuted.
