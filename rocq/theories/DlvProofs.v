(** The frames are kept once. *)
From Coq Require Import Permutation.
From Verif Require Import Base HdrModel HdrProofs DlvModel DlvSpec.

Definition ind (a i : nat) : nat := if Nat.eqb a i then 1 else 0.
Fixpoint cnt (l : list nat) (i : nat) : nat := match l with [] => 0 | x :: r => ind x i + cnt r i end%nat.
Lemma cnt_app : forall a b i, cnt (a ++ b) i = (cnt a i + cnt b i)%nat.
Proof. induction a as [|x a IH]; intros b i; cbn; auto. rewrite IH. lia. Qed.
Definition held (l : list (option chan)) : list nat := flat_map held_by l.
Definition CC (s : dst) (i : nat) : nat :=
  (cnt (map task_frame (d_tasks s)) i + cnt (held (d_chans s)) i + cnt (map run_frame (d_runs s)) i + cnt (freed (d_log s)) i + cnt (taken (d_log s)) i)%nat.
Definition WW (s : dst) (i : nat) : nat := (cnt (map task_frame (d_tasks s)) i + cnt (held (d_chans s)) i + cnt (decided (d_log s)) i)%nat.
Definition good (c : chan) : Prop := NoDup (map f_seq (c_stored c)) /\ (c_made c = false -> c_stored c = []) /\ (c_ser c = true -> c_made c = true).
Definition uq (s : dst) : Prop := forall i c, nth_error (d_chans s) i = Some (Some c) -> good c.

Lemma freed_app : forall a b, freed (a ++ b) = freed a ++ freed b.
Proof. intros. apply flat_map_app. Qed.
Lemma taken_app : forall a b, taken (a ++ b) = taken a ++ taken b.
Proof. intros. apply flat_map_app. Qed.
Lemma decided_app : forall a b, decided (a ++ b) = decided a ++ decided b.
Proof. intros. apply flat_map_app. Qed.
Lemma held_upd : forall l k x y i, nth_error l k = Some x -> (cnt (held (upd_nth l k y)) i + cnt (held_by x) i = cnt (held l) i + cnt (held_by y) i)%nat.
Proof.
  unfold held. induction l as [|a l IH]; intros [|k] x y i H; cbn in *; try discriminate.
  - injection H as ->. rewrite !cnt_app. lia.
  - rewrite !cnt_app. specialize (IH k x y i H). lia.
Qed.
Lemma held_add : forall l c i, cnt (held (l ++ [c])) i = (cnt (held l) i + cnt (held_by c) i)%nat.
Proof. intros. unfold held. rewrite flat_map_app. cbn. rewrite app_nil_r, cnt_app. auto. Qed.

Lemma chan_at_is : forall s i c, chan_at s i = Ok c -> nth_error (d_chans s) i = Some (Some c).
Proof. intros s i c. unfold chan_at. destruct (nth_error (d_chans s) i) as [[x|]|]; intros H; congruence. Qed.
Lemma write_is : forall s i f s', write s i f = Ok s' -> exists c, nth_error (d_chans s) i = Some (Some c) /\ s' = put_chans s (upd_nth (d_chans s) i (Some (f c))).
Proof.
  intros s i f s' H. unfold write in H. destruct (chan_at s i) as [c|] eqn:E; [|discriminate]. apply chan_at_is in E. cbn in H. injection H as <-. eauto.
Qed.
Lemma unref_is : forall s i s', unref_ch s i = Ok s' -> exists c, nth_error (d_chans s) i = Some (Some c) /\
  ((c_ref c = 1 /\ s' = see (put_chans s (upd_nth (d_chans s) i None)) (map (fun f => OFree (f_id f)) (c_stored c))) \/
   (c_ref c <> 1 /\ s' = put_chans s (upd_nth (d_chans s) i (Some (set_ref (c_ref c - 1) c))))).
Proof.
  intros s i s' H. unfold unref_ch in H. destruct (chan_at s i) as [c|] eqn:E; [|discriminate]. pose proof E as E'. apply chan_at_is in E. cbn in H. exists c. split; auto.
  destruct (Z.eqb_spec (c_ref c - 1) 0).
  - left. split; [lia|]. congruence.
  - right. split; [lia|]. unfold write in H. rewrite E' in H. cbn in H. congruence.
Qed.
Lemma unref_conn_is : forall s s', unref_conn s = Ok s' -> 0 < d_conn s /\ s' = put_conn s (d_conn s - 1).
Proof. intros s s' H. unfold unref_conn in H. destruct (Z.ltb_spec 0 (d_conn s)); [|discriminate]. injection H as <-. auto. Qed.
Ltac mon := repeat match goal with
  | H : (let! _ := chan_at ?s ?i in _) = Ok _ |- _ => let D := fresh "D" in let c := fresh "c" in
      destruct (chan_at s i) as [c|] eqn:D; [apply chan_at_is in D; cbn [obind] in H|discriminate]
  | H : (let! _ := write ?s ?i ?f in _) = Ok _ |- _ => let D := fresh "D" in let c := fresh "c" in
      destruct (write s i f) as [?|] eqn:D; [apply write_is in D; destruct D as (c & D & ->); cbn [obind] in H|discriminate]
  | H : (let! _ := unref_conn ?s in _) = Ok _ |- _ => let D := fresh "N" in
      destruct (unref_conn s) as [?|] eqn:D; [apply unref_conn_is in D; destruct D as (D & ->); cbn [obind] in H|discriminate]
  | H : (let! _ := ?m in _) = Ok _ |- _ => let D := fresh "M" in destruct m as [?|] eqn:D; [cbn [obind] in H|discriminate]
  end.

(** What a step adds to the count of the frames and at most to the decided ones. *)
Definition adds (s s' : dst) (c w : nat -> nat) : Prop :=
  (forall i, CC s' i = CC s i + c i)%nat /\ (forall i, WW s' i <= WW s i + w i)%nat /\ (uq s -> uq s') /\ d_count s' = d_count s.
Definition zero (i : nat) : nat := 0%nat.
Lemma freed_map : forall l i, cnt (freed (map (fun f => OFree (f_id f)) l)) i = cnt (map f_id l) i.
Proof. induction l as [|a l IH]; intros i; cbn; auto. Qed.
Lemma taken_map : forall l, taken (map (fun f => OFree (f_id f)) l) = [].
Proof. induction l as [|a l IH]; cbn; auto. Qed.
Lemma decided_map : forall l, decided (map (fun f => OFree (f_id f)) l) = [].
Proof. induction l as [|a l IH]; cbn; auto. Qed.
Lemma uq_upd : forall s i q s', uq s -> d_chans s' = upd_nth (d_chans s) i q -> match q with Some c => good c | None => True end -> uq s'.
Proof.
  intros s i q s' U E Q j c H. rewrite E in H. destruct (Nat.eq_dec i j) as [->|N]; [|rewrite nth_upd_other in H by auto; eapply U; eauto].
  destruct (lt_dec j (length (d_chans s))) as [L|L].
  - rewrite nth_upd_same in H by auto. injection H as ->. exact Q.
  - apply nth_lt in H. rewrite upd_nth_length in H. lia.
Qed.
Ltac simp := unfold CC, WW in *; cbn [d_tasks d_chans d_runs d_log put_chans put_cur put_conn put_tasks put_runs put_data see next_id d_count] in *.
Lemma adds_trans : forall a b c x y x' y', adds a b x y -> adds b c x' y' -> adds a c (fun i => x i + x' i)%nat (fun i => y i + y' i)%nat.
Proof.
  intros a b c x y x' y' (A1 & A2 & A3 & A4) (B1 & B2 & B3 & B4). split; [|split; [|split]]; auto; try congruence.
  - intros i. rewrite B1, A1. lia.
  - intros i. specialize (A2 i). specialize (B2 i). lia.
Qed.
Lemma adds_ext : forall a b x y x' y', adds a b x y -> (forall i, x i = x' i) -> (forall i, y i <= y' i)%nat -> adds a b x' y'.
Proof.
  intros a b x y x' y' (A1 & A2 & A3 & A4) X Y. split; [|split; [|split]]; auto; intros i; [rewrite A1, X; auto|]. specialize (A2 i). specialize (Y i). lia.
Qed.
Lemma adds_write : forall s i c f, nth_error (d_chans s) i = Some (Some c) -> c_stored (f c) = c_stored c -> (good c -> good (f c)) ->
  adds s (put_chans s (upd_nth (d_chans s) i (Some (f c)))) zero zero.
Proof.
  intros s i c f D E G. split; [|split; [|split]]; auto.
  - intros j. pose proof (held_upd (d_chans s) i _ (Some (f c)) j D) as H. cbn in H. rewrite E in H. simp. unfold zero. lia.
  - intros j. pose proof (held_upd (d_chans s) i _ (Some (f c)) j D) as H. cbn in H. rewrite E in H. simp. unfold zero. lia.
  - intros U. eapply uq_upd; eauto; [reflexivity|]. apply G. eapply U; eauto.
Qed.
Lemma adds_conn : forall s n, adds s (put_conn s n) zero zero.
Proof. intros s n. split; [|split; [|split]]; auto; intros i; simp; unfold zero; lia. Qed.
Lemma adds_unref : forall s i s', unref_ch s i = Ok s' -> adds s s' zero zero.
Proof.
  intros s i s' H. destruct (unref_is _ _ _ H) as (c & D & [(E & ->)|(E & ->)]); [|apply (adds_write s i c (set_ref (c_ref c - 1))); auto].
  split; [|split; [|split]]; auto.
  - intros j. pose proof (held_upd (d_chans s) i _ None j D) as K. cbn in K. simp. unfold zero. rewrite freed_app, taken_app, !cnt_app, freed_map, taken_map. cbn. lia.
  - intros j. pose proof (held_upd (d_chans s) i _ None j D) as K. cbn in K. simp. unfold zero. rewrite decided_app, !cnt_app, decided_map. cbn. lia.
  - intros U. eapply uq_upd; eauto; [reflexivity|exact Logic.I].
Qed.
Lemma adds_free : forall s f, adds s (see s [OFree f]) (ind f) zero.
Proof. intros s f. split; [|split; [|split]]; auto; intros i; simp; unfold zero; rewrite ?freed_app, ?taken_app, ?decided_app, !cnt_app; cbn; lia. Qed.
Lemma adds_drop : forall s f, adds s (see s [ODrop f]) zero (ind f).
Proof. intros s f. split; [|split; [|split]]; auto; intros i; simp; unfold zero; rewrite ?freed_app, ?taken_app, ?decided_app, !cnt_app; cbn; lia. Qed.
Ltac trans X := eapply adds_ext; [eapply adds_trans; [X|]| |].
Lemma adds_leave : forall s i f s', leave s i f = Ok s' -> adds s s' (match f with Some f => ind (f_id f) | None => zero end) zero.
Proof.
  intros s i f s' H. unfold leave in H. mon. apply adds_unref in M. destruct f as [f|]; injection H as <-.
  - eapply adds_ext; [eapply adds_trans; [exact M|eapply adds_trans; [apply adds_conn|apply adds_free]]| |]; intros; unfold zero; cbn; lia.
  - eapply adds_ext; [eapply adds_trans; [exact M|apply adds_conn]| |]; intros; unfold zero; cbn; lia.
Qed.
Lemma cnt_split : forall l q i, (cnt (map f_id (not_seq l q)) i + cnt (map f_id (is_seq l q)) i = cnt (map f_id l) i)%nat.
Proof.
  unfold not_seq, is_seq. induction l as [|a l IH]; intros q i; auto. cbn [filter]. destruct (f_seq a =? q); cbn; rewrite <- (IH q i); lia.
Qed.
Lemma not_seq_in : forall l q x, In x (not_seq l q) -> In x l /\ f_seq x <> q.
Proof. unfold not_seq. intros l q x H. apply filter_In in H. destruct H as (H & E). destruct (Z.eqb_spec (f_seq x) q); [discriminate|auto]. Qed.
Lemma not_seq_nodup : forall l q, NoDup (map f_seq l) -> NoDup (map f_seq (not_seq l q)).
Proof.
  unfold not_seq. induction l as [|a l IH]; intros q H; cbn; [constructor|]. inversion H as [|? ? H1 H2]; subst. destruct (f_seq a =? q); cbn; auto. constructor; auto.
  intros K. apply H1. apply in_map_iff in K. destruct K as (x & E & K). apply filter_In in K. apply in_map_iff. exists x. tauto.
Qed.
Lemma adds_store : forall s i f s', store s i f = Ok s' -> (forall c, nth_error (d_chans s) i = Some (Some c) -> c_ser c = true) -> adds s s' (ind (f_id f)) (ind (f_id f)).
Proof.
  intros s i f s' H SR. unfold store in H. mon. rewrite D in D0. injection D0 as <-. injection H as <-.
  set (l := not_seq (c_stored c) (f_seq f) ++ [f]). split; [|split; [|split]]; auto.
  - intros j. pose proof (held_upd (d_chans s) i _ (Some (set_next (c_next c) l c)) j D) as K. cbn in K. unfold l in K. rewrite map_app, cnt_app in K. cbn in K.
    pose proof (cnt_split (c_stored c) (f_seq f) j). simp. fold l in K. rewrite freed_app, taken_app, !cnt_app, freed_map, taken_map. cbn. fold l. lia.
  - intros j. pose proof (held_upd (d_chans s) i _ (Some (set_next (c_next c) l c)) j D) as K. cbn in K. unfold l in K. rewrite map_app, cnt_app in K. cbn in K.
    pose proof (cnt_split (c_stored c) (f_seq f) j). simp. fold l in K. rewrite decided_app, !cnt_app, decided_map. cbn. fold l. lia.
  - intros U. eapply uq_upd; eauto; [reflexivity|]. destruct (U _ _ D) as (G1 & G2 & G3). split; [|split; cbn; auto; intros K; rewrite G3 in K by eauto; discriminate].
    cbn. unfold l. rewrite map_app. cbn. apply (Permutation_NoDup (l := f_seq f :: map f_seq (not_seq (c_stored c) (f_seq f)))).
    + apply Permutation_cons_append.
    + constructor; [|apply not_seq_nodup; auto]. intros K. apply in_map_iff in K. destruct K as (x & E & K). apply not_seq_in in K. tauto.
Qed.
Lemma is_seq_one : forall l q, NoDup (map f_seq l) -> is_seq l q = match at_seq l q with Some g => [g] | None => [] end.
Proof.
  unfold is_seq, at_seq. induction l as [|a l IH]; intros q H; cbn; auto. inversion H as [|? ? H1 H2]; subst. destruct (Z.eqb_spec (f_seq a) q) as [E|E]; auto.
  f_equal. rewrite IH by auto. destruct (find (fun f => f_seq f =? q) l) as [g|] eqn:F; auto. apply find_some in F. destruct F as (F & G).
  exfalso. apply H1. apply in_map_iff. exists g. split; auto. destruct (Z.eqb_spec (f_seq g) q); [congruence|discriminate].
Qed.
Definition hand (g : option frame) (i : nat) : nat := match g with Some g => ind (f_id g) i | None => 0%nat end.
(** The frame in hand is in [c]. *)
Lemma adds_pending : forall s i f s' g c, pending s i f = Ok (s', g) -> uq s -> nth_error (d_chans s) i = Some (Some c) ->
  (forall j, CC s' j + hand g j = CC s j + (if c_ser c then ind (f_id f) j else 0))%nat /\ (forall j, WW s' j + hand g j <= WW s j)%nat /\ uq s' /\ d_count s' = d_count s.
Proof.
  intros s i f s' g c H U D0. unfold pending in H. mon. rewrite D in D0. injection D0 as ->. destruct (c_ser c); [|injection H as <- <-; split; [|split; [|split]]; auto; intros; cbn; lia].
  mon. rewrite D in D0. injection D0 as <-. set (q := (f_seq f + f_size f) mod modulus) in *. set (s1 := put_chans s _) in *.
  assert (A : (forall j, CC s1 j + cnt (map f_id (is_seq (c_stored c) q)) j = CC s j)%nat /\ (forall j, WW s1 j + cnt (map f_id (is_seq (c_stored c) q)) j = WW s j)%nat /\ uq s1).
  { split; [|split].
    - intros j. pose proof (held_upd (d_chans s) i _ (Some (set_next q (not_seq (c_stored c) q) c)) j D) as K. cbn in K. pose proof (cnt_split (c_stored c) q j). unfold s1. simp. lia.
    - intros j. pose proof (held_upd (d_chans s) i _ (Some (set_next q (not_seq (c_stored c) q) c)) j D) as K. cbn in K. pose proof (cnt_split (c_stored c) q j). unfold s1. simp. lia.
    - eapply uq_upd; eauto; [reflexivity|]. destruct (U _ _ D) as (G1 & G2 & G3). split; [|split; cbn; auto; intros K; rewrite G2 by auto; reflexivity]. cbn. apply not_seq_nodup. auto. }
  rewrite is_seq_one in A by (exact (proj1 (U _ _ D))). destruct A as (A1 & A2 & A3).
  rename a into d.
  assert (B : adds s1 d zero zero).
  { destruct (at_seq (c_stored c) q); [|injection M as <-; apply (adds_ext s1 s1 zero zero); auto; split; [|split; [|split]]; auto; intros; unfold zero; lia].
    mon. apply adds_unref in M. eapply adds_ext; [eapply adds_trans; [apply adds_conn|exact M]| |]; intros; unfold zero; lia. }
  injection H as <- <-. destruct (adds_trans _ _ _ _ _ _ _ B (adds_free d (f_id f))) as (B1 & B2 & B3 & B4). cbv beta in B1, B2. unfold zero in *.
  split; [|split; [|split]]; auto.
  - intros j. rewrite B1. specialize (A1 j). destruct (at_seq (c_stored c) q); cbn in *; lia.
  - intros j. specialize (B2 j). specialize (A2 j). destruct (at_seq (c_stored c) q); cbn in *; lia.
Qed.
Lemma pending_ser : forall s i f s' g, pending s i f = Ok (s', g) -> forall c, nth_error (d_chans s) i = Some (Some c) -> c_ser c = false -> s' = s /\ g = None.
Proof. intros s i f s' g H c D E. unfold pending, chan_at in H. rewrite D in H. cbn [obind] in H. rewrite E in H. injection H as <- <-. auto. Qed.
Definition tot (s s' : dst) (c w : nat -> nat) : Prop :=
  uq s -> (forall i, CC s' i = CC s i + c i)%nat /\ (forall i, WW s' i <= WW s i + w i)%nat /\ uq s' /\ d_count s' = d_count s.
Lemma adds_tot : forall s s' c w, adds s s' c w -> tot s s' c w.
Proof. intros s s' c w (A & B & C & D) U. auto. Qed.
Lemma tot_trans : forall a b c x y x' y', tot a b x y -> tot b c x' y' -> tot a c (fun i => x i + x' i)%nat (fun i => y i + y' i)%nat.
Proof.
  intros a b c x y x' y' A B U. destruct (A U) as (A1 & A2 & A3 & A4). destruct (B A3) as (B1 & B2 & B3 & B4). split; [|split; [|split]]; auto; try congruence.
  - intros i. rewrite B1, A1. lia.
  - intros i. specialize (A2 i). specialize (B2 i). lia.
Qed.
Lemma tot_ext : forall a b x y x' y', tot a b x y -> (forall i, x i = x' i) -> (forall i, y i <= y' i)%nat -> tot a b x' y'.
Proof.
  intros a b x y x' y' A X Y U. destruct (A U) as (A1 & A2 & A3 & A4). split; [|split; [|split]]; auto; intros i; [rewrite A1, X; auto|]. specialize (A2 i). specialize (Y i). lia.
Qed.
(** Going on after the frame [f]. *)
Lemma tot_after : forall s i f s1 g s2 c w, pending s i f = Ok (s1, g) -> nth_error (d_chans s) i = Some (Some c) ->
  match g with Some g => tot s1 s2 (ind (f_id g)) w | None => leave s1 i (if c_ser c then None else Some f) = Ok s2 end -> (forall g' j, g = Some g' -> w j <= ind (f_id g') j)%nat ->
  tot s s2 (ind (f_id f)) zero.
Proof.
  intros s i f s1 g s2 c w P D L K U. destruct (adds_pending _ _ _ _ _ _ P U D) as (P1 & P2 & P3 & P4). destruct g as [g|].
  - destruct (L P3) as (L1 & L2 & L3 & L4). split; [|split; [|split]]; auto; try congruence.
    + intros j. rewrite L1. specialize (P1 j). cbn in P1. destruct (c_ser c) eqn:E; [lia|]. destruct (pending_ser _ _ _ _ _ P _ D E). discriminate.
    + intros j. specialize (L2 j). specialize (P2 j). specialize (K g j eq_refl). unfold zero. cbn in P2. lia.
  - apply adds_leave in L. destruct L as (L1 & L2 & L3 & L4). split; [|split; [|split]]; auto; try congruence.
    + intros j. rewrite L1. specialize (P1 j). cbn in P1. destruct (c_ser c); unfold zero; lia.
    + intros j. specialize (L2 j). specialize (P2 j). unfold zero in *. cbn in P2. lia.
Qed.
Lemma adds_run : forall s r w, (forall n, w <> WWaiter n) -> adds s (see (put_runs s (d_runs s ++ [r])) [ODeliver (run_frame r) w]) (ind (run_frame r)) (ind (run_frame r)).
Proof.
  intros s r w N. split; [|split; [|split]]; auto; intros i; simp.
  - rewrite freed_app, taken_app, map_app, !cnt_app. assert (E : taken [ODeliver (run_frame r) w] = []) by (destruct w; cbn; auto; exfalso; eapply N; eauto). rewrite E. cbn. lia.
  - rewrite decided_app, cnt_app. cbn. lia.
Qed.
Lemma tot_deliver2 : forall n s i f s', deliver2 n s i f = Ok s' -> tot s s' (ind (f_id f)) (ind (f_id f)).
Proof.
  induction n as [|n IH]; intros s i f s' H; cbn [deliver2] in H; mon; destruct (c_recv c) as [h|];
    try (injection H as <-; apply adds_tot; apply (adds_run s (R2 i f)); discriminate); mon; match goal with p : (dst * option frame)%type |- _ => destruct p as [s1 g] end; destruct g as [g|]; try discriminate.
  - eapply tot_ext; [eapply tot_trans; [apply adds_tot; apply adds_drop|eapply (tot_after _ i f s1 None s' c zero); eauto; discriminate]| |]; intros; unfold zero; lia.
  - eapply tot_ext; [eapply tot_trans; [apply adds_tot; apply adds_drop|eapply (tot_after _ i f s1 (Some g) s' c (ind (f_id g))); eauto; intros ? ? E; injection E as <-; lia]| |]; intros; unfold zero; lia.
  - eapply tot_ext; [eapply tot_trans; [apply adds_tot; apply adds_drop|eapply (tot_after _ i f s1 None s' c zero); eauto; discriminate]| |]; intros; unfold zero; lia.
Qed.
Lemma adds_data : forall s n, adds s (put_data s n) zero zero.
Proof. intros s n. split; [|split; [|split]]; auto; intros i; simp; unfold zero; lia. Qed.
Lemma tot_ser : forall s i f o, check_serialize s i f = Ok o -> match o with None => forall c, nth_error (d_chans s) i = Some (Some c) -> c_ser c = true | Some s' => s' = s end.
Proof.
  intros s i f o H. unfold check_serialize in H. mon. destruct (c_ser c) eqn:E; cbn in H; [|injection H as <-; auto]. destruct (f_seq f =? c_next c); injection H as <-; auto. intros c' K. congruence.
Qed.
Lemma tot_drop : forall s f s', (let! s := unref_conn (see s [ODrop f]) in Ok (see s [OFree f])) = Ok s' -> tot s s' (ind f) (ind f).
Proof.
  intros s f s' H. mon. injection H as <-. eapply tot_ext; [eapply tot_trans; [apply adds_tot; apply adds_drop|eapply tot_trans; apply adds_tot; [apply adds_conn|apply adds_free]]| |]; intros; unfold zero; lia.
Qed.
Lemma tot_perform : forall s t s', perform s t = Ok s' -> tot s s' (ind (task_frame t)) (ind (task_frame t)).
Proof.
  intros s [i f|i f] s' H; cbn [perform task_frame] in *.
  - destruct (negb (d_up _)).
    + apply adds_leave in H. eapply tot_ext; [eapply tot_trans; [apply adds_tot; apply adds_data|eapply tot_trans; [apply adds_tot; apply adds_drop|apply adds_tot; exact H]]| |]; intros; unfold zero; cbn; lia.
    + mon. rename a into o. apply tot_ser in M. eapply tot_ext with (x := fun j => (0 + ind (f_id f) j)%nat) (y := fun j => (0 + ind (f_id f) j)%nat); [eapply tot_trans; [apply adds_tot; apply adds_data|]| |]; auto. destruct o as [s1|].
      * subst s1. mon. eapply tot_deliver2; eauto.
      * apply adds_tot. eapply adds_store; eauto.
  - destruct (d_prof s) as [h|]; [|apply tot_drop; auto]. set (s0 := put_data s (d_data s - 1)) in *.
    assert (G : tot s0 s' (ind (f_id f)) (ind (f_id f))).
    { destruct (negb (d_up s0)); [apply tot_drop; auto|]. destruct (d_cur s0) as [j|]; [|apply tot_drop; auto]. mon. rename a into o. apply tot_ser in M. destruct o as [s1|].
      - subst s1. injection H as <-. apply adds_tot. apply (adds_run s0 (R1 j f h)). discriminate.
      - apply adds_tot. eapply adds_store; eauto. }
    eapply tot_ext; [eapply tot_trans; [apply adds_tot; apply adds_data|exact G]| |]; intros; unfold zero; lia.
Qed.
Lemma tot_returns : forall s r s', returns s r = Ok s' -> tot s s' (ind (run_frame r)) zero.
Proof.
  intros s [i f|i f h] s' H; cbn [returns run_frame] in *; mon; match goal with p : (dst * option frame)%type |- _ => destruct p as [s1 g] end; destruct g as [g|].
  - eapply (tot_after _ i f s1 (Some g) s' c (ind (f_id g))); eauto; [|intros ? ? E; injection E as <-; lia]. eapply tot_deliver2; eauto.
  - eapply (tot_after _ i f s1 None s' c zero); eauto. discriminate.
  - eapply (tot_after _ i f s1 (Some g) s' c (ind (f_id g))); eauto; [|intros ? ? E; injection E as <-; lia]. injection H as <-. apply adds_tot. apply (adds_run s1 (R1 i g h)). discriminate.
  - eapply (tot_after _ i f s1 None s' c zero); eauto. discriminate.
Qed.
Lemma cnt_drop : forall {A} (f : A -> nat) l k x i, nth_error l k = Some x -> (cnt (map f (drop_nth l k)) i + ind (f x) i = cnt (map f l) i)%nat.
Proof.
  induction l as [|a l IH]; intros [|k] x i H; cbn in *; try discriminate.
  - injection H as ->. lia.
  - specialize (IH k x i H). lia.
Qed.
(** The invariant. *)
Definition one (n i : nat) : nat := if (i <? n)%nat then 1%nat else 0%nat.
Definition KK (s : dst) : Prop := (forall i, CC s i = one (d_count s) i) /\ (forall i, WW s i <= one (d_count s) i)%nat /\ uq s.
Lemma one_S : forall n i, one (S n) i = (one n i + ind n i)%nat.
Proof. intros n i. unfold one, ind. destruct (Nat.ltb_spec i (S n)), (Nat.ltb_spec i n), (Nat.eqb_spec n i); lia. Qed.
Lemma KK_same : forall s s', adds s s' zero zero -> KK s -> KK s'.
Proof.
  intros s s' (A & B & C & D) (K1 & K2 & K3). split; [|split]; auto; intros i; rewrite ?D; [rewrite A, K1|specialize (B i); specialize (K2 i)]; unfold zero in *; lia.
Qed.
Lemma adds_refl : forall s, adds s s zero zero.
Proof. intros s. split; [|split; [|split]]; auto; intros; unfold zero; lia. Qed.
Lemma good_keep : forall c c', c_stored c' = c_stored c -> c_made c' = c_made c -> c_ser c' = c_ser c -> good c -> good c'.
Proof. intros c c' A B C (G1 & G2 & G3). unfold good. rewrite A, B, C. auto. Qed.
Lemma adds_on_cur : forall s f s', on_cur s f = Ok s' -> (forall c, good c -> c_stored (f c) = c_stored c /\ good (f c)) -> uq s -> adds s s' zero zero.
Proof.
  intros s f s' H G U. unfold on_cur in H. destruct (d_cur s) as [i|]; [|injection H as <-; apply adds_refl]. apply write_is in H. destruct H as (c & D & ->).
  apply adds_write; auto; apply G; eapply U; eauto.
Qed.
Lemma adds_wait : forall s f n, adds s (see s [ODeliver f (WWaiter n)]) (ind f) (ind f).
Proof. intros s f n. split; [|split; [|split]]; auto; intros j; simp; rewrite ?freed_app, ?taken_app, ?decided_app, !cnt_app; cbn; lia. Qed.
Lemma adds_task : forall s t, adds s (put_tasks s (d_tasks s ++ [t])) (ind (task_frame t)) (ind (task_frame t)).
Proof. intros s t. split; [|split; [|split]]; auto; intros j; simp; rewrite map_app, cnt_app; cbn; lia. Qed.
Lemma KK_receive : forall s r n z s', receive s r n z = Ok s' -> KK s -> KK s'.
Proof.
  intros s r n z s' H K. unfold receive in H. destruct (d_cur s) as [i|]; [|injection H as <-; auto]. mon. rewrite D in D0. injection D0 as <-.
  set (s1 := put_chans s _) in *. assert (A : adds s s1 zero zero) by (unfold s1; apply adds_write; auto; apply good_keep; auto). apply (KK_same _ _ A) in K.
  set (f := mkF _ _ _) in *. assert (F : f_id f = d_count s1) by reflexivity.
  assert (G : forall s2, adds (next_id s1) s2 (ind (f_id f)) (ind (f_id f)) -> KK s2).
  { intros s2 (A1 & A2 & A3 & A4). destruct K as (K1 & K2 & K3). split; [|split].
    - intros j. rewrite A1, A4. change (CC (next_id s1) j) with (CC s1 j). rewrite K1. cbn [next_id d_count]. rewrite one_S, F. auto.
    - intros j. rewrite A4. specialize (A2 j). change (WW (next_id s1) j) with (WW s1 j) in A2. specialize (K2 j). cbn [next_id d_count]. rewrite one_S. rewrite F in A2. lia.
    - apply A3. exact K3. }
  set (s2 := next_id s1) in *. clearbody f.
  destruct (negb (d_zero s2) && d_glob s2).
  { injection H as <-. apply G. split; [|split; [|split]]; auto; intros j; simp; rewrite ?freed_app, ?taken_app, ?decided_app, !cnt_app; cbn; lia. }
  destruct (r && _).
  { mon. injection H as <-. apply G. eapply adds_ext; [eapply adds_trans; [apply (adds_write s2 i c0 (set_wait (tl (c_wait c)))); auto; apply good_keep; auto|]| |].
    - apply (adds_wait _ (f_id f) n).
    - intros; unfold zero; lia.
    - intros; unfold zero; lia. }
  assert (Q : forall t s', task_frame t = f_id f -> (let! s0 := ref_ch (put_conn (put_data s2 (d_data s2 + 1)) (d_conn s2 + 1)) i in Ok (put_tasks s0 (d_tasks s0 ++ [t]))) = Ok s' -> KK s').
  { intros t s3 T Q. unfold ref_ch in Q. mon. injection Q as <-. apply G. set (sa := put_conn _ _) in *.
    eapply adds_ext; [eapply adds_trans; [apply adds_data|eapply adds_trans; [apply adds_conn|eapply adds_trans; [apply (adds_write sa i c0 (fun c => set_ref (c_ref c + 1) c)); auto; apply good_keep; auto|]]]| |].
    - exact (adds_task (put_chans sa (upd_nth (d_chans sa) i (Some (set_ref (c_ref c0 + 1) c0)))) t).
    - intros; rewrite T; unfold zero; lia.
    - intros; rewrite T; unfold zero; lia. }
  destruct (c_recv c) as [h|]; [eapply (Q (T2 i f)); eauto|]. destruct (d_prof s2); [eapply (Q (T1 i f)); eauto|].
  injection H as <-. apply G. split; [|split; [|split]]; auto; intros j; simp; rewrite ?freed_app, ?taken_app, ?decided_app, !cnt_app; cbn; lia.
Qed.
Lemma KK_step : forall s e s', dstep s e = Ok s' -> KK s -> KK s'.
Proof.
  intros s e s' H K. pose proof K as (K1 & K2 & K3). destruct e; cbn [dstep] in H.
  - injection H as <-. exact K.
  - eapply KK_same; [eapply adds_on_cur; [exact H| |exact K3]|auto]. intros c G. split; auto.
  - injection H as <-. exact K.
  - eapply KK_same; [eapply adds_on_cur; [exact H| |exact K3]|auto]. intros c (G1 & G2 & G3). unfold set_ser. destruct b, (c_made c) eqn:E; cbn.
    + split; auto. split; auto.
    + rewrite G2 by auto. split; auto. split; [constructor|]. split; auto; cbn; discriminate.
    + split; [reflexivity|]. split; [exact G1|split; cbn; [intros X; apply G2; congruence|discriminate]].
    + split; [reflexivity|]. split; [exact G1|split; cbn; [intros X; apply G2; congruence|discriminate]].
  - eapply KK_same; [eapply adds_on_cur; [exact H| |exact K3]|auto]. intros c G. split; auto.
  - destruct (d_up s); [eapply KK_receive; eauto|injection H as <-; auto].
  - destruct (nth_error (d_tasks s) k) as [t|] eqn:E; [|injection H as <-; auto]. apply tot_perform in H. destruct (H K3) as (A & B & C & D). split; [|split]; auto; intros i; rewrite ?D.
    + rewrite A. pose proof (cnt_drop task_frame _ _ _ i E). specialize (K1 i). simp. lia.
    + specialize (B i). pose proof (cnt_drop task_frame _ _ _ i E). specialize (K2 i). simp. lia.
  - destruct (nth_error (d_runs s) k) as [t|] eqn:E; [|injection H as <-; auto]. apply tot_returns in H. destruct (H K3) as (A & B & C & D). split; [|split]; auto; intros i; rewrite ?D.
    + rewrite A. pose proof (cnt_drop run_frame _ _ _ i E). specialize (K1 i). simp. lia.
    + specialize (B i). specialize (K2 i). unfold zero in B. simp. lia.
  - injection H as <-. exact K.
  - destruct (d_cur s) as [i|]; [|injection H as <-; auto]. apply adds_unref in H. eapply KK_same; [exact H|]. exact K.
  - destruct (d_cur s) as [i|]; [injection H as <-; auto|]. destruct (d_up s); injection H as <-; auto. split; [|split].
    + intros j. simp. rewrite held_add. cbn. specialize (K1 j). simp. lia.
    + intros j. simp. rewrite held_add. cbn. specialize (K2 j). simp. lia.
    + intros j c H. cbn in H. destruct (lt_dec j (length (d_chans s))) as [L|L]; [rewrite nth_error_app1 in H by auto; eapply K3; eauto|].
      rewrite nth_error_app2 in H by lia. destruct (j - length (d_chans s))%nat as [|m]; cbn in H; [injection H as <-|destruct m; discriminate]. split; [constructor|split; cbn; auto; discriminate].
Qed.
Lemma KK_init : forall z, KK (d0 z).
Proof.
  intros z. split; [|split]; try (intros i; cbn; unfold one; destruct (Nat.ltb_spec i 0); lia). intros [|i] c H; cbn in H; [injection H as <-; split; [constructor|split; cbn; auto; discriminate]|destruct i; discriminate].
Qed.
Lemma drun_inv : forall (P : dst -> Prop), (forall s e s', dstep s e = Ok s' -> P s -> P s') -> forall es s s', drun s es = Ok s' -> P s -> P s'.
Proof. intros P ST. induction es as [|e es IH]; intros s s' H K; cbn in H; [injection H as <-; auto|]. mon. eauto. Qed.
Lemma cnt_occ : forall l i, count_occ Nat.eq_dec l i = cnt l i.
Proof. induction l as [|a l IH]; intros i; cbn; auto. unfold ind. rewrite IH. destruct (Nat.eq_dec a i), (Nat.eqb_spec a i); congruence || lia. Qed.
Lemma frames_once : forall z es s, drun (d0 z) es = Ok s ->
  (forall i, (i < d_count s)%nat <-> In i (in_library s ++ freed (d_log s) ++ taken (d_log s))) /\ NoDup (in_library s ++ freed (d_log s) ++ taken (d_log s)) /\ NoDup (waiting s ++ decided (d_log s)).
Proof.
  intros z es s H. pose proof (drun_inv KK KK_step _ _ _ H (KK_init z)) as (K1 & K2 & K3).
  assert (E : forall i, cnt (in_library s ++ freed (d_log s) ++ taken (d_log s)) i = one (d_count s) i).
  { intros i. rewrite <- K1. unfold in_library, waiting, CC, held. rewrite !cnt_app. lia. }
  split; [|split].
  - intros i. rewrite (count_occ_In Nat.eq_dec), cnt_occ, E. unfold one. destruct (Nat.ltb_spec i (d_count s)); lia.
  - apply (NoDup_count_occ Nat.eq_dec). intros i. rewrite cnt_occ, E. unfold one. destruct (i <? d_count s)%nat; lia.
  - apply (NoDup_count_occ Nat.eq_dec). intros i. rewrite cnt_occ. unfold waiting. rewrite !cnt_app. specialize (K2 i). unfold WW, held in K2. unfold one in K2. destruct (i <? d_count s)%nat; lia.
Qed.
