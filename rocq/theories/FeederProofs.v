(** Proofs about the file feeder. *)
From Verif Require Import Base CodecModel CodecSpec CodecProofs FlowModel FlowSpec FlowProofs SequencerModel SequencerSpec SequencerProofs FeederModel.

Lemma feeds_nil_inv {A} (ops : fops A) st st' : feeds ops st [] st' -> st = st'.
Proof. intros H. remember [] as l eqn:E. destruct H as [|? cs]; [reflexivity|]. destruct cs; discriminate. Qed.

(** What is left to send. *)
Definition ff_left (f : ffile) : bytes := (if ff_mime f then [13; 10] else []) ++ ff_rest f.

Lemma fread_spec f n : 0 <= n -> fst (fread f n) ++ ff_rest (snd (fread f n)) = ff_rest f.
Proof. intros _. apply firstn_skipn. Qed.

Lemma fread_eof f n : 0 <= n -> (ff_eof f = true -> ff_rest f = []) ->
  ff_eof (snd (fread f n)) = true -> ff_rest (snd (fread f n)) = [].
Proof.
  intros Hn H. unfold fread; cbn [snd ff_eof ff_rest]. intros E. apply orb_prop in E. destruct E as [E|E].
  - rewrite (H E). apply skipn_nil.
  - apply skipn_all2. unfold zlen in *. lia.
Qed.

Lemma ff_content_spec f size c f' : 0 < size -> ff_get_content f size = Ok (c, f') ->
  c ++ ff_left f' = ff_left f /\ ff_mime f' = false /\ ff_size f' = ff_size f /\
  ((ff_eof f = true -> ff_rest f = []) -> ff_eof f' = true -> ff_rest f' = []) /\
  (c = [] -> ff_eof f' = true) /\ (ff_mime f = false \/ 2 <= size -> zlen c <= size).
Proof.
  intros Hs. unfold ff_get_content. destruct (ff_mime f) eqn:Em.
  - set (g := mkFF _ _ _ _). intros E.
    pose proof (Z.mod_pos_bound (size - 2) two64 ltac:(unfold two64; lia)) as Hmb.
    pose proof (fread_spec g _ (proj1 Hmb)) as F1. pose proof (fread_eof g _ (proj1 Hmb)) as F2.
    destruct (fread g ((size - 2) mod two64)) as (bs, f1) eqn:Ef.
    assert (X1 : f1 = snd (fread g ((size - 2) mod two64))) by (rewrite Ef; reflexivity).
    assert (X2 : bs = fst (fread g ((size - 2) mod two64))) by (rewrite Ef; reflexivity).
    injection E as <- <-. cbn [fst snd] in *.
    assert (Hm : ff_mime f1 = false) by (rewrite X1; reflexivity).
    unfold ff_left. rewrite Hm, Em. cbn [app]. conj; auto.
    + rewrite F1. reflexivity.
    + rewrite X1. reflexivity.
    + discriminate.
    + intros [H|H]; [discriminate|].
      assert (Hl : zlen bs <= (size - 2) mod two64).
      { rewrite X2. unfold fread; cbn [fst]. unfold zlen. rewrite firstn_length. lia. }
      assert ((size - 2) mod two64 <= size - 2) by (apply Z.mod_le; unfold two64; lia).
      unfold zlen in *. cbn [length]. lia.
  - intros E. destruct (fread f size) as (bs, f1) eqn:Ef. injection E as <- <-.
    pose proof (fread_spec f size ltac:(lia)) as F1. pose proof (fread_eof f size ltac:(lia)) as F2.
    rewrite Ef in F1, F2. cbn [fst snd] in F1, F2.
    assert (X1 : f1 = snd (fread f size)) by (rewrite Ef; reflexivity).
    assert (X2 : bs = fst (fread f size)) by (rewrite Ef; reflexivity).
    assert (Hm : ff_mime f1 = false) by (rewrite X1; exact Em).
    unfold ff_left. rewrite Hm, Em. cbn [app]. conj; auto.
    + rewrite X1. reflexivity.
    + intros ->. rewrite X1. cbn [snd fread ff_eof]. apply orb_true_intro. right.
      unfold fread in X2; cbn [fst] in X2. apply (f_equal (@length Z)) in X2. rewrite firstn_length in X2. cbn [length] in X2. unfold zlen in *. lia.
    + intros _. rewrite X2. unfold fread; cbn [fst]. unfold zlen. rewrite firstn_length. lia.
Qed.

Lemma ff_feeds content mime cs f : feeds file_ops (ff_new content mime) cs f ->
  concat cs ++ ff_left f = (if mime then [13; 10] else []) ++ content /\ (ff_eof f = true -> ff_rest f = []) /\
  (cs <> [] -> ff_mime f = false).
Proof.
  intros H. remember (ff_new content mime) as f0 eqn:E0. induction H as [f1|f1 cs f2 size c f3 H IH Hs Hc].
  - subst f1. conj; [reflexivity|discriminate|congruence].
  - specialize (IH E0). destruct IH as (I1 & I2 & I3). cbn [file_ops op_content] in Hc.
    destruct (ff_content_spec f2 size c f3 Hs Hc) as (C1 & C2 & C3 & C4 & _).
    rewrite concat_app. cbn [concat]. rewrite app_nil_r, <- app_assoc, C1. auto.
Qed.

(** Whatever sizes are requested. *)
Theorem file_content content mime cs f : feeds file_ops (ff_new content mime) cs f ->
  (exists left, concat cs ++ left = (if mime then [13; 10] else []) ++ content) /\
  (cs <> [] -> op_finished file_ops f = true -> concat cs = (if mime then [13; 10] else []) ++ content).
Proof.
  intros H. destruct (ff_feeds _ _ _ _ H) as (I1 & I2 & I3). split; [eauto|].
  intros Hne Hf. rewrite <- I1. unfold ff_left. rewrite (I3 Hne), (I2 Hf), !app_nil_r. reflexivity.
Qed.

(** Every call makes progress, so the transfer ends. *)
Theorem file_progress content mime cs f size c f' :
  feeds file_ops (ff_new content mime) cs f -> 0 < size -> op_content file_ops f size = Ok (c, f') ->
  c <> [] \/ op_finished file_ops f' = true.
Proof.
  intros _ Hs H. destruct (ff_content_spec f size c f' Hs H) as (_ & _ & _ & _ & C & _).
  destruct c; [right; apply C; reflexivity|left; discriminate].
Qed.

Theorem file_size content mime cs f size c f' :
  feeds file_ops (ff_new content mime) cs f -> 0 < size -> op_content file_ops f size = Ok (c, f') ->
  mime = false \/ cs <> [] \/ 2 <= size -> zlen c <= size.
Proof.
  intros Hf Hs H Hor. destruct (ff_content_spec f size c f' Hs H) as (_ & _ & _ & _ & _ & C).
  apply C. destruct (ff_feeds _ _ _ _ Hf) as (_ & _ & I3).
  destruct Hor as [->|[Hn|H2]]; auto. left.
  destruct cs as [|x cs]; [|apply I3; discriminate]. pose proof (feeds_nil_inv _ _ _ Hf) as <-. reflexivity.
Qed.

(** The finish handler runs at most once, and once when the feeder was seen finished. *)
Lemma ask_finished_inv {A} (ops : fops A) n f : fe_calls f = (if fe_notified f then 1 else 0) ->
  (fe_notified f = true -> fe_handler f = true) ->
  fe_calls (ask_finished ops n f) =
    (if fe_notified f || (fe_handler f && op_finished ops (fe_state f) && negb (Nat.eqb n 0)) then 1 else 0).
Proof.
  revert f. induction n as [|n IH]; intros f Hc Hn; cbn [ask_finished].
  - rewrite Hc. cbn [Nat.eqb negb]. rewrite andb_false_r, orb_false_r. reflexivity.
  - unfold feeder_is_finished. cbn [Nat.eqb negb]. rewrite andb_true_r.
    destruct (op_finished ops (fe_state f)) eqn:Ef, (fe_handler f) eqn:Eh, (fe_notified f) eqn:En; cbn [andb negb orb snd];
      rewrite IH; cbn [fe_calls fe_notified fe_handler fe_state]; rewrite ?En, ?Eh, ?Ef, ?Hc; auto; try (intros; congruence).
Qed.

Theorem finish_once content mime handler cs st n :
  feeds file_ops (ff_new content mime) cs st ->
  fe_calls (ask_finished file_ops n (mkFeeder st 0 false (zlen (concat cs)) handler false 0)) =
    (if handler && op_finished file_ops st && negb (Nat.eqb n 0) then 1 else 0).
Proof. intros _. rewrite ask_finished_inv; [reflexivity|reflexivity|discriminate]. Qed.

(** ** A file without MIME header through the sequencer *)
Definition small (f : ffile) : Prop := ff_mime f = false /\ ff_size f < 2147483646.

Lemma file_good : good_feeder file_ops small.
Proof.
  intros f (Hm & Hs). split.
  - cbn [op_size file_ops]. unfold ff_get_size. destruct (Z.leb_spec two31 (ff_size f + 2)); [unfold two31 in *; lia|]. eauto.
  - intros size H0. destruct (ff_get_content f size) as [(c, f')|] eqn:E.
    + destruct (ff_content_spec f size c f' H0 E) as (_ & C2 & C3 & _ & _ & C6).
      exists c, f'. split; [exact E|]. split; [apply C6; auto|]. split; [exact C2|]. lia.
    + unfold ff_get_content in E. rewrite Hm in E. destruct (fread f size); discriminate.
Qed.

Lemma Forall2_app_inv_l' {X Y} (R : X -> Y -> Prop) l1 l2 l : Forall2 R (l1 ++ l2) l ->
  exists m1 m2, l = m1 ++ m2 /\ Forall2 R l1 m1 /\ Forall2 R l2 m2.
Proof. intros H. apply Forall2_app_inv_l in H. destruct H as (m1 & m2 & H1 & H2 & ->). eauto. Qed.

Lemma segment_payload {A} (d : qdata A) cs : forall seq b, concat (map f_payload (segment d seq b cs)) = concat cs.
Proof. induction cs as [|c cs IH]; intros; cbn [segment map concat f_payload]; [reflexivity|]. rewrite IH. reflexivity. Qed.

(** When everything queued has been sent and the connection is up, the frames
    written carry the files, in order. *)
Theorem files_sent es s : Forall (sev_ok small) es -> handlers_below B es -> no_pauses es ->
  Forall (fun d => exists content h, q_feeder d = Some (file_feeder content false h)) (queued es) ->
  srun file_ops chst0 es = Ok s -> c_up s = true -> c_pend s = [] ->
  exists fs, Forall2 data_wire fs (c_out s) /\
    concat (map f_payload fs) = concat (map (fun d => match q_feeder d with Some f => ff_rest (fe_state f) | None => [] end) (queued es)).
Proof.
  intros Ho Hh Hn Hq Hs Hu Hp.
  destruct (segmentation file_ops small file_good es s Ho Hh Hn Hs) as
    (dn & cur & wa & sent & rest & S1 & S2 & S3 & _ & S5 & S6 & S7 & _).
  rewrite (S7 Hu), app_nil_r in S5. rewrite Hp in S2. destruct wa; [|discriminate]. rewrite app_nil_r in S1, S5.
  exists sent. split; [exact S6|]. rewrite <- S5, S1. clear S5 S6. rewrite S1 in Hq.
  clear - S3 Hq. generalize 0 as seq. induction dn as [|(d, cs) dn IH]; intros seq; [reflexivity|].
  inversion S3 as [|? ? W S3']; inversion Hq as [|? ? X Hq']; subst. cbn [stream map fst concat].
  rewrite map_app, concat_app, segment_payload, IH by assumption. f_equal.
  destruct X as (content & h & X). cbn [fst snd] in *. unfold whole in W. rewrite X in W |- *.
  destruct W as (st & F1 & F2). cbn [file_feeder fe_state] in *.
  destruct (file_content content false cs st F1) as (_ & C).
  cbn [app] in C. apply C; [|exact F2]. intros ->. apply feeds_nil_inv in F1. subst st. discriminate.
Qed.
