(** Proofs about serialised delivery. *)
From Verif Require Import Base SerializeModel SerializeSpec.
Ltac conj := repeat match goal with |- _ /\ _ => split end.

Definition off (L : list Z) (i : nat) : Z := sum (firstn i L).
Definition frame_of (e : Z) (L : list Z) (f : fr) : Prop :=
  (f_id f < length L)%nat /\ f_seq f = (e + off L (f_id f)) mod modulus.
Lemma sum_app a b : sum (a ++ b) = sum a + sum b.
Proof. induction a; cbn; [lia|rewrite IHa; lia]. Qed.
Lemma off_app L n i : (i <= length L)%nat -> off (L ++ [n]) i = off L i.
Proof. intros H. unfold off. rewrite firstn_app. replace (i - length L)%nat with O by lia. cbn. rewrite app_nil_r. reflexivity. Qed.
Lemma off_all L : off L (length L) = sum L.
Proof. unfold off. rewrite firstn_all. reflexivity. Qed.
Lemma off_skip L k : off L k + sum (skipn k L) = sum L.
Proof. unfold off. rewrite <- sum_app, firstn_skipn. reflexivity. Qed.
Lemma off_S L i n : nth_error L i = Some n -> off L (S i) = off L i + n.
Proof.
  unfold off. revert i. induction L as [|a L IH]; intros [|i]; cbn; try discriminate; intros H.
  - injection H as <-. lia.
  - specialize (IH i H). cbn in IH. rewrite IH. lia.
Qed.
Definition pos (L : list Z) : Prop := forall n, In n L -> 0 < n.
Lemma off_lt L i j : pos L -> (i < j)%nat -> (j <= length L)%nat -> off L i < off L j.
Proof.
  intros P. revert i j. induction L as [|a L IH]; intros i j H1 H2; cbn in H2; [lia|]. assert (0 < a) by (apply P; left; reflexivity).
  assert (P' : pos L) by (intros x X; apply P; right; exact X). destruct j as [|j]; [lia|]. destruct i as [|i].
  - unfold off. cbn. specialize (IH P' 0%nat j). unfold off in IH. cbn in IH. destruct j; cbn in *; [lia|]. specialize (IH ltac:(lia) ltac:(lia)). cbn in IH. lia.
  - unfold off in *. cbn. specialize (IH P' i j ltac:(lia) ltac:(lia)). lia.
Qed.
(** Frames that wait have different sequence numbers. *)
Lemma apart e L k i j : pos L -> (k <= i)%nat -> (k <= j)%nat -> (i < length L)%nat -> (j < length L)%nat -> sum L - off L k <= modulus ->
  (e + off L i) mod modulus = (e + off L j) mod modulus -> i = j.
Proof.
  intros P Hi Hj Li Lj B E.
  assert (M : 0 < modulus) by reflexivity.
  assert (D : forall a b, (k <= a)%nat -> (a < b)%nat -> (b < length L)%nat -> 0 < off L b - off L a < modulus).
  { intros a b A1 A2 A3. pose proof (off_lt L a b P A2 ltac:(lia)). pose proof (off_lt L b (length L) P A3 ltac:(lia)) as X. rewrite off_all in X.
    assert (off L k <= off L a). { destruct (Nat.eq_dec k a) as [->|N]; [lia|]. pose proof (off_lt L k a P ltac:(lia) ltac:(lia)). lia. } lia. }
  assert (Q : forall a b, (k <= a)%nat -> (a < b)%nat -> (b < length L)%nat -> (e + off L a) mod modulus = (e + off L b) mod modulus -> False).
  { intros a b A1 A2 A3 X. specialize (D a b A1 A2 A3).
    pose proof (Z.div_mod (e + off L a) modulus ltac:(lia)). pose proof (Z.div_mod (e + off L b) modulus ltac:(lia)). rewrite X in H.
    assert (Y : off L b - off L a = modulus * ((e + off L b) / modulus - (e + off L a) / modulus)) by lia.
    set (q := (e + off L b) / modulus - (e + off L a) / modulus) in Y. destruct (Z_le_gt_dec q 0); nia. }
  destruct (lt_eq_lt_dec i j) as [[H|H]|H]; [|exact H|]; exfalso; [apply (Q i j)|apply (Q j i)]; auto.
Qed.

(** Lists. *)
Definition ids (l : list fr) : list nat := map f_id l.
Lemma find_id l i f : with_id l i = Some f -> In f l /\ f_id f = i.
Proof. unfold with_id. intros H. apply find_some in H. destruct H as [H1 H2]. apply Nat.eqb_eq in H2. auto. Qed.
Lemma in_without l i f : In f (without l i) <-> In f l /\ f_id f <> i.
Proof. unfold without. rewrite filter_In, negb_true_iff, Nat.eqb_neq. tauto. Qed.

Record jinv (e : Z) (done : list zev) (s : zst) (k : nat) : Prop := mkJ {
  j_pos : pos (sizes done);
  j_on : z_on s = true;
  j_made : z_made s = true;
  j_count : z_count s = length (sizes done);
  j_exp : z_exp s = (e + sum (sizes done)) mod modulus;
  j_k : (k <= length (sizes done))%nat;
  j_next : z_next s = (e + off (sizes done) k) mod modulus;
  j_fit : sum (sizes done) - off (sizes done) k <= modulus;
  j_fr : forall f, In f (z_tasks s) \/ In f (z_run s) \/ In f (z_hash s) -> frame_of e (sizes done) f;
  j_tasks : forall f, In f (z_tasks s) -> (k <= f_id f)%nat /\ (In f (z_run s) -> False) /\ (forall g, In g (z_run s) -> f_id g <> f_id f) /\ (forall g, In g (z_hash s) -> f_id g <> f_id f);
  j_hash : forall f, In f (z_hash s) -> (k < f_id f)%nat;
  j_run : z_run s = [] \/ exists f, z_run s = [f] /\ f_id f = k;
  j_log : seen (z_log s) = calls k ++ (match z_run s with [] => [] | _ => [OStart k] end);
  j_ended : ended (z_log s) = k;
  j_all : z_up s = true -> forall i, (k <= i < length (sizes done))%nat -> (exists f, (In f (z_tasks s) \/ In f (z_run s) \/ In f (z_hash s)) /\ f_id f = i)
}.
Lemma sizes_app a b : sizes (a ++ b) = sizes a ++ sizes b.
Proof. induction a as [|x a IH]; [reflexivity|]. cbn. destruct x as [| ? []| | | |]; cbn; rewrite ?IH; reflexivity. Qed.
Lemma seen_app a b : seen (a ++ b) = seen a ++ seen b.
Proof. unfold seen. apply filter_app. Qed.
Lemma ended_app a b : ended (a ++ b) = (ended a + ended b)%nat.
Proof. unfold ended. rewrite filter_app, app_length. reflexivity. Qed.
Lemma freed_seen l q : seen (replaced l q) = [].
Proof. unfold seen, replaced. induction (filter (fun f => f_seq f =? q) l); cbn; auto. Qed.
Lemma freed_ended l q : ended (replaced l q) = O.
Proof. unfold ended, replaced. induction (filter (fun f => f_seq f =? q) l); cbn; auto. Qed.
Arguments seen : simpl never.
Arguments ended : simpl never.
Lemma one_id l i f k : (l = [] \/ exists g, l = [g] /\ f_id g = k) -> with_id l i = Some f -> l = [f] /\ f_id f = k /\ i = k /\ without l i = [].
Proof.
  intros [->|(g & -> & G)]; [discriminate|]. unfold with_id, without. cbn. destruct (Nat.eqb (f_id g) i) eqn:E; [|discriminate]. intros H. injection H as <-. apply Nat.eqb_eq in E. cbn. split; [reflexivity|]. split; [exact G|]. split; [congruence|reflexivity].
Qed.
Lemma jstep e done s k ev : jinv e done s k -> plain done s ev -> exists k', jinv e (done ++ [ev]) (zstep s ev) k'.
Proof.
  intros J P. pose proof J as J0. destruct J as [Pos On Made Count Exp K Next Fit Fr Tasks Hash Run Log End All].
  assert (Same : forall s', sizes (done ++ [ev]) = sizes done -> z_on s' = true -> z_made s' = true -> z_count s' = z_count s -> z_exp s' = z_exp s -> z_next s' = z_next s -> z_tasks s' = z_tasks s ->
    z_run s' = z_run s -> z_hash s' = z_hash s -> z_log s' = z_log s -> (z_up s' = true -> z_up s = true) -> jinv e (done ++ [ev]) s' k).
  { intros s' E0 E1 E2 E3 E4 E5 E6 E7 E8 E9 E10. constructor; rewrite ?E0, ?E1, ?E2, ?E3, ?E4, ?E5, ?E6, ?E7, ?E8, ?E9; auto. }
  destruct ev as [b|n taken|n|i|i n|]; cbn [zstep].
  - cbn in P. subst b. rewrite Made. cbn [andb negb]. exists k. apply Same; auto; try reflexivity. rewrite sizes_app. cbn. apply app_nil_r.
  - destruct P as (Up & N & -> & B). rewrite Up. exists k. rewrite End in B.
    assert (S1 : sizes (done ++ [ZFrame n false]) = sizes done ++ [n]) by (rewrite sizes_app; reflexivity).
    assert (Len : length (sizes done ++ [n]) = S (length (sizes done))) by (rewrite app_length; cbn; lia).
    assert (Sum : sum (sizes done ++ [n]) = sum (sizes done) + n) by (rewrite sum_app; cbn; lia).
    constructor; rewrite ?S1; cbn [z_on z_made z_count z_exp z_next z_tasks z_run z_hash z_log z_up]; auto.
    + intros x H. apply in_app_or in H. destruct H as [H|[<-|[]]]; auto.
    + rewrite Len, Count. reflexivity.
    + rewrite Sum, Exp. rewrite Zplus_mod_idemp_l. f_equal. lia.
    + lia.
    + rewrite off_app by lia. exact Next.
    + rewrite off_app, Sum by lia. pose proof (off_skip (sizes done) k). lia.
    + intros f H. rewrite in_app_iff in H. assert (H' : (In f (z_tasks s) \/ In f (z_run s) \/ In f (z_hash s)) \/ f = mkFr (z_count s) (z_exp s) n) by (cbn in H; intuition).
      destruct H' as [H'| ->].
      * destruct (Fr f H') as [F1 F2]. split; [lia|]. rewrite off_app by lia. exact F2.
      * split; cbn [f_id f_seq]; [lia|]. rewrite Count, off_app, off_all by lia. exact Exp.
    + intros f H. apply in_app_or in H. destruct H as [H|[<-|[]]]; [auto|]. cbn [f_id]. split; [lia|].
      assert (Old : forall g, In g (z_run s) \/ In g (z_hash s) -> f_id g <> z_count s) by (intros g G; destruct (Fr g ltac:(tauto)) as [G1 _]; lia).
      split; [intros H; apply (Old (mkFr (z_count s) (z_exp s) n)); auto|]. split; intros g G; apply Old; auto.
    + intros _ i H. rewrite Len in H. destruct (Nat.eq_dec i (length (sizes done))) as [->|Ne].
      * exists (mkFr (z_count s) (z_exp s) n). rewrite in_app_iff. cbn. split; [auto|congruence].
      * destruct (All Up i ltac:(lia)) as (f & F1 & F2). exists f. rewrite in_app_iff. split; [tauto|exact F2].
  - destruct P.
  - destruct (with_id (z_tasks s) i) as [f|] eqn:W; [|exists k; apply Same; auto; rewrite sizes_app; cbn; apply app_nil_r].
    assert (S1 : sizes (done ++ [ZTask i]) = sizes done) by (rewrite sizes_app; cbn; apply app_nil_r).
    apply find_id in W. destruct W as [W1 W2]. destruct (Tasks f W1) as (T1 & T2 & T3 & T4). destruct (Fr f (or_introl W1)) as [F1 F2].
    destruct (z_up s) eqn:Up; cbn [negb].
    + rewrite On. cbn [negb orb]. destruct (f_seq f =? z_next s) eqn:Q.
      * apply Z.eqb_eq in Q. assert (Id : f_id f = k). { apply (apart e (sizes done) k); auto; [lia|congruence]. }
        assert (R0 : z_run s = []). { destruct Run as [R|(g & R & G)]; [exact R|]. exfalso. apply (T3 g); [rewrite R; left; reflexivity|congruence]. }
        exists k. constructor; rewrite ?S1; cbn [z_on z_made z_count z_exp z_next z_tasks z_run z_hash z_log z_up]; auto.
        -- intros g H. apply Fr. rewrite in_without, in_app_iff in H. cbn in H. destruct H as [[H _]|[[H|[<-|[]]]|H]]; tauto.
        -- intros g H. apply in_without in H. destruct H as [H1 H2]. destruct (Tasks g H1) as (A1 & A2 & A3 & A4). rewrite R0 in *. cbn [app In]. split; [exact A1|]. split; [intros [<-|[]]; congruence|]. split; [|exact A4]. intros h [<-|[]]. congruence.
        -- rewrite R0. right. exists f. auto.
        -- rewrite seen_app, Log, R0. cbn. rewrite app_nil_r. rewrite <- W2, Id. reflexivity.
        -- rewrite ended_app, End. unfold ended. cbn. lia.
        -- intros _ j Hj. destruct (All eq_refl j Hj) as (g & G1 & G2). destruct (Nat.eq_dec (f_id g) i) as [E|E].
           ++ exists f. rewrite in_app_iff. cbn. split; [tauto|congruence].
           ++ exists g. rewrite in_without, in_app_iff. split; [tauto|exact G2].
      * apply Z.eqb_neq in Q. assert (Id : f_id f <> k) by (intros E; apply Q; rewrite F2, E; symmetry; exact Next).
        assert (Diff : forall g, In g (z_hash s) -> f_seq g <> f_seq f).
        { intros g G E. apply (T4 g G). destruct (Fr g ltac:(tauto)) as [G1 G2]. pose proof (Hash g G). apply (apart e (sizes done) k); auto; [lia|congruence]. }
        assert (InH : forall g, In g (filter (fun g => negb (f_seq g =? f_seq f)) (z_hash s) ++ [f]) <-> In g (z_hash s) \/ g = f).
        { intros g. rewrite in_app_iff, filter_In, negb_true_iff, Z.eqb_neq. cbn. split; [intros [[H _]|[H|[]]]; auto|intros [H| ->]; auto]. }
        exists k. constructor; rewrite ?S1; cbn [z_on z_made z_count z_exp z_next z_tasks z_run z_hash z_log z_up]; auto.
        -- intros g H. rewrite in_without, InH in H. apply Fr. destruct H as [[H _]|[H|[H| ->]]]; tauto.
        -- intros g H. apply in_without in H. destruct H as [H1 H2]. destruct (Tasks g H1) as (A1 & A2 & A3 & A4). conj; auto.
           intros h H. apply InH in H. destruct H as [H| ->]; [auto|congruence].
        -- intros g H. apply InH in H. destruct H as [H| ->]; [auto|lia].
        -- rewrite seen_app, freed_seen, app_nil_r. exact Log.
        -- rewrite ended_app, freed_ended. lia.
        -- intros _ j Hj. destruct (All eq_refl j Hj) as (g & G1 & G2). destruct (Nat.eq_dec (f_id g) i) as [E|E].
           ++ exists f. rewrite InH. split; [tauto|congruence].
           ++ exists g. rewrite in_without, InH. split; [tauto|exact G2].
    + exists k. constructor; rewrite ?S1; cbn [z_on z_made z_count z_exp z_next z_tasks z_run z_hash z_log z_up]; auto.
      * intros g H. rewrite in_without in H. apply Fr. tauto.
      * intros g H. apply in_without in H. apply Tasks. tauto.
      * rewrite seen_app. cbn. rewrite app_nil_r. exact Log.
      * rewrite ended_app, End. unfold ended. cbn. lia.
      * discriminate.
  - cbn in P. destruct (with_id (z_run s) i) as [f|] eqn:W; [|exists k; apply Same; auto; rewrite sizes_app; cbn; apply app_nil_r].
    assert (S1 : sizes (done ++ [ZReturn i n]) = sizes done) by (rewrite sizes_app; cbn; apply app_nil_r).
    destruct (one_id _ _ _ _ Run W) as (R & Fk & -> & Rest). rewrite On, Rest. pose proof (Fr f ltac:(rewrite R; right; left; left; reflexivity)) as [F1 F2].
    assert (Lk : (k < length (sizes done))%nat) by lia.
    assert (OffS : off (sizes done) (S k) = off (sizes done) k + n) by (apply off_S; exact P).
    assert (Nx : (f_seq f + n) mod modulus = (e + off (sizes done) (S k)) mod modulus).
    { rewrite F2, Fk, Zplus_mod_idemp_l, OffS. f_equal. lia. }
    assert (N0 : 0 < n) by (apply Pos; apply nth_error_In with k; exact P).
    assert (Fit' : sum (sizes done) - off (sizes done) (S k) <= modulus) by (rewrite OffS; clear - Fit N0; lia).
    assert (Tk : forall g, In g (z_tasks s) -> (S k <= f_id g)%nat).
    { intros g G. destruct (Tasks g G) as (A1 & _ & A3 & _). specialize (A3 f ltac:(rewrite R; left; reflexivity)). clear - A1 A3 Fk. lia. }
    assert (Hk : forall g, In g (z_hash s) -> (f_seq g = (f_seq f + n) mod modulus <-> f_id g = S k)).
    { intros g G. pose proof (Hash g G). destruct (Fr g ltac:(tauto)) as [G1 G2]. rewrite G2, Nx. split; [|intros ->; reflexivity]. intros E.
      apply (apart e (sizes done) (S k)); auto; clear - H G1; lia. }
    assert (LogE : seen (z_log s) ++ [OEnd k] = calls (S k)). { rewrite Log, R. cbn [calls]. rewrite <- app_assoc. reflexivity. }
    destruct (at_seq (z_hash s) ((f_seq f + n) mod modulus)) as [g|] eqn:A.
    + unfold at_seq in A. apply find_some in A. destruct A as [A1 A2]. apply Z.eqb_eq in A2. pose proof (proj1 (Hk g A1) A2) as Gid.
      assert (InH : forall h, In h (filter (fun h => negb (f_seq h =? (f_seq f + n) mod modulus)) (z_hash s)) <-> In h (z_hash s) /\ f_id h <> S k).
      { intros h. rewrite filter_In, negb_true_iff, Z.eqb_neq. split; intros [H1 H2]; split; auto; intros X; apply H2; apply Hk; auto. }
      exists (S k). constructor; rewrite ?S1; cbn [z_on z_made z_count z_exp z_next z_tasks z_run z_hash z_log z_up app]; auto.
      * intros h H. apply Fr. rewrite InH in H. cbn in H. destruct H as [H|[[<-|[]]|H]]; tauto.
      * intros h H. destruct (Tasks h H) as (B1 & B2 & B3 & B4). specialize (Tk h H). conj; auto.
        -- intros [<-|[]]. apply (B4 g A1). reflexivity.
        -- intros q [<-|[]]. apply B4. exact A1.
        -- intros q Q. apply InH in Q. apply B4. tauto.
      * intros h H. apply InH in H. destruct H as [H1 H2]. specialize (Hash h H1). clear - Hash H2. lia.
      * right. exists g. auto.
      * rewrite seen_app, <- LogE, <- app_assoc, Gid. reflexivity.
      * rewrite ended_app, End. unfold ended. cbn. clear. lia.
      * intros Up j Hj. destruct (All Up j ltac:(clear - Hj; lia)) as (h & H1 & H2). rewrite R in H1. cbn in H1.
        destruct (Nat.eq_dec j (S k)) as [E|E]; [exists g; cbn; split; [tauto|congruence]|]. exists h. rewrite InH. cbn. split; [|exact H2].
        destruct H1 as [H1|[[<-|[]]|H1]]; [tauto|exfalso; clear - Fk Hj H2; lia|]. right. right. split; [exact H1|congruence].
    + assert (Hn : forall g, In g (z_hash s) -> f_id g <> S k).
      { intros g G E. apply Hk in E; auto. pose proof (find_none _ _ A g G) as X. cbn in X. rewrite E, Z.eqb_refl in X. discriminate. }
      exists (S k). constructor; rewrite ?S1; cbn [z_on z_made z_count z_exp z_next z_tasks z_run z_hash z_log z_up app]; auto.
      * intros h H. apply Fr. cbn in H. tauto.
      * intros h H. destruct (Tasks h H) as (B1 & B2 & B3 & B4). specialize (Tk h H). conj; auto; intros q [].
      * intros h H. specialize (Hash h H). specialize (Hn h H). clear - Hash Hn. lia.
      * rewrite seen_app, <- LogE, app_nil_r. reflexivity.
      * rewrite ended_app, End. unfold ended. cbn. clear. lia.
      * intros Up j Hj. destruct (All Up j ltac:(clear - Hj; lia)) as (h & H1 & H2). rewrite R in H1. cbn in H1. exists h. split; [|exact H2].
        destruct H1 as [H1|[[<-|[]]|H1]]; [tauto|exfalso; clear - Fk Hj H2; lia|tauto].
  - exists k. apply Same; auto; try discriminate. rewrite sizes_app. cbn. apply app_nil_r.
Qed.
Lemma jrun e es done s k : jinv e done s k -> plainly done s es -> exists k', jinv e (done ++ es) (zrun s es) k'.
Proof.
  revert done s k. induction es as [|ev es IH]; intros done s k J P.
  - exists k. rewrite app_nil_r. exact J.
  - destruct P as [P1 P2]. destruct (jstep _ _ _ _ _ J P1) as [k1 J1]. destruct (IH _ _ _ J1 P2) as [k2 J2]. exists k2. rewrite <- app_assoc in J2. exact J2.
Qed.
Lemma j0 e : 0 <= e < modulus -> jinv e [ZSerialize true] (zstep (z0 e) (ZSerialize true)) 0.
Proof.
  intros E. assert (X : (e + 0) mod modulus = e) by (rewrite Z.add_0_r; apply Z.mod_small; exact E).
  constructor; cbn; auto; try tauto; try lia; try discriminate.
  intros n [].
Qed.
Theorem order_thm e es : 0 <= e < modulus -> plainly [ZSerialize true] (zstep (z0 e) (ZSerialize true)) es -> in_order (z_log (zrun (z0 e) (ZSerialize true :: es))).
Proof.
  intros E P. destruct (jrun _ _ _ _ _ (j0 e E) P) as [k J]. cbn [zrun]. exists k. rewrite (j_log _ _ _ _ J).
  destruct (j_run _ _ _ _ J) as [->|(f & -> & _)]; [left; apply app_nil_r|right; reflexivity].
Qed.
Theorem all_thm e es : 0 <= e < modulus -> plainly [ZSerialize true] (zstep (z0 e) (ZSerialize true)) es ->
  let s := zrun (z0 e) (ZSerialize true :: es) in
  z_up s = true -> z_tasks s = [] -> z_run s = [] -> z_hash s = [] /\ seen (z_log s) = calls (length (sizes es)).
Proof.
  intros E P s Up T R. destruct (jrun _ _ _ _ _ (j0 e E) P) as [k J]. change (zrun (zstep (z0 e) (ZSerialize true)) es) with s in J. destruct J as [Pos On Made Count Exp K Next Fit Fr Tasks Hash Run Log End All].
  change ([ZSerialize true] ++ es) with (ZSerialize true :: es) in *. change (sizes (ZSerialize true :: es)) with (sizes es) in *.
  assert (Kn : k = length (sizes es)).
  { destruct (Nat.eq_dec k (length (sizes es))) as [->|N]; [reflexivity|]. destruct (All Up k ltac:(lia)) as (f & F1 & F2). rewrite T, R in F1. destruct F1 as [[]|[[]|F1]]. specialize (Hash f F1). lia. }
  split.
  - destruct (z_hash s) as [|f l] eqn:Q; [reflexivity|]. specialize (Hash f (or_introl eq_refl)). destruct (Fr f ltac:(right; right; left; reflexivity)) as [X _]. lia.
  - rewrite Log, R, app_nil_r, Kn. reflexivity.
Qed.

(** Witnesses. *)
Lemma calls_len k : length (calls k) = (2 * k)%nat.
Proof. induction k as [|k IH]; [reflexivity|]. cbn [calls]. rewrite app_length, IH. cbn. lia. Qed.
Ltac disorder := intros [k [H|H]]; vm_compute seen in H; pose proof (f_equal (@length zobs) H) as L; rewrite ?app_length, calls_len in L; cbn in L;
  do 6 (destruct k as [|k]; [cbn in *; try discriminate; try lia|]); lia.
Ltac frames := intros; repeat match goal with H : In _ _ |- _ => cbn in H | H : _ \/ _ |- _ => destruct H as [H|H] | H : _ = _ |- _ => first [discriminate H|injection H as <- <-] | H : False |- _ => destruct H end; try lia; try (split; [lia|reflexivity]); try reflexivity.
Theorem empty_thm : exists es, (forall n t, In (ZFrame n t) es -> 0 <= n /\ t = false) /\ (forall i n, In (ZReturn i n) es -> nth_error (sizes es) i = Some n) /\
  let s := zrun (z0 0) (ZSerialize true :: es) in
  ~ in_order (z_log s) /\ z_up s = true /\ z_tasks s = [] /\ z_run s = [] /\ map f_id (z_hash s) = [1%nat].
Proof.
  exists [ZFrame 5 false; ZFrame 0 false; ZFrame 7 false; ZTask 0; ZReturn 0 5; ZTask 2; ZReturn 2 7; ZTask 1].
  split; [frames|]. split; [frames|]. cbv zeta. split; [disorder|]. vm_compute. auto.
Qed.
Theorem lost_thm : exists es, (forall n t, In (ZFrame n t) es -> 0 <= n /\ t = false) /\ (forall i n, In (ZReturn i n) es -> nth_error (sizes es) i = Some n) /\
  In (OFreed 1) (z_log (zrun (z0 0) (ZSerialize true :: es))) /\ z_up (zrun (z0 0) (ZSerialize true :: es)) = true.
Proof.
  exists [ZFrame 5 false; ZFrame 0 false; ZFrame 0 false; ZTask 1; ZTask 2]. split; [frames|]. split; [frames|]. vm_compute. auto.
Qed.
Theorem taken_thm : exists es, (forall n t, In (ZFrame n t) es -> 0 < n) /\ (forall i n, In (ZReturn i n) es -> nth_error (sizes es) i = Some n) /\
  let s := zrun (z0 0) (ZSerialize true :: es) in
  z_up s = true /\ z_tasks s = [] /\ z_run s = [] /\ seen (z_log s) = [] /\ map f_id (z_hash s) = [0%nat; 1%nat].
Proof.
  exists [ZFrame 5 true; ZFrame 6 false; ZFrame 7 false; ZTask 0; ZTask 1]. split; [frames|]. split; [frames|]. vm_compute. auto.
Qed.
Theorem late_thm : exists es, (forall n t, In (ZFrame n t) es -> 0 < n /\ t = false) /\
  let s := zrun (z0 0) es in
  z_up s = true /\ z_tasks s = [] /\ z_run s = [] /\ seen (z_log s) = [] /\ map f_id (z_hash s) = [0%nat].
Proof. exists [ZFrame 5 false; ZSerialize true; ZTask 0]. split; [frames|]. vm_compute. auto. Qed.
Theorem mime_thm : exists es, (forall n t, In (ZFrame n t) es -> 0 < n /\ t = false) /\
  let s := zrun (z0 0) (ZSerialize true :: es) in
  z_up s = true /\ z_tasks s = [] /\ z_run s = [] /\ seen (z_log s) = calls 1 /\ map f_id (z_hash s) = [1%nat].
Proof. exists [ZFrame 5 false; ZFrame 6 false; ZTask 0; ZReturn 0 25; ZTask 1]. split; [frames|]. vm_compute. auto. Qed.
Theorem backlog_thm : exists es, (forall n t, In (ZFrame n t) es -> 0 < n < 2147483648 /\ t = false) /\
  let s := zrun (z0 0) (ZSerialize true :: es) in length (z_run s) = 2%nat /\ ~ in_order (z_log s).
Proof.
  exists [ZFrame 2147483647 false; ZFrame 2147483647 false; ZFrame 2 false; ZFrame 9 false; ZTask 0; ZTask 3]. split; [frames|]. cbv zeta. split; [reflexivity|disorder].
Qed.
Theorem piggy_thm : exists n m, 0 < n /\ 0 < m /\
  let s := zrun (z0 0) [ZSerialize true; ZPiggy n; ZFrame m false; ZTask 0; ZReturn 0 n; ZTask 1] in
  z_up s = true /\ z_tasks s = [] /\ z_run s = [] /\ seen (z_log s) = calls 1 /\ map f_id (z_hash s) = [1%nat].
Proof. exists 5, 7. vm_compute. auto 10. Qed.
