(** Proofs about the waiting mechanisms. *)
From Verif Require Import Base IoModel IoSpec.
Ltac conj := repeat match goal with |- _ /\ _ => split end.

Lemma zlen_app : forall (A : Type) (a b : list A), zlen (a ++ b) = zlen a + zlen b.
Proof. intros. unfold zlen. rewrite app_length. lia. Qed.
Lemma zlen_pos : forall (A : Type) (a : list A), 0 <= zlen a.
Proof. intros. unfold zlen. lia. Qed.
Lemma half : two31 / 2 = 1073741824.
Proof. reflexivity. Qed.
Lemma limit_div : forall i, 0 < i <= 16 -> two31 <= (two64 - 1) / i.
Proof. intros i H. apply Z.div_le_lower_bound; unfold two31, two64; lia. Qed.

Theorem next_thm : forall c h i, 0 < c -> h <= two31 / 2 -> 0 < i <= 16 ->
  next_size c h i = Ok (if h <=? c then c else Z.min (c * 2) h).
Proof.
  intros c h i C H I. rewrite half in H. unfold next_size. destruct (h <=? c) eqn:E; [reflexivity|]. apply Z.leb_gt in E.
  destruct (0 <? c) eqn:P; [|apply Z.ltb_ge in P; lia].
  destruct (c * 2 <? two31) eqn:D; [|apply Z.ltb_ge in D; unfold two31 in D; lia]. cbn [obind].
  pose proof (limit_div i I) as L.
  assert (X : (if (c * 2 <=? c) || (h <? c * 2) then h else c * 2) = Z.min (c * 2) h).
  { destruct (c * 2 <=? c) eqn:A; [apply Z.leb_le in A; lia|]. cbn [orb]. destruct (h <? c * 2) eqn:B; [apply Z.ltb_lt in B|apply Z.ltb_ge in B]; lia. }
  rewrite X. unfold size_t. destruct (Z.min (c * 2) h <? 0) eqn:N; [apply Z.ltb_lt in N; lia|].
  destruct ((two64 - 1) / i <? Z.min (c * 2) h) eqn:M; [apply Z.ltb_lt in M; unfold two31 in L; lia|reflexivity].
Qed.
Lemma overflow_thm : exists c h, 0 < c < h /\ h < two31 /\ next_size c h 8 = UB.
Proof. exists 1073741824, 2147483647. unfold two31. conj; try lia. reflexivity. Qed.

Lemma next_up : forall c h i n, 0 < c -> h <= two31 / 2 -> 0 < i <= 16 -> next_size c h i = Ok n -> n <> c -> c < n <= h.
Proof.
  intros c h i n C H I E N. rewrite (next_thm c h i C H I) in E. assert (X : n = if h <=? c then c else Z.min (c * 2) h) by congruence.
  destruct (h <=? c) eqn:L; [congruence|]. apply Z.leb_gt in L. lia.
Qed.

Lemma first_pos : forall h, 0 < first_size h.
Proof. intros h. unfold first_size, INITIAL. destruct (h <=? 0) eqn:A; cbn [orb]; [lia|]. apply Z.leb_gt in A. destruct (4096 <? h); lia. Qed.

Lemma put_ok : forall s fd c, p_inside s -> zlen (ps_items s) < ps_max s ->
  exists s', poll_put s fd c = Ok (s', true) /\ p_inside s' /\ ps_items s' = ps_items s ++ [(fd, c)] /\ ps_max s' = ps_max s.
Proof.
  intros s fd c (P & A & B) L. unfold poll_put. destruct (zlen (ps_items s) <? ps_room s) eqn:X; [|apply Z.ltb_ge in X; lia].
  destruct (zlen (ps_items s) <? ps_croom s) eqn:Y; [|apply Z.ltb_ge in Y; lia]. cbn [andb]. eexists. split; [reflexivity|].
  unfold p_inside. cbn [ps_items ps_max ps_room ps_croom]. rewrite zlen_app. change (zlen [(fd, c)]) with 1. conj; auto; lia.
Qed.
Lemma add_ok : forall s fd c h a1 a2, p_inside s -> hard_ok h ->
  exists s' b, poll_add s fd c h a1 a2 = Ok (s', b) /\ p_inside s' /\
    ps_items s' = ps_items s ++ (if b then [(fd, c)] else []) /\
    (forall n, h = Some n -> ps_max s <= n -> ps_max s' <= n) /\
    (forall n, h = Some n -> a1 = true -> a2 = true -> ps_max s <= n -> (b = true <-> zlen (ps_items s) < n)).
Proof.
  intros s fd c h a1 a2 I H. unfold poll_add. pose proof I as (P & A & B). destruct (zlen (ps_items s) =? ps_max s) eqn:E.
  - apply Z.eqb_eq in E. destruct h as [h|].
    + cbn [hard_ok] in H. destruct (next_size (ps_max s) h 8) as [n|] eqn:N; [|rewrite next_thm in N by lia; discriminate]. cbn [obind].
      assert (EN : n = if h <=? ps_max s then ps_max s else Z.min (ps_max s * 2) h) by (rewrite next_thm in N by lia; congruence).
      destruct (n =? ps_max s) eqn:Q.
      * apply Z.eqb_eq in Q. exists s, false. rewrite app_nil_r. conj; auto.
        intros m X _ _ M. injection X as <-. split; [discriminate|]. intros L. destruct (h <=? ps_max s) eqn:Y; [apply Z.leb_le in Y|apply Z.leb_gt in Y]; lia.
      * apply Z.eqb_neq in Q. assert (GT : ps_max s < n <= h) by (destruct (h <=? ps_max s) eqn:Y; [congruence|apply Z.leb_gt in Y; lia]).
        destruct a1; cbn [negb]; [|exists s, false; rewrite app_nil_r; conj; auto; discriminate].
        destruct a2; cbn [negb].
        -- destruct (put_ok (mkPS n n n (ps_items s)) fd c) as [s' [X [Y [W M]]]]; [unfold p_inside; cbn [ps_items ps_max ps_room ps_croom]; lia|cbn [ps_items ps_max]; lia|].
           exists s', true. cbn [ps_items ps_max] in *. conj; auto.
           ++ intros m X1 _. injection X1 as <-. lia.
           ++ intros m X1 _ _ M1. injection X1 as <-. split; [lia|auto].
        -- exists (mkPS (ps_max s) n (ps_croom s) (ps_items s)), false. unfold p_inside. cbn [ps_items ps_max ps_room ps_croom]. rewrite app_nil_r. conj; auto; try lia; discriminate.
    + exists s, false. rewrite app_nil_r. conj; auto; discriminate.
  - apply Z.eqb_neq in E. destruct (put_ok s fd c I) as [s' [X [Y [W M]]]]; [lia|]. exists s', true. conj; auto.
    + intros n _ L. lia.
    + intros n _ _ _ L. split; [lia|auto].
Qed.
Lemma run_ok : forall l s h, p_inside s -> hard_ok h -> exists s', poll_run h s l = Ok s' /\ p_inside s'.
Proof.
  induction l as [|o l IH]; intros s h I H; [exists s; auto|]. destruct o as [fd c a1 a2|]; cbn [poll_run].
  - destruct (add_ok s fd c h a1 a2 I H) as [s' [b [E [I' _]]]]. rewrite E. cbn [obind]. apply IH; auto.
  - unfold poll_clear. pose proof I as (P & A & B). destruct (ps_room s <? zlen (ps_items s)) eqn:X; [apply Z.ltb_lt in X; lia|]. cbn [obind].
    apply IH; auto. unfold p_inside. cbn [ps_items ps_max ps_room ps_croom]. change (zlen (@nil (Z * nat))) with 0. lia.
Qed.
Lemma create_inside : forall h, p_inside (poll_create h).
Proof. intros h. unfold poll_create, p_inside. cbn [ps_items ps_max ps_room ps_croom]. pose proof (first_pos h). change (zlen (@nil (Z * nat))) with 0. lia. Qed.
Theorem poll_safe_thm : forall l h0 h, hard_ok h -> exists s, poll_run h (poll_create h0) l = Ok s /\ p_inside s.
Proof. intros l h0 h H. apply run_ok; [apply create_inside|exact H]. Qed.
Lemma run_max : forall l s h s', p_inside s -> h <= two31 / 2 -> ps_max s <= h -> poll_run (Some h) s l = Ok s' -> ps_max s' <= h.
Proof.
  induction l as [|o l IH]; intros s h s' I H M E; [cbn [poll_run] in E; congruence|]. destruct o as [fd c a1 a2|]; cbn [poll_run] in E.
  - destruct (add_ok s fd c (Some h) a1 a2 I H) as [s1 [b [E1 [I1 [_ [M1 _]]]]]]. rewrite E1 in E. cbn [obind] in E. apply (IH s1 h s'); auto.
  - unfold poll_clear in E. destruct (ps_room s <? zlen (ps_items s)) eqn:X; [discriminate|]. cbn [obind] in E. apply (IH _ h s') in E; auto.
    pose proof I as (P & A & B). unfold p_inside. cbn [ps_items ps_max ps_room ps_croom]. change (zlen (@nil (Z * nat))) with 0. lia.
Qed.
Theorem poll_room_thm : forall l h s fd c, 0 < h <= two31 / 2 -> poll_run (Some h) (poll_create h) l = Ok s ->
  exists s' b, poll_add s fd c (Some h) true true = Ok (s', b) /\ (b = true <-> zlen (ps_items s) < h) /\
    ps_items s' = ps_items s ++ (if b then [(fd, c)] else []).
Proof.
  intros l h s fd c H R. assert (M : ps_max s <= h).
  { apply (run_max l (poll_create h)); auto; [apply create_inside|lia|]. unfold poll_create, first_size, INITIAL. cbn [ps_max].
    destruct (h <=? 0) eqn:A; [apply Z.leb_le in A; lia|]. cbn [orb]. destruct (4096 <? h) eqn:B; [apply Z.ltb_lt in B|]; lia. }
  assert (I : p_inside s).
  { destruct (run_ok l (poll_create h) (Some h) (create_inside h)) as [s1 [E1 I1]]; [cbn [hard_ok]; lia|]. congruence. }
  destruct (add_ok s fd c (Some h) true true I) as [s' [b [E [I' [X [_ Y]]]]]]; [cbn [hard_ok]; lia|].
  exists s', b. conj; auto.
Qed.
Definition many (n : nat) : list pop := repeat (PAdd 5 1 true true) n.
Lemma unlimited_thm : exists l s, Forall p_alloc l /\ poll_run (Some (hard_limit (two64 - 1))) (poll_create (hard_limit (two64 - 1))) l = Ok s /\
  zlen (ps_items s) = 4096 /\ poll_add s 5 1 (Some (hard_limit (two64 - 1))) true true = Ok (s, false).
Proof.
  assert (G : forall n s, (zlen (ps_items s) + Z.of_nat n <= ps_max s)%Z -> p_inside s ->
     exists s', poll_run (Some (-1)) s (many n) = Ok s' /\ zlen (ps_items s') = zlen (ps_items s) + Z.of_nat n /\ ps_max s' = ps_max s).
  { induction n as [|n IH]; intros s L I; [exists s; cbn; conj; auto; lia|]. change (many (S n)) with (PAdd 5 1 true true :: many n). cbn [poll_run].
    unfold poll_add. destruct (zlen (ps_items s) =? ps_max s) eqn:E; [apply Z.eqb_eq in E; lia|].
    destruct (put_ok s 5 1%nat I) as [s1 [X [Y [W M]]]]; [lia|]. rewrite X. cbn [obind]. destruct (IH s1) as [s' [R [A B]]]; auto.
    - rewrite W, zlen_app. change (zlen [(5, 1%nat)]) with 1. lia.
    - exists s'. conj; auto; [rewrite A, W, zlen_app; change (zlen [(5, 1%nat)]) with 1; lia|congruence]. }
  change (hard_limit (two64 - 1)) with (-1).
  destruct (G (Z.to_nat 4096) (poll_create (-1))) as [s [R [A B]]]; [rewrite Z2Nat.id by lia; change (zlen (ps_items (poll_create (-1)))) with 0; change (ps_max (poll_create (-1))) with 4096; lia|apply create_inside|].
  rewrite Z2Nat.id in A by lia. change (zlen (ps_items (poll_create (-1)))) with 0 in A. change (ps_max (poll_create (-1))) with 4096 in B.
  exists (many (Z.to_nat 4096)), s. split; [|split; [exact R|split; [rewrite A; reflexivity|]]].
  - apply Forall_forall. intros o I. unfold many in I. apply repeat_spec in I. rewrite I. split; reflexivity.
  - unfold poll_add. rewrite A, B. reflexivity.
Qed.

(** epoll *)
Lemma eadd_ok : forall s fd c k h a, e_inside s -> hard_ok h ->
  exists s' b, epoll_add s fd c k h a = Ok (s', b) /\ e_inside s'.
Proof.
  intros s fd c k h a I H. unfold epoll_add. pose proof I as (P & A). destruct (es_len s =? es_max s) eqn:E.
  - apply Z.eqb_eq in E. destruct h as [h|]; [|exists s, false; auto].
    cbn [hard_ok] in H. destruct (next_size (es_max s) h 12) as [n|] eqn:N; [|rewrite next_thm in N by lia; discriminate]. cbn [obind].
    destruct (n =? es_max s) eqn:Q; [exists s, false; auto|]. apply Z.eqb_neq in Q. assert (GT : es_max s < n <= h) by (eapply next_up; eauto; lia).
    destruct a; cbn [negb]; [|exists s, false; auto]. destruct k; cbn [epoll_put es_max es_room es_len es_items]; eexists _, _; (split; [reflexivity|]);
      unfold e_inside; cbn [es_max es_room es_len]; lia.
  - apply Z.eqb_neq in E. destruct k; cbn [epoll_put]; eexists _, _; (split; [reflexivity|]); unfold e_inside; cbn [es_max es_room es_len]; lia.
Qed.
Theorem epoll_safe_thm : forall l h0 h, hard_ok h -> exists s, epoll_run h (epoll_create h0) l = Ok s /\ e_inside s /\
  forall ready, epoll_wait s ready <> UB.
Proof.
  intros l h0 h H. assert (G : forall l s, e_inside s -> exists s', epoll_run h s l = Ok s' /\ e_inside s').
  { induction l0 as [|o l0 IH]; intros s I; [exists s; auto|]. destruct o as [fd c k a|]; cbn [epoll_run].
    - destruct (eadd_ok s fd c k h a I H) as [s' [b [E I']]]. rewrite E. cbn [obind]. auto.
    - apply IH. destruct I as (P & A). unfold epoll_clear, e_inside. cbn [es_max es_room es_len]. lia. }
  destruct (G l (epoll_create h0)) as [s [R I]].
  { unfold epoll_create, e_inside. cbn [es_max es_room es_len]. pose proof (first_pos h0). lia. }
  exists s. conj; auto. intros ready. destruct I as (P & A). unfold epoll_wait. destruct (es_len s <=? 0) eqn:E; [discriminate|].
  destruct (es_room s <? _) eqn:B; [|discriminate]. apply Z.ltb_lt in B. unfold zlen in B. rewrite firstn_length in B. lia.
Qed.

(** * Dispatch *)
Lemma poll_disp : forall l k n, zlen (can_read l) + k <= n -> poll_dispatch l k n = can_read l.
Proof.
  unfold can_read. induction l as [|[c r] l IH]; intros k n L; [reflexivity|]. cbn [poll_dispatch filter snd] in *. destruct (r_in r || r_pri r) eqn:R.
  - cbn [map fst] in *. unfold zlen in *. cbn [length] in L. destruct (k <? n) eqn:K; [|apply Z.ltb_ge in K; lia]. f_equal. apply IH. lia.
  - destruct (k <? n) eqn:K; [apply IH; exact L|]. apply Z.ltb_ge in K. destruct (map fst (filter _ l)) eqn:M; [reflexivity|].
    unfold zlen in L. cbn [length] in L. lia.
Qed.
Theorem poll_dispatch_thm : forall l, poll_dispatch l 0 (poll_changed l) = can_read l.
Proof.
  intros l. apply poll_disp. unfold can_read, poll_changed, zlen. rewrite map_length.
  assert ((length (filter (fun x : nat * revents => r_in (snd x) || r_pri (snd x)) l) <= length (filter (fun x : nat * revents => reported (snd x)) l))%nat); [|lia].
  induction l as [|[c r] l IH]; [reflexivity|]. cbn [filter snd]. unfold reported at 1. destruct (r_in r || r_pri r); cbn [orb length]; [lia|].
  destruct (r_other r); cbn [length]; lia.
Qed.
Lemma epoll_disp : forall l k n m, 0 <= k -> k + zlen l <= n -> k + zlen l <= m -> epoll_dispatch l k n m = can_read l.
Proof.
  unfold can_read. induction l as [|[c r] l IH]; intros k n m K N M; [reflexivity|]. unfold zlen in *. cbn [epoll_dispatch filter snd length] in *.
  destruct (k <? n) eqn:A; [|apply Z.ltb_ge in A; lia]. destruct (k <? m) eqn:B; [|apply Z.ltb_ge in B; lia]. cbn [andb].
  destruct (r_in r || r_pri r); cbn [map fst]; [f_equal|]; apply IH; lia.
Qed.
Theorem epoll_dispatch_thm : forall s ready l, epoll_wait s ready = Ok (WEvents l) ->
  epoll_dispatch l 0 (zlen l) (es_len s) = can_read l /\ (zlen ready <= es_len s -> l = ready).
Proof.
  intros s ready l E. unfold epoll_wait in E. destruct (es_len s <=? 0) eqn:P; [discriminate|]. apply Z.leb_gt in P.
  destruct (es_room s <? _); [discriminate|]. injection E as <-. split.
  - apply epoll_disp; unfold zlen; rewrite ?firstn_length; lia.
  - intros L. apply firstn_all2. unfold zlen in L. lia.
Qed.
Lemma ignored_thm : exists l, 0 < poll_changed l /\ poll_dispatch l 0 (poll_changed l) = [] /\ epoll_dispatch l 0 (zlen l) (zlen l) = [].
Proof. exists [(1%nat, mkRe false false true)]. conj; reflexivity. Qed.
Theorem data_thm : forall l, only_data l -> 0 < poll_changed l -> poll_dispatch l 0 (poll_changed l) <> [].
Proof.
  intros l O C. rewrite poll_dispatch_thm. unfold poll_changed, zlen in C.
  destruct (filter (fun x : nat * revents => reported (snd x)) l) as [|[c r] q] eqn:F; [cbn in C; lia|].
  assert (I : In (c, r) (filter (fun x : nat * revents => reported (snd x)) l)) by (rewrite F; left; reflexivity).
  apply filter_In in I. destruct I as [I R]. cbn [snd] in R. unfold reported in R.
  assert (X : r_in r || r_pri r = true) by (apply orb_prop in R; destruct R as [R|R]; [exact R|apply (O c r I R)]).
  assert (J : In c (can_read l)) by (unfold can_read; apply in_map_iff; exists (c, r); split; [reflexivity|apply filter_In; auto]).
  intros E. rewrite E in J. destruct J.
Qed.
Lemma spin_thm : exists s, e_inside s /\ es_items s = [] /\ forall ready, epoll_wait s ready = Ok WError.
Proof. exists (epoll_create 1024). conj; try reflexivity. unfold epoll_create, e_inside. cbn. lia. Qed.
Theorem sleep_thm : forall s ready, 0 < es_len s -> epoll_wait s ready <> Ok WError.
Proof. intros s ready L. unfold epoll_wait. destruct (es_len s <=? 0) eqn:E; [apply Z.leb_le in E; lia|]. destruct (_ <? _); discriminate. Qed.

(** select *)
Definition sel_inside (s : sset) : Prop := 0 <= ss_len s < FD_SETSIZE /\ ss_len s = zlen (ss_fds s) /\ forall fd, In fd (ss_fds s) -> 0 <= fd < FD_SETSIZE.
Lemma sel_add_ok : forall s fd, sel_inside s -> sel_inside (fst (sel_add s fd)).
Proof.
  intros s fd (A & B & C). unfold sel_add. destruct (FD_SETSIZE <=? fd) eqn:X; [unfold sel_inside; cbn [fst]; conj; auto; lia|]. destruct (fd <? 0) eqn:Y; [unfold sel_inside; cbn [fst]; conj; auto; lia|].
  destruct (ss_len s =? FD_SETSIZE - 1) eqn:W; [unfold sel_inside; cbn [fst]; conj; auto; lia|]. apply Z.leb_gt in X. apply Z.ltb_ge in Y. apply Z.eqb_neq in W. cbn [fst].
  unfold sel_inside. cbn [ss_len ss_fds]. unfold zlen in *. cbn [length]. split; [lia|]. split; [lia|]. intros f [<-|I]; [lia|apply C; exact I].
Qed.
Theorem select_safe_thm : forall l, let s := fold_left (fun s fd => fst (sel_add s fd)) l (mkSS 0 []) in
  ss_len s < FD_SETSIZE /\ forall fd, In fd (ss_fds s) -> 0 <= fd < FD_SETSIZE.
Proof.
  intros l. cbv zeta. assert (G : forall l s, sel_inside s -> sel_inside (fold_left (fun s fd => fst (sel_add s fd)) l s)).
  { induction l0 as [|x l0 IH]; intros s I; [exact I|]. cbn [fold_left]. apply IH, sel_add_ok, I. }
  assert (I0 : sel_inside (mkSS 0 [])) by (unfold sel_inside; cbn; conj; try reflexivity; try discriminate; try lia; try (intros fd [])).
  destruct (G l _ I0) as (A & _ & C). split; [lia|exact C].
Qed.
Theorem select_set_thm : forall left fd, 0 < fd < FD_SETSIZE -> exists b, sel_is_set left fd = Ok b /\ (b = true <-> In fd left).
Proof.
  intros left fd H. unfold sel_is_set. destruct (fd <=? 0) eqn:A; [apply Z.leb_le in A; lia|]. destruct (FD_SETSIZE <=? fd) eqn:B; [apply Z.leb_le in B; lia|].
  eexists. split; [reflexivity|]. rewrite existsb_exists. split; [intros [x [X Y]]; apply Z.eqb_eq in Y; subst x; exact X|]. intros I. exists fd. split; [exact I|apply Z.eqb_refl].
Qed.
Lemma zero_thm : exists s, sel_add (mkSS 0 []) 0 = (s, true) /\ In 0 (ss_fds s) /\ sel_is_set (ss_fds s) 0 = Ok false.
Proof. eexists. split; [reflexivity|]. split; [left; reflexivity|reflexivity]. Qed.
Lemma beyond_thm : exists fd, snd (sel_add (mkSS 0 []) fd) = false /\ sel_is_set [] fd = UB.
Proof. exists 1024. split; reflexivity. Qed.
Theorem select_add_thm : forall s fd, (snd (sel_add s fd) = true <-> 0 <= fd < FD_SETSIZE /\ ss_len s <> FD_SETSIZE - 1) /\
  (snd (sel_add s fd) = true -> fst (sel_add s fd) = mkSS (ss_len s + 1) (fd :: ss_fds s)) /\ (snd (sel_add s fd) = false -> fst (sel_add s fd) = s).
Proof.
  intros s fd. unfold sel_add. destruct (FD_SETSIZE <=? fd) eqn:X; cbn [fst snd]; [apply Z.leb_le in X|apply Z.leb_gt in X]; [split; [split; [discriminate|lia]|split; [discriminate|reflexivity]]|].
  destruct (fd <? 0) eqn:Y; cbn [fst snd]; [apply Z.ltb_lt in Y|apply Z.ltb_ge in Y]; [split; [split; [discriminate|lia]|split; [discriminate|reflexivity]]|].
  destruct (ss_len s =? FD_SETSIZE - 1) eqn:W; cbn [fst snd]; [apply Z.eqb_eq in W|apply Z.eqb_neq in W]; [split; [split; [discriminate|lia]|split; [discriminate|reflexivity]]|].
  split; [split; [intros _; lia|reflexivity]|split; [reflexivity|discriminate]].
Qed.
Lemma erun_max : forall l s h s', e_inside s -> h <= two31 / 2 -> es_max s <= h -> epoll_run (Some h) s l = Ok s' -> es_max s' <= h /\ e_inside s'.
Proof.
  induction l as [|o l IH]; intros s h s' I H M E; [cbn [epoll_run] in E; injection E as <-; auto|]. destruct o as [fd c k a|]; cbn [epoll_run] in E.
  - destruct (eadd_ok s fd c k (Some h) a I H) as [s1 [b [E1 I1]]]. rewrite E1 in E. cbn [obind] in E. apply (IH s1 h s'); auto.
    unfold epoll_add in E1. destruct (es_len s =? es_max s).
    + destruct (next_size (es_max s) h 12) as [n|] eqn:N; [|discriminate]. cbn [obind] in E1. destruct (n =? es_max s) eqn:Q; [injection E1 as <- _; exact M|].
      apply Z.eqb_neq in Q. destruct I as (P & A). assert (es_max s < n <= h) by (eapply next_up; eauto; lia).
      destruct a; cbn [negb] in E1; [|injection E1 as <- _; exact M]. destruct k; cbn [epoll_put] in E1; injection E1 as <- _; cbn [es_max]; lia.
    + destruct k; cbn [epoll_put] in E1; injection E1 as <- _; exact M.
  - apply (IH (epoll_clear s) h s'); auto. destruct I as (P & A). unfold epoll_clear, e_inside. cbn [es_max es_room es_len]. lia.
Qed.
Theorem epoll_room_thm : forall l h s fd c k, 0 < h <= two31 / 2 -> epoll_run (Some h) (epoll_create h) l = Ok s -> k <> CtlFail ->
  exists s' b, epoll_add s fd c k (Some h) true = Ok (s', b) /\ (b = true <-> es_len s < h) /\
    es_items s' = es_items s ++ (match k with CtlOk => if b then [(fd, c)] else [] | _ => [] end).
Proof.
  intros l h s fd c k H R K. assert (X : es_max s <= h /\ e_inside s).
  { apply (erun_max l (epoll_create h)); auto; try lia; unfold epoll_create, first_size, INITIAL, e_inside; cbn [es_max es_room es_len];
    destruct (h <=? 0) eqn:A; (apply Z.leb_le in A || apply Z.leb_gt in A); cbn [orb]; destruct (4096 <? h) eqn:B; (apply Z.ltb_lt in B || apply Z.ltb_ge in B); lia. }
  destruct X as [M (P & A)]. unfold epoll_add. destruct (es_len s =? es_max s) eqn:E.
  - apply Z.eqb_eq in E. destruct (next_size (es_max s) h 12) as [n|] eqn:N; [|rewrite next_thm in N by lia; discriminate]. cbn [obind].
    assert (EN : n = if h <=? es_max s then es_max s else Z.min (es_max s * 2) h) by (rewrite next_thm in N by lia; congruence).
    destruct (n =? es_max s) eqn:Q.
    + apply Z.eqb_eq in Q. exists s, false. split; [reflexivity|]. split; [split; [discriminate|]|destruct k; rewrite app_nil_r; reflexivity].
      intros L. destruct (h <=? es_max s) eqn:Y; [apply Z.leb_le in Y|apply Z.leb_gt in Y]; lia.
    + apply Z.eqb_neq in Q. assert (GT : es_max s < n <= h) by (eapply next_up; eauto; lia). cbn [negb].
      destruct k; cbn [epoll_put es_items]; try contradiction; eexists _, true; (split; [reflexivity|]); (split; [split; [intros _; lia|reflexivity]|cbn [es_items]; rewrite ?app_nil_r; reflexivity]).
  - apply Z.eqb_neq in E. destruct k; cbn [epoll_put]; try contradiction; eexists _, true; (split; [reflexivity|]); (split; [split; [intros _; lia|reflexivity]|cbn [es_items]; rewrite ?app_nil_r; reflexivity]).
Qed.

(** The first size, and what is counted. *)
Lemma first_thm : forall h, ps_max (poll_create h) = (if h <=? 0 then 4096 else Z.min h 4096) /\ es_max (epoll_create h) = ps_max (poll_create h).
Proof.
  intro h. split; [|reflexivity]. unfold poll_create, first_size, INITIAL. cbn [ps_max].
  destruct (Z.leb_spec h 0); cbn [orb]; [reflexivity|]. destruct (Z.ltb_spec 4096 h); lia.
Qed.
Lemma count_thm : forall s fd c k h a s' b, epoll_add s fd c k h a = Ok (s', b) ->
  es_len s' = es_len s + (if b then 1 else 0) /\ (b = true -> k <> CtlFail) /\ (b = false -> es_items s' = es_items s).
Proof.
  intros s fd c k h a s' b. unfold epoll_add. destruct (es_len s =? es_max s).
  - destruct h as [h|]; [|intro H; injection H as <- <-; conj; try discriminate; auto; lia].
    destruct (next_size (es_max s) h 12) as [n|]; [|discriminate]. cbn [obind].
    destruct (n =? es_max s); [intro H; injection H as <- <-; conj; try discriminate; auto; lia|].
    destruct a; cbn [negb]; [|intro H; injection H as <- <-; conj; try discriminate; auto; lia].
    destruct k; cbn [epoll_put es_len es_items]; intro H; injection H as <- <-; cbn [es_len es_items]; conj; try discriminate; auto; lia.
  - destruct k; cbn [epoll_put]; intro H; injection H as <- <-; cbn [es_len es_items]; conj; try discriminate; auto; lia.
Qed.
