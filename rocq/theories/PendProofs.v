(** Proofs about the transports that hold data back. *)
From Coq Require Import Lia.
From Verif Require Import Base CodecModel CodecSpec CodecProofs CodecProofs2 PendModel PendSpec.

(** * What reads leave *)
Inductive rest_of : sock -> sock -> Prop :=
| ro_refl s : rest_of s s
| ro_cut a b s : a <> [] -> b <> [] -> rest_of (SData (a ++ b) :: s) (SData b :: s)
| ro_skip e s s' : rest_of s s' -> rest_of (e :: s) s'.
Lemma rest_trans s1 s2 : rest_of s1 s2 -> forall s3, rest_of s2 s3 -> rest_of s1 s3.
Proof.
  induction 1 as [s|a b s A B|e s s' H IH]; intros s3 K; [exact K| |apply ro_skip, IH, K].
  inversion K as [|a' b' s' A' B'|e s' s'' K']; subst.
  - apply ro_cut; assumption.
  - rewrite app_assoc. apply ro_cut; [|assumption]. destruct a; [contradiction|discriminate].
  - apply ro_skip. exact K'.
Qed.
Lemma recv_rest n s : (0 < n)%nat -> forall r s', recv n s = (r, s') -> rest_of s s'.
Proof.
  intros N. induction s as [|e s IH]; intros r s' H; cbn in H; [injection H as _ <-; constructor|].
  destruct e as [[|b bs]| | | |].
  - apply ro_skip. exact (IH _ _ H).
  - destruct (Nat.leb_spec (length (b :: bs)) n) as [L|L].
    + injection H as _ <-. apply ro_skip. constructor.
    + injection H as _ <-. rewrite <- (firstn_skipn n (b :: bs)) at 1. apply ro_cut.
      * destruct n; [lia|discriminate].
      * intros E. apply (f_equal (@length _)) in E. rewrite skipn_length in E. cbn [length] in *. lia.
  - injection H as _ <-. apply ro_skip. constructor.
  - apply ro_skip. exact (IH _ _ H).
  - injection H as _ <-. constructor.
  - injection H as _ <-. apply ro_skip. constructor.
Qed.
Lemma readline_loop_rest room : forall first buf s r s', readline_loop room first buf s = (r, s') -> rest_of s s'.
Proof.
  induction room as [|room IH]; intros first buf s r s' H; cbn [readline_loop] in H; [injection H as _ <-; constructor|].
  destruct (recv 1 s) as (q, s1) eqn:E. apply recv_rest in E; [|lia]. destruct q.
  - destruct (_ =? LF); [injection H as _ <-; exact E|]. eapply rest_trans; [exact E|]. exact (IH _ _ _ _ _ H).
  - injection H as _ <-. exact E.
  - destruct first; injection H as _ <-; exact E.
  - injection H as _ <-. exact E.
Qed.
Lemma process_buffer_rest c s f body c' s' o : process_buffer c s f body = Ok (c', s', o) -> s' = s.
Proof. unfold process_buffer. destruct (f_size f <? 0); [discriminate|]. destruct (bytes_eqb _ _); intros H; inversion H; reflexivity. Qed.
Lemma first_body_rest c s f c' s' o : first_body c s f = Ok (c', s', o) -> rest_of s s'.
Proof.
  unfold first_body. destruct (two31 <=? _); [discriminate|]. destruct (_ <? 0); [intros H; inversion H; constructor|].
  destruct (Z.ltb_spec (f_size f + 5) 0) as [L|L]; [discriminate|]. destruct (Z.eqb_spec (f_size f + 5) 0) as [E|E]; [intros H; inversion H; constructor|].
  destruct (recv _ s) as (r, s1) eqn:R. apply recv_rest in R; [|lia]. intros H. destruct r.
  - destruct (zlen bs =? _); [apply process_buffer_rest in H; subst; exact R|inversion H; subst; exact R].
  - inversion H; subst; exact R.
  - inversion H; subst; exact R.
  - inversion H; subst; exact R.
Qed.
Lemma get_next_rest chans c s c' s' o : get_next chans c s = Ok (c', s', o) -> rest_of s s'.
Proof.
  unfold get_next. destruct (r_down c); [intros H; inversion H; constructor|].
  destruct (r_partial c) as [(f, got)|].
  - unfold continue_body. destruct (Z.leb_spec (f_size f + 5 - zlen got) 0); [intros H0; inversion H0; constructor|].
    destruct (recv _ s) as (r, s1) eqn:R. apply recv_rest in R; [|lia]. intros H1. destruct r.
    + destruct (zlen bs =? _); [apply process_buffer_rest in H1; subst; exact R|inversion H1; subst; exact R].
    + inversion H1; subst; exact R.
    + inversion H1; subst; exact R.
    + inversion H1; subst; exact R.
  - unfold readline. destruct (maxline <=? _).
    + intros H; inversion H; constructor.
    + destruct (readline_loop _ _ _ s) as (r, s1) eqn:R. apply readline_loop_rest in R. intros H. destruct r.
      * unfold process_line in H. destruct (decide_line _ _ _) as [[w|f|f]|]; cbn [obind] in H; try discriminate.
        -- inversion H; subst; exact R.
        -- inversion H; subst; exact R.
        -- apply first_body_rest in H. eapply rest_trans; eassumption.
      * inversion H; subst; exact R.
      * destruct (25 <? _); inversion H; subst; exact R.
      * inversion H; subst; exact R.
Qed.

(** * The transport left *)
Lemma rest_len s s' : rest_of s s' -> (length s' <= length s)%nat.
Proof. induction 1; cbn; lia. Qed.
Lemma settle_net_view net : forall s', rest_of (map ev net) s' -> view (settle_net net s') = s'.
Proof.
  induction net as [|e net IH]; intros s' R.
  - inversion R; subst; reflexivity.
  - cbn [settle_net]. destruct (Nat.eqb_spec (length (e :: net)) (length s')) as [L|L].
    + cbn [map] in R. inversion R as [s0|a b s0 A B E1 E2|e0 s0 s1 R']; subst.
      * destruct e as [bs| |]; cbn [ev]; try reflexivity. rewrite Nat.eqb_refl. reflexivity.
      * destruct e as [bs| |]; cbn [ev] in E1; try discriminate.
        -- injection E1 as <-. destruct (Nat.eqb_spec (length b) (length (a ++ b))) as [Q|Q]; [rewrite app_length in Q; destruct a; [contradiction|cbn in Q; lia]|].
           unfold view. cbn [t_held t_net]. destruct b; [contradiction|]. reflexivity.
        -- destruct a; [contradiction|discriminate E1].
      * exfalso. apply rest_len in R'. rewrite map_length in R'. cbn [length] in L. lia.
    + cbn [map] in R. inversion R as [s0|a b s0 A B E1 E2|e0 s0 s1 R']; subst.
      * exfalso. apply L. cbn. rewrite map_length. reflexivity.
      * exfalso. apply L. cbn. rewrite map_length. reflexivity.
      * apply IH. exact R'.
Qed.
Lemma settle_view t s' : rest_of (view t) s' -> view (settle t s') = s'.
Proof.
  intros R. unfold settle. unfold view in R. destruct t as (held, net). cbn [t_held t_net] in *.
  destruct (Nat.ltb_spec (length net) (length s')) as [L|L].
  - destruct held as [|x held]; cbn [app] in R.
    + apply rest_len in R. rewrite map_length in R. lia.
    + inversion R as [s0|a b s0 A B E1 E2|e0 s0 s1 R']; subst.
      * reflexivity.
      * unfold view. cbn [t_held t_net]. destruct b; [contradiction|reflexivity].
      * apply rest_len in R'. rewrite map_length in R'. lia.
  - destruct held as [|x held]; cbn [app] in R.
    + apply settle_net_view. exact R.
    + inversion R as [s0|a b s0 A B E1 E2|e0 s0 s1 R']; subst.
      * cbn in L. rewrite map_length in L. lia.
      * cbn in L. rewrite map_length in L. lia.
      * apply settle_net_view. exact R'.
Qed.
Lemma get_view k chans c t flag c' t' flag' o : get k chans c t flag = Ok (c', t', flag', o) ->
  get_next chans c (view t) = Ok (c', view t', o) /\
  flag' = match k with TLS => zlen (t_held t') | WS => if hears (view t) then zlen (t_held t') else flag end.
Proof.
  unfold get. destruct (get_next chans c (view t)) as [((c1, s1), o1)|] eqn:E; cbn [obind]; [|discriminate]. intros H. inversion H; subst.
  pose proof (get_next_rest _ _ _ _ _ _ E) as R. rewrite (settle_view _ _ R). split; reflexivity.
Qed.

(** * Nothing is left held *)
Lemma rest_hears s s' : rest_of s s' -> hears s = false -> hears s' = false.
Proof.
  induction 1 as [s|a b s A B|e s s' H IH]; cbn [hears existsb]; intros Q; [exact Q| |].
  - destruct a; [contradiction|discriminate].
  - apply orb_false_iff in Q. apply IH. exact (proj2 Q).
Qed.
Lemma hears_held t : hears (view t) = false -> t_held t = [].
Proof. unfold view. destruct (t_held t) as [|x l]; [reflexivity|]. cbn. discriminate. Qed.
Lemma zlen_0 (l : bytes) : zlen l <= 0 -> l = [].
Proof. unfold zlen. destruct l; cbn; [reflexivity|lia]. Qed.
Theorem drained : forall fuel k chans stop p p' fs, p_unw p = false -> pending fuel k chans stop p = Ok (Some (p', fs)) ->
  is_down (p_c p') \/ p_unw p' = true \/ t_held (p_t p') = [].
Proof.
  unfold is_down. induction fuel as [|fuel IH]; intros k chans stop p p' fs U H; cbn [pending] in H; [discriminate|].
  destruct (process_socket k chans stop p) as [(p1, fs1)|] eqn:E; cbn [obind] in H; [|discriminate].
  assert (A : p_flag p1 <= 0 -> is_down (p_c p1) \/ p_unw p1 = true \/ t_held (p_t p1) = []).
  { intros F. unfold process_socket in E. destruct (r_down (p_c p)) as [w|] eqn:D.
    - injection E as <- _. left. unfold is_down. rewrite D. discriminate.
    - rewrite U in E. destruct (get k (chans (p_i p)) (p_c p) (p_t p) (p_flag p)) as [(((c, t), fl), o)|] eqn:G; cbn [obind] in E; [|discriminate].
      apply get_view in G. destruct G as (G & Ef). right. right.
      assert (T : p_t p1 = t /\ p_flag p1 = fl) by (destruct o; injection E as <- _; split; reflexivity). destruct T as (-> & Ef').
      rewrite Ef' in F. destruct k.
      + apply zlen_0. lia.
      + destruct (hears (view (p_t p))) eqn:Hh; [apply zlen_0; lia|].
        apply hears_held. apply get_next_rest in G. exact (rest_hears _ _ G Hh). }
  destruct (Z.leb_spec (p_flag p1) 0) as [F|F]; [injection H as <- _; exact (A F)|].
  cbn [p_c] in H. destruct (r_down (p_c p1)) as [w|] eqn:D; [injection H as <- _; left; cbn; rewrite D; discriminate|].
  destruct (p_unw p1) eqn:U1.
  - destruct (pending fuel k chans stop _) as [[(p2, fs2)|]|] eqn:P; cbn [obind] in H; try discriminate. injection H as <- _.
    destruct fuel as [|fuel]; [discriminate|]. cbn [pending process_socket p_c p_unw] in P. unfold process_socket in P. cbn [p_c p_unw] in P.
    rewrite D in P. cbn [obind p_flag Z.leb Z.compare] in P. injection P as <- _. right. left. reflexivity.
  - destruct (pending fuel k chans stop _) as [[(p2, fs2)|]|] eqn:P; cbn [obind] in H; try discriminate. injection H as <- _.
    eapply IH; [|exact P]. reflexivity.
Qed.

(** * It ends *)
Lemma recv_weight n s r s' : (0 < n)%nat -> recv n s = (r, s') -> (weight s' <= weight s)%nat /\ (data_first s -> (weight s' < weight s)%nat).
Proof.
  intros N E. pose proof (recv_spec n s r s' N E) as (_ & W & _ & M). split; [exact W|]. intros D.
  destruct (data_first_recv _ _ _ _ D E) as (bs & ->). tauto.
Qed.

Lemma cstr_len l : (length (cstr l) <= length l)%nat.
Proof. induction l as [|x l IH]; cbn; [lia|]. destruct (x =? 0); cbn; lia. Qed.
Lemma readline_weight room first buf s r s' : readline_loop room first buf s = (r, s') ->
  (weight s' <= weight s)%nat /\ ((0 < room)%nat -> s <> [] -> (weight s' < weight s)%nat \/ r = RLEof \/ r = RLErr \/ exists n, r = RLine n buf /\ first = false).
Proof.
  intros E. pose proof (readline_loop_spec _ _ _ _ _ _ E) as (_ & _ & W & _). split; [exact W|]. intros P N.
  destruct room as [|room]; [lia|]. cbn [readline_loop] in E. destruct (recv 1 s) as (q, s1) eqn:R.
  pose proof (recv_spec 1 s q s1 ltac:(lia) R) as (_ & W1 & _ & M). destruct q.
  - left. destruct M as (_ & _ & _ & L). destruct (_ =? LF); [injection E as _ <-; exact L|].
    pose proof (readline_loop_spec _ _ _ _ _ _ E) as (_ & _ & W2 & _). lia.
  - left. injection E as _ <-. apply M. exact N.
  - destruct first; injection E as <- <-; [right; left; reflexivity|]. right. right. right. eauto.
  - right. right. left. injection E as <- _. reflexivity.
Qed.
Lemma first_body_weight c s f c' s' o : first_body c s f = Ok (c', s', o) -> (weight s' <= weight s)%nat.
Proof.
  unfold first_body. destruct (two31 <=? _); [discriminate|]. destruct (_ <? 0); [intros H; inversion H; lia|].
  destruct (Z.ltb_spec (f_size f + 5) 0) as [L|L]; [discriminate|]. destruct (Z.eqb_spec (f_size f + 5) 0) as [E|E]; [intros H; inversion H; lia|].
  destruct (recv _ s) as (r, s1) eqn:R. apply recv_weight in R; [|lia]. intros H. destruct r.
  - destruct (zlen bs =? _); [apply process_buffer_rest in H; subst; tauto|inversion H; subst; tauto].
  - inversion H; subst; tauto.
  - inversion H; subst; tauto.
  - inversion H; subst; tauto.
Qed.
Lemma shutdown_is c w : is_down (shutdown c w).
Proof. apply shutdown_down. Qed.
Lemma process_buffer_sound c s f body c' s' o : process_buffer c s f body = Ok (c', s', o) -> is_down c' \/ c' = c.
Proof.
  unfold process_buffer. destruct (f_size f <? 0); [discriminate|]. destruct (bytes_eqb _ _); intros H; inversion H; [right; reflexivity|].
  left. apply shutdown_is.
Qed.
Lemma first_body_sound c s f c' s' o : r_pending c = [] -> r_partial c = None -> first_body c s f = Ok (c', s', o) -> is_down c' \/ sound c'.
Proof.
  intros P Q. unfold first_body. destruct (two31 <=? _); [discriminate|].
  assert (S0 : sound c). { unfold sound. rewrite P, Q. split; [unfold zlen; cbn; lia|exact I]. }
  destruct (_ <? 0); [intros H; inversion H; subst; right; exact S0|].
  destruct (Z.ltb_spec (f_size f + 5) 0) as [L|L]; [discriminate|].
  destruct (Z.eqb_spec (f_size f + 5) 0) as [E|E]; [intros H; inversion H; left; apply shutdown_is|].
  destruct (recv _ s) as (r, s1) eqn:R. apply recv_spec in R; [|lia]. destruct R as (_ & _ & _ & M). intros H. destruct r.
  - destruct M as (_ & M & _). destruct (Z.eqb_spec (zlen bs) (f_size f + 5)) as [Z1|Z1].
    + apply process_buffer_sound in H. destruct H as [H| ->]; [left; exact H|right; exact S0].
    + inversion H; subst. right. unfold sound. cbn [r_pending r_partial]. rewrite P. split; [unfold zlen; cbn; lia|]. unfold zlen in *. lia.
  - inversion H; subst. right. unfold sound. cbn [r_pending r_partial]. rewrite P. split; [unfold zlen; cbn; lia|]. unfold zlen. cbn. lia.
  - inversion H; left; apply shutdown_is.
  - inversion H; left; apply shutdown_is.
Qed.
Lemma get_next_sound chans c s c' s' o : sound c -> r_down c = None -> get_next chans c s = Ok (c', s', o) ->
  (is_down c' \/ sound c') /\ (weight s' <= weight s)%nat /\ (s <> [] -> (weight s' < weight s)%nat \/ is_down c').
Proof.
  intros (P97 & PO) D. unfold get_next. rewrite D. destruct (r_partial c) as [(f, got)|] eqn:Pt.
  - unfold continue_body. destruct (Z.leb_spec (f_size f + 5 - zlen got) 0) as [L|L]; [lia|].
    destruct (recv _ s) as (r, s1) eqn:R. apply recv_spec in R; [|lia]. destruct R as (_ & W & _ & M). intros H. destruct r.
    + destruct M as (_ & M & _ & Wl). destruct (Z.eqb_spec (zlen bs) (f_size f + 5 - zlen got)) as [Z1|Z1].
      * pose proof (process_buffer_rest _ _ _ _ _ _ _ H) as ->. apply process_buffer_sound in H.
        split; [|split; [lia|intros _; left; exact Wl]]. destruct H as [H| ->]; [left; exact H|]. right. split; [exact P97|exact I].
      * inversion H; subst. split; [|split; [lia|intros _; left; exact Wl]]. right. split; [exact P97|]. cbn [r_partial]. unfold zlen in *. rewrite app_length. lia.
    + inversion H; subst. split; [left; apply shutdown_is|]. split; [lia|]. intros _. right. apply shutdown_is.
    + inversion H; subst. split; [left; apply shutdown_is|]. split; [lia|]. intros _. right. apply shutdown_is.
    + inversion H; subst. split; [left; apply shutdown_is|]. split; [lia|]. intros _. right. apply shutdown_is.
  - unfold readline. unfold maxline. destruct (Z.leb_spec 99 (zlen (r_pending c))) as [L|L]; [lia|].
    destruct (readline_loop _ _ _ s) as (r, s1) eqn:R. pose proof (readline_weight _ _ _ _ _ _ R) as (W & Wl).
    pose proof (readline_loop_spec _ _ _ _ _ _ R) as (_ & _ & _ & M).
    intros H. specialize (Wl ltac:(lia)). destruct r as [n line|  |p|].
    + unfold process_line in H. destruct (decide_line chans n line) as [d|] eqn:Ed; cbn [obind] in H; [|discriminate].
      assert (Wl' : s <> [] -> (weight s1 < weight s)%nat).
      { intros N. destruct (Wl N) as [X|[X|[X|(n' & _ & X)]]]; try discriminate; exact X. }
      destruct d as [w|f|f].
      * inversion H; subst. split; [left; apply shutdown_is|]. split; [exact W|]. intros _. right. apply shutdown_is.
      * inversion H; subst. split; [right; split; [unfold zlen; cbn; lia|exact I]|]. split; [exact W|]. intros N. left. exact (Wl' N).
      * pose proof (first_body_weight _ _ _ _ _ _ H) as W2. apply first_body_sound in H; [|reflexivity|reflexivity].
        split; [exact H|]. split; [lia|]. intros N. left. specialize (Wl' N). lia.
    + inversion H; subst. split; [left; apply shutdown_is|]. split; [exact W|]. intros _. right. apply shutdown_is.
    + destruct M as (d & _ & Ep & _ & Ld & Wa & _). destruct (25 <? _).
      * inversion H; subst. split; [left; apply shutdown_is|]. split; [exact W|]. intros _. right. apply shutdown_is.
      * inversion H; subst. split; [right|split; [exact W|intros N; left; exact (Wa N)]]. split; [|exact I]. cbn [r_pending].
        pose proof (cstr_len (r_pending c ++ d)) as C. rewrite app_length in C. unfold zlen in *. lia.
    + inversion H; subst. split; [left; apply shutdown_is|]. split; [exact W|]. intros _. right. apply shutdown_is.
Qed.

Lemma held_first t : t_held t <> [] -> data_first (view t).
Proof. unfold view. destruct (t_held t); [contradiction|]. intros _. exact I. Qed.
Lemma first_not_nil s : data_first s -> s <> [].
Proof. destruct s; [contradiction|discriminate]. Qed.
Definition usable (c : rconn) : Prop := is_down c \/ sound c.
Definition p_ready (p : pst) : Prop := data_first (view (p_t p)) \/ hears (view (p_t p)) = false \/ p_unw p = true.
Lemma process_socket_ends k chans stop p p1 fs : usable (p_c p) -> process_socket k chans stop p = Ok (p1, fs) ->
  usable (p_c p1) /\ (weight (view (p_t p1)) <= weight (view (p_t p)))%nat /\
  (r_down (p_c p) = None -> p_unw p = false -> view (p_t p) <> [] -> (weight (view (p_t p1)) < weight (view (p_t p)))%nat \/ is_down (p_c p1)) /\
  (0 < p_flag p1 -> data_first (view (p_t p1)) \/ (p_flag p1 = p_flag p /\ p_ready p1) \/ is_down (p_c p1)).
Proof.
  intros U E. unfold process_socket in E. destruct (r_down (p_c p)) as [w|] eqn:D.
  { injection E as <- _. split; [exact U|]. split; [lia|]. split; [intros X; congruence|]. intros _. right. right. unfold is_down. congruence. }
  destruct (p_unw p) eqn:Un.
  { injection E as <- _. split; [exact U|]. split; [lia|]. split; [discriminate|]. intros _. right. left. split; [reflexivity|]. right. right. exact Un. }
  destruct U as [U|U]; [contradiction|].
  destruct (get k (chans (p_i p)) (p_c p) (p_t p) (p_flag p)) as [(((c, t), fl), o)|] eqn:G; cbn [obind] in E; [|discriminate].
  apply get_view in G. destruct G as (G & Ef). pose proof (get_next_rest _ _ _ _ _ _ G) as R.
  destruct (get_next_sound _ _ _ _ _ _ U D G) as (A & B & C).
  assert (T : p_t p1 = t /\ p_flag p1 = fl /\ p_c p1 = c) by (destruct o; injection E as <- _; repeat split). destruct T as (-> & -> & ->).
  split; [exact A|]. split; [exact B|]. split; [intros _ _; exact C|]. intros F.
  assert (Hh : forall l : bytes, 0 < zlen l -> l <> []) by (intros [|] Q; [unfold zlen in Q; cbn in Q; lia|discriminate]).
  destruct k; [left; apply held_first, Hh; lia|].
  destruct (hears (view (p_t p))) eqn:He; [left; apply held_first, Hh; lia|].
  right. left. split; [exact Ef|]. right. left. assert (p_t p1 = t) by (destruct o; injection E as <- _; reflexivity). rewrite H. exact (rest_hears _ _ R He).
Qed.
Lemma pending_ends_0 fuel : forall k chans stop p, usable (p_c p) -> p_flag p <= 0 -> p_ready p ->
  (weight (view (p_t p)) + 2 <= fuel)%nat -> pending fuel k chans stop p <> Ok None.
Proof.
  induction fuel as [|fuel IH]; intros k chans stop p U F R W; [lia|]. cbn [pending].
  destruct (process_socket k chans stop p) as [(p1, fs)|] eqn:E; cbn [obind]; [|discriminate].
  destruct (process_socket_ends _ _ _ _ _ _ U E) as (U1 & W1 & L1 & F1).
  destruct (Z.leb_spec (p_flag p1) 0) as [G|G]; [discriminate|]. cbn [p_c].
  destruct (r_down (p_c p1)) as [w|] eqn:D1; [discriminate|].
  destruct (F1 G) as [X|[(X & _)|X]]; [|lia|contradiction].
  assert (L : (weight (view (p_t p1)) < weight (view (p_t p)))%nat \/ p_unw p = true).
  { destruct (r_down (p_c p)) as [w|] eqn:D; [unfold process_socket in E; rewrite D in E; injection E as <- _; congruence|].
    destruct (p_unw p) eqn:Un; [right; reflexivity|]. left.
    destruct R as [R|[R|R]]; [|exfalso|congruence].
    - destruct (L1 eq_refl eq_refl (first_not_nil _ R)) as [Y|Y]; [exact Y|contradiction].
    - unfold process_socket in E. rewrite D, Un in E.
      destruct (get k (chans (p_i p)) (p_c p) (p_t p) (p_flag p)) as [(((c, t), fl), o)|] eqn:Gt; cbn [obind] in E; [|discriminate].
      apply get_view in Gt. destruct Gt as (Gt & _). apply get_next_rest in Gt. apply rest_hears in Gt; [|exact R].
      assert (T : p_t p1 = t) by (destruct o; injection E as <- _; reflexivity). rewrite T in X. destruct (view t) as [|[[|]| | | |]]; cbn in *; try contradiction; discriminate. }
  destruct L as [L|L].
  - destruct (pending fuel k chans stop _) as [[(p2, fs2)|]|] eqn:P; cbn [obind]; try discriminate.
    exfalso. revert P. apply IH; cbn [p_c p_flag p_t p_unw]; [exact U1|lia|left; exact X|lia].
  - unfold process_socket in E. rewrite L in E. destruct (r_down (p_c p)); injection E as <- _; lia.
Qed.
Theorem pending_ends : forall fuel k chans stop p, usable (p_c p) -> (weight (view (p_t p)) + 3 <= fuel)%nat -> pending fuel k chans stop p <> Ok None.
Proof.
  intros [|fuel] k chans stop p U W; [lia|]. cbn [pending].
  destruct (process_socket k chans stop p) as [(p1, fs)|] eqn:E; cbn [obind]; [|discriminate].
  destruct (process_socket_ends _ _ _ _ _ _ U E) as (U1 & W1 & L1 & F1).
  destruct (Z.leb_spec (p_flag p1) 0) as [G|G]; [discriminate|]. cbn [p_c].
  destruct (r_down (p_c p1)) as [w|] eqn:D1; [discriminate|].
  destruct (pending fuel k chans stop _) as [[(p2, fs2)|]|] eqn:P; cbn [obind]; try discriminate.
  exfalso. revert P. apply pending_ends_0; cbn [p_c p_flag p_t p_unw]; [exact U1|lia| |lia].
  destruct (F1 G) as [X|[(_ & X)|X]]; [left; exact X|exact X|contradiction].
Qed.

(** * Reads of what came so far *)
Definition ext (R s' s2 : sock) : Prop := s2 = s' ++ SAgain :: R \/ (s' = [] /\ s2 = R).
Lemma recv_ext n s R : forall r s', recv n s = (r, s') ->
  exists s2, recv n (s ++ SAgain :: R) = (r, s2) /\ (r <> RAgain -> s2 = s' ++ SAgain :: R) /\ ext R s' s2.
Proof.
  induction s as [|e s IH]; intros r s' H; cbn [recv app] in *.
  - injection H as <- <-. exists R. split; [reflexivity|]. split; [congruence|]. right. split; reflexivity.
  - destruct e as [[|b bs]| | | |]; try exact (IH _ _ H).
    + destruct (Nat.leb (length (b :: bs)) n); injection H as <- <-; eexists; (split; [reflexivity|]); (split; [reflexivity|left; reflexivity]).
    + injection H as <- <-. eexists. split; [reflexivity|]. split; [reflexivity|left; reflexivity].
    + injection H as <- <-. eexists. split; [reflexivity|]. split; [reflexivity|left; reflexivity].
    + injection H as <- <-. eexists. split; [reflexivity|]. split; [reflexivity|left; reflexivity].
Qed.
Lemma readline_ext room R : forall first buf s r s', readline_loop room first buf s = (r, s') ->
  exists s2, readline_loop room first buf (s ++ SAgain :: R) = (r, s2) /\ ((forall p, r <> RLAgain p) -> s2 = s' ++ SAgain :: R) /\ ext R s' s2.
Proof.
  induction room as [|room IH]; intros first buf s r s' H; cbn [readline_loop] in *.
  { injection H as <- <-. eexists. split; [reflexivity|]. split; [reflexivity|left; reflexivity]. }
  destruct (recv 1 s) as (q, s1) eqn:E. destruct (recv_ext 1 s R _ _ E) as (s2 & E2 & A & B). rewrite E2. destruct q.
  - rewrite A by discriminate. destruct (_ =? LF); [injection H as <- <-; eexists; (split; [reflexivity|]); split; [reflexivity|left; reflexivity]|].
    exact (IH _ _ _ _ _ H).
  - injection H as <- <-. eexists. split; [reflexivity|]. split; [intros X; exfalso; eapply X; reflexivity|exact B].
  - rewrite A by discriminate. destruct first; injection H as <- <-; eexists; (split; [reflexivity|]); (split; [reflexivity|left; reflexivity]).
  - rewrite A by discriminate. injection H as <- <-. eexists. split; [reflexivity|]. split; [reflexivity|left; reflexivity].
Qed.
Lemma process_buffer_ext c s f body R : 
  match process_buffer c s f body with
  | UB => process_buffer c (s ++ SAgain :: R) f body = UB
  | Ok (c', s', o) => s' = s /\ process_buffer c (s ++ SAgain :: R) f body = Ok (c', s ++ SAgain :: R, o)
  end.
Proof. unfold process_buffer. destruct (f_size f <? 0); [reflexivity|]. destruct (bytes_eqb _ _); split; reflexivity. Qed.
Definition ext_next (R : sock) (a b : rnext) : Prop :=
  match a with UB => b = UB | Ok (c', s', o) => exists s2, b = Ok (c', s2, o) /\ ext R s' s2 end.
Lemma body_ext c s f body R : ext_next R (process_buffer c s f body) (process_buffer c (s ++ SAgain :: R) f body).
Proof.
  pose proof (process_buffer_ext c s f body R) as H. unfold ext_next. destruct (process_buffer c s f body) as [((c', s'), o)|]; [|exact H].
  destruct H as (-> & H). rewrite H. eexists. split; [reflexivity|left; reflexivity].
Qed.
Lemma ok_ext R c s s2 o : ext R s s2 -> ext_next R (Ok (c, s, o)) (Ok (c, s2, o)).
Proof. intros H. exists s2. split; [reflexivity|exact H]. Qed.
Lemma same_ext R s : ext R s (s ++ SAgain :: R).
Proof. left. reflexivity. Qed.
Lemma first_body_ext c s f R : ext_next R (first_body c s f) (first_body c (s ++ SAgain :: R) f).
Proof.
  unfold first_body. destruct (two31 <=? _); [reflexivity|]. destruct (_ <? 0); [apply ok_ext, same_ext|].
  destruct (_ <? 0); [reflexivity|]. destruct (_ =? 0); [apply ok_ext, same_ext|].
  destruct (recv _ s) as (r, s1) eqn:E. destruct (recv_ext _ s R _ _ E) as (s2 & E2 & A & B). rewrite E2. destruct r.
  - rewrite A by discriminate. destruct (zlen bs =? _); [apply body_ext|apply ok_ext, same_ext].
  - apply ok_ext. exact B.
  - apply ok_ext. exact B.
  - apply ok_ext. exact B.
Qed.
Lemma get_next_ext chans c s R : ext_next R (get_next chans c s) (get_next chans c (s ++ SAgain :: R)).
Proof.
  unfold get_next. destruct (r_down c); [apply ok_ext, same_ext|]. destruct (r_partial c) as [(f, got)|].
  - unfold continue_body. destruct (_ <=? 0); [apply ok_ext, same_ext|].
    destruct (recv _ s) as (r, s1) eqn:E. destruct (recv_ext _ s R _ _ E) as (s2 & E2 & A & B). rewrite E2. destruct r.
    + rewrite A by discriminate. destruct (zlen bs =? _); [apply body_ext|apply ok_ext, same_ext].
    + apply ok_ext. exact B.
    + apply ok_ext. exact B.
    + apply ok_ext. exact B.
  - unfold readline. destruct (maxline <=? _); [apply ok_ext, same_ext|].
    destruct (readline_loop _ _ _ s) as (r, s1) eqn:E. destruct (readline_ext _ R _ _ _ _ _ E) as (s2 & E2 & A & B). rewrite E2. destruct r.
    + rewrite A by discriminate. unfold process_line. destruct (decide_line _ _ _) as [[w|f|f]|]; cbn [obind].
      * apply ok_ext, same_ext.
      * apply ok_ext, same_ext.
      * apply first_body_ext.
      * reflexivity.
    + apply ok_ext. exact B.
    + destruct (25 <? _); apply ok_ext; exact B.
    + apply ok_ext. exact B.
Qed.

(** * The stream over batches of whole records *)
Definition full (s : sock) : Prop := Forall (fun e => match e with SData (_ :: _) => True | _ => False end) s.
Lemma full_rest s s' : rest_of s s' -> full s -> full s'.
Proof.
  induction 1 as [s|a b s A B|e s s' H IH]; intros F; [exact F| |].
  - inversion F; subst. constructor; [|assumption]. destruct b; [contradiction|exact I].
  - inversion F; subst. apply IH. assumption.
Qed.
Lemma full_first s : full s -> s <> [] -> data_first s.
Proof. intros F N. destruct s as [|e s]; [contradiction|]. inversion F; subst. destruct e as [[|]| | | |]; try contradiction. exact I. Qed.
Lemma full_hears s : full s -> s <> [] -> hears s = true.
Proof. intros F N. pose proof (full_first _ F N) as D. destruct s as [|[[|]| | | |] s]; try contradiction. reflexivity. Qed.
Lemma first_app s s' : data_first s -> data_first (s ++ s').
Proof. destruct s as [|[[|]| | | |] s]; try contradiction. intros _. exact I. Qed.
Lemma agains_app a b : agains (a ++ b) = agains a + agains b.
Proof. unfold agains. rewrite filter_app, app_length. lia. Qed.
Lemma agains_pos s : 0 <= agains s.
Proof. unfold agains. lia. Qed.
Lemma weight_app a b : weight (a ++ b) = (weight a + weight b)%nat.
Proof. induction a as [|[]]; cbn [weight app]; rewrite ?IHa; lia. Qed.
Definition good (c : rconn) (T : sock) : Prop := r_nodata c + agains T < 25 \/ T = [].
Definition clean (chans : nat -> Z -> option chwin) (i : nat) (fr : todo) : Prop :=
  forall k f lb, nth_error fr k = Some (f, lb) -> receivable (chans (i + k)%nat) f.
Definition too_many (c : rconn) (fr : todo) (out : list frame) : Prop :=
  r_down c = Some WTooManyAgain /\ exists rest, map fst fr = out ++ rest.
Definition went (chans : nat -> Z -> option chwin) (p p' : pst) (T F : sock) (fr : todo) (out : list frame) : Prop :=
  p_unw p' = false /\ p_i p' = (p_i p + length out)%nat /\ 0 <= r_nodata (p_c p') /\
  ((too_many (p_c p') fr out /\ ~ good (p_c p) T) \/
   (full (view (p_t p')) /\ exists fr' T', map fst fr = out ++ map fst fr' /\ ext F (view (p_t p')) T' /\ inv (p_c p') T' fr' /\
      clean chans (p_i p') fr' /\ (good (p_c p) T -> good (p_c p') T'))).
Lemma socket_stream k chans p F fr : let T := view (p_t p) ++ SAgain :: F in
  p_unw p = false -> full (view (p_t p)) -> view (p_t p) <> [] -> inv (p_c p) T fr -> 0 <= r_nodata (p_c p) -> clean chans (p_i p) fr ->
  exists p' out, process_socket k chans never p = Ok (p', out) /\ (weight (view (p_t p')) < weight (view (p_t p)))%nat /\
    p_flag p' = zlen (t_held (p_t p')) /\ went chans p p' T F fr out.
Proof.
  intros T Un Fu N In Nd Cl. unfold process_socket. pose proof (proj1 In) as D. rewrite D, Un.
  assert (TN : T <> []) by (unfold T; destruct (view (p_t p)); discriminate).
  destruct (get_next_step (chans (p_i p)) (p_c p) T fr In TN) as (c' & s2 & o & E & (W2 & _ & Q)).
  { destruct fr as [|(f, lb) fr']; [exact I|]. intros _. specialize (Cl O f lb eq_refl). rewrite Nat.add_0_r in Cl. exact Cl. }
  pose proof (get_next_nodata _ _ _ _ _ _ Nd E) as (Ag & Nd' & Pot).
  pose proof (get_next_ext (chans (p_i p)) (p_c p) (view (p_t p)) F) as X. fold T in X. rewrite E in X. unfold ext_next in X.
  destruct (get_next (chans (p_i p)) (p_c p) (view (p_t p))) as [((c0, s'), o0)|] eqn:G; [|discriminate X].
  destruct X as (s2' & X & Ex). injection X as <- <- <-.
  pose proof (get_next_rest _ _ _ _ _ _ G) as R. unfold get. rewrite G. cbn [obind]. rewrite (full_hears _ Fu N).
  pose proof (settle_view _ _ R) as Sv. set (t' := settle (p_t p) s') in *.
  assert (Fl : (match k with TLS => zlen (t_held t') | WS => zlen (t_held t') end) = zlen (t_held t')) by (destruct k; reflexivity). rewrite Fl.
  assert (Wt : (weight s' < weight (view (p_t p)))%nat).
  { destruct Ex as [->|(-> & _)].
    - unfold T in W2. rewrite !weight_app in W2. lia.
    - destruct (view (p_t p)) as [|[]]; [contradiction|cbn; lia..]. }
  assert (Gd : good (p_c p) T -> good c' s2).
  { intros [Q1|Q1]; [|contradiction]. destruct Pot as [Q2|Q2]; [left; lia|right; exact Q2]. }
  destruct Q as [(-> & Hi & _)|[(f & lb & fr' & -> & -> & Hi & _)|(-> & (w & Hdn & Hfe & Hf1 & Hf2) & _)]].
  - eexists _, []. split; [reflexivity|]. cbn [p_t p_flag]. rewrite Sv. split; [exact Wt|]. split; [reflexivity|].
    unfold went. cbn [p_unw p_i p_c p_t length]. rewrite Nat.add_0_r, Sv. split; [reflexivity|]. split; [reflexivity|]. split; [exact Nd'|].
    right. split; [exact (full_rest _ _ R Fu)|]. exists fr, s2. split; [reflexivity|]. split; [exact Ex|]. split; [exact Hi|]. split; [exact Cl|exact Gd].
  - eexists _, [f]. split; [reflexivity|]. cbn [p_t p_flag]. rewrite Sv. split; [exact Wt|]. split; [reflexivity|].
    unfold went. cbn [p_unw p_i p_c p_t length]. rewrite Sv. split; [reflexivity|]. split; [lia|]. split; [exact Nd'|].
    right. split; [exact (full_rest _ _ R Fu)|]. exists fr', s2. split; [reflexivity|]. split; [exact Ex|]. split; [exact Hi|].
    split; [|exact Gd]. intros j g lb2 Hk. specialize (Cl (S j) g lb2 Hk). replace (S (p_i p) + j)%nat with (p_i p + S j)%nat by lia. exact Cl.
  - eexists _, []. split; [reflexivity|]. cbn [p_t p_flag]. rewrite Sv. split; [exact Wt|]. split; [reflexivity|].
    unfold went. cbn [p_unw p_i p_c p_t length]. rewrite Nat.add_0_r, Sv. split; [reflexivity|]. split; [reflexivity|]. split; [exact Nd'|]. left.
    assert (w = WTooManyAgain) as ->.
    { destruct Hfe as [->|E1]; [reflexivity|exfalso]. apply (Hf2 E1). apply first_app, full_first; assumption. }
    split; [split; [exact Hdn|exists (map fst fr); reflexivity]|]. specialize (Hf1 eq_refl). intros [Q1|Q1]; [pose proof (agains_pos T); lia|contradiction].
Qed.
(** Turns one after the other. *)
Lemma went_then chans p p1 p2 T F fr fr1 T1 out1 out2 : p_i p1 = (p_i p + length out1)%nat ->
  map fst fr = out1 ++ map fst fr1 -> (good (p_c p) T -> good (p_c p1) T1) -> went chans p1 p2 T1 F fr1 out2 -> went chans p p2 T F fr (out1 ++ out2).
Proof.
  intros I1 M G (Un & I2 & Nd & Q). unfold went. rewrite app_length. split; [exact Un|]. split; [lia|]. split; [exact Nd|].
  destruct Q as [((Dn & rest & M2) & NG)|(Fu & fr' & T' & M2 & Q & In & Cl & G2)].
  - left. split; [split; [exact Dn|]|tauto]. exists rest. rewrite M, M2, app_assoc. reflexivity.
  - right. split; [exact Fu|]. exists fr', T'. split; [rewrite M, M2, app_assoc; reflexivity|]. split; [exact Q|]. split; [exact In|]. split; [exact Cl|tauto].
Qed.
Lemma held_view t : t_held t <> [] -> view t <> [].
Proof. unfold view. destruct (t_held t); [contradiction|discriminate]. Qed.
Lemma zlen_pos (l : bytes) : 0 < zlen l -> l <> [].
Proof. unfold zlen. destruct l; cbn; [lia|discriminate]. Qed.
Lemma pending_stream fuel : forall k chans p F fr, let T := view (p_t p) ++ SAgain :: F in
  p_unw p = false -> full (view (p_t p)) -> view (p_t p) <> [] -> inv (p_c p) T fr -> 0 <= r_nodata (p_c p) -> clean chans (p_i p) fr ->
  (weight (view (p_t p)) <= fuel)%nat ->
  exists p' out, pending fuel k chans never p = Ok (Some (p', out)) /\ (weight (view (p_t p')) < weight (view (p_t p)))%nat /\ went chans p p' T F fr out.
Proof.
  induction fuel as [|fuel IH]; intros k chans p F fr T Un Fu N In Nd Cl W.
  { destruct (view (p_t p)) as [|[]]; [contradiction|cbn in W; lia..]. }
  destruct (socket_stream k chans p F fr Un Fu N In Nd Cl) as (p1 & out1 & E & W1 & Fl & We). fold T in We.
  cbn [pending]. rewrite E. cbn [obind]. rewrite Fl. destruct (Z.leb_spec (zlen (t_held (p_t p1))) 0) as [L|L].
  { exists p1, out1. split; [reflexivity|]. split; [exact W1|exact We]. }
  cbn [p_c p_t]. pose proof We as (Un1 & I1 & Nd1 & Q). destruct Q as [((Dn & rest & M) & NG)|(Fu1 & fr1 & T1 & M & Ex & In1 & Cl1 & G1)].
  { rewrite Dn. eexists _, out1. split; [reflexivity|]. cbn [p_t]. split; [exact W1|exact We]. }
  rewrite (proj1 In1). pose proof (held_view _ (zlen_pos _ L)) as N1.
  destruct Ex as [->|(Ex & _)]; [|contradiction].
  destruct (IH k chans (mkP (p_c p1) (p_t p1) 0 (p_unw p1) (p_i p1)) F fr1 Un1 Fu1 N1 In1 Nd1 Cl1 ltac:(cbn [p_t]; lia)) as (p2 & out2 & E2 & W2 & We2).
  rewrite E2. cbn [obind]. exists p2, (out1 ++ out2). split; [reflexivity|]. cbn [p_t] in W2. split; [lia|].
  exact (went_then chans p (mkP (p_c p1) (p_t p1) 0 (p_unw p1) (p_i p1)) p2 T F fr fr1 _ out1 out2 I1 M G1 We2).
Qed.
Lemma nothing_left t : readable t = false -> t_held t = [] -> view t = [].
Proof. unfold readable, view. intros R ->. destruct (t_net t); [reflexivity|discriminate]. Qed.
Lemma reader_stream fuel : forall k chans p F fr T,
  p_unw p = false -> full (view (p_t p)) -> t_held (p_t p) = [] -> ext F (view (p_t p)) T -> inv (p_c p) T fr -> 0 <= r_nodata (p_c p) ->
  clean chans (p_i p) fr -> (weight (view (p_t p)) < fuel)%nat ->
  exists p' out, reader fuel k chans never p = Ok (Some (p', out)) /\ went chans p p' T F fr out /\ (r_down (p_c p') = None -> t_held (p_t p') = [] /\ view (p_t p') = []).
Proof.
  induction fuel as [|fuel IH]; intros k chans p F fr T Un Fu H Ex In Nd Cl W; [lia|].
  cbn [reader]. rewrite Un, (proj1 In). rewrite !orb_false_r. destruct (readable (p_t p)) eqn:Rd; cbn [negb].
  2:{ exists p, []. split; [reflexivity|]. pose proof (nothing_left _ Rd H) as V. split; [|intros _; split; assumption].
      unfold went. cbn [length]. split; [exact Un|]. split; [lia|]. split; [exact Nd|]. right. split; [exact Fu|]. exists fr, T. split; [reflexivity|].
      split; [exact Ex|]. split; [exact In|]. split; [exact Cl|trivial]. }
  assert (N : view (p_t p) <> []). { unfold readable, view in *. rewrite H. destruct (t_net (p_t p)); [discriminate|]. cbn. discriminate. }
  destruct Ex as [->|(Ex & _)]; [|contradiction].
  destruct (pending_stream (S fuel) k chans p F fr Un Fu N In Nd Cl ltac:(lia)) as (p1 & out1 & E & W1 & We). rewrite E. cbn [obind].
  destruct (drained _ _ _ _ _ _ _ Un E) as [Dr|[Dr|Dr]]; pose proof We as (Un1 & I1 & Nd1 & Q).
  - destruct (r_down (p_c p1)) as [w|] eqn:Dn; [|contradiction].
    exists p1, out1. destruct fuel as [|fuel]; [destruct (view (p_t p)) as [|[]]; [contradiction|cbn in W; lia..]|]. cbn [reader]. rewrite Un1, Dn, orb_true_r. cbn [obind]. rewrite app_nil_r.
    split; [reflexivity|]. split; [exact We|]. intros X; congruence.
  - congruence.
  - destruct Q as [((Dn & rest & M) & NG)|(Fu1 & fr1 & T1 & M & Ex1 & In1 & Cl1 & G1)].
    + exists p1, out1. destruct fuel as [|fuel]; [destruct (view (p_t p)) as [|[]]; [contradiction|cbn in W; lia..]|]. cbn [reader]. rewrite Un1, Dn, orb_true_r. cbn [obind]. rewrite app_nil_r.
      split; [reflexivity|]. split; [exact We|]. intros X; congruence.
    + destruct (IH k chans p1 F fr1 T1 Un1 Fu1 Dr Ex1 In1 Nd1 Cl1 ltac:(lia)) as (p2 & out2 & E2 & We2 & V2).
      rewrite E2. cbn [obind]. exists p2, (out1 ++ out2). split; [reflexivity|]. split; [|exact V2].
      exact (went_then chans p p1 p2 _ F fr fr1 T1 out1 out2 I1 M G1 We2).
Qed.

(** What the socket gives in all. *)
Definition socket (bs : list (list tev)) : sock := concat (map (fun b => map ev b ++ [SAgain]) bs).
Lemma whole_full b : whole b -> full (map ev b).
Proof. intros (_ & H). apply Forall_map. eapply Forall_impl; [|exact H]. intros [[|]| |]; cbn; trivial. Qed.
Lemma whole_sdata b : whole b -> sdata (map ev b) = tbytes b.
Proof. intros (_ & H). induction H as [|[bs| |] b E _ IH]; try contradiction; [reflexivity|]. cbn. unfold tbytes in *. cbn. rewrite IH. reflexivity. Qed.
Lemma full_alive s : full s -> alive s.
Proof. apply Forall_impl. intros [[|]| | | |]; tauto. Qed.
Lemma full_agains s : full s -> agains s = 0.
Proof. intros H. induction H as [|[[|]| | | |] s E _ IH]; try contradiction; [reflexivity|]. unfold agains in *. cbn. exact IH. Qed.
Lemma socket_alive bs : Forall whole bs -> alive (socket bs).
Proof.
  induction 1 as [|b bs H _ IH]; [constructor|]. unfold socket in *. cbn [map concat]. apply Forall_app. split; [|exact IH].
  apply Forall_app. split; [apply full_alive, whole_full, H|]. repeat constructor.
Qed.
Lemma sdata_app a b : sdata (a ++ b) = sdata a ++ sdata b.
Proof. induction a as [|[]]; cbn [sdata app]; rewrite ?IHa, ?app_assoc; reflexivity. Qed.
Lemma socket_sdata bs : Forall whole bs -> sdata (socket bs) = concat (map tbytes bs).
Proof.
  induction 1 as [|b bs H _ IH]; [reflexivity|]. unfold socket in *. cbn [map concat]. rewrite !sdata_app, IH, (whole_sdata _ H). cbn. rewrite app_nil_r. reflexivity.
Qed.
Lemma socket_agains bs : Forall whole bs -> agains (socket bs) = zlen bs.
Proof.
  induction 1 as [|b bs H _ IH]; [reflexivity|]. unfold socket in *. cbn [map concat]. rewrite !agains_app, IH, (full_agains _ (whole_full _ H)). change (agains [SAgain]) with 1. unfold zlen. cbn [length]. lia.
Qed.
Lemma run_down fuel k chans stop : forall bs p, is_down (p_c p) -> (0 < fuel)%nat ->
  exists p', run fuel k chans stop p bs = Ok (Some (p', [])) /\ p_c p' = p_c p.
Proof.
  induction bs as [|b bs IH]; intros p D N; cbn [run]; [exists p; split; reflexivity|].
  assert (R : reader fuel k chans stop (arrive p b) = Ok (Some (arrive p b, []))).
  { destruct fuel; [lia|]. cbn [reader]. unfold arrive. cbn [p_c]. unfold is_down in D. destruct (r_down (p_c p)); [|contradiction]. rewrite orb_true_r. reflexivity. }
  rewrite R. cbn [obind]. destruct (IH (arrive p b) D N) as (p' & E & C). rewrite E. exists p'. split; [reflexivity|exact C].
Qed.
Lemma run_stream fuel k chans : forall bs p fr T, Forall whole bs ->
  p_unw p = false -> t_held (p_t p) = [] -> view (p_t p) = [] -> (T = SAgain :: socket bs \/ T = socket bs) -> inv (p_c p) T fr -> 0 <= r_nodata (p_c p) ->
  clean chans (p_i p) fr -> (weight (socket bs) < fuel)%nat ->
  exists p' out, run fuel k chans never p bs = Ok (Some (p', out)) /\
    ((r_down (p_c p') = None /\ out = map fst fr /\ view (p_t p') = []) \/ (too_many (p_c p') fr out /\ ~ good (p_c p) T)).
Proof.
  induction bs as [|b bs IH]; intros p fr T Wh Un H V TT In Nd Cl W; cbn [run].
  - exists p, []. split; [reflexivity|]. left. split; [exact (proj1 In)|]. split; [|exact V].
    assert (I0 : inv (p_c p) [] fr). { apply (inv_sock _ T); [exact In|constructor|]. destruct TT as [->| ->]; reflexivity. }
    apply inv_done in I0. rewrite I0. reflexivity.
  - inversion Wh as [|b0 bs0 Wb Wbs]; subst b0 bs0. set (F := socket bs).
    assert (ES : socket (b :: bs) = map ev b ++ SAgain :: F) by (unfold F, socket; cbn [map concat]; rewrite <- app_assoc; reflexivity).
    rewrite ES in *.
    assert (Nt : t_net (p_t p) = []). { unfold view in V. rewrite H in V. destruct (t_net (p_t p)); [reflexivity|discriminate]. }
    assert (Va : view (p_t (arrive p b)) = map ev b) by (unfold arrive, view; cbn [p_t t_held t_net]; rewrite H, Nt; reflexivity).
    assert (In1 : inv (p_c p) (map ev b ++ SAgain :: F) fr).
    { apply (inv_sock _ T); [exact In| |destruct TT as [->| ->]; reflexivity]. rewrite <- ES. apply socket_alive. exact Wh. }
    assert (Gd : good (p_c p) T -> good (p_c p) (map ev b ++ SAgain :: F)).
    { intros [Q|Q]; [left|destruct TT as [->| ->]; [discriminate|]; destruct (map ev b); discriminate].
      destruct TT as [->| ->]; [|exact Q]. change (SAgain :: map ev b ++ SAgain :: F) with ([SAgain] ++ (map ev b ++ SAgain :: F)) in Q.
      rewrite agains_app in Q. pose proof (agains_pos [SAgain]). lia. }
    rewrite weight_app in W.
    destruct (reader_stream fuel k chans (arrive p b) F fr (map ev b ++ SAgain :: F)) as (p1 & out1 & E1 & We & Vw).
    { exact Un. } { rewrite Va. apply whole_full, Wb. } { exact H. } { rewrite Va. left. reflexivity. } { exact In1. } { exact Nd. } { exact Cl. }
    { rewrite Va. lia. }
    rewrite E1. cbn [obind]. destruct We as (Un1 & I1 & Nd1 & Q). destruct Q as [((Dn & rest & M) & NG)|(Fu1 & fr1 & T1 & M & Ex1 & In2 & Cl1 & G1)].
    + destruct (run_down fuel k chans never bs p1) as (p2 & E2 & C2); [unfold is_down; congruence|lia|]. rewrite E2. cbn [obind].
      exists p2, (out1 ++ []). split; [reflexivity|]. right. rewrite app_nil_r. split; [split; [congruence|exists rest; exact M]|]. cbn [arrive p_c] in NG. tauto.
    + destruct (Vw (proj1 In2)) as (H1 & V1). rewrite V1 in Ex1.
      assert (TT1 : T1 = SAgain :: F \/ T1 = F) by (destruct Ex1 as [->|(_ & ->)]; [left|right]; reflexivity).
      cbn [weight] in W. destruct (IH p1 fr1 T1 Wbs Un1 H1 V1 TT1 In2 Nd1 Cl1 ltac:(fold F; lia)) as (p2 & out2 & E2 & R2).
      rewrite E2. cbn [obind]. exists p2, (out1 ++ out2). split; [reflexivity|].
      destruct R2 as [(D2 & -> & V2)|((D2 & rest & M2) & NG)].
      * left. split; [exact D2|]. split; [symmetry; exact M|exact V2].
      * right. split; [split; [exact D2|]|cbn [arrive p_c] in G1; tauto]. exists rest. rewrite M, M2, app_assoc. reflexivity.
Qed.
Theorem stream : forall k fs ws chans batches,
  Forall2 wire fs ws -> Forall whole batches -> concat (map tbytes batches) = concat ws ->
  (forall i f, nth_error fs i = Some f -> receivable (chans i) f) ->
  exists N, forall fuel, (N <= fuel)%nat ->
  exists p' out, run fuel k chans never start batches = Ok (Some (p', out)) /\
    ((r_down (p_c p') = None /\ out = fs /\ t_held (p_t p') = [] /\ t_net (p_t p') = []) \/
     (r_down (p_c p') = Some WTooManyAgain /\ exists rest, fs = out ++ rest)) /\
    (zlen batches < 25 -> r_down (p_c p') = None).
Proof.
  intros k fs ws chans batches Hw Wh Eq Rc. exists (S (weight (socket batches))). intros fuel W.
  destruct (wires_todo fs ws Hw) as (fr & Hfo & Hmap & Hflat).
  assert (I0 : inv rconn0 (socket batches) fr).
  { apply inv_boundary; [reflexivity|apply socket_alive; exact Wh|exact Hfo|]. rewrite (socket_sdata _ Wh). congruence. }
  assert (Cl : clean chans 0 fr).
  { intros j f lb Hk. apply Rc. rewrite <- Hmap. erewrite map_nth_error by exact Hk. reflexivity. }
  destruct (run_stream fuel k chans batches start fr (socket batches) Wh eq_refl eq_refl eq_refl (or_intror eq_refl) I0 ltac:(cbn; lia) Cl ltac:(lia)) as (p' & out & E & Q).
  exists p', out. split; [exact E|]. rewrite Hmap in Q. destruct Q as [(D & -> & V)|((D & rest & M) & NG)].
  - split; [left|intros _; exact D]. split; [exact D|]. split; [reflexivity|]. unfold view in V. destruct (t_held (p_t p')); [|discriminate]. destruct (t_net (p_t p')); [|discriminate]. split; reflexivity.
  - rewrite Hmap in M. split; [right; split; [exact D|exists rest; exact M]|]. intros L. exfalso. apply NG. left. rewrite (socket_agains _ Wh). cbn. lia.
Qed.

(** * A record that comes in pieces *)
Lemma piece_line k chans stop p : p_unw p = false -> r_down (p_c p) = None -> r_partial (p_c p) = None -> p_flag p = 0 ->
  p_t p = mkTr [] [TPiece] -> zlen (r_pending (p_c p)) <= 97 -> ~ In 0 (r_pending (p_c p)) -> r_nodata (p_c p) < 25 ->
  pending 1 k chans stop p = Ok (Some (mkP (mkR None (r_pending (p_c p)) None (r_nodata (p_c p) + 1)) (mkTr [] []) 0 false (p_i p), [])).
Proof.
  destruct p as (c, t, fl, un, i). destruct c as (d, pd, pt, nd). cbn [p_unw p_c p_t p_flag p_i r_down r_partial r_pending r_nodata].
  intros -> -> -> -> -> L Z0 N. cbn [pending]. unfold process_socket. cbn [p_c p_unw r_down]. unfold get. cbn [p_i p_t p_c].
  assert (V : view (mkTr [] [TPiece]) = [SData []]) by reflexivity. rewrite V.
  assert (G : get_next (chans i) (mkR None pd None nd) [SData []] = Ok (mkR None pd None (nd + 1), [], None)).
  { unfold get_next. cbn [r_down r_partial r_pending r_nodata]. unfold readline. cbn [r_pending]. unfold maxline. destruct (Z.leb_spec 99 (zlen pd)) as [Q|Q]; [lia|].
    destruct (Z.to_nat (99 - zlen pd - 1)) as [|n] eqn:E; [lia|]. cbn [readline_loop recv]. destruct (Z.ltb_spec 25 (nd + 1)) as [Q1|Q1]; [lia|].
    assert (C : cstr pd = pd).
    { clear -Z0. induction pd as [|x pd IH]; [reflexivity|]. cbn [cstr]. cbn [In] in Z0. destruct (Z.eqb_spec x 0) as [->|E0]; [tauto|]. f_equal. apply IH. tauto. }
    rewrite C. reflexivity. }
  rewrite G. cbn [obind]. destruct k; reflexivity.
Qed.
Lemma piece_body k chans stop p f got : p_unw p = false -> r_down (p_c p) = None -> r_partial (p_c p) = Some (f, got) -> p_flag p = 0 ->
  p_t p = mkTr [] [TPiece] -> zlen got < f_size f + 5 ->
  exists p', pending 1 k chans stop p = Ok (Some (p', [])) /\ r_down (p_c p') = Some WClosedPartial.
Proof.
  destruct p as (c, t, fl, un, i). destruct c as (d, pd, pt, nd). cbn [p_unw p_c p_t p_flag p_i r_down r_partial].
  intros -> -> -> -> -> L. cbn [pending]. unfold process_socket. cbn [p_c p_unw r_down]. unfold get. cbn [p_i p_t p_c p_flag].
  assert (V : view (mkTr [] [TPiece]) = [SData []]) by reflexivity. rewrite V.
  assert (G : get_next (chans i) (mkR None pd (Some (f, got)) nd) [SData []] = Ok (mkR (Some WClosedPartial) pd None nd, [], None)).
  { unfold get_next. cbn [r_down r_partial r_pending r_nodata]. unfold continue_body. destruct (Z.leb_spec (f_size f + 5 - zlen got) 0) as [Q|Q]; [lia|]. reflexivity. }
  rewrite G. cbn [obind]. destruct k; eexists; split; reflexivity.
Qed.

(** * The greetings *)
Definition tail_of (s s' : sock) : Prop := exists pre, s = pre ++ s' /\ pre <> [].
Lemma recv_part n s bs s' : recv n s = (RData bs, s') -> length bs <> n -> (0 < n)%nat -> tail_of s s'.
Proof.
  induction s as [|e s IH]; cbn [recv]; intros H L N; [discriminate|]. destruct e as [[|b l]| | | |]; try discriminate.
  - destruct (IH H L N) as (pre & -> & P). exists (SData [] :: pre). split; [reflexivity|discriminate].
  - destruct (Nat.leb_spec (length (b :: l)) n) as [Q|Q]; [injection H as <- <-; exists [SData (b :: l)]; split; [reflexivity|discriminate]|].
    injection H as <- _. rewrite firstn_length in L. cbn [length] in *. lia.
  - destruct (IH H L N) as (pre & -> & P). exists (SIntr :: pre). split; [reflexivity|discriminate].
Qed.
Lemma recv_full_again n s s' : full s -> recv n s = (RAgain, s') -> s' = [].
Proof. intros F. destruct s as [|e s]; [intros H; injection H as <-; reflexivity|]. inversion F; subst. destruct e as [[|]| | | |]; try contradiction. cbn [recv]. destruct (Nat.leb _ _); discriminate. Qed.
Lemma readline_full room : forall first buf s p s', full s -> readline_loop room first buf s = (RLAgain p, s') -> s' = [].
Proof.
  induction room as [|room IH]; intros first buf s p s' F H; cbn [readline_loop] in H; [discriminate|].
  destruct (recv 1 s) as (q, s1) eqn:E. pose proof (recv_rest 1 s ltac:(lia) _ _ E) as R. destruct q; try (destruct first; discriminate); try discriminate.
  - destruct (_ =? LF); [discriminate|]. exact (IH _ _ _ _ _ (full_rest _ _ R F) H).
  - injection H as _ <-. exact (recv_full_again _ _ _ F E).
Qed.
Lemma nil_tail s : s <> [] -> tail_of s [].
Proof. intros N. exists s. rewrite app_nil_r. split; [reflexivity|exact N]. Qed.
Lemma rest_tail s1 s2 : rest_of s1 s2 -> forall s3, tail_of s2 s3 -> tail_of s1 s3.
Proof.
  induction 1 as [s|a b s A B|e s s' H IH]; intros s3 T; [exact T| |].
  - destruct T as (pre & E & P). destruct pre as [|x pre]; [contradiction|]. injection E as <- ->. exists (SData (a ++ b) :: pre). split; [reflexivity|discriminate].
  - destruct (IH _ T) as (pre & -> & P). exists (e :: pre). split; [reflexivity|discriminate].
Qed.
(** A frame that does not end yet: the records given so far are used up. *)
Lemma first_body_tail c s f c' s' : full s -> s <> [] -> r_down c' = None -> first_body c s f = Ok (c', s', None) -> tail_of s s' \/ (c' = c /\ s' = s).
Proof.
  intros F N D. unfold first_body. destruct (two31 <=? _); [discriminate|]. destruct (_ <? 0); [intros H; inversion H; subst; right; split; reflexivity|].
  destruct (Z.ltb_spec (f_size f + 5) 0) as [P0|P0]; [discriminate|]. destruct (Z.eqb_spec (f_size f + 5) 0) as [E0|E0]; [intros H; exfalso; inversion H; subst; exact (shutdown_is _ _ D)|].
  destruct (recv _ s) as (r, s1) eqn:E. destruct r.
  - destruct (Z.eqb_spec (zlen bs) (f_size f + 5)) as [E1|E1].
    + unfold process_buffer. destruct (_ <? 0); [discriminate|]. destruct (bytes_eqb _ _); [discriminate|]. intros H. exfalso. inversion H; subst. exact (shutdown_is _ _ D).
    + intros H. inversion H; subst. left. eapply recv_part; [exact E| |lia]. unfold zlen in E1. lia.
  - intros H. inversion H; subst. left. rewrite (recv_full_again _ _ _ F E). apply nil_tail. exact N.
  - intros H. exfalso. inversion H; subst. exact (shutdown_is _ _ D).
  - intros H. exfalso. inversion H; subst. exact (shutdown_is _ _ D).
Qed.
Lemma readline_shrinks room buf s n line s' : s <> [] -> (0 < room)%nat -> readline_loop room true buf s = (RLine n line, s') -> (weight s' < weight s)%nat.
Proof.
  intros N Ro H. destruct (readline_weight _ _ _ _ _ _ H) as (_ & W). destruct (W Ro N) as [X|[X|[X|(m & _ & X)]]]; try discriminate; exact X.
Qed.
Lemma get_next_tail chans c s c' s' : full s -> s <> [] -> r_down c = None -> r_down c' = None -> sound c ->
  get_next chans c s = Ok (c', s', None) ->
  tail_of s s' \/ (r_partial c = None /\ r_partial c' = None /\ r_pending c' = [] /\ (weight s' < weight s)%nat /\ s' <> []).
Proof.
  intros F N D D' (P97 & PO). unfold get_next. rewrite D. destruct (r_partial c) as [(f, got)|] eqn:Pt.
  - unfold continue_body. destruct (Z.leb_spec (f_size f + 5 - zlen got) 0) as [L|L]; [lia|].
    destruct (recv _ s) as (r, s1) eqn:E. destruct r.
    + destruct (Z.eqb_spec (zlen bs) (f_size f + 5 - zlen got)) as [E1|E1].
      * unfold process_buffer. destruct (_ <? 0); [discriminate|]. destruct (bytes_eqb _ _); [discriminate|]. intros H. exfalso. inversion H; subst. exact (shutdown_is _ _ D').
      * intros H. inversion H; subst. left. eapply recv_part; [exact E| |lia]. unfold zlen in E1. unfold zlen in *. lia.
    + intros H. exfalso. inversion H; subst. exact (shutdown_is _ _ D').
    + intros H. exfalso. inversion H; subst. exact (shutdown_is _ _ D').
    + intros H. exfalso. inversion H; subst. exact (shutdown_is _ _ D').
  - unfold readline. unfold maxline. destruct (Z.leb_spec 99 (zlen (r_pending c))) as [L|L]; [lia|].
    destruct (readline_loop _ _ _ s) as (r, s1) eqn:R. pose proof (readline_loop_rest _ _ _ _ _ _ R) as Rs. intros H. destruct r as [n line| |p|].
    + unfold process_line in H. destruct (decide_line chans n line) as [d|]; cbn [obind] in H; [|discriminate].
      destruct d as [w|f|f]; [exfalso; inversion H; subst; exact (shutdown_is _ _ D')|discriminate|].
      destruct s1 as [|e s1].
      { left. unfold first_body in H. assert (s' = []) as ->; [|apply nil_tail; exact N].
        destruct (two31 <=? _); [discriminate|]. destruct (_ <? 0); [inversion H; reflexivity|]. destruct (_ <? 0); [discriminate|]. destruct (_ =? 0); [inversion H; reflexivity|].
        cbn [recv] in H. inversion H. reflexivity. }
      destruct (first_body_tail _ _ _ _ _ (full_rest _ _ Rs F) ltac:(discriminate) D' H) as [T|(-> & ->)].
      * left. exact (rest_tail _ _ Rs _ T).
      * right. cbn [r_partial r_pending]. split; [reflexivity|]. split; [reflexivity|]. split; [reflexivity|].
        split; [|discriminate]. apply readline_shrinks in R; [exact R|exact N|lia].
    + exfalso. inversion H; subst. exact (shutdown_is _ _ D').
    + destruct (25 <? _); [exfalso; inversion H; subst; exact (shutdown_is _ _ D')|]. inversion H; subst. left. rewrite (readline_full _ _ _ _ _ _ F R). apply nil_tail. exact N.
    + exfalso. inversion H; subst. exact (shutdown_is _ _ D').
Qed.
Lemma settle_net_tail net : forall pre s, map ev net = pre ++ s -> t_held (settle_net net s) = [].
Proof.
  induction net as [|e net IH]; intros pre s H.
  - destruct pre; [|discriminate]. destruct s; [|discriminate]. reflexivity.
  - destruct pre as [|x pre].
    + cbn [app] in H. subst s. cbn [settle_net]. rewrite map_length, Nat.eqb_refl. cbn [map]. destruct e as [bs| |]; cbn [ev]; [|reflexivity..]. rewrite Nat.eqb_refl. reflexivity.
    + assert (L : Nat.eqb (length (e :: net)) (length s) = false).
      { apply Nat.eqb_neq. intros Q. apply (f_equal (@length _)) in H. cbn [map length] in H. rewrite app_length, map_length in H. cbn [length] in *. lia. }
      cbn [map] in H. injection H as _ H. change (settle_net (e :: net) s) with (if Nat.eqb (length (e :: net)) (length s) then match s, e :: net with SData bs :: _, TRec bs0 :: net' => if Nat.eqb (length bs) (length bs0) then mkTr [] (e :: net) else mkTr bs net' | _, _ => mkTr [] (e :: net) end else settle_net net s).
      rewrite L. exact (IH _ _ H).
Qed.
Lemma settle_tail t s : tail_of (view t) s -> t_held (settle t s) = [].
Proof.
  intros (pre & E & P). unfold settle. unfold view in E. destruct t as (held, net). cbn [t_held t_net] in *. destruct held as [|x held].
  - cbn [app] in E. destruct (Nat.ltb_spec (length net) (length s)) as [L|L].
    + apply (f_equal (@length _)) in E. rewrite app_length, map_length in E. lia.
    + exact (settle_net_tail _ _ _ E).
  - destruct pre as [|y pre]; [contradiction|]. cbn [app] in E. injection E as _ E. destruct (Nat.ltb_spec (length net) (length s)) as [L|L].
    + apply (f_equal (@length _)) in E. rewrite app_length, map_length in E. lia.
    + exact (settle_net_tail _ _ _ E).
Qed.
Lemma inv_sound c T fr : inv c T fr -> (r_partial c = None -> zlen (r_pending c) <= 97) -> sound c.
Proof.
  intros (_ & _ & _ & Q) P. unfold sound. destruct (r_partial c) as [(f0, got)|]; [|split; [apply P; reflexivity|exact I]].
  destruct Q as (-> & f & l & b & fr' & _ & Df & -> & -> & _ & L). split; [unfold zlen; cbn; lia|]. change (f_size (head_of f)) with (f_size f). rewrite <- (body_len f Df). unfold zlen. lia.
Qed.
Lemma full_sdata s : full s -> sdata s = [] -> s = [].
Proof. intros F E. destruct F as [|[[|b bs]| | | |] s H F]; try contradiction; [reflexivity|discriminate]. Qed.
Lemma full_lengths s : full s -> weight s = (length s + length (sdata s))%nat.
Proof. induction 1 as [|[[|b bs]| | | |] s H F IH]; try contradiction; [reflexivity|]. cbn [weight sdata length]. rewrite IH, app_length. cbn [length]. lia. Qed.
Lemma await_ends fuel : forall k chans c t flag got g lb, let T := view t ++ [SAgain] in
  full (view t) -> view t <> [] -> inv c T [(g, lb)] -> sound c -> 0 <= r_nodata c -> good c T -> receivable chans g -> f_more g = false -> (weight (view t) <= fuel)%nat ->
  exists c' t' flag', await fuel k chans c t flag got = Ok (Some (AFrames (got ++ [g]), c', t', flag')) /\ r_down c' = None /\ t_held t' = [] /\ t_net t' = [].
Proof.
  induction fuel as [|fuel IH]; intros k chans c t flag got g lb T Fu N In So Nd Go Rc Mo W.
  { destruct (view t) as [|[]]; [contradiction|cbn in W; lia..]. }
  cbn [await]. assert (TN : T <> []) by (unfold T; destruct (view t); discriminate).
  destruct (get_next_step chans c T [(g, lb)] In TN (fun _ => Rc)) as (c' & s2 & o & E & (W2 & _ & Q)).
  pose proof (get_next_nodata _ _ _ _ _ _ Nd E) as (Ag & Nd' & Pot).
  pose proof (get_next_ext chans c (view t) []) as X. fold T in X. rewrite E in X. unfold ext_next in X.
  destruct (get_next chans c (view t)) as [((c0, s'), o0)|] eqn:G; [|discriminate X].
  destruct X as (s2' & X & Ex). injection X as <- <- <-. pose proof (get_next_rest _ _ _ _ _ _ G) as R.
  destruct (get_next_sound _ _ _ _ _ _ So (proj1 In) G) as (So' & W1 & W1l).
  unfold get. rewrite G. cbn [obind]. pose proof (settle_view _ _ R) as Sv. pose proof (full_rest _ _ R Fu) as Fu'.
  assert (Gd : good c' s2). { destruct Go as [Q1|Q1]; [|contradiction]. destruct Pot as [Q2|Q2]; [left; lia|right; exact Q2]. }
  destruct Q as [(-> & Hi & _)|[(f & lb2 & fr' & Efr & -> & Hi & _)|(-> & (w & Hdn & Hfe & Hf1 & Hf2) & _)]].
  - rewrite (proj1 Hi). destruct So' as [So'|So']; [exfalso; exact (So' (proj1 Hi))|].
    assert (N' : s' <> []).
    { intros ->. assert (I0 : inv c' [] [(g, lb)]). { apply (inv_sock _ s2); [exact Hi|constructor|]. destruct Ex as [->|(_ & ->)]; reflexivity. } apply inv_done in I0. discriminate. }
    destruct Ex as [->|(Ex & _)]; [|contradiction].
    assert (Hh : t_held (settle t s') = []).
    { destruct (get_next_tail _ _ _ _ _ Fu N (proj1 In) (proj1 Hi) So G) as [Tl|(P1 & P2 & P3 & Wl & _)]; [exact (settle_tail _ _ Tl)|exfalso].
      destruct In as (_ & _ & _ & Q1). rewrite P1 in Q1. destruct Q1 as (Q1 & _). destruct Hi as (_ & _ & _ & Q2). rewrite P2, P3 in Q2. destruct Q2 as (Q2 & _).
      unfold T in Q1. rewrite sdata_app in Q1, Q2. cbn [sdata app] in Q1, Q2. rewrite app_nil_r in Q1, Q2. rewrite <- Q2 in Q1. apply (f_equal (@length _)) in Q1. rewrite app_length in Q1.
      rewrite !full_lengths in Wl by assumption.
      assert (LL : (length s' <= length (view t))%nat). { clear -R. induction R as [s|a b s A B|e s s' H IH]; cbn [length]; lia. }
      assert (EL : length (r_pending c) = 0%nat /\ length (sdata (view t)) = length (sdata s')).
      { assert (SL : (length (sdata s') <= length (sdata (view t)))%nat). { clear -R. induction R as [s|a b s A B|e s s' H IH]; [lia|cbn [sdata]; rewrite !app_length; lia|destruct e; cbn [sdata]; rewrite ?app_length; lia]. } lia. }
      destruct EL as (_ & EL). clear -R EL Wl Fu. induction R as [s|a b s A B|e s s' H IH].
      - lia.
      - cbn [sdata] in EL. rewrite !app_length in EL. destruct a; [contradiction|]. cbn [length] in EL. lia.
      - inversion Fu; subst. assert (SL : (length (sdata s') <= length (sdata s))%nat). { clear -H. induction H as [s|a b s A B|e s s' H IH]; [lia|cbn [sdata]; rewrite !app_length; lia|destruct e; cbn [sdata]; rewrite ?app_length; lia]. }
        destruct e as [[|x bs]| | | |]; try contradiction. cbn [sdata] in EL. rewrite app_length in EL. cbn [length] in EL. lia. }
    assert (Rd : readable (settle t s') = true).
    { unfold readable. unfold view in Sv. rewrite Hh in Sv. cbn [app] in Sv. destruct (t_net (settle t s')); [cbn in Sv; congruence|reflexivity]. }
    rewrite Rd. apply (IH k chans c' (settle t s') _ got g lb); rewrite ?Sv; try assumption.
    destruct (W1l N) as [Wx|Wx]; [lia|exfalso; exact (Wx (proj1 Hi))].
  - injection Efr as <- _ <-. rewrite Mo. eexists c', (settle t s'), _. split; [reflexivity|]. split; [exact (proj1 Hi)|].
    assert (S0 : sdata s2 = []).
    { destruct Hi as (_ & _ & _ & Q). destruct (r_partial c') as [(f0, got0)|]; [destruct Q as (_ & ? & ? & ? & ? & Q & _); discriminate|]. destruct Q as (Q & Q0). rewrite Q0 in Q. exact Q. }
    assert (V0 : s' = []).
    { destruct Ex as [->|(Ex & _)]; [|exact Ex]. rewrite sdata_app in S0. apply app_eq_nil in S0. apply full_sdata; [exact Fu'|exact (proj1 S0)]. }
    rewrite V0 in *. unfold view in Sv. destruct (t_held (settle t [])); [|discriminate]. destruct (t_net (settle t [])); [|discriminate]. split; reflexivity.
  - exfalso. assert (w = WTooManyAgain) as ->.
    { destruct Hfe as [->|E1]; [reflexivity|exfalso]. apply (Hf2 E1). apply first_app, full_first; assumption. }
    specialize (Hf1 eq_refl). destruct Go as [Q1|Q1]; [pose proof (agains_pos T); lia|contradiction].
Qed.
Theorem greetings_read : forall k chans g w records,
  wire g w -> receivable chans g -> f_more g = false -> whole records -> tbytes records = w ->
  exists N, forall fuel, (N <= fuel)%nat ->
  exists c t flag, await fuel k chans rconn0 (mkTr [] records) 0 [] = Ok (Some (AFrames [g], c, t, flag)) /\ r_down c = None /\ t_held t = [] /\ t_net t = [].
Proof.
  intros k chans g w records Hw Rc Mo Wh Eq. exists (weight (map ev records)). intros fuel W.
  destruct (wires_todo [g] [w] (Forall2_cons _ _ Hw (Forall2_nil _))) as (fr & Hfo & Hmap & Hflat).
  destruct fr as [|(g0, lb) [|x fr]]; [discriminate| |discriminate]. cbn [map fst] in Hmap. injection Hmap as ->.
  assert (V : view (mkTr [] records) = map ev records) by reflexivity.
  apply (await_ends fuel k chans rconn0 (mkTr [] records) 0 [] g lb); rewrite ?V.
  - apply whole_full. exact Wh.
  - destruct Wh as (Q & _). destruct records; [contradiction|discriminate].
  - apply inv_boundary; [reflexivity| |exact Hfo|].
    + apply Forall_app. split; [apply full_alive, whole_full; exact Wh|repeat constructor].
    + rewrite sdata_app, (whole_sdata _ Wh), Hflat, Eq. cbn. rewrite !app_nil_r. reflexivity.
  - split; [cbn; lia|exact I].
  - cbn. lia.
  - left. rewrite agains_app, (full_agains _ (whole_full _ Wh)). cbn. lia.
  - exact Rc.
  - exact Mo.
  - exact W.
Qed.

(** * How the wait for the greetings ends *)
Theorem await_ending : forall fuel k chans c t flag got a c' t' flag',
  await fuel k chans c t flag got = Ok (Some (a, c', t', flag')) ->
  match a with
  | AFrames fs => exists mid lst, fs = got ++ mid ++ [lst] /\ Forall (fun f => f_more f = true) mid /\ f_more lst = false
  | ADown => r_down c' <> None
  | ATimeout => readable t' = false
  end.
Proof.
  induction fuel as [|fuel IH]; intros k chans c t flag got a c' t' flag' H; [discriminate|]. cbn [await] in H.
  destruct (get k chans c t flag) as [[[[c1 t1] flag1] o]|] eqn:E; cbn [obind] in H; [|discriminate].
  destruct o as [f|].
  - destruct (f_more f) eqn:F.
    + destruct (readable t1) eqn:Rd.
      * apply IH in H. destruct a; [|exact H|exact H].
        destruct H as (mid & lst & -> & H1 & H2). exists (f :: mid), lst. split; [rewrite <- app_assoc; reflexivity|]. split; [constructor; assumption|exact H2].
      * injection H as <- <- <- <-. exact Rd.
    + injection H as <- <- <- <-. exists [], f. split; [reflexivity|]. split; [constructor|exact F].
  - destruct (r_down c1) eqn:D.
    + injection H as <- <- <- <-. rewrite D. discriminate.
    + destruct (readable t1) eqn:Rd.
      * exact (IH _ _ _ _ _ _ _ _ _ _ H).
      * injection H as <- <- <- <-. exact Rd.
Qed.
Theorem await_down : forall fuel k chans c t flag got w, r_down c = Some w -> exists t' flag', await (S fuel) k chans c t flag got = Ok (Some (ADown, c, t', flag')).
Proof.
  intros fuel k chans c t flag got w D. cbn [await]. unfold get, get_next. rewrite D. cbn [obind]. rewrite D. eauto.
Qed.
Theorem ws_silent : forall chans c t flag c' t' flag' o, (forall e, In e (view t) -> e = SData []) ->
  get WS chans c t flag = Ok (c', t', flag', o) -> flag' = flag.
Proof.
  intros chans c t flag c' t' flag' o A H. unfold get in H. destruct (get_next chans c (view t)) as [[[c1 s1] o1]|]; cbn [obind] in H; [|discriminate].
  assert (E : hears (view t) = false).
  { clear H. unfold hears. induction (view t) as [|e v IH]; [reflexivity|]. cbn [existsb]. rewrite IH by (intros; apply A; right; assumption). rewrite (A e) by (left; reflexivity). reflexivity. }
  rewrite E in H. congruence.
Qed.
