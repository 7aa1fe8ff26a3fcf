(** Proofs about port sharing and the shutdown of a listener. *)
From Coq Require Import String.
From Verif Require Import Base GreetModel ListenModel ListenSpec ListenProofs.
Open Scope string_scope.
Open Scope Z_scope.
Open Scope list_scope.

Definition as_call (buf : bytes) (h : pshare) : pcall := mkPC (p_id h) buf.

Lemma share_loop_asked hs ans buf cs d x : share_loop hs ans buf = (cs, d, x) ->
  exists l, cs = map (as_call buf) l /\ asked ans buf hs l /\
    (d = true <-> exists a h, l = a ++ [h] /\ ans (p_id h) buf = 2) /\
    (x = true <-> exists a h, l = a ++ [h] /\ ans (p_id h) buf = -1).
Proof.
  revert cs d x. induction hs as [|h r IH]; intros cs d x H; cbn [share_loop] in H.
  - injection H as <- <- <-. exists []. split; [reflexivity|]. split; [exists []; conj; auto|].
    + intros a h b Hx. destruct a; discriminate Hx.
    + intro Hx. contradiction.
    + split; (split; [discriminate|intros (a & h & Hx & _); destruct a; discriminate Hx]).
  - assert (E : forall (a : list pshare) g b, [h] = a ++ g :: b -> g = h /\ b = []).
    { intros [|y a] g b Hx; cbn in Hx; [injection Hx as <- <-; auto|]. injection Hx as _ Hx. destruct a; discriminate Hx. }
    destruct (Z.eqb_spec (ans (p_id h) buf) 2) as [H2|H2]; [|destruct (Z.eqb_spec (ans (p_id h) buf) (-1)) as [H3|H3]].
    + injection H as <- <- <-. exists [h]. split; [reflexivity|]. split; [exists r; conj|].
      * reflexivity.
      * intros a g b Hx _. exact (proj2 (E _ _ _ Hx)).
      * intros _. exists [], h. split; [reflexivity|]. unfold decides. rewrite H2. reflexivity.
      * split; (split; [|intros (a & g & Hx & Hg); destruct (E _ _ _ Hx) as (-> & _)]).
        -- intros _. exists [], h. auto.
        -- reflexivity.
        -- discriminate.
        -- rewrite H2 in Hg. discriminate Hg.
    + injection H as <- <- <-. exists [h]. split; [reflexivity|]. split; [exists r; conj|].
      * reflexivity.
      * intros a g b Hx _. exact (proj2 (E _ _ _ Hx)).
      * intros _. exists [], h. split; [reflexivity|]. unfold decides. rewrite H3. reflexivity.
      * split; (split; [|intros (a & g & Hx & Hg); destruct (E _ _ _ Hx) as (-> & _)]).
        -- discriminate.
        -- rewrite H3 in Hg. discriminate Hg.
        -- intros _. exists [], h. auto.
        -- reflexivity.
    + destruct (share_loop r ans buf) as [[cs' d'] x'] eqn:Hr. injection H as <- <- <-.
      destruct (IH _ _ _ eq_refl) as (l & -> & (rest & A1 & A2 & A3) & B1 & B2).
      exists (h :: l). split; [reflexivity|]. split; [exists rest; conj|].
      * rewrite A1. reflexivity.
      * intros [|y a] g b Hx Hg; cbn in Hx; injection Hx as Hy Hx.
        -- subst g. exfalso. unfold decides in Hg. lia.
        -- exact (A2 a g b Hx Hg).
      * intro Hn. destruct (A3 Hn) as (a & g & -> & Hg). exists (h :: a), g. auto.
      * rewrite B1, B2. split; (split; [intros (a & g & -> & Hg); exists (h :: a), g; auto|]);
          (intros ([|y a] & g & Hx & Hg); cbn in Hx; injection Hx as Hy Hx;
           [subst g; contradiction|exists a, g; auto]).
Qed.

Lemma share_detected cn inst ans sock arr : fst (share_run cn inst ans true sock arr) = [].
Proof.
  revert sock. induction arr as [|(b & n) r IH]; intro sock; [reflexivity|]. cbn [share_run].
  assert (E : check_share cn inst ans true (sock ++ b) = ([], true, false)).
  { unfold check_share. destruct (pn_role cn); try reflexivity. destruct inst; reflexivity. }
  rewrite E. specialize (IH (skipn n (sock ++ b))).
  destruct (share_run cn inst ans true (skipn n (sock ++ b)) r). exact IH.
Qed.

Lemma share_roles cn inst ans sock arr : pn_role cn <> RoleListener \/ inst = None ->
  fst (share_run cn inst ans false sock arr) = [].
Proof.
  intro H. revert sock. induction arr as [|(b & n) r IH]; intro sock; [reflexivity|]. cbn [share_run].
  assert (E : check_share cn inst ans false (sock ++ b) = ([], false, false)).
  { unfold check_share. destruct H as [H| ->]; destruct (pn_role cn); try reflexivity. congruence. }
  rewrite E. specialize (IH (skipn n (sock ++ b))).
  destruct (share_run cn inst ans false (skipn n (sock ++ b)) r). exact IH.
Qed.

Lemma peek4 (b : bytes) : (4 <= length b)%nat -> (zlen (firstn 4 b) =? 4) = true.
Proof. intro H. unfold zlen. rewrite firstn_length_le by exact H. reflexivity. Qed.

(** A BEEP peer whose first four bytes come together is left alone. *)
Lemma share_beep cn inst ans b n r : (4 <= length b)%nat -> firstn 3 b = asc "RPY" ->
  fst (share_run cn inst ans false [] ((b, n) :: r)) = [].
Proof.
  intros Hl Hb. destruct inst as [hs|]; [|apply share_roles; auto].
  destruct (pn_role cn) eqn:Hr; try (apply share_roles; left; congruence).
  cbn [share_run app]. unfold check_share. rewrite Hr, (peek4 b Hl), Hb.
  change (bytes_eqb (asc "RPY") (asc "RPY")) with true. cbn [negb].
  pose proof (share_detected cn (Some hs) ans (skipn n b) r) as K.
  destruct (share_run cn (Some hs) ans true (skipn n b) r). exact K.
Qed.

(** Any other one: the handlers are asked in order about its first four bytes,
    up to the one that decides; after that, none is asked. *)
Lemma share_first cn hs ans b n r : pn_role cn = RoleListener ->
  (4 <= length b)%nat -> bytes_eqb (firstn 3 b) (asc "RPY") = false ->
  exists l rest, asked ans (firstn 4 b) hs l /\
    fst (share_run cn (Some hs) ans false [] ((b, n) :: r)) = map (as_call (firstn 4 b)) l ++ rest /\
    ((exists h, In h l /\ decides (ans (p_id h) (firstn 4 b)) = true) -> rest = []) /\
    ((exists h, In h l /\ ans (p_id h) (firstn 4 b) = -1) ->
       snd (share_run cn (Some hs) ans false [] ((b, n) :: r)) = true).
Proof.
  intros Hr Hl Hb. cbn [share_run app]. unfold check_share. rewrite Hr, (peek4 b Hl), Hb. cbn [negb].
  destruct (share_loop hs ans (firstn 4 b)) as [[cs d] x] eqn:Hs.
  destruct (share_loop_asked _ _ _ _ _ _ Hs) as (l & -> & HA & B1 & B2).
  assert (HL : forall h, In h l -> decides (ans (p_id h) (firstn 4 b)) = true -> exists a, l = a ++ [h]).
  { intros h Hi Hd. apply in_split in Hi as (a & c & ->). exists a.
    destruct HA as (rest & _ & A2 & _). rewrite (A2 a h c eq_refl Hd). reflexivity. }
  destruct x.
  - exists l, []. rewrite app_nil_r. cbn [fst snd]. conj; auto.
  - assert (N1 : forall h, In h l -> ans (p_id h) (firstn 4 b) <> -1).
    { intros h Hi Hd. destruct (HL h Hi) as (a & ->); [unfold decides; rewrite Hd; reflexivity|].
      assert (false = true) by (apply B2; exists a, h; auto). discriminate. }
    destruct (share_run cn (Some hs) ans d (skipn n b) r) as [cs' x'] eqn:Hq. cbn [fst snd].
    exists l, cs'. conj; auto.
    + intros (h & Hi & Hd). destruct (HL h Hi Hd) as (a & ->).
      assert (Ht : d = true).
      { apply B1. exists a, h. split; [reflexivity|]. pose proof (N1 h Hi). unfold decides in Hd. lia. }
      subst d. pose proof (share_detected cn (Some hs) ans (skipn n b) r) as K. rewrite Hq in K. exact K.
    + intros (h & Hi & Hd). destruct (N1 h Hi Hd).
Qed.

(** A handler limited to port 443, a connection to port 602. *)
Definition w_share : pshare := mkP None (Some (asc "443")) 0%nat.
Definition w_conn : pconn := mkPN RoleListener (asc "192.0.2.1") (asc "602").
Definition w_ans (_ : nat) (_ : bytes) : Z := 1.
Lemma share_filter : exists cn h ans arr c,
  In c (fst (share_run cn (Some [h]) ans false [] arr)) /\ pc_id c = p_id h /\ ~ share_matches h cn.
Proof.
  exists w_conn, w_share, w_ans, [(asc "GET / HTTP/1.1", 4%nat)], (mkPC 0 (asc "GET ")).
  split; [vm_compute; left; reflexivity|]. split; [reflexivity|].
  intros (_ & H). specialize (H _ eq_refl). vm_compute in H. discriminate H.
Qed.

(** A handler that said "nothing found, don't call me again" is called again. *)
Lemma share_again : exists cn hs ans arr c1 c2 rest,
  (forall i b, ans i b = 1) /\
  fst (share_run cn (Some hs) ans false [] arr) = c1 :: c2 :: rest /\ pc_id c1 = pc_id c2.
Proof.
  exists w_conn, [w_share], w_ans, [(asc "MSG 0 0 . 0 0", 4%nat); ([], 4%nat)], (mkPC 0 (asc "MSG ")), (mkPC 0 (asc "0 0 ")), [].
  split; [reflexivity|]. split; vm_compute; reflexivity.
Qed.

(** A BEEP greeting in two segments: its first bytes are read, and the handlers
    are asked about what follows. *)
Definition stream_of (arr : list (bytes * nat)) : bytes := concat (map fst arr).
Lemma share_segments : exists cn hs ans arr c,
  firstn 3 (stream_of arr) = asc "RPY" /\
  In c (fst (share_run cn (Some hs) ans false [] arr)) /\ pc_bytes c <> firstn 4 (stream_of arr).
Proof.
  exists w_conn, [w_share], w_ans, [(asc "RP", 2%nat); (asc "Y 0 0 . 0 50", 12%nat)], (mkPC 0 (asc "Y 0 ")).
  split; [vm_compute; reflexivity|]. split; [vm_compute; left; reflexivity|]. vm_compute. discriminate.
Qed.

(** The other transport, in two segments: it is not detected. *)
Definition get_ans (_ : nat) (b : bytes) : Z := if bytes_eqb b (asc "GET ") then 2 else 1.
Lemma share_missed : exists cn hs arr,
  (exists h, In h hs /\ get_ans (p_id h) (firstn 4 (stream_of arr)) = 2) /\
  forall c, In c (fst (share_run cn (Some hs) get_ans false [] arr)) -> get_ans (pc_id c) (pc_bytes c) <> 2.
Proof.
  exists w_conn, [w_share], [(asc "GE", 2%nat); (asc "T / HTTP/1.1", 12%nat)].
  split; [exists w_share; split; [left; reflexivity|vm_compute; reflexivity]|].
  vm_compute. intros c [<-|[]]. discriminate.
Qed.

(** * Shutdown of a listener *)
Lemma shut_down c : k_up (shut c) = false.
Proof. reflexivity. Qed.

Definition same_down (c c' : lconn) : Prop := k_id c' = k_id c /\ (k_up c = false -> k_up c' = false).
Lemma lstep_same s o i c : nth_error s i = Some c -> exists c', nth_error (lstep s o) i = Some c' /\ same_down c c'.
Proof.
  intro H. destruct o as [l id|id|id|id|l|l]; cbn [lstep].
  - exists c. split; [|split; auto]. destruct (is_up s l && _); [|exact H].
    rewrite nth_error_app1; [exact H|]. apply nth_error_Some. rewrite H. discriminate.
  - unfold on_id. rewrite nth_error_map, H. cbn. eexists. split; [reflexivity|]. destruct (k_id c =? id); split; auto.
  - unfold on_id. rewrite nth_error_map, H. cbn. eexists. split; [reflexivity|]. destruct (k_id c =? id); split; auto.
  - unfold on_id. rewrite nth_error_map, H. cbn. eexists. split; [reflexivity|]. destruct (k_id c =? id); split; auto.
  - rewrite nth_error_map, H. cbn. eexists. split; [reflexivity|]. unfold shut_visit.
    destruct (k_reader c), (k_role c), (lis_id c =? l); split; auto.
  - unfold on_id. rewrite nth_error_map, H. cbn. eexists. split; [reflexivity|]. destruct (k_id c =? l); split; auto.
Qed.
Lemma lrun_same s ops i c : nth_error s i = Some c -> exists c', nth_error (lrun s ops) i = Some c' /\ same_down c c'.
Proof.
  revert s c. induction ops as [|o r IH]; intros s c H; [exists c; split; [exact H|split; auto]|].
  destruct (lstep_same s o i c H) as (c1 & H1 & S1 & S2). destruct (IH _ _ H1) as (c2 & H2 & T1 & T2).
  exists c2. split; [exact H2|]. split; [congruence|auto].
Qed.

Lemma not_up_after s l : is_up (lstep s (KShut l)) l = false.
Proof.
  cbn [lstep]. unfold is_up, on_id. apply Bool.not_true_is_false. intro H. apply existsb_exists in H as (c & Hi & Hc).
  apply in_map_iff in Hi as (x & <- & Hx). destruct (Z.eqb_spec (k_id x) l); cbn in Hc.
  - rewrite Z.eqb_refl in Hc || (rewrite e, Z.eqb_refl in Hc). cbn in Hc. discriminate Hc.
  - destruct (Z.eqb_spec (k_id x) l); [contradiction|discriminate Hc].
Qed.

Lemma shutdown_effect s l also between :
  is_up s l = true ->
  let s' := listener_shutdown s l also between in
  is_up s' l = false /\
  (also = true -> forall i c, nth_error s i = Some c -> created_by l c -> k_reader c = true ->
     exists c', nth_error s' i = Some c' /\ k_id c' = k_id c /\ k_up c' = false).
Proof.
  intros Hu s'. unfold s', listener_shutdown. rewrite Hu. split; [apply not_up_after|].
  intros -> i c Hi (C1 & C2) Hr.
  assert (H1 : nth_error (lstep s (KVisit l)) i = Some (shut c)).
  { cbn [lstep]. rewrite nth_error_map, Hi. cbn. f_equal. unfold shut_visit, lis_id. rewrite Hr, C2, Z.eqb_refl.
    destruct (k_role c); try reflexivity. contradiction. }
  destruct (lrun_same _ between i _ H1) as (c1 & H2 & S1 & S2).
  destruct (lstep_same _ (KShut l) i _ H2) as (c2 & H3 & T1 & T2).
  exists c2. split; [exact H3|]. split; [rewrite T1, S1; reflexivity|]. apply T2, S2. reflexivity.
Qed.

(** Nothing else is touched. *)
Lemma shutdown_only s l also : 0 <= l ->
  Forall2 (fun c c' => c' = c \/ (c' = shut c /\ (k_id c = l \/ (also = true /\ created_by l c /\ k_reader c = true))))
    s (listener_shutdown s l also []).
Proof.
  intro Hl. unfold listener_shutdown. destruct (is_up s l) eqn:Hu.
  - unfold lrun. cbn [fold_left]. destruct also; cbn [lstep]; unfold on_id; rewrite ?map_map;
      clear Hu; induction s as [|c s IH]; cbn [map]; constructor; try exact IH.
    + unfold shut_visit. destruct (k_reader c) eqn:Hr.
      * destruct (k_role c) eqn:Hk; [|
        |destruct (Z.eqb_spec (k_id c) l); [right; auto|left; reflexivity]];
        (destruct (Z.eqb_spec (lis_id c) l) as [E|E];
          [right; split; [cbn; destruct (k_id c =? l); reflexivity|];
           right; split; [reflexivity|]; split; [|reflexivity]; split; [congruence|];
           unfold lis_id in E; destruct (k_lis c); [congruence|lia]
          |destruct (Z.eqb_spec (k_id c) l); [right; auto|left; reflexivity]]).
      * destruct (Z.eqb_spec (k_id c) l); [right; auto|left; reflexivity].
    + destruct (Z.eqb_spec (k_id c) l); [right; auto|left; reflexivity].
  - clear Hu. induction s; constructor; auto.
Qed.

(** After it, the listener accepts nothing. *)
Definition mine (l : Z) (s : list lconn) : list lconn :=
  filter (fun c => match k_role c, k_lis c with RoleListener, Some x => x =? l | _, _ => false end) s.
Lemma mine_map l f s : (forall c, k_role (f c) = k_role c /\ k_lis (f c) = k_lis c) -> length (mine l (map f s)) = length (mine l s).
Proof.
  intro H. unfold mine. induction s as [|c s IH]; [reflexivity|]. cbn [map filter]. destruct (H c) as (-> & ->).
  destruct (k_role c); [exact IH| |exact IH]. destruct (k_lis c); [|exact IH]. destruct (z =? l); cbn [length]; rewrite IH; reflexivity.
Qed.
Lemma up_map l f s : (forall c, k_id (f c) = k_id c /\ k_role (f c) = k_role c /\ (k_up c = false -> k_up (f c) = false)) ->
  is_up s l = false -> is_up (map f s) l = false.
Proof.
  intros H. unfold is_up. induction s as [|c s IH]; [reflexivity|]. cbn [map existsb]. intro Hu.
  apply orb_false_iff in Hu as (H1 & H2). rewrite (IH H2), orb_false_r. destruct (H c) as (-> & -> & H3).
  destruct (k_id c =? l); [|reflexivity]. cbn [andb] in *. destruct (k_up c); [|rewrite H3; reflexivity].
  cbn [andb] in H1. destruct (k_role c); try discriminate H1; apply andb_false_r.
Qed.
Lemma closed_step l s o : is_up s l = false -> is_up (lstep s o) l = false /\ length (mine l (lstep s o)) = length (mine l s).
Proof.
  intro Hu. destruct o as [l' id|id|id|id|l'|l']; cbn [lstep].
  - destruct (is_up s l' && _) eqn:Ha; [|auto]. split.
    + unfold is_up in *. rewrite existsb_app, Hu. cbn. rewrite andb_false_r. reflexivity.
    + unfold mine. rewrite filter_app, app_length. cbn. destruct (Z.eqb_spec l' l) as [->|]; [|cbn; lia].
      rewrite Hu in Ha. discriminate Ha.
  - split; [apply up_map|apply mine_map]; auto; intro c; destruct (k_id c =? id); auto.
  - split; [apply up_map|apply mine_map]; auto; intro c; destruct (k_id c =? id); auto.
  - split; [apply up_map|apply mine_map]; auto; intro c; destruct (k_id c =? id); auto.
  - split; [apply up_map|apply mine_map]; auto; intro c; unfold shut_visit;
      destruct (k_reader c); auto; destruct (k_role c) eqn:E; auto; destruct (lis_id c =? l'); auto.
  - split; [apply up_map|apply mine_map]; auto; intro c; destruct (k_id c =? l'); auto.
Qed.
Lemma shutdown_closed s l also between later : is_up s l = true ->
  let s' := listener_shutdown s l also between in
  is_up (lrun s' later) l = false /\ length (mine l (lrun s' later)) = length (mine l s').
Proof.
  intros Hu s'. assert (H0 : is_up s' l = false) by (apply (shutdown_effect s l also between Hu)).
  clearbody s'. revert s' H0. induction later as [|o r IH]; intros s' H0; [auto|].
  destruct (closed_step l s' o H0) as (H1 & H2). unfold lrun in *. cbn [fold_left]. destruct (IH _ H1) as (I1 & I2).
  split; [exact I1|]. rewrite I2. exact H2.
Qed.

(** A connection accepted between the visit and the shutdown, and one that was not
    in the reader, outlive it. *)
Definition w_lis : lconn := mkL 1 RoleMaster None true true.
Lemma shutdown_survivor : exists s l between c,
  is_up s l = true /\ In c (listener_shutdown s l true between) /\ created_by l c /\ k_up c = true.
Proof.
  exists [w_lis], 1, [KAccept 1 7], (mkL 7 RoleListener (Some 1) true true).
  split; [reflexivity|]. split; [vm_compute; right; left; reflexivity|]. split; [split; [discriminate|reflexivity]|reflexivity].
Qed.
Lemma shutdown_unseen : exists s l c,
  is_up s l = true /\ In c s /\ In c (listener_shutdown s l true []) /\ created_by l c /\ k_up c = true.
Proof.
  exists [w_lis; mkL 7 RoleListener (Some 1) false true], 1, (mkL 7 RoleListener (Some 1) false true).
  split; [reflexivity|]. split; [right; left; reflexivity|]. split; [vm_compute; right; left; reflexivity|].
  split; [split; [discriminate|reflexivity]|reflexivity].
Qed.
