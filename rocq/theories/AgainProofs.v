(** Proofs about a connection made again. *)
From Coq Require Import Lia.
From Verif Require Import Base CodecModel CodecSpec CodecProofs CodecProofs2 AgainModel AgainSpec.

Ltac inv_ok H := injection H; clear H; intros; subst.

Lemma times_app p a : forall b, times p (a ++ b) = times p a + times p b.
Proof. induction a as [|x a IH]; intros b; cbn [app times]; [lia|]. rewrite IH. lia. Qed.

Lemma shutdown_up c w : r_down c = None -> r_down (shutdown c w) = Some w.
Proof. unfold shutdown. intros ->. reflexivity. Qed.

(** What a call to the reader leaves. *)
Definition tidy (c : rconn) : Prop := r_partial c = None \/ (r_pending c = [] /\ r_nodata c = 0).
Definition bare (c : rconn) : Prop := r_pending c = [] /\ r_partial c = None /\ r_nodata c = 0.
Definition left_by (c c' : rconn) (o : option frame) : Prop :=
  match o with
  | Some _ => r_down c' = None /\ bare c'
  | None => match r_down c' with None => tidy c' | Some w => w = WTooManyAgain \/ bare c' end
  end.

Lemma process_buffer_left c s f body c' s' o :
  r_down c = None -> bare c -> process_buffer c s f body = Ok (c', s', o) -> left_by c c' o.
Proof.
  intros D B H. unfold process_buffer in H. destruct (_ <? 0); [discriminate|].
  destruct (bytes_eqb _ _); inv_ok H; unfold left_by; [auto|].
  rewrite shutdown_up by exact D. right. unfold shutdown. rewrite D. exact B.
Qed.
Lemma continue_body_left c s f got c' s' o :
  r_down c = None -> r_pending c = [] -> r_nodata c = 0 ->
  r_partial c = Some (f, got) -> continue_body c s f got = Ok (c', s', o) -> left_by c c' o.
Proof.
  intros D P N Q H. unfold continue_body in H. destruct (_ <=? 0).
  - inv_ok H. unfold left_by. rewrite D. right. auto.
  - destruct (recv _ _) as (r, s1). destruct r.
    + destruct (_ =? _).
      * apply process_buffer_left in H; [exact H|exact D|unfold bare; cbn; auto].
      * inv_ok H. unfold left_by. cbn. rewrite D. right. cbn. auto.
    + inv_ok H. unfold left_by, shutdown. cbn. rewrite D. cbn. right. unfold bare. cbn. auto.
    + inv_ok H. unfold left_by, shutdown. cbn. rewrite D. cbn. right. unfold bare. cbn. auto.
    + inv_ok H. unfold left_by, shutdown. cbn. rewrite D. cbn. right. unfold bare. cbn. auto.
Qed.
Lemma first_body_left c s f c' s' o :
  r_down c = None -> bare c -> first_body c s f = Ok (c', s', o) -> left_by c c' o.
Proof.
  intros D B H. pose proof B as (P & Q & N). unfold first_body in H.
  destruct (two31 <=? _); [discriminate|]. destruct (_ + 6 <? 0).
  { inv_ok H. unfold left_by. rewrite D. left. exact Q. }
  destruct (_ <? 0); [discriminate|]. destruct (_ =? 0).
  { inv_ok H. unfold left_by. rewrite shutdown_up by exact D. right. unfold shutdown. rewrite D. exact B. }
  destruct (recv _ _) as (r, s1). destruct r.
  - destruct (_ =? _); [eapply process_buffer_left; eassumption|].
    inv_ok H. unfold left_by. cbn. rewrite D. right. auto.
  - inv_ok H. unfold left_by. cbn. rewrite D. right. auto.
  - inv_ok H. unfold left_by. rewrite shutdown_up by exact D. right. unfold shutdown. rewrite D. exact B.
  - inv_ok H. unfold left_by. rewrite shutdown_up by exact D. right. unfold shutdown. rewrite D. exact B.
Qed.
Lemma get_next_left chans c s c' s' o :
  r_down c = None -> tidy c -> get_next chans c s = Ok (c', s', o) -> left_by c c' o.
Proof.
  intros D T H. unfold get_next in H. rewrite D in H. destruct (r_partial c) as [(f, got)|] eqn:E.
  - destruct T as [T|(T1 & T2)]; [congruence|]. eapply continue_body_left; eassumption.
  - destruct (readline c s) as (r, s1).
    assert (B : bare (mkR None [] None 0)) by (repeat split).
    destruct r.
    + unfold process_line in H. destruct (decide_line _ _ _) as [d|]; cbn [obind] in H; [|discriminate].
      destruct d.
      * inv_ok H. unfold left_by. cbn. right. exact B.
      * inv_ok H. unfold left_by. cbn. auto.
      * apply first_body_left in H; auto.
    + inv_ok H. unfold left_by. cbn. right. exact B.
    + destruct (25 <? _); inv_ok H; unfold left_by; cbn; [left; reflexivity|]. left. reflexivity.
    + inv_ok H. unfold left_by. cbn. right. exact B.
Qed.

(** Everything the reader does, from a new connection. *)
Lemma read_ready_left fuel : forall chans i c s c' s' fs w,
  r_down c = None -> tidy c -> read_ready fuel chans i c s = Ok (c', s', fs) ->
  r_down c' = Some w -> w = WTooManyAgain \/ bare c'.
Proof.
  induction fuel as [|fuel IH]; intros chans i c s c' s' fs w D T H W; cbn [read_ready] in H.
  - inv_ok H. congruence.
  - rewrite D in H. destruct (wait_readable s) as [|e s0]; [inv_ok H; congruence|].
    destruct (get_next _ _ _) as [[[c1 s1] o]|] eqn:E; cbn [obind] in H; [|discriminate].
    apply get_next_left in E; [|exact D|exact T]. destruct o as [f|].
    + destruct E as (D1 & B1). destruct (read_ready fuel chans (S i) c1 s1) as [[[c2 s2] fs2]|] eqn:E2; cbn [obind] in H; [|discriminate].
      inv_ok H. eapply IH; [exact D1| |exact E2|exact W]. left. apply B1.
    + unfold left_by in E. destruct (r_down c1) as [w1|] eqn:D1.
      * assert (c' = c1) as ->. { destruct fuel; cbn [read_ready] in H; [inv_ok H; reflexivity|]. rewrite D1 in H. inv_ok H. reflexivity. }
        rewrite D1 in W. injection W as <-. exact E.
      * eapply IH; [exact D1|exact E|exact H|exact W].
Qed.

(** The greetings among what is read. *)
Lemma await_read fuel : forall chans i c s piece c' s' pre f post,
  r_down c = None -> tidy c ->
  read_ready fuel (fun _ => chans) i c s = Ok (c', s', pre ++ f :: post) ->
  Forall (fun g => f_more g = true) pre -> f_more f = false ->
  exists rd, await fuel chans c piece s = Ok (GFrame rd f (joined piece (payloads (pre ++ [f])))) /\ r_down rd = None /\ bare rd.
Proof.
  induction fuel as [|fuel IH]; intros chans i c s piece c' s' pre f post D T H M L; cbn [read_ready] in H.
  - destruct pre; discriminate.
  - rewrite D in H. cbn [await]. destruct (wait_readable s) as [|e s0].
    { destruct pre; discriminate. }
    destruct (get_next _ _ _) as [[[c1 s1] o]|] eqn:E; cbn [obind] in *; [|discriminate].
    apply get_next_left in E; [|exact D|exact T]. destruct o as [g|].
    + destruct E as (D1 & B1). destruct (read_ready fuel (fun _ => chans) (S i) c1 s1) as [[[c2 s2] fs2]|] eqn:E2; cbn [obind] in H; [|discriminate].
      destruct pre as [|g0 pre]; cbn [app] in H; inv_ok H.
      * rewrite L. exists c1. split; [|auto]. unfold payloads. cbn. rewrite app_nil_r. reflexivity.
      * inversion M as [|? ? M1 M2]; subst. rewrite M1.
        destruct (IH chans (S i) c1 s1 (Some (joined piece (f_payload g0))) _ _ pre f post D1 (or_introl (proj1 (proj2 B1))) E2 M2 L) as (rd & R & R2).
        exists rd. split; [|exact R2]. rewrite R. f_equal. f_equal. unfold payloads, joined. cbn. destruct piece; [rewrite <- app_assoc; reflexivity|reflexivity].
    + unfold left_by in E. destruct (r_down c1) as [w1|] eqn:D1.
      * exfalso. destruct fuel; cbn [read_ready] in H; [destruct pre; discriminate|]. rewrite D1 in H. destruct pre; discriminate.
      * eapply IH; eassumption.
Qed.
Lemma greeted_await n chans parse s profiles :
  greeted chans parse s profiles -> (weight s <= n)%nat ->
  exists rd f p, await n chans rconn0 None s = Ok (GFrame rd f p) /\ parse f p = Some profiles /\ r_down rd = None /\ bare rd.
Proof.
  intros (pre & f & ws & W & A & S & G & R & M & L & P) Hn.
  destruct (wires_todo _ _ W) as (fr & Hfo & Hmap & Hflat).
  assert (Hinv : inv rconn0 s fr) by (apply inv_boundary; auto; congruence).
  destruct (read_ready_stream n (fun _ => chans) 0 rconn0 s fr Hinv Hn ltac:(cbn; lia)) as (c' & s' & out & He & Hres & Hd).
  { intros k g lb Hk. eapply Forall_forall in R; [exact R|]. rewrite <- Hmap.
    apply nth_error_In with k. erewrite map_nth_error by exact Hk. reflexivity. }
  assert (D : r_down c' = None) by (apply Hd; left; cbn; lia).
  destruct Hres as [(_ & ->)|(X & _)]; [|congruence]. rewrite Hmap in He.
  destruct (await_read n chans 0 rconn0 s None c' s' pre f [] eq_refl (or_introl eq_refl) He M L) as (rd & R1 & R2 & R3).
  exists rd, f, (payloads (pre ++ [f])). split; [exact R1|]. auto.
Qed.

(** * Reconnecting *)
Lemma up_iff l : up l = true <-> l_sock l <> None /\ r_down (l_rd l) = None.
Proof. unfold up. destruct (l_sock l), (r_down (l_rd l)); split; try discriminate; intros; try tauto; destruct H; congruence || split; congruence. Qed.

Lemma end_session_up w l : up (end_session w l) = false.
Proof. reflexivity. Qed.

Ltac dial_end H := try match type of H with context [if ?t then Ok _ else Ok _] => destruct t end; inv_ok H.
Ltac dial_cases H a :=
  unfold dial_again in H;
  let sent := fresh "sent" in let rd := fresh "rd" in let piece := fresh "piece" in let f := fresh "f" in let p := fresh "p" in
  let g := fresh "g" in
  destruct a as [msg|k|k sent n s];
  [ dial_end H | dial_end H |
    destruct sent; cbn [negb] in H;
    [ match type of H with context [await ?a1 ?b1 ?c1 ?d1 ?e1] => destruct (await a1 b1 c1 d1 e1) as [g|] eqn:EA; cbn [obind] in H; [|discriminate] end;
      destruct g as [rd piece|rd f p]; [ dial_end H | match type of H with context [match ?P f p with _ => _ end] => destruct (P f p) as [profiles|] eqn:EP end; dial_end H ] | dial_end H ] ].

Lemma dial_kept v parse chans th a l r l' t :
  dial_again v parse chans th a l = Ok (r, l', t) ->
  l_id l' = l_id l /\ l_data l' = l_data l /\ others l' = others l /\ l_chans l' = chan0 :: l_chans l /\ l_pools l' = l_pools l /\
  l_nextpool l' = l_nextpool l /\ l_io l' = l_io l /\
  (l_profiles l' = l_profiles l \/ exists f p, parse f p = Some (l_profiles l')).
Proof.
  intros H. dial_cases H a; unfold others; cbn; repeat apply conj; try reflexivity; try lia; auto; right; eauto.
Qed.

Lemma dial_told v parse chans th a l r l' t :
  dial_again v parse chans th a l = Ok (r, l', t) ->
  t = (if v_created v then [TCreated] else []) ++
      (match a with ANoAddr _ => [] | _ => if th then [TConnected (up l')] else [] end) /\
  r = match a with ANoAddr _ => None | _ => if th then None else Some l' end /\
  (forall k, a = ANoAddr k -> up l' = true /\ l_watch l' = l_watch l).
Proof.
  intros H. dial_cases H a; (split; [rewrite ?app_nil_r; reflexivity|split; [reflexivity|intros k1 X; try discriminate X]]).
  split; reflexivity.
Qed.
(** A connection that is ok is one that was greeted, or one without a local address. *)
Lemma dial_ok v parse chans th a l r l' t :
  dial_again v parse chans th a l = Ok (r, l', t) -> up l' = true ->
  (exists k, a = ANoAddr k) \/ (l_watch l' = S (l_watch l) /\ exists f p, parse f p = Some (l_profiles l')).
Proof. intros H U. dial_cases H a; try discriminate U; eauto 8. Qed.
Lemma dial_addrs v parse chans th a l r l' t :
  dial_again v parse chans th a l = Ok (r, l', t) ->
  l_addrs l' = match a with AUp _ _ _ _ => S (l_addrs l) | _ => l_addrs l end.
Proof. intros H. dial_cases H a; reflexivity. Qed.

Definition ready_again (l : link) : link :=
  mkL (l_id l) (l_data l) (l_refs l) (l_profiles l) (l_rd l) (l_piece l) (l_sock l) (l_io l) [] []
      0 (l_last l) None (l_addrs l) (l_watch l).
Lemma reconnect_down v parse chans h a l b o t :
  up l = false -> reconnect v parse chans h a (Some l) = Ok (b, o, t) ->
  exists r l' t2, dial_again v parse chans h a (ready_again l) = Ok (r, l', t2) /\ o = Some l' /\
    t = flat_map (tell_chan v) (l_chans l) ++ t2 /\ b = if h then true else match r with Some c => up c | None => false end.
Proof.
  intros U H. unfold reconnect in H. rewrite U in H. fold (ready_again l) in H.
  destruct (dial_again _ _ _ _ _ _) as [[[r l'] t2]|] eqn:E; cbn [obind] in H; [|discriminate].
  inv_ok H. eauto 8.
Qed.

Theorem again_connected : forall v parse chans h a l, up l = true ->
  reconnect v parse chans h a (Some l) = Ok (true, Some l, []).
Proof. intros v parse chans h a l U. unfold reconnect. rewrite U. reflexivity. Qed.
Theorem again_null : forall v parse chans h a, reconnect v parse chans h a None = Ok (false, None, []).
Proof. reflexivity. Qed.
Theorem again_kept : forall v parse chans h a l b o t, up l = false ->
  reconnect v parse chans h a (Some l) = Ok (b, o, t) ->
  exists l', o = Some l' /\ l_id l' = l_id l /\ l_data l' = l_data l /\ others l' = others l /\
    l_chans l' = [chan0] /\ l_pools l' = [] /\ l_nextpool l' = 0 /\
    (l_profiles l' = l_profiles l \/ exists f p, parse f p = Some (l_profiles l')).
Proof.
  intros v parse chans h a l b o t U H. destruct (reconnect_down _ _ _ _ _ _ _ _ _ U H) as (r & l' & t2 & E & -> & _ & _).
  apply dial_kept in E. destruct E as (E1 & E2 & E3 & E4 & E5 & E6 & _ & E8). exists l'. cbn in *. auto 10.
Qed.

Theorem again_flagged : forall v parse chans h a l b l' t, up l = false ->
  reconnect v parse chans h a (Some l) = Ok (b, Some l', t) ->
  (l_sock l' = None -> r_down (l_rd l') <> None) /\ (up l' = true -> l_piece l' = None \/ exists k, a = ANoAddr k).
Proof.
  intros v parse chans h a l b l' t U H. destruct (reconnect_down _ _ _ _ _ _ _ _ _ U H) as (r & l2 & t2 & E & X & _ & _).
  injection X as <-. clear H. dial_cases E a; (split; [intros Y; try discriminate Y; cbn; try discriminate|intros Y; try discriminate Y; eauto]).
  all: unfold shutdown; match goal with |- context [match ?x with _ => _ end] => destruct x eqn:? end; cbn; congruence.
Qed.

(** Who is told. *)
Lemma times_map_removed n h m : forall k j, times (is_removed n h) (map (TRemoved m) (seq j k)) =
  if (m =? n) && (Nat.leb j h && Nat.ltb h (j + k)) then 1 else 0.
Proof.
  induction k as [|k IH]; intros j; cbn [seq map times].
  - rewrite Nat.add_0_r. destruct (Nat.leb j h) eqn:A, (Nat.ltb h j) eqn:B; cbn; rewrite ?andb_false_r; try reflexivity.
    apply Nat.leb_le in A. apply Nat.ltb_lt in B. lia.
  - rewrite IH. cbn [is_removed]. destruct (m =? n); cbn [andb]; [|reflexivity].
    destruct (Nat.eqb_spec j h), (Nat.leb_spec j h), (Nat.leb_spec (S j) h), (Nat.ltb_spec h (S j + k)), (Nat.ltb_spec h (j + S k)); cbn; lia.
Qed.
Lemma times_false p t : (forall x, In x t -> p x = false) -> times p t = 0.
Proof. induction t as [|x t IH]; intros H; cbn; [reflexivity|]. rewrite (H x) by (left; reflexivity). rewrite IH; [reflexivity|]. intros. apply H. right. assumption. Qed.
Lemma tell_closed v c n : times (is_closed n) (tell_chan v c) = if c_told c && (c_num c =? n) then 1 else 0.
Proof.
  unfold tell_chan. rewrite !times_app, (times_false (is_closed n) (map _ _)).
  - destruct (c_told c); cbn [andb times]; [|destruct (negb _ && _); reflexivity].
    cbn [is_closed]. destruct (negb _ && _); cbn [times is_closed]; destruct (c_num c =? n); reflexivity.
  - intros x I. apply in_map_iff in I. destruct I as (? & <- & _). reflexivity.
Qed.
Lemma tell_global v c n : times (is_global n) (tell_chan v c) = if negb (c_num c =? 0) && v_global v && (c_num c =? n) then 1 else 0.
Proof.
  unfold tell_chan. rewrite !times_app, (times_false (is_global n) (map _ _)).
  - destruct (c_told c); cbn [times is_global]; destruct (negb _ && _); cbn [andb times is_global]; destruct (c_num c =? n); reflexivity.
  - intros x I. apply in_map_iff in I. destruct I as (? & <- & _). reflexivity.
Qed.
Lemma tell_removed v c n h : times (is_removed n h) (tell_chan v c) = if (c_num c =? n) && Nat.ltb h (v_removed v) then 1 else 0.
Proof.
  unfold tell_chan. rewrite !times_app, times_map_removed. cbn [Nat.leb andb Nat.add].
  destruct (c_told c), (negb _ && _); cbn [times is_removed]; lia.
Qed.
Lemma tell_none v c : times is_connected (tell_chan v c) = 0 /\ times is_created (tell_chan v c) = 0.
Proof.
  split; apply times_false; intros x I; unfold tell_chan in I; rewrite !in_app_iff, in_map_iff in I;
    destruct I as [I|[I|(? & <- & _)]]; try reflexivity.
  all: destruct (c_told c), (negb (c_num c =? 0) && v_global v); cbn in I; intuition (subst; reflexivity).
Qed.
Lemma times_flat p f : forall cs : list chan, times p (flat_map f cs) = fold_right (fun c z => times p (f c) + z) 0 cs.
Proof. induction cs as [|c cs IH]; cbn; [reflexivity|]. rewrite times_app, IH. reflexivity. Qed.
(** One channel of a number. *)
Lemma sum_absent (g : chan -> Z) n : forall cs, ~ In n (map c_num cs) -> (forall c, c_num c <> n -> g c = 0) ->
  fold_right (fun c z => g c + z) 0 cs = 0.
Proof.
  induction cs as [|c cs IH]; intros I G; cbn; [reflexivity|]. cbn in I. rewrite G, IH; [reflexivity|tauto|exact G|tauto].
Qed.
Lemma sum_one (g : chan -> Z) c : forall cs, NoDup (map c_num cs) -> In c cs -> (forall d, c_num d <> c_num c -> g d = 0) ->
  fold_right (fun c z => g c + z) 0 cs = g c.
Proof.
  induction cs as [|d cs IH]; intros N I G; [destruct I|]. cbn. inversion N as [|? ? N1 N2]; subst. destruct I as [->|I].
  - rewrite (sum_absent g (c_num c)); [lia|exact N1|exact G].
  - rewrite (G d), IH; [lia|exact N2|exact I|exact G|]. intros E. apply N1. rewrite E. apply in_map. exact I.
Qed.
Lemma dial_tells_no_channel v parse chans h a l r l' t p :
  dial_again v parse chans h a l = Ok (r, l', t) -> p TCreated = false -> (forall b, p (TConnected b) = false) -> times p t = 0.
Proof.
  intros H A B. apply dial_told in H. destruct H as (-> & _). rewrite times_app.
  destruct (v_created v), a, h; cbn [times]; rewrite ?A, ?B; reflexivity.
Qed.
Theorem again_channels : forall v parse chans h a l b o t c, up l = false -> numbered l -> In c (l_chans l) ->
  reconnect v parse chans h a (Some l) = Ok (b, o, t) ->
  times (is_closed (c_num c)) t = (if c_told c then 1 else 0) /\
  times (is_global (c_num c)) t = (if negb (c_num c =? 0) && v_global v then 1 else 0) /\
  (forall k, times (is_removed (c_num c) k) t = if Nat.ltb k (v_removed v) then 1 else 0).
Proof.
  intros v parse chans h a l b o t c U N I H. destruct (reconnect_down _ _ _ _ _ _ _ _ _ U H) as (r & l' & t2 & E & _ & -> & _).
  repeat split; [| |intros k]; rewrite times_app, (dial_tells_no_channel _ _ _ _ _ _ _ _ _ _ E) by reflexivity; rewrite times_flat, Z.add_0_r.
  - rewrite (sum_one (fun c0 => times (is_closed (c_num c)) (tell_chan v c0)) c); [|exact N|exact I|].
    + rewrite tell_closed, Z.eqb_refl, andb_true_r. reflexivity.
    + intros d D. rewrite tell_closed. destruct (Z.eqb_spec (c_num d) (c_num c)); [contradiction|]. rewrite andb_false_r. reflexivity.
  - rewrite (sum_one (fun c0 => times (is_global (c_num c)) (tell_chan v c0)) c); [|exact N|exact I|].
    + rewrite tell_global, Z.eqb_refl, andb_true_r. reflexivity.
    + intros d D. rewrite tell_global. destruct (Z.eqb_spec (c_num d) (c_num c)); [contradiction|]. rewrite andb_false_r. reflexivity.
  - rewrite (sum_one (fun c0 => times (is_removed (c_num c) k) (tell_chan v c0)) c); [|exact N|exact I|].
    + rewrite tell_removed, Z.eqb_refl. reflexivity.
    + intros d D. rewrite tell_removed. destruct (Z.eqb_spec (c_num d) (c_num c)); [contradiction|]. reflexivity.
Qed.

(** The session that follows. *)
Theorem again_greeted : forall v parse chans h l k n s profiles, up l = false -> clean l -> l_io l = IOClear ->
  greeted chans parse s profiles -> (weight s <= n)%nat ->
  exists l' t, reconnect v parse chans h (AUp k true n s) (Some l) = Ok (true, Some l', t) /\
    up l' = true /\ l_sock l' = Some k /\ l_profiles l' = profiles /\ l_watch l' = S (l_watch l) /\ clean l'.
Proof.
  intros v parse chans h l k n s profiles U (C1 & C2 & C3 & C4) I G W.
  destruct (greeted_await n _ _ _ _ G W) as (rd & f & p & A & P & D & B1 & B2 & B3).
  unfold reconnect. rewrite U. unfold dial_again. cbn.
  assert (R : revive (l_rd l) = rconn0). { unfold revive. rewrite C1, C2, C3. reflexivity. }
  rewrite R, C4, I. cbn [through]. rewrite A. cbn [obind]. rewrite P.
  destruct h; cbn [obind]; eexists; eexists; (split; [unfold up; cbn; rewrite D; reflexivity|]);
    unfold up, clean; cbn; rewrite D; auto 10.
Qed.
Theorem again_reader_clean : forall fuel chans s c' s' fs w l, read_ready fuel chans 0 rconn0 s = Ok (c', s', fs) ->
  r_down c' = Some w -> w <> WTooManyAgain -> l_rd l = c' -> l_piece l = None -> clean l.
Proof.
  intros fuel chans s c' s' fs w l H W N E P.
  destruct (read_ready_left fuel chans 0 rconn0 s c' s' fs w eq_refl (or_introl eq_refl) H W) as [X|(B1 & B2 & B3)]; [contradiction|].
  unfold clean. rewrite E. auto.
Qed.
Theorem again_tls : forall v parse chans h l k j sent n s b o t, up l = false -> clean l -> l_io l = IOTls j ->
  reconnect v parse chans h (AUp k sent n s) (Some l) = Ok (b, o, t) ->
  exists l', o = Some l' /\ up l' = false /\ l_io l' = IOTls j.
Proof.
  intros v parse chans h l k j sent n s b o t U C I H. destruct (reconnect_down _ _ _ _ _ _ _ _ _ U H) as (r & l' & t2 & E & -> & _ & _).
  exists l'. split; [reflexivity|]. pose proof (dial_kept _ _ _ _ _ _ _ _ _ E) as (_ & _ & _ & _ & _ & _ & K & _). cbn in K. split; [|congruence].
  destruct C as (C1 & C2 & C3 & C4).
  unfold dial_again in E. cbn in E. rewrite I in E. cbn [through] in E. destruct sent; cbn [negb] in E; [|destruct h; inv_ok E; reflexivity].
  assert (R : revive (l_rd l) = rconn0). { unfold revive. rewrite C1, C2, C3. reflexivity. }
  rewrite R in E.
  assert (A : exists rd, await n chans rconn0 (l_piece l) [SErr] = Ok (GNone rd (l_piece l))).
  { destruct n; [eexists; reflexivity|]. cbn. eexists. reflexivity. }
  destruct A as (rd & A). rewrite A in E. cbn [obind] in E. destruct h; inv_ok E; reflexivity.
Qed.

(** The value and the handler. *)
Theorem again_value : forall v parse chans h a l b l' t, up l = false -> (forall k, a <> ANoAddr k) ->
  reconnect v parse chans h a (Some l) = Ok (b, Some l', t) ->
  b = (if h then true else up l') /\
  times is_connected t = (if h then 1 else 0) /\ (forall ok, In (TConnected ok) t -> ok = up l') /\
  (up l' = true -> l_watch l' = S (l_watch l)).
Proof.
  intros v parse chans h a l b l' t U NA H. destruct (reconnect_down _ _ _ _ _ _ _ _ _ U H) as (r & l1 & t2 & E & X & -> & ->).
  injection X as <-. pose proof (dial_ok _ _ _ _ _ _ _ _ _ E) as OK. pose proof (dial_told _ _ _ _ _ _ _ _ _ E) as (-> & -> & _).
  assert (Z0 : times is_connected (flat_map (tell_chan v) (l_chans l)) = 0).
  { rewrite times_flat. clear. induction (l_chans l) as [|c cs IH]; [reflexivity|]. cbn [fold_right]. rewrite IH, (proj1 (tell_none v c)). reflexivity. }
  assert (N0 : forall ok, ~ In (TConnected ok) (flat_map (tell_chan v) (l_chans l))).
  { intros ok I. apply in_flat_map in I. destruct I as (c & _ & I). unfold tell_chan in I. rewrite !in_app_iff, in_map_iff in I.
    destruct I as [I|[I|(? & I & _)]]; [destruct (c_told c)|destruct (_ && _)|discriminate]; cbn in I; intuition discriminate. }
  assert (W : up l' = true -> l_watch l' = S (l_watch l)).
  { intros Y. destruct (OK Y) as [(k & K)|(K & _)]; [destruct (NA k K)|exact K]. }
  destruct a as [msg|k|k sent n s]; [|destruct (NA k eq_refl)|].
  all: split; [destruct h; reflexivity|]; split; [rewrite !times_app, Z0; destruct (v_created v), h; reflexivity|]; split; [|exact W].
  all: intros ok I; rewrite !in_app_iff in I; destruct I as [I|[I|I]]; [destruct (N0 ok I)|destruct (v_created v); cbn in I; intuition discriminate|].
  all: destruct h; [destruct I as [I|[]]; injection I as <-; reflexivity|destruct I].
Qed.

(** The references of the reader, along any life. *)
Lemma estep_others v parse chans l e l' t : estep v parse chans l e = Ok (l', t) ->
  others l' = others l + (match e with ERef => 1 | EUnref => -1 | _ => 0 end) /\
  l_id l' = l_id l /\ l_data l' = l_data l.
Proof.
  destruct e as [w| |h a| |]; cbn [estep]; intros H.
  - inv_ok H. unfold others. cbn. repeat split; lia.
  - inv_ok H. unfold visit, others. destruct (up l); [repeat split; lia|]. destruct (l_watch l) eqn:E; cbn; rewrite ?E; repeat split; lia.
  - destruct (reconnect _ _ _ _ _ _) as [[[b o] t1]|] eqn:E; cbn [obind] in H; [|discriminate].
    destruct (up l) eqn:U.
    + rewrite again_connected in E by exact U. inv_ok E. inv_ok H. repeat split; lia.
    + apply again_kept in E; [|exact U]. destruct E as (l1 & -> & K1 & K2 & K3 & _). inv_ok H. repeat split; auto; lia.
  - inv_ok H. unfold others, refs_add. cbn. repeat split; lia.
  - inv_ok H. unfold others, refs_add. cbn. repeat split; lia.
Qed.
Theorem life_refs : forall v parse chans es l l' t, life v parse chans l es = Ok (l', t) ->
  l_refs l' - Z.of_nat (l_watch l') = l_refs l - Z.of_nat (l_watch l) + taken es /\ l_id l' = l_id l /\ l_data l' = l_data l.
Proof.
  intros v parse chans es. induction es as [|e es IH]; intros l l' t H; cbn [life] in H.
  - inv_ok H. cbn. repeat split; lia.
  - destruct (estep _ _ _ _ _) as [[l1 t1]|] eqn:E; cbn [obind] in H; [|discriminate].
    destruct (life _ _ _ l1 es) as [[l2 t2]|] eqn:E2; cbn [obind] in H; [|discriminate]. inv_ok H.
    apply estep_others in E. apply IH in E2. unfold others in E. destruct E as (E1 & E3 & E4), E2 as (F1 & F2 & F3).
    repeat split; [|congruence..]. destruct e; cbn [taken]; lia.
Qed.
(** A session over is forgotten by the reader after as many visits as entries. *)
Theorem visits_forget : forall v parse chans n l, up l = false -> n = l_watch l ->
  exists l', life v parse chans l (repeat EVisit n) = Ok (l', []) /\ l_watch l' = O /\ l_refs l' = others l.
Proof.
  intros v parse chans n. induction n as [|n IH]; intros l U E; cbn [repeat life].
  - exists l. unfold others. rewrite <- E. repeat split; lia.
  - cbn [estep obind]. unfold visit. rewrite U, <- E.
    match goal with |- context [life v parse chans ?x _] => destruct (IH x) as (l' & R & W & K); [exact U|reflexivity|] end.
    exists l'. rewrite R. cbn [obind]. split; [reflexivity|]. split; [exact W|]. rewrite K. unfold others. cbn. lia.
Qed.
Theorem again_addrs : forall v parse chans h a l b o t, up l = false -> reconnect v parse chans h a (Some l) = Ok (b, o, t) ->
  exists l', o = Some l' /\ l_addrs l' = match a with AUp _ _ _ _ => S (l_addrs l) | _ => l_addrs l end.
Proof.
  intros v parse chans h a l b o t U H. destruct (reconnect_down _ _ _ _ _ _ _ _ _ U H) as (r & l' & t2 & E & -> & _ & _).
  exists l'. split; [reflexivity|]. apply dial_addrs in E. exact E.
Qed.
Theorem again_clear : forall v parse chans h l k n s profiles, up l = false -> clean l -> l_io l = IOClear ->
  greeted chans parse s profiles -> (weight s <= n)%nat ->
  exists l' t, reconnect v parse chans h (AUp k true n s) (Some l) = Ok (true, Some l', t) /\ up l' = true /\ l_io l' = IOClear.
Proof.
  intros v parse chans h l k n s profiles U C I G W.
  destruct (again_greeted v parse chans h l k n s profiles U C I G W) as (l' & t & R & U' & _).
  exists l', t. split; [exact R|]. split; [exact U'|].
  destruct (reconnect_down _ _ _ _ _ _ _ _ _ U R) as (r & l1 & t2 & E & X & _). injection X as <-.
  apply dial_kept in E. cbn in E. rewrite <- I. apply E.
Qed.
Lemma leaks v chans n : forall l, up l = false -> exists es l' t, life v (fun _ _ => None) chans l es = Ok (l', t) /\ up l' = false /\ l_addrs l' = (n + l_addrs l)%nat.
Proof.
  induction n as [|n IH]; intros l U.
  - exists [], l, []. repeat split. exact U.
  - destruct (reconnect v (fun _ _ => None) chans false (AUp 4 false 1 []) (Some l)) as [[[b o] t1]|] eqn:E.
    + destruct (again_addrs _ _ _ _ _ _ _ _ _ U E) as (l1 & -> & A).
      assert (U1 : up l1 = false). { unfold reconnect in E. rewrite U in E. cbn in E. inv_ok E. reflexivity. }
      destruct (IH l1 U1) as (es & l' & t & R & U' & A'). exists (EAgain false (AUp 4 false 1 []) :: es), l', (t1 ++ t).
      cbn [life estep]. rewrite E. cbn [obind]. rewrite R. cbn [obind]. repeat split; [exact U'|]. rewrite A', A. apply Nat.add_succ_r.
    + unfold reconnect in E. rewrite U in E. cbn in E. discriminate.
Qed.
