(** Proofs about the answering side of a channel. *)
From Verif Require Import Base CodecModel ReplyModel ReplySpec OutProofs.

(** ** The hash *)
Lemma hget_hdel_same : forall s k, hget (hdel s k) k = None.
Proof.
  induction s as [|[k' v] s IH]; intros k; cbn; auto.
  destruct (Z.eqb_spec k k'); auto. cbn. destruct (Z.eqb_spec k k'); [contradiction|auto].
Qed.
Lemma hget_hdel_other : forall s k j, j <> k -> hget (hdel s k) j = hget s j.
Proof.
  induction s as [|[k' v] s IH]; intros k j H; cbn; auto.
  destruct (Z.eqb_spec k k').
  - subst. destruct (Z.eqb_spec j k'); [contradiction|auto].
  - cbn. destruct (Z.eqb_spec j k'); auto.
Qed.
Lemma hget_hput_same : forall s k v, hget (hput s k v) k = Some v.
Proof. intros. cbn. now rewrite Z.eqb_refl. Qed.
Lemma hget_hput_other : forall s k v j, j <> k -> hget (hput s k v) j = hget s j.
Proof. intros. cbn. destruct (Z.eqb_spec j k); [contradiction|]. now apply hget_hdel_other. Qed.

Definition vsize (v : stored) : nat := match v with SOne _ => 1 | SList l => length l end.

Lemma hdel_size_le : forall s k, (stored_size (hdel s k) <= stored_size s)%nat.
Proof.
  induction s as [|[k' v] s IH]; intros k; cbn; auto.
  specialize (IH k). destruct (k =? k'); cbn; unfold stored_size in *; lia.
Qed.
Lemma hdel_size : forall s k v, hget s k = Some v -> (stored_size (hdel s k) + vsize v <= stored_size s)%nat.
Proof.
  induction s as [|[k' w] s IH]; intros k v H; [discriminate|].
  cbn in H |- *. pose proof (hdel_size_le s k) as L. destruct (k =? k') eqn:E.
  - inversion H. subst. cbn. unfold vsize, stored_size in *. lia.
  - specialize (IH _ _ H). cbn. unfold vsize, stored_size in *. lia.
Qed.

(** ** Shape of the loop *)
Definition flush_tail (f : nat) (c : ichan) : outcome (option ichan) :=
  let n' := next_reply_no c in
  match hget (ic_stored c) n' with
  | None => Ok (Some c)
  | Some (SOne d') => send_reply f c d' n'
  | Some (SList []) => UB
  | Some (SList (d' :: l)) =>
    let c := iset_stored c (match l with
                            | [] => hdel (ic_stored c) n'
                            | _ => hput (ic_stored c) n' (SList l)
                            end) in
    send_reply f c (mkRD (d_type d') (d_msgno d') (ic_ansno c) (d_body d') (d_more d')) n'
  end.

Definition after_status (c : ichan) (d : rdata) (n : Z) : ichan :=
  ilog (match d_type d with
        | TNUL | TANS => c
        | _ => iset_stored c (hdel (ic_stored c) n)
        end) (IQueued d).

Lemma send_reply_unfold : forall f c d n,
  send_reply (S f) c d n = let! c1 := reply_status c d n in flush_tail f (after_status c1 d n).
Proof. reflexivity. Qed.

(** ** Invariant for any behaviour of the application *)
Definition vdata (v : stored) : list rdata := match v with SOne d => [d] | SList l => l end.

Definition good_value (k : Z) (v : stored) : Prop :=
  Forall (fun d => d_msgno d = k) (vdata v) /\
  match v with
  | SOne d => is_ans_nul (d_type d) = false
  | SList l => l <> [] /\ Forall (fun d => is_ans_nul (d_type d) = true) l
  end.
Definition good_stored (s : list (Z * stored)) : Prop :=
  forall k v, hget s k = Some v -> k <> -1 /\ good_value k v.

Lemma good_hdel : forall s k, good_stored s -> good_stored (hdel s k).
Proof.
  intros s k H j v E. destruct (Z.eq_dec j k) as [->|D].
  - rewrite hget_hdel_same in E. discriminate.
  - rewrite hget_hdel_other in E by auto. auto.
Qed.
Lemma good_hput : forall s k v, good_stored s -> k <> -1 -> good_value k v -> good_stored (hput s k v).
Proof.
  intros s k v H K G j w E. destruct (Z.eq_dec j k) as [->|D].
  - rewrite hget_hput_same in E. inversion E. now subst.
  - rewrite hget_hput_other in E by auto. auto.
Qed.

Definition opt_open (f : Z) : option Z := if f =? -1 then None else Some f.

Record iinv (first : list Z) (c : ichan) : Prop := mkII {
  ii_un : unanswered first (ic_log c) = mkRcv (opt_open (ic_frag c)) (ic_in c);
  ii_no : ~ In (-1) (ic_in c);
  ii_stored : good_stored (ic_stored c);
  ii_acc : accepted_ok first (ic_log c);
  ii_old : oldest_replied first (ic_log c)
}.

Lemma unanswered_snoc : forall first l o, unanswered first (l ++ [o]) = vstep (unanswered first l) o.
Proof. intros. unfold unanswered. now rewrite fold_left_app. Qed.

Lemma iinv0 : forall first, ~ In (-1) first -> iinv first (ic0 first).
Proof.
  intros first H. constructor; cbn; auto.
  - intros k v E. discriminate.
  - intros a b n more E. destruct a; discriminate.
  - intros a b d E. destruct a; discriminate.
Qed.

Lemma iinv_quiet : forall first c d o, iinv first c ->
  ic_log d = ic_log c ++ [o] -> ic_in d = ic_in c -> ic_frag d = ic_frag c -> good_stored (ic_stored d) ->
  (forall n m, o <> IMsg n m) -> (forall x, o <> IQueued x) -> iinv first d.
Proof.
  intros first c d o [Iu In' Is Ia Io] E1 E2 E3 E4 H1 H2.
  constructor; rewrite ?E1, ?E2, ?E3; auto.
  - rewrite unanswered_snoc, Iu. destruct o; try reflexivity; exfalso; [eapply H1|eapply H2]; reflexivity.
  - intros a b n more E. apply snoc_split in E as [(-> & E & ->)|(b' & -> & E)].
    + exfalso. eapply H1. symmetry. exact E.
    + eapply Ia; eauto.
  - intros a b x E. apply snoc_split in E as [(-> & E & ->)|(b' & -> & E)].
    + exfalso. eapply H2. symmetry. exact E.
    + eapply Io; eauto.
Qed.

Lemma in_use_In : forall l n, in_use l n = true <-> In n l.
Proof. exact find_item_In. Qed.

(** A MSG frame is accepted exactly when it is acceptable. *)
Lemma check_msg_no_spec : forall first c n more, iinv first c -> n <> -1 ->
  match check_msg_no c n more with
  | Some c' => acceptable (unanswered first (ic_log c)) n /\
               ic_in c' = (if ic_frag c =? -1 then ic_in c ++ [n] else ic_in c) /\
               ic_frag c' = (if more then n else -1) /\
               ic_stored c' = ic_stored c /\ ic_ansno c' = ic_ansno c /\ ic_up c' = ic_up c /\
               ic_log c' = ic_log c
  | None => ~ acceptable (unanswered first (ic_log c)) n
  end.
Proof.
  intros first c n more I Hn. rewrite (ii_un _ _ I). unfold acceptable, opt_open. cbn [v_open v_msgs].
  unfold check_msg_no.
  destruct (Z.eqb_spec (ic_frag c) (-1)) as [E|E]; cbn [negb andb].
  - destruct (in_use (ic_in c) n) eqn:U.
    + apply in_use_In in U. destruct more; cbn; tauto.
    + assert (~ In n (ic_in c)) by (intros J; apply in_use_In in J; congruence).
      destruct more; cbn; conj; auto.
  - destruct (Z.eqb_spec (ic_frag c) n) as [F|D]; cbn [negb andb].
    + destruct more; cbn; conj; auto.
    + intros F. auto.
Qed.

Lemma iinv_recv : forall first c n more, iinv first c -> n <> -1 -> iinv first (recv_msg c n more).
Proof.
  intros first c n more I Hn. unfold recv_msg.
  pose proof (check_msg_no_spec first c n more I Hn) as H.
  destruct (check_msg_no c n more) as [c'|].
  - destruct H as (A & E1 & E2 & E3 & E4 & E5 & E6).
    destruct I as [Iu In' Is Ia Io].
    constructor; cbn [ilog ic_log ic_in ic_frag ic_stored]; rewrite ?E6.
    + rewrite unanswered_snoc, Iu. cbn [vstep]. rewrite E1, E2. unfold opt_open. cbn [v_open v_msgs].
      f_equal.
      * destruct more; auto. destruct (Z.eqb_spec n (-1)); congruence.
      * destruct (ic_frag c =? -1); reflexivity.
    + rewrite E1. destruct (ic_frag c =? -1); auto. intros J. apply in_app_or in J as [J|[J|[]]]; auto.
    + now rewrite E3.
    + intros a b n' m E. apply snoc_split in E as [(-> & E & ->)|(b' & -> & E)].
      * injection E as -> ->. exact A.
      * eapply Ia; eauto.
    + intros a b x E. apply snoc_split in E as [(-> & E & ->)|(b' & -> & E)]; [discriminate|eapply Io; eauto].
  - eapply iinv_quiet with (c := c) (o := IClosed); eauto; try reflexivity; try (intros; discriminate).
    apply (ii_stored _ _ I).
Qed.

(** Handing one reply to the sequencer. *)
Lemma iinv_emit : forall first c d n c1, iinv first c -> d_msgno d = n -> next_reply_no c = n -> n <> -1 ->
  reply_status c d n = Ok c1 ->
  iinv first (after_status c1 d n) /\
  ic_stored (after_status c1 d n) = (if is_ans_nul (d_type d) then ic_stored c else hdel (ic_stored c) n) \/
  is_ans_nul (d_type d) = false /\ d_type d <> TRPY /\ d_type d <> TERR.
Proof.
  intros first c d n c1 I Hd Hn Hn1 H.
  destruct (ftype_eqb (d_type d) TMSG || ftype_eqb (d_type d) TSEQ) eqn:T.
  { right. destruct (d_type d); cbn in *; try discriminate; conj; auto; discriminate. }
  left. unfold next_reply_no in Hn.
  destruct (ic_in c) as [|m r] eqn:Ei; [congruence|]. subst m.
  assert (G : forall c2, c2 = after_status c1 d n ->
    ic_in c2 = (if final_reply d then r else n :: r) /\ ic_frag c2 = ic_frag c /\
    ic_log c2 = ic_log c ++ [IQueued d] /\
    ic_stored c2 = (if is_ans_nul (d_type d) then ic_stored c else hdel (ic_stored c) n)).
  { intros c2 ->. unfold reply_status, after_status, final_reply in *.
    destruct (d_type d) eqn:Et; try discriminate.
    - inversion H. destruct (d_more d); cbn; [auto|]. unfold remove_first_pending. rewrite Ei, Z.eqb_refl. cbn. auto.
    - destruct (two31 <=? ic_ansno c + 1); inversion H. cbn. auto.
    - inversion H. destruct (d_more d); cbn; [auto|]. unfold remove_first_pending. rewrite Ei, Z.eqb_refl. cbn. auto.
    - inversion H. unfold remove_first_pending. cbn [iset_ansno ic_in]. rewrite Ei, Z.eqb_refl. cbn. auto. }
  destruct (G _ eq_refl) as (G1 & G2 & G3 & G4). split; auto.
  destruct I as [Iu In' Is Ia Io].
  constructor.
  - rewrite G3, unanswered_snoc, Iu. cbn [vstep]. rewrite G1, G2, Ei.
    destruct (final_reply d); reflexivity.
  - rewrite G1. rewrite Ei in In'. destruct (final_reply d); auto. intros J. apply In'. now right.
  - rewrite G4. destruct (is_ans_nul (d_type d)); auto. now apply good_hdel.
  - rewrite G3. intros a b k m E. apply snoc_split in E as [(-> & E & ->)|(b' & -> & E)]; [discriminate|eapply Ia; eauto].
  - rewrite G3. intros a b x E. apply snoc_split in E as [(-> & E & ->)|(b' & -> & E)]; [|eapply Io; eauto].
    injection E as ->. exists r. rewrite Iu, Ei. cbn. congruence.
Qed.

Definition reply_type (t : ftype) : bool := negb (ftype_eqb t TMSG) && negb (ftype_eqb t TSEQ).

Lemma reply_type_cases : forall t, reply_type t = true -> is_ans_nul t = false -> t = TRPY \/ t = TERR.
Proof. intros []; cbn; auto; discriminate. Qed.

Definition good_types (s : list (Z * stored)) : Prop :=
  forall k v, hget s k = Some v -> Forall (fun d => reply_type (d_type d) = true) (vdata v).

Lemma good_types_hdel : forall s k, good_types s -> good_types (hdel s k).
Proof.
  intros s k H j v E. destruct (Z.eq_dec j k) as [->|D].
  - rewrite hget_hdel_same in E. discriminate.
  - rewrite hget_hdel_other in E by auto. eauto.
Qed.
Lemma good_types_hput : forall s k v, good_types s ->
  Forall (fun d => reply_type (d_type d) = true) (vdata v) -> good_types (hput s k v).
Proof.
  intros s k v H G j w E. destruct (Z.eq_dec j k) as [->|D].
  - rewrite hget_hput_same in E. inversion E. now subst.
  - rewrite hget_hput_other in E by auto. eauto.
Qed.

Lemma send_reply_inv : forall first f c d n, iinv first c -> good_types (ic_stored c) ->
  d_msgno d = n -> next_reply_no c = n -> n <> -1 -> reply_type (d_type d) = true ->
  (1 + stored_size (if is_ans_nul (d_type d) then ic_stored c else hdel (ic_stored c) n) <= f)%nat ->
  match send_reply f c d n with
  | UB => True
  | Ok None => False
  | Ok (Some c') => iinv first c' /\ good_types (ic_stored c')
  end.
Proof.
  intros first. induction f as [|f IH]; intros c d n I T Hd Hn Hn1 Ht Hf; [lia|].
  rewrite send_reply_unfold.
  destruct (reply_status c d n) as [c1|] eqn:E; [|exact Logic.I]. cbn [obind].
  destruct (iinv_emit first c d n c1 I Hd Hn Hn1 E) as [[I1 S1]|(X1 & X2 & X3)].
  2: { destruct (reply_type_cases _ Ht X1); contradiction. }
  set (c2 := after_status c1 d n) in *. clearbody c2.
  assert (T2 : good_types (ic_stored c2)).
  { rewrite S1. destruct (is_ans_nul (d_type d)); auto. now apply good_types_hdel. }
  rewrite <- S1 in Hf. unfold flush_tail.
  destruct (hget (ic_stored c2) (next_reply_no c2)) as [v|] eqn:Eg; [|auto].
  destruct (ii_stored _ _ I1 _ _ Eg) as [N G]. pose proof (T2 _ _ Eg) as TT.
  destruct v as [d'|[|d' l]].
  - destruct G as [G1 G2]. cbn in G1, TT. inversion G1; subst. inversion TT; subst.
    apply IH; auto. rewrite G2. pose proof (hdel_size _ _ _ Eg) as Z1. cbn [vsize] in Z1. lia.
  - exact Logic.I.
  - destruct G as [G1 [G2 G3]]. cbn [vdata] in *. inversion G1; subst. inversion TT; subst. inversion G3; subst.
    set (s' := match l with [] => _ | _ => _ end).
    assert (Z1 : (stored_size s' + 1 <= stored_size (ic_stored c2))%nat).
    { pose proof (hdel_size _ _ _ Eg) as Z1. cbn [vsize length] in Z1. subst s'. destruct l; [cbn in Z1; lia|].
      unfold hput. cbn [stored_size fold_right snd] in *. cbn [length] in *. unfold stored_size in *. cbn [fold_right snd length]. lia. }
    assert (GS : good_stored s').
    { subst s'. destruct l; [apply good_hdel, (ii_stored _ _ I1)|].
      apply good_hput; auto; [apply (ii_stored _ _ I1)|]. split; auto. split; [discriminate|auto]. }
    assert (TS : good_types s').
    { subst s'. destruct l; [now apply good_types_hdel|]. apply good_types_hput; auto. }
    clearbody s'. cbv zeta.
    apply IH; cbn [d_msgno d_type]; auto.
    + destruct I1 as [Iu In' Is Ia Io]. constructor; auto.
    + cbn [iset_stored ic_stored]. pose proof (hdel_size_le s' (next_reply_no c2)).
      destruct (is_ans_nul (d_type d')); lia.
Qed.

Definition iop_ok (o : iop) : Prop :=
  match o with
  | IpMsg n _ => n <> -1
  | IpCall t n _ more => n <> -1 /\ reply_type t = true
  | IpDown => True
  end.

Lemma istep_inv : forall first c o, iinv first c -> good_types (ic_stored c) -> iop_ok o ->
  match istep c o with
  | UB => True
  | Ok None => False
  | Ok (Some c') => iinv first c' /\ good_types (ic_stored c')
  end.
Proof.
  intros first c o I T Ho. destruct o as [n more|t n body more|]; cbn [istep iop_ok] in *.
  - destruct (ic_up c); auto. split; [now apply iinv_recv|].
    unfold recv_msg. pose proof (check_msg_no_spec first c n more I Ho) as H.
    destruct (check_msg_no c n more) as [c'|]; cbn; auto. destruct H as (_ & _ & _ & -> & _). auto.
  - destruct Ho as [Hn Ht]. unfold common_rpy. destruct (ic_up c) eqn:Up.
    + destruct (Z.eqb_spec (next_reply_no c) n) as [E|E].
      * match goal with |- context [send_reply ?f ?c ?d ?n] =>
          pose proof (send_reply_inv first f c d n I T eq_refl E Hn Ht) as H;
          destruct (send_reply f c d n) as [[c'|]|] end; cbn [obind]; auto.
        -- destruct H as [H1 H2].
           { pose proof (hdel_size_le (ic_stored c) n). destruct (is_ans_nul _); lia. }
           split; [|cbn; auto].
           eapply iinv_quiet with (c := c') (o := IRet t n true); eauto; try reflexivity; try (intros; discriminate).
           apply (ii_stored _ _ H1).
        -- apply H. pose proof (hdel_size_le (ic_stored c) n). destruct (is_ans_nul _); lia.
      * set (d := mkRD t n (ic_ansno c) body more).
        assert (G : good_stored (ic_stored (fst (store_reply c d))) /\ good_types (ic_stored (fst (store_reply c d))) /\
                    ic_log (fst (store_reply c d)) = ic_log c /\ ic_in (fst (store_reply c d)) = ic_in c /\
                    ic_frag (fst (store_reply c d)) = ic_frag c).
        { pose proof (ii_stored _ _ I) as GS. unfold store_reply. cbn [d_type d d_msgno].
          destruct (is_ans_nul t) eqn:A.
          - destruct (hget (ic_stored c) n) as [[x|l]|] eqn:Eg; cbn [fst].
            + conj; auto.
            + destruct (GS _ _ Eg) as [_ [G1 [G2 G3]]]. pose proof (T _ _ Eg) as TT. cbn [vdata] in *.
              destruct (ftype_eqb t TNUL && _ && _); cbn [fst iset_stored ic_stored ic_log ic_in ic_frag]; conj; auto.
              * apply good_hput; auto. split; cbn [vdata].
                -- apply Forall_app. auto.
                -- split; [destruct l; discriminate|]. apply Forall_app. auto.
              * apply good_types_hput; auto. cbn [vdata]. apply Forall_app. auto.
            + cbn [iset_stored ic_stored ic_log ic_in ic_frag]. conj; auto.
              * apply good_hput; auto. split; cbn [vdata]; auto. split; [discriminate|auto].
              * apply good_types_hput; auto. cbn [vdata]. auto.
          - cbn [fst iset_stored ic_stored ic_log ic_in ic_frag]. conj; auto.
            + apply good_hput; auto. split; cbn [vdata]; auto.
            + apply good_types_hput; auto. cbn [vdata]. auto. }
        destruct (store_reply c d) as [c' ok]. cbn [fst] in G. destruct G as (G1 & G2 & G3 & G4 & G5).
        split; [|cbn; auto].
        eapply iinv_quiet with (c := c) (o := IRet t n ok); eauto; try (intros; discriminate).
        cbn. now rewrite G3.
    + split; [|cbn; auto].
      eapply iinv_quiet with (c := c) (o := IRet t n false); eauto; try (intros; discriminate).
      apply (ii_stored _ _ I).
  - split; auto. destruct I. constructor; auto.
Qed.

Lemma irun_inv : forall first os c, iinv first c -> good_types (ic_stored c) -> Forall iop_ok os ->
  match irun c os with
  | UB => True
  | Ok None => False
  | Ok (Some c') => iinv first c' /\ good_types (ic_stored c')
  end.
Proof.
  intros first. induction os as [|o os IH]; intros c I T W; cbn [irun]; auto.
  inversion W; subst. pose proof (istep_inv first c o I T H1) as H.
  destruct (istep c o) as [[c'|]|]; cbn [obind].
  - destruct H. apply IH; auto.
  - contradiction.
  - exact Logic.I.
Qed.

Lemma irun_from0 : forall first os r, ~ In (-1) first -> Forall iop_ok os -> irun (ic0 first) os = Ok r ->
  exists c, r = Some c /\ iinv first c.
Proof.
  intros first os r F W H.
  assert (X := irun_inv first os (ic0 first) (iinv0 first F)). rewrite H in X.
  assert (good_types (ic_stored (ic0 first))) by (intros k v E; discriminate).
  specialize (X H0 W). destruct r as [c|]; [|contradiction]. exists c. tauto.
Qed.
