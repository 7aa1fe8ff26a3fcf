(** The numbers of XML-RPC. *)
From Coq Require Import String.
From Verif Require Import Base CodecModel MimeModel MimeSpec GreetModel HdrModel HdrProofs MsgModel MsgSpec MsgProofs MsgProofs2 RpcModel RpcSpec RpcProofs.
Open Scope list_scope.

Lemma skip_blank : forall sp t, Forall blank sp -> skip_space (sp ++ t) = skip_space t.
Proof.
  induction sp as [|c sp IH]; intros t F; auto. inversion F as [|? ? B F']; subst. cbn [app skip_space].
  destruct B as [->|B]; [cbn [Z.eqb Pos.eqb orb]; auto|].
  replace ((c =? 32) || (9 <=? c) && (c <=? 13)) with true; auto.
  destruct (Z.leb_spec 9 c); [|lia]. destruct (Z.leb_spec c 13); [|lia]. symmetry. apply orb_true_r.
Qed.
Lemma skip_split : forall s, exists sp, Forall blank sp /\ s = sp ++ skip_space s.
Proof.
  induction s as [|c s IH]; [exists []; auto|]. cbn [skip_space].
  destruct ((c =? 32) || (9 <=? c) && (c <=? 13)) eqn:E.
  - destruct IH as (sp & F & Q). exists (c :: sp). split; [constructor; auto|cbn [app]; congruence].
    unfold blank. apply orb_true_iff in E. destruct E as [E|E]; [left; lia|right]. apply andb_true_iff in E. lia.
  - exists []. auto.
Qed.
Lemma skip_none : forall c s, ~ blank c -> skip_space (c :: s) = c :: s.
Proof.
  intros c s B. cbn [skip_space]. replace ((c =? 32) || (9 <=? c) && (c <=? 13)) with false; auto.
  unfold blank in B. destruct (Z.eqb_spec c 32); [tauto|]. destruct (Z.leb_spec 9 c); destruct (Z.leb_spec c 13); cbn [andb orb]; auto; exfalso; apply B; right; lia.
Qed.
Lemma leading_split : forall t, t = leading_digits t ++ skipn (List.length (leading_digits t)) t /\ Forall figure (leading_digits t).
Proof.
  induction t as [|c t IH]; [split; [reflexivity|constructor]|]. cbn [leading_digits].
  destruct ((48 <=? c) && (c <=? 57)) eqn:E; [|split; [reflexivity|constructor]].
  destruct IH as (I1 & I2). cbn [List.length skipn app]. split; [congruence|]. constructor; auto.
  apply andb_true_iff in E. unfold figure. lia.
Qed.
Lemma leading_app : forall ds r, Forall figure ds -> (match r with c :: _ => ~ figure c | [] => True end) -> leading_digits (ds ++ r) = ds.
Proof.
  induction ds as [|c ds IH]; intros r F R.
  - destruct r as [|c r]; auto. cbn [app leading_digits]. unfold figure in R.
    destruct (Z.leb_spec 48 c); destruct (Z.leb_spec c 57); auto. exfalso. apply R. lia.
  - inversion F as [|? ? B F']; subst. unfold figure in B. cbn [app leading_digits].
    destruct (Z.leb_spec 48 c); [|lia]. destruct (Z.leb_spec c 57); [|lia]. cbn [andb]. f_equal. apply IH; auto.
Qed.
Lemma skipn_all_app : forall (A : Type) (a b : list A), skipn (List.length a) (a ++ b) = b.
Proof. induction a; intros; cbn [List.length skipn app]; auto. Qed.
Definition clamp (n : Z) : Z := Z.max (- two63) (Z.min n (two63 - 1)).
(** The sign of a notation. *)
Definition signed (t : bytes) : bool * bytes := match t with 45 :: r => (true, r) | 43 :: r => (false, r) | _ => (false, t) end.
Lemma signed_digit : forall c r, figure c -> signed (c :: r) = (false, c :: r).
Proof. intros c r F. unfold figure in F. unfold signed. destruct c as [|p|p]; try lia. repeat (destruct p as [p|p|]; auto); lia. Qed.
Lemma signed_inv : forall t b r, signed t = (b, r) -> (b = true /\ t = 45 :: r) \/ (b = false /\ (t = 43 :: r \/ t = r)).
Proof.
  intros t b r E. unfold signed in E. destruct t as [|c t]; [inversion E; auto|].
  destruct c as [|p|p]; try (inversion E; subst; auto; fail).
  repeat (destruct p as [p|p|]; try (inversion E; subst; auto; fail)).
Qed.
Lemma strtol_signed : forall s, strtol s = let '(neg, t) := signed (skip_space s) in
  match leading_digits t with
  | [] => (0, s)
  | ds => (clamp (if neg : bool then - digits_value ds else digits_value ds), skipn (List.length ds) t)
  end.
Proof. reflexivity. Qed.

Lemma strtol_notation : forall s n, notation s n -> strtol s = (clamp n, []).
Proof.
  intros s n [sp sign ds SP FI NE SG EQ]. subst s. rewrite strtol_signed, (skip_blank sp _ SP).
  destruct ds as [|d ds]; [contradiction|]. assert (Fd : figure d) by (inversion FI; auto).
  assert (L : leading_digits (d :: ds) = d :: ds) by (rewrite <- (app_nil_r (d :: ds)) at 1; apply leading_app; auto).
  assert (SK : skipn (List.length (d :: ds)) (d :: ds) = []) by (rewrite <- (app_nil_r (d :: ds)) at 2; apply skipn_all_app).
  destruct SG as [(-> & ->)|[(-> & ->)|(-> & ->)]]; cbn [app].
  - rewrite skip_none by (unfold blank, figure in *; lia). rewrite signed_digit by auto. rewrite L, SK. reflexivity.
  - rewrite skip_none by (unfold blank; lia). cbn [signed]. rewrite L, SK. reflexivity.
  - rewrite skip_none by (unfold blank; lia). cbn [signed]. rewrite L, SK. reflexivity.
Qed.
Lemma strtol_inv : forall s v, strtol s = (v, []) -> (s = [] /\ v = 0) \/ exists n, notation s n /\ v = clamp n.
Proof.
  intros s v E. rewrite strtol_signed in E. destruct (skip_split s) as (sp & F & Q).
  destruct (signed (skip_space s)) as (b, r) eqn:G. destruct (leading_split r) as (P1 & P2).
  destruct (leading_digits r) as [|d ds] eqn:L.
  - inversion E; subst. left. auto.
  - right. assert (E1 : clamp (if b then - digits_value (d :: ds) else digits_value (d :: ds)) = v) by congruence.
    assert (E2 : skipn (List.length (d :: ds)) r = []) by congruence. rewrite E2, app_nil_r in P1. apply signed_inv in G.
    exists (if b then - digits_value (d :: ds) else digits_value (d :: ds)). split; [|congruence].
    destruct G as [(-> & G)|(-> & [G|G])].
    + apply (Notation s (- digits_value (d :: ds)) sp [45] (d :: ds)); auto; [discriminate|rewrite Q, G, P1; reflexivity].
    + apply (Notation s (digits_value (d :: ds)) sp [43] (d :: ds)); auto; [discriminate|rewrite Q, G, P1; reflexivity].
    + apply (Notation s (digits_value (d :: ds)) sp [] (d :: ds)); auto; [discriminate|rewrite Q, G, P1; reflexivity].
Qed.
Lemma int_iff : forall s n, int_of s = Some n <-> (s = [] /\ n = 0) \/ exists m, notation s m /\ n = s32 (clamp m).
Proof.
  intros s n. unfold int_of. split.
  - destruct (strtol s) as (v, r) eqn:E. destruct r; [|discriminate]. intros H. inversion H; subst.
    apply strtol_inv in E. destruct E as [(-> & ->)|(m & N & ->)]; [left; auto|right; eauto].
  - intros [(-> & ->)|(m & N & ->)]; [reflexivity|]. rewrite (strtol_notation s m N). reflexivity.
Qed.

Lemma s32_id : forall n, int_range n -> s32 n = n.
Proof. intros n R. unfold int_range, s32, two31, two32 in *. rewrite Z.mod_small; lia. Qed.
Lemma clamp_id : forall n, int_range n -> clamp n = n.
Proof. intros n R. unfold int_range, clamp, two31, two63 in *. lia. Qed.

Lemma dec_any : forall n, 0 <= n <= two31 -> exists ds, dec_of 11 n [] = ds /\ Forall figure ds /\ ds <> [] /\ digits_value ds = n.
Proof.
  intros n B. assert (B' : 0 <= n < 10 ^ Z.of_nat 11) by (split; [lia|]; eapply Z.le_lt_trans; [apply B|]; reflexivity).
  destruct (dec_of_spec 11 n [] B' ltac:(lia)) as (ds & E & F & N & V). rewrite app_nil_r in E. exists ds. auto.
Qed.
Lemma dec_notation : forall n, int_range n -> notation (dec n) n.
Proof.
  intros n R. unfold int_range in R. unfold dec. destruct (Z.ltb_spec n 0).
  - destruct (dec_any (- n)) as (ds & E & F & N & V); [lia|]. rewrite E. apply (Notation _ n [] [45] ds); auto. right; right. split; auto. lia.
  - destruct (dec_any n) as (ds & E & F & N & V); [lia|]. rewrite E. apply (Notation _ n [] [] ds); auto.
Qed.
Lemma int_of_dec : forall n, int_range n -> int_of (dec n) = Some n.
Proof. intros n R. apply int_iff. right. exists n. split; [apply dec_notation; auto|]. rewrite clamp_id, s32_id; auto. Qed.
Lemma figures_writable : forall ds, Forall figure ds -> writable ds.
Proof. intros ds F c I. rewrite Forall_forall in F. apply F in I. unfold figure in I. lia. Qed.
Lemma dec_writable : forall n, int_range n -> writable (dec n).
Proof.
  intros n R. unfold int_range in R. unfold dec. destruct (Z.ltb_spec n 0).
  - destruct (dec_any (- n)) as (ds & E & F & N & V); [lia|]. rewrite E. intros c [<-|I]; [lia|]. revert c I. apply figures_writable; auto.
  - destruct (dec_any n) as (ds & E & F & N & V); [lia|]. rewrite E. apply figures_writable; auto.
Qed.

(** * Doubles of six digits *)
Lemma strtod_signed : forall s b t ds, signed (skip_space s) = (b, t) -> t = ds -> Forall figure ds -> ds <> [] -> digits_value ds <= 9007199254740992 -> 0 <= digits_value ds ->
  strtod s = (DZ (if b then - digits_value ds else digits_value ds), []).
Proof.
  intros s b t ds E -> F N B P. unfold strtod.
  change (match skip_space s with 45 :: r => (true, r) | 43 :: r => (false, r) | _ => (false, skip_space s) end) with (signed (skip_space s)). rewrite E.
  assert (T : take_digits ds = (ds, [])).
  { unfold take_digits. pose proof (leading_app ds [] F Logic.I) as L. rewrite app_nil_r in L. rewrite L.
    pose proof (skipn_all_app _ ds []) as K. rewrite app_nil_r in K. rewrite K. reflexivity. }
  rewrite T. cbn [zlen]. rewrite !app_nil_r. destruct ds as [|d ds]; [contradiction|].
  change (0 - zlen (@nil Z)) with 0. cbn [Z.ltb Z.leb Z.compare]. rewrite Z.pow_0_r, Z.mul_1_r.
  destruct (Z.eqb_spec (digits_value (d :: ds)) 0) as [Z0|Z0].
  - rewrite Z0. destruct b; reflexivity.
  - change (400 <? 0) with false. change (0 <=? 0) with true. cbn iota. destruct (Z.leb_spec (digits_value (d :: ds)) 9007199254740992); [|lia]. reflexivity.
Qed.
Lemma gfmt_read : forall z, -1000000 < z < 1000000 -> support_strtod (gfmt z) = DZ z /\ writable (gfmt z).
Proof.
  intros z B. unfold gfmt. destruct (Z.ltb_spec (Z.abs z) 1000000); [|lia].
  unfold dec. destruct (Z.ltb_spec (Z.abs z) 0); [lia|].
  destruct (dec_any (Z.abs z)) as (ds & E & F & N & V); [unfold two31; lia|]. rewrite E.
  destruct ds as [|d ds]; [contradiction|]. assert (Fd : figure d) by (inversion F; auto).
  unfold support_strtod. destruct (Z.ltb_spec z 0); cbn [app].
  - split.
    + rewrite (strtod_signed _ true (d :: ds) (d :: ds)); auto; try lia.
      rewrite V. f_equal. lia.
    + intros c [<-|I]; [lia|]. revert c I. apply figures_writable; auto.
  - split; [|apply figures_writable; auto].
    rewrite (strtod_signed _ false (d :: ds) (d :: ds)); auto; try lia.
    + rewrite V. f_equal. lia.
    + rewrite skip_none by (unfold blank, figure in *; lia). apply signed_digit. auto.
Qed.
