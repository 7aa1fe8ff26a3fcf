(** Lemmas about the frame encoder and decoder. *)
From Verif Require Import Base CodecModel CodecSpec.
Ltac Zify.zify_post_hook ::= Z.div_mod_to_equations.

(** ** Generic list facts *)

Lemma zlen_app {A} (a b : list A) : zlen (a ++ b) = zlen a + zlen b.
Proof. unfold zlen. rewrite app_length. lia. Qed.
Lemma zlen_cons {A} (x : A) (b : list A) : zlen (x :: b) = 1 + zlen b.
Proof. unfold zlen. cbn [length]. lia. Qed.
Lemma zlen_nil {A} : zlen (@nil A) = 0.
Proof. reflexivity. Qed.
Lemma zlen_nonneg {A} (a : list A) : 0 <= zlen a.
Proof. unfold zlen. lia. Qed.

Lemma bytes_eqb_refl a : bytes_eqb a a = true.
Proof. induction a as [|x a IH]; cbn; [reflexivity|]. rewrite Z.eqb_refl, IH. reflexivity. Qed.
Lemma bytes_eqb_eq a b : bytes_eqb a b = true -> a = b.
Proof.
  revert b; induction a as [|x a IH]; intros [|y b]; cbn; intros H; try discriminate.
  - reflexivity.
  - apply andb_true_iff in H. destruct H as [H1 H2].
    apply Z.eqb_eq in H1. apply IH in H2. congruence.
Qed.

(** ** Decimal numbers *)

Lemma digits_value_snoc ds d : digits_value (ds ++ [d]) = 10 * digits_value ds + (d - 48).
Proof. unfold digits_value. rewrite fold_left_app. reflexivity. Qed.

Definition isdig (d : Z) : Prop := 48 <= d <= 57.

Lemma itoa_inverse_spec n : forall v, 0 <= v < 10 ^ Z.of_nat n -> (0 < n)%nat ->
  exists ds, itoa_inverse n v = Ok ds /\ ds <> [] /\ (length ds <= n)%nat /\
             Forall isdig ds /\ digits_value (rev ds) = v /\
             (0 < v -> hd 0 (rev ds) <> 48) /\ (v = 0 -> ds = [48]).
Proof.
  induction n as [|n IH]; intros v Hv Hn; [lia|].
  cbn [itoa_inverse].
  assert (Hpow : 10 ^ Z.of_nat (S n) = 10 * 10 ^ Z.of_nat n).
  { rewrite Nat2Z.inj_succ, Z.pow_succ_r; lia. }
  destruct (v / 10 =? 0) eqn:E.
  - apply Z.eqb_eq in E.
    assert (Hv10 : 0 <= v < 10) by lia.
    rewrite (Z.mod_small v 10 Hv10).
    exists [48 + v]. repeat split.
    + discriminate.
    + cbn [length]. lia.
    + constructor; [unfold isdig; lia | constructor].
    + unfold digits_value. cbn [rev app fold_left]. lia.
    + intros H0. cbn [rev app hd]. lia.
    + intros ->. reflexivity.
  - apply Z.eqb_neq in E.
    assert (0 < n)%nat.
    { destruct n; [|lia]. cbn in Hv. exfalso. lia. }
    destruct (IH (v / 10)) as (ds & -> & Hne & Hlen & Hdig & Hval & Hhd & _); [lia|lia|].
    exists ((48 + v mod 10) :: ds). cbn [obind rev length].
    repeat split; try discriminate; try lia.
    + constructor; [unfold isdig; lia | exact Hdig].
    + rewrite digits_value_snoc, Hval. lia.
    + intros _. assert (0 < v / 10) by lia.
      destruct (rev ds) as [|x xs] eqn:Er.
      * apply (f_equal (@rev Z)) in Er. rewrite rev_involutive in Er. exfalso. exact (Hne Er).
      * cbn. apply Hhd. assumption.
Qed.

Lemma itoa_copy_all room ds : (length ds <= room)%nat -> itoa_copy room ds = (ds, true).
Proof.
  revert ds; induction room as [|room IH]; intros [|d ds] H; cbn in *; try reflexivity; try lia.
  rewrite IH by lia. reflexivity.
Qed.
Lemma itoa_copy_short room ds : (room < length ds)%nat ->
  itoa_copy room ds = (firstn room ds, false).
Proof.
  revert ds; induction room as [|room IH]; intros [|d ds] H; cbn in *; try reflexivity; try lia.
  rewrite IH by lia. reflexivity.
Qed.

Lemma itoa_inverse_decimal v : 0 <= v < two32 ->
  exists ds, itoa_inverse 10 v = Ok (rev ds) /\ decimal v ds /\ (length ds <= 10)%nat.
Proof.
  intros Hv. destruct (itoa_inverse_spec 10 v) as (ds & He & Hne & Hlen & Hdig & Hval & Hhd & H0).
  - unfold two32 in Hv. cbn. lia.
  - lia.
  - exists (rev ds). rewrite rev_involutive, rev_length. split; [exact He|]. split; [|exact Hlen].
    repeat split.
    + intros Hr. apply (f_equal (@rev Z)) in Hr. rewrite rev_involutive in Hr. exact (Hne Hr).
    + apply Forall_rev. exact Hdig.
    + symmetry. exact Hval.
    + intros H48. destruct (Z.eq_dec v 0) as [->|Hnz].
      * rewrite H0 by reflexivity. reflexivity.
      * exfalso. apply Hhd; [lia|exact H48].
Qed.

Lemma u32_id v : 0 <= v < two32 -> u32 v = v.
Proof. intros H. unfold u32. apply Z.mod_small. exact H. Qed.
Lemma s32_id v : - two31 <= v < two31 -> s32 v = v.
Proof. intros H. unfold s32, two31, two32 in *. rewrite Z.mod_small; lia. Qed.
Lemma u32_range v : 0 <= u32 v < two32.
Proof. unfold u32. apply Z.mod_pos_bound. reflexivity. Qed.

(** itoa on a buffer where the number fits. *)
Lemma itoa_fits v n : 0 <= v < two32 -> 10 <= n ->
  exists ds, itoa v n = Ok (zlen ds, ds) /\ decimal v ds /\ (length ds <= 10)%nat.
Proof.
  intros Hv Hn. destruct (itoa_inverse_decimal v Hv) as (ds & He & Hd & Hl).
  exists ds. split; [|split; assumption].
  unfold itoa. destruct (Z.leb_spec n 0); [lia|].
  rewrite u32_id by exact Hv. rewrite He. cbn [obind].
  rewrite rev_involutive, itoa_copy_all by lia. reflexivity.
Qed.

Lemma decimal_inj v1 v2 ds : decimal v1 ds -> decimal v2 ds -> v1 = v2.
Proof. intros (_ & _ & -> & _) (_ & _ & -> & _). reflexivity. Qed.

(** Exact behaviour of itoa for every buffer size. *)
Lemma itoa_total v n :
  exists ds, decimal (v mod 4294967296) ds /\
    itoa v n =
      if n <=? 0 then Ok (-1, [])
      else if Z.of_nat (length ds) <=? n then Ok (Z.of_nat (length ds), ds)
      else Ok (-1, firstn (Z.to_nat n) ds).
Proof.
  destruct (itoa_inverse_decimal (u32 v) (u32_range v)) as (ds & He & Hd & Hl).
  exists ds. split; [exact Hd|].
  unfold itoa. destruct (n <=? 0) eqn:En; [reflexivity|].
  rewrite He. cbn [obind]. rewrite rev_involutive.
  destruct (Z.leb_spec (Z.of_nat (length ds)) n).
  - rewrite itoa_copy_all by lia. reflexivity.
  - rewrite itoa_copy_short by lia. reflexivity.
Qed.

(** ** Encoder *)

Lemma put_ok cap buf bs : zlen buf + zlen bs <= cap -> put cap buf bs = Ok (buf ++ bs).
Proof. intros H. unfold put. destruct (Z.leb_spec (zlen buf + zlen bs) cap); [reflexivity|lia]. Qed.

Lemma putc_ok cap buf bs : zlen buf + zlen bs <= cap -> putc cap buf bs = Ok (Some (buf ++ bs)).
Proof. intros H. unfold putc. rewrite put_ok by exact H. reflexivity. Qed.

Lemma put_int_ok cap buf v ds : itoa v 10 = Ok (zlen ds, ds) -> zlen buf + zlen ds <= cap ->
  put_int cap buf v = Ok (Some (buf ++ ds)).
Proof.
  intros He H. unfold put_int. rewrite He. cbn [obind]. rewrite put_ok by exact H. cbn [obind].
  pose proof (zlen_nonneg ds). destruct (Z.eqb_spec (zlen ds) (-1)); [lia|reflexivity].
Qed.

Lemma zlen_kw t : zlen (keyword t) = 3.
Proof. destruct t; reflexivity. Qed.


(** Writing a piece of known length. *)
Lemma step_putc cap b bs n m k :
  zlen b <= n -> zlen bs = m -> n + m <= cap ->
  oibind (putc cap b bs) k = k (b ++ bs) /\ zlen (b ++ bs) <= n + m.
Proof.
  intros Hb Hm Hc. rewrite putc_ok by lia. split; [reflexivity|]. rewrite zlen_app. lia.
Qed.

Lemma step_put_int cap b v n :
  0 <= v < two32 -> zlen b <= n -> n + 10 <= cap ->
  exists ds, decimal v ds /\ zlen ds <= 10 /\
    put_int cap b v = Ok (Some (b ++ ds)) /\ zlen (b ++ ds) <= n + 10.
Proof.
  intros Hv Hb Hc. destruct (itoa_fits v 10 Hv ltac:(lia)) as (ds & He & Hd & Hl).
  exists ds. assert (zlen ds <= 10) by (unfold zlen; lia).
  split; [exact Hd|]. split; [assumption|]. split.
  - apply put_int_ok; [exact He|lia].
  - rewrite zlen_app. lia.
Qed.

Ltac stepc n m :=
  match goal with |- context[oibind (putc ?cap ?b ?bs) ?k] =>
    let H := fresh "H" in let H' := fresh "Hlen" in
    destruct (step_putc cap b bs n m k) as [H H'];
      [lia|reflexivity|lia|rewrite H; clear H; cbv beta]
  end.

(** The header built for a data frame. *)
Lemma build_header_data t ch msg more seqno size ans cap :
  t <> TSEQ ->
  0 <= ch < two32 -> 0 <= msg < two32 -> 0 <= seqno < two32 -> 0 <= size < two32 ->
  (t = TANS -> 0 <= ans < two32) ->
  62 <= cap ->
  exists dch dmsg dseq dsize dans,
    decimal ch dch /\ decimal msg dmsg /\ decimal seqno dseq /\ decimal size dsize /\
    decimal (if ftype_eqb t TANS then ans else 0) dans /\
    build_header cap t ch msg more seqno size (if ftype_eqb t TANS then ans else -1) None None =
    Ok (Some (kw t ++ [32] ++ dch ++ [32] ++ dmsg ++ [32]
             ++ [if more then 42 else 46] ++ [32] ++ dseq ++ [32] ++ dsize
             ++ (if ftype_eqb t TANS then 32 :: dans else []) ++ [13; 10])) /\
    zlen (kw t ++ [32] ++ dch ++ [32] ++ dmsg ++ [32]
             ++ [if more then 42 else 46] ++ [32] ++ dseq ++ [32] ++ dsize
             ++ (if ftype_eqb t TANS then 32 :: dans else []) ++ [13; 10]) <= 62.
Proof.
  intros Ht Hch Hmsg Hseq Hsize Hans Hcap.
  assert (Hseqf : ftype_eqb t TSEQ = false) by (destruct t; try reflexivity; congruence).
  unfold build_header. rewrite Hseqf.
  set (b0 := keyword t ++ [SP]).
  assert (Hb0 : zlen b0 = 4) by (destruct t; reflexivity).
  rewrite putc_ok by (rewrite zlen_nil; lia). cbn [oibind obind].
  change ([] ++ b0) with b0.
  destruct (step_put_int cap b0 ch 4 Hch ltac:(lia) ltac:(lia)) as (dch & Dch & Lch & E & L1).
  rewrite E; clear E; cbn [oibind obind].
  stepc 14 1.
  destruct (step_put_int cap ((b0 ++ dch) ++ [SP]) msg 15 Hmsg ltac:(lia) ltac:(lia))
    as (dmsg & Dmsg & Lmsg & E & L2).
  rewrite E; clear E; cbn [oibind obind].
  stepc 25 1.
  stepc 26 2.
  match goal with |- context[put_int cap ?b seqno] =>
    destruct (step_put_int cap b seqno 28 Hseq ltac:(lia) ltac:(lia)) as (dseq & Dseq & Lseq & E & L3)
  end.
  rewrite E; clear E; cbn [oibind obind].
  stepc 38 1.
  match goal with |- context[put_int cap ?b size] =>
    destruct (step_put_int cap b size 39 Hsize ltac:(lia) ltac:(lia)) as (dsize & Dsize & Lsize & E & L4)
  end.
  rewrite E; clear E; cbn [oibind obind].
  destruct (ftype_eqb t TANS) eqn:Eta.
  - assert (Hans' : 0 <= ans < two32) by (apply Hans; destruct t; try discriminate; reflexivity).
    destruct (Z.leb_spec 0 ans); [|lia].
    stepc 49 1.
    match goal with |- context[put_int cap ?b ans] =>
      destruct (step_put_int cap b ans 50 Hans' ltac:(lia) ltac:(lia)) as (dans & Dans & Lans & E & L5)
    end.
    rewrite E; clear E; cbn [oibind obind].
    stepc 60 2.
    unfold put_mime. cbn [oibind obind].
    exists dch, dmsg, dseq, dsize, dans. repeat (split; [assumption|]).
    match goal with |- Ok (Some ?x) = Ok (Some ?y) /\ _ =>
      assert (Exy : x = y) by
        (unfold b0; change (keyword t) with (kw t);
         repeat rewrite <- app_assoc; cbn [app]; reflexivity);
      split; [rewrite Exy; reflexivity | rewrite <- Exy; lia]
    end.
  - cbn [Z.leb Z.compare oibind obind].
    stepc 49 2.
    unfold put_mime. cbn [oibind obind].
    exists dch, dmsg, dseq, dsize, [48].
    repeat (split; [assumption|]).
    split. { repeat split; try discriminate. constructor; [lia|constructor]. }
    match goal with |- Ok (Some ?x) = Ok (Some ?y) /\ _ =>
      assert (Exy : x = y) by
        (unfold b0; change (keyword t) with (kw t);
         repeat rewrite <- app_assoc; cbn [app]; reflexivity);
      split; [rewrite Exy; reflexivity | rewrite <- Exy; lia]
    end.
Qed.

Lemma build_frame_wire cap t ch msg more seqno ans payload :
  t <> TSEQ ->
  0 <= ch < two31 -> 0 <= msg < two31 -> 0 <= seqno < two32 ->
  (if ftype_eqb t TANS then 0 <= ans < two31 else ans = 0) ->
  zlen payload + 6 < two31 -> zlen payload + 68 <= cap ->
  exists w, build_frame cap t ch msg more seqno ans payload = Ok (Some w) /\
    data_wire (mkFrame t ch msg more seqno (zlen payload) ans payload) w /\
    zlen w <= zlen payload + 67.
Proof.
  intros Ht Hch Hmsg Hseq Hans Hlen Hcap.
  pose proof (zlen_nonneg payload) as Hp0.
  destruct (build_header_data t ch msg more seqno (zlen payload) ans cap)
    as (dch & dmsg & dseq & dsize & dans & Dch & Dmsg & Dseq & Dsize & Dans & He & Hl);
    try (unfold two31, two32 in *; lia); [exact Ht | | ].
  { intros ->. cbn in Hans. unfold two31, two32 in *. lia. }
  unfold build_frame. rewrite He. clear He. cbn [oibind obind].
  match type of Hl with zlen ?x <= _ => set (h := x) in * end.
  destruct (Z.leb_spec cap (zlen h)); [lia|].
  assert (Ht5 : zlen trailer = 5) by reflexivity.
  rewrite put_ok by lia. cbn [obind].
  rewrite put_ok by (rewrite zlen_app; lia). cbn [obind].
  rewrite put_ok by (rewrite !zlen_app; change (zlen [NULc]) with 1; lia). cbn [obind].
  eexists. split; [reflexivity|]. split.
  - exists h. split.
    + exists dch, dmsg, dseq, dsize, dans. cbn [f_channel f_msgno f_seqno f_size f_ansno f_type f_more].
      repeat (split; [assumption|]). split; [|reflexivity].
      destruct (ftype_eqb t TANS); [exact Dans|]. rewrite Hans. exact Dans.
    + cbn [f_payload]. rewrite <- app_assoc. reflexivity.
  - rewrite !zlen_app. lia.
Qed.

Lemma build_seq_wire cap ch ack win :
  0 <= ch < two32 -> 0 <= ack < two32 -> 0 <= win < two32 -> 50 <= cap ->
  exists w, build_seq cap ch ack win = Ok (Some w) /\ seq_wire ch ack win w.
Proof.
  intros Hch Hack Hwin Hcap.
  unfold build_seq, build_header. cbn [ftype_eqb].
  set (b0 := keyword TSEQ ++ [SP]).
  assert (Hb0 : zlen b0 = 4) by reflexivity.
  rewrite putc_ok by (rewrite zlen_nil; lia). cbn [oibind obind].
  change ([] ++ b0) with b0.
  destruct (step_put_int cap b0 ch 4 Hch ltac:(lia) ltac:(lia)) as (dch & Dch & Lch & E & L1).
  rewrite E; clear E; cbn [oibind obind].
  stepc 14 1.
  destruct (step_put_int cap ((b0 ++ dch) ++ [SP]) ack 15 Hack ltac:(lia) ltac:(lia))
    as (dack & Dack & Lack & E & L2).
  rewrite E; clear E; cbn [oibind obind].
  stepc 25 1.
  match goal with |- context[put_int cap ?b win] =>
    destruct (step_put_int cap b win 26 Hwin ltac:(lia) ltac:(lia)) as (dwin & Dwin & Lwin & E & L3)
  end.
  rewrite E; clear E; cbn [oibind obind].
  stepc 36 2.
  rewrite put_ok by (change (zlen [NULc]) with 1; lia). cbn [obind].
  eexists. split; [reflexivity|].
  exists dch, dack, dwin. repeat (split; [assumption|]).
  unfold b0. repeat rewrite <- app_assoc. cbn [app]. reflexivity.
Qed.

(** ** Header parser on well formed lines *)

Lemma isdig_is_digit d : isdig d -> is_digit d = true /\ is_sep d = false.
Proof.
  unfold isdig, is_digit, is_sep, SP, LF, CR. intros H. lia.
Qed.

Lemma scan_digits ds c rest : Forall isdig ds -> is_sep c = true ->
  scan (ds ++ c :: rest) = Ok (Some (ds, rest)).
Proof.
  intros Hd Hc. induction Hd as [|d ds Hd _ IH]; cbn [app scan].
  - rewrite Hc. reflexivity.
  - destruct (isdig_is_digit d Hd) as [E1 E2]. rewrite E1, E2, IH. reflexivity.
Qed.

Lemma get_int_dec v ds c rest : decimal v ds -> 0 <= v < two31 -> is_sep c = true ->
  get_int (ds ++ c :: rest) = Ok (v, rest, false).
Proof.
  intros (_ & Hd & Hv & _) Hr Hc. unfold get_int. rewrite scan_digits by assumption.
  cbn [obind]. unfold strtol_int. change (digits_value ds) with (fold_left (fun acc d => 10 * acc + (d - 48)) ds 0).
  rewrite <- Hv. rewrite Z.min_l by (unfold two31, two63 in *; lia).
  rewrite s32_id by lia. reflexivity.
Qed.

Lemma get_uint_dec v ds c rest : decimal v ds -> 0 <= v < two32 -> is_sep c = true ->
  get_uint (ds ++ c :: rest) = Ok (v, rest, false).
Proof.
  intros (_ & Hd & Hv & _) Hr Hc. unfold get_uint. rewrite scan_digits by assumption.
  cbn [obind]. unfold strtoul_uint. change (digits_value ds) with (fold_left (fun acc d => 10 * acc + (d - 48)) ds 0).
  rewrite <- Hv. rewrite Z.min_l by (unfold two32, two64 in *; lia).
  rewrite u32_id by lia. reflexivity.
Qed.

Lemma check_int_none v rest : 0 <= v -> 2 <= zlen rest -> check_int v rest = None.
Proof.
  intros Hv Hr. unfold check_int, check_index.
  destruct (Z.eqb_spec v (-1)); [lia|]. destruct (Z.eqb_spec v (-2)); [lia|].
  destruct (Z.leb_spec (zlen rest) 1); [lia|]. reflexivity.
Qed.

Lemma check_uint_none v rest : 0 <= v < two32 - 2 -> 2 <= zlen rest -> check_uint v rest = None.
Proof.
  intros Hv Hr. unfold check_uint, check_index.
  destruct (Z.eqb_spec v (two32 - 1)); [lia|]. destruct (Z.eqb_spec v (two32 - 2)); [lia|].
  destruct (Z.leb_spec (zlen rest) 1); [lia|]. reflexivity.
Qed.

Lemma decimal_len v ds : decimal v ds -> 1 <= zlen ds.
Proof. intros (H & _). destruct ds; [congruence|]. rewrite zlen_cons. pose proof (zlen_nonneg ds). lia. Qed.

Ltac zl := repeat rewrite ?zlen_app, ?zlen_cons, ?zlen_nil.

Lemma header_data_ok t ch msg mc seqno size ans dch dmsg dseq dsize dans :
  t <> TSEQ ->
  decimal ch dch -> decimal msg dmsg -> decimal seqno dseq -> decimal size dsize -> decimal ans dans ->
  0 <= ch < two31 -> 0 <= msg < two31 -> 0 <= seqno < two32 -> 0 <= size < two31 ->
  (if ftype_eqb t TANS then 0 <= ans < two31 else ans = 0) ->
  exists code, 5 <= code /\
  get_header_data t (dch ++ 32 :: dmsg ++ 32 :: mc :: 32 :: dseq ++ 32 :: dsize
             ++ (if ftype_eqb t TANS then 32 :: dans else []) ++ [13; 10])
  = Ok (mkH code ch msg mc seqno size ans false).
Proof.
  intros Ht Dch Dmsg Dseq Dsize Dans Hch Hmsg Hseq Hsize Hans.
  pose proof (decimal_len _ _ Dch). pose proof (decimal_len _ _ Dmsg).
  pose proof (decimal_len _ _ Dseq). pose proof (decimal_len _ _ Dsize).
  pose proof (decimal_len _ _ Dans).
  set (tail := (if ftype_eqb t TANS then 32 :: dans else []) ++ [13; 10]).
  assert (Htail : 2 <= zlen tail).
  { unfold tail. zl. pose proof (zlen_nonneg (if ftype_eqb t TANS then 32 :: dans else [])). lia. }
  unfold get_header_data.
  match goal with |- context[zlen ?x =? 0] => set (hdr := x) end.
  assert (Hhl : 10 <= zlen hdr).
  { unfold hdr. zl. lia. }
  destruct (Z.eqb_spec (zlen hdr) 0); [lia|].
  set (hl := zlen hdr) in *.
  assert (Hs : hdr ++ [NULc] =
     dch ++ 32 :: dmsg ++ 32 :: mc :: 32 :: dseq ++ 32 :: dsize ++ tail ++ [0]).
  { unfold hdr. repeat (rewrite <- app_assoc; cbn [app]). reflexivity. }
  rewrite Hs. clear Hs.
  rewrite (get_int_dec ch) by (try assumption; reflexivity). cbn [obind].
  rewrite check_int_none by (zl; lia).
  assert (Hnt : forall (A : Type) (x y : A), match t with TSEQ => x | _ => y end = y).
  { intros; destruct t; try reflexivity; congruence. }
  rewrite Hnt. clear Hnt.
  rewrite (get_int_dec msg) by (try assumption; reflexivity). cbn [obind].
  rewrite check_int_none by (zl; lia). cbn [hd].
  rewrite (get_uint_dec seqno) by (try assumption; reflexivity). cbn [obind].
  unfold tail. destruct (ftype_eqb t TANS) eqn:Et.
  - cbn [app]. rewrite (get_int_dec size) by (try assumption; reflexivity). cbn [obind].
    rewrite <- app_assoc. cbn [app].
    rewrite (get_int_dec ans) by (try assumption; reflexivity). cbn [obind orb].
    eexists. split; [|reflexivity]. zl. lia.
  - cbn [app]. rewrite (get_int_dec size) by (try assumption; reflexivity). cbn [obind orb].
    rewrite Hans. eexists. split; [|reflexivity]. zl. lia.
Qed.

Lemma seq_data_ok ch ack win dch dack dwin :
  decimal ch dch -> decimal ack dack -> decimal win dwin ->
  0 <= ch < two31 -> 0 <= ack < two32 - 2 -> 0 <= win < two31 ->
  exists code, code <> -2 /\
  get_header_data TSEQ (dch ++ 32 :: dack ++ 32 :: dwin ++ [13; 10])
  = Ok (mkH code ch 0 0 ack win 0 false).
Proof.
  intros Dch Dack Dwin Hch Hack Hwin.
  pose proof (decimal_len _ _ Dch). pose proof (decimal_len _ _ Dack).
  pose proof (decimal_len _ _ Dwin).
  unfold get_header_data.
  match goal with |- context[zlen ?x =? 0] => set (hdr := x) end.
  assert (Hhl : 7 <= zlen hdr).
  { unfold hdr. zl. lia. }
  destruct (Z.eqb_spec (zlen hdr) 0); [lia|].
  set (hl := zlen hdr) in *.
  assert (Hs : hdr ++ [NULc] = dch ++ 32 :: dack ++ 32 :: dwin ++ 13 :: [10; 0]).
  { unfold hdr. repeat (rewrite <- app_assoc; cbn [app]). reflexivity. }
  rewrite Hs. clear Hs.
  rewrite (get_int_dec ch) by (try assumption; reflexivity). cbn [obind].
  rewrite check_int_none by (zl; lia).
  rewrite (get_uint_dec ack) by (try assumption; try reflexivity; unfold two32 in *; lia). cbn [obind].
  rewrite check_uint_none by (zl; lia).
  rewrite (get_int_dec win) by (try assumption; reflexivity). cbn [obind].
  rewrite check_int_none by (try (zl; lia); lia).
  eexists. split; [|reflexivity]. zl. lia.
Qed.

(** ** Line decision on well formed lines *)

Lemma type_of_line_kw t rest : type_of_line (kw t ++ rest) = Some t.
Proof. destruct t; reflexivity. Qed.

Lemma skipn4_kw t (x : Z) rest : skipn 4 (kw t ++ x :: rest) = rest.
Proof. destruct t; reflexivity. Qed.

Lemma line_at_end a : line_at (a ++ [13; 10]) (zlen (a ++ [13; 10]) - 1) = 10 /\
                      line_at (a ++ [13; 10]) (zlen (a ++ [13; 10]) - 2) = 13.
Proof.
  unfold line_at. rewrite <- app_assoc. zl.
  split; rewrite app_nth2 by (unfold zlen; lia); unfold zlen.
  - replace (Z.to_nat _ - length a)%nat with 1%nat by lia. reflexivity.
  - replace (Z.to_nat _ - length a)%nat with 0%nat by lia. reflexivity.
Qed.

Lemma check_incoming_ok consumed window seqno size :
  0 <= consumed < two32 -> 0 <= window < two32 -> 0 <= seqno < two32 -> 0 <= size < two31 ->
  check_incoming_seqno (consumed, window) seqno size = true <->
  (if consumed <=? seqno then (seqno - consumed + size) mod two32 <= window
   else (seqno - consumed) mod two32 + size <= window).
Proof.
  intros Hc Hw Hs Hz. unfold check_incoming_seqno, u32.
  destruct (Z.leb_spec consumed seqno).
  - rewrite Z.leb_le. reflexivity.
  - rewrite Z.leb_le. unfold two32 in *. lia.
Qed.

Lemma header_line_shape f line : header_line f line -> f_type f <> TSEQ ->
  exists a, line = a ++ [13; 10] /\ 3 <= zlen a.
Proof.
  intros (dch & dmsg & dseq & dsize & dans & Dch & Dmsg & Dseq & Dsize & Dans & ->) Ht.
  eexists. split.
  - rewrite !app_assoc. reflexivity.
  - zl. pose proof (zlen_kw (f_type f)).
    change (keyword (f_type f)) with (kw (f_type f)) in *.
    repeat match goal with |- context[zlen ?x] => lazymatch goal with
      | H : 0 <= zlen x |- _ => fail | _ => pose proof (zlen_nonneg x) end end.
    lia.
Qed.

Lemma decide_data chans f line :
  data_frame f -> header_line f line -> receivable chans f ->
  decide_line chans (zlen line) line =
  Ok (DBody (mkFrame (f_type f) (f_channel f) (f_msgno f) (f_more f) (f_seqno f)
                     (f_size f) (f_ansno f) [])).
Proof.
  intros (Ht & Hch & Hmsg & Hseq & Hsz & Hszb & Hans) Hl (consumed & window & Hc & Hcr & Hwr & Hfit).
  destruct (header_line_shape f line Hl Ht) as (a & Ea & La).
  destruct Hl as (dch & dmsg & dseq & dsize & dans & Dch & Dmsg & Dseq & Dsize & Dans & El).
  unfold decide_line.
  destruct (line_at_end a) as [E1 E2]. rewrite <- Ea in E1, E2. rewrite E1, E2.
  assert (Hn1 : zlen line =? 1 = false).
  { rewrite Ea. zl. lia. }
  rewrite Hn1. cbn [orb negb Z.eqb Pos.eqb LF CR].
  rewrite El at 1. rewrite type_of_line_kw.
  assert (Hnn : 0 <= f_size f) by (rewrite Hsz; lia).
  destruct (header_data_ok (f_type f) (f_channel f) (f_msgno f) (if f_more f then 42 else 46)
              (f_seqno f) (f_size f) (f_ansno f) dch dmsg dseq dsize dans)
    as (code & Hcode & Hg); try assumption; try (unfold two31, two32; lia).
  rewrite El. cbn [app]. rewrite skipn4_kw. rewrite Hg. clear Hg.
  cbn [obind h_code h_shut h_channel h_more_char h_seqno h_size h_msgno h_ansno orb].
  destruct (Z.eqb_spec code (-2)); [lia|].
  destruct (Z.ltb_spec (f_channel f) 0); [lia|].
  rewrite Hc.
  assert (Hseqf : ftype_eqb (f_type f) TSEQ = false)
    by (destruct (f_type f); try reflexivity; congruence).
  rewrite Hseqf. destruct (Z.ltb_spec code 5); [lia|].
  assert (Hmore : negb ((if f_more f then 42 else 46) =? DOT)
                  && negb ((if f_more f then 42 else 46) =? STAR) = false).
  { destruct (f_more f); reflexivity. }
  rewrite Hmore.
  assert (Hwin : check_incoming_seqno (consumed, window) (f_seqno f) (f_size f) = true).
  { apply check_incoming_ok; try assumption; try (unfold two31; lia).
    specialize (Hfit Ht). unfold two32.
    destruct (Z.leb_spec consumed (f_seqno f)); lia. }
  rewrite Hwin. cbn [negb].
  assert (Hst : ((if f_more f then 42 else 46) =? STAR) = f_more f)
    by (destruct (f_more f); reflexivity).
  rewrite Hst. reflexivity.
Qed.

Lemma decide_seq chans ch ack win line :
  0 <= ch < two31 -> 0 <= ack < two32 - 2 -> 0 <= win < two31 ->
  seq_wire ch ack win line -> receivable chans (seq_frame ch ack win) ->
  decide_line chans (zlen line) line = Ok (DSeq (seq_frame ch ack win)).
Proof.
  intros Hch Hack Hwin (dch & dack & dwin & Dch & Dack & Dwin & El)
         (consumed & window & Hc & _).
  unfold decide_line.
  assert (Ea : exists a, line = a ++ [13; 10] /\ 3 <= zlen a).
  { eexists. split.
    - rewrite El, !app_assoc. reflexivity.
    - zl. pose proof (zlen_kw TSEQ) as Hk. change (keyword TSEQ) with (kw TSEQ) in Hk.
      pose proof (zlen_nonneg dch). pose proof (zlen_nonneg dack). pose proof (zlen_nonneg dwin). lia. }
  destruct Ea as (a & Ea & La).
  destruct (line_at_end a) as [E1 E2]. rewrite <- Ea in E1, E2. rewrite E1, E2.
  assert (Hn1 : zlen line =? 1 = false).
  { rewrite Ea. zl. lia. }
  rewrite Hn1. cbn [orb negb Z.eqb Pos.eqb LF CR].
  rewrite El at 1. rewrite type_of_line_kw.
  destruct (seq_data_ok ch ack win dch dack dwin) as (code & Hcode & Hg); try assumption.
  rewrite El. cbn [app]. rewrite skipn4_kw, Hg.
  cbn [obind h_code h_shut h_channel h_more_char h_seqno h_size h_msgno h_ansno orb].
  destruct (Z.eqb_spec code (-2)); [congruence|].
  destruct (Z.ltb_spec ch 0); [lia|].
  cbn [f_channel seq_frame] in Hc. rewrite Hc. reflexivity.
Qed.

(** ** Sockets *)

Definition recv_post (n : nat) (s : sock) (r : recv_res) (s' : sock) : Prop :=
  (alive s -> alive s') /\ (weight s' <= weight s)%nat /\ (never_again s -> never_again s') /\
  match r with
  | RData bs => bs <> [] /\ (length bs <= n)%nat /\ sdata s = bs ++ sdata s' /\ (weight s' < weight s)%nat
  | RAgain => sdata s' = sdata s /\ (s <> [] -> (weight s' < weight s)%nat) /\
              (never_again s -> s' = [] /\ sdata s = [])
  | REof => sdata s' = sdata s /\ ~ alive s
  | RErr => ~ alive s
  end.

Lemma recv_post_cons n e s r s' :
  (e = SIntr \/ e = SData []) -> recv_post n s r s' -> recv_post n (e :: s) r s'.
Proof.
  intros He (Ha & Hw & Hna & H).
  assert (Hd : sdata (e :: s) = sdata s) by (destruct He; subst; reflexivity).
  assert (Hw' : weight (e :: s) = S (weight s)) by (destruct He; subst; reflexivity).
  assert (Hal : alive (e :: s) -> alive s) by (intros A; inversion A; assumption).
  assert (Hne : never_again (e :: s) -> never_again s) by (intros A; inversion A; assumption).
  unfold recv_post. rewrite Hd, Hw'.
  split; [auto|]. split; [lia|]. split; [auto|].
  destruct r.
  - destruct H as (H1 & H2 & H3 & H4). repeat split; auto.
  - destruct H as (H1 & H2 & H3). split; [assumption|]. split; [intros; lia|]. auto.
  - destruct H as (H1 & H2). split; auto.
  - auto.
Qed.

Lemma recv_spec n s r s' : (0 < n)%nat -> recv n s = (r, s') -> recv_post n s r s'.
Proof.
  intros Hn. revert r s'. induction s as [|e s IH]; intros r s' H; cbn in H.
  - inversion H; subst; clear H. repeat split; auto; try congruence.
  - destruct e as [bs| | | |].
    + destruct bs as [|b bs].
      * apply recv_post_cons; auto.
      * remember (b :: bs) as bb eqn:Hbb. destruct (Nat.leb_spec (length bb) n).
        { inversion H; subst; clear H. split. { intros A. inversion A; subst; auto. }
          cbn [weight sdata length app]. split; [lia|].
          split. { intros A. inversion A; subst; auto. }
          repeat split; try discriminate; try lia; auto. }
        { inversion H; subst; clear H.
          pose proof (firstn_skipn n (b :: bs)) as Hfs.
          assert (length (skipn n (b :: bs)) = (length (b :: bs) - n)%nat) by apply skipn_length.
          unfold recv_post. cbn [weight sdata].
          split. { intros A. inversion A; subst. constructor; auto. }
          split; [lia|].
          split. { intros A. inversion A; subst. constructor; auto. }
          repeat split; try lia.
          - destruct n; [lia|]. cbn. discriminate.
          - rewrite firstn_length. lia.
          - rewrite app_assoc, Hfs. reflexivity. }
    + inversion H; subst; clear H. unfold recv_post. cbn [weight sdata].
      split. { intros A. inversion A; subst; auto. }
      split; [lia|]. split. { intros A. inversion A; subst; auto. }
      repeat split; try lia. all: inversion H; subst; contradiction.
    + apply recv_post_cons; auto.
    + inversion H; subst; clear H. repeat split; auto; try discriminate.
      intros A. inversion A; subst; contradiction.
    + inversion H; subst; clear H. unfold recv_post. cbn [weight].
      split. { intros A. inversion A; subst; auto. }
      split; [lia|]. split. { intros A. inversion A; subst; auto. }
      intros A. inversion A; subst; contradiction.
Qed.

Definition rl_post (room : nat) (buf : bytes) (s : sock) (r : rl_res) (s' : sock) : Prop :=
  (alive s -> alive s') /\ (never_again s -> never_again s') /\ (weight s' <= weight s)%nat /\
  match r with
  | RLine n line => exists d, sdata s = d ++ sdata s' /\ line = buf ++ d /\
      ((0 < room)%nat -> alive s -> (weight s' < weight s)%nat) /\
      ((n = zlen line /\ (length d <= room)%nat /\ exists d0, d = d0 ++ [10] /\ ~ In 10 d0) \/
       (n = zlen line + 1 /\ ~ In 10 d /\ (length d = room \/ ~ alive s)))
  | RLAgain p => exists d, sdata s = d ++ sdata s' /\ p = cstr (buf ++ d) /\
      ~ In 10 d /\ (length d < room)%nat /\ (s <> [] -> (weight s' < weight s)%nat) /\
      (never_again s -> s' = [])
  | RLEof | RLErr => ~ alive s
  end.

Lemma readline_loop_spec room : forall first buf s r s',
  readline_loop room first buf s = (r, s') -> rl_post room buf s r s'.
Proof.
  induction room as [|room IH]; intros first buf s r s' H; cbn [readline_loop] in H.
  - inversion H; subst; clear H. repeat split; auto.
    exists []. rewrite app_nil_r. repeat split; auto; try lia.
  - destruct (recv 1 s) as [r1 s1] eqn:E.
    apply recv_spec in E; [|lia]. destruct E as (Ha & Hw & Hna & Hr).
    destruct r1 as [bs| | |].
    + destruct Hr as (Hne & Hlen & Hdata & Hlt).
      destruct bs as [|c [|c2 bs]]; [congruence| |cbn in Hlen; lia].
      cbn [hd] in H. destruct (Z.eqb_spec c LF) as [Ec|Ec]; unfold LF in Ec.
      * inversion H; subst; clear H. repeat split; auto.
        exists [LF]. split; [exact Hdata|]. split; [reflexivity|]. split; [auto|].
        left. split. { zl. lia. }
        split; [cbn; lia|]. exists []. split; [reflexivity|]. intros [].
      * apply IH in H. destruct H as (Ha2 & Hna2 & Hw2 & H).
        split; [auto|]. split; [auto|]. split; [lia|].
        destruct r as [n line| |p|].
        -- destruct H as (d & Hd & Hline & Hwl & Hcase).
           exists (c :: d). split. { rewrite Hdata, Hd. reflexivity. }
           split. { rewrite Hline, <- app_assoc. reflexivity. }
           split. { intros. lia. }
           destruct Hcase as [(Hn & Hl & d0 & Hd0 & Hnot)|(Hn & Hnot & Hor)].
           ++ left. split; [exact Hn|]. split; [cbn; lia|].
              exists (c :: d0). split. { rewrite Hd0. reflexivity. }
              intros [Hx|Hx]; [congruence|auto].
           ++ right. split; [exact Hn|]. split. { intros [Hx|Hx]; [congruence|auto]. }
              destruct Hor as [Hor|Hor]; [left; cbn; lia|right; auto].
        -- auto.
        -- destruct H as (d & Hd & Hp & Hnot & Hl & Hwl & Hnn).
           exists (c :: d). split. { rewrite Hdata, Hd. reflexivity. }
           split. { rewrite Hp, <- app_assoc. reflexivity. }
           split. { intros [Hx|Hx]; [congruence|auto]. }
           split; [cbn; lia|]. split; [intros; lia|]. auto.
        -- auto.
    + inversion H; subst; clear H. destruct Hr as (Hd & Hlt & Hnn).
      split; [auto|]. split; [auto|]. split; [lia|].
      exists []. rewrite app_nil_r. cbn [app]. split; [auto|]. split; [reflexivity|].
      split; [intros []|]. split; [cbn; lia|]. split; [exact Hlt|].
      intros Hn. apply Hnn. exact Hn.
    + destruct Hr as (Hs1 & Hnal). destruct first.
      * inversion H; subst; clear H. repeat split; auto.
      * inversion H; subst; clear H. repeat split; auto.
        exists []. rewrite app_nil_r. cbn [app]. split; [auto|]. split; [reflexivity|].
        split; [intros; contradiction|]. right. repeat split; auto.
    + inversion H; subst; clear H. repeat split; auto.
Qed.

(** ** A stream of valid frames under any fragmentation *)

Lemma decimal_lower ds : Forall isdig ds -> hd 0 ds <> 48 -> ds <> [] ->
  10 ^ (zlen ds - 1) <= digits_value ds.
Proof.
  induction ds as [|d ds IH] using rev_ind; [congruence|].
  intros Hd Hh _. rewrite digits_value_snoc. zl.
  apply Forall_app in Hd. destruct Hd as [Hds Hd]. inversion Hd as [|? ? Hd1 _]; subst.
  destruct ds as [|x ds].
  - cbn in *. unfold isdig in Hd1. unfold digits_value. cbn. lia.
  - assert (IH' : 10 ^ (zlen (x :: ds) - 1) <= digits_value (x :: ds)).
    { apply IH; [assumption| exact Hh | discriminate]. }
    replace (zlen (x :: ds) + (1 + 0) - 1) with (Z.succ (zlen (x :: ds) - 1)) by lia.
    pose proof (zlen_nonneg ds).
    rewrite Z.pow_succ_r by (rewrite zlen_cons; lia).
    unfold isdig in Hd1. lia.
Qed.

Lemma decimal_short v ds : decimal v ds -> v < two32 -> zlen ds <= 10.
Proof.
  intros (Hne & Hd & Hv & Hz) Hlt.
  destruct (Z.eq_dec (hd 0 ds) 48) as [E|E].
  - rewrite (Hz E). cbn. lia.
  - pose proof (decimal_lower ds Hd E Hne) as H.
    change (fold_left (fun acc d => 10 * acc + (d - 48)) ds 0) with (digits_value ds) in Hv.
    rewrite <- Hv in H.
    destruct (Z.le_gt_cases (zlen ds) 10); [assumption|exfalso].
    assert (10 ^ 10 <= 10 ^ (zlen ds - 1)) by (apply Z.pow_le_mono_r; lia).
    unfold two32 in Hlt. cbn in *. lia.
Qed.

(** A frame split in its header line and the rest. *)
Definition framing (f : frame) (line body : bytes) : Prop :=
  (data_frame f /\ header_line f line /\ body = f_payload f ++ trailer) \/
  (exists ch ack win, 0 <= ch < two31 /\ 0 <= ack < two32 - 2 /\ 0 <= win < two31 /\
     f = seq_frame ch ack win /\ seq_wire ch ack win line /\ body = []).

Lemma wire_framing f w : wire f w -> exists line body, framing f line body /\ w = line ++ body.
Proof.
  intros [(Hf & line & Hl & ->)|(ch & ack & win & H1 & H2 & H3 & Hf & Hw)].
  - exists line, (f_payload f ++ trailer). split; [left; auto|reflexivity].
  - exists w, []. rewrite app_nil_r. split; [|reflexivity]. right. exists ch, ack, win.
    unfold two31, two32. repeat split; auto; lia.
Qed.

Definition plain (c : Z) : Prop := c <> 10 /\ c <> 0.

Lemma dig_plain ds : Forall isdig ds -> Forall plain ds.
Proof. apply Forall_impl. unfold isdig, plain. lia. Qed.
Lemma decimal_plain v ds : decimal v ds -> Forall plain ds.
Proof. intros (_ & H & _). apply dig_plain. exact H. Qed.
Lemma kw_plain t : Forall plain (kw t).
Proof. destruct t; repeat constructor; unfold plain; lia. Qed.
Lemma single_plain c : c <> 10 -> c <> 0 -> Forall plain [c].
Proof. intros. constructor; [split; assumption|constructor]. Qed.

Lemma framing_line f line body : framing f line body ->
  exists a, line = a ++ [10] /\ Forall plain a /\ 1 <= zlen a <= 61.
Proof.
  intros [(Hf & Hl & _)|(ch & ack & win & H1 & H2 & H3 & Hf & Hw & _)].
  - destruct Hf as (Ht & Hch & Hmsg & Hseq & Hsz & Hszb & Hans).
    destruct Hl as (dch & dmsg & dseq & dsize & dans & Dch & Dmsg & Dseq & Dsize & Dans & ->).
    exists (kw (f_type f) ++ [32] ++ dch ++ [32] ++ dmsg ++ [32]
             ++ [if f_more f then 42 else 46] ++ [32] ++ dseq ++ [32] ++ dsize
             ++ (if ftype_eqb (f_type f) TANS then 32 :: dans else []) ++ [13]).
    split. { repeat (rewrite <- app_assoc; cbn [app]). reflexivity. }
    assert (zlen dch <= 10) by (eapply decimal_short; [eassumption|unfold two32; lia]).
    assert (zlen dmsg <= 10) by (eapply decimal_short; [eassumption|unfold two32; lia]).
    assert (zlen dseq <= 10) by (eapply decimal_short; [eassumption|unfold two32; lia]).
    assert (zlen dsize <= 10) by (eapply decimal_short; [eassumption|unfold two32; lia]).
    assert (zlen dans <= 10).
    { eapply decimal_short; [eassumption|]. unfold two32.
      destruct (ftype_eqb (f_type f) TANS); lia. }
    split.
    + repeat (apply Forall_app; split);
        try (eapply decimal_plain; eassumption); try (apply kw_plain);
        try (apply single_plain; lia).
      * destruct (f_more f); apply single_plain; lia.
      * destruct (ftype_eqb (f_type f) TANS); [|constructor].
        constructor; [unfold plain; lia|eapply decimal_plain; eassumption].
    + pose proof (zlen_kw (f_type f)) as Hk. change (keyword (f_type f)) with (kw (f_type f)) in Hk.
      pose proof (zlen_nonneg dch). pose proof (zlen_nonneg dmsg).
      pose proof (zlen_nonneg dseq). pose proof (zlen_nonneg dsize). pose proof (zlen_nonneg dans).
      destruct (ftype_eqb (f_type f) TANS); zl; lia.
  - destruct Hw as (dch & dack & dwin & Dch & Dack & Dwin & ->).
    exists (kw TSEQ ++ [32] ++ dch ++ [32] ++ dack ++ [32] ++ dwin ++ [13]).
    split. { repeat (rewrite <- app_assoc; cbn [app]). reflexivity. }
    assert (zlen dch <= 10) by (eapply decimal_short; [eassumption|unfold two31, two32 in *; lia]).
    assert (zlen dack <= 10) by (eapply decimal_short; [eassumption|unfold two32 in *; lia]).
    assert (zlen dwin <= 10) by (eapply decimal_short; [eassumption|unfold two31, two32 in *; lia]).
    split.
    + repeat (apply Forall_app; split);
        try (eapply decimal_plain; eassumption); try (apply kw_plain);
        try (apply single_plain; lia).
    + pose proof (zlen_kw TSEQ) as Hk. change (keyword TSEQ) with (kw TSEQ) in Hk.
      pose proof (zlen_nonneg dch). pose proof (zlen_nonneg dack). pose proof (zlen_nonneg dwin).
      zl; lia.
Qed.

Lemma cstr_plain a : Forall plain a -> cstr a = a.
Proof.
  induction 1 as [|c a (_ & Hc) _ IH]; [reflexivity|]. cbn.
  destruct (Z.eqb_spec c 0); [congruence|]. rewrite IH. reflexivity.
Qed.

Lemma plain_no_lf a : Forall plain a -> ~ In 10 a.
Proof. intros H Hin. rewrite Forall_forall in H. destruct (H _ Hin). congruence. Qed.

(** Splitting equal concatenations. *)
Lemma app_split_le {A} (a b c d : list A) : a ++ b = c ++ d -> (length a <= length c)%nat ->
  exists m, c = a ++ m /\ b = m ++ d.
Proof.
  revert c; induction a as [|x a IH]; intros c H Hl.
  - exists c. auto.
  - destruct c as [|y c]; [cbn in Hl; lia|]. cbn in H. inversion H; subst.
    destruct (IH c) as (m & -> & ->); [assumption|cbn in Hl; lia|]. exists m. auto.
Qed.

(** Cutting at the first line feed. *)
Lemma first_lf (a b r1 r2 : bytes) : ~ In 10 a -> ~ In 10 b ->
  a ++ 10 :: r1 = b ++ 10 :: r2 -> a = b /\ r1 = r2.
Proof.
  revert b; induction a as [|x a IH]; intros [|y b] Ha Hb H; cbn in *.
  - inversion H; auto.
  - inversion H; subst. exfalso. auto.
  - inversion H; subst. exfalso. auto.
  - inversion H; subst. destruct (IH b) as [-> ->]; auto.
Qed.

Definition head_of (f : frame) : frame :=
  mkFrame (f_type f) (f_channel f) (f_msgno f) (f_more f) (f_seqno f) (f_size f) (f_ansno f) [].

(** Frames still to be read, each with its line and body. *)
Definition todo := list (frame * (bytes * bytes)).
Fixpoint flat (fr : todo) : bytes :=
  match fr with [] => [] | (_, (l, b)) :: fr' => l ++ b ++ flat fr' end.
Definition frames_ok (fr : todo) : Prop :=
  Forall (fun x => framing (fst x) (fst (snd x)) (snd (snd x))) fr.

Definition inv (c : rconn) (s : sock) (fr : todo) : Prop :=
  r_down c = None /\ alive s /\ frames_ok fr /\
  match r_partial c with
  | None =>
    r_pending c ++ sdata s = flat fr /\
    match fr with
    | [] => r_pending c = []
    | (_, (l, _)) :: _ => (length (r_pending c) < length l)%nat
    end
  | Some (f0, got) =>
    r_pending c = [] /\
    exists f l b fr', fr = (f, (l, b)) :: fr' /\ data_frame f /\ f0 = head_of f /\
      b = f_payload f ++ trailer /\
      got ++ sdata s = b ++ flat fr' /\ (length got < length b)%nat
  end.

Definition frag_error (w : why) : Prop := w = WTooManyAgain \/ w = WClosedPartial.

Definition data_first (s : sock) : Prop :=
  match s with SData (_ :: _) :: _ => True | _ => False end.

Lemma data_first_recv n s r s' : data_first s -> recv n s = (r, s') -> exists bs, r = RData bs.
Proof.
  destruct s as [|[[|b bs]| | | |] s]; cbn; try contradiction. intros _ H.
  destruct n; cbn in H; [inversion H; eauto|].
  destruct (Nat.leb (length bs) n); inversion H; eauto.
Qed.

Definition step_post (c : rconn) (s : sock) (fr : todo) (c' : rconn) (s' : sock) (o : option frame) : Prop :=
  (weight s' < weight s)%nat /\ (never_again s -> never_again s') /\
  ( (o = None /\ inv c' s' fr /\
       (never_again s -> s' = [] \/ r_nodata c' = r_nodata c \/ r_nodata c' = 0)) \/
    (exists f lb fr', fr = (f, lb) :: fr' /\ o = Some f /\ inv c' s' fr' /\
       (r_nodata c' = 0 \/ r_nodata c' = r_nodata c)) \/
    (o = None /\ (exists w, r_down c' = Some w /\ frag_error w /\
                    (w = WTooManyAgain -> 25 <= r_nodata c) /\
                    (w = WClosedPartial -> ~ data_first s)) /\
       (never_again s -> 25 <= r_nodata c)) ).

Lemma rebuild_frame f : data_frame f ->
  mkFrame (f_type f) (f_channel f) (f_msgno f) (f_more f) (f_seqno f) (f_size f) (f_ansno f) (f_payload f) = f.
Proof. destruct f; reflexivity. Qed.

Lemma process_buffer_ok c s f : data_frame f ->
  process_buffer c s (head_of f) (f_payload f ++ trailer) = Ok (c, s, Some f).
Proof.
  intros Hf. pose proof Hf as (_ & _ & _ & _ & Hsz & _).
  unfold process_buffer. cbn [head_of f_size f_type f_channel f_msgno f_more f_seqno f_ansno].
  destruct (Z.ltb_spec (f_size f) 0); [lia|].
  assert (E : Z.to_nat (f_size f) = (length (f_payload f) + 0)%nat) by lia.
  rewrite E. rewrite skipn_app, firstn_app_2.
  rewrite skipn_all2 by lia.
  replace (length (f_payload f) + 0 - length (f_payload f))%nat with 0%nat by lia.
  cbn [skipn app firstn]. rewrite bytes_eqb_refl, app_nil_r.
  rewrite rebuild_frame by exact Hf. reflexivity.
Qed.

Lemma body_len f : data_frame f -> zlen (f_payload f ++ trailer) = f_size f + 5.
Proof. intros (_ & _ & _ & _ & Hsz & _). zl. change (zlen trailer) with 5. unfold zlen. lia. Qed.

Lemma frames_tail x fr : frames_ok (x :: fr) -> frames_ok fr.
Proof. intros H. inversion H; assumption. Qed.

(** State between two frames. *)
Lemma inv_boundary d n s fr : d = None -> alive s -> frames_ok fr -> sdata s = flat fr ->
  inv (mkR d [] None n) s fr.
Proof.
  intros Hd Ha Hf Hs. unfold inv. cbn [r_down r_partial r_pending app].
  repeat (split; [assumption|]).
  destruct fr as [|(f, (l, b)) fr']; [reflexivity|].
  inversion Hf as [|x xs Hx _]; subst. cbn in Hx.
  destruct (framing_line _ _ _ Hx) as (a & -> & _ & Hl). rewrite app_length. cbn. lia.
Qed.

Lemma body_step c s f l got fr' :
  r_down c = None -> r_pending c = [] -> alive s ->
  frames_ok ((f, (l, f_payload f ++ trailer)) :: fr') -> data_frame f ->
  got ++ sdata s = (f_payload f ++ trailer) ++ flat fr' ->
  (length got < length (f_payload f ++ trailer))%nat ->
  forall r s', recv (Z.to_nat (f_size f + 5 - zlen got)) s = (r, s') ->
  match r with
  | RData bs =>
    if zlen bs =? f_size f + 5 - zlen got
    then got ++ bs = f_payload f ++ trailer /\ sdata s' = flat fr'
    else inv (mkR (r_down c) (r_pending c) (Some (head_of f, got ++ bs)) (r_nodata c)) s'
             ((f, (l, f_payload f ++ trailer)) :: fr')
  | RAgain => sdata s' = sdata s /\ ~ never_again s
  | _ => False
  end.
Proof.
  intros Hd Hp Ha Hfo Hf Heq Hlt r s' Hr.
  pose proof (body_len f Hf) as Hbl.
  assert (Hgl : zlen got < f_size f + 5) by (rewrite <- Hbl; unfold zlen; lia).
  apply recv_spec in Hr; [|unfold zlen in *; lia].
  destruct Hr as (Ha' & Hw & Hna & Hr).
  destruct r as [bs| | |].
  - destruct Hr as (Hne & Hbs & Hsd & Hwlt).
    assert (Hbs' : zlen bs <= f_size f + 5 - zlen got) by (unfold zlen in *; lia).
    rewrite Hsd, app_assoc in Heq.
    destruct (Z.eqb_spec (zlen bs) (f_size f + 5 - zlen got)) as [E|E].
    + destruct (app_split_le (got ++ bs) (sdata s') (f_payload f ++ trailer) (flat fr') Heq)
        as (m & Hm1 & Hm2).
      { apply Nat2Z.inj_le. change (zlen (got ++ bs) <= zlen (f_payload f ++ trailer)).
        rewrite Hbl. zl. lia. }
      assert (m = []).
      { apply (f_equal zlen) in Hm1. rewrite Hbl in Hm1. revert Hm1. zl. intros Hm1.
        destruct m; [reflexivity|]. rewrite zlen_cons in Hm1. pose proof (zlen_nonneg m). lia. }
      subst m. rewrite app_nil_r in Hm1. cbn in Hm2. auto.
    + unfold inv. cbn [r_down r_partial r_pending].
      split; [exact Hd|]. split; [auto|]. split; [exact Hfo|]. split; [exact Hp|].
      exists f, l, (f_payload f ++ trailer), fr'.
      repeat (split; [solve[auto]|]).
      apply Nat2Z.inj_lt. change (zlen (got ++ bs) < zlen (f_payload f ++ trailer)).
      rewrite Hbl. zl. lia.
  - destruct Hr as (Hsd & _ & Hnn). split; [exact Hsd|].
    intros Hn. destruct (Hnn Hn) as [_ Hs0]. rewrite Hs0 in Heq. rewrite app_nil_r in Heq.
    apply (f_equal (@length Z)) in Heq. rewrite app_length in Heq. lia.
  - destruct Hr. auto.
  - auto.
Qed.

Lemma first_body_step c s f l fr' :
  r_down c = None -> r_pending c = [] -> r_partial c = None -> alive s ->
  frames_ok ((f, (l, f_payload f ++ trailer)) :: fr') -> data_frame f ->
  sdata s = (f_payload f ++ trailer) ++ flat fr' ->
  exists c' s' o, first_body c s (head_of f) = Ok (c', s', o) /\
    (weight s' <= weight s)%nat /\ (never_again s -> never_again s') /\ r_nodata c' = r_nodata c /\
    ((o = None /\ inv c' s' ((f, (l, f_payload f ++ trailer)) :: fr')) \/
     (o = Some f /\ inv c' s' fr')).
Proof.
  intros Hd Hp Hpart Ha Hfo Hf Heq.
  pose proof Hf as (_ & _ & _ & _ & Hsz & Hszb & _).
  unfold first_body. change (f_size (head_of f)) with (f_size f).
  destruct (Z.leb_spec two31 (f_size f + 6)); [unfold two31 in *; lia|].
  destruct (Z.ltb_spec (f_size f + 6) 0); [lia|].
  destruct (Z.ltb_spec (f_size f + 5) 0); [lia|].
  destruct (Z.eqb_spec (f_size f + 5) 0); [lia|].
  destruct (recv (Z.to_nat (f_size f + 5)) s) as [r s'] eqn:Er.
  pose proof (body_step c s f l [] fr' Hd Hp Ha Hfo Hf Heq) as Hstep.
  rewrite zlen_nil, Z.sub_0_r in Hstep.
  assert (Hl0 : (length (@nil Z) < length (f_payload f ++ trailer))%nat).
  { apply Nat2Z.inj_lt. change (zlen (@nil Z) < zlen (f_payload f ++ trailer)).
    rewrite (body_len f Hf), zlen_nil. lia. }
  specialize (Hstep Hl0 r s' Er).
  apply recv_spec in Er; [|lia]. destruct Er as (Ha' & Hw & Hna & Er).
  destruct r as [bs| | |]; try contradiction.
  - cbn [app] in Hstep. destruct (zlen bs =? f_size f + 5).
    + destruct Hstep as [-> Hsd]. rewrite process_buffer_ok by exact Hf.
      eexists _, _, _. split; [reflexivity|]. repeat (split; [solve[auto]|]).
      right. split; [reflexivity|].
      destruct c as [d p pa n0]. cbn in *. subst.
      apply inv_boundary; auto. eapply frames_tail; eassumption.
    + eexists _, _, _. split; [reflexivity|]. repeat (split; [solve[auto]|]). left. auto.
  - destruct Hstep as (Hsd & _). eexists _, _, _. split; [reflexivity|].
    repeat (split; [solve[auto]|]). left. split; [reflexivity|].
    unfold inv. cbn [r_down r_partial r_pending].
    split; [exact Hd|]. split; [auto|]. split; [exact Hfo|]. split; [exact Hp|].
    exists f, l, (f_payload f ++ trailer), fr'. repeat (split; [solve[auto]|]).
    split; [|exact Hl0]. cbn [app]. rewrite Hsd. exact Heq.
Qed.

Lemma get_next_step chans c s fr :
  inv c s fr -> s <> [] ->
  (match fr with [] => True | (f, _) :: _ => r_partial c = None -> receivable chans f end) ->
  exists c' s' o, get_next chans c s = Ok (c', s', o) /\ step_post c s fr c' s' o.
Proof.
  intros (Hd & Ha & Hfo & Hst) Hs Hrecv.
  unfold get_next. rewrite Hd.
  destruct (r_partial c) as [(f0, got)|] eqn:Epart.
  - (* rest of a body *)
    destruct Hst as (Hp & f & l & b & fr' & -> & Hf & -> & -> & Heq & Hlt).
    unfold continue_body. change (f_size (head_of f)) with (f_size f).
    pose proof (body_len f Hf) as Hbl.
    assert (Hgl : zlen got < f_size f + 5) by (rewrite <- Hbl; unfold zlen; lia).
    destruct (Z.leb_spec (f_size f + 5 - zlen got) 0); [lia|].
    destruct (recv (Z.to_nat (f_size f + 5 - zlen got)) s) as [r s'] eqn:Er.
    pose proof (body_step c s f l got fr' Hd Hp Ha Hfo Hf Heq Hlt r s' Er) as Hstep.
    pose proof Er as Er0. apply recv_spec in Er; [|lia]. destruct Er as (Ha' & Hw & Hna & Er).
    destruct r as [bs| | |]; try contradiction.
    + destruct Er as (_ & _ & _ & Hwlt).
      destruct (zlen bs =? f_size f + 5 - zlen got).
      * destruct Hstep as [-> Hsd]. rewrite process_buffer_ok by exact Hf.
        eexists _, _, _. split; [reflexivity|]. split; [exact Hwlt|]. split; [auto|].
        right; left. exists f, (l, f_payload f ++ trailer), fr'. repeat (split; [reflexivity|]).
        cbn [r_nodata]. split; [|auto]. rewrite Hp. apply inv_boundary; auto.
        eapply frames_tail; eassumption.
      * eexists _, _, _. split; [reflexivity|]. split; [exact Hwlt|]. split; [auto|].
        left. split; [reflexivity|]. split; [exact Hstep|]. cbn [r_nodata]. auto.
    + destruct Hstep as (Hsd & Hnn). destruct Er as (_ & Hwlt & _).
      eexists _, _, _. split; [reflexivity|]. split; [auto|]. split; [auto|].
      right; right. split; [reflexivity|]. split; [|intros; contradiction].
      exists WClosedPartial. unfold shutdown. cbn [r_down]. rewrite Hd. cbn.
      split; [reflexivity|]. split; [right; reflexivity|]. split; [discriminate|].
      intros _ Hdf. destruct (data_first_recv _ _ _ _ Hdf Er0). discriminate.
  - (* header *)
    destruct Hst as (Heq & Hlen).
    destruct (readline c s) as [r s'] eqn:Er.
    unfold readline in Er.
    assert (Hpl : zlen (r_pending c) <= 61).
    { destruct fr as [|(f, (l, b)) fr'].
      - rewrite Hlen. cbn. lia.
      - inversion Hfo as [|x xs Hx _]; subst. cbn in Hx.
        destruct (framing_line _ _ _ Hx) as (a & -> & _ & Hal).
        rewrite app_length in Hlen. cbn in Hlen. unfold zlen in *. lia. }
    unfold maxline in Er.
    destruct (Z.leb_spec 99 (zlen (r_pending c))); [lia|].
    apply readline_loop_spec in Er.
    set (room := Z.to_nat (99 - zlen (r_pending c) - 1)) in *.
    assert (Hroom : Z.of_nat room = 98 - zlen (r_pending c)) by (unfold room; lia).
    destruct Er as (Ha' & Hna & Hw & Er).
    destruct r as [n line| |p|]; try contradiction.
    + destruct Er as (d & Hsd & Hline & Hwlt & Hcase).
      assert (Hwl : (weight s' < weight s)%nat) by (apply Hwlt; [lia|assumption]).
      destruct fr as [|(f, (l, b)) fr'].
      { (* no more frames, but a line was read: impossible *)
        exfalso. cbn in Heq. apply app_eq_nil in Heq. destruct Heq as [Hp0 Hs0].
        rewrite Hs0 in Hsd. symmetry in Hsd. apply app_eq_nil in Hsd. destruct Hsd as [-> _].
        destruct Hcase as [(_ & _ & d0 & Hd0 & _)|(_ & _ & [Hl|Hl])].
        - destruct d0; discriminate.
        - cbn in Hl. rewrite Hp0 in Hroom. cbn in Hroom. lia.
        - auto. }
      inversion Hfo as [|x xs Hx Hfo']; subst x xs. cbn in Hx.
      destruct (framing_line _ _ _ Hx) as (a & El & Hpa & Hal).
      cbn [flat] in Heq. rewrite Hsd, app_assoc, <- Hline in Heq.
      rewrite El in Heq, Hlen. rewrite app_length in Hlen. cbn in Hlen.
      assert (Hpre : exists m, a = r_pending c ++ m).
      { rewrite Hline in Heq. repeat rewrite <- app_assoc in Heq.
        destruct (app_split_le (r_pending c) (d ++ sdata s') a ([10] ++ b ++ flat fr') Heq)
          as (m & Hm & _); [lia|]. exists m; exact Hm. }
      destruct Hpre as (m & Hm).
      destruct Hcase as [(Hn & Hl & d0 & Hd0 & Hnot)|(Hn & Hnot & Hor)].
      * (* complete line *)
        assert (Hboth : r_pending c ++ d0 = a /\ sdata s' = b ++ flat fr').
        { apply first_lf.
          - intros Hin. apply in_app_or in Hin. destruct Hin as [Hin|Hin]; [|auto].
            apply (plain_no_lf a Hpa). rewrite Hm. apply in_or_app. left; exact Hin.
          - apply plain_no_lf; exact Hpa.
          - rewrite Hline, Hd0 in Heq. repeat rewrite <- app_assoc in Heq. cbn in Heq.
            rewrite <- app_assoc. exact Heq. }
        destruct Hboth as [Ha0 Hrest].
        assert (Hll : line = l).
        { rewrite Hline, Hd0, app_assoc, Ha0, El. reflexivity. }
        unfold process_line. rewrite Hn, Hll.
        destruct Hx as [(Hf & Hhl & Hb)|(ch & ack & win & H1 & H2 & H3 & Hf & Hsw & Hb)].
        -- rewrite (decide_data chans f l Hf Hhl (Hrecv eq_refl)). cbn [obind].
           change (mkFrame (f_type f) (f_channel f) (f_msgno f) (f_more f) (f_seqno f) (f_size f) (f_ansno f) [])
             with (head_of f).
           subst b.
           destruct (first_body_step (mkR None [] None 0) s' f l fr') as
             (c' & s2 & o & He & Hw2 & Hna2 & Hnd & Hcase2); auto.
           rewrite He. exists c', s2, o. split; [reflexivity|].
           split; [lia|]. split; [auto|].
           destruct Hcase2 as [(Ho & Hi)|(Ho & Hi)].
           ++ left. split; [exact Ho|]. split; [exact Hi|]. rewrite Hnd. cbn. auto.
           ++ right; left. eexists _, _, _. split; [reflexivity|]. split; [exact Ho|].
              split; [exact Hi|]. rewrite Hnd. cbn. auto.
        -- pose proof (Hrecv eq_refl) as Hrc. rewrite Hf in Hrc.
           rewrite (decide_seq chans ch ack win l H1 H2 H3 Hsw Hrc). cbn [obind].
           eexists _, _, _. split; [reflexivity|]. split; [lia|]. split; [auto|].
           right; left. eexists _, _, _. split; [reflexivity|]. split; [rewrite Hf; reflexivity|].
           cbn [r_nodata]. split; [|auto].
           apply inv_boundary; auto. subst b. exact Hrest.
      * (* the line cannot be too long *)
        exfalso.
        assert (Hd98 : (length d = room)%nat) by (destruct Hor; [assumption|contradiction]).
        rewrite Hline, <- app_assoc in Heq.
        assert (Hle : (length (a ++ [10%Z]) <= length (r_pending c ++ d))%nat).
        { rewrite !app_length. cbn. unfold zlen in *. lia. }
        rewrite app_assoc in Heq. symmetry in Heq.
        destruct (app_split_le _ _ _ _ Heq Hle) as (m2 & Hm2 & _).
        assert (Hin : In 10 (r_pending c ++ d)).
        { rewrite Hm2. apply in_or_app. left. apply in_or_app. right. left; reflexivity. }
        apply in_app_or in Hin. destruct Hin as [Hin|Hin]; [|auto].
        apply (plain_no_lf a Hpa). rewrite Hm. apply in_or_app. left; exact Hin.
    + (* EAGAIN *)
      destruct Er as (d & Hsd & Hp & Hnot & Hdl & Hwlt & Hnn).
      specialize (Hwlt Hs).
      assert (Hpd : r_pending c ++ d = p /\
                match fr with [] => p = [] | (_, (l, _)) :: _ => (length p < length l)%nat end).
      { destruct fr as [|(f, (l, b)) fr'].
        - cbn in Heq. apply app_eq_nil in Heq. destruct Heq as [Hp0 Hs0].
          rewrite Hs0 in Hsd. symmetry in Hsd. apply app_eq_nil in Hsd. destruct Hsd as [-> _].
          rewrite Hp0 in Hp |- *. cbn in Hp. subst p. split; reflexivity.
        - inversion Hfo as [|x xs Hx Hfo']; subst x xs. cbn in Hx.
          destruct (framing_line _ _ _ Hx) as (a & El & Hpa & Hal).
          cbn [flat] in Heq. rewrite Hsd, app_assoc in Heq. rewrite El in Heq, Hlen |- *.
          rewrite app_length in Hlen |- *. cbn in Hlen |- *.
          assert (Hlt : (length (r_pending c ++ d) <= length a)%nat).
          { destruct (Nat.le_gt_cases (length (r_pending c ++ d)) (length a)); [assumption|exfalso].
            assert (Hle : (length (a ++ [10%Z]) <= length (r_pending c ++ d))%nat)
              by (rewrite (app_length a); cbn; lia).
            symmetry in Heq. destruct (app_split_le _ _ _ _ Heq Hle) as (m2 & Hm2 & _).
            assert (Hin : In 10 (r_pending c ++ d)).
            { rewrite Hm2. apply in_or_app. left. apply in_or_app. right. left; reflexivity. }
            apply in_app_or in Hin. destruct Hin as [Hin|Hin]; [|auto].
            assert (Heq' : r_pending c ++ (d ++ sdata s') = a ++ ([10] ++ b ++ flat fr'))
              by (symmetry; repeat rewrite <- app_assoc in Heq; repeat rewrite <- app_assoc; exact Heq).
            destruct (app_split_le (r_pending c) _ a _ Heq') as (m & Hm & _); [lia|].
            apply (plain_no_lf a Hpa). rewrite Hm. apply in_or_app. left; exact Hin. }
          assert (Heq' : (r_pending c ++ d) ++ sdata s' = a ++ ([10] ++ b ++ flat fr'))
            by (repeat rewrite <- app_assoc in Heq; repeat rewrite <- app_assoc; exact Heq).
          destruct (app_split_le _ _ _ _ Heq' Hlt) as (m & Hm & _).
          assert (Hpp : Forall plain (r_pending c ++ d)).
          { rewrite Hm in Hpa. apply Forall_app in Hpa. tauto. }
          rewrite cstr_plain in Hp by exact Hpp. subst p. split; [reflexivity|].
          cbn in *. lia. }
      destruct Hpd as (Hpd & Hpl').
      destruct (25 <? r_nodata c + 1) eqn:E25.
      * eexists _, _, _. split; [reflexivity|]. split; [exact Hwlt|]. split; [auto|].
        right; right. split; [reflexivity|]. split.
        -- exists WTooManyAgain. unfold shutdown. cbn [r_down]. rewrite ?Hd. cbn.
           split; [reflexivity|]. split; [left; reflexivity|]. split; [intros _; lia|discriminate].
        -- intros _. lia.
      * eexists _, _, _. split; [reflexivity|]. split; [exact Hwlt|]. split; [auto|].
        left. split; [reflexivity|]. split.
        -- unfold inv. cbn [r_down r_partial r_pending].
           split; [auto|]. split; [auto|]. split; [exact Hfo|]. split; [|exact Hpl'].
           rewrite <- Hpd, <- app_assoc, <- Hsd. exact Heq.
        -- intros Hn. left. auto.
Qed.

Lemma read_all_stream fuel : forall chans i c s fr,
  inv c s fr -> (weight s <= fuel)%nat ->
  (forall k f lb, nth_error fr k = Some (f, lb) -> receivable (chans (i + k)%nat) f) ->
  exists c' s' out, read_all fuel chans i c s = Ok (c', s', out) /\
    ((r_down c' = None /\ s' = [] /\ out = map fst fr) \/
     ((exists w, r_down c' = Some w /\ frag_error w) /\ exists rest, map fst fr = out ++ rest)) /\
    (never_again s -> r_nodata c = 0 -> r_down c' = None).
Proof.
  induction fuel as [|fuel IH]; intros chans i c s fr Hinv Hw Hrecv.
  - assert (s = []) by (destruct s as [|[]]; cbn in Hw; [reflexivity|lia..]). subst s.
    cbn [read_all]. exists c, [], []. split; [reflexivity|].
    destruct Hinv as (Hd & Ha & Hfo & Hst). split; [left|auto].
    repeat (split; [solve[auto]|]).
    destruct (r_partial c) as [(f0, got)|].
    + destruct Hst as (_ & f & l & b & fr' & -> & _ & _ & _ & Heq & Hlt).
      exfalso. cbn [sdata] in Heq. rewrite app_nil_r in Heq. subst got. rewrite app_length in Hlt. lia.
    + destruct Hst as (Heq & Hl). destruct fr as [|(f, (l, b)) fr']; [reflexivity|exfalso].
      cbn [sdata flat] in Heq. rewrite app_nil_r in Heq. rewrite Heq, app_length in Hl. lia.
  - cbn [read_all]. pose proof Hinv as (Hd & _). rewrite Hd.
    destruct s as [|e s].
    + specialize (IH chans i c [] fr Hinv ltac:(cbn; lia) Hrecv).
      destruct fuel; cbn [read_all] in IH; [exact IH|]. rewrite Hd in IH. exact IH.
    + destruct (get_next_step (chans i) c (e :: s) fr Hinv ltac:(discriminate))
        as (c' & s' & o & He & (Hwlt & Hna & Hcase)).
      { destruct fr as [|(f, lb) fr']; [exact I|]. intros _.
        specialize (Hrecv 0%nat f lb eq_refl). rewrite Nat.add_0_r in Hrecv. exact Hrecv. }
      rewrite He. cbn [obind].
      destruct Hcase as [(-> & Hi & Hnd)|[(f & lb & fr' & -> & -> & Hi & Hnd)|(-> & (w & Hdn & Hfe & _) & Hnd)]].
      * destruct (IH chans i c' s' fr Hi ltac:(lia) Hrecv) as (c2 & s2 & out & He2 & Hres & Hn2).
        exists c2, s2, out. split; [exact He2|]. split; [exact Hres|].
        intros Hn H0. destruct (Hnd Hn) as [->|[Hx|Hx]].
        -- destruct fuel; cbn [read_all] in He2; destruct Hi as (Hdc & _).
           ++ inversion He2; subst. exact Hdc.
           ++ rewrite Hdc in He2. inversion He2; subst. exact Hdc.
        -- apply Hn2; [auto|congruence].
        -- apply Hn2; auto.
      * destruct (IH chans (S i) c' s' fr' Hi ltac:(lia)) as (c2 & s2 & out & He2 & Hres & Hn2).
        { intros k f2 lb2 Hk. specialize (Hrecv (S k) f2 lb2 Hk).
          replace (S i + k)%nat with (i + S k)%nat by lia. exact Hrecv. }
        exists c2, s2, (f :: out). rewrite He2. cbn [obind]. split; [reflexivity|].
        split.
        -- destruct Hres as [(H1 & H2 & ->)|(H1 & rest & H2)].
           ++ left. auto.
           ++ right. split; [exact H1|]. exists rest. cbn. rewrite H2. reflexivity.
        -- intros Hn H0. apply Hn2; [auto|]. destruct Hnd; congruence.
      * exists c', s', []. split.
        { destruct fuel; cbn [read_all]; [reflexivity|]. rewrite Hdn. reflexivity. }
        split.
        -- right. split; [exists w; auto|]. exists (map fst fr). reflexivity.
        -- intros Hn H0. specialize (Hnd Hn). lia.
Qed.

Lemma wires_todo fs ws : Forall2 wire fs ws ->
  exists fr, frames_ok fr /\ map fst fr = fs /\ flat fr = concat ws.
Proof.
  induction 1 as [|f w fs ws Hw _ (fr & H1 & H2 & H3)].
  - exists []. repeat split. constructor.
  - destruct (wire_framing f w Hw) as (line & body & Hfr & ->).
    exists ((f, (line, body)) :: fr). split; [constructor; assumption|].
    split; [cbn; rewrite H2; reflexivity|].
    cbn. rewrite H3, app_assoc. reflexivity.
Qed.

Lemma stream_any_fragmentation fs ws s chans :
  Forall2 wire fs ws -> alive s -> sdata s = concat ws ->
  (forall k f, nth_error fs k = Some f -> receivable (chans k) f) ->
  exists c' s' out, read_all (weight s) chans 0 rconn0 s = Ok (c', s', out) /\
    ((r_down c' = None /\ s' = [] /\ out = fs) \/
     ((r_down c' = Some WTooManyAgain \/ r_down c' = Some WClosedPartial) /\
      exists rest, fs = out ++ rest)) /\
    (never_again s -> r_down c' = None).
Proof.
  intros Hw Ha Hs Hrecv. destruct (wires_todo fs ws Hw) as (fr & Hfo & Hmap & Hflat).
  assert (Hinv : inv rconn0 s fr).
  { apply inv_boundary; auto. congruence. }
  destruct (read_all_stream (weight s) chans 0 rconn0 s fr Hinv (le_n _)) as (c' & s' & out & He & Hres & Hn).
  { intros k f lb Hk. apply Hrecv. rewrite <- Hmap. erewrite map_nth_error by exact Hk. reflexivity. }
  exists c', s', out. split; [exact He|]. rewrite Hmap in Hres. split.
  - destruct Hres as [H|((w & H1 & Hfe) & H2)]; [auto|].
    right. split; [|exact H2]. destruct Hfe; subst w; auto.
  - intros H. apply Hn; auto.
Qed.
