(** Proofs about the log. *)
From Coq Require Import String Lia.
From Verif Require Import Base GreetModel MsgModel CodecModel LogModel LogSpec.
Open Scope list_scope.

Lemma vprintf_plain fmt : forall args, plain fmt -> vprintf fmt args = Ok fmt.
Proof.
  induction fmt as [|x r IH]; intros args P; [reflexivity|]. cbn [vprintf]. unfold PCT.
  destruct (Z.eqb_spec x 37) as [->|N]; [exfalso; apply P; left; reflexivity|].
  rewrite IH; [reflexivity|]. intros I. apply P. right. exact I.
Qed.
Lemma plain_app a b : plain a -> plain b -> plain (a ++ b).
Proof. unfold plain. rewrite in_app_iff. tauto. Qed.
Lemma plain_cstr t : plain t -> plain (cstr t).
Proof.
  induction t as [|x t IH]; cbn; intros P; [exact P|]. destruct (x =? 0); [intros []|].
  intros [E|I]; [apply P; left; exact E|]. revert I. apply IH. intros J. apply P. right. exact J.
Qed.
Lemma plain_dec_of f : forall n acc, plain acc -> plain (dec_of f n acc).
Proof.
  induction f as [|f IH]; intros n acc P; cbn [dec_of]; [exact P|].
  assert (Q : plain (48 + n mod 10 :: acc)).
  { intros [E|I]; [|exact (P I)]. pose proof (Z.mod_pos_bound n 10 ltac:(lia)). lia. }
  destruct (n <? 10); [exact Q|]. apply IH. exact Q.
Qed.
Lemma plain_dec n : plain (dec n).
Proof.
  unfold dec. destruct (n <? 0).
  - intros [E|I]; [discriminate|]. revert I. apply plain_dec_of. intros [].
  - apply plain_dec_of. intros [].
Qed.
Lemma plain_text s : (forall t, s = Some t -> plain t) -> plain (as_text s).
Proof.
  intros H. destruct s as [t|]; cbn [as_text]; [apply plain_cstr, H; reflexivity|].
  vm_compute. intuition discriminate.
Qed.
Lemma cstr_id t : c_string t -> cstr t = t.
Proof.
  induction t as [|x t IH]; intros C; [reflexivity|]. cbn. destruct (Z.eqb_spec x 0) as [->|N]; [exfalso; apply C; left; reflexivity|].
  rewrite IH; [reflexivity|]. intros I. apply C. right. exact I.
Qed.

Lemma suffix_text text i status :
  vprintf suffix_fmt [AStr (Some text); AInt (i_sock i); AInt (i_id i); AInt (i_errno i); AStr (i_host i); AStr (i_server i); AInt status]
  = Ok (full_text (cstr text) i status).
Proof. unfold suffix_fmt, full_text. cbn - [dec as_text cstr]. reflexivity. Qed.

Ltac plain_concrete := let I := fresh in intros I; vm_compute in I; intuition discriminate.
Lemma full_plain text i status : plain text -> (forall t, i_host i = Some t -> plain t) -> (forall t, i_server i = Some t -> plain t) ->
  plain (full_text text i status).
Proof.
  intros T H S. unfold full_text. repeat apply plain_app; try apply plain_dec; try (apply plain_text; assumption); try assumption; plain_concrete.
Qed.

(** A log of a plain text does not fail, whatever the settings. *)
Lemma call_plain h full level msg : plain msg -> forall args, exists o args', call h full level msg args = Ok (o, args') /\
  o = match h with None => [] | Some _ => [OHandler full level msg] end.
Proof.
  intros P args. destruct h as [[|]|]; cbn [call]; [rewrite vprintf_plain by exact P; cbn [obind]| |]; eauto.
Qed.
Definition outs (g : lctx) (color : bool) (level : Z) (msg : bytes) : list out :=
  match g_h1 g, g_h2 g with
  | None, None => [OConsole color level (firstn 1022 msg)]
  | h1, h2 => (match h1 with None => [] | Some _ => [OHandler false level msg] end) ++
              (match h2 with None => [] | Some _ => [OHandler true level msg] end)
  end.
Lemma log_plain v held level msg args g : plain msg -> exists r, log_common v held level msg args g = Ok r.
Proof.
  intros P. unfold log_common. destruct (is_enabled v g) as (o1, ga). destruct (negb o1); [eauto|].
  destruct (filter_is_enabled v ga) as (fon, g1). destruct (fon && _); [eauto|]. destruct (g_mutex g1 && held); [eauto|].
  destruct (g_h1 g1) as [h1|] eqn:E1, (g_h2 g1) as [h2|] eqn:E2.
  4:{ rewrite vprintf_plain by exact P. cbn [obind]. destruct (color_is_enabled v g1). eauto. }
  all: destruct (g_prepare g1); [rewrite vprintf_plain by exact P|]; cbn [obind].
  all: match goal with |- context [call ?x false ?l ?m ?a] => destruct (call_plain x false l m P a) as (o & a' & C & _); rewrite C; cbn [obind] end.
  all: match goal with |- context [call ?x true ?l ?m ?a] => destruct (call_plain x true l m P a) as (o2 & a2 & C2 & _); rewrite C2; cbn [obind]; eauto end.
Qed.
Lemma log_off v held level msg args g : fst (is_enabled v g) = false -> exists g', log_common v held level msg args g = Ok (LDone g' []).
Proof. intros E. unfold log_common. destruct (is_enabled v g) as (b, ga). cbn in E. subst b. cbn. eauto. Qed.

Theorem recorded : forall v held i status fmt args text g, vprintf fmt args = Ok text ->
  (fst (is_enabled v g) = false \/
   (plain text /\ (forall t, i_host i = Some t -> plain t) /\ (forall t, i_server i = Some t -> plain t))) ->
  exists r, record_error v held i false status fmt args g = Ok (r, Some (full_text (cstr text) i status)).
Proof.
  intros v held i status fmt args text g V C. unfold record_error. rewrite V. cbn [obind]. rewrite suffix_text. cbn [obind].
  destruct C as [C|(C1 & C2 & C3)].
  - destruct (log_off v held L_CRITICAL (full_text (cstr text) i status) [] g C) as (g' & E). rewrite E. cbn [obind]. eauto.
  - destruct (log_plain v held L_CRITICAL (full_text (cstr text) i status) [] g) as (r & E).
    + apply full_plain; [apply plain_cstr; exact C1|exact C2|exact C3].
    + rewrite E. cbn [obind]. eauto.
Qed.

(** * The filter *)
Lemma is_prefix_spec p : forall s, is_prefix p s = true <-> exists b, s = p ++ b.
Proof.
  induction p as [|x p IH]; intros s; cbn.
  - split; [eauto|reflexivity].
  - destruct s as [|y s]; [split; [discriminate|intros (b & E); discriminate]|].
    rewrite andb_true_iff, Z.eqb_eq, IH. split.
    + intros (-> & b & ->). eauto.
    + intros (b & E). injection E as -> ->. eauto.
Qed.
Lemma contains_spec p s : contains p s = true <-> occurs p s.
Proof.
  unfold occurs. induction s as [|y s IH]; cbn [contains]; rewrite orb_true_iff, is_prefix_spec.
  - split.
    + intros [(b & E)|E]; [exists [], b; exact E|discriminate].
    + intros (a & b & E). left. destruct a; [exists b; exact E|discriminate].
  - rewrite IH. split.
    + intros [(b & E)|(a & b & ->)]; [exists [], b; exact E|exists (y :: a), b; reflexivity].
    + intros (a & b & E). destruct a as [|z a]; [left; exists b; exact E|]. injection E as -> ->. right. eauto.
Qed.
Lemma contains_not p s : contains p s = false <-> ~ occurs p s.
Proof. rewrite <- contains_spec. destruct (contains p s); split; intros; congruence || auto. Qed.

Definition bits (f : Z) (t : bytes) : Z :=
  Z.lor (Z.lor (Z.lor f (bit "debug" L_DEBUG t)) (bit "warning" L_WARNING t)) (bit "critical" L_CRITICAL t).
Lemma bits_zero level t : a_level level -> (Z.land (bits 0 t) level =? level) = contains (word level) t.
Proof.
  intros L. unfold bits, bit.
  destruct L as [-> | [-> | ->]]; cbn [word Z.eqb Pos.eqb];
    destruct (contains (asc "debug") t), (contains (asc "warning") t), (contains (asc "critical") t); reflexivity.
Qed.
Lemma on_enabled v g : on g -> is_enabled v g = (true, g).
Proof. intros (D & C). unfold is_enabled. rewrite C, D. reflexivity. Qed.
Lemma outs_some g c l m : outs g c l m <> [].
Proof. unfold outs. destruct (g_h1 g), (g_h2 g); discriminate. Qed.
Lemma shown v level g : on g -> g_filter_checked g = true ->
  (g_filter_on g && (Z.land (g_filter g) level =? level) = false -> comes_out v level g) /\
  (g_filter_on g && (Z.land (g_filter g) level =? level) = true -> kept_in v level g).
Proof.
  intros O F. split; intros H.
  - intros msg P. unfold log_common. rewrite on_enabled by exact O. cbn [negb]. unfold filter_is_enabled. rewrite F. rewrite H. rewrite andb_false_r.
    destruct (g_h1 g) as [h1|] eqn:E1, (g_h2 g) as [h2|] eqn:E2.
    4:{ rewrite vprintf_plain by exact P. cbn [obind]. destruct (color_is_enabled v g). eexists _, _. split; [reflexivity|discriminate]. }
    all: destruct (g_prepare g); [rewrite vprintf_plain by exact P|]; cbn [obind].
    all: match goal with |- context [call ?x false ?l ?m ?a] => destruct (call_plain x false l m P a) as (o & a' & C & Co); rewrite C; cbn [obind] end.
    all: match goal with |- context [call ?x true ?l ?m ?a] => destruct (call_plain x true l m P a) as (o2 & a2 & C2 & Co2); rewrite C2; cbn [obind] end.
    all: eexists _, _; (split; [reflexivity|rewrite Co, Co2; discriminate]).
  - intros msg args. unfold log_common. rewrite on_enabled by exact O. cbn [negb]. unfold filter_is_enabled. rewrite F, H. eauto.
Qed.
Theorem filter_first : forall v level g t, on g -> g_filter g = 0 -> a_level level ->
  (~ occurs (word level) t -> comes_out v level (filter_level (Some t) g)) /\
  (occurs (word level) t -> kept_in v level (filter_level (Some t) g)).
Proof.
  intros v level g t O F L. destruct (shown v level (filter_level (Some t) g)) as (A & B); [exact O|reflexivity|].
  assert (E : g_filter_on (filter_level (Some t) g) && (Z.land (g_filter (filter_level (Some t) g)) level =? level) = contains (word level) t).
  { cbn [filter_level g_filter_on g_filter andb]. rewrite F. fold (bits 0 t). apply bits_zero. exact L. }
  rewrite E in A, B. split; intros H; [apply A, contains_not, H|apply B, contains_spec, H].
Qed.
Theorem filter_none : forall v level g, on g -> comes_out v level (filter_level None g).
Proof. intros v level g O. destruct (shown v level (filter_level None g)) as (A & _); [exact O|reflexivity|]. apply A. reflexivity. Qed.
Theorem log_disabled : forall v held level msg args g, log_common v held level msg args (enable false g) = Ok (LDone (enable false g) []).
Proof. reflexivity. Qed.
(** A filter takes what the ones before it took. *)
Lemma lor_bit f t level : a_level level -> Z.land f level = level -> Z.land (bits f t) level = level.
Proof.
  intros L H. unfold bits. rewrite !Z.land_lor_distr_l, H. unfold bit.
  destruct L as [-> | [-> | ->]]; destruct (contains (asc "debug") t), (contains (asc "warning") t), (contains (asc "critical") t); reflexivity.
Qed.
Theorem filter_adds : forall v level g t1 t2, on g -> a_level level -> occurs (word level) t1 ->
  kept_in v level (filter_level (Some t2) (filter_level (Some t1) g)).
Proof.
  intros v level g t1 t2 O L H. destruct (shown v level (filter_level (Some t2) (filter_level (Some t1) g))) as (_ & B); [exact O|reflexivity|].
  apply B. cbn [filter_level g_filter_on g_filter andb]. fold (bits (g_filter g) t1). fold (bits (bits (g_filter g) t1) t2).
  apply Z.eqb_eq. apply lor_bit; [exact L|]. unfold bits. rewrite !Z.land_lor_distr_l. apply contains_spec in H. unfold bit.
  assert (K : forall x, Z.lor (Z.land (g_filter g) level) x = Z.lor x (Z.land (g_filter g) level)) by (intros; apply Z.lor_comm).
  destruct L as [-> | [-> | ->]]; cbn [word Z.eqb Pos.eqb] in H; rewrite H.
  all: apply Z.bits_inj'; intros n Hn; rewrite ?Z.lor_spec, ?Z.land_spec.
  all: match goal with |- context [Z.testbit (g_filter ?g) ?n] => destruct (Z.testbit (g_filter g) n) end.
  all: destruct (contains (asc "debug") t1), (contains (asc "warning") t1), (contains (asc "critical") t1); cbn [andb orb Z.land L_DEBUG L_WARNING L_CRITICAL].
  all: unfold L_DEBUG, L_WARNING, L_CRITICAL; rewrite ?Z.bits_0, ?andb_true_r, ?andb_false_r, ?orb_false_r, ?andb_diag.
  all: cbn; try reflexivity.
  all: repeat match goal with |- context [Z.testbit ?a ?n] => destruct (Z.testbit a n) end; try reflexivity.
Qed.

(** * The handlers *)
Definition quiet_ok (v : lenv) (level : Z) (g : lctx) : Prop :=
  on g /\ g_filter_checked g = true /\ g_filter_on g && (Z.land (g_filter g) level =? level) = false.
Theorem one_handler : forall v level msg args t g h, quiet_ok v level g -> g_prepare g = false -> vprintf msg args = Ok t ->
  (g_h1 g = Some h /\ g_h2 g = None \/ g_h1 g = None /\ g_h2 g = Some h) ->
  log_common v false level msg args g =
    Ok (LDone g [OHandler (match g_h1 g with Some _ => false | None => true end) level (match h with HExpand => t | HPlain => msg end)]).
Proof.
  intros v level msg args t g h (O & F & H) P V C. unfold log_common. rewrite on_enabled by exact O. cbn [negb]. unfold filter_is_enabled.
  rewrite F, H, andb_false_r, P. destruct C as [(-> & ->)|(-> & ->)]; destruct h; cbn [obind call]; rewrite ?V; reflexivity.
Qed.
Theorem prepared : forall v level msg args t g, quiet_ok v level g -> g_prepare g = true -> vprintf msg args = Ok t ->
  (g_h1 g <> None \/ g_h2 g <> None) -> (forall h, g_h1 g = Some h -> h = HPlain \/ plain t) -> (forall h, g_h2 g = Some h -> h = HPlain \/ plain t) ->
  log_common v false level msg args g = Ok (LDone g
    ((match g_h1 g with Some _ => [OHandler false level t] | None => [] end) ++ (match g_h2 g with Some _ => [OHandler true level t] | None => [] end))).
Proof.
  intros v level msg args t g (O & F & H) P V N A B. unfold log_common. rewrite on_enabled by exact O. cbn [negb]. unfold filter_is_enabled.
  rewrite F, H, andb_false_r, P. destruct (g_h1 g) as [h1|], (g_h2 g) as [h2|]; [| | |destruct N; congruence]; rewrite V; cbn [obind].
  - destruct h1, h2; cbn [call obind]; try reflexivity.
    + destruct (A _ eq_refl) as [X|X]; [discriminate|]. repeat (rewrite vprintf_plain by exact X; cbn [obind]); reflexivity.
    + destruct (A _ eq_refl) as [X|X]; [discriminate|]. repeat (rewrite vprintf_plain by exact X; cbn [obind]); reflexivity.
    + destruct (B _ eq_refl) as [X|X]; [discriminate|]. repeat (rewrite vprintf_plain by exact X; cbn [obind]); reflexivity.
  - destruct h1; cbn [call obind]; try reflexivity. destruct (A _ eq_refl) as [X|X]; [discriminate|]. repeat (rewrite vprintf_plain by exact X; cbn [obind]); reflexivity.
  - destruct h2; cbn [call obind]; try reflexivity. destruct (B _ eq_refl) as [X|X]; [discriminate|]. repeat (rewrite vprintf_plain by exact X; cbn [obind]); reflexivity.
Qed.

(** * The settings *)
Theorem enable_is : forall v b g, fst (is_enabled v (enable b g)) = b.
Proof. reflexivity. Qed.
Theorem color_is : forall v b g, b = true \/ n_color v <= 0 -> fst (color_is_enabled v (color_enable b g)) = b.
Proof. intros v b g [-> | H]; [reflexivity|]. destruct b; [reflexivity|]. cbn. apply Z.ltb_ge. exact H. Qed.
Theorem env_is : forall v, fst (is_enabled v g0) = true <-> 0 < n_debug v.
Proof. intros v. cbn. apply Z.ltb_lt. Qed.
Theorem no_block : forall v held level msg args g r, g_mutex g = false \/ held = false -> log_common v held level msg args g = Ok r ->
  exists g' o, r = LDone g' o.
Proof.
  intros v held level msg args g r H E. unfold log_common in E.
  assert (M : forall g', snd (is_enabled v g) = g' -> g_mutex g' = g_mutex g).
  { intros g' <-. unfold is_enabled. destruct (g_debug_checked g); reflexivity. }
  destruct (is_enabled v g) as (o1, ga). specialize (M ga eq_refl). destruct (negb o1); [injection E as <-; eauto|].
  assert (M2 : forall g', snd (filter_is_enabled v ga) = g' -> g_mutex g' = g_mutex ga).
  { intros g' <-. unfold filter_is_enabled, filter_level. destruct (g_filter_checked ga), (n_filter v); reflexivity. }
  destruct (filter_is_enabled v ga) as (fon, g1). specialize (M2 g1 eq_refl). destruct (fon && _); [injection E as <-; eauto|].
  assert (X : g_mutex g1 && held = false). { rewrite M2, M. destruct H as [-> | ->]; [reflexivity|apply andb_false_r]. }
  rewrite X in E. destruct (g_h1 g1), (g_h2 g1).
  4:{ destruct (vprintf msg args); cbn [obind] in E; [|discriminate]. destruct (color_is_enabled v g1). injection E as <-. eauto. }
  all: destruct (if g_prepare g1 then _ else _) as [(m, a)|]; cbn [obind] in E; [|discriminate].
  all: match type of E with context [call ?h false ?l ?mm ?aa] => destruct (call h false l mm aa) as [(q1, a1)|] end; cbn [obind] in E; [|discriminate].
  all: match type of E with context [call ?h true ?l ?mm ?aa] => destruct (call h true l mm aa) as [(q2, a2)|] end; cbn [obind] in E; [|discriminate].
  all: injection E as <-; eauto.
Qed.

(** * The configuration *)
Lemma s32_small n : an_int n -> s32 n = n.
Proof. unfold an_int, s32, u32, two32, two31. intros H. destruct (Z.ltb_spec (n mod 4294967296) 2147483648); Z.div_mod_to_equations; lia. Qed.
Theorem conf_kept : forall it value c c', it <> SoftLimit -> it <> HardLimit -> value <> 0 -> conf_set it value c = (true, c') ->
  conf_get it c' = value /\ (forall it2, it2 <> it -> conf_get it2 c' = conf_get it2 c).
Proof.
  intros it value c c' S H N E. unfold conf_set in E. destruct (Z.eqb_spec value 0); [contradiction|].
  destruct it; try contradiction; injection E as <-; (split; [reflexivity|]); intros it2 K; destruct it2; try contradiction; reflexivity.
Qed.
Theorem conf_soft : forall value c c', an_int value -> conf_set SoftLimit value c = (true, c') -> conf_get SoftLimit c' = value /\ f_hard c' = f_hard c.
Proof.
  intros value c c' I E. unfold conf_set in E. destruct (Z.eqb_spec value 0); [discriminate|]. unfold setrlimit in E.
  destruct (_ && _); [|discriminate]. injection E as <-. split; [|reflexivity]. cbn.
  unfold s32, u32, an_int, two31, two32, two64 in *.
  destruct (Z.ltb_spec (value mod 18446744073709551616 mod 4294967296) 2147483648); Z.div_mod_to_equations; lia.
Qed.
Theorem conf_raised : forall it value c c', f_root c = false -> f_soft c <= f_hard c -> conf_set it value c = (true, c') -> f_hard c' <= f_hard c /\ f_soft c' <= f_hard c'.
Proof.
  intros it value c c' R L H. unfold conf_set, setrlimit in H. rewrite R in H. destruct (value =? 0); [discriminate|]. rewrite orb_false_r in H.
  destruct it; try (injection H as <-; cbn; lia).
  - destruct (Z.leb_spec (value mod two64) (f_hard c)); [|discriminate]. destruct (_ <=? _) eqn:E in H; [|discriminate]. injection H as <-. cbn. lia.
  - cbv zeta in H. rewrite ?orb_false_r in H. destruct (_ && _) eqn:E; [|discriminate]. apply andb_prop in E. destruct E as (E1 & E2). apply Z.leb_le in E1. apply Z.leb_le in E2. injection H as <-. cbn in *. lia.
Qed.
Theorem conf_hard : forall value c c', an_int value -> 0 < value -> f_soft c <= value -> conf_set HardLimit value c = (true, c') ->
  conf_get HardLimit c' = value /\ f_soft c' = f_soft c.
Proof.
  intros value c c' I P S E. unfold conf_set in E. destruct (Z.eqb_spec value 0); [discriminate|].
  rewrite Z.mod_small in E by (unfold an_int, two64 in *; lia). destruct (Z.ltb_spec value (f_soft c)); [lia|]. unfold setrlimit in E.
  destruct (_ && _); [|discriminate]. injection E as <-. split; [|reflexivity]. apply s32_small. exact I.
Qed.
Theorem conf_told : forall it value c c', value <> 0 -> conf_set it value c = (false, c') -> c' = c /\ (it = SoftLimit \/ it = HardLimit).
Proof.
  intros it value c c' N E. unfold conf_set in E. destruct (Z.eqb_spec value 0); [contradiction|].
  destruct it; try discriminate; unfold setrlimit in E; destruct (_ && _); try discriminate; injection E as <-; auto.
Qed.

Lemma cstr_buf b : has_nul (b ++ [0]) = true.
Proof. unfold has_nul. rewrite existsb_app. cbn. apply orb_true_r. Qed.
Lemma cstr_app0 b : cstr (b ++ [0]) = cstr b.
Proof. induction b as [|x b IH]; cbn; [reflexivity|]. destruct (x =? 0); [reflexivity|]. rewrite IH. reflexivity. Qed.
Lemma cstr_c t : c_string (cstr t).
Proof. induction t as [|x t IH]; cbn; [intros []|]. destruct (Z.eqb_spec x 0); [intros []|]. intros [E|I]; [congruence|exact (IH I)]. Qed.
Definition trailer_text (body : bytes) : bytes :=
  asc "poorly formed frame: frame trailer CR LF not found, discarding content: '" ++ cstr body ++ asc "'".
Definition greeting_text (payload : bytes) : bytes :=
  asc "frame error, expected RPY frame type on greetings process. Frame content: '" ++ cstr payload ++ asc "'".
Lemma c_string_app a b : c_string a -> c_string b -> c_string (a ++ b).
Proof. unfold c_string. rewrite in_app_iff. tauto. Qed.
Lemma trailer_printed body : vprintf trailer_fmt [ABuf (body ++ [0])] = Ok (trailer_text body).
Proof.
  unfold trailer_fmt, trailer_text. cbn - [cstr has_nul app]. rewrite cstr_buf. cbn - [cstr has_nul app]. rewrite cstr_app0. reflexivity.
Qed.
Lemma greeting_printed p : vprintf greeting_fmt [AStr (Some p)] = Ok (greeting_text p).
Proof. unfold greeting_fmt, greeting_text. cbn - [cstr]. reflexivity. Qed.
Lemma text_plain pre t : plain pre -> plain t -> plain (pre ++ cstr t ++ asc "'").
Proof. intros. repeat apply plain_app; [assumption|apply plain_cstr; assumption|plain_concrete]. Qed.
Theorem peer_text : forall v i t g,
  (fst (is_enabled v g) = false \/ (plain t /\ (forall x, i_host i = Some x -> plain x) /\ (forall x, i_server i = Some x -> plain x))) ->
  (exists r, trailer_error v i t g = Ok (r, Some (full_text (trailer_text t) i 14))) /\
  (exists r, greeting_error v i t g = Ok (r, Some (full_text (greeting_text t) i 14))).
Proof.
  intros v i t g C. split.
  - destruct (recorded v false i 14 trailer_fmt [ABuf (t ++ [0])] (trailer_text t) g (trailer_printed t)) as (r & E).
    + destruct C as [C|(C1 & C2 & C3)]; [left; exact C|right]. split; [|split; assumption]. apply text_plain; [plain_concrete|exact C1].
    + exists r. unfold trailer_error. rewrite E. rewrite cstr_id; [reflexivity|]. repeat apply c_string_app; try apply cstr_c; plain_concrete.
  - destruct (recorded v false i 14 greeting_fmt [AStr (Some t)] (greeting_text t) g (greeting_printed t)) as (r & E).
    + destruct C as [C|(C1 & C2 & C3)]; [left; exact C|right]. split; [|split; assumption]. apply text_plain; [plain_concrete|exact C1].
    + exists r. unfold greeting_error. rewrite E. rewrite cstr_id; [reflexivity|]. repeat apply c_string_app; try apply cstr_c; plain_concrete.
Qed.

(** A text whose percents are doubled is printed as it is. *)
Theorem escaped_text : forall t, vprintf (flat_map (fun c => if c =? 37 then [37; 37] else [c]) t) [] = Ok t.
Proof.
  induction t as [|x t IH]; [reflexivity|]. cbn [flat_map]. destruct (Z.eqb_spec x 37) as [->|N].
  - cbn [app vprintf]. rewrite IH. reflexivity.
  - cbn [app vprintf]. unfold PCT. destruct (Z.eqb_spec x 37); [contradiction|]. rewrite IH. reflexivity.
Qed.
