(** Each call allowed by the contract is safe and keeps the invariant. *)
From Verif Require Import Base CodecModel MimeModel MimeSpec HdrModel HdrSpec FrameModel FrameSpec MimeProofs HdrProofs FrameProofs.

Lemma upd_nth_last : forall A (l : list A) x y, upd_nth (l ++ [x]) (length l) y = l ++ [y].
Proof. induction l as [|a l IH]; intros x y; cbn; auto. rewrite IH. reflexivity. Qed.
Lemma upd_nth_twice : forall A (l : list A) i x y, upd_nth (upd_nth l i x) i y = upd_nth l i y.
Proof. induction l as [|a l IH]; destruct i; intros; cbn; auto. rewrite IH. reflexivity. Qed.
Lemma zlen_pos : forall A (l : list A), 0 <= zlen l.
Proof. intros. unfold zlen. lia. Qed.

Lemma h_set_ok : forall h E z n c, hinv h E -> - two31 <= head_add z (zlen n) (Some c) < two31 ->
  exists h' E', h_op h z (HSet n c) = Ok (Some (h', head_add z (zlen n) (Some c))) /\ hinv h' E'.
Proof.
  intros h E z n c I B. cbn [h_op]. unfold h_set. destruct (store_ok h E n c I) as (h' & R & I'). rewrite R. cbn [obind].
  exists h', (stored E n c). split; auto. unfold int_sum. cbn [head_add] in *.
  replace (z + (zlen n + zlen c + 2 + (if z =? 0 then 2 else 0))) with (z + zlen n + zlen c + (if z =? 0 then 4 else 2))
    by (destruct (z =? 0); lia).
  replace ((- two31 <=? z + zlen n + zlen c + (if z =? 0 then 4 else 2)) && (z + zlen n + zlen c + (if z =? 0 then 4 else 2) <? two31))
    with true by lia. reflexivity.
Qed.

(** The headers given to a creation, on a frame that is not yet in the table. *)
Definition built (s : fm) (f : frame) (a : fargs) (s' : fm) (f' : frame) : Prop :=
  m_heap s' = m_heap s /\ m_frames s' = m_frames s /\ m_next s' = m_next s /\ m_ctx s' = m_ctx s /\
  (has_heads a = false /\ m_stat s' = m_stat s /\ f' = set_hdr f (heads_size a) None \/
   has_heads a = true /\ exists h E, m_stat s' = m_stat s ++ [Some (1, h)] /\ hinv h E /\
     f' = set_hdr f (heads_size a) (Some (length (m_stat s)))).

Lemma head_new : forall s f n c, f_hdr f = None -> - two31 <= head_add (f_hsize f) (zlen n) (Some c) < two31 ->
  exists h E, frame_head s f (HSet n c) =
    Ok (with_stat s (m_stat s ++ [Some (1, h)]), set_hdr f (head_add (f_hsize f) (zlen n) (Some c)) (Some (length (m_stat s)))) /\
    hinv h E.
Proof.
  intros s f n c N B. unfold frame_head. rewrite N. cbn [m_stat with_stat].
  rewrite nth_app_new. destruct (h_set_ok h_new (fun _ => []) (f_hsize f) n c hinv_new B) as (h & E & R & I).
  rewrite R. cbn [obind]. exists h, E. split; auto. rewrite upd_nth_last. reflexivity.
Qed.
Lemma head_more : forall s f n c k cc h E, f_hdr f = Some k -> nth_error (m_stat s) k = Some (Some (cc, h)) -> hinv h E ->
  - two31 <= head_add (f_hsize f) (zlen n) (Some c) < two31 ->
  exists h' E', frame_head s f (HSet n c) =
    Ok (with_stat s (upd_nth (m_stat s) k (Some (cc, h'))), set_hdr f (head_add (f_hsize f) (zlen n) (Some c)) (Some k)) /\
    hinv h' E'.
Proof.
  intros s f n c k cc h E N Hk I B. unfold frame_head. rewrite N, Hk.
  destruct (h_set_ok h E (f_hsize f) n c I B) as (h' & E' & R & I'). rewrite R. cbn [obind]. exists h', E'. auto.
Qed.

Lemma head_add_pos : forall z n v, 0 <= z -> 0 <= n -> z <= head_add z n v.
Proof. intros z n [c|] H1 H2; cbn [head_add]; [|lia]. pose proof (zlen_pos _ c). destruct (z =? 0); lia. Qed.

Lemma heads_ok : forall s f a, f_hdr f = None -> f_hsize f = 0 -> heads_size a < two31 ->
  exists s' f', (let! (s1, f1) := opt_head s f n_ctype (a_ctype a) in opt_head s1 f1 n_cte (a_enc a)) = Ok (s', f') /\
    built s f a s' f'.
Proof.
  intros s f a N Z B. unfold heads_size in B.
  assert (P1 := head_add_pos 0 12 (a_ctype a) ltac:(lia) ltac:(lia)).
  assert (P2 := head_add_pos _ 25 (a_enc a) P1 ltac:(lia)).
  unfold built, heads_size, has_heads. destruct (a_ctype a) as [c|]; cbn [opt_head].
  - destruct (head_new s f n_ctype c N) as (h & E & R & I).
    { rewrite Z. change (zlen n_ctype) with 12. split; [unfold two31; lia|lia]. }
    rewrite R. cbn [obind]. rewrite Z in *. change (zlen n_ctype) with 12 in *.
    destruct (a_enc a) as [e|]; cbn [opt_head].
    + match goal with |- exists s' f', frame_head ?x ?y _ = _ /\ _ => set (s1 := x); set (f1 := y) end.
      destruct (head_more s1 f1 n_cte e (length (m_stat s)) 1 h E) as (h' & E' & R' & I'); auto.
      { unfold s1. cbn [m_stat with_stat]. apply nth_app_new. }
      { unfold f1. cbn [f_hsize set_hdr]. change (zlen n_cte) with 25. split; [unfold two31; lia|lia]. }
      rewrite R'. do 2 eexists. split; [reflexivity|]. unfold s1, f1.
      cbn [m_heap m_frames m_next m_ctx m_stat with_stat set_hdr f_hsize f_id f_type f_ch f_msgno f_more f_seqno f_size f_ans f_payload f_buffer f_content f_chref f_ref].
      conj; auto. right. split; auto. exists h', E'. rewrite upd_nth_last. conj; auto.
    + do 2 eexists. split; [reflexivity|]. cbn [m_heap m_frames m_next m_ctx m_stat with_stat].
      conj; auto. right. split; auto. exists h, E. conj; auto.
  - cbn [obind]. destruct (a_enc a) as [e|]; cbn [opt_head].
    + destruct (head_new s f n_cte e N) as (h & E & R & I).
      { rewrite Z. change (zlen n_cte) with 25. cbn [head_add] in *. split; [unfold two31; lia|lia]. }
      rewrite R. do 2 eexists. split; [reflexivity|]. cbn [m_heap m_frames m_next m_ctx m_stat with_stat].
      conj; auto. right. split; auto. exists h, E. rewrite Z. change (zlen n_cte) with 25. conj; auto.
    + do 2 eexists. split; [reflexivity|]. conj; auto. left. conj; auto. destruct f; cbn in *; subst; reflexivity.
Qed.

(** A frame added with its block and its headers. *)
Lemma inv_add : forall s T f t x hs, inv s T -> zlen T < two31 - 2 ->
  (own f = None /\ x = [] \/ exists l, own f = Some (length (m_heap s)) /\ x = [Some l]) ->
  (f_hdr f = None /\ hs = [] \/ exists h E, f_hdr f = Some (length (m_stat s)) /\ hs = [Some (1, h)] /\ hinv h E) ->
  wff (m_heap s ++ x) f t -> 0 < t_held t ->
  inv (mkFM (m_heap s ++ x) (m_stat s ++ hs) (m_frames s ++ [Some f]) (m_next s + 1) (m_ctx s + 1)) (T ++ [t]).
Proof.
  intros s T f t x hs I R O D W Hh. destruct I as [I1 I2 I3 I4 I5].
  constructor; cbn [m_heap m_stat m_frames m_next m_ctx].
  - apply heap_ok_add; auto.
  - destruct D as [[D ->]|(h & E & D & -> & Ih)].
    + rewrite app_nil_r. apply stat_ok_add_none; auto.
    + apply stat_ok_new with (m_frames s) E; auto. intro k. rewrite cnt_snoc. cbn [c1]. unfold refs at 2. rewrite D. reflexivity.
  - apply frames_ok_add with (m_heap s); auto. intros i g b Hg Hb.
    destruct (owned_live _ _ _ _ _ I1 Hg Hb) as (l & Hl). rewrite nth_error_app1 by (eapply nth_lt; eauto). reflexivity.
  - unfold zlen in *. rewrite app_length. cbn [length]. lia.
  - rewrite cnt_snoc. cbn [c1]. lia.
Qed.

Lemma firstn_defined : forall l n, defined l -> defined (firstn n l).
Proof.
  induction l as [|a l IH]; intros n H; destruct n; cbn; try constructor; inversion H; subst; auto. apply IH. auto.
Qed.
Lemma defined_app : forall a b, defined a -> defined b -> defined (a ++ b).
Proof. intros. apply Forall_app. auto. Qed.

Lemma next_ok : forall s T, inv s T -> zlen T < two31 - 2 ->
  next_id s = Ok (mkFM (m_heap s) (m_stat s) (m_frames s) (m_next s + 1) (m_ctx s + 1), m_next s).
Proof.
  intros s T I R. unfold next_id. rewrite (i_next s T I). pose proof (zlen_pos _ T).
  replace (1 + zlen T <? two31 - 1) with true by lia. reflexivity.
Qed.

Lemma zto_len : forall (l : bytes) n, 0 <= n -> n <= zlen l -> zlen (firstn (Z.to_nat n) l) = n.
Proof. intros l n H1 H2. unfold zlen in *. rewrite firstn_length. lia. Qed.

(** The rest of a creation once the memory is there. *)
Lemma create_end : forall s T a f x t s1,
  inv s T -> zlen T < two31 - 2 -> heads_size a < two31 ->
  s1 = mkFM (m_heap s ++ x) (m_stat s) (m_frames s) (m_next s + 1) (m_ctx s + 1) ->
  f_hdr f = None -> f_hsize f = 0 ->
  (own f = None /\ x = [] \/ exists l, own f = Some (length (m_heap s)) /\ x = [Some l]) ->
  0 < t_held t ->
  (forall hd, (has_heads a = false -> hd = None) -> wff (m_heap s ++ x) (set_hdr f (heads_size a) hd) t) ->
  exists s' f', (let! (s2, f2) := opt_head s1 f n_ctype (a_ctype a) in let! (s3, f3) := opt_head s2 f2 n_cte (a_enc a) in
              Ok (add_frame s3 f3)) = Ok (s', length (m_frames s)) /\ inv s' (T ++ [t]) /\
     m_frames s' = m_frames s ++ [Some f'] /\ m_heap s' = m_heap s ++ x /\
     (exists hd, f' = set_hdr f (heads_size a) hd /\ (has_heads a = false -> hd = None)) /\
     (has_heads a = false -> m_stat s' = m_stat s).
Proof.
  intros s T a f x t s1 I R B -> N Z O Hh W.
  destruct (heads_ok (mkFM (m_heap s ++ x) (m_stat s) (m_frames s) (m_next s + 1) (m_ctx s + 1)) f a N Z B) as (s' & f' & E & K).
  destruct (opt_head _ f n_ctype (a_ctype a)) as [[s2 f2]|]; cbn [obind] in *; [|discriminate].
  rewrite E. cbn [obind]. unfold add_frame. destruct K as (K1 & K2 & K3 & K4 & K5). cbn [m_heap m_stat m_frames m_next m_ctx] in *.
  rewrite K1, K2, K3, K4.
  destruct K5 as [(H0 & K5 & ->)|(H0 & h & E' & K5 & Ih & ->)].
  - do 2 eexists. split; [reflexivity|]. rewrite K5. split; [|cbn [m_frames m_heap m_stat]; conj; eauto].
    pattern (m_stat s) at 1. rewrite <- (app_nil_r (m_stat s)). apply inv_add; auto.
  - do 2 eexists. split; [reflexivity|]. rewrite K5. split.
    + apply inv_add; auto.
      * right. exists h, E'. cbn [f_hdr set_hdr]. auto.
      * apply W. congruence.
    + cbn [m_frames m_heap m_stat]. conj; auto.
      * eexists. split; [reflexivity|]. congruence.
      * congruence.
Qed.

Lemma create_ok : forall s T a m, inv s T -> room T -> args_ok a m -> exists s' f,
  create s a m = Ok (s', length (m_frames s)) /\ inv s' (track T (FCreate a m, ONew (length (m_frames s)))) /\
  m_frames s' = m_frames s ++ [Some f] /\
  (exists hd p, f = set_hdr (set_payload (blank_frame (m_next s) (a_type a) (a_ch a) (a_msgno a) false (a_seqno a) (a_size a) (a_ans a)) p)
                 (heads_size a) hd /\ (has_heads a = false -> hd = None) /\
     (0 < a_size a -> exists l, m = Some l /\ p = Some (length (m_heap s), 0) /\ m_heap s' = m_heap s ++ [Some (firstn (Z.to_nat (a_size a)) l ++ [0])]) /\
     (a_size a = 0 -> p = None /\ m_heap s' = m_heap s)) /\
  (has_heads a = false -> m_stat s' = m_stat s).
Proof.
  intros s T a m I R (A1 & A2 & A3). unfold create. rewrite (next_ok s T I R). cbn [obind track].
  set (f0 := blank_frame _ _ _ _ _ _ _ _).
  assert (P2 : 0 <= heads_size a).
  { unfold heads_size. pose proof (head_add_pos 0 12 (a_ctype a) ltac:(lia) ltac:(lia)).
    pose proof (head_add_pos _ 25 (a_enc a) H ltac:(lia)). lia. }
  assert (Z0 : has_heads a = false -> heads_size a = 0).
  { unfold has_heads, heads_size. destruct (a_ctype a), (a_enc a); try discriminate. reflexivity. }
  destruct (Z.eq_dec (a_size a) 0) as [E0|E0].
  - assert (Q : match m with
        | Some m0 => if 0 <? a_size a then if a_size a <=? zlen m0 then
             let (s', b) := malloc (mkFM (m_heap s) (m_stat s) (m_frames s) (m_next s + 1) (m_ctx s + 1)) (firstn (Z.to_nat (a_size a)) m0 ++ [0]) in
             Ok (s', set_payload f0 (Some (b, 0))) else UB
           else Ok (mkFM (m_heap s) (m_stat s) (m_frames s) (m_next s + 1) (m_ctx s + 1), f0)
        | None => Ok (mkFM (m_heap s) (m_stat s) (m_frames s) (m_next s + 1) (m_ctx s + 1), f0)
        end = Ok (mkFM (m_heap s) (m_stat s) (m_frames s) (m_next s + 1) (m_ctx s + 1), f0)).
    { rewrite E0. destruct m; reflexivity. }
    rewrite Q. cbn [obind]. clear Q.
    destruct (create_end s T a f0 [] (mkTK 1 false false (negb (has_heads a)) true false (has_heads a) (a_size a) (heads_size a))
      (mkFM (m_heap s) (m_stat s) (m_frames s) (m_next s + 1) (m_ctx s + 1))) as (s' & f' & R1 & R2 & R3 & R4 & (hd & R5 & R6) & R7); auto.
    + rewrite app_nil_r. reflexivity.
    + cbn. lia.
    + intros hd Hd. constructor; cbn; auto; try lia.
      conj; auto; try discriminate. intro X. apply Z0. destruct (has_heads a); auto; discriminate.
    + exists s', f'. rewrite app_nil_r in R4. conj; auto. exists hd, None. split; [exact R5|]. split; [exact R6|]. split; [intro; lia|]. intros _. split; [reflexivity|exact R4].
  - destruct A3 as (l & -> & A3 & A4); [lia|].
    replace (0 <? a_size a) with true by lia. replace (a_size a <=? zlen l) with true by lia.
    unfold malloc, with_heap. cbn [m_heap m_stat m_frames m_next m_ctx obind].
    destruct (create_end s T a (set_payload f0 (Some (length (m_heap s), 0))) [Some (firstn (Z.to_nat (a_size a)) l ++ [0])]
      (mkTK 1 false false (negb (has_heads a)) true false (has_heads a) (a_size a) (heads_size a))
      (mkFM (m_heap s ++ [Some (firstn (Z.to_nat (a_size a)) l ++ [0])]) (m_stat s) (m_frames s) (m_next s + 1) (m_ctx s + 1)))
      as (s' & f' & R1 & R2 & R3 & R4 & (hd & R5 & R6) & R7); auto.
    + right. eexists. split; reflexivity.
    + cbn. lia.
    + intros hd Hd. assert (L1 : length (firstn (Z.to_nat (a_size a)) l) = Z.to_nat (a_size a)) by (rewrite firstn_length; unfold zlen in *; lia).
      constructor; cbn [f_ref f_size f_hsize f_hdr f_buffer f_content f_payload set_hdr set_payload f0 blank_frame
                        t_held t_size t_hsize t_hdrs t_recv t_proc t_gone t_exact t_term some]; auto; try lia; try discriminate.
      split; [auto|]. split; [auto|]. exists (firstn (Z.to_nat (a_size a)) l ++ [0]). rewrite nth_app_new. conj; auto; try lia.
      * unfold zlen. rewrite app_length, L1. cbn. lia.
      * apply firstn_defined. apply defined_app; [apply firstn_defined; auto|]. repeat constructor; lia.
      * intros _. replace (Z.to_nat (0 + a_size a)) with (length (firstn (Z.to_nat (a_size a)) l)) by (rewrite L1; f_equal; lia). apply nth_app_new.
    + exists s', f'. conj; auto. exists hd, (Some (length (m_heap s), 0)). split; [exact R5|]. split; [exact R6|]. split; [|intro; lia].
      intros _. exists l. conj; auto.
Qed.
