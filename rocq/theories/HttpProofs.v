(** Proofs about connections created through an HTTP proxy. *)
From Coq Require Import String.
From Verif Require Import Base CodecModel CodecSpec CodecProofs CodecProofs2 GreetModel HttpModel HttpSpec.
Open Scope string_scope.
Open Scope Z_scope.
Open Scope list_scope.
Ltac conj := repeat match goal with |- _ /\ _ => split end.

Lemma never_alive s : never_again s -> alive s.
Proof. unfold never_again, alive. apply Forall_impl. intros [] A; auto. Qed.

Lemma split_at_lf (a b a' b' : bytes) : ~ In 10 a -> ~ In 10 a' -> a ++ 10 :: b = a' ++ 10 :: b' -> a = a' /\ b = b'.
Proof.
  revert a'. induction a as [|x a IH]; intros [|y a'] A A' E; cbn [app] in E.
  - inversion E; auto.
  - inversion E; subst. exfalso. apply A'. left; reflexivity.
  - inversion E; subst. exfalso. apply A. left; reflexivity.
  - inversion E; subst. destruct (IH a') as [-> ->]; auto.
    + intros I. apply A. right; exact I.
    + intros I. apply A'. right; exact I.
Qed.

Lemma before_lf (d r l rest : bytes) : ~ In 10 d -> d ++ r = l ++ 10 :: rest -> (List.length d <= List.length l)%nat.
Proof.
  revert d. induction l as [|x l IH]; intros [|y d] A E; cbn [app List.length] in *; try lia.
  - inversion E; subst. exfalso. apply A. left; reflexivity.
  - inversion E; subst. apply le_n_S. apply (IH d); [|assumption]. intros I. apply A. right; exact I.
Qed.

(** A line that is there and fits is read, exactly. *)
Lemma line_read s l rest : never_again s -> sdata s = l ++ 10 :: rest -> ~ In 10 l -> (List.length l < 1023)%nat ->
  exists s', http_readline [] s = (RLine (zlen l + 1) (l ++ [10]), s') /\ sdata s' = rest /\ never_again s'.
Proof.
  intros N D T L. unfold http_readline. cbn [zlen List.length Z.of_nat].
  change (zlen (@nil Z)) with 0. destruct (Z.leb_spec 1024 0); [lia|].
  destruct (readline_loop (Z.to_nat (1024 - 0 - 1)) true [] s) as [r s'] eqn:E.
  apply readline_loop_spec in E. destruct E as (_ & N' & _ & E).
  pose proof (never_alive s N) as AL.
  destruct r as [n line| |p|].
  - destruct E as (d & Ed & El & _ & [(En & _ & d0 & Ed0 & T0)|(En & T0 & [Lr|X])]).
    + subst d line. cbn [app] in *. rewrite D, <- app_assoc in Ed. cbn [app] in Ed.
      destruct (split_at_lf _ _ _ _ T T0 Ed) as [X Y]. subst d0 rest n.
      exists s'. conj; auto. f_equal. f_equal. unfold zlen. rewrite app_length. cbn [List.length]. lia.
    + exfalso. assert (A : (List.length d <= List.length l)%nat) by (eapply before_lf; [exact T0|rewrite <- Ed; exact D]). lia.
    + contradiction.
  - contradiction.
  - exfalso. destruct E as (d & Ed & _ & T0 & _ & _ & Es). specialize (Es N). subst s'. cbn [sdata] in Ed.
    rewrite app_nil_r in Ed. rewrite Ed in D. apply T0. rewrite D. apply in_app_iff. right; left; reflexivity.
  - contradiction.
Qed.

Lemma http_line s r s' : http_readline [] s = (r, s') -> exists d, sdata s = d ++ sdata s' /\
  match r with RLine _ line => line = d | RLAgain p => p = cstr d | _ => True end.
Proof.
  unfold http_readline. change (zlen (@nil Z)) with 0. destruct (Z.leb_spec 1024 0); [lia|].
  intros E. apply readline_loop_data in E. destruct E as (d & Ed & E). exists d. split; [exact Ed|].
  destruct r; auto. destruct E as [E _]. exact E.
Qed.

Lemma eqb_eq a b : bytes_eqb a b = true <-> a = b.
Proof.
  revert b. induction a as [|x a IH]; intros [|y b]; cbn [bytes_eqb]; split; intros E; try discriminate; auto.
  - apply andb_true_iff in E. destruct E as [A B]. apply Z.eqb_eq in A. apply IH in B. subst. reflexivity.
  - inversion E; subst. rewrite Z.eqb_refl. cbn. apply IH. reflexivity.
Qed.

Lemma positive_spec line : is_positive line = true <-> is_2xx line.
Proof.
  unfold is_positive. rewrite orb_true_iff, !eqb_eq. split.
  - intros E. rewrite <- (firstn_skipn 10 line). destruct E as [->| ->].
    + exists 48, (skipn 10 line). auto.
    + exists 49, (skipn 10 line). auto.
  - intros (d & r & [->| ->] & ->); [left|right]; reflexivity.
Qed.

Lemma positive_app status r : List.length status = 10%nat \/ (10 < List.length status)%nat ->
  is_2xx (status ++ r) -> is_2xx status.
Proof.
  intros L H. rewrite <- positive_spec in *. unfold is_positive in *.
  rewrite firstn_app in H. replace (10 - List.length status)%nat with 0%nat in H by lia.
  cbn [firstn] in H. rewrite app_nil_r in H. exact H.
Qed.

(** ** The tunnel *)
Lemma only_after_2xx host port handler px greet p s2 :
  h_start (http_new host port handler px greet) = Some (p, s2) ->
  exists s line more, px = PUp s /\ is_2xx line /\ sdata s = line ++ more ++ sdata s2 /\
    h_sent (http_new host port handler px greet) = Some (connect_header host port).
Proof.
  unfold http_new. destruct px as [| | |s]; try (destruct handler; cbn; discriminate).
  destruct (http_readline [] s) as [r s1] eqn:E. apply http_line in E. destruct E as (d & Ed & E).
  destruct r as [n line| |q|]; try (destruct handler; cbn; discriminate). subst line.
  destruct (is_positive d) eqn:P; cbn [negb]; [|cbn; discriminate].
  destruct (http_readline [] s1) as [r2 s3] eqn:E2. apply http_line in E2. destruct E2 as (d2 & Ed2 & _).
  intros H. assert (s3 = s2) by (destruct handler; cbn in H; inversion H; reflexivity). subst s3.
  exists s, d, d2. conj; auto.
  - apply positive_spec; exact P.
  - rewrite Ed, Ed2. reflexivity.
  - destruct handler; reflexivity.
Qed.

Lemma up_greeted host port handler px greet :
  h_up (http_new host port handler px greet) = true ->
  exists p s2, h_start (http_new host port handler px greet) = Some (p, s2) /\ greet p s2 = true.
Proof.
  unfold http_new. destruct px as [| | |s]; try (destruct handler; cbn; discriminate).
  destruct (http_readline [] s) as [r s1].
  destruct r as [n line| |q|]; try (destruct handler; cbn; discriminate).
  destruct (is_positive line); cbn [negb]; [|cbn; discriminate].
  destruct (http_readline [] s1) as [r2 s3]. destruct handler; cbn; intros H; do 2 eexists; (split; [reflexivity|exact H]).
Qed.

Lemma status_first status headers rest : reply status headers ++ rest =
  (status ++ [13]) ++ 10 :: concat (map (fun h => h ++ [13; 10]) headers) ++ 13 :: 10 :: rest.
Proof. unfold reply. rewrite <- !app_assoc. reflexivity. Qed.

Lemma text_cr l : text l -> ~ In 10 (l ++ [13]).
Proof. intros T I. apply in_app_iff in I. destruct I as [I|[I|[]]]; [exact (T I)|discriminate]. Qed.

Lemma is_2xx_cr status : is_2xx status -> is_2xx ((status ++ [13]) ++ [10]).
Proof. intros (d & r & D & ->). exists d, (r ++ [13; 10]). split; [exact D|]. rewrite <- !app_assoc. reflexivity. Qed.

Lemma not_2xx_cr status : is_2xx ((status ++ [13]) ++ [10]) -> is_2xx status.
Proof.
  intros H. rewrite <- app_assoc in H. cbn [app] in H.
  destruct (Nat.lt_ge_cases (List.length status) 10) as [L|L].
  - exfalso. destruct H as (d & r & D & H).
    assert (E : firstn 10 (status ++ [13; 10]) = [72; 84; 84; 80; 47; 49; 46; d; 32; 50]) by (rewrite H; reflexivity).
    rewrite firstn_app in E.
    assert (In 13 [72; 84; 84; 80; 47; 49; 46; d; 32; 50]).
    { rewrite <- E. apply in_app_iff. right. destruct (10 - List.length status)%nat as [|k] eqn:K; [lia|]. left; reflexivity. }
    cbn [In] in H0. destruct D as [->| ->]; intuition discriminate.
  - apply (positive_app status [13; 10]); [lia|exact H].
Qed.

(** The whole of the reply is read when it has no header lines; otherwise the
    first header line is read and the rest stays. *)
Lemma start_at host port handler s greet status headers rest :
  never_again s -> sdata s = reply status headers ++ rest -> text status -> Forall text headers ->
  (List.length status < 1022)%nat -> Forall (fun h => (List.length h < 1022)%nat) headers -> is_2xx status ->
  exists s2, h_start (http_new host port handler (PUp s) greet) = Some ([], s2) /\
    never_again s2 /\ h_up (http_new host port handler (PUp s) greet) = greet [] s2 /\
    sdata s2 = match headers with [] => rest
               | _ :: hs => concat (map (fun h => h ++ [13; 10]) hs) ++ [13; 10] ++ rest end.
Proof.
  intros N D T TH L LH P. rewrite status_first in D.
  destruct (line_read s (status ++ [13]) _ N D (text_cr _ T)) as (s1 & E1 & D1 & N1).
  { rewrite app_length. cbn [List.length]. lia. }
  unfold http_new. rewrite E1.
  assert (P1 : is_positive ((status ++ [13]) ++ [10]) = true) by (apply positive_spec, is_2xx_cr; exact P).
  rewrite P1. cbn [negb].
  destruct headers as [|h hs].
  - cbn [map concat app] in D1.
    destruct (line_read s1 [13] rest N1 D1) as (s2 & E2 & D2 & N2).
    { intros [I|[]]. discriminate. } { cbn. lia. }
    rewrite E2. exists s2. destruct handler; cbn; conj; auto.
  - cbn [map concat] in D1. inversion TH; subst. inversion LH; subst.
    rewrite <- !app_assoc in D1. cbn [app] in D1.
    assert (D1' : sdata s1 = (h ++ [13]) ++ 10 :: concat (map (fun h => h ++ [13; 10]) hs) ++ 13 :: 10 :: rest).
    { rewrite D1, <- app_assoc. reflexivity. }
    destruct (line_read s1 (h ++ [13]) _ N1 D1' (text_cr _ H1)) as (s2 & E2 & D2 & N2).
    { rewrite app_length. cbn [List.length]. lia. }
    rewrite E2. exists s2. destruct handler; cbn; conj; auto.
Qed.

Lemma negative host port handler s greet status headers rest :
  never_again s -> sdata s = reply status headers ++ rest -> text status ->
  (List.length status < 1022)%nat -> ~ is_2xx status ->
  h_start (http_new host port handler (PUp s) greet) = None /\
  h_up (http_new host port handler (PUp s) greet) = false /\
  h_told (http_new host port handler (PUp s) greet) = [] /\
  h_freed (http_new host port handler (PUp s) greet) = false.
Proof.
  intros N D T L P. rewrite status_first in D.
  destruct (line_read s (status ++ [13]) _ N D (text_cr _ T)) as (s1 & E1 & D1 & N1).
  { rewrite app_length. cbn [List.length]. lia. }
  unfold http_new. rewrite E1.
  destruct (is_positive ((status ++ [13]) ++ [10])) eqn:P1.
  - exfalso. apply P. apply not_2xx_cr, positive_spec. exact P1.
  - cbn. auto.
Qed.

(** ** What the caller is told *)
Lemma told_once host port px greet :
  let r := http_new host port true px greet in
  h_ret r = None /\ h_flag r = false /\
  ((h_told r = [h_up r] /\ h_freed r = true) \/
   (h_told r = [] /\ h_freed r = false /\ h_up r = false /\ exists s line more, px = PUp s /\ sdata s = line ++ more /\ ~ is_2xx line)).
Proof.
  cbn zeta. unfold http_new. destruct px as [| | |s]; try (cbn; conj; auto; left; split; reflexivity).
  destruct (http_readline [] s) as [r s1] eqn:E. apply http_line in E. destruct E as (d & Ed & E).
  destruct r as [n line| |q|]; try (cbn; conj; auto; left; split; reflexivity). subst line.
  destruct (is_positive d) eqn:P; cbn [negb].
  - destruct (http_readline [] s1) as [r2 s3]. cbn. conj; auto.
  - cbn. conj; auto. right. conj; auto. exists s, d, (sdata s1). conj; auto. rewrite <- positive_spec, P. discriminate.
Qed.

Lemma told_sync host port px greet :
  let r := http_new host port false px greet in h_ret r = Some (h_up r) /\ h_told r = [].
Proof.
  cbn zeta. unfold http_new. destruct px as [| | |s]; try (cbn; conj; auto; fail).
  destruct (http_readline [] s) as [r s1]. destruct r as [n line| |q|]; try (cbn; conj; auto; fail).
  destruct (is_positive line); cbn [negb]; [|cbn; auto].
  destruct (http_readline [] s1) as [r2 s3]. cbn. auto.
Qed.

(** The setup reference is kept for ever exactly when the reply is negative; and
    a connection obtained is never left without being told, otherwise. *)
Lemma flagged host port handler px greet :
  h_up (http_new host port handler px greet) = true ->
  is_proxied (http_new host port handler px greet) = negb handler.
Proof.
  unfold http_new, is_proxied. destruct px as [| | |s]; try (destruct handler; cbn; discriminate).
  destruct (http_readline [] s) as [r s1]. destruct r as [n line| |q|]; try (destruct handler; cbn; discriminate).
  destruct (is_positive line); cbn [negb]; [|cbn; discriminate].
  destruct (http_readline [] s1) as [r2 s3]. destruct handler; cbn; auto.
Qed.

(** ** The request *)
Lemma lines_from_text acc l rest : ~ In 10 l -> lines_from acc (l ++ 10 :: rest) = (acc ++ l ++ [10]) :: lines_from [] rest.
Proof.
  revert acc. induction l as [|c l IH]; intros acc T; cbn [app lines_from].
  - reflexivity.
  - destruct (Z.eqb_spec c 10) as [->|X].
    + exfalso. apply T. left; reflexivity.
    + rewrite IH; [|intros I; apply T; right; exact I]. rewrite <- !app_assoc. reflexivity.
Qed.

Lemma not_in_app (a b : bytes) : ~ In 10 a -> ~ In 10 b -> ~ In 10 (a ++ b).
Proof. intros A B I. apply in_app_iff in I. destruct I; auto. Qed.

Definition first_line (host port : bytes) : bytes :=
  (asc "CONNECT " ++ host ++ asc ":" ++ port ++ asc " HTTP/1.1") ++ [13].
Definition second_line (host port : bytes) : bytes := (asc "Host: " ++ host ++ asc ":" ++ port) ++ [13].

Ltac nolf := let I := fresh in intros I; vm_compute in I; intuition discriminate.

Lemma request_lines host port : ~ In 10 host -> ~ In 10 port ->
  lines (connect_header host port) = [first_line host port ++ [10]; second_line host port ++ [10]; [13; 10]].
Proof.
  intros H P. unfold lines.
  assert (E : connect_header host port = first_line host port ++ 10 :: (second_line host port ++ 10 :: ([13] ++ 10 :: []))).
  { unfold connect_header, first_line, second_line, CRLF, CR, LF. rewrite <- !app_assoc. reflexivity. }
  rewrite E, lines_from_text, lines_from_text, lines_from_text.
  - reflexivity.
  - nolf.
  - unfold second_line. repeat apply not_in_app; auto; nolf.
  - unfold first_line. repeat apply not_in_app; auto; nolf.
Qed.

(** ** Witnesses *)
Definition w_host : bytes := asc "beep.example".
Definition w_port : bytes := asc "602".
Definition w_200 : bytes := asc "HTTP/1.1 200 OK".
Definition w_407 : bytes := asc "HTTP/1.1 407 Proxy Authentication Required".
Definition w_via : bytes := asc "Via: 1.1 proxy".
Definition w_rpy : bytes := asc "RPY 0 0 . 0 52".

Lemma header_left : exists s s2, never_again s /\ sdata s = reply w_200 [w_via] ++ w_rpy /\ is_2xx w_200 /\ text w_200 /\ text w_via /\
  h_start (http_new w_host w_port false (PUp s) (fun _ _ => true)) = Some ([], s2) /\ sdata s2 = [13; 10] ++ w_rpy.
Proof.
  exists [SData (reply w_200 [w_via]); SData w_rpy], [SData [13; 10]; SData w_rpy]. conj.
  - repeat constructor.
  - reflexivity.
  - exists 49, (asc "00 OK"). split; [right; reflexivity|reflexivity].
  - unfold text. nolf.
  - unfold text. nolf.
  - vm_compute. reflexivity.
  - reflexivity.
Qed.

Lemma never_told : exists s, never_again s /\ sdata s = reply w_407 [] /\
  let r := http_new w_host w_port true (PUp s) (fun _ _ => true) in
  h_told r = [] /\ h_ret r = None /\ h_freed r = false.
Proof. exists [SData (reply w_407 [])]. conj; [repeat constructor|reflexivity|vm_compute; repeat split]. Qed.

Lemma not_flagged : exists s,
  let r := http_new w_host w_port true (PUp s) (fun _ _ => true) in h_told r = [true] /\ is_proxied r = false.
Proof. exists [SData (reply w_200 [])]. vm_compute. repeat split. Qed.

Lemma flagged_down : exists px,
  let r := http_new w_host w_port false px (fun _ _ => true) in h_ret r = Some false /\ is_proxied r = true.
Proof. exists PNone. vm_compute. repeat split. Qed.

Definition w_evil : bytes := asc "a:1 HTTP/1.1" ++ [13; 10] ++ asc "X: ".
Lemma injected : exists host, (List.length (lines (connect_header host w_port)) = 5)%nat.
Proof. exists w_evil. vm_compute. reflexivity. Qed.
