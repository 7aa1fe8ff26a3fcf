From Verif Require Import Base HostIpModel HostIpSpec.
From Coq Require Import Lia.

Theorem ip4 : forall log k master x, name_of master k = Some x -> is4 x ->
  exists p c t, get_ip log k (Some (conn_new master)) = Ok (Some p, Some c) /\ read_text c p = Ok t /\ tells x t.
Proof.
  intros log k master x N F. unfold get_ip, name_of in *. simpl. rewrite N. destruct x as [[p q] a b c d|]; [|contradiction].
  do 3 eexists. split; [reflexivity|]. split; [reflexivity|]. constructor.
Qed.
Theorem no_name : forall log k c, c_ip c = None -> name_of (c_master c) k = None -> get_ip log k (Some c) = Ok (None, Some c).
Proof. intros log k c I N. unfold get_ip, name_of in *. rewrite I, N. reflexivity. Qed.
(** Once told, it is told again, whatever the kernel says, and what was given stays. *)
Theorem same_ip : forall log k c p c' ks, get_ip log k (Some c) = Ok (Some p, Some c') -> get_ips log ks c' = Ok (map (fun _ => Some p) ks, c').
Proof.
  intros log k c p c' ks H.
  assert (E : c_ip c' = Some p).
  { unfold get_ip in H. destruct (c_ip c) eqn:I; [injection H; intros; subst; assumption|].
    destruct (if c_master c then k_local k else k_peer k); [|discriminate]. injection H; intros; subst. reflexivity. }
  induction ks as [|k' ks IH]; [reflexivity|]. simpl. rewrite E. simpl. rewrite IH. reflexivity.
Qed.
Theorem retried : forall log ks k master x, Forall (fun k => name_of master k = None) ks -> name_of master k = Some x -> is4 x ->
  exists p c t, get_ips log (ks ++ [k]) (conn_new master) = Ok (map (fun _ => None) ks ++ [Some p], c) /\ read_text c p = Ok t /\ tells x t.
Proof.
  intros log ks k master x F N I. induction F as [|k' ks Hk F IH]; simpl.
  - destruct (ip4 log k master x N I) as (p & c & t & G & R & T). unfold get_ip in G. simpl in G. rewrite G. simpl. exists p, c, t. auto.
  - unfold name_of in Hk. rewrite Hk. simpl. destruct IH as (p & c & t & G & R & T). rewrite G. simpl. exists p, c, t. auto.
Qed.

Theorem ip6_refuted : exists k x p c t, name_of false k = Some x /\ get_ip false k (Some (conn_new false)) = Ok (Some p, Some c) /\ read_text c p = Ok t /\ t = [0; 0; 0; 0] /\ ~ tells x t.
Proof.
  exists (mkK None (Some (V6 (4, 210) (0, 0, 0, 0) (32 :: 1 :: 13 :: 184 :: repeat 0 11 ++ [1]) [0; 0; 0; 0]))). do 4 eexists.
  split; [reflexivity|]. split; [reflexivity|]. split; [reflexivity|]. split; [reflexivity|]. intro H. inversion H.
Qed.
(** All the addresses of IPv6: never told. *)
Theorem ip6_never : forall log k master port flow a scope, name_of master k = Some (V6 port flow a scope) -> List.length a = 16%nat ->
  exists p c t, get_ip log k (Some (conn_new master)) = Ok (Some p, Some c) /\ read_text c p = Ok t /\ List.length t = 4%nat /\ ~ tells (V6 port flow a scope) t.
Proof.
  intros log k master [p q] [[[f g] h] i] a scope N L. unfold get_ip, name_of in *. simpl. rewrite N.
  do 3 eexists. split; [reflexivity|]. split; [reflexivity|]. split; [reflexivity|]. intro H. inversion H; subst. discriminate.
Qed.
Theorem null_refuted : exists k, get_ip true k None = UB.
Proof. exists (mkK None None). reflexivity. Qed.
Theorem stale_refuted : exists k c p c' ip, get_ip false k (Some c) = Ok (Some p, Some c') /\ read_text c' p = Ok [10; 0; 0; 1] /\ read_text (set_host c' ip) p = UB.
Proof. exists (mkK None (Some (V4 (4, 210) 10 0 0 1))), (conn_new false). do 2 eexists. exists (Some [10; 0; 0; 2]). repeat split. Qed.
