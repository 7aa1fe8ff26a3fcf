(** Properties C334-C336: the IP of a connection. *)
From Verif Require Import Base HostIpModel HostIpSpec HostIpProofs.

(** * C334: the IP told is that of the connection *)
Theorem C334_ipv4_partial : forall log k master x, name_of master k = Some x -> is4 x ->
  exists p c t, get_ip log k (Some (conn_new master)) = Ok (Some p, Some c) /\ read_text c p = Ok t /\ tells x t.
Proof. exact ip4. Qed.
Print Assumptions C334_ipv4_partial.
Example C334_ex : let k := mkK (Some (V4 (4, 210) 127 0 0 1)) (Some (V4 (200, 3) 10 0 0 7)) in
  (exists c, get_ip true k (Some (conn_new false)) = Ok (Some 0%nat, Some c) /\ read_text c 0 = Ok [10; 0; 0; 7]) /\
  (exists c, get_ip true k (Some (conn_new true)) = Ok (Some 0%nat, Some c) /\ read_text c 0 = Ok [127; 0; 0; 1]).
Proof. split; eexists; split; reflexivity. Qed.
(** The address of an IPv6 socket is read as one of IPv4, whose place has the flow information: 0.0.0.0. *)
Theorem C334_ipv6_refuted : exists k x p c t,
  name_of false k = Some x /\ get_ip false k (Some (conn_new false)) = Ok (Some p, Some c) /\ read_text c p = Ok t /\ t = [0; 0; 0; 0] /\ ~ tells x t.
Proof. exact ip6_refuted. Qed.
Print Assumptions C334_ipv6_refuted.
Theorem C334_ipv6_never : forall log k master port flow a scope, name_of master k = Some (V6 port flow a scope) -> List.length a = 16%nat ->
  exists p c t, get_ip log k (Some (conn_new master)) = Ok (Some p, Some c) /\ read_text c p = Ok t /\ List.length t = 4%nat /\ ~ tells (V6 port flow a scope) t.
Proof. exact ip6_never. Qed.
Print Assumptions C334_ipv6_never.

(** * C335: the string given stays *)
Theorem C335_same_partial : forall log k c p c' ks, get_ip log k (Some c) = Ok (Some p, Some c') -> get_ips log ks c' = Ok (map (fun _ => Some p) ks, c').
Proof. exact same_ip. Qed.
Print Assumptions C335_same_partial.
Example C335_ex : exists c, get_ips false [mkK None (Some (V4 (0, 9) 1 2 3 4)); mkK None None; mkK None (Some (V4 (0, 9) 5 6 7 8))] (conn_new false)
    = Ok ([Some 0%nat; Some 0%nat; Some 0%nat], c) /\ read_text c 0 = Ok [1; 2; 3; 4].
Proof. eexists. split; reflexivity. Qed.
(** vortex_connection_set_host_and_port frees what callers were given. *)
Theorem C335_set_refuted : exists k c p c' ip,
  get_ip false k (Some c) = Ok (Some p, Some c') /\ read_text c' p = Ok [10; 0; 0; 1] /\ read_text (set_host c' ip) p = UB.
Proof. exact stale_refuted. Qed.
Print Assumptions C335_set_refuted.

(** * C336: NULL when there is nothing to tell, and asked again the next time *)
Theorem C336_null : forall log k c, c_ip c = None -> name_of (c_master c) k = None -> get_ip log k (Some c) = Ok (None, Some c).
Proof. exact no_name. Qed.
Print Assumptions C336_null.
Theorem C336_retried_partial : forall log ks k master x, Forall (fun k => name_of master k = None) ks -> name_of master k = Some x -> is4 x ->
  exists p c t, get_ips log (ks ++ [k]) (conn_new master) = Ok (map (fun _ => None) ks ++ [Some p], c) /\ read_text c p = Ok t /\ tells x t.
Proof. exact retried. Qed.
Print Assumptions C336_retried_partial.
Example C336_ex : exists c, get_ips true [mkK None None; mkK (Some (V4 (0, 9) 9 9 9 9)) None; mkK None (Some (V4 (0, 9) 5 6 7 8))] (conn_new false)
    = Ok ([None; None; Some 0%nat], c) /\ read_text c 0 = Ok [5; 6; 7; 8].
Proof. eexists. split; reflexivity. Qed.
(** Without the log a NULL connection gives NULL. *)
Theorem C336_no_connection_partial : forall k, get_ip false k None = Ok (None, None).
Proof. reflexivity. Qed.
Print Assumptions C336_no_connection_partial.
(** With the log the context is read from the connection before it is compared with NULL. *)
Theorem C336_no_connection_refuted : exists k, get_ip true k None = UB.
Proof. exact null_refuted. Qed.
Print Assumptions C336_no_connection_refuted.
