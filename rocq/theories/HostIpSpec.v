(** The text that tells an address, without the functions of the model: the four numbers of an IPv4 address, the sixteen octets of an IPv6 one. *)
From Verif Require Import Base HostIpModel.

Inductive tells : addr -> list Z -> Prop :=
| tl_4 : forall port a b c d, tells (V4 port a b c d) [a; b; c; d]
| tl_6 : forall port flow a scope, List.length a = 16%nat -> tells (V6 port flow a scope) a.
Definition is4 (x : addr) : Prop := match x with V4 _ _ _ _ _ => True | _ => False end.
Definition conn_new (master : bool) : conn := mkC master [] None.
Definition name_of (master : bool) (k : sock) : option addr := if master then k_local k else k_peer k.
