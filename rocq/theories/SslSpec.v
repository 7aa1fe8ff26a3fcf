(** What the handlers of a connection are to return for what the transport did: octets moved, 0 for closed, -1 for an error, -2 for come again. *)
From Verif Require Import Base SslModel.

Inductive read_means : did -> Z -> Prop :=
| rm_data : forall n, 0 < n -> read_means (DData n) n
| rm_want : read_means DWant (-2)
| rm_closed : read_means DClosed 0
| rm_eof : read_means DEof 0
| rm_errno : forall e, e <> EINTR -> read_means (DErrno e) (-1)
| rm_bad : read_means DBad (-1).
Inductive write_means : did -> Z -> Prop :=
| wm_data : forall n, 0 < n -> write_means (DData n) n
| wm_want : write_means DWant (-2)
| wm_closed : write_means DClosed 0
| wm_eof : write_means DEof (-1)
| wm_errno : forall e, e <> EINTR -> write_means (DErrno e) (-1)
| wm_bad : write_means DBad (-1).
(** The turns of a call: interrupted by signals, then something; no other thread comes between. *)
Definition call_of (al : list turn) (d : did) : Prop :=
  exists n, al = repeat (mkTn (DErrno EINTR) []) n ++ [mkTn d []].
(** A call with one turn. *)
Definition one (d : did) : list turn := [mkTn d []].
(** A read, or a write that does not fail in the protocol, of an object without close_notify before. *)
Inductive plain : op -> did -> Z -> Prop :=
| pl_read : forall c al d v, call_of al d -> read_means d v -> d <> DClosed -> plain (ORead c al) d v
| pl_write : forall c al d v, call_of al d -> write_means d v -> d <> DClosed -> d <> DBad -> plain (OWrite c al) d v.
