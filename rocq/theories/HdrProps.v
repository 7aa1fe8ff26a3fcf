(** C183-C185: the MIME headers an application puts on a frame. *)
From Verif Require Import Base MimeModel MimeSpec HdrModel HdrSpec HdrProofs.

(** C183: what is set is what is read, name by name and in the order of the
    calls; for the five usual names only the last value is seen. *)
Theorem C183_seen : forall os, fits os -> exists s,
  h_run h_new 0 os = Ok (Some (s, size_after os)) /\
  forall name, h_get s name = Ok (Some (seen os name)) /\
    h_get_count s name = Ok (Some (match seen os name with [] => -1 | l => zlen l end)).
Proof. exact headers_seen. Qed.
Print Assumptions C183_seen.
Theorem C183_given : forall os name, no_removal os ->
  seen os name = if is_usual name then rev (firstn 1 (rev (given os name))) else given os name.
Proof. exact seen_given. Qed.
Print Assumptions C183_given.
(** The count of a header is not the number of times it was set. *)
Theorem C183_count_refuted : exists os name s z, h_run h_new 0 os = Ok (Some (s, z)) /\ no_removal os /\
  zlen (given os name) = 2 /\ h_get_count s name = Ok (Some 1).
Proof. exact usual_count_wit. Qed.
Print Assumptions C183_count_refuted.

Definition some_headers : list hop :=
  [HSet [82] [49]; HSet [88] [50]; HSet h_ctype [97]; HSet [114] [51]; HSet h_ctype [98]].
Example C183_ex : fits some_headers /\ no_removal some_headers /\
  seen some_headers [82] = [([82], [49]); ([114], [51])] /\ seen some_headers h_ctype = [(h_ctype, [98])] /\
  seen some_headers [89] = [].
Proof.
  split; [|split].
  - intros a b H. assert (Hl : (length a <= 5)%nat) by (change 5%nat with (length some_headers); rewrite H, app_length; lia).
    replace a with (firstn (length a) some_headers) by (rewrite H, firstn_app, Nat.sub_diag, firstn_all, app_nil_r; reflexivity).
    destruct (length a) as [|[|[|[|[|[|k]]]]]]; try lia; split; vm_compute; congruence.
  - intros n H. unfold some_headers in H. cbn in H. intuition discriminate.
  - vm_compute. split; [|split]; reflexivity.
Qed.

(** C184: a header set again is not overwritten and a header removed is still
    there; what does hold is that a removal drops the other values of that name
    and leaves the other names as they were. *)
Theorem C184_other_partial : forall os n name, same_name name n = false -> seen (os ++ [HDel n]) name = seen os name.
Proof. exact removal_other. Qed.
Print Assumptions C184_other_partial.
Theorem C184_overwrite_refuted : exists os n c s z, h_run h_new 0 (os ++ [HSet n c]) = Ok (Some (s, z)) /\
  exists c', c' <> c /\ (exists l, h_get s n = Ok (Some ((n, c') :: l))).
Proof. exact overwrite_wit. Qed.
Print Assumptions C184_overwrite_refuted.
Theorem C184_removal_refuted : exists os n s z, h_run h_new 0 (os ++ [HDel n]) = Ok (Some (s, z)) /\
  seen os n = [(n, hv 97); (n, hv 98)] /\ h_get s n = Ok (Some [(n, hv 97)]).
Proof. exact removal_wit. Qed.
Print Assumptions C184_removal_refuted.
Example C184_ex : same_name [89] [88] = false /\ seen [HSet [89] [49]] [89] = [([89], [49])].
Proof. vm_compute. split; reflexivity. Qed.

(** C185: the size of the headers that the frame reports. *)
Theorem C185_size : forall os, no_removal os -> os <> [] -> size_after os = 2 + hsum os.
Proof. exact size_given. Qed.
Print Assumptions C185_size.
Theorem C185_block_refuted : exists os s z, h_run h_new 0 os = Ok (Some (s, z)) /\ no_removal os /\
  z <> zlen (block (given os hX)) /\ forall n, same_name n hX = false -> given os n = [].
Proof. exact block_wit. Qed.
Print Assumptions C185_block_refuted.
Theorem C185_negative_refuted : exists os s z, h_run h_new 0 os = Ok (Some (s, z)) /\ z < 0.
Proof. exact negative_wit. Qed.
Print Assumptions C185_negative_refuted.
Example C185_ex : no_removal some_headers /\ some_headers <> [] /\ size_after some_headers = 44.
Proof.
  conj; try discriminate.
  - intros n H. unfold some_headers in H. cbn in H. intuition discriminate.
  - vm_compute. reflexivity.
Qed.
