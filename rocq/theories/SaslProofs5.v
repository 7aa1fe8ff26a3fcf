(** SASL, the listener: runs in which something goes wrong. *)
From Verif Require Import Base SaslModel SaslSpec.

Ltac conj := repeat match goal with |- _ /\ _ => split end.

(** Two users, 1 with the password 11 and 2 with 22. *)
Definition password (i : option Z) : option Z :=
  match i with Some 1 => Some 11 | Some 2 => Some 22 | _ => None end.
Definition users : handlers :=
  mkH (fun _ => None)
      (fun m => match m with
                | MPlain => Some (fun c => match password (c_authid c), c_password c with Some a, Some b => a =? b | _, _ => false end)
                | _ => None end)
      (fun m => match m with MCram | MDigest => Some (fun c => password (c_authid c)) | _ => None end)
      None.

Definition final (l : list sev) : sst := match srun users sasl0 l with Ok s => s | UB => sasl0 end.
(** What the library does with a PLAIN message and with a CRAM-MD5 response. *)
Definition login (u pw : Z) : list gop := [GSet PAuthid (Some u); GSet PPassword (Some pw); GCall AskSimple].
Definition respond (u : Z) : list gop := [GSet PAuthid (Some u); GGet PPassword].
Ltac contracts := repeat match goal with
  | |- True => exact Logic.I
  | |- contract _ _ _ _ _ _ => unfold contract; cbn
  | |- _ /\ _ => split
  | |- Forall _ [] => constructor
  | |- Forall _ (login _ _) => unfold login
  | |- Forall _ (respond _) => unfold respond
  | |- Forall _ (_ :: _) => constructor
  | |- own _ _ => first [exact Logic.I | reflexivity | split; discriminate]
  | |- ?a = ROk -> _ => first [discriminate | intros _]
  end.

Definition start_cram : sev := SStart 1 MCram BStarts BNone [] RMore.
(** An abort in a message. *)
Definition aborting : list sev := [start_cram; SFrame 1 BAbort [] ROther].
Lemma abort_witness : exists h l, faithful h sasl0 l /\ srun h sasl0 l = UB.
Proof. exists users, aborting. split; [|reflexivity]. cbn. contracts. Qed.
(** A start that fails while there is a SASL channel. *)
Definition half : list sev := [start_cram; SStart 3 MPlain BStartFails BNone [] ROther; SFrame 1 (BData (Some 11)) [] ROther].
Lemma half_witness : exists h l, faithful h sasl0 l /\ Forall (fun e => match e with SFrame _ BAbort _ _ | SStart _ _ _ BAbort _ _ => False | _ => True end) l /\
  srun h sasl0 l = UB.
Proof. exists users, half. split; [|split; [|reflexivity]]; [cbn; contracts|repeat constructor]. Qed.

(** User 1 logs in, and then sends the name of user 2 and a wrong password. *)
Definition again : list sev := [SStart 1 MPlain BStarts (BData None) (login 1 11) ROk; SFrame 1 (BData None) (login 2 99) RAuthError].
Lemma again_witness : exists h l s, faithful h sasl0 l /\ srun h sasl0 l = Ok s /\ is_authenticated s = true /\ auth_id s = UB.
Proof.
  exists users, again, (final again). split; [|conj; vm_compute; reflexivity]. cbn. contracts; try reflexivity.
  exists [GSet PAuthid (Some 1); GSet PPassword (Some 11)]. reflexivity.
Qed.
(** User 1 makes a response with a wrong password, and then one with the name of user 2 and
    its own password: it never had the password of user 2. *)
Definition retry : list sev :=
  [start_cram; SFrame 1 (BData (Some 99)) (respond 1) RAuthError; SFrame 1 (BData (Some 11)) (respond 2) ROk].
Lemma retry_witness : exists h l s, faithful h sasl0 l /\ srun h sasl0 l = Ok s /\ is_authenticated s = true /\ auth_id s = UB /\
  (exists l1, s_log s = l1 ++ [OComplete MCram (Some 11)]) /\
  (exists g, s_data s = Some (Some g) /\ value (g_authid g) = Some 2) /\ says h MCram (mkC (Some 2) None None None None) = HPassword 22.
Proof.
  exists users, retry, (final retry). split; [|split; [|split; [|split; [|split; [|split]]]]]; try (vm_compute; reflexivity).
  - lazy -[contract]. contracts; try discriminate. reflexivity.
  - eexists (_ :: _ :: _ :: _ :: nil). vm_compute. reflexivity.
  - eexists. split; vm_compute; reflexivity.
Qed.
(** An attempt as user 2 for user 2 that fails, then user 1 logs in: the authorization id left. *)
Definition left_over : list sev :=
  [SStart 1 MDigest BStarts BNone [] RMore;
   SFrame 1 (BData (Some 99)) [GSet PAuthid (Some 2); GSet PAuthzid (Some 2); GGet PPassword] RAuthError;
   SStart 3 MCram BStarts BNone [] RMore; SFrame 3 (BData (Some 11)) (respond 1) ROk].
Lemma left_witness : exists h l s, faithful h sasl0 l /\ srun h sasl0 l = Ok s /\ is_authenticated s = true /\
  auth_id s = Ok (Some 1) /\ authz_id s = UB.
Proof.
  exists users, left_over, (final left_over). split; [|conj; vm_compute; reflexivity].
  lazy -[contract]. contracts; try discriminate. reflexivity.
Qed.

(** The negotiation of a channel goes on with the session of another that was refused. *)
Definition crossed : list sev :=
  [start_cram; SStart 3 MPlain BStarts (BData None) (login 1 99) RAuthError; SFrame 1 (BData None) (login 1 11) ROk].
Lemma crossed_witness : exists h l s, faithful h sasl0 l /\ srun h sasl0 l = Ok s /\
  (exists l1, s_log s = l1 ++ [OComplete MPlain None]) /\ is_authenticated s = false.
Proof.
  exists users, crossed, (final crossed). split; [|split; [vm_compute; reflexivity|split; [|vm_compute; reflexivity]]].
  - lazy -[contract]. contracts; try reflexivity. exists [GSet PAuthid (Some 1); GSet PPassword (Some 11)]. reflexivity.
  - eexists (_ :: _ :: _ :: _ :: _ :: _ :: _ :: nil). vm_compute. reflexivity.
Qed.

(** Closing the SASL channel, and a message that is not a blob. *)
Definition logged : list sev := [SStart 1 MPlain BStarts (BData None) (login 1 11) ROk].
Lemma logged_faithful : faithful users sasl0 logged.
Proof. cbn. contracts; try reflexivity. exists [GSet PAuthid (Some 1); GSet PPassword (Some 11)]. reflexivity. Qed.
Lemma close_witness : exists h l s s', faithful h sasl0 l /\ srun h sasl0 l = Ok s /\ is_authenticated s = true /\
  sstep h s (SClose 1) = Ok s' /\ is_authenticated s' = false.
Proof. exists users, logged, (final logged). eexists. split; [exact logged_faithful|conj; vm_compute; reflexivity]. Qed.
Lemma malformed_witness : exists h l s s', faithful h sasl0 l /\ srun h sasl0 l = Ok s /\ is_authenticated s = true /\
  sstep h s (SFrame 1 BBad [] ROther) = Ok s' /\ is_authenticated s' = false /\ auth_id s' = Ok None.
Proof. exists users, logged, (final logged). eexists. split; [exact logged_faithful|conj; vm_compute; reflexivity]. Qed.

(** CRAM-MD5 as it goes. *)
Definition answered : list sev := [start_cram; SFrame 1 (BData (Some 11)) (respond 1) ROk].
Lemma answered_faithful : faithful users sasl0 answered.
Proof. cbn. contracts; try discriminate. reflexivity. Qed.
