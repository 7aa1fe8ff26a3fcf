(** Model of the file payload feeder.
    Source: src/vortex_payload_feeder.c. *)
From Verif Require Import Base CodecModel FlowModel SequencerModel.

(** VortexPayloadFileFeeder (src/vortex_payload_feeder.c:87-91) and the FILE it
    reads: bytes not read yet and the end-of-file indicator. *)
Record ffile := mkFF { ff_size : Z; ff_rest : bytes; ff_eof : bool; ff_mime : bool }.

(** vortex_payload_feeder_file (src/vortex_payload_feeder.c:187-220): st_size
    is stored into an int.  The file does not change while it is read. *)
Definition ff_new (content : bytes) (add_mime : bool) : ffile :=
  mkFF (s32 (zlen content)) content false add_mime.

(** fread of [n] octets: those available; a short count sets the end-of-file
    indicator. *)
Definition fread (f : ffile) (n : Z) : bytes * ffile :=
  let k := Z.to_nat (Z.min n (zlen (ff_rest f))) in
  (firstn k (ff_rest f),
   mkFF (ff_size f) (skipn k (ff_rest f)) (ff_eof f || (zlen (ff_rest f) <? n)) (ff_mime f)).

(** PAYLOAD_FEEDER_GET_SIZE (src/vortex_payload_feeder.c:104-109). *)
Definition ff_get_size (f : ffile) : outcome Z :=
  if two31 <=? ff_size f + 2 then UB else Ok (ff_size f + 2).

(** PAYLOAD_FEEDER_GET_CONTENT (src/vortex_payload_feeder.c:110-128).  The size
    passed to fread is a size_t: (size - 2) is converted modulo 2^64.  The
    bytes produced are returned; that they fit in the buffer is checked by the
    caller of this definition ([feeder_get_content]). *)
Definition ff_get_content (f : ffile) (size : Z) : outcome (bytes * ffile) :=
  if ff_mime f then
    let f' := mkFF (ff_size f) (ff_rest f) (ff_eof f) false in
    let (bs, f'') := fread f' ((size - 2) mod two64) in
    Ok (13 :: 10 :: bs, f'')
  else
    let (bs, f') := fread f size in Ok (bs, f').

(** PAYLOAD_FEEDER_IS_FINISHED (src/vortex_payload_feeder.c:129-134). *)
Definition ff_is_finished (f : ffile) : bool := ff_eof f.

Definition file_ops : fops ffile := mkOps ff_get_size ff_get_content ff_is_finished.

(** A feeder just created (src/vortex_payload_feeder.c:69-85) with or without a
    finish handler (345-356). *)
Definition file_feeder (content : bytes) (add_mime handler : bool) : feeder ffile :=
  mkFeeder (ff_new content add_mime) 0 false 0 handler false 0.

(** [n] calls to vortex_payload_feeder_is_finished. *)
Fixpoint ask_finished {A} (ops : fops A) (n : nat) (f : feeder A) : feeder A :=
  match n with O => f | S n' => ask_finished ops n' (snd (feeder_is_finished ops f)) end.

(** Resuming: sending the feeder again clears its status
    (src/vortex_channel.c:2565-2569, 3148-3152). *)
Definition resume {A} (f : feeder A) : feeder A :=
  mkFeeder (fe_state f) 0 (fe_close f) (fe_transferred f) (fe_handler f) (fe_notified f) (fe_calls f).
