(** Common vocabulary of the model: C integers, bytes and outcomes. *)
From Coq Require Export List ZArith Lia Bool.
From Coq Require Export ZifyBool ZifyNat.
Export ListNotations.
Open Scope Z_scope.

(** 2^31 and 2^32, the limits of the C [int] and [unsigned int] types
    (the project assumes 32 bit ints everywhere, see src/vortex_types.h:224-266
    where MAX_SEQ_MOD is 4294967296 and MAX_CHANNEL_NO is 2147483647). *)
Definition two31 : Z := 2147483648.
Definition two32 : Z := 4294967296.
Definition two63 : Z := 9223372036854775808.
Definition two64 : Z := 18446744073709551616.

(** Conversion to [unsigned int]. *)
Definition u32 (x : Z) : Z := x mod two32.
(** Conversion to [int] (two's complement, as every supported compiler does). *)
Definition s32 (x : Z) : Z := (x + two31) mod two32 - two31.

Definition is_u32 (x : Z) : Prop := 0 <= x < two32.
Definition is_s32 (x : Z) : Prop := - two31 <= x < two31.

(** Bytes are integers 0..255; C strings and buffers are lists of bytes. *)
Notation byte := Z (only parsing).
Notation bytes := (list Z) (only parsing).
Definition is_byte (b : byte) : Prop := 0 <= b < 256.

Definition CR : byte := 13.
Definition LF : byte := 10.
Definition SP : byte := 32.
Definition NULc : byte := 0.
Definition DOT : byte := 46.
Definition STAR : byte := 42.

(** Outcome of a C computation: a value or undefined behaviour. *)
Inductive outcome (A : Type) : Type :=
| Ok (a : A)
| UB.
Arguments Ok {A} a.
Arguments UB {A}.

Definition obind {A B : Type} (m : outcome A) (k : A -> outcome B) : outcome B :=
  match m with Ok a => k a | UB => UB end.
Notation "'let!' x ':=' m 'in' k" := (obind m (fun x => k))
  (at level 200, x pattern, m at level 100, k at level 200).

(** Length of a list as an integer. *)
Definition zlen {A : Type} (l : list A) : Z := Z.of_nat (length l).

(** Equality test on byte strings. *)
Fixpoint bytes_eqb (a b : bytes) : bool :=
  match a, b with
  | [], [] => true
  | x :: a', y :: b' => (x =? y) && bytes_eqb a' b'
  | _, _ => false
  end.
