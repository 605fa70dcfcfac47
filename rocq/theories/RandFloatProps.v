(** C30: the conversion of random words to floating point numbers. *)
From Coq Require Import ZArith Reals Lia.
From Verif Require Import RandFloat.
Open Scope Z_scope.

(** C30: rand's conversion to floats is exact, lies in [0,1) and distinguishes the low
    mantissa bits. *)
Theorem C30_float32 : forall v w : Z,
  int32_to_float32 v = (IZR (v mod 2 ^ 23) / 8388608)%R /\
  (0 <= int32_to_float32 v < 1)%R /\
  (int32_to_float32 v = int32_to_float32 w <-> v mod 2 ^ 23 = w mod 2 ^ 23).
Proof.
  intros v w. rewrite !int32_exact. split; [|split].
  - reflexivity || (unfold Rdiv; f_equal; symmetry; exact bpow23).
  - apply (unit_range 23); [lia|]. apply Z.mod_pos_bound. lia.
  - split; [apply scale_inj|congruence].
Qed.
Print Assumptions C30_float32.
Theorem C30_float64 : forall v w : Z,
  int64_to_float64 v = (IZR (v mod 2 ^ 53) / 9007199254740992)%R /\
  (0 <= int64_to_float64 v < 1)%R /\
  (int64_to_float64 v = int64_to_float64 w <-> v mod 2 ^ 53 = w mod 2 ^ 53).
Proof.
  intros v w. rewrite !int64_exact. split; [|split].
  - reflexivity || (unfold Rdiv; f_equal; symmetry; exact bpow53).
  - apply (unit_range 53); [lia|]. apply Z.mod_pos_bound. lia.
  - split; [apply scale_inj|congruence].
Qed.
Print Assumptions C30_float64.

