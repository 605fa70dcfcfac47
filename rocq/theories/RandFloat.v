(** random.py L242-269: conversion of random words to floating point numbers.
    IEEE arithmetic as in Flocq: a float operation is the exact real result rounded
    to nearest even in the format (float32: 24 bits, emin -149; float64: 53 bits,
    emin -1074). *)
From Coq Require Import ZArith Reals Lia Lra.
From Flocq Require Import Core.
From Verif Require Import RandSpec.
Open Scope R_scope.

Definition f32 (x : R) : R := round radix2 (FLT_exp (-149) 24) ZnearestE x.
Definition f64 (x : R) : R := round radix2 (FLT_exp (-1074) 53) ZnearestE x.

(** (values & 0x7FFFFF).type(torch.float32) * (1.0 / 8388608.0), L254; the Python
    float 1/8388608 is converted to float32 *)
Definition int32_to_float32 (v : Z) : R := f32 (f32 (IZR (Z.land v 0x7FFFFF)) * f32 (/ 8388608)).
(** (values & 0x1FFFFFFFFFFFFF).type(torch.float64) * (1.0 / 9007199254740992.0), L269 *)
Definition int64_to_float64 (v : Z) : R := f64 (f64 (IZR (Z.land v 0x1FFFFFFFFFFFFF)) * f64 (/ 9007199254740992)).

Lemma fmt (emin prec : Z) (m e : Z) : (0 < prec)%Z -> (Z.abs m < 2 ^ prec)%Z -> (emin <= e)%Z ->
  generic_format radix2 (FLT_exp emin prec) (IZR m * bpow radix2 e).
Proof.
  intros Hp Hm He. apply generic_format_FLT. apply FLT_spec with (Float radix2 m e); auto.
Qed.
Lemma rnd (emin prec : Z) (m e : Z) : (0 < prec)%Z -> (Z.abs m < 2 ^ prec)%Z -> (emin <= e)%Z ->
  round radix2 (FLT_exp emin prec) ZnearestE (IZR m * bpow radix2 e) = IZR m * bpow radix2 e.
Proof. intros. apply round_generic; [apply valid_rnd_N|now apply fmt]. Qed.

Lemma land_small v k : (0 <= k)%Z -> (0 <= Z.land v (Z.ones k) < 2 ^ k)%Z.
Proof. intros H. rewrite Z.land_ones by auto. apply Z.mod_pos_bound. apply Z.pow_pos_nonneg; lia. Qed.

Lemma conv_exact (emin prec k : Z) (m : Z) (c : R) : (0 < k < prec + 1)%Z -> (emin <= - k)%Z -> (0 <= m < 2 ^ k)%Z ->
  c = bpow radix2 (- k) ->
  let r x := round radix2 (FLT_exp emin prec) ZnearestE x in
  r (r (IZR m) * r c) = IZR m * bpow radix2 (- k).
Proof.
  intros Hk He Hm -> r. unfold r.
  assert (M : (Z.abs m < 2 ^ prec)%Z).
  { rewrite Z.abs_eq by lia. apply Z.lt_le_trans with (2 ^ k)%Z; [lia|]. apply Z.pow_le_mono_r; lia. }
  replace (IZR m) with (IZR m * bpow radix2 0) at 1 by (cbn; ring). rewrite rnd by (auto; lia).
  replace (bpow radix2 (- k)) with (IZR 1 * bpow radix2 (- k)) at 1 by ring.
  rewrite rnd; [|lia| |lia].
  - replace (IZR m * bpow radix2 0 * (IZR 1 * bpow radix2 (- k))) with (IZR m * bpow radix2 (- k)) by (cbn; ring).
    apply rnd; auto; lia.
  - cbn. apply Z.pow_gt_1; lia.
Qed.
Lemma unit_range k m : (0 <= k)%Z -> (0 <= m < 2 ^ k)%Z -> 0 <= IZR m * bpow radix2 (- k) < 1.
Proof.
  intros Hk Hm. pose proof (bpow_gt_0 radix2 (- k)) as B. split.
  - apply Rmult_le_pos; [apply IZR_le; lia|lra].
  - apply Rmult_lt_reg_r with (bpow radix2 k); [apply bpow_gt_0|].
    rewrite Rmult_assoc, <- bpow_plus. replace (- k + k)%Z with 0%Z by lia. cbn [bpow]. rewrite Rmult_1_r, Rmult_1_l.
    rewrite <- IZR_Zpower by lia. apply IZR_lt. cbn. lia.
Qed.
Lemma bpow23 : / 8388608 = bpow radix2 (-23). Proof. cbn. f_equal. Qed.
Lemma bpow53 : / 9007199254740992 = bpow radix2 (-53). Proof. cbn. f_equal. Qed.

Lemma int32_exact v : int32_to_float32 v = IZR (v mod 2 ^ 23) * bpow radix2 (-23).
Proof.
  unfold int32_to_float32, f32. change 0x7FFFFF%Z with (Z.ones 23). rewrite <- (Z.land_ones v 23) by lia.
  apply (conv_exact (-149) 24 23); try lia; [apply land_small; lia|apply bpow23].
Qed.
Lemma int64_exact v : int64_to_float64 v = IZR (v mod 2 ^ 53) * bpow radix2 (-53).
Proof.
  unfold int64_to_float64, f64. change 0x1FFFFFFFFFFFFF%Z with (Z.ones 53). rewrite <- (Z.land_ones v 53) by lia.
  apply (conv_exact (-1074) 53 53); try lia; [apply land_small; lia|apply bpow53].
Qed.
Lemma scale_inj k a c : IZR a * bpow radix2 k = IZR c * bpow radix2 k -> a = c.
Proof. intros H. apply eq_IZR. apply Rmult_eq_reg_r in H; auto. pose proof (bpow_gt_0 radix2 k). lra. Qed.
