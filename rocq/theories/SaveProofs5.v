(** Proofs for C47, part 5: decimal digits. *)
From Coq Require Import NArith QArith Qround Qabs Lia Psatz.
From Verif Require Import Base SaveSpec.
Open Scope nat_scope.

Lemma digits_ind (Pr : N -> list nat -> Prop) :
  (forall n, (n < 10)%N -> Pr n [48 + N.to_nat n]) ->
  (forall n l, (10 <= n)%N -> Pr (n / 10)%N l -> Pr n (l ++ [48 + N.to_nat (n mod 10)])) ->
  forall n, Pr n (digits n).
Proof.
  intros H1 H2 n. unfold digits. assert (G : forall k n, (n < 2 ^ N.of_nat k)%N -> Pr n (digits_fuel (S k) n)).
  { clear n. induction k as [|k IH]; intros n Hn.
    - cbn [digits_fuel]. assert (n = 0)%N by (cbn in Hn; lia). subst. apply (H1 0%N). lia.
    - cbn [digits_fuel]. destruct (N.ltb_spec n 10) as [L|L]; [now apply H1|]. apply H2; [exact L|]. apply IH.
      rewrite Nat2N.inj_succ, N.pow_succ_r' in Hn. apply N.div_lt_upper_bound; lia. }
  apply G. assert (X := N.size_gt n). replace (N.of_nat (N.size_nat n)) with (N.size n); [exact X|].
  destruct n as [|p]; [reflexivity|]. cbn. clear. induction p; cbn; rewrite ?IHp; try reflexivity; lia.
Qed.
Lemma digits_pos n : 1 <= length (digits n).
Proof. apply digits_ind; intros; rewrite ?app_length; cbn; lia. Qed.
Lemma digits_len n : forall k, 1 <= k -> (n < 10 ^ N.of_nat k)%N -> length (digits n) <= k.
Proof.
  apply (digits_ind (fun n l => forall k, 1 <= k -> (n < 10 ^ N.of_nat k)%N -> length l <= k)); clear n.
  - intros n _ k Hk _. exact Hk.
  - intros n l Hn IH k Hk Hl. rewrite app_length. cbn [length]. destruct k as [|k]; [lia|]. rewrite Nat2N.inj_succ, N.pow_succ_r' in Hl.
    destruct k as [|k]; [cbn in Hl; lia|]. specialize (IH (S k) ltac:(lia)). assert (n / 10 < 10 ^ N.of_nat (S k))%N by (apply N.div_lt_upper_bound; lia). specialize (IH H). lia.
Qed.
Lemma digits_bound n : (n < 10 ^ N.of_nat (length (digits n)))%N.
Proof.
  apply (digits_ind (fun n l => (n < 10 ^ N.of_nat (length l))%N)); clear n.
  - intros n H. exact H.
  - intros n l Hn IH. rewrite app_length. cbn [length]. rewrite Nat.add_1_r, Nat2N.inj_succ, N.pow_succ_r'.
    assert (X := N.div_mod n 10 ltac:(lia)). assert (Y := N.mod_lt n 10 ltac:(lia)). lia.
Qed.
Lemma digits_mono a b : (a <= b)%N -> length (digits a) <= length (digits b).
Proof. intros H. apply digits_len; [apply digits_pos|]. assert (X := digits_bound b). lia. Qed.
(** reading the digits back *)
Definition read_digits (l : list nat) : N := fold_left (fun a x => 10 * a + N.of_nat (x - 48))%N l 0%N.
Lemma digits_read n : read_digits (digits n) = n /\ Forall (fun x => 48 <= x <= 57) (digits n).
Proof.
  apply (digits_ind (fun n l => read_digits l = n /\ Forall (fun x => 48 <= x <= 57) l)); clear n.
  - intros n H. unfold read_digits. cbn [fold_left]. split; [lia|]. constructor; [lia|constructor].
  - intros n l Hn [IH F]. assert (X := N.div_mod n 10 ltac:(lia)). assert (Y := N.mod_lt n 10 ltac:(lia)). split.
    + unfold read_digits in *. rewrite fold_left_app. cbn [fold_left]. rewrite IH. replace (48 + N.to_nat (n mod 10) - 48) with (N.to_nat (n mod 10)) by lia. rewrite N2Nat.id. lia.
    + apply Forall_app. split; [exact F|]. constructor; [lia|constructor].
Qed.
Lemma digits_fixed_len k : forall n, length (digits_fixed k n) = k.
Proof. induction k; intros n; cbn [digits_fixed]; [reflexivity|]. rewrite app_length, IHk. cbn. lia. Qed.
