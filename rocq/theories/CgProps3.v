(** C101: in exact arithmetic cg reaches the tolerance within n iterations. *)
From Coq Require Import QArith Qcanon.
From Verif Require Import Base CgSpec CgModel CgProps CgProps2.

(** x.Ay = y.Ax, and x.Ax > 0 for every x but the zero vector *)
Definition symmetric (A : list (list Qc)) (n : nat) : Prop := forall x y, length x = n -> length y = n -> qdot x (mv A y) = qdot y (mv A x).
Definition positive_definite (A : list (list Qc)) (n : nat) : Prop := forall x, length x = n -> x <> repeat (Q2Qc 0) n -> Qclt (Q2Qc 0) (qdot x (mv A x)).

Lemma lt_neq (a : Qc) : Qclt q0 a -> a <> q0.
Proof. intros H ->. revert H. apply Qcle_not_lt, Qcle_refl. Qed.
Lemma mul_cancel (a b : Qc) : Qcmult a b = q0 -> a <> q0 -> b = q0.
Proof. intros H N. replace b with (Qcmult (Qcinv a) (Qcmult a b)) by (field; exact N). rewrite H. unfold q0. ring. Qed.
Lemma loop_conv A n tol2 : length A = n -> symmetric A n -> positive_definite A n -> Qclt q0 tol2 ->
  forall k x r p prev R, length p = n -> (forall q, In q prev -> length q = n) -> (forall u, In u (r :: R) -> length u = n /\ qdot u u <> q0) -> orthogonal (r :: R) ->
    (forall q, In q prev -> qdot r q = q0 /\ qdot p (mv A q) = q0) -> qdot r p = qdot r r ->
    (forall w, (forall q, In q (p :: prev) -> qdot w q = q0) -> forall u, In u (r :: R) -> qdot w u = q0) ->
    (forall w, (forall u, In u (r :: R) -> qdot w u = q0) -> forall q, In q prev -> qdot w (mv A q) = q0) ->
    (length (r :: R) + k = n + 1)%nat -> exists y, cg_loop A tol2 k x r p (qdot r r) = Some (y, true).
Proof.
  intros LA SY PD HT. induction k as [|k IH]; intros x r p prev R LP LQ HR HO I3 I4 I5 I6 LK.
  - exfalso. apply (too_many n). replace (S n) with (length (r :: R)) by lia. apply dimension; auto.
  - cbn [cg_loop]. cbv zeta. destruct (HR r (or_introl eq_refl)) as [Lr Nr]. set (d := qdot p (mv A p)).
    assert (ND : d <> q0).
    { apply lt_neq. apply PD; auto. intros E. apply Nr. rewrite <- I4, E, qdot_comm. apply qdot_zeros. }
    destruct (Qc_eq_bool d (Q2Qc 0)) eqn:ED; [apply Qc_eq_bool_correct in ED; contradiction|].
    set (rs := qdot r r) in *. set (alpha := Qcdiv rs d). set (r' := vsub r (vscale alpha (mv A p))). set (rsnew := qdot r' r').
    assert (NA : alpha <> q0). { intros E. apply Nr. replace rs with (Qcmult alpha d) by (unfold alpha; field; exact ND). rewrite E. unfold q0. ring. }
    destruct (Qclt_le_dec rsnew tol2) as [L|L]; [eauto|].
    destruct (Qc_eq_bool rs (Q2Qc 0)) eqn:ES; [apply Qc_eq_bool_correct in ES; contradiction|].
    assert (LM : length r = length (vscale alpha (mv A p))) by (rewrite len_scale, len_mv; lia). assert (LM' : length r = length (mv A p)) by (rewrite len_mv; lia).
    assert (LR' : length r' = n) by (unfold r'; rewrite len_vsub by auto; auto).
    assert (NR' : rsnew <> q0). { apply lt_neq. eapply Qclt_le_trans; [exact HT|exact L]. }
    assert (RP : forall q, In q (p :: prev) -> qdot r' q = q0).
    { intros q [<-|Hq]; unfold r'; rewrite qdot_sub_l by auto.
      - rewrite I4, (qdot_comm (mv A p) p). fold rs d. unfold alpha, q0. field. exact ND.
      - destruct (I3 q Hq) as [J1 J2]. rewrite J1, (qdot_comm (mv A p) q), (SY q p), J2 by auto. unfold q0. ring. }
    assert (RR : forall u, In u (r :: R) -> qdot r' u = q0) by (apply I5; auto).
    assert (RA : qdot r' (mv A p) = Qcopp (Qcdiv rsnew alpha)).
    { assert (E : rsnew = Qcminus (qdot r' r) (Qcmult alpha (qdot r' (mv A p)))) by (unfold rsnew; unfold r' at 2; apply qdot_sub; auto).
      rewrite (RR r) in E by now left. rewrite E. unfold q0. field. exact NA. }
    set (beta := Qcdiv rsnew rs). assert (LB : length r' = length p) by lia.
    apply (IH _ r' (vadd r' (vscale beta p)) (p :: prev) (r :: R)).
    + rewrite len_vadd by (rewrite len_scale; lia). auto.
    + intros q [<-|Hq]; auto.
    + intros u [<-|Hu]; auto.
    + split; auto.
    + intros q Hq. split; [auto|]. rewrite qdot_add_l by auto. destruct Hq as [<-|Hq].
      * rewrite RA. fold d. unfold beta, alpha, q0. field. split; auto.
      * rewrite (I6 r' RR q Hq), (proj2 (I3 q Hq)). unfold q0. ring.
    + rewrite qdot_add by auto. rewrite (RP p) by now left. unfold q0. ring.
    + intros w Hw. assert (Wu : forall u, In u (r :: R) -> qdot w u = q0) by (apply I5; intros q Hq; apply Hw; now right). intros u [<-|Hu]; [|auto].
      assert (E := Hw _ (or_introl eq_refl)). rewrite qdot_add in E by auto. rewrite (Hw p) in E by (right; now left). rewrite <- E. unfold q0. ring.
    + intros w Hw q [<-|Hq]; [|apply I6; auto; intros u Hu; apply Hw; now right].
      assert (E := Hw r' (or_introl eq_refl)). unfold r' in E. rewrite qdot_sub in E by auto. rewrite (Hw r) in E by (right; now left).
      apply (mul_cancel alpha); auto. replace (Qcmult alpha (qdot w (mv A p))) with (Qcopp (Qcminus q0 (Qcmult alpha (qdot w (mv A p))))) by (unfold q0; ring). rewrite E. unfold q0. ring.
    + cbn [length] in *. lia.
Qed.

(** For a symmetric positive definite matrix and a start vector that is not yet the solution, cg ends through its
    tolerance test, with |b - A x|^2 < tol^2, within n iterations; every division is by a non-zero number *)
Theorem C101_converges (A : list (list Qc)) (b x0 : list Qc) (tol2 : Qc) (n : nat) : length A = n -> length b = n -> length x0 = n -> symmetric A n -> positive_definite A n -> Qclt (Q2Qc 0) tol2 -> mv A x0 <> b ->
  exists x, cg A b x0 tol2 = Some (x, true) /\ length x = n /\ Qclt (qdot (vsub b (mv A x)) (vsub b (mv A x))) tol2.
Proof.
  intros LA LB LX SY PD HT NE. set (r := vsub b (mv A x0)). assert (LR : length r = n) by (unfold r; rewrite len_vsub; [auto|rewrite len_mv; lia]).
  assert (NR : qdot r r <> q0).
  { intros E. apply NE. assert (Z : forall u v : list Qc, length u = length v -> qdot (vsub u v) (vsub u v) = q0 -> v = u).
    { induction u as [|a u IH]; intros [|c v] H Q; try discriminate; [auto|]. cbn [vsub qdot] in Q. cbn in H.
      set (s := qdot (vsub u v) (vsub u v)) in *. assert (S1 : Qcle q0 s) by apply qdot_self_nonneg. assert (S2 := sq_nonneg (Qcminus a c)).
      assert (E1 : Qcmult (Qcminus a c) (Qcminus a c) = q0). { apply Qcle_antisym; [|auto]. rewrite <- Q. replace (Qcmult (Qcminus a c) (Qcminus a c)) with (Qcplus (Qcmult (Qcminus a c) (Qcminus a c)) q0) at 1 by (unfold q0; ring). apply Qcplus_le_compat; [apply Qcle_refl|auto]. }
      rewrite E1 in Q. f_equal; [|apply IH; [lia|fold s; rewrite <- Q; unfold q0; ring]].
      apply Qcmult_integral in E1. assert (Qcminus a c = q0) by tauto. replace a with (Qcplus (Qcminus a c) c) by ring. rewrite H0. unfold q0. ring. }
    apply (Z b (mv A x0)); [rewrite len_mv; lia|exact E]. }
  assert (C : exists y, cg_loop A tol2 n x0 r r (qdot r r) = Some (y, true)).
  { apply (loop_conv A n tol2 LA SY PD HT n x0 r r [] []); [exact LR|intros q []|intros u [<-|[]]; auto|split; [intros u []|exact I]|intros q []|reflexivity| |intros w _ q []|cbn; lia].
    intros w H u [<-|[]]. apply H. now left. }
  destruct C as [y E]. exists y. unfold cg. rewrite LB. split; [exact E|]. destruct (C101_tolerance A b x0 y tol2) as [H1 H2]; [lia|lia|unfold cg; rewrite LB; exact E|]. split; [lia|auto].
Qed.
Print Assumptions C101_tolerance.
Print Assumptions C101_converges.

(** started at the solution, cg divides 0 by 0 *)
Theorem C101_exact_start_refuted (A : list (list Qc)) (b x0 : list Qc) (tol2 : Qc) : b <> [] -> length A = length b -> mv A x0 = b -> cg A b x0 tol2 = None.
Proof.
  intros NB LA E. unfold cg. rewrite E. assert (Z : forall u v, qdot (vsub u u) v = Q2Qc 0). { induction u as [|a u IH]; intros [|c v]; cbn; auto. rewrite IH. ring. }
  destruct b as [|c b]; [congruence|]. cbn [length cg_loop]. cbv zeta. rewrite (Z (c :: b) (mv A (vsub (c :: b) (c :: b)))). reflexivity.
Qed.

(** non-vacuity: [[2, 1], [1, 2]] x = (3, 3) from 0 *)
Definition demo_A : list (list Qc) := [[Q2Qc 2; Q2Qc 1]; [Q2Qc 1; Q2Qc 2]].
Lemma demo_sym : symmetric demo_A 2.
Proof. intros [|a [|b [|]]] [|c [|d [|]]] H1 H2; try discriminate. cbn. ring. Qed.
Lemma demo_pd : positive_definite demo_A 2.
Proof.
  intros [|a [|b [|]]] H N; try discriminate. cbn [demo_A mv map qdot].
  replace (Qcplus (Qcmult a _) _) with (Qcplus (Qcmult (Qcplus a b) (Qcplus a b)) (Qcplus (Qcmult a a) (Qcmult b b))).
  2:{ replace (Q2Qc 2) with (Qcplus (Q2Qc 1) (Q2Qc 1)) by (apply Qc_is_canon; reflexivity). ring. }
  destruct (Qclt_le_dec (Q2Qc 0) (Qcplus (Qcmult (Qcplus a b) (Qcplus a b)) (Qcplus (Qcmult a a) (Qcmult b b)))) as [L|L]; [auto|]. exfalso. apply N.
  assert (S1 := sq_nonneg a). assert (S2 := sq_nonneg b). assert (S3 := sq_nonneg (Qcplus a b)).
  assert (K : forall u v w, Qcle q0 u -> Qcle q0 v -> Qcle q0 w -> Qcle (Qcplus w (Qcplus u v)) q0 -> u = q0).
  { intros u v w U V W H1. apply Qcle_antisym; [|auto]. eapply Qcle_trans; [|exact H1]. replace u with (Qcplus q0 (Qcplus u q0)) at 1 by (unfold q0; ring). apply Qcplus_le_compat; [auto|apply Qcplus_le_compat; [apply Qcle_refl|auto]]. }
  assert (A0 := K _ _ _ S1 S2 S3 L). assert (B0 : Qcmult b b = q0). { apply (K _ (Qcmult a a) _ S2 S1 S3). replace (Qcplus (Qcmult b b) (Qcmult a a)) with (Qcplus (Qcmult a a) (Qcmult b b)) by ring. exact L. }
  apply Qcmult_integral in A0, B0. cbn [repeat]. f_equal; [tauto|f_equal; tauto].
Qed.
Example C101_instance : exists x, cg demo_A [Q2Qc 3; Q2Qc 3] [Q2Qc 0; Q2Qc 0] (Q2Qc (1 # 100)) = Some (x, true) /\ Qclt (qdot (vsub [Q2Qc 3; Q2Qc 3] (mv demo_A x)) (vsub [Q2Qc 3; Q2Qc 3] (mv demo_A x))) (Q2Qc (1 # 100)).
Proof.
  destruct (C101_converges demo_A [Q2Qc 3; Q2Qc 3] [Q2Qc 0; Q2Qc 0] (Q2Qc (1 # 100)) 2) as (x & E & _ & L); auto; [apply demo_sym|apply demo_pd|reflexivity| |eauto].
  intros E. injection E as E _. vm_compute in E. discriminate E.
Qed.
