(** C101: conjugate gradients. *)
From Coq Require Import QArith Qcanon.
From Verif Require Import Base CgSpec CgModel.

Lemma len_vsub x : forall y, length x = length y -> length (vsub x y) = length x.
Proof. induction x as [|a x IH]; intros [|b y] H; try discriminate; cbn in *; auto. Qed.
Lemma len_vadd x : forall y, length x = length y -> length (vadd x y) = length x.
Proof. induction x as [|a x IH]; intros [|b y] H; try discriminate; cbn in *; auto. Qed.
Lemma len_scale a x : length (vscale a x) = length x.
Proof. apply map_length. Qed.
Lemma len_mv A x : length (mv A x) = length A.
Proof. apply map_length. Qed.
Lemma qdot_add w : forall x p a, length x = length p -> qdot w (vadd x (vscale a p)) = Qcplus (qdot w x) (Qcmult a (qdot w p)).
Proof.
  induction w as [|c w IH]; intros x p a H; [cbn; ring|]. destruct x as [|u x], p as [|v p]; try discriminate; cbn [vadd vscale map qdot]; [ring|]. cbn in H. fold (vscale a p). rewrite IH by lia. ring.
Qed.
Lemma qdot_comm x : forall y, qdot x y = qdot y x.
Proof. induction x as [|a x IH]; intros [|b y]; cbn; auto. rewrite IH. ring. Qed.
Lemma qdot_sub w : forall x p a, length x = length p -> qdot w (vsub x (vscale a p)) = Qcminus (qdot w x) (Qcmult a (qdot w p)).
Proof.
  induction w as [|c w IH]; intros x p a H; [cbn; ring|]. destruct x as [|u x], p as [|v p]; try discriminate; cbn [vsub vscale map qdot]; [ring|]. cbn in H. fold (vscale a p). rewrite IH by lia. ring.
Qed.
(** the updated residual is the residual of the updated solution *)
Lemma residual_step A : forall b x p a, length A = length b -> length x = length p ->
  vsub (vsub b (mv A x)) (vscale a (mv A p)) = vsub b (mv A (vadd x (vscale a p))).
Proof.
  induction A as [|row A IH]; intros [|c b] x p a H H2; try discriminate; [reflexivity|]. cbn [mv map vsub vscale]. fold (mv A x) (mv A p) (mv A (vadd x (vscale a p))) (vscale a (mv A p)). rewrite IH by (cbn in H; lia). f_equal. rewrite qdot_add by auto. ring.
Qed.
Lemma loop_ok A b tol2 : forall k x p rs y early, length A = length b -> length x = length b -> length p = length b ->
  cg_loop A tol2 k x (vsub b (mv A x)) p rs = Some (y, early) ->
  length y = length b /\ (early = true -> Qclt (qdot (vsub b (mv A y)) (vsub b (mv A y))) tol2).
Proof.
  induction k as [|k IH]; intros x p rs y early HA HX HP E; cbn [cg_loop] in E; [injection E as <- <-; split; [auto|discriminate]|].
  cbv zeta in E. destruct (Qc_eq_bool (qdot p (mv A p)) (Q2Qc 0)); [discriminate|]. set (alpha := Qcdiv rs (qdot p (mv A p))) in *.
  rewrite residual_step in E by lia. set (x' := vadd x (vscale alpha p)) in *.
  assert (LX : length x' = length b) by (unfold x'; rewrite len_vadd; [auto|rewrite len_scale; lia]).
  assert (LR : length (vsub b (mv A x')) = length b) by (apply len_vsub; rewrite len_mv; auto).
  destruct (Qclt_le_dec (qdot (vsub b (mv A x')) (vsub b (mv A x'))) tol2) as [L|L].
  - injection E as <- <-. auto.
  - destruct (Qc_eq_bool rs (Q2Qc 0)); [discriminate|]. refine (IH _ _ _ _ _ HA LX _ E). rewrite len_vadd; [auto|rewrite len_scale; lia].
Qed.
(** when cg reports that the tolerance was reached, the vector that it returns solves A x = b up to it: |b - A x| < tol *)
Theorem C101_tolerance (A : list (list Qc)) (b x0 x : list Qc) (tol2 : Qc) : length A = length b -> length x0 = length b -> cg A b x0 tol2 = Some (x, true) ->
  length x = length b /\ Qclt (qdot (vsub b (mv A x)) (vsub b (mv A x))) tol2.
Proof.
  intros HA HX E. destruct (loop_ok A b tol2 (length b) x0 (vsub b (mv A x0)) (qdot (vsub b (mv A x0)) (vsub b (mv A x0))) x true HA HX) as [L H]; auto.
  apply len_vsub. rewrite len_mv. auto.
Qed.

