(** C101: in exact arithmetic cg reaches the tolerance within n iterations. *)
From Coq Require Import QArith Qcanon.
From Verif Require Import Base CgSpec CgModel CgProps.

Definition q0 : Qc := Q2Qc 0.
Definition q1 : Qc := Q2Qc 1.
Lemma cg_sub_iff a b : Qcle a b <-> Qcle q0 (Qcminus b a).
Proof. apply Qcle_minus_iff. Qed.
Lemma sq_nonneg (a : Qc) : Qcle q0 (Qcmult a a).
Proof.
  destruct (Qclt_le_dec a q0) as [H|H].
  - apply Qclt_le_weak in H. apply cg_sub_iff in H. assert (K := Qcmult_le_compat_r _ _ _ H H). replace (Qcmult q0 (Qcminus q0 a)) with q0 in K by (unfold q0; ring). replace (Qcmult (Qcminus q0 a) (Qcminus q0 a)) with (Qcmult a a) in K by (unfold q0; ring). auto.
  - assert (K := Qcmult_le_compat_r _ _ _ H H). replace (Qcmult q0 a) with q0 in K by (unfold q0; ring). auto.
Qed.
Lemma add_nonneg a b : Qcle q0 a -> Qcle q0 b -> Qcle q0 (Qcplus a b).
Proof. intros A B. replace q0 with (Qcplus q0 q0) by (unfold q0; ring). now apply Qcplus_le_compat. Qed.
Lemma qdot_self_nonneg x : Qcle q0 (qdot x x).
Proof. induction x as [|a x IH]; cbn; [apply Qcle_refl|]. apply add_nonneg; [apply sq_nonneg|auto]. Qed.
Lemma qdot_sub_l x : forall y z a, length x = length y -> qdot (vsub x (vscale a y)) z = Qcminus (qdot x z) (Qcmult a (qdot y z)).
Proof. intros y z a H. rewrite (qdot_comm (vsub x (vscale a y))), qdot_sub by auto. now rewrite (qdot_comm z x), (qdot_comm z y). Qed.
Lemma qdot_add_l x : forall y z a, length x = length y -> qdot (vadd x (vscale a y)) z = Qcplus (qdot x z) (Qcmult a (qdot y z)).
Proof. intros y z a H. rewrite (qdot_comm (vadd x (vscale a y))), qdot_add by auto. now rewrite (qdot_comm z x), (qdot_comm z y). Qed.

(** ** n + 1 pairwise orthogonal non-zero vectors do not fit into n dimensions *)
Definition qsum {I} (f : I -> Qc) (l : list I) : Qc := fold_right (fun i s => Qcplus (f i) s) q0 l.
Lemma qsum_le {I} (f g : I -> Qc) l : (forall i, In i l -> Qcle (f i) (g i)) -> Qcle (qsum f l) (qsum g l).
Proof. induction l as [|i l IH]; intros H; cbn; [apply Qcle_refl|]. apply Qcplus_le_compat; [apply H; now left|apply IH; intros; apply H; now right]. Qed.
Lemma qsum_add {I} (f g : I -> Qc) l : qsum (fun i => Qcplus (f i) (g i)) l = Qcplus (qsum f l) (qsum g l).
Proof. induction l as [|i l IH]; cbn; [unfold q0; ring|]. unfold qsum in IH. rewrite IH. ring. Qed.
Lemma qsum_zero {I} (l : list I) : qsum (fun _ => q0) l = q0.
Proof. induction l as [|i l IH]; cbn; [auto|]. unfold qsum in IH. rewrite IH. unfold q0. ring. Qed.
Lemma qsum_swap {I J} (f : I -> J -> Qc) li lj : qsum (fun i => qsum (f i) lj) li = qsum (fun j => qsum (fun i => f i j) li) lj.
Proof. induction li as [|i li IH]; cbn; [now rewrite qsum_zero|]. unfold qsum at 2 in IH. fold (qsum (fun i0 => qsum (f i0) lj) li). rewrite qsum_add. f_equal. exact IH. Qed.
Lemma qsum_ext {I} (f g : I -> Qc) l : (forall i, In i l -> f i = g i) -> qsum f l = qsum g l.
Proof. induction l as [|i l IH]; intros H; cbn; [auto|]. f_equal; [apply H; now left|apply IH; intros; apply H; now right]. Qed.
Lemma qsum_map {I J} (f : J -> Qc) (g : I -> J) l : qsum f (map g l) = qsum (fun i => f (g i)) l.
Proof. induction l as [|i l IH]; cbn; [auto|]. f_equal. exact IH. Qed.
Lemma qsum_scale {I} (f : I -> Qc) c l : qsum (fun i => Qcmult (f i) c) l = Qcmult (qsum f l) c.
Proof. induction l as [|i l IH]; cbn; [unfold q0; ring|]. unfold qsum in IH. rewrite IH. ring. Qed.

Fixpoint orthogonal (vs : list (list Qc)) : Prop := match vs with [] => True | v :: vs' => (forall u, In u vs' -> qdot v u = q0) /\ orthogonal vs' end.
Lemma bessel n vs : (forall v, In v vs -> length v = n /\ qdot v v <> q0) -> orthogonal vs -> forall w, length w = n ->
  Qcle (qsum (fun v => Qcdiv (Qcmult (qdot w v) (qdot w v)) (qdot v v)) vs) (qdot w w).
Proof.
  induction vs as [|v vs IH]; intros H O w Hw; cbn [qsum fold_right]; [apply qdot_self_nonneg|]. destruct O as [O1 O2]. destruct (H v (or_introl eq_refl)) as [Lv Nv].
  set (c := Qcdiv (qdot w v) (qdot v v)). set (w' := vsub w (vscale c v)).
  assert (LW : length w' = n) by (unfold w'; rewrite len_vsub; [auto|rewrite len_scale; lia]).
  assert (K := IH (fun u Hu => H u (or_intror Hu)) O2 w' LW).
  assert (E1 : forall u, In u vs -> qdot w' u = qdot w u). { intros u Hu. unfold w'. rewrite qdot_sub_l by lia. rewrite O1 by auto. unfold q0. ring. }
  rewrite (qsum_ext _ (fun v => Qcdiv (Qcmult (qdot w v) (qdot w v)) (qdot v v))) in K by (intros u Hu; now rewrite !E1).
  assert (E2 : qdot w' w' = Qcminus (qdot w w) (Qcdiv (Qcmult (qdot w v) (qdot w v)) (qdot v v))).
  { unfold w' at 2. rewrite qdot_sub by lia. unfold w'. rewrite !qdot_sub_l by lia. rewrite (qdot_comm v w). unfold c. field. exact Nv. }
  rewrite E2 in K. unfold qsum in *. replace (qdot w w) with (Qcplus (Qcdiv (Qcmult (qdot w v) (qdot w v)) (qdot v v)) (Qcminus (qdot w w) (Qcdiv (Qcmult (qdot w v) (qdot w v)) (qdot v v)))) by ring.
  apply Qcplus_le_compat; [apply Qcle_refl|exact K].
Qed.
Fixpoint basis (n : nat) : list (list Qc) := match n with O => [] | S k => (q1 :: repeat q0 k) :: map (cons q0) (basis k) end.
Lemma qdot_zeros n : forall v, qdot (repeat q0 n) v = q0.
Proof. induction n as [|n IH]; intros [|a v]; cbn; auto. rewrite IH. unfold q0. ring. Qed.
Lemma basis_len n : forall e, In e (basis n) -> length e = n.
Proof. induction n as [|n IH]; cbn; intros e H; [contradiction|]. destruct H as [<-|H]; [cbn; now rewrite repeat_length|]. apply in_map_iff in H as (e' & <- & H). cbn. now rewrite IH. Qed.
Fixpoint qnat (n : nat) : Qc := match n with O => q0 | S k => Qcplus q1 (qnat k) end.
Lemma basis_sum n : forall v, length v = n -> qsum (fun e => Qcmult (qdot e v) (qdot e v)) (basis n) = qdot v v.
Proof.
  induction n as [|n IH]; intros [|a v] H; try discriminate; [reflexivity|]. cbn [basis qsum fold_right qdot]. rewrite qdot_zeros. fold (qsum (fun e => Qcmult (qdot e (a :: v)) (qdot e (a :: v))) (map (cons q0) (basis n))). rewrite qsum_map. cbn in H.
  rewrite (qsum_ext _ (fun e => Qcmult (qdot e v) (qdot e v))) by (intros e _; cbn [qdot]; unfold q0; ring). rewrite IH by lia. unfold q0, q1. ring.
Qed.
Lemma basis_norm n : qsum (fun e => qdot e e) (basis n) = qnat n.
Proof.
  induction n as [|n IH]; [reflexivity|]. cbn [basis qsum fold_right qdot qnat]. rewrite qdot_zeros. fold (qsum (fun e => qdot e e) (map (cons q0) (basis n))). rewrite qsum_map.
  rewrite (qsum_ext _ (fun e => qdot e e)) by (intros e _; cbn [qdot]; unfold q0; ring). rewrite IH. unfold q0, q1. ring.
Qed.
Lemma dimension n vs : (forall v, In v vs -> length v = n /\ qdot v v <> q0) -> orthogonal vs -> Qcle (qnat (length vs)) (qnat n).
Proof.
  intros H O. rewrite <- (basis_norm n).
  assert (E : qsum (fun e => qsum (fun v => Qcdiv (Qcmult (qdot e v) (qdot e v)) (qdot v v)) vs) (basis n) = qnat (length vs)).
  { rewrite qsum_swap. clear O. induction vs as [|v vs IH]; [reflexivity|]. cbn [qsum fold_right length qnat]. f_equal; [|apply IH; intros; apply H; now right].
    destruct (H v (or_introl eq_refl)) as [Lv Nv]. unfold Qcdiv. rewrite qsum_scale, basis_sum by auto. unfold q1. field. exact Nv. }
  rewrite <- E. apply qsum_le. intros e He. apply bessel with n; auto. now apply basis_len.
Qed.
Lemma too_many n : ~ Qcle (qnat (S n)) (qnat n).
Proof.
  cbn [qnat]. intros H. assert (K := proj1 (cg_sub_iff (Qcplus q1 (qnat n)) (qnat n)) H). clear H. rename K into H. replace (Qcminus (qnat n) (Qcplus q1 (qnat n))) with (Qcopp q1) in H by ring. revert H. vm_compute. intros H. now apply H.
Qed.
