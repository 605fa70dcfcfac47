(** Gaussian elimination over a field: determinant and inverse, in the sense of mathcomp's
    matrix library. *)
From mathcomp Require Import all_ssreflect fingroup perm all_algebra.
From Coq Require List PeanoNat.
From Verif Require Base GaussModel GaussProofs.
Import Verif.Base Verif.GaussModel Verif.GaussProofs.
Set Implicit Arguments. Unset Strict Implicit. Unset Printing Implicit Defensive.
Import GRing.Theory.
Delimit Scope nat_scope with N.
Local Open Scope ring_scope.

Lemma leb_leq a b : Nat.leb a b = (a <= b)%N.
Proof. by apply/idP/idP => [/PeanoNat.Nat.leb_le/leP|/leP/PeanoNat.Nat.leb_le]. Qed.
Lemma eqb_eq (a b : nat) : Nat.eqb a b = (a == b).
Proof. by apply/idP/eqP => [/PeanoNat.Nat.eqb_eq|/PeanoNat.Nat.eqb_eq]. Qed.
Lemma in_sliceE lo hi a : in_slice lo hi a = (lo <= a < hi)%N.
Proof. by rewrite /in_slice leb_leq /Nat.ltb leb_leq. Qed.
Lemma even_odd m : Nat.even m = ~~ odd m.
Proof.
have H : forall k, Nat.even k = ~~ odd k /\ Nat.even k.+1 = odd k.
  by elim=> [|k [IH1 IH2]]; [split | split; [rewrite IH2 /= negbK | rewrite /= IH1 /=]].
by case: (H m).
Qed.

Section Alg.
Variables (F : fieldType) (isclose : F -> bool) (n : nat).
Definition mx (M : nat -> nat -> F) : 'M[F]_n := \matrix_(i, j) M i j.
Notation gsub := (@gsub F +%R *%R -%R).
Notation gscale := (@gscale F (fun x y : F => x / y)).
Notation gswap := (@gswap F).
Notation gpivot := (@gpivot F isclose n).
Notation gdet_steps := (@gdet_steps F 0 +%R *%R (fun x y : F => x / y) -%R isclose n).
Notation ginv_steps := (@ginv_steps F +%R *%R (fun x y : F => x / y) -%R isclose n).
Notation ginv_back := (@ginv_back F +%R *%R -%R).

Lemma mx_swap (i j : 'I_n) M : mx (gswap i j M) = tperm_mx i j *m mx M.
Proof.
rewrite -xrowE. apply/matrixP => a b. rewrite !mxE /GaussProofs.gswap !eqb_eq.
case: tpermP => [->|->|/eqP Hi /eqP Hj]; rewrite ?eqxx //.
  by case: eqP => // E; congr (M _ _); rewrite E.
by rewrite -val_eqE in Hi; rewrite -val_eqE in Hj; rewrite (negbTE Hi) (negbTE Hj).
Qed.
Definition zcol (lo hi : nat) (z : nat -> F) : 'cV[F]_n := \col_a (if (lo <= a < hi)%N then z a else 0).
Lemma mx_sub lo hi z (i : 'I_n) M : mx (gsub lo hi z i M) = (1%:M - zcol lo hi z *m delta_mx 0 i) *m mx M.
Proof.
rewrite mulmxBl mul1mx -mulmxA -rowE. apply/matrixP => a b. rewrite !mxE big_ord1 !mxE /gsub in_sliceE.
by case: ifP => _; rewrite ?mul0r ?subr0.
Qed.
Lemma unit_sub lo hi z (i : 'I_n) : ~~ (lo <= i < hi)%N -> 1%:M - zcol lo hi z *m delta_mx 0 i \in unitmx.
Proof.
move=> Hi. suff E : (1%:M - zcol lo hi z *m delta_mx 0 i) *m (1%:M + zcol lo hi z *m delta_mx 0 i) = 1%:M.
  by case/mulmx1_unit: E.
rewrite mulmxBl mul1mx mulmxDr mulmx1 -addrA.
suff -> : zcol lo hi z *m delta_mx 0 i *m (zcol lo hi z *m delta_mx 0 i) = 0 by rewrite addr0 subrr addr0.
rewrite -mulmxA (mulmxA (delta_mx 0 i)). suff -> : delta_mx 0 i *m zcol lo hi z = 0 :> 'M_1 by rewrite mul0mx mulmx0.
by rewrite -rowE; apply/matrixP => a b; rewrite !mxE (negbTE Hi).
Qed.
Lemma det_sub z (i : 'I_n) : \det (1%:M - zcol i.+1 n z *m delta_mx 0 i) = 1.
Proof.
rewrite det_trig.
  rewrite big1 // => a _. rewrite !mxE eqxx big_ord1 !mxE eqxx /=.
  case: (a =P i) => [->|_]; last by rewrite mulr0 subr0.
  by rewrite ltnn /= mul0r subr0.
apply/is_trig_mxP => a b Hab. rewrite !mxE big_ord1 !mxE eqxx /=.
have -> : (a == b) = false by apply/negbTE; rewrite -val_eqE neq_ltn Hab.
case: (b =P i) => [E|_]; last by rewrite mulr0 subr0.
have -> : (i < a)%N = false by apply/negbTE; rewrite -leqNgt -E ltnW.
by rewrite /= mul0r subr0.
Qed.
Definition dvec (i : nat) (s : F) : 'rV[F]_n := \row_a (if a == i :> nat then s^-1 else 1).
Lemma mx_scale i s M : mx (gscale i s M) = diag_mx (dvec i s) *m mx M.
Proof.
apply/matrixP => a b. rewrite mul_diag_mx !mxE /GaussProofs.gscale eqb_eq. by case: ifP => _; rewrite ?mul1r // mulrC.
Qed.
Lemma unit_scale i s : s != 0 -> diag_mx (dvec i s) \in unitmx.
Proof.
move=> Hs. rewrite unitmxE det_diag unitfE. apply/prodf_neq0 => a _. rewrite mxE. by case: ifP; rewrite ?invr_eq0 ?oner_eq0.
Qed.

(** the columns before [i] have been eliminated *)
Definition elim (i : nat) (M : nat -> nat -> F) : Prop := forall a b, (a < n)%N -> (b < i)%N -> (b < a)%N -> M a b = 0.
Lemma det0 (i : nat) M : (i < n)%N -> elim i M -> (forall a, (i <= a < n)%N -> M a i = 0) -> \det (mx M) = 0.
Proof.
move=> Hi He Hc. rewrite /determinant. apply: big1 => s _.
suff [k Hk] : exists k : 'I_n, mx M k (s k) = 0 by rewrite (bigD1 k) //= Hk mul0r mulr0.
case: (pickP (fun k : 'I_n => (i <= k)%N && (s k <= i)%N)) => [k /andP[H1 H2]|H0].
  exists k. rewrite mxE. move: H2. rewrite leq_eqVlt => /orP[/eqP ->|H2]; first by apply: Hc; rewrite H1 /=.
  by apply: He => //; apply: leq_trans H2 H1.
exfalso.
pose A := [set k : 'I_n | (i <= k)%N]. pose B := [set k : 'I_n | (i < k)%N].
have S1 : s @: A \subset B.
  apply/subsetP => x /imsetP[k Hk ->]. rewrite !inE in Hk *. move: (H0 k). by rewrite Hk /= ltnNge => ->.
have S2 : B \proper A.
  apply/properP; split; first by apply/subsetP => k; rewrite !inE => /ltnW.
  by exists (Ordinal Hi); rewrite inE /= ?ltnn.
move: (subset_leq_card S1). rewrite card_imset; last exact: perm_inj.
by rewrite leqNgt (proper_card S2).
Qed.

Hypothesis sound : forall x, isclose x = false -> x != 0.
(** the tolerance of the test was hit: a number that is not 0 was taken for 0 *)
Definition tolerance_hit : Prop := exists x, isclose x /\ x != 0.

Lemma elim_swap i j M : (i < n)%N -> (i < j < n)%N -> elim i M -> elim i (gswap i j M).
Proof.
move=> Hi /andP[Hij Hj] He a b Ha Hb Hab. rewrite /GaussProofs.gswap !eqb_eq. case: eqP => [E|_]; first by apply: He => //; apply: ltn_trans Hb Hij.
by case: eqP => [E|_]; apply: He.
Qed.
Lemma elim_step i M : (i < n)%N -> elim i M -> M i i != 0 -> elim i.+1 (gsub (i + 1) n (fun a => M a i / M i i) i M).
Proof.
move=> Hi He Hp a b Ha Hb Hab. rewrite /GaussProofs.gsub in_sliceE addn1 Ha andbT.
move: Hb. rewrite ltnS leq_eqVlt => /orP[/eqP E|Hb].
  subst b. rewrite Hab /GaussModel.fsub /= divfK // subrr //.
rewrite /GaussModel.fsub /=. rewrite (He a b Ha Hb Hab) (He i b Hi Hb Hb) mulr0 subrr. by case: ifP.
Qed.
Lemma no_pivot i M : gpivot M i = None -> (i < n)%N -> isclose (M i i) ->
  (forall a, (i <= a < n)%N -> M a i = 0) \/ tolerance_hit.
Proof.
move=> Hp Hi Hc.
have C : forall a, (i <= a < n)%N -> isclose (M a i).
  move=> a /andP[H1 H2]. move: H1. rewrite leq_eqVlt => /orP[/eqP <-|H1] //.
  have In1 : List.In a (List.seq (i + 1) (n - (i + 1))).
    apply/List.in_seq. split; first by apply/leP; rewrite addn1.
    by apply/leP; rewrite ?plusE ?minusE addn1 subnKC ?(leq_ltn_trans (leq0n _) H2) //; apply: leq_ltn_trans H2.
  by move: (List.find_none _ _ Hp _ In1) => /negbFE.
case: (boolP [exists a : 'I_n, (i <= a)%N && (M a i != 0)]) => [/existsP[a /andP[H1 H2]]|H0].
  by right; exists (M a i); split => //; apply: C; rewrite H1 /=.
left => a /andP[H1 H2]. apply/eqP. apply: contraNT H0 => H0. by apply/existsP; exists (Ordinal H2); rewrite /= H1.
Qed.
Lemma pivot_some i j M : gpivot M i = Some j -> (i < j < n)%N /\ M j i != 0.
Proof.
move=> H; have [[H1 H2] H3] := @gpivot_spec F isclose n M i j H. split; last exact: sound. by apply/andP; split; apply/leP.
Qed.

Definition sign (m : nat) : F := (-1) ^+ m.
Lemma det_final M : elim n M -> \det (mx M) = \prod_(0 <= a < n) M a a.
Proof.
move=> He. rewrite -det_tr det_trig; last first.
  apply/is_trig_mxP => a b Hab. rewrite !mxE. by apply: He.
rewrite big_mkord. by apply: eq_bigr => a _; rewrite !mxE.
Qed.
Lemma gdet_ok k : forall i M d m, (i + k = n)%N -> elim i M -> d = \prod_(0 <= a < i) M a a ->
  let '(d', m') := gdet_steps (List.seq i k) M d m in
  sign m' * d' = sign m * \det (mx M) \/ (d' = 0 /\ tolerance_hit).
Proof.
elim: k => [|k IH] i M d m Hik He Hd.
  rewrite addn0 in Hik. subst i. by left; rewrite /= det_final // Hd.
have Hi : (i < n)%N by rewrite -Hik -addSnnS leq_addr.
have K : forall M m, elim i M -> d = \prod_(0 <= a < i) M a a -> M i i != 0 ->
    let '(d', m') := gdet_steps (List.seq i.+1 k) (gsub (i + 1) n (fun a => M a i / M i i) i M) (d * M i i) m in
    sign m' * d' = sign m * \det (mx M) \/ (d' = 0 /\ tolerance_hit).
  move=> {}M {}m {}He {}Hd Hp.
  have := IH i.+1 (gsub (i + 1) n (fun a => M a i / M i i) i M) (d * M i i) m.
  rewrite addSnnS => /(_ Hik (elim_step Hi He Hp)).
  have -> : \det (mx (gsub (i + 1) n (fun a => M a i / M i i) i M)) = \det (mx M).
    by rewrite (mx_sub _ _ _ (Ordinal Hi)) det_mulmx addn1 (det_sub _ (Ordinal Hi)) mul1r.
  apply. rewrite big_nat_recr //= Hd. congr (_ * _); last by rewrite /GaussProofs.gsub in_sliceE addn1 ltnn.
  rewrite !big_nat. apply: eq_bigr => a /andP[_ Ha]. by rewrite /GaussProofs.gsub in_sliceE addn1 ltnNge (ltnW Ha).
rewrite [List.seq i k.+1]/= [gdet_steps _ _ _ _]/=.
case E: (isclose (M i i)); last by apply: K => //; apply: sound.
case Ep: (gpivot M i) => [j|].
  have [Hj Hz] := pivot_some Ep. case/andP: Hj => Hij Hj.
  have := K (gswap i j M) m.+1 (elim_swap Hi _ He).
  rewrite Hij Hj => /(_ isT). have G : gswap i j M i i = M j i by rewrite /GaussProofs.gswap eqb_eq eqxx.
  rewrite (mx_swap (Ordinal Hi) (Ordinal Hj)) det_mulmx det_perm odd_tperm.
  have -> : Ordinal Hi != Ordinal Hj by rewrite -val_eqE /= neq_ltn Hij.
  have -> : sign m.+1 * ((-1) ^+ true * \det (mx M)) = sign m * \det (mx M).
    by rewrite /sign exprSr expr1 -mulrA !mulN1r opprK.
  apply; last by rewrite G.
  rewrite Hd !big_nat. apply: eq_bigr => a /andP[_ Ha]. rewrite /GaussProofs.gswap !eqb_eq.
  by rewrite (ltn_eqF Ha) (ltn_eqF (ltn_trans Ha Hij)).
case: (no_pivot Ep Hi E) => [H0|H]; last by right.
by left; rewrite (det0 Hi He H0).
Qed.
Definition gdet (M : nat -> nat -> F) : F :=
  let '(d, m) := gdet_steps (List.seq 0 n) M 1 0%N in if Nat.even m then d else - d.
Lemma gdet_correct M : gdet M = \det (mx M) \/ (gdet M = 0 /\ tolerance_hit).
Proof.
rewrite /gdet. have := @gdet_ok n 0%N M 1 0%N (add0n n). case: (gdet_steps _ _ _ _) => d m.
have He : elim 0 M by []. move=> /(_ He). rewrite big_geq // => /(_ erefl). rewrite even_odd /sign expr0 mul1r -signr_odd.
case: (odd m) => /=; rewrite ?expr1 ?expr0 ?mulN1r ?mul1r.
  by case=> [->|[-> H]]; [left | right; rewrite oppr0].
by case=> [->|[-> H]]; [left | right].
Qed.

(** the inverse *)
Section Inv.
Variable A0 : 'M[F]_n.
Definition Inv (A X : nat -> nat -> F) : Prop := mx A = mx X *m A0 /\ mx X \in unitmx.
Lemma Inv_op (f : (nat -> nat -> F) -> nat -> nat -> F) (L : 'M[F]_n) A X :
  (forall M, mx (f M) = L *m mx M) -> L \in unitmx -> Inv A X -> Inv (f A) (f X).
Proof. move=> Hf HL [H1 H2]. by split; rewrite !Hf ?H1 ?mulmxA // unitmx_mul HL. Qed.
Definition unit_elim (i : nat) (A : nat -> nat -> F) : Prop := elim i A /\ forall b, (b < i)%N -> A b b = 1.

Lemma fwd_step i A X : (i < n)%N -> unit_elim i A -> Inv A X -> A i i != 0 ->
  let X1 := gscale i (A i i) X in let A1 := gscale i (A i i) A in
  unit_elim i.+1 (gsub (i + 1) n (fun a => A1 a i) i A1) /\
  Inv (gsub (i + 1) n (fun a => A1 a i) i A1) (gsub (i + 1) n (fun a => A1 a i) i X1).
Proof.
move=> Hi [He Hu] HI Hp X1 A1.
have I1 : Inv A1 X1 by apply: (@Inv_op (gscale i (A i i)) (diag_mx (dvec i (A i i)))) => //; [move=> M; exact: mx_scale|exact: unit_scale].
have R1 : A1 i i = 1 by rewrite /A1 /GaussProofs.gscale eqb_eq eqxx divff.
have E1 : elim i A1.
  move=> a b Ha Hb Hab. rewrite /A1 /GaussProofs.gscale eqb_eq (He a b Ha Hb Hab). by case: ifP => _; rewrite ?mul0r.
split; last first.
  apply: (@Inv_op (fun M => gsub (i + 1) n (fun a => A1 a i) i M) (1%:M - zcol (i + 1) n (fun a => A1 a i) *m delta_mx 0 (Ordinal Hi))) => //.
    by move=> M; rewrite (mx_sub _ _ _ (Ordinal Hi)).
  by apply: unit_sub; rewrite addn1 /= ltnn.
split.
  have := @elim_step i A1 Hi E1. rewrite R1 oner_eq0 => /(_ isT) H a b Ha Hb Hab.
  rewrite -(H a b Ha Hb Hab) /gsub. case: ifP => // _. by rewrite ?R1 divr1.
move=> b. rewrite ltnS leq_eqVlt => /orP[/eqP ->|Hb]; first by rewrite /GaussProofs.gsub in_sliceE addn1 ltnn.
rewrite /GaussProofs.gsub in_sliceE addn1 ltnNge (ltnW Hb) /= /A1 /GaussProofs.gscale eqb_eq (ltn_eqF Hb). exact: Hu.
Qed.
Lemma unit_elim_swap i j M : (i < n)%N -> (i < j < n)%N -> unit_elim i M -> unit_elim i (gswap i j M).
Proof.
move=> Hi Hj [He Hu]. split; first exact: elim_swap. move=> b Hb. rewrite /GaussProofs.gswap !eqb_eq (ltn_eqF Hb).
case/andP: Hj => Hij _. rewrite (ltn_eqF (ltn_trans Hb Hij)). exact: Hu.
Qed.
Lemma fwd_ok k : forall i A X, (i + k = n)%N -> unit_elim i A -> Inv A X ->
  match ginv_steps (List.seq i k) A X with
  | Ok (A', X') => unit_elim n A' /\ Inv A' X'
  | Err e => e = RuntimeError /\ (\det A0 = 0 \/ tolerance_hit)
  end.
Proof.
elim: k => [|k IH] i A X Hik Hu HI.
  rewrite addn0 in Hik. by subst i.
have Hi : (i < n)%N by rewrite -Hik -addSnnS leq_addr.
rewrite [List.seq i k.+1]/= [ginv_steps _ _ _]/=.
case E: (isclose (A i i)); last first.
  have [U1 I1] := fwd_step Hi Hu HI (sound E). apply: IH => //. by rewrite addSnnS.
case Ep: (gpivot A i) => [j|].
  have [Hj Hz] := pivot_some Ep. have [_ Hj2] := andP Hj.
  have G : gswap i j A i i = A j i by rewrite /GaussProofs.gswap eqb_eq eqxx.
  have IS : Inv (gswap i j A) (gswap i j X).
    apply: (@Inv_op (gswap i j) (tperm_mx (Ordinal Hi) (Ordinal Hj2))) => //; last exact: unitmx_perm.
    by move=> M; rewrite (mx_swap (Ordinal Hi) (Ordinal Hj2)).
  have Hz' : gswap i j A i i != 0 by rewrite G.
  have [U1 I1] := fwd_step Hi (unit_elim_swap Hi Hj Hu) IS Hz'. apply: IH => //. by rewrite addSnnS.
split => //. case: (no_pivot Ep Hi E) => [H0|]; last by right.
left. have D : \det (mx A) = 0 by apply: (det0 Hi _ H0); case: Hu.
case: HI => H1 H2. move: D. rewrite H1 det_mulmx => /eqP. rewrite mulf_eq0 => /orP[|/eqP //].
by move: H2; rewrite unitmxE unitfE => /negbTE ->.
Qed.
Definition cols_done (i : nat) (A : nat -> nat -> F) : Prop :=
  unit_elim n A /\ forall a b, (a < n)%N -> (i < b < n)%N -> A a b = (a == b)%:R.
Lemma back_ok k : forall A X, (k < n)%N -> cols_done k A -> Inv A X ->
  exists A', cols_done 0 A' /\ Inv A' (ginv_back (List.rev (List.seq 1 k)) A X).
Proof.
elim: k => [|k IH] A X Hk Hc HI; first by exists A.
rewrite List.seq_S List.rev_app_distr [List.rev [:: _]]/= [(_ ++ _)%list]/= [ginv_back _ _ _]/=.
rewrite ?plusE ?add1n.
set A1 := gsub 0 k.+1 _ _ A. set X1 := gsub 0 k.+1 _ _ X.
case: Hc => [[He Hu] Hc].
have Row : forall b, (b < n)%N -> A k.+1 b = (k.+1 == b)%:R.
  move=> b Hb. case: (ltngtP b k.+1) => [H|H|->].
  - by rewrite He // .
  - by rewrite Hc ?H //= ltn_eqF.
  - by rewrite Hu.
apply: (IH A1 X1 (ltnW Hk)).
  split; first split.
  - move=> a b Ha Hb Hab. rewrite /A1 /gsub in_sliceE /=. case: ifP => H; last exact: He.
    rewrite /GaussModel.fsub Row // He // (gtn_eqF (ltn_trans Hab H)) mulr0 subrr //.
  - move=> b Hb. rewrite /A1 /gsub in_sliceE /=. case: ifP => H; last exact: Hu.
    by rewrite /GaussModel.fsub Row // Hu // (gtn_eqF H) mulr0 subr0.
  - move=> a b Ha /andP[H1 H2]. rewrite /A1 /gsub in_sliceE /=. case: ifP => H.
      rewrite /GaussModel.fsub Row //. move: H1. rewrite leq_eqVlt => /orP[/eqP E|H1].
        by rewrite -E eqxx mulr1 subrr (ltn_eqF H).
      by rewrite (ltn_eqF H1) mulr0 subr0 Hc ?H1.
    move: H1. rewrite leq_eqVlt => /orP[/eqP E|H1]; last by rewrite Hc ?H1.
    rewrite -E. case: (ltngtP a k.+1) => [H'|H'|->]; [by rewrite H' in H|by rewrite He|by rewrite Hu // -E].
apply: (@Inv_op (fun M => gsub 0 k.+1 (fun a => A a k.+1) k.+1 M) (1%:M - zcol 0 k.+1 (fun a => A a k.+1) *m delta_mx 0 (Ordinal Hk))) => //.
  by move=> M; rewrite (mx_sub _ _ _ (Ordinal Hk)).
by apply: unit_sub; rewrite /= ltnn.
Qed.
End Inv.
Notation ginv := (@ginv F 0 1 +%R *%R (fun x y : F => x / y) -%R isclose n).
Lemma ginv_correct M :
  match ginv M with
  | Ok X => mx X *m mx M = 1%:M /\ mx M *m mx X = 1%:M
  | Err e => e = RuntimeError /\ (\det (mx M) = 0 \/ tolerance_hit)
  end.
Proof.
rewrite /GaussProofs.ginv.
set I0 := (fun i j : nat => if Nat.eqb i j then 1 else 0).
have E0 : mx I0 = 1%:M by apply/matrixP => a b; rewrite !mxE /I0 eqb_eq -val_eqE; case: eqP.
have H0 : Inv (mx M) M I0 by split; rewrite E0 ?mul1mx ?unitmx1.
have := @fwd_ok (mx M) n 0%N M I0 (add0n n) _ H0.
case: (ginv_steps _ _ _) => [[A X]|e] /= H; last by apply: H; split.
have [U I1] : unit_elim n A /\ Inv (mx M) A X by apply: H; split.
have [Y1 HY] : exists Y1, mx Y1 = 1%:M /\ Inv (mx M) Y1 (ginv_back (List.rev (List.seq 1 (n - 1))) A X).
  case: (posnP n) => [En|Hn].
    exists A. rewrite [in List.seq 1 _]En /=. split => //. apply/matrixP => a; exfalso; have := ltn_ord a; by rewrite [X in (_ < X)%N]En.
  have Hk : (n - 1 < n)%N by rewrite subn1 prednK.
  have Hd : cols_done (n - 1) A.
    split => // a b _ /andP[H1 H2]. by move: H1; rewrite ltnNge subn1 -ltnS prednK // H2.
  have [A' [[[He Hu] Hc] HI]] := back_ok Hk Hd I1. exists A'. split => //.
  suff E1 : forall a b : nat, (a < n)%N -> (b < n)%N -> A' a b = (a == b)%:R by apply/matrixP => a b; rewrite !mxE -val_eqE E1.
  move=> a b Ha Hb. case: (posnP b) => [Eb|Hb0]; last by rewrite Hc // Hb0.
  rewrite Eb. case: (posnP a) => [->|Ha0]; first by rewrite Hu.
  by rewrite He // eqn0Ngt Ha0.
case: HY => [EY [H1 H2]]. rewrite EY in H1. by rewrite minusE; split; [|apply: mulmx1C].
Qed.
End Alg.
