(** C77 and C78: det and inv (heat/core/linalg/basics.py L276-352, L407-515) of stacks of
    square matrices in any layout.  The elements are in a field (mathcomp's fieldType, so no
    rounding); [\det], [unitmx] and [invmx] are mathcomp's.  [isclose x] models
    np.isclose(x, 0), which takes some small numbers that are not 0 for 0.
    torch.linalg.det and torch.inverse of one matrix are taken to be exact; torch.inverse
    raises RuntimeError for a singular matrix. *)
From mathcomp Require Import all_ssreflect fingroup perm all_algebra.
From Coq Require Import ZArith.
From Coq Require List PeanoNat.
From Verif Require Base NdSpec ShapeProps TensorSpec OpsModel ShapeModel ReshapeModel GaussModel GaussProofs GaussAlg GaussTop.
Import Verif.Base Verif.NdSpec Verif.ShapeProps Verif.TensorSpec Verif.OpsModel Verif.ShapeModel Verif.GaussModel.
Set Implicit Arguments. Unset Strict Implicit. Unset Printing Implicit Defensive.
Import GRing.Theory Num.Theory.
Delimit Scope nat_scope with N.
Delimit Scope Z_scope with Z.
Local Open Scope ring_scope.

Section Spec.
Variable F : fieldType.
(** matrix [idx] of a stack of n x n matrices with global contents [G] *)
Definition stack_mx (n : nat) (G : list Z -> F) (idx : list Z) : 'M[F]_n :=
  \matrix_(i, j) G (List.app idx [:: Z.of_nat i; Z.of_nat j]).
Definition entries (n : nat) (M : nat -> nat -> F) : 'M[F]_n := \matrix_(i, j) M i j.
(** torch.linalg.det, torch.inverse *)
Definition torch_det (n : nat) (M : nat -> nat -> F) : F := \det (entries n M).
Definition torch_inv (n : nat) (M : nat -> nat -> F) : res (nat -> nat -> F) :=
  if entries n M \in unitmx
  then Ok (fun i j => match insub i, insub j with Some i, Some j => invmx (entries n M) i j | _, _ => 0 end)
  else Err RuntimeError.
Definition ht_det (isclose : F -> bool) : dnd F -> res (dnd F) :=
  det 0 1 +%R *%R (fun x y : F => x / y) -%R isclose torch_det.
Definition ht_inv (isclose : F -> bool) : dnd F -> res (dnd F) :=
  inv 0 1 +%R *%R (fun x y : F => x / y) -%R isclose torch_inv.
(** heat/core/dndarray.py is_distributed: a split and more than one process *)
Definition is_distributed (x : dnd F) : bool :=
  match d_split x with None => false | Some _ => Nat.ltb 1 (length (d_locals x)) end.
(** the layouts for which a call does not fail on empty matrices *)
Definition not_empty (n : nat) (ld : list Z) (x : dnd F) : Prop :=
  is_distributed x = false \/ (exists s, d_split x = Some s /\ lt s (length ld)) \/ lt 0 n.

Lemma entries_ext n (M M' : nat -> nat -> F) : GaussTop.same n M M' -> entries n M = entries n M'.
Proof. move=> H. apply/matrixP => i j. rewrite !mxE. by apply: H; apply/ltP. Qed.
Lemma entries_stack n G idx : entries n (GaussTop.mat_of G idx) = stack_mx n G idx.
Proof. by []. Qed.

(** the elimination's determinant is exact up to the tolerance *)
Theorem C77_det_tolerance : forall (isclose : F -> bool) (x : dnd F) (cnts : list Z) (G : list Z -> F) (ld : list Z) (n : nat),
  (forall v : F, isclose v = false -> v != 0) ->
  rep x cnts G -> lt 0 (length cnts) -> d_gshape x = List.app ld [:: Z.of_nat n; Z.of_nat n] -> not_empty n ld x ->
  exists y cnts' G', ht_det isclose x = Ok y /\ d_gshape y = ld /\ rep y cnts' G' /\
    d_split y = (if is_distributed x then match d_split x with Some s => if Nat.ltb s (length ld) then Some s else None | None => None end else None) /\
    forall idx, in_bounds ld idx -> G' idx = \det (stack_mx n G idx) \/ (G' idx = 0 /\ exists v : F, isclose v /\ v != 0).
Proof.
move=> isclose x cnts G ld n sound R HP Eg HN.
pose proof (fun D1 => @GaussTop.det_top F n ld 0 1 +%R *%R (fun x y : F => x / y) -%R isclose torch_det torch_inv D1 (fun M v => v = \det (entries n M) \/ (v = 0 /\ exists v : F, isclose v /\ v != 0))) as H.
have X1 : forall M M' : nat -> nat -> F, GaussTop.same n M M' -> torch_det n M = torch_det n M' by move=> M M' HS; rewrite /torch_det (entries_ext HS).
specialize (H X1).
have X2 : forall M M' (v : F), GaussTop.same n M M' -> (v = \det (entries n M) \/ (v = 0 /\ exists v : F, isclose v /\ v != 0)) -> (v = \det (entries n M') \/ (v = 0 /\ exists v : F, isclose v /\ v != 0)).
  by move=> M M' v HS; rewrite (entries_ext HS).
specialize (H X2 (fun M => @GaussAlg.gdet_correct F isclose n sound M) x cnts G R HP Eg HN).
have X3 : forall M, torch_det n M = \det (entries n M) \/ (torch_det n M = 0 /\ exists v : F, isclose v /\ v != 0) by move=> M; left.
by have := H (fun _ => X3).
Qed.
(** with an exact test for 0 the result is the determinant of every matrix of the stack *)
Theorem C77_det_partial : forall (isclose : F -> bool) (x : dnd F) (cnts : list Z) (G : list Z -> F) (ld : list Z) (n : nat),
  (forall v : F, isclose v = (v == 0)) ->
  rep x cnts G -> lt 0 (length cnts) -> d_gshape x = List.app ld [:: Z.of_nat n; Z.of_nat n] -> not_empty n ld x ->
  exists y cnts' G', ht_det isclose x = Ok y /\ d_gshape y = ld /\ rep y cnts' G' /\
    d_split y = (if is_distributed x then match d_split x with Some s => if Nat.ltb s (length ld) then Some s else None | None => None end else None) /\
    forall idx, in_bounds ld idx -> G' idx = \det (stack_mx n G idx).
Proof.
move=> isclose x cnts G ld n exact R HP Eg HN.
have sound : forall v : F, isclose v = false -> v != 0 by move=> v; rewrite exact => ->.
have [y [c [G' [E1 [E2 [E3 [E4 H]]]]]]] := C77_det_tolerance sound R HP Eg HN.
exists y, c, G'; split; first exact: E1. split; first exact: E2. split; first exact: E3. split; first exact: E4. move=> idx Hi. case: (H idx Hi) => // - [_ [v [Hv Nv]]].
by move: Hv; rewrite exact (negbTE Nv).
Qed.
(** what is rejected: less than two dimensions, or matrices that are not square *)
Theorem C77_rejects : forall (isclose : F -> bool) (x : dnd F),
  (lt (length (d_gshape x)) 2 -> ht_det isclose x = Err RuntimeError /\ ht_inv isclose x = Err RuntimeError) /\
  (forall ld m k, d_gshape x = List.app ld [:: m; k] -> m <> k -> ht_det isclose x = Err RuntimeError /\ ht_inv isclose x = Err RuntimeError).
Proof.
move=> isclose x. rewrite /ht_det /ht_inv /det /inv /checked. split.
  by move=> /PeanoNat.Nat.ltb_lt ->.
move=> ld m k -> N. have -> : Nat.ltb (length (List.app ld [:: m; k])) 2 = false.
  apply/PeanoNat.Nat.ltb_ge. rewrite List.app_length /=. apply/leP. by rewrite plusE leq_addl.
have := GaussTop.last2 ld m k => - [-> ->]. by have /Z.eqb_neq -> := N.
Qed.
(** the tolerance: diag(eps, 1/eps) has determinant 1; with eps taken for 0 the result is 0
    if the rows are distributed over two processes, and 1 on one process *)
Definition spread (eps : F) : list (arr F) :=
  [:: mk_arr [:: 1; 2]%Z (fun i => if Z.eqb (List.nth 1 i 0%Z) 0%Z then eps else 0);
      mk_arr [:: 1; 2]%Z (fun i => if Z.eqb (List.nth 1 i 0%Z) 1%Z then eps^-1 else 0)].
Definition diag2 (eps : F) (idx : list Z) : F :=
  if Z.eqb (List.nth 0 idx 0%Z) 0 then (if Z.eqb (List.nth 1 idx 0%Z) 0%Z then eps else 0)
  else if Z.eqb (List.nth 1 idx 0%Z) 1%Z then eps^-1 else 0.
Lemma spread_rep eps : rep (mk_dnd (spread eps) [:: 2; 2]%Z (Some 0%N)) [:: 1; 1]%Z (diag2 eps).
Proof.
split; first by []. split; first by repeat constructor.
split; first by apply/ltP. split; first by repeat constructor. split; first by [].
move=> r t; destruct r as [|[|r]]; cbn [List.nth_error spread d_locals]; intros E; [injection E as <- | injection E as <- | destruct r; discriminate].
- split; first by []. move=> idx H. inversion H as [|? a ? l1 Ha H1]; subst. inversion H1 as [|? b ? l2 Hb H2]; subst. inversion H2; subst.
  rewrite /diag2 /move_axis_idx /=. have -> : a = 0%Z by cbn in Ha; lia. by [].
- split; first by []. move=> idx H. inversion H as [|? a ? l1 Ha H1]; subst. inversion H1 as [|? b ? l2 Hb H2]; subst. inversion H2; subst.
  rewrite /diag2 /move_axis_idx /=. have -> : a = 0%Z by cbn in Ha; lia. by [].
Qed.
Lemma stack_diag2 eps : eps != 0 -> stack_mx 2 (diag2 eps) [::] \in unitmx /\ \det (stack_mx 2 (diag2 eps) [::]) = 1.
Proof.
move=> H. have E : \det (stack_mx 2 (diag2 eps) [::]) = 1.
  by rewrite (expand_det_row _ ord0) !big_ord_recl big_ord0 /cofactor !det_mx11 !mxE /diag2 /= mul0r !addr0 expr0 mul1r divff.
by rewrite unitmxE E unitr1.
Qed.
Lemma gdet_diag2 (isclose : F -> bool) eps (M : nat -> nat -> F) : isclose eps -> isclose 0 -> M 0%N 0%N = eps -> M 1%N 0%N = 0 ->
  (let '(d, m) := GaussProofs.gdet_steps 0 +%R *%R (fun x y : F => x / y) -%R isclose 2 (List.seq 0 2) M 1 0 in if Nat.even m then d else - d) = 0.
Proof. move=> H1 H2 E1 E2. by rewrite /= /GaussProofs.gpivot /= E1 H1 E2 H2. Qed.
Lemma ginv_diag2 (isclose : F -> bool) eps (M : nat -> nat -> F) : isclose eps -> isclose 0 -> M 0%N 0%N = eps -> M 1%N 0%N = 0 ->
  GaussProofs.ginv 0 1 +%R *%R (fun x y : F => x / y) -%R isclose 2 M = Err RuntimeError.
Proof. move=> H1 H2 E1 E2. by rewrite /GaussProofs.ginv /= /GaussProofs.gpivot /= E1 H1 E2 H2. Qed.
Theorem C77_tolerance_refuted : forall (isclose : F -> bool) (eps : F), isclose eps -> isclose 0 -> eps != 0 ->
  let x := mk_dnd (spread eps) [:: 2; 2]%Z (Some 0%N) in
  rep x [:: 1; 1]%Z (diag2 eps) /\ \det (stack_mx 2 (diag2 eps) [::]) = 1 /\
  exists y cnts' G', ht_det isclose x = Ok y /\ d_gshape y = [::] /\ rep y cnts' G' /\ G' [::] = 0.
Proof.
move=> isclose eps H1 H2 H3 x. have R := spread_rep eps. split; first exact: R. split; first by case: (stack_diag2 H3).
have X1 : forall M M' : nat -> nat -> F, GaussTop.same 2 M M' -> torch_det 2 M = torch_det 2 M' by move=> M M' HS; rewrite /torch_det (entries_ext HS).
pose Q := fun (M : nat -> nat -> F) (v : F) => M 0%N 0%N = eps -> M 1%N 0%N = 0 -> v = 0.
have X2 : forall M M' (v : F), GaussTop.same 2 M M' -> Q M v -> Q M' v.
  move=> M M' v HS HQ E1 E2. by apply: HQ; rewrite HS //; apply/ltP.
have X3 := fun M => @gdet_diag2 isclose eps M H1 H2.
have HP : lt 0 (length [:: 1%Z; 1%Z]) by apply/ltP.
have HN : distributed x = false \/ (exists s, d_split x = Some s /\ lt s (length (@nil Z))) \/ lt 0 2 by right; right; apply/ltP.
have X4 : (distributed x = false \/ (exists s, d_split x = Some s /\ lt s (length (@nil Z)))) -> forall M, Q M (torch_det 2 M).
  by case=> [//|[s [_ /ltP]]].
have [y [c [G' [E1 [E2 [E3 [E4 H]]]]]]] := @GaussTop.det_top F 2 [::] 0 1 +%R *%R (fun x y : F => x / y) -%R isclose torch_det torch_inv X1 Q X2 X3 x _ _ R HP erefl HN X4.
exists y, c, G'. split; first exact: E1. split; first exact: E2. split; first exact: E3. have Hb : in_bounds [::] [::] by constructor. exact: (H [::] Hb erefl erefl).
Qed.
(** a 0 x 0 matrix with distributed rows or columns: ValueError, not the determinant 1 *)
Theorem C77_empty_refuted : forall (isclose : F -> bool) (x : dnd F) (ld : list Z) (s : nat),
  d_gshape x = List.app ld [:: 0; 0]%Z -> is_distributed x -> d_split x = Some s -> le (length ld) s ->
  ht_det isclose x = Err ValueError /\ ht_inv isclose x = Err ValueError /\
  forall G idx, \det (stack_mx 0 G idx) = 1.
Proof.
move=> isclose x ld s Eg ED Es Hs. rewrite /ht_det /ht_inv /det /inv.
have CK := fun B k => @GaussTop.checked_ok F 0%N ld 1 +%R +%R +%R -%R isclose torch_det torch_inv B x k Eg. rewrite !CK /distributed. move: ED. rewrite /is_distributed Es => ->.
have -> : Nat.ltb s (Nat.sub (length (d_gshape x)) 2) = false.
  apply/PeanoNat.Nat.ltb_ge. rewrite Eg List.app_length; cbn [length]; lia.
have E : forall ns, ReshapeModel.reshape 0 x [:: -1; 0; 0]%Z ns = Err ValueError.
  by move=> ns; rewrite /ReshapeModel.reshape /ReshapeModel.np_shape.
rewrite !E. split=> //. split=> //. move=> G idx. by rewrite det_mx00.
Qed.

(** * inv *)
Theorem C78_inv_tolerance : forall (isclose : F -> bool) (x : dnd F) (cnts : list Z) (G : list Z -> F) (ld : list Z) (n : nat),
  (forall v : F, isclose v = false -> v != 0) ->
  rep x cnts G -> lt 0 (length cnts) -> d_gshape x = List.app ld [:: Z.of_nat n; Z.of_nat n] -> not_empty n ld x ->
  match ht_inv isclose x with
  | Ok y => exists cnts' G', d_gshape y = d_gshape x /\ d_split y = d_split x /\ rep y cnts' G' /\
      forall idx, in_bounds ld idx ->
        stack_mx n G' idx *m stack_mx n G idx = 1%:M /\ stack_mx n G idx *m stack_mx n G' idx = 1%:M
  | Err e => e = RuntimeError /\ exists idx, in_bounds ld idx /\ (\det (stack_mx n G idx) = 0 \/ exists v : F, isclose v /\ v != 0)
  end.
Proof.
move=> isclose x cnts G ld n sound R HP Eg HN.
have X1 : forall M M' : nat -> nat -> F, GaussTop.same n M M' -> torch_inv n M = torch_inv n M' by move=> M M' HS; rewrite /torch_inv (entries_ext HS).
pose Q := fun M N : nat -> nat -> F => entries n N *m entries n M = 1%:M /\ entries n M *m entries n N = 1%:M.
pose B := fun (M : nat -> nat -> F) (e : exn) => e = RuntimeError /\ (\det (entries n M) = 0 \/ exists v : F, isclose v /\ v != 0).
have X2 : forall M M' N N', GaussTop.same n M M' -> GaussTop.same n N N' -> Q M N -> Q M' N'.
  by move=> M M' N N' HS HS'; rewrite /Q (entries_ext HS) (entries_ext HS').
have X3 : forall M M' e, GaussTop.same n M M' -> B M e -> B M' e by move=> M M' e HS; rewrite /B (entries_ext HS).
have X4 : forall M, match @GaussProofs.ginv F 0 1 +%R *%R (fun x y : F => x / y) -%R isclose n M with Ok N => Q M N | Err e => B M e end
  := fun M => @GaussAlg.ginv_correct F isclose n sound M.
have X0 : forall M M' : nat -> nat -> F, GaussTop.same n M M' -> torch_det n M = torch_det n M' by move=> M M' HS; rewrite /torch_det (entries_ext HS).
have X5 : forall M, match torch_inv n M with Ok N => Q M N | Err e => B M e end.
  move=> M. rewrite /torch_inv. case U: (entries n M \in unitmx).
    set N := (fun i j : nat => _). have E : entries n N = invmx (entries n M) by apply/matrixP => i j; rewrite !mxE /N !valK.
    by rewrite /Q E mulVmx // mulmxV.
  split=> //. left. move: U. rewrite unitmxE unitfE. by move/negbT; rewrite negbK => /eqP.
have := @GaussTop.inv_top F n ld 0 1 +%R *%R (fun x y : F => x / y) -%R isclose torch_det torch_inv X0 X1 Q B X2 X3 X4 x cnts G R HP Eg HN.
move=> H0. have {H0} := H0 ltac:(by move=> _ M; have := X5 M; case: (torch_inv n M)).
rewrite -/(ht_inv isclose) -/(ht_inv isclose x).
case: (ht_inv isclose x) => [y|e] //. by move=> [idx [Hi [H1 H2]]]; split=> //; exists idx.
Qed.
Theorem C78_inv_partial : forall (isclose : F -> bool) (x : dnd F) (cnts : list Z) (G : list Z -> F) (ld : list Z) (n : nat),
  (forall v : F, isclose v = (v == 0)) ->
  rep x cnts G -> lt 0 (length cnts) -> d_gshape x = List.app ld [:: Z.of_nat n; Z.of_nat n] -> not_empty n ld x ->
  ((forall idx, in_bounds ld idx -> stack_mx n G idx \in unitmx) ->
   exists y cnts' G', ht_inv isclose x = Ok y /\ d_gshape y = d_gshape x /\ d_split y = d_split x /\ rep y cnts' G' /\
     forall idx, in_bounds ld idx -> stack_mx n G' idx = invmx (stack_mx n G idx)) /\
  ((exists idx, in_bounds ld idx /\ stack_mx n G idx \notin unitmx) -> ht_inv isclose x = Err RuntimeError).
Proof.
move=> isclose x cnts G ld n exact R HP Eg HN.
have sound : forall v : F, isclose v = false -> v != 0 by move=> v; rewrite exact => ->.
have := C78_inv_tolerance sound R HP Eg HN. case: (ht_inv isclose x) => [y|e].
  move=> [c [G' [E1 [E2 [E3 H]]]]]. split.
    move=> U. exists y, c, G'. split; first by []. split; first exact: E1. split; first exact: E2. split; first exact: E3. move=> idx Hi. case: (H idx Hi) => H1 H2.
    by rewrite -[LHS]mulmx1 -(mulmxV (U idx Hi)) mulmxA H1 mul1mx.
  move=> [idx [Hi /negP N]]. case: N. case: (H idx Hi) => H1 H2. by case: (mulmx1_unit H2).
move=> [-> [idx [Hi H]]]. split=> // U. have := U idx Hi. rewrite unitmxE unitfE.
case: H => [->|[v [Hv Nv]]]; first by rewrite eqxx. by move: Hv; rewrite exact (negbTE Nv).
Qed.
Theorem C78_tolerance_refuted : forall (isclose : F -> bool) (eps : F), isclose eps -> isclose 0 -> eps != 0 ->
  let x := mk_dnd (spread eps) [:: 2; 2]%Z (Some 0%N) in
  rep x [:: 1; 1]%Z (diag2 eps) /\ stack_mx 2 (diag2 eps) [::] \in unitmx /\ ht_inv isclose x = Err RuntimeError.
Proof.
move=> isclose eps H1 H2 H3 x. have R := spread_rep eps. split; first exact: R. split; first by case: (stack_diag2 H3).
have X1 : forall M M' : nat -> nat -> F, GaussTop.same 2 M M' -> torch_inv 2 M = torch_inv 2 M' by move=> M M' HS; rewrite /torch_inv (entries_ext HS).
have X0 : forall M M' : nat -> nat -> F, GaussTop.same 2 M M' -> torch_det 2 M = torch_det 2 M' by move=> M M' HS; rewrite /torch_det (entries_ext HS).
pose Q := fun M N : nat -> nat -> F => ~ (M 0%N 0%N = eps /\ M 1%N 0%N = 0).
pose B := fun (M : nat -> nat -> F) (e : exn) => M 0%N 0%N = eps -> M 1%N 0%N = 0 -> e = RuntimeError.
have X2 : forall M M' N N', GaussTop.same 2 M M' -> GaussTop.same 2 N N' -> Q M N -> Q M' N'.
  move=> M M' N N' HS _ HQ [E1 E2]. by apply: HQ; rewrite !HS //; apply/ltP.
have X3 : forall M M' e, GaussTop.same 2 M M' -> B M e -> B M' e.
  move=> M M' e HS HB E1 E2. by apply: HB; rewrite !HS //; apply/ltP.
have X4 : forall M, match @GaussProofs.ginv F 0 1 +%R *%R (fun x y : F => x / y) -%R isclose 2 M with Ok N => Q M N | Err e => B M e end.
  move=> M. case E: (GaussProofs.ginv _ _ _ _ _ _ _ _ M) => [N|e].
    by move=> [E1 E2]; move: E; rewrite (@ginv_diag2 isclose eps M H1 H2 E1 E2).
  by move=> E1 E2; move: E; rewrite (@ginv_diag2 isclose eps M H1 H2 E1 E2) => - [].
have HP : lt 0 (length [:: 1%Z; 1%Z]) by apply/ltP.
have HN : distributed x = false \/ (exists s, d_split x = Some s /\ lt s (length (@nil Z))) \/ lt 0 2 by right; right; apply/ltP.
have X5 : (distributed x = false \/ (exists s, d_split x = Some s /\ lt s (length (@nil Z)))) -> forall M, match torch_inv 2 M with Ok N => Q M N | Err e => B M e end.
  by case=> [//|[s [_ /ltP]]].
have := @GaussTop.inv_top F 2 [::] 0 1 +%R *%R (fun x y : F => x / y) -%R isclose torch_det torch_inv X0 X1 Q B X2 X3 ltac:(by move=> M; have := X4 M; case: (GaussProofs.ginv _ _ _ _ _ _ _ _ M)) x _ _ R HP erefl HN.
move=> H0. have {H0} := H0 ltac:(by move=> C M; have := X5 C M; case: (torch_inv 2 M)).
rewrite -/(ht_inv isclose) -/(ht_inv isclose x). case: (ht_inv isclose x) => [y|e].
  move=> [c [G' [_ [_ [_ H]]]]]. have Hn : in_bounds [::] [::] by constructor. by case: (H [::] Hn).
by move=> [idx [Hi H]]; inversion Hi; subst; rewrite (H erefl erefl).
Qed.
End Spec.

(** The hypotheses are met; and the tolerance of np.isclose over the rationals *)
Example C77_instance : forall F : fieldType, exists (x : dnd F) cnts G n,
  rep x cnts G /\ lt 1 (length cnts) /\ d_gshape x = List.app [::] [:: Z.of_nat n; Z.of_nat n] /\ not_empty n [::] x /\
  d_split x = Some 0%N /\ stack_mx n G [::] \in unitmx.
Proof.
move=> F. exists (mk_dnd (spread (1 : F)) [:: 2; 2]%Z (Some 0%N)), [:: 1; 1]%Z, (diag2 1), 2%N.
split; first exact: spread_rep. split; first by apply/ltP. split=> //. split; first by right; right; apply/ltP.
split=> //. by case: (stack_diag2 (oner_neq0 F)).
Qed.
Lemma tol_facts (a : rat) : 1 < a -> (0 < (a ^+ 8)^-1) /\ (`|(a ^+ 9)^-1| <= (a ^+ 8)^-1) /\ (a ^+ 9)^-1 != 0.
Proof.
move=> H. have P : 0 < a by apply: Order.POrderTheory.lt_trans H. have P8 : 0 < a ^+ 8 by apply: exprn_gt0. have P9 : 0 < a ^+ 9 by apply: exprn_gt0.
split; first by rewrite invr_gt0. split; last by rewrite invr_eq0 Order.POrderTheory.gt_eqF.
rewrite ger0_norm; last by rewrite invr_ge0 Order.POrderTheory.ltW.
by rewrite lef_pinv ?posrE // ler_eexpn2l.
Qed.
(** np.isclose(x, 0) with the default tolerance, atol = 1e-8 *)
Definition np_isclose (ten : rat) (v : rat) : bool := `|v| <= (ten ^+ 8)^-1.
Example C77_isclose : forall ten : rat, ten = 10%:R ->
  (forall v, np_isclose ten v = false -> v != 0) /\ np_isclose ten (ten ^+ 9)^-1 /\ np_isclose ten 0 /\ (ten ^+ 9)^-1 != 0.
Proof.
move=> ten E. have H : 1 < ten by rewrite E ltr1n. case: (tol_facts H) => P8 [Hc Hn]. clear E.
split; last by rewrite /np_isclose normr0 (Order.POrderTheory.ltW P8).
move=> v. rewrite /np_isclose => HF. apply/eqP => E. move: HF. by rewrite E normr0 (Order.POrderTheory.ltW P8).
Qed.
Print Assumptions C77_det_tolerance.
Print Assumptions C77_det_partial.
Print Assumptions C77_rejects.
Print Assumptions C77_tolerance_refuted.
Print Assumptions C77_empty_refuted.
Print Assumptions C78_inv_tolerance.
Print Assumptions C78_inv_partial.
Print Assumptions C78_tolerance_refuted.
