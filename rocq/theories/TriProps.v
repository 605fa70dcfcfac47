(** C80: solve_triangular. *)
From Coq Require Import Field_theory Field Ring QArith Qcanon.
From Verif Require Import Base BaseLemmas LayoutModel LayoutProofs NdSpec OpsModel OpsProofs5 TriSpec TriModel TriProofs.
Open Scope nat_scope.

Lemma nth_skip (l : list nat) k i : nth i (skipn k l) 0 = nth (k + i) l 0.
Proof. revert k. induction l as [|x l IH]; intros [|k]; cbn [skipn nth Nat.add]; auto. now destruct i. Qed.
Lemma first_pos n p : 0 < p -> 0 < n -> 0 < nth 0 (counts_of n p) 0.
Proof.
  intros Hp Hn. rewrite counts_of_nth by lia. unfold clen, chunk_1d. destruct (Nat.ltb_spec 0 (n mod p)); cbn [snd]; [rewrite Nat.add_1_r; apply Nat.lt_0_succ|].
  pose proof (Nat.div_mod n p ltac:(lia)) as E. destruct (n / p); lia.
Qed.
(** the layouts with canonical extents *)
Definition canonical (p n : nat) (sa : asplit) (sb : bsplit) : Prop :=
  (match sa with ANone => True | ACols cs | ARows cs => cs = counts_of n p end) /\
  (match sb with BNone => True | BRows cs => cs = counts_of n p end).
(** the result, split along the rows in canonical layout or not split, is X on every process *)
Definition is_result {F} (p n K : nat) (split : bool) (X : nat -> nat -> F) (r : bool * list (blk F)) : Prop :=
  fst r = split /\ length (snd r) = p /\ forall q B, nth_error (snd r) q = Some B ->
    bc B = K /\
    if split then br B = nth q (counts_of n p) 0 /\ forall i c, i < br B -> c < K -> be B i c = X (psum (counts_of n p) q + i) c
    else br B = n /\ forall i c, i < n -> c < K -> be B i c = X i c.

(** In every layout with canonical extents, for any number of processes (also more than rows):
    the one solution.  With A not split and b split only for dtypes of at most 4 bytes. *)
Theorem C80_solves_partial : forall (F : Type) (f0 f1 : F) fadd fmul fsub fopp fdiv finv, field_theory f0 f1 fadd fmul fsub fopp fdiv finv eq ->
  forall (p n K : nat) (A b : nat -> nat -> F), 0 < p -> (forall i, i < n -> A i i <> f0) ->
  exists X, solves f0 fadd fmul n K A b X /\ (upper f0 n A -> solves_full f0 fadd fmul n K A b X) /\
    (forall Y, solves f0 fadd fmul n K A b Y -> forall i c, i < n -> c < K -> Y i c = X i c) /\
    forall bsize sa sb, canonical p n sa sb -> (sa = ANone -> sb <> BNone -> bsize <= 4) ->
      exists r, solve_la f0 fadd fmul fsub fdiv p n K bsize sa sb A b = Ok r /\
        is_result p n K (match sa, sb with ANone, BNone => false | _, _ => true end) X r.
Proof.
  intros F f0 f1 fadd fmul fsub fopp fdiv finv FT p n K A b Hp ND. set (X := fun j c => nth j (back f0 fadd fmul fsub fdiv n A (fun i => b i c) n) f0).
  assert (HX : solves f0 fadd fmul n K A b X) by (intros i c Hi Hc; now apply (back_solves f0 f1 fadd fmul fsub fopp fdiv finv FT n A (fun i => b i c) ND i)).
  exists X. split; [exact HX|]. split; [|split].
  - intros U. now apply (full_solves f0 f1 fadd fmul fsub fopp fdiv finv FT).
  - intros Y HY i c Hi Hc. symmetry. apply (back_unique f0 f1 fadd fmul fsub fopp fdiv finv FT n A (fun i => b i c) (fun j => Y j c) ND) with (t := n) (u := i) in Hi; [|intros r Hr; now apply HY|auto].
    rewrite Nat.sub_diag in Hi. exact Hi.
  - intros bsize sa sb [CA CB] Hsz.
    assert (R : forall l, length l = p -> (forall r, r < p -> goodX f0 fadd fmul fsub fdiv p n K A b r (nth r l (noblk f0))) -> is_result p n K true X (true, l)).
    { intros l Ll HG. split; [reflexivity|]. split; [exact Ll|]. cbn [snd]. intros q B EB. assert (Hq : q < p) by (rewrite <- Ll; apply nth_error_Some; congruence).
      destruct (HG q Hq) as (G1 & G2 & G3). rewrite (nth_error_nth l q _ EB) in G1, G2, G3. split; [auto|]. split; [exact G1|]. intros i c Hi Hc. apply G3; [|auto]. now rewrite <- G1. }
    assert (RC : forall s s', s <= s' -> exists l, cols_solve f0 fadd fmul fsub fdiv p n K (counts_of n p) s s' (fun r => cols_of (psum (counts_of n p) r) (psum (counts_of n p) (r + 1)) (mk_blk n n A)) (pieces p (mk_blk n K b) (counts_of n p)) = Ok l /\ is_result p n K true X (true, l)).
    { intros s s' Hs. destruct (cols_ok f0 f1 fadd fmul fsub fopp fdiv finv FT p n K A b s s' Hp ND Hs _ (colA_ok f0 p n A b s s' Hp ND Hs)) as (l & E & Ll & HG). exists l. split; [exact E|]. auto. }
    assert (RR : exists l, rows_solve f0 fadd fmul fsub fdiv p n K (counts_of n p) (fun r => rows_of (psum (counts_of n p) r) (psum (counts_of n p) (r + 1)) (mk_blk n n A)) (pieces p (mk_blk n K b) (counts_of n p)) = Ok l /\ is_result p n K true X (true, l)).
    { destruct (rows_ok f0 f1 fadd fmul fsub fopp fdiv finv FT p n K A b 0 0 Hp ND (le_n 0) _ (rowA_ok f0 p n A b 0 0 Hp ND (le_n 0))) as (l & E & Ll & HG). exists l. split; [exact E|]. auto. }
    destruct sa as [|cs|cs], sb as [|cb]; subst; cbn [solve_la].
    + unfold tsolve. cbn [br bc]. rewrite Nat.eqb_refl. cbn [andb bind]. eexists. split; [reflexivity|]. split; [reflexivity|]. split; [apply repeat_length|]. cbn [snd].
      intros q B EB. apply nth_error_In, repeat_spec in EB. subst B. cbn [br bc be]. repeat split; auto.
    + destruct (RC bsize 4 ltac:(apply Hsz; congruence)) as (l & -> & H). cbn [bind]. eauto.
    + destruct (RC bsize bsize ltac:(auto)) as (l & -> & H). cbn [bind]. eauto.
    + destruct (list_eq_dec _ _ _) as [_|N]; [|congruence]. destruct (RC bsize bsize ltac:(auto)) as (l & -> & H). cbn [bind]. eauto.
    + destruct RR as (l & -> & H). cbn [bind]. eauto.
    + destruct (list_eq_dec _ _ _) as [_|N]; [|congruence]. destruct RR as (l & -> & H). cbn [bind]. eauto.
Qed.
(** A distributed stack: every process solves its systems, for equal extents of A and b *)
Theorem C80_batch_partial : forall (F : Type) (f0 f1 : F) fadd fmul fsub fopp fdiv finv, field_theory f0 f1 fadd fmul fsub fopp fdiv finv eq ->
  forall (p n K : nat) (cnts : list nat) (A b : nat -> nat -> nat -> F), (forall s i, i < n -> A s i i <> f0) ->
  exists l, solve_batch f0 fadd fmul fsub fdiv p n K cnts cnts A b = Ok l /\ length l = p /\
    forall r, r < p -> length (nth r l []) = nth r cnts 0 /\
      forall s B, nth_error (nth r l []) s = Some B -> br B = n /\ bc B = K /\ solves f0 fadd fmul n K (A (psum cnts r + s)) (b (psum cnts r + s)) (be B).
Proof.
  intros F f0 f1 fadd fmul fsub fopp fdiv finv FT p n K cnts A b ND. unfold solve_batch.
  match goal with |- context [all_ok (map ?f (seq 0 p))] => destruct (all_ok_seq f (fun r l => length l = nth r cnts 0 /\
      forall s B, nth_error l s = Some B -> br B = n /\ bc B = K /\ solves f0 fadd fmul n K (A (psum cnts r + s)) (b (psum cnts r + s)) (be B)) p []) as (ys & E & L & H) end.
  - intros r Hr. rewrite Nat.eqb_refl.
    match goal with |- context [all_ok (map ?f (seq 0 ?k))] => destruct (all_ok_seq f (fun s B => br B = n /\ bc B = K /\ solves f0 fadd fmul n K (A (psum cnts r + s)) (b (psum cnts r + s)) (be B)) k (noblk f0)) as (ys & E & L & H) end.
    + intros s Hs. unfold tsolve. cbn [br bc be]. rewrite Nat.eqb_refl. cbn [andb]. eexists. split; [reflexivity|]. cbn [br bc be]. split; [auto|]. split; [auto|].
      intros i c Hi Hc. cbn [be]. apply (back_solves f0 f1 fadd fmul fsub fopp fdiv finv FT n (A (psum cnts r + s)) (fun i => b (psum cnts r + s) i c)); auto.
    + exists ys. split; [exact E|]. split; [auto|]. intros s B EB. assert (Hs : s < nth r cnts 0) by (rewrite <- L; apply nth_error_Some; congruence).
      specialize (H s Hs). now rewrite (nth_error_nth ys s _ EB) in H.
  - exists ys. auto.
Qed.
(** Which shapes and splits are accepted; everything else raises ValueError *)
Theorem C80_arguments : forall (ash bsh : list nat) (sa sb : option nat),
  let ok := exists batch n K, ash = batch ++ [n; n] /\ bsh = batch ++ [n; K] /\ sb <> Some (length batch + 1) /\
              ((exists s, s < length batch /\ (sa = Some s \/ sb = Some s)) -> sa = sb) in
  (ok -> check ash bsh sa sb = Ok tt) /\ (~ ok -> check ash bsh sa sb = Err ValueError).
Proof.
  intros ash bsh sa sb ok. unfold check.
  assert (T : check ash bsh sa sb = Err ValueError \/ (check ash bsh sa sb = Ok tt /\ ok)).
  { unfold check. destruct (Nat.ltb_spec (length ash) 2) as [|Ha]; [auto|]. destruct (Nat.eqb_spec (length bsh) (length ash)) as [Eb|]; cbn [negb]; [|auto].
    destruct (Nat.eqb_spec (nth (length ash - 2) ash 0) (nth (length ash - 1) ash 0)) as [En|]; cbn [negb]; [|auto].
    unfold shape_eqb. destruct (list_eq_dec Nat.eq_dec (firstn (length ash - 2) ash) (firstn (length ash - 2) bsh)) as [Ef|]; cbn [negb]; [|auto].
    destruct (opt_eqb sb (Some (length ash - 2 + 1))) eqn:Es; [auto|]. destruct (Nat.eqb_spec (nth (length ash - 2) bsh 0) (nth (length ash - 1) ash 0)) as [Em|]; cbn [negb]; [|auto].
    destruct ((opt_lt sa (length ash - 2) || opt_lt sb (length ash - 2)) && negb (opt_eqb sa sb)) eqn:Ec; [auto|]. right. split; [reflexivity|].
    set (bd := length ash - 2) in *.
    assert (two : forall l : list nat, length l = length ash -> l = firstn bd l ++ [nth bd l 0; nth (length ash - 1) l 0]).
    { intros l Hl. rewrite <- (firstn_skipn bd l) at 1. f_equal. assert (L2 : length (skipn bd l) = 2) by (rewrite skipn_length; lia).
      assert (S0 : nth 0 (skipn bd l) 0 = nth bd l 0) by (rewrite nth_skip; f_equal; lia). assert (S1 : nth 1 (skipn bd l) 0 = nth (length ash - 1) l 0) by (rewrite nth_skip; f_equal; lia).
      destruct (skipn bd l) as [|x [|y [|]]]; cbn in L2; try lia. cbn in S0, S1. congruence. }
    exists (firstn bd ash), (nth bd ash 0), (nth (length ash - 1) bsh 0). assert (Lf : length (firstn bd ash) = bd) by (rewrite firstn_length; lia). rewrite Lf.
    split; [rewrite En at 2; now apply two|]. split; [rewrite Ef, (two bsh Eb) at 1; rewrite En; f_equal; f_equal; auto|]. split.
    { intros ->. cbn in Es. now rewrite Nat.eqb_refl in Es. }
    intros (s & Hs & Hor). assert (OL : opt_lt sa bd || opt_lt sb bd = true). { destruct Hor as [-> | ->]; cbn [opt_lt]; apply Nat.ltb_lt in Hs; rewrite Hs; [reflexivity|apply orb_true_r]. }
    rewrite OL in Ec. cbn [andb] in Ec. apply negb_false_iff in Ec. destruct sa as [x|], sb as [y|]; cbn in Ec; try discriminate; auto. apply Nat.eqb_eq in Ec. congruence. }
  split.
  - intros (batch & n & K & -> & -> & Hs & Hb). fold (check (batch ++ [n; n]) (batch ++ [n; K]) sa sb). unfold check.
    rewrite !app_length. cbn [length]. replace (length batch + 2 - 2) with (length batch) by lia. replace (length batch + 2 - 1) with (length batch + 1) by lia.
    replace (length batch + 2 <? 2) with false by (symmetry; apply Nat.ltb_ge; lia). rewrite Nat.eqb_refl. cbn [negb].
    assert (NN : forall K, nth (length batch) (batch ++ [n; K]) 0 = n /\ nth (length batch + 1) (batch ++ [n; K]) 0 = K /\ firstn (length batch) (batch ++ [n; K]) = batch).
    { intros K'. split; [rewrite app_nth2, Nat.sub_diag by lia; reflexivity|]. split; [rewrite app_nth2 by lia; now replace (length batch + 1 - length batch) with 1 by lia|]. rewrite firstn_app, Nat.sub_diag, firstn_all. apply app_nil_r. }
    destruct (NN n) as (-> & -> & ->). destruct (NN K) as (-> & _ & ->). rewrite !Nat.eqb_refl. cbn [negb]. unfold shape_eqb. destruct (list_eq_dec Nat.eq_dec batch batch) as [_|N]; [|congruence]. cbn [negb].
    assert (E1 : opt_eqb sb (Some (length batch + 1)) = false). { destruct sb as [y|]; [|reflexivity]. cbn. apply Nat.eqb_neq. congruence. } rewrite E1.
    destruct (opt_lt sa (length batch) || opt_lt sb (length batch)) eqn:OL; [|reflexivity].
    rewrite Hb.
    + destruct sb; cbn [opt_eqb]; [rewrite Nat.eqb_refl|]; reflexivity.
    + apply orb_true_iff in OL as [O|O]; [destruct sa as [s|]|destruct sb as [s|]]; cbn in O; try discriminate; apply Nat.ltb_lt in O; exists s; auto.
  - intros NO. destruct T as [T|[_ T]]; [exact T|contradiction].
Qed.
(** A not split, b split, elements of more than 4 bytes (float64, complex): the receive buffer
    is float32, on two or more processes the call fails *)
Theorem C80_float64_refuted : forall (F : Type) (f0 : F) fadd fmul fsub fdiv (p n K bsize : nat) (A b : nat -> nat -> F),
  1 < p -> 0 < n -> 0 < K -> 4 < bsize -> solve_la f0 fadd fmul fsub fdiv p n K bsize ANone (BRows (counts_of n p)) A b = Err RuntimeError.
Proof.
  intros F f0 fadd fmul fsub fdiv p n K bsize A b Hp Hn HK Hb. cbn [solve_la]. unfold cols_solve. destruct p as [|[|q]]; try lia. set (p := S (S q)) in *.
  assert (Hp0 : 0 < p) by lia. replace (p - 1) with (S q) by lia. rewrite rev_seq. cbn [by_columns].
  match goal with |- context [TriModel.tsolve ?a ?c ?d ?e ?g ?D ?B] => assert (T : exists x, TriModel.tsolve a c d e g D B = Ok x /\ br x = nth (S q) (counts_of n p) 0 /\ bc x = K) end.
  { unfold tsolve. cbn [rows_of cols_of br bc be]. change (TriModel.cum (counts_of n p)) with (psum (counts_of n p)). unfold bt_, pieces. rewrite nth_map_seq0 by lia. cbn [rows_of br bc].
    pose proof (cum_le p n Hp0 (S q + 1)) as LE. pose proof (cum_S p n (S q) ltac:(lia)) as ES. unfold TriModel.cum, cn in LE, ES.
    replace (Nat.min (psum (counts_of n p) (S q + 1)) n - psum (counts_of n p) (S q)) with (nth (S q) (counts_of n p) 0) by lia. rewrite Nat.eqb_refl. cbn [andb].
    eexists. split; [reflexivity|]. cbn [br bc]. auto. }
  destruct T as (x & -> & X1 & X2). cbn [bind]. unfold matmul at 1. cbn [cols_of br bc be].
  pose proof (cum_le p n Hp0 (S q + 1)) as LE. pose proof (cum_S p n (S q) ltac:(lia)) as ES. unfold TriModel.cum, cn in LE, ES.
  replace (Nat.min (psum (counts_of n p) (S q + 1)) n - psum (counts_of n p) (S q)) with (nth (S q) (counts_of n p) 0) by lia. rewrite X1, Nat.eqb_refl. cbn [bind].
  change (seq 0 p) with (0 :: seq 1 (S q)). cbn [map all_ok]. change (0 <? S q) with true. cbv iota. unfold scatterv at 1. cbn [bc br]. rewrite X2.
  assert (C0 : 0 < nth 0 (cn p n) 0) by (now apply first_pos).
  assert (G : (4 * (nth 0 (cn p n) 0 * K) <? bsize * (nth 0 (cn p n) 0 * K)) = true) by (apply Nat.ltb_lt; apply Nat.mul_lt_mono_pos_r; [nia|auto]).
  rewrite G. reflexivity.
Qed.
(** Layouts that are not canonical: A with columns 2, 0, 1 on three processes; the update meant
    for row 0 is also applied to row 1, without an exception.  x = (0, 0, 1) for the system
    x0 + x2 = 1, x1 = 1, x2 = 1, whose solution is (0, 1, 1) *)
Definition q (z : Z) : Qc := Q2Qc (inject_Z z).
Definition exA (i j : nat) : Qc := q (if Nat.eqb i j then 1 else if Nat.eqb i 0 && Nat.eqb j 2 then 1 else 0).
Theorem C80_unbalanced_refuted :
  match solve_la (q 0) Qcplus Qcmult Qcminus Qcdiv 3 3 1 8 (ACols [2; 0; 1]) BNone exA (fun _ _ => q 1) with
  | Ok (true, [x0; x1; x2]) => (br x0, br x1, br x2) = (2, 0, 1) /\
      Qeq (be x0 0 0) 0 /\ Qeq (be x0 1 0) 0 /\ Qeq (be x2 0 0) 1
  | _ => False
  end.
Proof. vm_compute. repeat split; reflexivity. Qed.
(** A distributed stack with extents 1, 2 of A and 2, 1 of b: process 0 solves both of its
    right-hand sides with the first matrix *)
Theorem C80_batch_layout_refuted :
  match solve_batch (q 0) Qcplus Qcmult Qcminus Qcdiv 2 1 1 [1; 2] [2; 1] (fun s _ _ => q (Z.of_nat s + 1)) (fun _ _ _ => q 6) with
  | Ok [[x; y]; _] => Qeq (be x 0 0) 6 /\ Qeq (be y 0 0) 6
  | _ => False
  end.
Proof. vm_compute. repeat split; reflexivity. Qed.
(** the hypotheses are met: a 4 x 4 system on 3 processes, and the rationals are a field *)
Example C80_instance : field_theory (Q2Qc 0) (Q2Qc 1) Qcplus Qcmult Qcminus Qcopp Qcdiv Qcinv eq /\
  canonical 3 4 (ACols [2; 1; 1]) (BRows [2; 1; 1]) /\
  (forall i, i < 4 -> q (Z.of_nat (i + i + 1)) <> Q2Qc 0) /\
  match solve_la (q 0) Qcplus Qcmult Qcminus Qcdiv 3 4 1 8 (ACols [2; 1; 1]) (BRows [2; 1; 1]) (fun i j => q (Z.of_nat (i + j + 1))) (fun i _ => q 1) with
  | Ok (true, [x; _; z]) => Qeq (be z 0 0) (1 # 7) /\ Qeq (be x 1 0) (2 # 35)
  | _ => False
  end.
Proof.
  split; [exact Qcft|]. split; [split; reflexivity|]. split.
  - intros i Hi E. assert (Hz : Qeq (q (Z.of_nat (i + i + 1))) (Q2Qc 0)) by (now rewrite E). destruct i as [|[|[|[|]]]]; try lia; vm_compute in Hz; discriminate.
  - vm_compute. split; reflexivity.
Qed.
Print Assumptions C80_solves_partial.
Print Assumptions C80_batch_partial.
Print Assumptions C80_arguments.
Print Assumptions C80_float64_refuted.
Print Assumptions C80_unbalanced_refuted.
Print Assumptions C80_batch_layout_refuted.
