(** C99: vdot, and layouts that dot does not handle. *)
From Verif Require Import Base BaseLemmas LayoutModel LayoutProofs NdSpec TensorSpec TensorLemmas NdLemmas OpsModel OpsProofs2 OpsProofs4 OpsProps RedistModel ShapeSpec ShapeModel ShapeProofs3 ShapeProps BinSpec BinModel BinProofs BinProofs2 BinProps ReshapeModel FactoryModel FactoryProps PrintSpec PrintProofs PrintProofs2 WhereProps DotSpec DotModel DotProps.
Open Scope Z_scope.

Section Vdot.
Context {V : Type} (ok : V -> Prop) (zero : V) (add mul : V -> V -> V) (conj : V -> V) (HM : comm_monoid ok add zero).

Lemma vec_of_rep (y : dist V) sp el : (0 < length y)%nat ->
  match sp with None => forall l, In l y -> l = el | Some s => s = 0%nat /\ glob y = el end ->
  let N := Z.of_nat (length el) in
  rep (b_arr (vec_of zero y sp N)) (map (fun l => Z.of_nat (length l)) y) (fun i => nth (Z.to_nat (nth 0 i 0)) el zero).
Proof.
  intros HP H N. unfold rep, vec_of. cbn [b_arr d_locals d_gshape d_split]. split; [now rewrite !map_length|]. split; [repeat constructor; lia|]. destruct sp as [s|].
  - destruct H as [-> H]. cbn [length nth]. split; [lia|]. split; [apply Forall_forall; intros c Hc; apply in_map_iff in Hc as (l & <- & _); lia|].
    assert (SUM : forall d : dist V, zsum (map (fun l => Z.of_nat (length l)) d) = Z.of_nat (length (concat d))).
    { induction d as [|l d IH]; [reflexivity|]. cbn [map concat]. rewrite app_length. change (zsum (?a :: ?b)) with (a + zsum b). lia. }
    split; [rewrite SUM; unfold N; rewrite <- H; reflexivity|].
    intros r t Ht. rewrite nth_error_map in Ht. destruct (nth_error y r) as [l|] eqn:El; [|discriminate]. injection Ht as <-.
    assert (Lr : (r < length y)%nat) by (apply nth_error_Some; congruence).
    assert (NR : nth r (map (fun l => Z.of_nat (length l)) y) 0 = Z.of_nat (length l)). { change 0 with ((fun l : list V => Z.of_nat (length l)) []). rewrite map_nth. now rewrite (nth_error_nth _ _ _ El). }
    split; [cbn [ash]; rewrite NR; reflexivity|]. intros i Hi. rewrite NR in Hi. change (upd [N] 0 (Z.of_nat (length l))) with [Z.of_nat (length l)] in Hi. apply in_bounds1 in Hi as (k & -> & Hk). cbn [adat nth].
    rewrite firstn_map, SUM, <- H.
    assert (GN := @glob_nth V y r (Z.to_nat k) zero). rewrite (nth_error_nth _ _ _ El) in GN. rewrite <- GN by lia. rewrite <- glob_firstn_length. unfold glob. f_equal. unfold move_axis_idx. cbn [nth upd]. unfold upd. cbn. lia.
  - intros t Ht. apply in_map_iff in Ht as (l & <- & Hl). rewrite (H l Hl). split; [reflexivity|]. intros i Hi. reflexivity.
Qed.
Lemma rm_length sh : Forall (fun m => 0 <= m) sh -> Z.of_nat (length (row_major sh)) = zprod sh.
Proof. apply row_major_length. Qed.
(** a flattened operand *)
Lemma flat_operand (x : dnd V) cnts G : rep x cnts G -> (0 < length (d_locals x))%nat ->
  exists f cs, flatten zero (length (d_locals x)) x = Ok f /\ let u := vec_of zero (fst f) (snd f) (zprod (d_gshape x)) in
    rep (b_arr u) cs (fun i => nth (Z.to_nat (nth 0 i 0)) (elements G (d_gshape x)) zero) /\ flag_ok u cs /\ length (d_locals (b_arr u)) = length (d_locals x) /\ d_split (b_arr u) = option_map (fun _ => 0%nat) (d_split x) /\ zprod (d_gshape x) = Z.of_nat (length (elements G (d_gshape x))).
Proof.
  intros HR HP. destruct (C44_flatten V zero x G cnts HR HP) as (y & sp & E & LY & Y). fold (elements G (d_gshape x)) in Y. set (el := elements G (d_gshape x)) in *.
  assert (EN : zprod (d_gshape x) = Z.of_nat (length el)). { unfold el, elements. rewrite map_length. symmetry. apply rm_length. apply HR. }
  exists (y, sp), (map (fun l => Z.of_nat (length l)) y). split; [exact E|]. cbn [fst snd]. rewrite EN.
  assert (SP : sp = option_map (fun _ => 0%nat) (d_split x)) by (destruct (d_split x); apply Y).
  assert (H1 : match sp with None => forall l, In l y -> l = el | Some s => s = 0%nat /\ glob y = el end) by (rewrite SP; destruct (d_split x); cbn [option_map]; [split; [auto|]|]; apply Y).
  split; [apply vec_of_rep; [lia|exact H1]|]. split; [|split; [unfold vec_of; cbn; now rewrite map_length|split; [exact SP|auto]]].
  intros _. unfold vec_of. cbn [b_arr d_split d_gshape d_locals]. destruct sp as [s|]; [|auto]. destruct (d_split x); [|discriminate SP]. injection SP as ->. destruct Y as (_ & _ & Y). rewrite map_length, LY. cbn [nth]. rewrite Nat2Z.id, <- Y. symmetry. exact (map_map (@length V) Z.of_nat y).
Qed.
Lemma conj_rep (u : bnd V) cs G : rep (b_arr u) cs G -> rep (b_arr (conjugate conj u)) cs (fun i => conj (G i)).
Proof.
  intros (L & N & R). unfold rep, conjugate. cbn [b_arr d_gshape d_split d_locals]. split; [now rewrite map_length|]. split; [auto|]. destruct (d_split (b_arr u)) as [s|].
  - destruct R as (R1 & R2 & R3 & R). split; [auto|]. split; [auto|]. split; [auto|]. intros r t Ht. rewrite nth_error_map in Ht. destruct (nth_error _ r) as [t0|] eqn:E; [|discriminate Ht]. injection Ht as <-. destruct (R r t0 E) as [S0 D0]. split; [exact S0|]. intros idx Hi. cbn [adat]. now rewrite D0.
  - intros t Ht. apply in_map_iff in Ht as (t0 & <- & Ht). destruct (R t0 Ht) as [S0 D0]. split; [exact S0|]. intros idx Hi. cbn [adat]. now rewrite D0.
Qed.
(** vdot pairs the elements of both arrays in row-major order, in every layout; all processes hold the same number *)
Theorem C99_vdot (x y : dnd V) (c1 c2 : list Z) (G1 G2 : list Z -> V) : rep x c1 G1 -> rep y c2 G2 -> (0 < length (d_locals x))%nat -> length (d_locals y) = length (d_locals x) ->
  let xs := elements G1 (d_gshape x) in let ys := elements G2 (d_gshape y) in length xs = length ys -> (forall a b, In a xs -> In b ys -> ok (mul (conj a) b)) ->
  exists r cnts, vdot zero add mul conj x y = Ok r /\ r_gshape r = [] /\ r_split r = None /\ represents (fun _ => inner zero add mul (map conj xs) ys) [] None cnts (r_locals r).
Proof.
  intros R1 R2 HP HPP xs ys HL Hok. destruct (flat_operand x c1 G1 R1 HP) as (f & k1 & E1 & V1 & F1 & L1 & P1 & Z1). destruct (flat_operand y c2 G2 R2 ltac:(lia)) as (g & k2 & E2 & V2 & F2 & L2 & P2 & Z2).
  fold xs in V1, Z1. fold ys in V2, Z2. set (u1 := vec_of zero (fst f) (snd f) (zprod (d_gshape x))) in *. set (u2 := vec_of zero (fst g) (snd g) (zprod (d_gshape y))) in *. set (N := Z.of_nat (length xs)) in *.
  assert (S1 : d_gshape (b_arr (conjugate conj u1)) = [N]) by (unfold u1, vec_of, conjugate; cbn; now rewrite Z1). assert (S2 : d_gshape (b_arr u2) = [N]) by (unfold u2, vec_of; cbn; rewrite Z2, <- HL; reflexivity).
  pose proof (conj_rep u1 k1 _ V1) as V1'.
  assert (LC : length (d_locals (b_arr (conjugate conj u1))) = length (d_locals x)) by (unfold conjugate; cbn; rewrite map_length; exact L1).
  destruct (C45_binary_partial V V V zero zero mul (conjugate conj u1) u2 _ _ k1 k2 [N] V1' V2) as (m & cm & E & Sg & _ & Rm & _); auto.
  - unfold flag_ok, conjugate in *. cbn [b_flag b_arr d_split d_gshape d_locals] in *. now rewrite map_length.
  - lia.
  - lia.
  - rewrite S1, S2. split; [reflexivity|]. intros i Hi. left. unfold padded. cbn [length Nat.sub repeat app]. destruct i; [auto|cbn in Hi; lia].
  - rewrite S1, S2. right. unfold shift_split, padded. cbn [length Nat.sub repeat app]. change (d_split (b_arr (conjugate conj u1))) with (d_split (b_arr u1)). rewrite P1, P2. destruct (d_split x), (d_split y); cbn [option_map Nat.add Nat.eqb nth]; auto; intros; lia.
  - unfold rep in Rm. rewrite Sg in Rm.
    assert (EQ : map (fun idx => mul (conj (nth (Z.to_nat (nth 0 (bcast_idx (d_gshape (b_arr (conjugate conj u1))) idx) 0)) xs zero)) (nth (Z.to_nat (nth 0 (bcast_idx (d_gshape (b_arr u2)) idx) 0)) ys zero)) (row_major [N]) = map (fun p => mul (fst p) (snd p)) (combine (map conj xs) ys)).
    { rewrite row_major1, map_map, S1, S2. apply (@nth_ext2 _ _ _ zero); [rewrite !map_length, combine_length, map_length, length_zr; unfold N; lia|]. intros i Hi. rewrite map_length, length_zr in Hi. unfold N in Hi.
      unfold zr. rewrite map_map. rewrite (nth_map_seq (fun i => mul (conj (nth (Z.to_nat (nth 0 (bcast_idx [N] [Z.of_nat i]) 0)) xs zero)) (nth (Z.to_nat (nth 0 (bcast_idx [N] [Z.of_nat i]) 0)) ys zero))) by lia.
      rewrite bcast_id by (repeat constructor; unfold N; lia). cbn [nth]. rewrite Nat2Z.id. rewrite (nth_indep (map (fun p => mul (fst p) (snd p)) (combine (map conj xs) ys)) zero ((fun p => mul (fst p) (snd p)) (conj zero, zero))) by (rewrite map_length, combine_length, map_length; lia).
      rewrite (map_nth (fun p => mul (fst p) (snd p))), combine_nth by (rewrite map_length; auto). cbn [fst snd]. now rewrite map_nth. }
    destruct (C23_reduce_all_partial V ok add zero HM zero false _ _ _ _ _ false eq_refl Rm) as (r & E3 & S3 & P3 & R3).
    + intros idx Hx. apply in_bounds1 in Hx as (i & -> & Hi). rewrite S1, S2, bcast_id by (repeat constructor; lia). cbn [nth]. unfold N in Hi. apply Hok; apply nth_In; lia.
    + discriminate.
    + exists r, cm. unfold vdot. cbv zeta. rewrite E1, E2. cbn [bind]. fold u1 u2. rewrite E. cbn [bind]. rewrite Sg. split; [exact E3|]. split; [exact S3|]. split; [exact P3|]. rewrite EQ in R3. exact R3.
Qed.
End Vdot.

(** 1 + 1 + 1 + 1, held as three elements and one: the third element is dropped *)
Definition ones (cnts : list Z) : dnd Z := mk_dnd (map (fun c => mk_arr [c] (fun _ => 1)) cnts) [zsum cnts] (Some 0%nat).
Lemma ones_rep cnts : Forall (fun c => 0 <= c) cnts -> rep (ones cnts) cnts (fun _ => 1).
Proof.
  intros H. unfold rep, ones. cbn [d_locals d_gshape d_split]. split; [now rewrite map_length|]. split; [repeat constructor; induction H; cbn; [lia|]; unfold zsum in *; lia|]. split; [cbn; lia|]. split; [auto|]. split; [reflexivity|].
  intros r t Ht. rewrite nth_error_map in Ht. destruct (nth_error cnts r) as [c|] eqn:E; [|discriminate Ht]. injection Ht as <-. rewrite (nth_error_nth _ _ _ E). split; [reflexivity|]. auto.
Qed.
Theorem C99_unbalanced_refuted : rep (ones [3; 1]) [3; 1] (fun _ => 1) /\ dot 0 Z.add Z.mul (ones [3; 1]) (ones [3; 1]) None = Ok ([3; 3], None) /\ inner 0 Z.add Z.mul (elements (fun _ => 1) [4]) (elements (fun _ => 1) [4]) = 4.
Proof. split; [apply ones_rep; repeat constructor; lia|]. split; vm_compute; reflexivity. Qed.
(** vectors of different lengths (NumPy: ValueError) *)
Theorem C99_lengths_refuted : d_gshape (ones [2; 1]) = [3] /\ d_gshape (ones [2; 2]) = [4] /\ dot 0 Z.add Z.mul (ones [2; 1]) (ones [2; 2]) None = Ok ([3; 3], None).
Proof. repeat split; vm_compute; reflexivity. Qed.
(** the output buffer keeps its old contents *)
Theorem C99_out_refuted : forall (V : Type) (zero : V) add mul a b buffer rs o, dot zero add mul a b (Some buffer) = Ok (rs, o) -> o = Some buffer.
Proof. intros V zero add mul a b buffer rs o. unfold dot. cbv zeta. destruct (all_ok _) as [ps|]; cbn [bind]; [|discriminate]. intros E. now injection E. Qed.
(** non-vacuity: balanced vectors of 3 elements on 2 processes; a 1-element vector is broadcast by vdot *)
Example C99_instance : exists rs o, dot 0 Z.add Z.mul (ones [2; 1]) (ones [2; 1]) None = Ok (rs, o) /\ length rs = 2%nat /\ forall v, In v rs -> v = 3.
Proof.
  assert (R : rep (ones [2; 1]) [2; 1] (fun _ => 1)) by (apply ones_rep; repeat constructor; lia).
  destruct (C99_dot_partial (fun _ => True) 0 Z.add Z.mul (proj1 C23_monoids) (ones [2; 1]) (ones [2; 1]) [2; 1] [2; 1] (fun _ => 1) (fun _ => 1) 3 None R R eq_refl eq_refl ltac:(cbn; lia) eq_refl (fun _ => eq_refl) (fun _ => eq_refl) (fun _ _ => I)) as (rs & o & E & L & H).
  exists rs, o. auto.
Qed.
Theorem C99_vdot_lengths_refuted : exists r, vdot 0 Z.add Z.mul (fun z => z) (ones [1; 0]) (ones [2; 1]) = Ok r /\ map (fun t => adat t []) (r_locals r) = [3; 3].
Proof.
  assert (T : match vdot 0 Z.add Z.mul (fun z => z) (ones [1; 0]) (ones [2; 1]) with Ok r => map (fun t => adat t []) (r_locals r) | Err _ => [] end = [3; 3]) by (vm_compute; reflexivity).
  destruct (vdot 0 Z.add Z.mul (fun z => z) (ones [1; 0]) (ones [2; 1])) as [r|]; [|discriminate T]. exists r. auto.
Qed.
