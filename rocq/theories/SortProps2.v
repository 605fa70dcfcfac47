(** An instance of torch.sort, concrete cases for C37, and what its hypotheses exclude. *)
From Coq Require Import Permutation Sorted.
From Verif Require Import Base BaseLemmas LayoutModel LayoutProofs NdSpec TensorSpec NdLemmas TensorLemmas OpsModel OpsProofs4 RedistModel HaloModel ShapeModel ShapeSpec ShapeProps BinModel BinProofs2 FactoryModel FactoryProps ConcatModel DiagModel SortModel SortSpec SortNd SortProofs2 SortProofs4 SortProps.
Open Scope Z_scope.

(** insertion sort of the indices of a list *)
Section Ins.
Context {V : Type} (dv : V) (lt : V -> V -> bool).
Variable before : V -> V -> bool.       (* strictly before in the wanted order *)
Fixpoint ins (l : list V) (i : nat) (o : list nat) : list nat :=
  match o with
  | [] => [i]
  | j :: o' => if before (nth j l dv) (nth i l dv) then j :: ins l i o' else i :: o
  end.
Definition isort (l : list V) : list nat := fold_right (ins l) [] (seq 0 (length l)).
Lemma ins_perm l i o : Permutation (ins l i o) (i :: o).
Proof. induction o as [|j o IH]; cbn; [auto|]. destruct (before _ _); [|auto]. rewrite IH. apply perm_swap. Qed.
Hypothesis A : forall x y, before x y = true -> before y x = false.
Hypothesis N : forall x y z, before x y = false -> before y z = false -> before x z = false.
Let R l i j := before (nth j l dv) (nth i l dv) = false.
Lemma ins_sorted l i o : StronglySorted (R l) o -> StronglySorted (R l) (ins l i o).
Proof.
  induction o as [|j o IH]; intros H; cbn; [repeat constructor|]. apply StronglySorted_inv in H as [H1 H2]. destruct (before (nth j l dv) (nth i l dv)) eqn:E.
  - constructor; [auto|]. eapply Permutation_Forall; [symmetry; apply ins_perm|]. constructor; [unfold R; auto|auto].
  - constructor; [constructor; auto|]. constructor; [exact E|]. eapply Forall_impl; [|exact H2]. intros k Hk. unfold R in *. eapply N; eauto.
Qed.
Lemma isort_ok l : Permutation (isort l) (seq 0 (length l)) /\ StronglySorted (fun x y => before y x = false) (map (fun i => nth i l dv) (isort l)).
Proof.
  unfold isort. generalize (seq 0 (length l)) as o. intros o. split.
  - induction o as [|i o IH]; cbn; [auto|]. rewrite ins_perm. auto.
  - assert (H : StronglySorted (R l) (fold_right (ins l) [] o)) by (induction o; cbn; [constructor|now apply ins_sorted]).
    induction H as [|i o' H1 IH H2]; cbn; constructor; auto. rewrite Forall_map. exact H2.
Qed.
End Ins.
Definition ts_of {V} (dv : V) (lt : V -> V -> bool) (desc : bool) (l : list V) : list nat := isort dv (fun a b => if desc then lt b a else lt a b) l.
Lemma ts_of_sorts {V} (dv : V) lt : weak_order lt -> sorts dv lt (ts_of dv lt).
Proof.
  intros [A N] desc l. unfold ts_of. destruct (isort_ok dv (fun a b => if desc then lt b a else lt a b)) with (l := l) as [H1 H2].
  - destruct desc; intros; now apply A.
  - destruct desc; intros x y z H H'; eapply N; eauto.
  - split; [exact H1|]. unfold in_order. destruct desc; exact H2.
Qed.
Lemma Z_weak : weak_order Z.ltb. Proof. split; intros; lia. Qed.

(** a one-dimensional array cut into the given pieces *)
Definition vec {V} (dv : V) (pieces : list (list V)) : dnd V :=
  mk_dnd (map (fun l => mk_arr [Z.of_nat (length l)] (fun idx => nth (Z.to_nat (nth 0 idx 0)) l dv)) pieces) [Z.of_nat (length (concat pieces))] (Some 0%nat).
Definition vecG {V} (dv : V) (pieces : list (list V)) (idx : list Z) : V := nth (Z.to_nat (nth 0 idx 0)) (concat pieces) dv.
Lemma vec_rep {V} (dv : V) pieces : rep (vec dv pieces) (map (fun l => Z.of_nat (length l)) pieces) (vecG dv pieces).
Proof.
  unfold rep, vec. cbn [d_gshape d_split d_locals]. split; [now rewrite !map_length|]. split; [repeat constructor; lia|]. split; [cbn; lia|]. split; [apply Forall_forall; intros c Hc; apply in_map_iff in Hc as (l & <- & _); lia|].
  assert (EM : map (fun l : list V => Z.of_nat (length l)) pieces = map Z.of_nat (lens pieces)) by (unfold lens; now rewrite map_map).
  split.
  - cbn [nth]. rewrite EM. rewrite <- (firstn_all (map Z.of_nat (lens pieces))). rewrite <- psum_zsum. f_equal. rewrite psum_all by (now rewrite map_length). symmetry. apply (@glob_length V).
  - intros r t Ht. rewrite nth_error_map in Ht. destruct (nth_error pieces r) as [l|] eqn:El; [|discriminate]. injection Ht as <-. assert (Hr : (r < length pieces)%nat) by (apply nth_error_Some; congruence).
    assert (EN : nth r pieces [] = l) by (now apply nth_error_nth). rewrite EM. split.
    + cbn [ash upd]. f_equal. rewrite <- EN, <- (@lens_nth V). symmetry. apply (map_nth Z.of_nat (lens pieces) 0%nat r).
    + intros idx Hi. cbn [adat]. unfold vecG, move_axis_idx. assert (LI := in_bounds_length _ _ Hi). cbn in LI. destruct idx as [|i [|]]; try discriminate. cbn [nth upd]. rewrite <- psum_zsum.
      apply in_bounds_nth in Hi as [_ Hi]. specialize (Hi 0%nat ltac:(cbn; lia)). cbn [upd nth] in Hi. assert (EC : nth r (map Z.of_nat (lens pieces)) 0 = Z.of_nat (length l)) by (rewrite <- EN, <- (@lens_nth V); apply (map_nth Z.of_nat (lens pieces) 0%nat r)). rewrite EC in Hi.
      rewrite <- EN. replace (Z.to_nat (i + Z.of_nat (psum (lens pieces) r))) with (psum (lens pieces) r + Z.to_nat i)%nat by lia. symmetry. apply (@glob_nth V). rewrite EN. lia.
Qed.

(** seven numbers on three processes, descending *)
Definition ex_pieces := [[5; 1; 7]; [7; 2]; [9; 0]].
Example C37_sort_case : exists y H, sort_nd 0 Z.ltb (ts_of 0 Z.ltb) (fun i => i) (vec 0 ex_pieces) 0 true = Ok y /\
  d_gshape y = [7] /\ d_split y = Some 0%nat /\ rep y [3; 2; 2] H /\ sorted_along Z.ltb true 0 [7] (vecG 0 ex_pieces) H.
Proof.
  destruct (C37_sort Z 0 Z.ltb (ts_of 0 Z.ltb) (fun i => i) (vec 0 ex_pieces) (vecG 0 ex_pieces) [3; 2; 2] 0 true) as (y & H & E & E1 & E2 & E3 & E4);
    [apply Z_weak|apply ts_of_sorts, Z_weak|apply (vec_rep 0 ex_pieces)|cbn; lia|cbn; lia|cbn; lia| |exists y, H; auto].
  intros _ _. split; [reflexivity|]. cbn. split; [lia|auto].
Qed.
Example C37_sort_value :
  match sort_nd 0 Z.ltb (ts_of 0 Z.ltb) (fun i => i) (vec 0 ex_pieces) 0 true with
  | Ok y => map (fun t => map (fun i => adat t [i]) (zr (nth 0 (ash t) 0))) (d_locals y)
  | Err _ => []
  end = [[(9, 5); (7, 2); (7, 3)]; [(5, 0); (2, 4)]; [(1, 1); (0, 6)]].
Proof. vm_compute. reflexivity. Qed.

Definition two_parts {B} (n1 n2 : Z) (f : arr B -> arr B -> bool) (r : res (dnd B)) : bool :=
  match r with
  | Ok y => match d_locals y with
            | [t1; t2] => eqb_idx (ash t1) [n1] && eqb_idx (ash t2) [n2] && eqb_idx (d_gshape y) [n1 + n2] && (match d_split y with Some 0%nat => true | _ => false end) && f t1 t2
            | _ => false
            end
  | Err _ => false
  end.
Lemma eqb_idx_eq a : forall b, eqb_idx a b = true -> a = b.
Proof. induction a as [|x a IH]; intros [|y b] H; try discriminate; auto. cbn in H. apply andb_prop in H as [H1 H2]. f_equal; [lia|auto]. Qed.
Lemma two_parts_ok {B} n1 n2 f (r : res (dnd B)) : two_parts n1 n2 f r = true -> exists y t1 t2, r = Ok y /\ f t1 t2 = true /\
  forall cnts H, rep y cnts H -> (forall i, 0 <= i < n1 -> H [i] = adat t1 [i]) /\ (forall i, 0 <= i < n2 -> H [n1 + i] = adat t2 [i]).
Proof.
  intros E. destruct r as [y|]; [|discriminate]. cbn in E. destruct (d_locals y) as [|t1 [|t2 [|]]] eqn:EY; try discriminate. apply andb_prop in E as [E E5]. apply andb_prop in E as [E E4]. apply andb_prop in E as [E E3]. apply andb_prop in E as [E1 E2].
  apply eqb_idx_eq in E1, E2, E3. destruct (d_split y) as [[|]|] eqn:ES; try discriminate. exists y, t1, t2. split; [auto|]. split; [auto|]. intros cnts H HR. unfold rep in HR. rewrite ES, E3, EY in HR. destruct HR as (L & _ & _ & C & SM & Q). destruct cnts as [|c1 [|c2 [|]]]; try discriminate.
  destruct (Q 0%nat t1 eq_refl) as [A1 D1]. destruct (Q 1%nat t2 eq_refl) as [A2 D2]. rewrite E1 in A1. rewrite E2 in A2. cbn in A1, A2. injection A1 as <-. injection A2 as <-. split; intros i Hi.
  - rewrite D1 by (repeat constructor; cbn; lia). unfold move_axis_idx. cbn. f_equal. f_equal. lia.
  - rewrite D2 by (repeat constructor; cbn; lia). unfold move_axis_idx. cbn. f_equal. f_equal. lia.
Qed.
(** the default axis -1 is never recognised as the split axis (L2667 drops the sanitized
    value, L2681 compares the raw one): every process sorts only its own part *)
Theorem C37_negative_axis_refuted : exists (x : dnd Z) G y,
  rep x (zcounts 4 2) G /\ d_split x = Some 0%nat /\ d_gshape x = [4] /\ valid_axis 1 (-1) /\
  sort_nd 0 Z.ltb (ts_of 0 Z.ltb) (fun i => i) x (-1) false = Ok y /\
  forall cnts H, rep y cnts H -> ~ sorted_along Z.ltb false 0 [4] G H.
Proof.
  set (p := [[3; 1]; [2; 0]]).
  assert (B : two_parts 2 2 (fun t1 t2 => fst (adat t2 [0]) <? fst (adat t1 [1])) (sort_nd 0 Z.ltb (ts_of 0 Z.ltb) (fun i => i) (vec 0 p) (-1) false) = true) by (vm_compute; reflexivity).
  apply two_parts_ok in B as (y & t1 & t2 & E & F & Q). exists (vec 0 p), (vecG 0 p), y. split; [apply (vec_rep 0 p)|]. split; [auto|]. split; [auto|]. split; [unfold valid_axis; cbn; lia|]. split; [auto|]. intros cnts H HR HS.
  destruct (Q cnts H HR) as [Q1 Q2]. specialize (Q1 1 ltac:(lia)). specialize (Q2 0 ltac:(lia)). rewrite <- Q1, <- Q2 in F. change (2 + 0) with 2 in F.
  destruct (HS [0] ltac:(repeat constructor; lia)) as [O _]. unfold lane in O. cbn [nth] in O. change (zr 4) with [0; 1; 2; 3] in O. cbn [map upd] in O.
  apply StronglySorted_inv in O as [O _]. apply StronglySorted_inv in O as [_ O]. inversion O as [|? ? O1 _]. congruence.
Qed.

(** an empty distributed axis: the root process indexes an empty list of pivots *)
Theorem C37_empty_refuted : forall (V : Type) (dv : V) lt ts cast (x : dnd V) desc,
  sorts dv lt ts -> d_gshape x = [0] -> d_split x = Some 0%nat -> (1 < length (d_locals x))%nat ->
  Forall (fun t => ash t = [0]) (d_locals x) ->
  sort_nd dv lt ts cast x 0 desc = Err IndexError.
Proof.
  intros V dv lt ts cast x desc HS EG ES HP HF. unfold sort_nd. rewrite EG, ES. cbn [sanitize_axis length]. replace (1 <? length (d_locals x))%nat with true by lia. cbn -[sort_split]. unfold sort_split. rewrite EG. cbn [upd row_major]. change (zr 1) with [0]. cbn [flat_map map app all_ok nth].
  assert (E : map (fun t => lane_of 0 t [0]) (d_locals x) = repeat [] (length (d_locals x))).
  { clear -HF. induction HF as [|t l H _ IH]; cbn; [auto|]. rewrite IH. f_equal. unfold lane_of. rewrite H. reflexivity. }
  rewrite E. unfold sort_lane. rewrite repeat_length. set (P := length (d_locals x)) in *. cbv zeta.
  assert (T0 : ts desc [] = []) by (destruct (HS desc []) as [HPm _]; now apply Permutation_nil, Permutation_sym).
  assert (EL : map (fun p : nat * list V => map (fun i => (nth i (snd p) dv, cast (cast (Z.of_nat i) + zsum (firstn (fst p) (zcounts 0 P))))) (ts desc (snd p))) (combine (seq 0 P) (repeat [] P)) = repeat [] P).
  { assert (G0 : forall l (m : list (list V)), (forall q, In q m -> q = []) -> length l = length m -> map (fun p : nat * list V => map (fun i => (nth i (snd p) dv, cast (cast (Z.of_nat i) + zsum (firstn (fst p) (zcounts 0 P))))) (ts desc (snd p))) (combine l m) = repeat [] (length l)).
    { induction l as [|a l IH]; intros [|q m] Hm HL; try discriminate; [reflexivity|]. cbn [combine map length repeat]. rewrite IH by (try (cbn in HL; lia); intros; apply Hm; right; auto). f_equal. cbn [snd]. rewrite (Hm q (or_introl eq_refl)). now rewrite T0. }
    rewrite (G0 (seq 0 P)); [now rewrite seq_length|intros q Hq; now apply repeat_spec in Hq|now rewrite seq_length, repeat_length]. }
  rewrite EL.
  assert (EC : zcounts 0 P = repeat 0 P).
  { destruct (zcounts_ok 0 P ltac:(lia) ltac:(lia)) as (L & F & SM). rewrite <- L at 2. clear -F SM. induction (zcounts 0 P) as [|c l IH]; cbn; [auto|]. inversion F; subst. change (c + zsum l = 0) in SM. assert (0 <= zsum l) by (now apply zsum_nonneg). assert (c = 0) by lia. subst c. rewrite <- IH; auto. }
  rewrite EC.
  assert (EP : all_ok (map (fun p : Z * list (V * Z) => local_pivots dv P (fst p) (map fst (snd p))) (combine (repeat 0 P) (repeat [] P))) = Ok (repeat [] P)).
  { assert (G0 : forall k, all_ok (map (fun p : Z * list (V * Z) => local_pivots dv P (fst p) (map fst (snd p))) (combine (repeat 0 k) (repeat [] k))) = Ok (repeat [] k)).
    { induction k as [|k IH]; [reflexivity|]. cbn [repeat combine map all_ok]. cbn [fst snd map]. unfold local_pivots at 1. cbn [Z.eqb bind]. rewrite IH. reflexivity. }
    apply G0. }
  rewrite EP. cbn [bind]. assert (E0 : concat (repeat (@nil V) P) = []) by (clear; induction P; cbn; auto). rewrite E0. unfold global_pivots. rewrite T0. reflexivity.
Qed.

(** indices are stored in the element type while they travel: int8 values wrap *)
Definition wrap8 (z : Z) : Z := (z + 128) mod 256 - 128.
Theorem C37_index_cast_refuted : exists (x : dnd Z) G y,
  rep x (zcounts 130 2) G /\ d_split x = Some 0%nat /\ d_gshape x = [130] /\
  sort_nd 0 Z.ltb (ts_of 0 Z.ltb) wrap8 x 0 false = Ok y /\
  forall cnts H, rep y cnts H -> ~ sorted_along Z.ltb false 0 [130] G H.
Proof.
  set (p := [repeat 0 65; repeat 0 65]).
  assert (B : two_parts 65 65 (fun _ t2 => snd (adat t2 [64]) <? 0) (sort_nd 0 Z.ltb (ts_of 0 Z.ltb) wrap8 (vec 0 p) 0 false) = true) by (vm_compute; reflexivity).
  apply two_parts_ok in B as (y & t1 & t2 & E & F & Q). exists (vec 0 p), (vecG 0 p), y. split; [apply (vec_rep 0 p)|]. split; [auto|]. split; [auto|]. split; [auto|]. intros cnts H HR HS.
  destruct (Q cnts H HR) as [_ Q2]. specialize (Q2 64 ltac:(lia)).
  destruct (HS [0] ltac:(repeat constructor; lia)) as (_ & PM & _). cbn [nth] in PM. assert (I : In (snd (H [129])) (map snd (lane H 0 130 [0]))).
  { apply in_map. unfold lane. apply in_map_iff. exists 129. split; [reflexivity|]. apply in_zr. lia. }
  apply (Permutation_in _ PM) in I. apply in_zr in I. change (65 + 64) with 129 in Q2. rewrite Q2 in I. lia.
Qed.

(** NaN: torch sorts it as the greatest value, but every comparison with it is false *)
Definition nan_lt (a b : option Z) : bool := match a, b with Some x, Some y => x <? y | _, _ => false end.
Definition torch_lt (a b : option Z) : bool := match a, b with Some x, Some y => x <? y | Some _, None => true | None, _ => false end.
Lemma torch_weak : weak_order torch_lt.
Proof. split; [intros [x|] [y|]|intros [x|] [y|] [z|]]; cbn; intros; try discriminate; auto; lia. Qed.
Theorem C37_nan_refuted : exists (x : dnd (option Z)) G y,
  rep x (zcounts 8 2) G /\ d_split x = Some 0%nat /\ d_gshape x = [8] /\
  sorts None torch_lt (ts_of None torch_lt) /\
  sort_nd None nan_lt (ts_of None torch_lt) (fun i => i) x 0 true = Ok y /\
  forall cnts H, rep y cnts H -> ~ sorted_along torch_lt true 0 [8] G H.
Proof.
  set (p := [[None; None; Some 9; Some 8]; [Some 5; Some 4; Some 1; Some 0]]).
  assert (B : two_parts 4 4 (fun t1 t2 => match fst (adat t1 [3]), fst (adat t2 [0]) with Some a, Some b => a <? b | _, _ => false end) (sort_nd None nan_lt (ts_of None torch_lt) (fun i => i) (vec None p) 0 true) = true) by (vm_compute; reflexivity).
  apply two_parts_ok in B as (y & t1 & t2 & E & F & Q). exists (vec None p), (vecG None p), y. split; [apply (vec_rep None p)|]. split; [auto|]. split; [auto|]. split; [apply ts_of_sorts, torch_weak|]. split; [auto|]. intros cnts H HR HS.
  destruct (Q cnts H HR) as [Q1 Q2]. specialize (Q1 3 ltac:(lia)). specialize (Q2 0 ltac:(lia)). rewrite <- Q1, <- Q2 in F. change (4 + 0) with 4 in F.
  destruct (HS [0] ltac:(repeat constructor; lia)) as (O & _). unfold lane in O. cbn [nth] in O. change (zr 8) with [0; 1; 2; 3; 4; 5; 6; 7] in O. cbn [map upd] in O.
  do 3 apply StronglySorted_inv, proj1 in O. apply StronglySorted_inv in O as [_ O]. inversion O as [|? ? O1 _]. clear -O1 F. destruct (fst (H [3])), (fst (H [4])); try discriminate. cbn in O1. congruence.
Qed.
