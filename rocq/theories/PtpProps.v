(** C86: ptp is the range (maximum - minimum) of all values or of the lines along one axis. *)
From Verif Require Import Base ShapeSpec BaseLemmas LayoutModel NdSpec TensorSpec TensorLemmas NdLemmas OpsModel ShapeModel ShapeProps VmapSpec VmapProofs PtpSpec PtpModel PtpProofs PtpProofs2.
Open Scope Z_scope.

(** the split axis of the result once axis [a] is gone *)
Definition split_after (a : nat) (sp : option nat) : option nat :=
  match sp with Some s => if (s =? a)%nat then None else if (a <? s)%nat then Some (s - 1)%nat else Some s | None => None end.

Lemma norm_nat n a : (a < n)%nat -> norm_axis n (Some (Z.of_nat a)) = Ok (Some a).
Proof.
  intros H. unfold norm_axis. rewrite (proj2 (Z.ltb_ge (Z.of_nat a) 0)) by lia. rewrite (proj2 (Z.ltb_ge (Z.of_nat a) 0)) by lia.
  rewrite (proj2 (Z.leb_gt (Z.of_nat n) (Z.of_nat a))) by lia. cbn [orb]. now rewrite Nat2Z.id.
Qed.
Lemma label a s : (if Z.of_nat a <? Z.of_nat s then Some (Z.of_nat s - 1) else if Z.of_nat s <? Z.of_nat a then Some (Z.of_nat s) else None) = option_map Z.of_nat (split_after a (Some s)).
Proof.
  unfold split_after. destruct (Nat.eqb_spec s a); [subst; rewrite Z.ltb_irrefl; reflexivity|]. destruct (Z.ltb_spec (Z.of_nat a) (Z.of_nat s)); destruct (Nat.ltb_spec a s); try lia; cbn [option_map]; [f_equal; lia|].
  rewrite (proj2 (Z.ltb_lt _ _)) by lia. reflexivity.
Qed.

(** For all shapes, layouts, floating point values (NaN included) and axes: every process holds
    its part of the array of ranges, of the shape without the axis.  Partial: every process must
    hold elements and the axis be given as a non-negative number; see the refutations. *)
Theorem C86_ptp_partial : forall (x : dnd (option Z)) (cnts : list Z) (G : list Z -> option Z) (a : nat),
  rep x cnts G -> cnts <> [] -> Forall (fun n => 1 <= n) (d_gshape x) -> (d_split x <> None -> Forall (fun n => 1 <= n) cnts) ->
  (a < length (d_gshape x))%nat ->
  exists p, ptp x (Some (Z.of_nat a)) false = Ok p /\
    p_gshape p = del a (d_gshape x) /\ p_split p = option_map Z.of_nat (split_after a (d_split x)) /\
    exists R, represents R (del a (d_gshape x)) (split_after a (d_split x)) cnts (p_locals p) /\
      forall idx, in_bounds (del a (d_gshape x)) idx -> range_of (line G (d_gshape x) a (ins a 0 idx)) (R idx).
Proof.
  intros x cnts G a HX HP H1 Hc1 La. unfold ptp. rewrite norm_nat by exact La. cbn [bind].
  destruct (no_refusal x cnts G HX H1 Hc1 (Some a)) as [E1 E2]; [intros k [= <-]; auto|lia|]. rewrite E1.
  rewrite (proj2 (Nat.eqb_neq (length (d_gshape x)) 0)) by lia. rewrite (starts x cnts G a) by auto. rewrite E2.
  eexists. split; [reflexivity|]. cbn [p_gshape p_split p_locals]. split; [reflexivity|]. split; [destruct (d_split x) as [s|]; [apply label|reflexivity]|].
  exists (fun idx => RG x G a (ins a 0 idx)). split.
  - fold (packed_a x a). assert (N0 : Forall (fun n => 0 <= n) (d_gshape x)) by (eapply Forall_impl; [|exact H1]; cbn; intros; lia).
    destruct (d_split x) as [s|] eqn:Es; unfold split_after.
    + assert (Hc2 : d_split x <> None -> Forall (fun n => 1 <= n) cnts) by (rewrite Es; exact Hc1).
      destruct (Nat.eqb_spec s a) as [->|Hne].
      * pose proof (same_axis x cnts G a HX H1 Hc2 HP La a Es eq_refl) as SA. unfold reduced_a in SA. rewrite Es in SA.
        split; [rewrite !map_length; destruct HX as (HL & _)|split; [now apply del_all|]].
        -- destruct ((1 <? length (d_locals x))%nat && (a =? a)%nat); [unfold allreduce_minmax; rewrite map_length|]; unfold packed_a; rewrite map_length; exact HL.
        -- intros y Hy. apply in_map_iff in Hy as (y0 & <- & Hy). apply (drop_agrees y0 (d_gshape x) a (RG x G a)); auto.
      * assert (Hne' : a <> s) by auto. pose proof (other_axis x cnts G a HX H1 Hc2 La s Es Hne') as OA. unfold reduced_a in OA. rewrite Es in OA. apply drop_represents in OA; auto.
        unfold down in OA. destruct (a <? s)%nat; exact OA.
    + assert (Hc2 : d_split x <> None -> Forall (fun n => 1 <= n) cnts) by (rewrite Es; exact Hc1).
      pose proof (no_axis x cnts G a HX H1 Hc2 La Es) as NA. unfold reduced_a in NA. rewrite Es in NA. destruct NA as (HL & _ & HR).
      split; [now rewrite map_length|]. split; [now apply del_all|]. intros y Hy. apply in_map_iff in Hy as (y0 & <- & Hy). apply (drop_agrees y0 (d_gshape x) a (RG x G a)); auto.
  - intros idx Hi. unfold RG. apply spread_range. apply line_nonempty. rewrite Forall_forall in H1. assert (1 <= nth a (d_gshape x) 0) by (apply H1, nth_In; auto). lia.
Qed.
Print Assumptions C86_ptp_partial.

(** keepdims=True keeps an axis of length one; partial: the axis may not lie before the split axis *)
Theorem C86_ptp_keepdims_partial : forall (x : dnd (option Z)) (cnts : list Z) (G : list Z -> option Z) (a : nat),
  rep x cnts G -> cnts <> [] -> Forall (fun n => 1 <= n) (d_gshape x) -> (d_split x <> None -> Forall (fun n => 1 <= n) cnts) ->
  (a < length (d_gshape x))%nat -> (forall s, d_split x = Some s -> (s <= a)%nat) ->
  exists p, ptp x (Some (Z.of_nat a)) true = Ok p /\
    p_gshape p = upd (d_gshape x) a 1 /\
    exists sp R, sp = (if match d_split x with Some s => (s =? a)%nat | None => true end then None else d_split x) /\ p_split p = option_map Z.of_nat sp /\
      represents R (upd (d_gshape x) a 1) sp cnts (p_locals p) /\
      forall idx, in_bounds (upd (d_gshape x) a 1) idx -> range_of (line G (d_gshape x) a idx) (R idx).
Proof.
  intros x cnts G a HX HP H1 Hc1 La Hs. unfold ptp. rewrite norm_nat by exact La. cbn [bind].
  destruct (no_refusal x cnts G HX H1 Hc1 (Some a)) as [E1 E2]; [intros k [= <-]; auto|lia|]. rewrite E1.
  rewrite (proj2 (Nat.eqb_neq (length (d_gshape x)) 0)) by lia. rewrite (starts x cnts G a) by auto. rewrite E2.
  eexists. split; [reflexivity|]. cbn [p_gshape p_split p_locals]. split; [reflexivity|].
  eexists. exists (RG x G a). split; [reflexivity|]. split; [|split].
  - destruct (d_split x) as [s|]; [|reflexivity]. rewrite label. unfold split_after. specialize (Hs s eq_refl). destruct (s =? a)%nat; [reflexivity|]. rewrite (proj2 (Nat.ltb_ge a s)) by lia. reflexivity.
  - fold (packed_a x a). assert (N0 : Forall (fun n => 0 <= n) (d_gshape x)) by (eapply Forall_impl; [|exact H1]; cbn; intros; lia).
    destruct (d_split x) as [s|] eqn:Es.
    + assert (Hc2 : d_split x <> None -> Forall (fun n => 1 <= n) cnts) by (rewrite Es; exact Hc1).
      destruct (Nat.eqb_spec s a) as [->|Hne].
      * pose proof (same_axis x cnts G a HX H1 Hc2 HP La a Es eq_refl) as SA. unfold reduced_a in SA. rewrite Es in SA.
        split; [rewrite map_length; destruct HX as (HL & _)|split; [apply OpsProofs5.Forall_upd; [exact N0|lia]|exact SA]].
        destruct ((1 <? length (d_locals x))%nat && (a =? a)%nat); [unfold allreduce_minmax; rewrite map_length|]; unfold packed_a; rewrite map_length; exact HL.
      * assert (Hne' : a <> s) by auto. pose proof (other_axis x cnts G a HX H1 Hc2 La s Es Hne') as OA. unfold reduced_a in OA. rewrite Es in OA. exact OA.
    + assert (Hc2 : d_split x <> None -> Forall (fun n => 1 <= n) cnts) by (rewrite Es; exact Hc1).
      pose proof (no_axis x cnts G a HX H1 Hc2 La Es) as NA. unfold reduced_a in NA. rewrite Es in NA. exact NA.
  - intros idx Hi. unfold RG. apply spread_range. apply line_nonempty. rewrite Forall_forall in H1. assert (1 <= nth a (d_gshape x) 0) by (apply H1, nth_In; auto). lia.
Qed.
Print Assumptions C86_ptp_keepdims_partial.

(** axis=None: every process holds the range of all elements, as a 0-dimensional array *)
Theorem C86_ptp_all_partial : forall (x : dnd (option Z)) (cnts : list Z) (G : list Z -> option Z),
  rep x cnts G -> cnts <> [] -> Forall (fun n => 1 <= n) (d_gshape x) -> (d_split x <> None -> Forall (fun n => 1 <= n) cnts) ->
  d_gshape x <> [] ->
  exists p v, ptp x None false = Ok p /\ p_gshape p = [] /\ p_split p = None /\
    length (p_locals p) = length cnts /\ (forall y, In y (p_locals p) -> ash y = [] /\ adat y [] = v) /\ range_of (map G (row_major (d_gshape x))) v.
Proof.
  intros x cnts G HX HP H1 Hc1 Hn. assert (L0 : (0 < length (d_gshape x))%nat) by (destruct (d_gshape x); [contradiction|cbn; lia]). unfold ptp. cbn [norm_axis bind].
  destruct (no_refusal x cnts G HX H1 Hc1 None) as [E1 E2]; [intros k [=]|exact L0|]. rewrite E1.
  rewrite (proj2 (Nat.eqb_neq (length (d_gshape x)) 0)) by lia. rewrite (starts x cnts G 0) by auto. rewrite E2.
  eexists. exists (RA x G). split; [reflexivity|]. cbn [p_gshape p_split p_locals]. split; [reflexivity|]. split; [reflexivity|]. split; [|split].
  - fold (packed_all x). rewrite !map_length. assert (LP : length (packed_all x) = length cnts) by (unfold packed_all; rewrite map_length; apply HX).
    destruct (d_split x); [|exact LP]. destruct ((1 <? length (d_locals x))%nat && true); [unfold allreduce_minmax; now rewrite map_length|exact LP].
  - intros y Hy. apply in_map_iff in Hy as (y0 & <- & Hy). pose proof (all_ok x cnts G HX H1 Hc1 HP y0 Hy) as [S D]. cbn [drop_dim ash adat]. auto.
  - unfold RA. apply spread_range. intros E. apply map_eq_nil in E. apply (f_equal (@length _)) in E. pose proof (zprod_pos _ H1).
    pose proof (row_major_length (d_gshape x)) as L. rewrite E in L. cbn in L. assert (Forall (fun n => 0 <= n) (d_gshape x)) by (eapply Forall_impl; [|exact H1]; cbn; intros; lia). specialize (L H0). lia.
Qed.
Print Assumptions C86_ptp_all_partial.

(** a matrix with m columns, the rows given *)
Definition mat (m : Z) (rows : list (list Z)) : arr (option Z) :=
  mk_arr [Z.of_nat (length rows); m] (fun i => nth_error (nth (Z.to_nat (nth 0 i 0)) rows []) (Z.to_nat (nth 1 i 0))).
Definition top := mat 2 [[3; 1]; [4; 1]].
Definition bottom := mat 2 [[5; 9]].
Definition whole := mat 2 [[3; 1]; [4; 1]; [5; 9]].
(** the 3 x 2 array [[3,1],[4,1],[5,9]] by rows on two processes, and one of its columns in each *)
Definition byrows : dnd (option Z) := mk_dnd [top; bottom] [3; 2] (Some 0%nat).
Definition bycols : dnd (option Z) := mk_dnd [mat 1 [[3]; [4]; [5]]; mat 1 [[1]; [1]; [9]]] [3; 2] (Some 1%nat).
Definition with_empty : dnd (option Z) := mk_dnd [whole; mat 2 []] [3; 2] (Some 0%nat).
Lemma case2 (P : list Z -> Prop) a b : (forall i j, 0 <= i < a -> 0 <= j < b -> P [i; j]) -> forall idx, in_bounds [a; b] idx -> P idx.
Proof. intros H idx Hi. inversion Hi as [|? i ? l Hb H2]; subst. inversion H2 as [|? j ? l' Hb' H3]; subst. inversion H3; subst. now apply H. Qed.
Example C86_byrows_rep : rep byrows [2; 1] (adat whole).
Proof.
  split; [reflexivity|]. split; [repeat constructor; lia|]. split; [cbn; lia|]. split; [repeat constructor; lia|]. split; [reflexivity|].
  intros [|[|[|r]]] t E; try discriminate E; injection E as <-; (split; [reflexivity|]).
  - apply case2. intros i j Hi Hj. cbn in Hi. assert (i = 0 \/ i = 1) as [-> | ->] by lia; assert (j = 0 \/ j = 1) as [-> | ->] by lia; reflexivity.
  - apply case2. intros i j Hi Hj. cbn in Hi. assert (i = 0) as -> by lia; assert (j = 0 \/ j = 1) as [-> | ->] by lia; reflexivity.
Qed.
Example C86_bycols_rep : rep bycols [1; 1] (adat whole).
Proof.
  split; [reflexivity|]. split; [repeat constructor; lia|]. split; [cbn; lia|]. split; [repeat constructor; lia|]. split; [reflexivity|].
  intros [|[|[|r]]] t E; try discriminate E; injection E as <-; (split; [reflexivity|]); apply case2; intros i j Hi Hj; cbn in Hi, Hj; assert (j = 0) as -> by lia; assert (i = 0 \/ i = 1 \/ i = 2) as [-> | [-> | ->]] by lia; reflexivity.
Qed.
Definition show (p : res ptp_result) : option (list Z * option Z * list (list Z * list (option Z))) :=
  match p with Ok p => Some (p_gshape p, p_split p, map (fun y => (ash y, flat y)) (p_locals p)) | Err _ => None end.
(** columns: 5 - 3 and 9 - 1; rows: 2, 3 and 4; all: 9 - 1 *)
Example C86_columns : show (ptp byrows (Some 0) false) = Some ([2], None, [([2], [Some 2; Some 8]); ([2], [Some 2; Some 8])]).
Proof. vm_compute. reflexivity. Qed.
Example C86_rows : show (ptp byrows (Some 1) false) = Some ([3], Some 0, [([2], [Some 2; Some 3]); ([1], [Some 4])]).
Proof. vm_compute. reflexivity. Qed.
Example C86_all : show (ptp byrows None false) = Some ([], None, [([], [Some 8]); ([], [Some 8])]).
Proof. vm_compute. reflexivity. Qed.
(** the hypotheses are met *)
Example C86_met : exists p, ptp byrows (Some (Z.of_nat 0)) false = Ok p /\ p_gshape p = [2].
Proof.
  destruct (C86_ptp_partial byrows [2; 1] (adat whole) 0) as (p & E & S & _); [exact C86_byrows_rep|discriminate|repeat constructor; lia|intros; repeat constructor; lia|cbn; lia|].
  exists p. split; [exact E|exact S].
Qed.

(** The full claim asks for the result's shape and split to describe the local tensors for every
    spelling of the axis and for every layout.
    axis=-1 on a split=1 array: the axis that was split is gone, every process holds all ranges,
    and the result is labelled split along axis 0. *)
Theorem C86_negative_axis_refuted : exists x cnts G, rep x cnts G /\ Forall (fun n => 1 <= n) (d_gshape x) /\ Forall (fun n => 1 <= n) cnts /\
  d_split x = Some 1%nat /\ exists p q, ptp x (Some 1) false = Ok p /\ ptp x (Some (-1)) false = Ok q /\ p_split p = None /\ p_split q = Some 0 /\
  p_gshape q = [3] /\ map ash (p_locals q) = [[3]; [3]].
Proof.
  exists bycols, [1; 1], (adat whole). split; [exact C86_bycols_rep|]. split; [repeat constructor; lia|]. split; [repeat constructor; lia|]. split; [reflexivity|].
  eexists. eexists. split; [reflexivity|]. split; [reflexivity|]. repeat split.
Qed.
(** axis=-1 on a split=0 array: split -1 *)
Theorem C86_negative_split_refuted : exists x cnts G, rep x cnts G /\ Forall (fun n => 1 <= n) cnts /\ exists q, ptp x (Some (-1)) false = Ok q /\ p_split q = Some (-1).
Proof. exists byrows, [2; 1], (adat whole). split; [exact C86_byrows_rep|]. split; [repeat constructor; lia|]. eexists. split; reflexivity. Qed.
(** keepdims=True and an axis before the split axis: the local tensors are cut along axis 1, the
    result is labelled split along axis 0 *)
Theorem C86_keepdims_split_refuted : exists x cnts G, rep x cnts G /\ Forall (fun n => 1 <= n) cnts /\ d_split x = Some 1%nat /\
  exists p, ptp x (Some 0) true = Ok p /\ p_gshape p = [1; 2] /\ p_split p = Some 0 /\ map ash (p_locals p) = [[1; 1]; [1; 1]].
Proof. exists bycols, [1; 1], (adat whole). split; [exact C86_bycols_rep|]. split; [repeat constructor; lia|]. split; [reflexivity|]. eexists. split; [reflexivity|]. repeat split. Qed.
(** keepdims=True without an axis: global shape (1, 1), local tensors of shape (1) *)
Theorem C86_keepdims_all_refuted : exists x cnts G, rep x cnts G /\ Forall (fun n => 1 <= n) cnts /\
  exists p, ptp x None true = Ok p /\ p_gshape p = [1; 1] /\ map ash (p_locals p) = [[1]; [1]].
Proof. exists byrows, [2; 1], (adat whole). split; [exact C86_byrows_rep|]. split; [repeat constructor; lia|]. eexists. split; [reflexivity|]. repeat split. Qed.
(** a process without elements makes the range of numbers NaN, and, when the axis is not the
    split axis, raises RuntimeError *)
Theorem C86_empty_process_refuted : exists x cnts G, rep x cnts G /\ Forall (fun n => 1 <= n) (d_gshape x) /\ (forall idx, in_bounds (d_gshape x) idx -> G idx <> None) /\
  (exists p, ptp x None false = Ok p /\ map (fun y => adat y []) (p_locals p) = [None; None]) /\ ptp x (Some 1) false = Err RuntimeError.
Proof.
  exists with_empty, [3; 0], (adat whole). split; [|split; [repeat constructor; lia|split; [|split]]].
  - split; [reflexivity|]. split; [repeat constructor; lia|]. split; [cbn; lia|]. split; [repeat constructor; lia|]. split; [reflexivity|].
    intros [|[|[|r]]] t E; try discriminate E; injection E as <-; (split; [reflexivity|]).
    + apply case2. intros i j Hi Hj. cbn in Hi. assert (i = 0 \/ i = 1 \/ i = 2) as [-> | [-> | ->]] by lia; assert (j = 0 \/ j = 1) as [-> | ->] by lia; reflexivity.
    + apply case2. intros i j Hi Hj. cbn in Hi. lia.
  - apply case2. intros i j Hi Hj. assert (i = 0 \/ i = 1 \/ i = 2) as [-> | [-> | ->]] by lia; assert (j = 0 \/ j = 1) as [-> | ->] by lia; discriminate.
  - eexists. split; [reflexivity|]. vm_compute. reflexivity.
  - vm_compute. reflexivity.
Qed.
(** a tuple of axes, in one process: (1, 0) gives the range of the matrix, 9 - 1; (0, 1) gives a
    vector of the differences within the wrong halves *)
Theorem C86_tuple_refuted : exists t : arr (option Z), ash t = [3; 2] /\
  (ash (ptp_tuple1 t [1; 0]%nat [1; 0]%nat) = [] /\ adat (ptp_tuple1 t [1; 0]%nat [1; 0]%nat) [] = Some 8) /\
  (ash (ptp_tuple1 t [0; 1]%nat [1; 0]%nat) = [2] /\ flat (ptp_tuple1 t [0; 1]%nat [1; 0]%nat) = [Some 2; Some 4]).
Proof. exists whole. split; [reflexivity|]. split; (split; [vm_compute; reflexivity|vm_compute; reflexivity]). Qed.
