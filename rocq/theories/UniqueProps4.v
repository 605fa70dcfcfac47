From Verif Require Import Base BaseLemmas LayoutModel LayoutProofs NdSpec TensorSpec NdLemmas TensorLemmas OpsModel OpsProofs4 RollModel RedistModel HaloModel ShapeModel ShapeSpec ShapeProofs ShapeProofs4 ShapeProps BinModel BinProofs2 ReshapeModel ReshapeProofs FactoryModel FactoryProps ConcatModel ConcatProps DiagModel DiagProps SplitProps UnfoldModel UnfoldProofs SortProps SortProps2 UniqueModel UniqueSpec UniqueProps UniqueProps2 UniqueProps3 UniqueInvModel.
Open Scope Z_scope.

(** torch.unique's inverse: the kept key at inv[i] is key i *)
Definition inverse_of {V} (reps inv : list (list V) -> list nat) : Prop :=
  forall l, length (inv l) = length l /\ forall i, (i < length l)%nat ->
    (nth i (inv l) 0%nat < length (reps l))%nat /\ nth (nth (nth i (inv l) 0%nat) (reps l) 0%nat) l [] = nth i l [].

Lemma flat_at {V} (dv : V) (t : arr V) idx : Forall (fun n => 0 <= n) (ash t) -> in_bounds (ash t) idx ->
  nth (Z.to_nat (dot idx (cstrides (ash t)))) (flat t) dv = adat t idx.
Proof.
  intros F Hi. assert (E := unflat_row_major dv (ash t) (flat t) F). rewrite <- (row_major_length (ash t) F) in E. unfold flat in E at 1. rewrite map_length in E. specialize (E eq_refl).
  assert (X : forall (f g : list Z -> V) l, map f l = map g l -> forall i, In i l -> f i = g i). { induction l as [|a l IH]; intros EE b Hb; [destruct Hb|]. cbn in EE. injection EE as E1 E2. destruct Hb as [->|Hb]; auto. }
  apply (X _ _ _ E). now apply in_row_major.
Qed.
Lemma zprod_upd l : forall k a, (k < length l)%nat -> zprod (upd l k a) = a * zprod (upd l k 1).
Proof. induction l as [|x l IH]; intros [|k] a H; cbn [length upd zprod] in *; try lia. rewrite (IH k a) by lia. lia. Qed.

(** position in the transposed array: the row along the split axis comes first *)
Lemma num_row gsh idx s : (s < length gsh)%nat -> in_bounds gsh idx ->
  let num := dot (swap0 s idx) (cstrides (swap0 s gsh)) in let epl := zprod (upd gsh s 1) in
  nth s idx 0 * epl <= num < (nth s idx 0 + 1) * epl.
Proof.
  intros Hs Hi. destruct gsh as [|n gsh]; [cbn in Hs; lia|]. inversion Hi as [|? i ? idx' Bi Hi']; subst. assert (L := in_bounds_length _ _ Hi'). destruct s as [|s].
  - unfold swap0. cbn [nth upd dot cstrides zprod]. assert (B := dot_bounds _ _ Hi'). lia.
  - unfold swap0. cbn [nth upd dot cstrides zprod]. cbn [length] in Hs. assert (B : in_bounds (upd gsh s n) (upd idx' s i)).
    { apply in_bounds_upd_shape; [lia|]. rewrite upd_length, upd_same by lia. split; [auto|]. split; [auto|]. intros k Hk N. rewrite upd_other by auto. apply in_bounds_nth in Hi' as [_ Hi']. auto. }
    apply dot_bounds in B. assert (EZ : zprod (upd gsh s n) = n * zprod (upd gsh s 1)) by (apply zprod_upd; lia). rewrite EZ in *. lia.
Qed.

Section D.
Variables (cnts : list Z) (epl : Z).
Hypothesis (CN : Forall (fun c => 0 <= c) cnts) (E0 : 0 < epl).
Hypothesis TAIL : forall r, (S r < length cnts)%nat -> nth (S r) cnts 0 = 0 -> zsum (firstn (S r) cnts) = zsum cnts.
Let le := map (fun d => d * epl) (tl (map (fun r => zsum (firstn r cnts)) (seq 0 (length cnts)))).
Lemma le_nth r : nth_error le r = if (S r <? length cnts)%nat then Some (zsum (firstn (S r) cnts) * epl) else None.
Proof.
  unfold le. destruct cnts as [|c l]; [destruct r; reflexivity|]. cbn [length seq map tl]. rewrite map_map. rewrite <- seq_shift, map_map. rewrite nth_error_map. destruct (Nat.ltb_spec (S r) (S (length l))).
  - rewrite nth_error_nth' with (d := 0%nat) by (rewrite seq_length; lia). rewrite seq_nth by lia. reflexivity.
  - replace (nth_error (seq 0 (length l)) r) with (@None nat); [auto|]. symmetry. apply nth_error_None. rewrite seq_length. lia.
Qed.
Lemma displ_at_owner num : Z.of_nat num < zsum cnts * epl -> (0 < length cnts)%nat ->
  (displ_at le num < length cnts)%nat /\ zsum (firstn (displ_at le num) cnts) * epl <= Z.of_nat num < zsum (firstn (S (displ_at le num)) cnts) * epl.
Proof.
  intros H HL. assert (STEP : forall cur k, (cur < length cnts)%nat -> zsum (firstn cur cnts) * epl <= Z.of_nat k -> Z.of_nat k <= zsum (firstn (S cur) cnts) * epl -> Z.of_nat k < zsum cnts * epl ->
    let c := displ_step le cur k in (c < length cnts)%nat /\ zsum (firstn c cnts) * epl <= Z.of_nat k < zsum (firstn (S c) cnts) * epl).
  { intros cur k Hc H1 H2 H3. cbv zeta. unfold displ_step. rewrite le_nth. destruct (Nat.ltb_spec (S cur) (length cnts)) as [HS|HS].
    - destruct (Z.leb_spec (zsum (firstn (S cur) cnts) * epl) (Z.of_nat k)) as [HB|HB]; [|split; [auto|lia]]. split; [auto|]. split; [auto|]. assert (EK : Z.of_nat k = zsum (firstn (S cur) cnts) * epl) by lia. rewrite (zsum_firstn_S cnts (S cur)) by auto.
      assert (N0 : 0 <= nth (S cur) cnts 0) by (rewrite Forall_forall in CN; apply CN, nth_In; auto). destruct (Z.eq_dec (nth (S cur) cnts 0) 0) as [Z0|Z0]; [|nia]. exfalso. specialize (TAIL cur HS Z0). rewrite TAIL in EK. lia.
    - split; [auto|]. split; [auto|]. rewrite firstn_all2 by lia. auto. }
  unfold displ_at. induction num as [|num IH].
  - cbn [seq fold_left]. apply STEP; auto; [change (zsum (firstn 0 cnts)) with 0; lia|]. assert (0 <= zsum (firstn 1 cnts)) by (apply zsum_nonneg, Forall_firstn', CN). nia.
  - rewrite seq_S, fold_left_app. cbn [fold_left plus]. specialize (IH ltac:(lia)). destruct IH as (A & B & C). apply STEP; auto; lia.
Qed.
End D.
Lemma nth_skipn' {A} (l : list A) : forall a k d, nth k (skipn a l) d = nth (a + k) l d.
Proof. induction l as [|x l IH]; intros [|a] k d; cbn; auto; now destruct k. Qed.
Lemma zcounts_tail n P : (0 < P)%nat -> 0 <= n -> forall r, (S r < length (zcounts n P))%nat -> nth (S r) (zcounts n P) 0 = 0 -> zsum (firstn (S r) (zcounts n P)) = zsum (zcounts n P).
Proof.
  intros HP Hn r Hr H0. destruct (zcounts_ok n P HP Hn) as (L & CN & SM). rewrite <- (firstn_skipn (S r) (zcounts n P)) at 2. rewrite zsum_app. assert (X : zsum (skipn (S r) (zcounts n P)) = 0); [|lia].
  assert (A : Forall (fun c => c = 0) (skipn (S r) (zcounts n P))).
  { apply Forall_forall. intros c Hc. apply (In_nth _ _ 0) in Hc as (k & Hk & <-). rewrite skipn_length in Hk. rewrite nth_skipn'. rewrite L in *. rewrite zcounts_nth in * by lia. assert (0 <= n / Z.of_nat P) by (apply Z.div_pos; lia). destruct (Z.of_nat (S r) <? n mod Z.of_nat P) eqn:E1; [lia|]. destruct (Z.of_nat (S r + k) <? n mod Z.of_nat P) eqn:E2; [|lia]. clear - E1 E2. lia. }
  induction A as [|c l -> _ IH]; [auto|]. change (zsum (0 :: l)) with (0 + zsum l). lia.
Qed.

Section V.
Context {V : Type} (dv : V) (reps inv : list (list V) -> list nat).
Hypothesis (HU : keeps_unique reps) (HI : inverse_of reps inv).
Lemma inv_flat l i : (i < length l)%nat -> let p := nth i (inv (map single l)) 0%nat in (p < length (u_flat dv reps l))%nat /\ nth p (u_flat dv reps l) dv = nth i l dv.
Proof.
  intros Hi p. destruct (HI (map single l)) as [_ H]. rewrite map_length in H. destruct (H i Hi) as [H1 H2]. fold p in H1, H2. unfold u_flat, pick. rewrite map_length. split; [exact H1|].
  rewrite nth_pick by exact H1. destruct (HU (map single l)) as (R & _). assert (R' := R _ (nth_In _ 0%nat H1)). rewrite map_length in R'.
  rewrite (nth_indep _ [] (single dv)) in H2 by (now rewrite map_length). rewrite (nth_indep (map single l) [] (single dv)) in H2 by (now rewrite map_length). rewrite !(map_nth single) in H2. now injection H2.
Qed.
Lemma concat_nth (ls : list (list V)) : forall r i, (r < length ls)%nat -> (i < length (nth r ls []))%nat ->
  (i + psum (lens ls) r < length (concat ls))%nat /\ nth (i + psum (lens ls) r) (concat ls) dv = nth i (nth r ls []) dv.
Proof.
  induction ls as [|l ls IH]; intros [|r] i Hr Hi; cbn [length] in *; try lia.
  - unfold psum. cbn [firstn list_sum fold_right]. change (list_sum []) with 0%nat. rewrite Nat.add_0_r. cbn [concat nth] in *. rewrite app_length, app_nth1 by auto. split; [lia|auto].
  - cbn [nth] in Hi. destruct (IH r i) as [A B]; [lia|auto|]. unfold psum in *. cbn [lens map firstn concat nth]. change (list_sum (length l :: firstn r (map (@length V) ls))) with (length l + list_sum (firstn r (lens ls)))%nat. rewrite app_length, app_nth2 by lia. split; [lia|]. rewrite <- B. f_equal. lia.
Qed.

(** unique(x, return_inverse=True), axis=None: the element at the inverse index is the
    element of the array, for every position *)
Theorem C38_inverse : forall (x : dnd V) (G : list Z -> V) (cnts : list Z),
  rep x cnts G -> (0 < length cnts)%nat ->
  (forall s, d_split x = Some s -> (1 < length cnts)%nat -> cnts = zcounts (nth s (d_gshape x) 0) (length cnts)) ->
  exists y k Y, unique_none dv reps x = Ok y /\ d_gshape y = [k] /\
    rep y (balanced_counts (length cnts) [k] (d_split y)) Y /\
    forall idx, in_bounds (d_gshape x) idx ->
      let p := Z.of_nat (inverse_none dv reps inv x idx) in 0 <= p < k /\ Y [p] = G idx.
Proof.
  intros x G cnts HR HP HC. assert (LC : length (d_locals x) = length cnts) by apply HR. assert (NN : Forall (fun n => 0 <= n) (d_gshape x)) by apply HR.
  destruct (undistributed x) eqn:EU.
  - assert (E : exists y, unique_none dv reps x = Ok y /\ y = mk_dnd (map (fun t => vec1 dv (u_flat dv reps (flat t))) (d_locals x)) [Z.of_nat (length (u_flat dv reps (flat (hd (vec1 dv []) (d_locals x)))))] None).
    { unfold unique_none. destruct (d_split x) as [s|]; [rewrite EU|]; eauto. }
    destruct E as (y & E & EY). destruct (d_locals x) as [|t0 l0] eqn:EL; [cbn in LC; lia|]. cbn [hd] in EY.
    assert (AG : forall t, In t (t0 :: l0) -> agrees t (d_gshape x) G).
    { intros t Ht. unfold rep in HR. unfold undistributed in EU. rewrite EL in HR, EU. destruct (d_split x) as [s|].
      - destruct HR as (_ & _ & Hs & CN & SM & Q). destruct l0 as [|]; try (cbn in EU; discriminate). destruct Ht as [->|[]]. destruct cnts as [|c [|]]; try (cbn in LC; discriminate). destruct (Q 0%nat t eq_refl) as [A D]. cbn [nth firstn] in *. change (zsum []) with 0 in D. change (zsum [c]) with (c + 0) in SM.
        assert (EE : upd (d_gshape x) s c = d_gshape x) by (apply upd_same_list; lia). rewrite EE in *. split; [auto|]. intros idx Hi. rewrite D by auto. rewrite move0; [auto|]. assert (L := in_bounds_length _ _ Hi). lia.
      - destruct HR as (_ & _ & Q). auto. }
    exists y, (Z.of_nat (length (u_flat dv reps (flat t0)))), (adat (vec1 dv (u_flat dv reps (flat t0)))). split; [exact E|]. subst y. cbn [d_gshape d_split]. split; [auto|]. split.
    + unfold rep. cbn [d_gshape d_split d_locals balanced_counts]. split; [rewrite map_length, repeat_length; auto|]. split; [repeat constructor; lia|]. intros t Ht. apply in_map_iff in Ht as (u & <- & Hu). rewrite (flat_all u _ G (AG u Hu)), <- (flat_all t0 _ G (AG t0 (or_introl eq_refl))). split; [reflexivity|auto].
    + intros idx Hi. unfold inverse_none. rewrite EU, EL. cbn [hd]. destruct (AG t0 (or_introl eq_refl)) as [A0 D0]. assert (FA := flat_at dv t0 idx). rewrite A0 in FA. specialize (FA NN Hi). rewrite (D0 idx Hi) in FA. assert (DB := dot_bounds _ _ Hi).
      destruct (inv_flat (flat t0) (Z.to_nat (dot idx (cstrides (d_gshape x))))) as [P1 P2].
      { unfold flat. rewrite map_length, A0. assert (RL := row_major_length _ NN). lia. }
      cbv zeta in P1, P2. cbv zeta. unfold vec1. cbn [adat nth]. rewrite Nat2Z.id. split; [lia|]. rewrite P2. exact FA.
  - unfold undistributed in EU. destruct (d_split x) as [s|] eqn:ES; [|discriminate]. assert (L1 : (1 < length cnts)%nat) by lia. specialize (HC s eq_refl L1).
    set (gres := u_flat dv reps (concat (map (lres_flat dv reps s) (d_locals x)))).
    assert (HA : asked_split 1 (if (s <? 1)%nat then AxInt (Z.of_nat s) else AxNone) (match s with O => Some 0%nat | _ => None end)) by (destruct s; cbn; [split; [unfold valid_axis; lia|reflexivity]|reflexivity]).
    destruct (C55_array_split V (length (d_locals x)) (vec1 dv gres) _ _ ltac:(lia) ltac:(repeat constructor; cbn; lia) HA) as (y & A & B & C & D).
    exists y, (Z.of_nat (length gres)), (adat (vec1 dv gres)). split; [unfold unique_none; rewrite ES; unfold undistributed; rewrite ES, EU; exact A|]. split; [exact B|]. split; [rewrite C, <- LC; exact D|].
    intros idx Hi. unfold inverse_none, undistributed. rewrite ES, EU, LC, <- HC. cbv zeta. unfold rep in HR. rewrite ES in HR. destruct HR as (_ & _ & Hs & CN & SM & Q).
    assert (LI := in_bounds_length _ _ Hi). assert (BN := proj2 (proj1 (in_bounds_nth _ _) Hi)). assert (Bs := BN s Hs). assert (OS := owner_spec cnts (nth s idx 0) CN ltac:(lia)). destruct (owner cnts (nth s idx 0)) as [r z]. cbn [fst]. destruct OS as (Hr & Ez & Bz).
    set (le := map (fun d => d * zprod (upd (d_gshape x) s 1)) (tl (map (fun r0 => zsum (firstn r0 cnts)) (seq 0 (length cnts))))). set (num := Z.to_nat (dot (swap0 s idx) (cstrides (swap0 s (d_gshape x))))).
    assert (NR := num_row (d_gshape x) idx s Hs Hi). cbv zeta in NR. set (epl := zprod (upd (d_gshape x) s 1)) in *.
    assert (E0 : 0 < epl) by (destruct (Z.le_gt_cases epl 0); [nia|auto]). assert (NV : Z.of_nat num = dot (swap0 s idx) (cstrides (swap0 s (d_gshape x)))) by (unfold num; nia).
    assert (DA : displ_at le num = r).
    { destruct (displ_at_owner cnts epl CN E0) with (num := num) as (D1 & D2); [|rewrite SM; nia|lia|].
      - rewrite HC. apply zcounts_tail; [lia|]. lia.
      - fold le in D1, D2. set (q := displ_at le num) in *. destruct (Nat.lt_trichotomy q r) as [H|[H|H]]; [|auto|]; exfalso.
        + assert (M : zsum (firstn (S q) cnts) <= zsum (firstn r cnts)) by (apply zsum_firstn_mono; auto). nia.
        + assert (M : zsum (firstn (S r) cnts) <= zsum (firstn q cnts)) by (apply zsum_firstn_mono; auto). rewrite (zsum_firstn_S cnts r) in M by auto. nia. }
    rewrite DA. destruct (nth_error (d_locals x) r) as [t|] eqn:Et; [|apply nth_error_None in Et; lia]. rewrite (nth_error_nth _ _ (vec1 dv []) Et). destruct (Q r t Et) as [A0 D0].
    set (lidx := move_axis_idx s (- zsum (firstn r cnts)) idx). assert (Hl : in_bounds (upd (d_gshape x) s (nth r cnts 0)) lidx).
    { apply in_bounds_upd_shape; auto. unfold lidx, move_axis_idx. rewrite upd_length, upd_same by lia. split; [auto|]. split; [lia|]. intros k Hk N. rewrite upd_other by auto. auto. }
    assert (NL : Forall (fun n => 0 <= n) (upd (d_gshape x) s (nth r cnts 0))).
    { apply Forall_forall. intros m Hm. apply (In_nth _ _ 0) in Hm as (q & Hq & <-). rewrite upd_length in Hq. destruct (Nat.eq_dec q s) as [->|N]; [rewrite upd_same; auto; lia|]. rewrite upd_other by auto. rewrite Forall_forall in NN. apply NN, nth_In. auto. }
    assert (FA := flat_at dv t lidx). rewrite A0 in FA. specialize (FA NL Hl). rewrite (D0 lidx Hl) in FA. assert (EI : move_axis_idx s (zsum (firstn r cnts)) lidx = idx) by (unfold lidx, move_axis_idx; rewrite upd_same by lia; rewrite upd_upd_same; apply upd_same_list; lia). rewrite EI in FA.
    assert (DB := dot_bounds _ _ Hl). set (i := Z.to_nat (dot lidx (cstrides (upd (d_gshape x) s (nth r cnts 0))))) in *. assert (Li : (i < length (flat t))%nat) by (unfold flat; rewrite map_length, A0; assert (RL := row_major_length _ NL); unfold i; lia).
    destruct (inv_flat (flat t) i Li) as [P1 P2]. cbv zeta in P1, P2. set (ip := nth i (inv (map single (flat t))) 0%nat) in *.
    set (lres := map (lres_flat dv reps s) (d_locals x)) in *. assert (NT : nth r lres [] = u_flat dv reps (flat t)).
    { apply nth_error_nth. unfold lres. rewrite nth_error_map, Et. cbn [option_map]. unfold lres_flat. rewrite A0, upd_same by auto. replace (nth r cnts 0 =? 0) with false by lia. auto. }
    destruct (concat_nth lres r ip) as [Q1 Q2]; [unfold lres; rewrite map_length; lia|rewrite NT; auto|]. rewrite NT, P2 in Q2.
    destruct (inv_flat (concat lres) _ Q1) as [R1 R2]. cbv zeta in R1, R2. unfold vec1. cbn [adat nth]. rewrite Nat2Z.id. unfold gres. split; [lia|]. rewrite R2, Q2. exact FA.
Qed.
End V.

(** first occurrences, with their inverse *)
Fixpoint position (k : list Z) (l : list (list Z)) : nat := match l with [] => 0%nat | a :: t => if zl_eqb k a then 0%nat else S (position k t) end.
Definition first_inv (l : list (list Z)) : list nat := map (fun k => position k (map (fun p => nth p l []) (first_reps l))) l.
Lemma position_ok k l : In k l -> (position k l < length l)%nat /\ nth (position k l) l [] = k.
Proof.
  induction l as [|a l IH]; intros H; [destruct H|]. cbn [position length]. unfold zl_eqb. destruct (list_eq_dec Z.eq_dec k a) as [->|N]; [split; [lia|auto]|].
  destruct H as [->|H]; [congruence|]. destruct (IH H). split; [lia|auto].
Qed.
Lemma first_inv_ok : inverse_of first_reps first_inv.
Proof.
  intros l. split; [apply map_length|]. intros i Hi. destruct (first_reps_keeps l) as (_ & _ & C). assert (K := C _ (nth_In l [] Hi)). apply position_ok in K as [K1 K2]. rewrite map_length in K1.
  assert (E : nth i (first_inv l) 0%nat = position (nth i l []) (map (fun p => nth p l []) (first_reps l))).
  { unfold first_inv. rewrite (nth_indep _ 0%nat (position [] (map (fun p => nth p l []) (first_reps l)))) by (now rewrite map_length). now rewrite (map_nth (fun k => position k (map (fun p => nth p l []) (first_reps l)))). }
  rewrite E. split; [exact K1|]. rewrite <- K2 at 2. symmetry. apply nth_pick. exact K1.
Qed.
Example C38_inverse_example : map (inverse_none 0 first_reps first_inv (vec 0 [[5; 5; 7]; [5; 8; 8]])) [[0]; [1]; [2]; [3]; [4]; [5]] = [0; 0; 1; 0; 2; 2]%nat.
Proof. vm_compute. reflexivity. Qed.
(** with axis=split the inverse is wrong: 5 5 7 | 5 8 8, distinct elements 5 7 8; the third
    element 7 gets the index of 8.  (The parts and g_inverse are those torch returns.) *)
Theorem C38_axis_inverse_refuted :
  let l := [5; 5; 7; 5; 8; 8] in let u := u_flat 0 first_reps l in
  let parts := [first_inv (map single [5; 5; 7]); first_inv (map single [5; 8; 8])] in
  let lres := [u_flat 0 first_reps [5; 5; 7]; u_flat 0 first_reps [5; 8; 8]] in
  u = [5; 7; 8] /\ u_flat 0 first_reps (concat lres) = u /\
  exists I, inverse_axis 0 parts (lens lres) (first_inv (map single (concat lres))) = Ok I /\ nth (nth 2 I 0%nat) u 0 <> nth 2 l 0.
Proof. cbv zeta. split; [vm_compute; reflexivity|]. split; [vm_compute; reflexivity|]. eexists. split; [vm_compute; reflexivity|]. vm_compute. discriminate. Qed.
(** and with split axis 1 or more it raises *)
Theorem C38_axis_inverse_raises : forall s parts uniques g, (1 <= s)%nat -> inverse_axis s parts uniques g = Err IndexError.
Proof. intros. unfold inverse_axis. replace (1 <=? s)%nat with true by lia. auto. Qed.
