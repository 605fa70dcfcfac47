(** C36 (reshape), and roll without axis (C33). *)
From Verif Require Import Base BaseLemmas LayoutModel LayoutProofs NdSpec TensorSpec TensorLemmas OpsModel OpsProofs2 OpsProofs3 OpsProofs4 RedistModel RedistProofs ShapeSpec ShapeModel ShapeProofs ShapeProofs3 ShapeProofs4 ShapeProofs6 ShapeProps BinModel BinProofs BinProofs2 RollSpec RollModel RollProofs2 RollProofs3 RollProps ReshapeModel ReshapeProofs.
Open Scope Z_scope.

(** the shape a call asks for: -1 stands for one extent to be inferred *)
Definition asks (shape sh : list Z) : Prop := Forall2 (fun k e => k = -1 \/ e = k) shape sh.

(** ht.reshape(x, shape, new_split): for every split, layout and process count the result
    has the requested shape and the same elements in row-major order; it is split along
    new_split (default: the split of x if the number of dimensions is kept, else 0) in the
    balanced layout; x itself keeps its elements but is afterwards split along axis 0.
    Excluded here (see C36_scalar_refuted): a distributed x on several processes reshaped
    to a shape without dimensions. *)
Theorem C36_reshape_partial : forall (A : Type) (dflt : A) (x : dnd A) (G : list Z -> A) (cnts shape sh : list Z) (ns : axis_arg),
  rep x cnts G -> (0 < length cnts)%nat ->
  np_shape (d_gshape x) shape = Ok sh ->
  match ns with AxNone => True | AxInt a => valid_axis (length sh) a \/ sh = [] | _ => False end ->
  (d_split x = None \/ sh <> [] \/ length cnts = 1%nat) ->
  exists y x' cnts' cnts'' G', reshape dflt x shape ns = Ok (y, x') /\
    zprod sh = zprod (d_gshape x) /\ asks shape sh /\ d_gshape y = sh /\
    d_split y = match ns, d_split x with
                | _, _ => if Nat.eqb (length sh) 0 then None else
                          match ns, d_split x with
                          | AxInt a, _ => Some (norm (length sh) a)
                          | _, Some s => if Nat.eqb (length sh) (length (d_gshape x)) then Some s else Some 0%nat
                          | _, None => None
                          end
                end /\
    rep y cnts' G' /\ map G' (row_major sh) = map G (row_major (d_gshape x)) /\
    (forall k, d_split y = Some k -> cnts' = map Z.of_nat (counts_of (Z.to_nat (nth k sh 0)) (length cnts))) /\
    d_gshape x' = d_gshape x /\ d_split x' = option_map (fun _ => 0%nat) (d_split x) /\ rep x' cnts'' G.
Proof.
  intros A dflt x G cnts shape sh ns HR HP EN HNS HS.
  destruct (reshape_ok dflt x G cnts shape sh ns HR HP EN HNS HS) as (y & x' & c' & c'' & G' & E & Eg & Es & R & L & C & M & Eg' & Es' & R').
  destruct (np_shape_sound _ _ _ EN) as (Z1 & Z2 & _).
  exists y, x', c', c'', G'. split; [auto|]. split; [auto|]. split; [auto|]. split; [auto|]. split.
  { rewrite Es. unfold out_split. destruct ns; try contradiction; destruct sh; cbn [length]; destruct (d_split x); reflexivity. }
  split; [unfold rep; now rewrite Eg|]. split; [auto|]. split; [auto|]. split; [auto|]. split; [auto|]. unfold rep. now rewrite Eg'.
Qed.
Print Assumptions C36_reshape_partial.
(** Which shapes are accepted: an explicit shape with the right number of elements is, and
    a shape that cannot be completed to one raises ValueError without touching x. *)
Theorem C36_shapes : forall (A : Type) (dflt : A) (x : dnd A) (shape : list Z) (ns : axis_arg),
  (Forall (fun n => 0 <= n) shape -> zprod shape = zprod (d_gshape x) -> np_shape (d_gshape x) shape = Ok shape) /\
  ((forall sh, asks shape sh -> zprod sh <> zprod (d_gshape x)) -> reshape dflt x shape ns = Err ValueError).
Proof.
  intros A dflt x shape ns. split; [apply np_shape_exact|]. intros H. unfold reshape.
  destruct (np_shape (d_gshape x) shape) as [sh|e] eqn:E; cbn [bind].
  - destruct (np_shape_sound _ _ _ E) as (Z1 & Z2 & _). exfalso. now apply (H sh).
  - now rewrite (np_shape_err _ _ _ E).
Qed.
Print Assumptions C36_shapes.
(** The inferred extent: with one -1, the others non-negative with product k > 0 dividing
    the number of elements, the shape is completed. *)
Theorem C36_inferred : forall (gsh a b : list Z), Forall (fun n => 0 <= n) (a ++ b) -> Forall (fun n => 0 <= n) gsh ->
  0 < zprod (a ++ b) -> (zprod (a ++ b) | zprod gsh) ->
  np_shape gsh (a ++ -1 :: b) = Ok (a ++ zprod gsh / zprod (a ++ b) :: b).
Proof.
  intros gsh a b F Fg Hp Hd. apply Forall_app in F as [Fa Fb]. rewrite Forall_forall in Fa, Fb. unfold np_shape.
  replace (existsb (fun k => k <? -1) (a ++ -1 :: b)) with false.
  2:{ symmetry. apply not_true_iff_false. intros H. apply existsb_exists in H as (k & Hk & H). apply in_app_iff in Hk as [Hk|[<-|Hk]]; [specialize (Fa k Hk)|discriminate|specialize (Fb k Hk)]; lia. }
  assert (N : forall l, (forall x, In x l -> 0 <= x) -> filter (fun k => k =? -1) l = [] /\ filter (fun k => negb (k =? -1)) l = l).
  { intros l Hl. split; [apply filter_nil_iff|apply filter_all_iff]; intros x Hx; specialize (Hl x Hx); lia. }
  rewrite !filter_app. cbn [filter]. change (-1 =? -1) with true. cbn [negb].
  destruct (N a Fa) as [-> ->]. destruct (N b Fb) as [-> ->]. cbn [app].
  replace ((zprod (a ++ b) =? 0) || negb (zprod gsh mod zprod (a ++ b) =? 0)) with false.
  2:{ symmetry. apply orb_false_iff. split; [lia|]. apply negb_false_iff, Z.eqb_eq. apply Z.mod_divide; [lia|auto]. }
  f_equal. rewrite map_app. cbn [map]. change (-1 =? -1) with true. cbv iota.
  assert (M : forall l q, (forall x, In x l -> 0 <= x) -> map (fun k => if k =? -1 then q else k) l = l).
  { intros l q Hl. transitivity (map (fun x : Z => x) l); [|apply map_id]. apply map_ext_in. intros x Hx. specialize (Hl x Hx). destruct (Z.eqb_spec x (-1)); lia. }
  now rewrite !M.
Qed.
Print Assumptions C36_inferred.
(** Refuted: a distributed array with one element cannot be reshaped to a shape without
    dimensions on several processes: ValueError instead of a scalar. *)
Theorem C36_scalar_refuted : forall (A : Type) (dflt : A) (x : dnd A) (G : list Z -> A) (cnts : list Z),
  rep x cnts G -> d_split x <> None -> (1 < length cnts)%nat -> zprod (d_gshape x) = 1 ->
  np_shape (d_gshape x) [] = Ok [] /\ reshape dflt x [] AxNone = Err ValueError.
Proof.
  intros A dflt x G cnts HR HS HP Z1. assert (EN : np_shape (d_gshape x) [] = Ok []) by (unfold np_shape; cbn; rewrite Z1; reflexivity).
  split; [auto|]. unfold reshape. rewrite EN. cbn [bind]. destruct (d_split x) as [s|] eqn:Es; [|congruence].
  assert (Hs : (s < length (d_gshape x))%nat) by (unfold rep in HR; rewrite Es in HR; apply HR).
  assert (LP : length (d_locals x) = length cnts) by apply HR. unfold rep in HR. rewrite Es in HR.
  replace (sanitize_axis (length []) (if (length [] =? length (d_gshape x))%nat then AxInt (Z.of_nat s) else AxInt 0)) with (Ok AxNone) by (destruct (length [] =? _)%nat; reflexivity).
  cbn [bind].
  destruct (resplit_any_ok dflt x G cnts s (Some 0%nat) HR Es ltac:(lia)) as (A1 & A2 & A3 & c0 & R0 & L0 & _); [intros k E; injection E as <-; lia|].
  set (x0 := resplit_any dflt x (Some 0%nat)) in *. rewrite A2. rewrite LP. set (P := length cnts) in *.
  replace (1 <? P)%nat with true by (symmetry; apply Nat.ltb_lt; lia).
  assert (ET : map (fun r => Z.to_nat (zprod (chunk_shape [] 0 r P))) (seq 0 P) = repeat 1%nat P) by (rewrite <- map_const_seq with (s := 0%nat); reflexivity).
  rewrite ET.
  assert (FB : length (glob (map flat (d_locals x0))) = 1%nat).
  { replace (glob (map flat (d_locals x0))) with (map G (row_major (d_gshape x))).
    - rewrite map_length. pose proof (row_major_length (d_gshape x)) as RL. rewrite Z1 in RL. destruct HR as (_ & Hn & _). specialize (RL Hn). lia.
    - symmetry. destruct R0 as (Hlen & Hn & H0 & Hc & Hsum & HR'). destruct (d_gshape x) as [|m0 mrest]; [simpl in H0; lia|].
      simpl in Hsum. subst m0. apply flat_blocks; auto. }
  rewrite glob_length in FB.
  destruct (forallb _ _) eqn:EF.
  - exfalso. apply forallb_lens in EF; [|rewrite repeat_length, lens_length, map_length; lia].
    rewrite <- EF, list_sum_repeat in FB. lia.
  - rewrite redistribute_bad_lemma; [reflexivity|rewrite map_length; lia|]. left. rewrite list_sum_repeat, glob_length. lia.
Qed.
Print Assumptions C36_scalar_refuted.

(** * roll without axis: the elements in row-major order, shifted around the end *)
Definition roll_list {A} (shift : Z) (l : list A) (dflt : A) : list A :=
  map (fun p => nth (Z.to_nat ((Z.of_nat p - shift) mod Z.of_nat (length l))) l dflt) (seq 0 (length l)).

Lemma dist_1d {A} (dflt : A) (d : dist A) : exists ls, all_ok (map (fun l => of_flat dflt [Z.of_nat (length l)] l) d) = Ok ls /\
  length ls = length d /\
  (forall r t, nth_error ls r = Some t -> exists l, nth_error d r = Some l /\ agrees t [Z.of_nat (length l)] (fun idx => nth (Z.to_nat (nth 0 idx 0)) l dflt)).
Proof.
  destruct (all_ok_Qn (fun l => of_flat dflt [Z.of_nat (length l)] l)
    (fun r t => exists l, nth_error d r = Some l /\ agrees t [Z.of_nat (length l)] (fun idx => nth (Z.to_nat (nth 0 idx 0)) l dflt)) d) as (ls & E & L & Q).
  - intros r l Hl. unfold of_flat. cbn [zprod]. rewrite Z.mul_1_r, Z.eqb_refl. eexists. split; [reflexivity|]. exists l. split; [auto|].
    split; [reflexivity|]. intros idx Hi. cbn [adat cstrides zprod]. pose proof (in_bounds_length _ _ Hi) as Li.
    destruct idx as [|i [|]]; try discriminate. cbn [dot nth]. do 2 f_equal. lia.
  - exists ls. auto.
Qed.
Lemma dist_1d_represents {A} (dflt : A) (d : dist A) ls :
  length ls = length d ->
  (forall r t, nth_error ls r = Some t -> exists l, nth_error d r = Some l /\ agrees t [Z.of_nat (length l)] (fun idx => nth (Z.to_nat (nth 0 idx 0)) l dflt)) ->
  represents (fun idx => nth (Z.to_nat (nth 0 idx 0)) (glob d) dflt) [Z.of_nat (length (glob d))] (Some 0%nat) (map Z.of_nat (lens d)) ls.
Proof.
  intros L Q. assert (F : Forall (fun c => 0 <= c) (map Z.of_nat (lens d))) by (apply Forall_forall; intros c Hc; apply in_map_iff in Hc as (k & <- & _); lia).
  split; [rewrite map_length, lens_length; auto|]. split; [repeat constructor; lia|]. split; [cbn; lia|]. split; [auto|]. split.
  { cbn [nth]. rewrite <- lsum_zsum by auto. rewrite to_nat_of_nat_map, glob_length. reflexivity. }
  intros r t Ht. destruct (Q r t Ht) as (l & Hl & [S D]). 
  assert (El : nth r d [] = l) by now apply nth_error_nth.
  assert (Hr : (r < length d)%nat) by (apply nth_error_Some; congruence).
  assert (En : nth r (map Z.of_nat (lens d)) 0 = Z.of_nat (length l)).
  { change 0 with (Z.of_nat 0). rewrite map_nth, lens_nth, El. auto. }
  rewrite En. split; [exact S|]. intros idx Hi. cbn [upd] in Hi. rewrite D by auto. pose proof (in_bounds_length _ _ Hi) as Li.
  destruct idx as [|i [|]]; try discriminate. unfold move_axis_idx. cbn [nth upd].
  assert (B : 0 <= i < Z.of_nat (length l)) by (inversion Hi; auto).
  rewrite <- psum_zsum by auto. rewrite to_nat_of_nat_map. rewrite <- El. rewrite <- glob_nth by (rewrite El; lia). f_equal. lia.
Qed.
Lemma roll_1d {A} (dflt : A) (l : list A) shift n : n = Z.of_nat (length l) ->
  map (fun idx => nth (Z.to_nat (nth 0 (roll_src [n] [(shift, 0%nat)] idx) 0)) l dflt) (row_major [n]) = roll_list shift l dflt.
Proof.
  intros ->. unfold roll_list. cbn [row_major]. unfold zr. rewrite Nat2Z.id. rewrite flat_map_concat_map, map_map.
  rewrite concat_map, map_map. cbn [map]. generalize (seq 0 (length l)) as s. induction s as [|p s IH]; [reflexivity|].
  cbn [map concat app]. rewrite IH. f_equal. f_equal. unfold roll_src. cbn [length seq map nth]. unfold total_shift. cbn [filter snd]. rewrite Nat.eqb_refl.
  unfold zsum. cbn [map fst fold_right]. rewrite Z.add_0_r. reflexivity.
Qed.
Theorem C33_roll_flat : forall (A : Type) (dflt : A) (x : dnd A) (G : list Z -> A) (cnts : list Z) (shift : Z),
  rep x cnts G -> (0 < length cnts)%nat ->
  exists y cnts' G', roll_flat dflt x shift = Some (Ok y) /\ d_gshape y = d_gshape x /\ d_split y = d_split x /\
    rep y cnts' G' /\
    map G' (row_major (d_gshape x)) = roll_list shift (map G (row_major (d_gshape x))) dflt.
Proof.
  intros A dflt x G cnts shift HR HP. assert (LP : length (d_locals x) = length cnts) by apply HR.
  assert (Fg : Forall (fun n => 0 <= n) (d_gshape x)) by apply HR.
  assert (LF : Z.of_nat (length (map G (row_major (d_gshape x)))) = zprod (d_gshape x)) by (rewrite map_length, row_major_length; auto).
  destruct (flatten_ok dflt x G cnts HR ltac:(lia)) as (d & E & Ld & D). unfold roll_flat. rewrite E.
  destruct (dist_1d dflt d) as (ls & -> & Ll & Q). set (fl := map G (row_major (d_gshape x))) in *.
  set (sp := match d_split x with Some _ => Some 0%nat | None => None end).
  set (F1 := fun idx : list Z => nth (Z.to_nat (nth 0 idx 0)) fl dflt).
  assert (R1 : exists c1, represents F1 [zprod (d_gshape x)] sp c1 ls /\ length c1 = length cnts).
  { unfold sp, F1. destruct (d_split x) as [s|] eqn:Es.
    - destruct D as [D1 D2]. exists (map Z.of_nat (lens d)). split; [|rewrite map_length, lens_length; lia]. fold fl in D1. rewrite <- LF, <- D1. apply dist_1d_represents; auto.
    - exists cnts. split; [|auto]. split; [lia|]. split; [repeat constructor; apply zprod_nonneg; auto|]. intros t Ht. apply In_nth_error in Ht as (r & Ht).
      destruct (Q r t Ht) as (l & Hl & AG). apply nth_error_In in Hl. rewrite (D l Hl) in AG. fold fl in AG. now rewrite LF in AG. }
  destruct R1 as (c1 & R1 & Lc1).
  destruct (C33_roll_int A dflt (mk_dnd ls [zprod (d_gshape x)] sp) F1 c1 shift 0 R1 ltac:(lia)) as (z & Ez & Egz & Esz & Rz).
  { unfold valid_axis. cbn. lia. }
  cbn [d_gshape d_split] in *. rewrite Ez. cbn [bindo]. change (norm (length [zprod (d_gshape x)]) 0) with 0%nat in Rz.
  assert (EN : np_shape (d_gshape z) (d_gshape x) = Ok (d_gshape x)) by (apply np_shape_exact; auto; rewrite Egz; cbn [zprod]; lia).
  destruct (reshape_ok dflt z _ c1 (d_gshape x) (d_gshape x) (match d_split x with Some s => AxInt (Z.of_nat s) | None => AxNone end) Rz ltac:(lia) EN)
    as (y & x' & c' & c'' & G' & EE & Eg & Es & R & _ & _ & M & _).
  { destruct (d_split x) as [s|] eqn:Es; auto. left. unfold valid_axis. unfold rep in HR. rewrite Es in HR. assert (s < length (d_gshape x))%nat by apply HR. lia. }
  { rewrite Esz. unfold sp. destruct (d_split x) as [s|] eqn:Es; auto. right. left. unfold rep in HR. rewrite Es in HR. assert (s < length (d_gshape x))%nat by apply HR.
    destruct (d_gshape x); cbn in *; [lia|congruence]. }
  rewrite EE. cbn [bind fst]. exists y, c', G'. split; [reflexivity|]. split; [auto|]. split.
  { rewrite Es, Esz. unfold out_split, sp. destruct (d_split x) as [s|] eqn:Esx; [|reflexivity]. unfold rep in HR. rewrite Esx in HR. assert (s < length (d_gshape x))%nat by apply HR.
    destruct (d_gshape x) as [|a t] eqn:Eq; [cbn in *; lia|]. f_equal. unfold norm. destruct (Z.ltb_spec (Z.of_nat s) 0); lia. }
  split; [unfold rep; now rewrite Eg|]. rewrite M, Egz. unfold F1. apply roll_1d. auto.
Qed.
Print Assumptions C33_roll_flat.

(** non-trivial case: 2 x 3 split along axis 1 into 1 + 2 columns, reshaped to 3 x (-1) *)
Definition reshape_ex : dnd Z :=
  mk_dnd [mk_arr [2; 1] (fun idx => dot idx [3; 1]); mk_arr [2; 2] (fun idx => dot idx [3; 1] + 1)] [2; 3] (Some 1%nat).
Example C36_example : exists y x', reshape 0 reshape_ex [3; -1] AxNone = Ok (y, x') /\ d_gshape y = [3; 2] /\ d_split y = Some 1%nat /\
  map flat (d_locals y) = [[0; 2; 4]; [1; 3; 5]] /\ d_split x' = Some 0%nat.
Proof. do 2 eexists. split; [vm_compute; reflexivity|]. vm_compute. auto. Qed.
Example C33_roll_flat_example : exists y, roll_flat 0 reshape_ex 2 = Some (Ok y) /\ map flat (d_locals y) = [[4; 5; 1; 2]; [0; 3]].
Proof. eexists. split; [vm_compute; reflexivity|]. vm_compute. reflexivity. Qed.
