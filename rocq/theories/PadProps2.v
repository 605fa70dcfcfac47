(** C62, continued: rejected calls, a concrete instance, and where the claim fails. *)
From Verif Require Import Base BaseLemmas LayoutModel TensorSpec NdSpec TensorLemmas NdLemmas OpsModel OpsProofs2 OpsProofs4 OpsProofs5 ShapeModel ShapeProps BinModel BinProofs BinProofs2 ReshapeModel ReshapeProofs RollModel FactoryModel FactoryProps MatmulProps3 PadSpec PadModel PadProofs PadProofs2 PadProofs3 PadProps.
Open Scope Z_scope.

(** ** rejected width arguments, whatever the array *)
Theorem C62_rejects : forall (A : Type) (dflt junk : A) (x : dnd A) (p : pad_arg) (c : fill_arg A),
  let n := length (d_gshape x) in
  (p = POther -> pad dflt junk x p c = Err TypeError) /\
  (forall l, p = PSeq [PL l] -> length l <> 2%nat -> pad dflt junk x p c = Err ValueError) /\
  (forall l, p = PSeq l -> (2 <= length l)%nat -> (exists z, In (PI z) l) -> (length l = 2%nat -> exists q, In (PL q) l) -> pad dflt junk x p c = Err TypeError) /\
  (forall ls, p = PSeq (map PL ls) -> (2 <= length ls)%nat -> Nat.odd (length (concat ls)) = true -> pad dflt junk x p c = Err ValueError) /\
  (forall ls, p = PSeq (map PL ls) -> (2 <= length ls)%nat -> Forall (fun l => length l = 2%nat) ls -> (n < length ls)%nat -> pad dflt junk x p c = Err ValueError).
Proof.
  intros A dflt junk x p c n. fold n. split; [intros ->; reflexivity|]. split.
  { intros l -> N. unfold pad. cbn [flat_widths]. destruct (Nat.eqb_spec (length l) 2); [contradiction|reflexivity]. }
  assert (GEN : forall l, (2 <= length l)%nat -> (length l = 2%nat -> exists q, In (PL q) l) -> flat_widths n (PSeq l) =
     if existsb is_pi l then Err TypeError else
       let pad := flat_pairs (map (fun x => match x with PL q => q | PI _ => [] end) l) in
       if odd_len pad then Err ValueError else if (n <? Nat.div2 (length pad))%nat then Err ValueError else Ok pad).
  { intros l L2 H2. destruct l as [|a [|b [|c0 l]]]; [cbn in L2; lia|cbn in L2; lia| |destruct a, b; reflexivity].
    destruct a, b; try reflexivity. destruct (H2 eq_refl) as (q & [E|[E|[]]]); discriminate. }
  assert (FL : forall ls : list (list Z), length (flat_pairs ls) = length (concat ls)).
  { induction ls; [auto|]. cbn [flat_pairs concat]. rewrite !app_length. lia. }
  assert (PLS : forall ls : list (list Z), (2 <= length ls)%nat -> flat_widths n (PSeq (map PL ls)) =
       if odd_len (flat_pairs ls) then Err ValueError else if (n <? Nat.div2 (length (flat_pairs ls)))%nat then Err ValueError else Ok (flat_pairs ls)).
  { intros ls L2. rewrite GEN; [|now rewrite map_length|]. 2:{ intros _. destruct ls as [|a ls]; [cbn in L2; lia|]. exists a. now left. }
    replace (existsb is_pi (map PL ls)) with false by (clear; induction ls; auto). rewrite map_map, map_id. reflexivity. }
  split; [|split].
  - intros l -> L2 (z & Hz) H2. unfold pad. fold n. rewrite GEN by auto. replace (existsb is_pi l) with true; [reflexivity|]. symmetry. apply existsb_exists. exists (PI z). auto.
  - intros ls -> L2 HO. unfold pad. fold n. rewrite PLS by auto. unfold odd_len. now rewrite FL, HO.
  - intros ls -> L2 HF HN. unfold pad. fold n. rewrite PLS by auto. unfold odd_len. rewrite FL.
    assert (E : length (concat ls) = (2 * length ls)%nat) by (clear - HF; induction HF; [auto|]; cbn [concat length]; rewrite app_length, IHHF, H; lia).
    rewrite E, odd_2, div2_2. replace (n <? length ls)%nat with true by (symmetry; now apply Nat.ltb_lt). reflexivity.
Qed.
Print Assumptions C62_rejects.

(** ** a concrete case that meets the hypotheses: a 5 x 2 array on three processes, split along
    axis 0, padded by (1, 2) rows and (0, 1) columns with different values *)
Definition ten (idx : list Z) : Z := 10 * nth 0 idx 0 + nth 1 idx 0.
Theorem C62_instance :
  let x := dist [5; 2] 0 [2; 2; 1] ten in
  let p := PSeq [PL [1; 2]; PL [0; 1]] in let c := CSeq [CL [-1; -2]; CL [-3; -4]] in
  rep x [2; 2; 1] ten /\ widths 2 p [(1, 2); (0, 1)] /\ fills 2 2 c [(-1, -2); (-3, -4)] /\ pad_ready [5; 2] (Some 0%nat) [2; 2; 1] p /\
  exists y, pad 0 99 x p c = Ok y /\ d_gshape y = [8; 3] /\
    map (fun i => map (fun j => padded ten [5; 2] [(1, 2); (0, 1)] [(-1, -2); (-3, -4)] 0 [i; j]) (zr 3)) (zr 8) =
      [[-1; -1; -4]; [0; 1; -4]; [10; 11; -4]; [20; 21; -4]; [30; 31; -4]; [40; 41; -4]; [-2; -2; -4]; [-2; -2; -4]] /\
    map (fun t => map (fun i => map (fun j => adat t [i; j]) (zr 3)) (zr (nth 0 (ash t) 0))) (d_locals y) =
      [[[-1; -1; -4]; [0; 1; -4]; [10; 11; -4]]; [[20; 21; -4]; [30; 31; -4]; [40; 41; -4]]; [[-2; -2; -4]; [-2; -2; -4]]].
Proof.
  cbv zeta. split; [apply dist_rep; [repeat constructor; lia|cbn; lia|repeat constructor; lia|reflexivity]|].
  split; [apply (w_each 2 [(1, 2); (0, 1)]); cbn; lia|]. split; [apply (f_each 2 2 [(-1, -2); (-3, -4)] []); cbn; try lia; discriminate|].
  split; [right; right; unfold two_ends; cbv zeta; change (Nat.min (Z.to_nat (nth 0 [5; 2] 0)%Z) (length [2; 2; 1]%Z) - 1)%nat with 2%nat; cbn [nth length]; split; [lia|]; split; [lia|]; split; [lia|]; intros r Hr; lia|].
  eexists. split; [vm_compute; reflexivity|]. split; [reflexivity|]. split; vm_compute; reflexivity.
Qed.
Print Assumptions C62_instance.

(** ** where the claim fails *)
(** one element along the split axis on two processes: rank 0 is also the rank that should pad the
    end and does not; the result has 2 elements instead of 3 *)
Theorem C62_extent_one_refuted :
  let x := dist [1] 0 [1; 0] (fun _ => 7) in
  rep x [1; 0] (fun _ => 7) /\ widths 1 (PInt 1) [(1, 1)] /\ padded_shape [1] [(1, 1)] = [3] /\
  exists y, pad 0 99 x (PInt 1) (CV 0) = Ok y /\ d_gshape y = [2].
Proof.
  cbv zeta. split; [apply dist_rep; [repeat constructor; lia|cbn; lia|repeat constructor; lia|reflexivity]|]. split; [apply (w_int 1 1)|]. split; [reflexivity|].
  eexists. split; [vm_compute; reflexivity|reflexivity].
Qed.
Print Assumptions C62_extent_one_refuted.
(** an empty array along the split axis is not padded at all *)
Theorem C62_extent_zero_refuted :
  let x := dist [0] 0 [0; 0] (fun _ => 7) in
  rep x [0; 0] (fun _ => 7) /\ padded_shape [0] [(1, 1)] = [2] /\ exists y, pad 0 99 x (PInt 1) (CV 0) = Ok y /\ d_gshape y = [0].
Proof.
  cbv zeta. split; [apply dist_rep; [repeat constructor; lia|cbn; lia|repeat constructor; lia|reflexivity]|]. split; [reflexivity|].
  eexists. split; [vm_compute; reflexivity|reflexivity].
Qed.
Print Assumptions C62_extent_zero_refuted.
(** an empty extent elsewhere: the result has the right shape but uninitialised contents, on any
    number of processes *)
Theorem C62_uninitialised_refuted : forall (A : Type) (dflt junk v : A) (G : list Z -> A),
  exists y, pad dflt junk (mk_dnd [mk_arr [0] G] [0] None) (PInt 1) (CV v) = Ok y /\ d_gshape y = [2] /\
    padded G [0] [(1, 1)] [(v, v)] dflt [0] = v /\ adat (nth 0 (d_locals y) (mk_arr [] (fun _ => v))) [0] = junk.
Proof. intros. eexists. split; [reflexivity|]. split; [reflexivity|]. split; reflexivity. Qed.
Print Assumptions C62_uninitialised_refuted.
(** unbalanced layout with an empty first process: the beginning is not padded *)
Theorem C62_unbalanced_refuted :
  let x := dist [4] 0 [0; 2; 2] (fun idx => nth 0 idx 0) in
  rep x [0; 2; 2] (fun idx => nth 0 idx 0) /\ padded_shape [4] [(1, 1)] = [6] /\
  exists y, pad 0 99 x (PInt 1) (CV (-1)) = Ok y /\ d_gshape y = [5] /\ map (fun t => map (fun i => adat t [i]) (zr (nth 0 (ash t) 0))) (d_locals y) = [[0; 1]; [2; 3]; [-1]].
Proof.
  cbv zeta. split; [apply dist_rep; [repeat constructor; lia|cbn; lia|repeat constructor; lia|reflexivity]|]. split; [reflexivity|].
  eexists. split; [vm_compute; reflexivity|]. split; vm_compute; reflexivity.
Qed.
Print Assumptions C62_unbalanced_refuted.
(** three plain numbers as fill values: accepted, and nothing is padded *)
Theorem C62_three_values_refuted : forall (A : Type) (dflt junk : A) (x : dnd A) (G : list Z -> A) (cnts : list Z) (z : Z) (u v w : A),
  rep x cnts G -> d_split x = None -> (0 < length cnts)%nat -> Forall (fun k => 1 <= k) (d_gshape x) -> z <> 0 ->
  exists y, pad dflt junk x (PInt z) (CSeq [CI u; CI v; CI w]) = Ok y /\ d_gshape y = d_gshape x /\ d_locals y = d_locals x.
Proof.
  intros A dflt junk x G cnts z u v w HR ES HP H1 Hz. unfold rep in HR. rewrite ES in HR. destruct HR as (HL & _ & HR).
  assert (E : all_ok (map (fun q => pad_rank junk (d_gshape x) None (length (d_locals x)) (times (length (d_gshape x)) [z; z]) (CSeq [CI u; CI v; CI w]) [] (fst q) (snd q))
                (combine (seq 0 (length (d_locals x))) (d_locals x))) = Ok (d_locals x)).
  { assert (EM : map snd (combine (seq 0 (length (d_locals x))) (d_locals x)) = d_locals x).
    { generalize 0%nat. generalize (d_locals x). clear. induction l as [|t l IH]; intros k; [reflexivity|]. cbn [length seq combine map snd]. now rewrite IH. }
    transitivity (Ok (map snd (combine (seq 0 (length (d_locals x))) (d_locals x)))); [|now rewrite EM]. apply all_ok_map. intros [r t] Hrt. cbn [fst snd]. unfold pad_rank. apply in_combine_r in Hrt. destruct (HR t Hrt) as [-> _]. now rewrite no_zero. }
  exists (mk_dnd (d_locals x) (d_gshape x) None).
  assert (EH : ash (hd (mk_arr [] (fun _ => junk)) (d_locals x)) = d_gshape x).
  { destruct (d_locals x) as [|t l] eqn:EL; [cbn in HL; lia|]. cbn [hd]. apply (HR t). now left. }
  split; [|auto]. unfold pad. rewrite ES. replace (flat_widths (length (d_gshape x)) (PInt z)) with (Ok (times (length (d_gshape x)) [z; z])) by reflexivity. cbn [bind flat_values].
  rewrite E. cbn [bind]. rewrite EH. destruct z; [contradiction|reflexivity|reflexivity].
Qed.
Print Assumptions C62_three_values_refuted.
(** fewer pairs of fill values than padded axes: the axes are matched from the last one, the first
    ones are silently not padded *)
Theorem C62_fewer_pairs_refuted : forall (A : Type) (dflt junk : A) (G : list Z -> A) (u v w z : A),
  exists y, pad dflt junk (mk_dnd [mk_arr [2; 2; 2] G] [2; 2; 2] None) (PInt 1) (CSeq [CL [u; v]; CL [w; z]]) = Ok y /\ d_gshape y = [2; 4; 4].
Proof. intros. eexists. split; [reflexivity|reflexivity]. Qed.
Print Assumptions C62_fewer_pairs_refuted.
