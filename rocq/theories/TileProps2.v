(** C83: tile, concrete cases and findings. *)
From Verif Require Import Base BaseLemmas LayoutModel NdSpec TensorSpec NdLemmas OpsModel RedistModel ShapeModel ShapeProps BinModel ReshapeModel RepeatSpec RepeatModel RepeatProofs RepeatProofs2 RepeatProofs3 TileModel TileProps RepeatProps2.
Open Scope Z_scope.

(** [[1,2],[3,4],[5,6]], rows on three processes as 1, 0, 2 (RepeatProps2): the hypotheses of
    C83_tile_partial hold for reps (2, 2), and this is the result *)
Definition junk9 : nat -> nat -> list Z -> Z := fun _ _ _ => 9.
Definition tiled (m : res (dnd Z * dnd Z)) : list (list Z) := match m with Ok (y, _) => map flat (d_locals y) | Err _ => [[-1]] end.
Example tile_ex1 : rep rows_ex [1; 0; 2] (row_f 1) /\ 0 < nth 0 [1; 0; 2] 0 /\
  tiled (tile 0 rows_ex [2; 2] junk9) = [[1; 2; 1; 2; 3; 4; 3; 4]; [5; 6; 5; 6; 1; 2; 1; 2]; [3; 4; 3; 4; 5; 6; 5; 6]].
Proof. split; [exact rows_ex_rep|]. split; [cbn; lia|]. vm_compute. reflexivity. Qed.
(** fewer repetitions than dimensions: the last axes; more: new axes in front *)
Example tile_ex2 : tiled (tile 0 rows_ex [2] junk9) = [[1; 2; 1; 2]; []; [3; 4; 3; 4; 5; 6; 5; 6]].
Proof. vm_compute. reflexivity. Qed.
Example tile_ex3 : tiled (tile 0 rows_ex [2; 1; 1] junk9) = [[1; 2; 1; 2]; [3; 4; 3; 4]; [5; 6; 5; 6]].
Proof. vm_compute. reflexivity. Qed.

(** The first process holds nothing: the received data of a later repetition is copied from
    the wrong place, and elements of the result are whatever was in memory. *)
Definition late2 : dnd Z := mk_dnd [vector 0 []; vector 0 [1; 2]] [2] (Some 0%nat).
Theorem C83_empty_first_refuted : rep late2 [0; 2] (fun i => nth (Z.to_nat (nth 0 i 0)) [1; 2] 0) /\
  forall junk, exists y x', tile 0 late2 [3] junk = Ok (y, x') /\ d_gshape y = [6] /\
    map flat (d_locals y) = [[1; 2; junk 0%nat 2%nat [2]]; [2; 1; junk 1%nat 2%nat [2]]].
Proof.
  split; [exact (vector_represents 0 [[]; [1; 2]])|]. intros junk.
  exists (local_tile (tile_split 0 late2 3 junk) [1]), late2. split; [reflexivity|]. split; [reflexivity|]. vm_compute. reflexivity.
Qed.
Print Assumptions C83_empty_first_refuted.
(** More repetitions than dimensions: the argument itself is redistributed along axis 0 (by
    reshape), its split attribute changes. *)
Theorem C83_argument_refuted : forall (A : Type) (dflt : A) (x : dnd A) (reps : list Z) (s : nat) (y x' : dnd A) (junk : nat -> nat -> list Z -> A),
  d_split x = Some s -> s <> 0%nat -> (length (d_gshape x) < length reps)%nat -> tile dflt x reps junk = Ok (y, x') -> d_split x' <> d_split x.
Proof.
  intros A dflt x reps s y x' junk ES Ns L E. unfold tile in E. replace (length (d_gshape x) <? length reps)%nat with true in E by (symmetry; now apply Nat.ltb_lt).
  destruct (reshape dflt x _ _) as [[x1 x0]|] eqn:ER; cbn [bind] in E; [|discriminate].
  assert (X : x' = x0).
  { destruct (existsb _ reps); [discriminate|]. destruct (d_split x1) as [k|]; [|now injection E as _ <-]. destruct (_ || _); [now injection E as _ <-|].
    destruct (if (k =? 0)%nat then _ else _) as [x2|]; cbn [bind] in E; [|discriminate]. destruct (if (k =? 0)%nat then _ else _) as [y2|]; cbn [bind] in E; [|discriminate]. now injection E as _ <-. }
  subst x0. assert (S0 : d_split x' = Some 0%nat); [|rewrite S0, ES; congruence].
  unfold reshape in ER. rewrite ES in ER. destruct (np_shape _ _); cbn [bind] in ER; [|discriminate]. destruct (sanitize_axis _ _) as [ax|]; cbn [bind] in ER; [|discriminate].
  destruct ax; cbn [bind] in ER; try discriminate.
  all: assert (E0 : d_split (resplit_any dflt x (Some 0%nat)) = Some 0%nat) by (unfold resplit_any; rewrite ES; destruct (Nat.eqb s 0) eqn:E0; [apply Nat.eqb_eq in E0; congruence|unfold resplit_to; rewrite ES; reflexivity]).
  all: rewrite E0 in ER; destruct (1 <? length (d_locals x))%nat; cbn [bind] in ER.
  all: repeat match type of ER with
         | bind ?m _ = _ => let d := fresh in destruct m as [d|]; cbn [bind] in ER; [|discriminate ER]
         end.
  all: injection ER as _ <-; exact E0.
Qed.
Print Assumptions C83_argument_refuted.
Example argument_ex : exists y x', tile 0 (mk_dnd [mk_arr [1; 1] (row_f 1); mk_arr [1; 1] (row_f 2)] [1; 2] (Some 1%nat)) [1; 1; 1] junk9 = Ok (y, x') /\ d_split x' = Some 0%nat.
Proof. eexists _, _. split; vm_compute; reflexivity. Qed.
