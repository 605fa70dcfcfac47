(** C85: vmap(func) is func on every slice along the split axes. *)
From Verif Require Import Base ShapeSpec BaseLemmas LayoutModel NdSpec TensorSpec TensorLemmas OpsModel RedistModel ShapeModel ShapeProps BinModel FactoryModel VmapSpec VmapModel VmapProofs.
Open Scope Z_scope.

(** For all functions, numbers of arguments and outputs, split axes and layouts: if the split
    arguments have the same layout [c], the k-th output is split along out_dims[k] and its i-th
    slice there is the k-th output of func on the i-th slices of the split arguments and the
    whole of the others. *)
Theorem C85_vmap : forall (A B : Type) (da : A) (dflt : B) (f : list (arr A) -> list (arr B)) (shapes : list (list Z) -> list (list Z))
    (P : nat) (c : list Z) (ps : list (dnd A * (list Z -> A))) (out_dims : list nat),
  vectorisable f shapes -> (0 < P)%nat -> length c = P ->
  (forall x G, In (x, G) ps -> length (d_locals x) = P /\ exists cn, rep x cn G /\ (forall s, d_split x = Some s -> cn = c)) ->
  (exists x G s, In (x, G) ps /\ d_split x = Some s) ->
  let slices i := map (fun p => slice_of (d_gshape (fst p)) (snd p) (d_split (fst p)) i) ps in
  let osh := shapes (map ash (slices 0)) in
  length out_dims = length osh ->
  (forall k, (k < length out_dims)%nat -> (nth k out_dims 0 <= length (nth k osh []))%nat /\ Forall (fun n => 0 <= n) (nth k osh [])) ->
  exists zs, vmap da dflt P f out_dims (map fst ps) = Ok zs /\ length zs = length out_dims /\
    forall k z, nth_error zs k = Some z ->
      let d := nth k out_dims 0%nat in
      d_gshape z = ins d (zsum c) (nth k osh []) /\ d_split z = Some d /\
      rep z c (fun idx => adat (nth k (f (slices (nth d idx 0))) (mk_arr [] (fun _ => dflt))) (del d idx)).
Proof.
  intros A B da dflt f shapes P c ps ds HF HP HC HA HS slices0 osh HD HDk. apply (vmap_ok da dflt f shapes HF P c ps ds HP HC); auto.
  - intros [x G] Hp. cbn [fst snd]. apply HA. auto.
  - destruct HS as (x & G & s & Hp & Sp). exists (x, G), s. auto.
Qed.
Print Assumptions C85_vmap.

(** only replicated arguments: ValueError *)
Theorem C85_nothing_split_raises : forall (A B : Type) (da : A) (dflt : B) (f : list (arr A) -> list (arr B)) (P : nat) (ds : list nat) (xs : list (dnd A)),
  (0 < P)%nat -> (forall x, In x xs -> d_split x = None) -> vmap da dflt P f ds xs = Err ValueError.
Proof.
  intros A B da dflt f P ds xs HP H. unfold vmap. destruct P as [|P]; [lia|]. cbn [seq map OpsModel.all_ok].
  assert (E : forall ts, torch_vmap dflt f ds (map d_split xs) ts = Err ValueError).
  { intros ts. unfold torch_vmap. replace (flat_map _ _) with (@nil Z); [reflexivity|]. clear HP. revert ts. induction xs as [|x xs IH]; intros [|t ts]; try reflexivity.
    cbn [map combine flat_map fst]. rewrite (H x (or_introl eq_refl)). cbn [app]. apply IH. intros y Hy. apply H. now right. }
  rewrite E. reflexivity.
Qed.
Print Assumptions C85_nothing_split_raises.

(** two split arguments that hold different numbers of slices on some process: an exception there *)
Theorem C85_misaligned_raises : forall (A B : Type) (da : A) (dflt : B) (f : list (arr A) -> list (arr B)) (P : nat) (ds : list nat) (xs : list (dnd A)) x y s t r,
  In x xs -> In y xs -> d_split x = Some s -> d_split y = Some t -> (r < P)%nat ->
  nth s (ash (nth r (d_locals x) (mk_arr [] (fun _ => da)))) 0 <> nth t (ash (nth r (d_locals y) (mk_arr [] (fun _ => da)))) 0 ->
  exists e, vmap da dflt P f ds xs = Err e.
Proof.
  intros A B da dflt f P ds xs x y s t r Hx Hy Sx Sy Hr Hne. unfold vmap.
  set (loc := fun r => map (fun x => nth r (d_locals x) (mk_arr [] (fun _ => da))) xs).
  assert (E : torch_vmap dflt f ds (map d_split xs) (loc r) = Err ValueError).
  { unfold torch_vmap, loc. rewrite combine_map.
    set (g := fun p : option nat * arr A => match fst p with Some s => [nth s (ash (snd p)) 0] | None => [] end).
    set (pairs := map _ xs).
    assert (Ix : In (nth s (ash (nth r (d_locals x) (mk_arr [] (fun _ => da)))) 0) (flat_map g pairs)).
    { apply in_flat_map. eexists. split; [apply in_map; exact Hx|]. unfold g. cbn [fst snd]. rewrite Sx. left. reflexivity. }
    assert (Iy : In (nth t (ash (nth r (d_locals y) (mk_arr [] (fun _ => da)))) 0) (flat_map g pairs)).
    { apply in_flat_map. eexists. split; [apply in_map; exact Hy|]. unfold g. cbn [fst snd]. rewrite Sy. left. reflexivity. }
    destruct (flat_map g pairs) as [|n rest] eqn:EF; [contradiction|].
    replace (existsb (fun m => negb (m =? n)) rest) with true; [reflexivity|]. symmetry. apply existsb_exists.
    destruct Ix as [Ex|Ix]; destruct Iy as [Ey|Iy]; [congruence| | |].
    - eexists. split; [exact Iy|]. apply negb_true_iff, Z.eqb_neq. congruence.
    - eexists. split; [exact Ix|]. apply negb_true_iff, Z.eqb_neq. congruence.
    - destruct (Z.eq_dec (nth s (ash (nth r (d_locals x) (mk_arr [] (fun _ => da)))) 0) n) as [Ex|Nx].
      + eexists. split; [exact Iy|]. apply negb_true_iff, Z.eqb_neq. congruence.
      + eexists. split; [exact Ix|]. apply negb_true_iff, Z.eqb_neq. congruence. }
  assert (K : forall l, In r l -> exists e, OpsModel.all_ok (map (fun r => torch_vmap dflt f ds (map d_split xs) (loc r)) l) = Err e).
  { induction l as [|q l IH]; intros Hl; [contradiction|]. cbn [map OpsModel.all_ok]. destruct Hl as [->|Hl]; [rewrite E; cbn [bind]; eauto|].
    destruct (torch_vmap dflt f ds (map d_split xs) (loc q)); cbn [bind]; eauto. destruct (IH Hl) as [e ->]. cbn [bind]. eauto. }
  destruct (K (seq 0 P)) as [e He]; [apply in_seq; lia|]. unfold loc in He. rewrite He. cbn [bind]. eauto.
Qed.
Print Assumptions C85_misaligned_raises.

(** the hypotheses are met: rows of an unbalanced matrix (2,0,1 rows on three processes) and a
    replicated vector, func = (row + vector, row[0]), outputs stacked along axes 1 and 0 *)
Definition mat_piece (c o : Z) : arr Z := mk_arr [c; 2] (fun i => 10 * (nth 0 i 0 + o) + nth 1 i 0).
Definition mat_rows : dnd Z := mk_dnd [mat_piece 2 0; mat_piece 0 2; mat_piece 1 2] [3; 2] (Some 0%nat).
Definition rep_vec : dnd Z := mk_dnd (repeat (mk_arr [2] (fun i => 100 * nth 0 i 0)) 3) [2] None.
Definition row_f (l : list (arr Z)) : list (arr Z) :=
  match l with
  | [a; b] => [mk_arr (ash a) (fun i => adat a i + if list_eq_dec Z.eq_dec (ash a) (ash b) then adat b i else 0); mk_arr [] (fun _ => if in_dec (list_eq_dec Z.eq_dec) [0] (row_major (ash a)) then adat a [0] else 0)]
  | _ => []
  end.
Definition row_shapes (l : list (list Z)) : list (list Z) := match l with [a; b] => [a; []] | _ => [] end.
Example C85_instance :
  rep mat_rows [2; 0; 1] (fun i => 10 * nth 0 i 0 + nth 1 i 0) /\ rep rep_vec [2; 2; 2] (fun i => 100 * nth 0 i 0) /\
  match vmap 0 0 3 row_f [1%nat; 0%nat] [mat_rows; rep_vec] with
  | Ok [a; b] => map flat (d_locals a) = [[0; 10; 101; 111]; []; [20; 121]] /\ map flat (d_locals b) = [[0; 10]; []; [20]] /\ d_gshape a = [2; 3] /\ d_gshape b = [3]
  | _ => False
  end.
Proof.
  split; [|split; [|vm_compute; repeat split; reflexivity]].
  - split; [reflexivity|]. split; [repeat constructor; lia|]. split; [simpl; lia|]. split; [repeat constructor; lia|]. split; [reflexivity|].
    intros [|[|[|r]]] t Ht; cbn in Ht; try (injection Ht as <-); try (destruct r; discriminate Ht); (split; [reflexivity|]); intros idx Hi;
    inversion Hi as [|? k ? l H1 H2]; subst; inversion H2 as [|? k' ? l' H3 H4]; subst; unfold mat_piece, move_axis_idx; cbn [adat upd nth firstn]; change (zsum []) with 0; change (zsum [2]) with 2; change (zsum [2; 0]) with 2; lia.
  - split; [reflexivity|]. split; [repeat constructor; lia|]. intros t Ht. apply repeat_spec in Ht as ->. split; [reflexivity|]. reflexivity.
Qed.
(** ... and that function can be vectorised *)
Example C85_vectorisable : vectorisable row_f row_shapes.
Proof.
  split; [intros [|a [|b [|]]]; reflexivity|]. intros l l' H.
  inversion H as [|a a' m m' H1 H2]; subst; [constructor|]. inversion H2 as [|b b' n n' H3 H4]; subst; [constructor|]. inversion H4; subst; [|constructor].
  destruct H1 as [Ea Da]. destruct H3 as [Eb Db]. cbn [row_f]. constructor; [|constructor; [|constructor]].
  - split; [exact Ea|]. intros idx Hi. cbn [ash adat] in *. rewrite Da by auto. rewrite <- Ea, <- Eb. destruct (list_eq_dec Z.eq_dec (ash a) (ash b)) as [E|]; [|reflexivity]. rewrite Db; [reflexivity|]. now rewrite <- E.
  - split; [reflexivity|]. intros idx _. cbn [adat]. rewrite <- Ea. destruct (in_dec _ _ _) as [I|]; [|reflexivity]. apply Da. now apply in_row_major.
Qed.
