(** C73: element-wise functions act on every element of the global array. *)
From Verif Require Import Base ShapeSpec BaseLemmas NdSpec TensorSpec TensorLemmas NdLemmas OpsModel OpsProofs2 OpsProofs3 OpsProofs4 OpsProofs5 ShapeModel BinSpec BinModel BinProofs LocalModel LocalProofs.
Open Scope Z_scope.

(** Without out=: same global shape, same split, same layout; element i is f of element i. *)
Theorem C73_elementwise : forall (A B : Type) (f : A -> B) G gsh split cnts ls,
  represents G gsh split cnts ls ->
  exists y, local_op f (mk_dnd ls gsh split) None = Ok y /\ d_gshape y = gsh /\ d_split y = split /\
    represents (fun i => f (G i)) gsh split cnts (d_locals y).
Proof.
  intros A B f G gsh split cnts ls R. eexists. split; [reflexivity|]. cbn. split; [auto|]. split; [auto|].
  now apply map_arr_represents.
Qed.
Print Assumptions C73_elementwise.

(** With out= of the same shape, split and layout: out is filled with the same result. *)
Theorem C73_out_same_layout : forall (A B : Type) (f : A -> B) G H gsh split cnts ls os,
  represents G gsh split cnts ls -> represents H gsh split cnts os ->
  exists y, local_op f (mk_dnd ls gsh split) (Some (mk_dnd os gsh split)) = Ok y /\ d_gshape y = gsh /\ d_split y = split /\
    represents (fun i => f (G i)) gsh split cnts (d_locals y).
Proof.
  intros A B f G H gsh split cnts ls os R R2. unfold local_op. cbn [d_locals d_gshape d_split].
  assert (N : forall r t u, nth_error ls r = Some t -> nth_error os r = Some u -> ash u = ash t /\ Forall (fun n => 0 <= n) (ash t)).
  { destruct R as (L & Nn & R), R2 as (L2 & _ & R2). intros r t u Et Eu. destruct split as [a|].
    - destruct R as (Ha & Hc & _ & R), R2 as (_ & _ & _ & R2).
      destruct (R _ _ Et) as [E1 _], (R2 _ _ Eu) as [E2 _]. rewrite E1, E2. split; [auto|].
      apply Forall_forall. intros n Hin. apply In_nth with (d := 0) in Hin as (k & Hk & <-). rewrite upd_length in Hk.
      destruct (Nat.eq_dec k a) as [->|Hn]; [rewrite upd_same by auto|rewrite upd_other by auto].
      + assert (Hr : (r < length cnts)%nat) by (rewrite <- L; apply nth_error_Some; congruence).
        rewrite Forall_forall in Hc. apply Hc, nth_In; auto.
      + rewrite Forall_forall in Nn. apply Nn, nth_In; auto.
    - apply nth_error_In in Et, Eu. destruct (R _ Et) as [E1 _], (R2 _ Eu) as [E2 _]. rewrite E1, E2. auto. }
  assert (L : length ls = length os) by (destruct R as (L & _), R2 as (L2 & _); congruence).
  assert (E : all_ok (zip_with (fun t u => write_out f t (ash u)) ls os) = Ok (map (map_arr f) ls)).
  { clear R R2. revert os L N. induction ls as [|t ls IH]; intros [|u os] L N; cbn in L; try discriminate; [reflexivity|].
    cbn. destruct (N 0%nat t u eq_refl eq_refl) as [E1 E2]. rewrite E1, write_out_same by auto. cbn.
    rewrite IH; [reflexivity|lia|]. intros r. apply (N (S r)). }
  rewrite E. cbn. eexists. split; [reflexivity|]. cbn. split; [auto|]. split; [auto|]. now apply map_arr_represents.
Qed.
Print Assumptions C73_out_same_layout.

(** With out= of a larger shape and a replicated operand: the operand is broadcast into out,
    whatever out's split, provided the operand is stretched along it (extent 1 or absent), no
    process holds an empty piece and, if out has more dimensions, something is repeated on
    every process. *)
Theorem C73_out_broadcast : forall (A B : Type) (f : A -> B) G H gsh osh osplit cnts ls os,
  represents G gsh None cnts ls -> represents H osh osplit cnts os ->
  bcast_shape gsh osh osh -> Forall (fun n => 0 < n) osh ->
  (forall a, osplit = Some a -> nth a (padded (length osh) gsh) 0 = 1 /\ Forall (fun c => 0 < c) cnts) ->
  (length gsh = length osh \/
   forall r, (r < length cnts)%nat ->
     zprod gsh <> zprod (match osplit with None => osh | Some a => upd osh a (nth r cnts 0) end)) ->
  exists y, local_op f (mk_dnd ls gsh None) (Some (mk_dnd os osh osplit)) = Ok y /\ d_gshape y = osh /\ d_split y = osplit /\
    represents (fun i => f (G (bcast_idx gsh i))) osh osplit cnts (d_locals y).
Proof.
  intros A B f G H gsh osh osplit cnts ls os R R2 BS PO HS HD. unfold local_op. cbn [d_locals d_gshape d_split].
  destruct R as (L & Ng & R), R2 as (L2 & No & R2). destruct BS as (BL & BD).
  assert (Hlen : (length gsh <= length osh)%nat) by lia.
  assert (PL : length (padded (length osh) gsh) = length osh) by (now apply padded_length).
  assert (PLo : padded (length osh) osh = osh) by (unfold padded; now rewrite Nat.sub_diag).
  rewrite PLo in BD.
  set (lsh := fun r => match osplit with None => osh | Some a => upd osh a (nth r cnts 0) end).
  assert (Ll : forall r, length (lsh r) = length osh) by (intros r; unfold lsh; destruct osplit; auto using upd_length).
  assert (SP : forall r, (r < length cnts)%nat -> Forall2 stretches (padded (length (lsh r)) gsh) (lsh r)).
  { intros r Hr. rewrite Ll. apply (Forall2_nth_intro _ 1 1); [now rewrite Ll|].
    intros k Hk. rewrite PL in Hk. specialize (BD k Hk).
    assert (PK : 0 < nth k osh 1) by (rewrite Forall_forall in PO; apply PO, nth_In; auto).
    unfold lsh. destruct osplit as [a|]; [|unfold stretches, bcast_dim in *; lia].
    destruct (HS a eq_refl) as [H1 Hc]. destruct (Nat.eq_dec k a) as [->|Hn].
    - rewrite upd_same by auto. rewrite (nth_indep _ 1 0) by lia. rewrite H1. split; [|auto].
      rewrite Forall_forall in Hc. apply Hc, nth_In; auto.
    - rewrite upd_other by auto. unfold stretches, bcast_dim in *; lia. }
  destruct (all_ok_zip (fun t u => write_out f t (ash u))
     (fun r z => agrees z (lsh r) (fun i => f (G (bcast_idx gsh i)))) ls os 0 ltac:(lia)) as (zs & E & Lz & Hz).
  { intros r t u Et Eu. cbn [Nat.add].
    assert (Hr : (r < length cnts)%nat) by (rewrite <- L; apply nth_error_Some; congruence).
    assert (Eu' : ash u = lsh r).
    { unfold lsh. destruct osplit as [a|]; [destruct R2 as (_ & _ & _ & R2); now apply R2|].
      apply nth_error_In in Eu. now apply R2. }
    pose proof (nth_error_In _ _ Et) as Hin. destruct (R _ Hin) as [Et1 Et2].
    destruct (write_out_spec f t (lsh r)) as (z & Ez & Az).
    - rewrite Et1, Ll. exact Hlen.
    - rewrite Et1. now apply SP.
    - rewrite Et1, Ll. destruct HD as [HD|HD]; [left; auto|right]. now apply HD.
    - exists z. rewrite Eu'. split; [exact Ez|]. destruct Az as [A1 A2]. split; [exact A1|]. intros i Hi.
      rewrite (A2 i Hi), Et1. f_equal. apply Et2.
      (* bcast_idx stays in bounds *)
      specialize (SP r Hr). unfold bcast_idx. rewrite (in_bounds_length _ _ Hi), Ll.
      pose proof (skipn_padded (length osh) gsh Hlen) as SK. rewrite Ll in SP. rewrite <- SK at 1 2.
      rewrite <- clamp_skipn.
      assert (IB : forall p o, Forall2 stretches p o -> forall j, in_bounds o j -> in_bounds p (clamp p j)).
      { clear. induction 1 as [|p o ps os [H1 H2] F IH]; intros [|k j] Hb; inversion Hb; subst; cbn; constructor; [|now apply IH].
        destruct (Z.eqb_spec p 1); lia. }
      specialize (IB _ _ SP i Hi). revert IB. generalize (clamp (padded (length osh) gsh) i). generalize (padded (length osh) gsh).
      generalize (length osh - length gsh)%nat. clear. intros n. induction n as [|n IH]; intros sh j Hb; [exact Hb|].
      destruct Hb; cbn; [constructor|]. now apply IH. }
  rewrite E. cbn. eexists. split; [reflexivity|]. cbn. split; [auto|]. split; [auto|].
  split; [lia|]. split; [auto|]. destruct osplit as [a|].
  - destruct R2 as (Ha & Hc & Hsum & _). split; [auto|]. split; [auto|]. split; [auto|]. intros r z Ez.
    assert (Hr : (r < length cnts)%nat) by (rewrite <- L, <- Lz; apply nth_error_Some; congruence).
    destruct (Hz r z Ez) as [A1 A2]. split; [exact A1|]. intros i Hi. rewrite (A2 i Hi). f_equal. f_equal.
    destruct (HS a eq_refl) as [H1 _]. clear - H1 Hlen Ha PL Hi.
    (* moving along a stretched axis does not change the operand's index *)
    unfold bcast_idx, move_axis_idx. rewrite upd_length. apply in_bounds_length in Hi. rewrite upd_length in Hi. rewrite Hi.
    pose proof (skipn_padded (length osh) gsh Hlen) as SK. rewrite <- SK at 1 3. rewrite <- !clamp_skipn. f_equal.
    generalize (nth a i 0 + zsum (firstn r cnts)). intros v. revert H1. generalize (padded (length osh) gsh). clear.
    intros p. revert i a. induction p as [|x p IH]; intros [|k i] [|a] H; cbn in *; auto; try discriminate.
    + now subst x.
    + f_equal. now apply IH.
  - intros z Hin. apply In_nth_error in Hin as (r & Er). now apply (Hz r).
Qed.
Print Assumptions C73_out_broadcast.

(** concrete arrays: [1; 2; 3] on three processes (one of them empty), [5; 7] everywhere *)
Definition c73_G (i : list Z) : Z := nth 0 i 0 + 1.
Definition c73_x : list (arr Z) := [mk_arr [2] c73_G; mk_arr [0] (fun _ => 0); mk_arr [1] (fun i => nth 0 i 0 + 3)].
Lemma c73_x_ok : represents c73_G [3] (Some 0%nat) [2; 0; 1] c73_x.
Proof.
  split; [reflexivity|]. split; [repeat constructor; lia|]. split; [cbn; lia|]. split; [repeat constructor; lia|]. split; [reflexivity|].
  intros [|[|[|r]]] t E; cbn in E; try (injection E as <-); try (now destruct r); (split; [reflexivity|]).
  - intros idx Hi. inversion Hi as [|? k ? l ? H2]; subst. inversion H2; subst. cbn. unfold c73_G, move_axis_idx. cbn. lia.
  - intros idx Hi. inversion Hi as [|? k ? l ? H2]; subst. cbn in *. lia.
  - intros idx Hi. inversion Hi as [|? k ? l ? H2]; subst. inversion H2; subst. cbn. unfold c73_G, move_axis_idx. cbn. lia.
Qed.
Example C73_elementwise_instance : exists y, local_op (fun v => v * v) (mk_dnd c73_x [3] (Some 0%nat)) None = Ok y /\
  map (fun t => map (adat t) (row_major (ash t))) (d_locals y) = [[1; 4]; []; [9]].
Proof. eexists. split; reflexivity. Qed.
Example C73_elementwise_hypothesis : represents c73_G [3] (Some 0%nat) [2; 0; 1] c73_x.
Proof. exact c73_x_ok. Qed.
(** [5; 7] of shape (2,) into an out of shape (3, 2) split along axis 0 *)
Definition c73_o : list (arr Z) := [mk_arr [2; 2] (fun _ => 0); mk_arr [1; 2] (fun _ => 0)].
Definition c73_v : list (arr Z) := let t := mk_arr [2] (fun i => 5 + 2 * nth 0 i 0) in [t; t].
Example C73_out_broadcast_hypotheses :
  represents (fun i => 5 + 2 * nth 0 i 0) [2] None [2; 1] c73_v /\ represents (fun _ => 0) [3; 2] (Some 0%nat) [2; 1] c73_o /\
  bcast_shape [2] [3; 2] [3; 2] /\ nth 0 (padded 2 [2]) 0 = 1 /\
  zprod [2] <> zprod (upd [3; 2] 0 2).
Proof.
  split; [|split; [|split; [|split; [reflexivity|cbn; lia]]]].
  - split; [reflexivity|]. split; [repeat constructor; lia|]. intros t [<-|[<-|[]]]; split; reflexivity.
  - split; [reflexivity|]. split; [repeat constructor; lia|]. split; [cbn; lia|]. split; [repeat constructor; lia|]. split; [reflexivity|].
    intros [|[|r]] t E; cbn in E; try (injection E as <-); try (now destruct r); split; reflexivity.
  - split; [reflexivity|]. intros [|[|i]] Hi; cbn in *; unfold bcast_dim; lia.
Qed.
Example C73_out_broadcast_instance : exists y, local_op (fun v => v + 1) (mk_dnd c73_v [2] None) (Some (mk_dnd c73_o [3; 2] (Some 0%nat))) = Ok y /\
  map (fun t => map (adat t) (row_major (ash t))) (d_locals y) = [[6; 8; 6; 8]; [6; 8]].
Proof. eexists. split; reflexivity. Qed.

(** The layout of out is not compared with that of the operand.  Same global shape, other
    split: the local piece is repeated until it fills out, and the result is silently wrong. *)
Theorem C73_out_other_split_refuted :
  exists (f : Z -> Z) G H gsh cnts ls os y,
    represents G gsh (Some 0%nat) cnts ls /\ represents H gsh None cnts os /\
    local_op f (mk_dnd ls gsh (Some 0%nat)) (Some (mk_dnd os gsh None)) = Ok y /\ d_split y = None /\
    forall cnts', ~ represents (fun i => f (G i)) gsh None cnts' (d_locals y).
Proof.
  exists (fun v => v), c73_G, (fun _ => 0), [2], [1; 1], [mk_arr [1] c73_G; mk_arr [1] (fun _ => 2)],
    [mk_arr [2] (fun _ => 0); mk_arr [2] (fun _ => 0)].
  eexists. split; [|split; [|split; [reflexivity|split; [reflexivity|]]]].
  - split; [reflexivity|]. split; [repeat constructor; lia|]. split; [cbn; lia|]. split; [repeat constructor; lia|]. split; [reflexivity|].
    intros [|[|r]] t E; cbn in E; try (injection E as <-); try (now destruct r); (split; [reflexivity|]);
    intros idx Hi; inversion Hi as [|? k ? l ? H2]; subst; inversion H2; subst; cbn; unfold c73_G, move_axis_idx; cbn; lia.
  - split; [reflexivity|]. split; [repeat constructor; lia|]. intros t [<-|[<-|[]]]; split; reflexivity.
  - intros cnts' (_ & _ & R). cbn [d_locals] in R. specialize (R _ (or_introl eq_refl)).
    destruct R as [_ R]. specialize (R [1]). assert (B : in_bounds [2] [1]) by (repeat constructor; lia).
    specialize (R B). cbn in R. discriminate R.
Qed.
Print Assumptions C73_out_other_split_refuted.
(** An out that is smaller, or that differs only by leading dimensions of extent 1, is
    resized under its metadata: the returned array represents nothing. *)
Theorem C73_out_smaller_refuted :
  exists (f : Z -> Z) G H gsh osh cnts ls os y,
    represents G gsh None cnts ls /\ represents H osh None cnts os /\
    local_op f (mk_dnd ls gsh None) (Some (mk_dnd os osh None)) = Ok y /\
    forall K cnts', ~ represents K (d_gshape y) (d_split y) cnts' (d_locals y).
Proof.
  exists (fun v => v), c73_G, (fun _ => 0), [3], [1], [1], [mk_arr [3] c73_G], [mk_arr [1] (fun _ => 0)].
  eexists. split; [|split; [|split; [reflexivity|]]].
  - split; [reflexivity|]. split; [repeat constructor; lia|]. intros t [<-|[]]; split; reflexivity.
  - split; [reflexivity|]. split; [repeat constructor; lia|]. intros t [<-|[]]; split; reflexivity.
  - intros K cnts' (_ & _ & R). specialize (R _ (or_introl eq_refl)). destruct R as [R _]. discriminate R.
Qed.
Print Assumptions C73_out_smaller_refuted.
Theorem C73_out_extra_dimension_refuted :
  exists (f : Z -> Z) G H gsh osh cnts ls os y,
    represents G gsh None cnts ls /\ represents H osh None cnts os /\ bcast_shape gsh osh osh /\
    local_op f (mk_dnd ls gsh None) (Some (mk_dnd os osh None)) = Ok y /\
    forall K cnts', ~ represents K (d_gshape y) (d_split y) cnts' (d_locals y).
Proof.
  exists (fun v => v), c73_G, (fun _ => 0), [3], [1; 3], [1], [mk_arr [3] c73_G], [mk_arr [1; 3] (fun _ => 0)].
  eexists. split; [|split; [|split; [|split; [reflexivity|]]]].
  - split; [reflexivity|]. split; [repeat constructor; lia|]. intros t [<-|[]]; split; reflexivity.
  - split; [reflexivity|]. split; [repeat constructor; lia|]. intros t [<-|[]]; split; reflexivity.
  - split; [reflexivity|]. intros [|[|i]] Hi; cbn in *; unfold bcast_dim; lia.
  - intros K cnts' (_ & _ & R). specialize (R _ (or_introl eq_refl)). destruct R as [R _]. discriminate R.
Qed.
Print Assumptions C73_out_extra_dimension_refuted.
