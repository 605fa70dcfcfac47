(** Proofs about split bookkeeping of shape operations. *)
From Verif Require Import Base ShapeSpec BaseLemmas LayoutModel NdSpec TensorSpec TensorLemmas NdLemmas OpsModel OpsProofs2 OpsProofs4 OpsProofs5 ShapeModel.
From Coq Require Import Permutation.
Open Scope Z_scope.

Lemma find_idx_some {A} (f : A -> bool) l p : find_idx f l = Some p ->
  exists x, nth_error l p = Some x /\ f x = true.
Proof.
  revert p; induction l as [|x l IH]; intros p H; simpl in H; [discriminate|].
  destruct (f x) eqn:E.
  - injection H as <-. exists x. auto.
  - destruct (find_idx f l) as [q|]; [|discriminate]. injection H as <-. now apply IH.
Qed.
Lemma find_idx_none {A} (f : A -> bool) l : find_idx f l = None <-> forall x, In x l -> f x = false.
Proof.
  induction l as [|x l IH]; simpl; split; intros H; auto.
  - intros y [].
  - destruct (f x) eqn:E; [discriminate|]. destruct (find_idx f l) as [q|]; [discriminate|].
    intros y [<-|Hy]; auto. now apply IH.
  - rewrite (H x) by auto. rewrite (proj2 IH); auto.
Qed.
Lemma find_idx_uniq {A} (f : A -> bool) l p x : nth_error l p = Some x -> f x = true ->
  (forall q y, nth_error l q = Some y -> f y = true -> q = p) -> find_idx f l = Some p.
Proof.
  intros Hp Hf Hu. destruct (find_idx f l) as [q|] eqn:E.
  - apply find_idx_some in E as (y & Hy & Fy). now rewrite (Hu q y).
  - exfalso. assert (H := proj1 (find_idx_none f l) E). rewrite (H x) in Hf; [discriminate|]. now apply nth_error_In with p.
Qed.
Lemma NoDup_nth_error_eq {A} (l : list A) p q x : NoDup l -> nth_error l p = Some x -> nth_error l q = Some x -> p = q.
Proof.
  intros ND Hp Hq. apply (proj1 (NoDup_nth_error l)); auto; [apply nth_error_Some; congruence|congruence].
Qed.
Lemma find_idx_nat axes p j : NoDup axes -> nth_error axes p = Some j -> find_idx (Nat.eqb j) axes = Some p.
Proof.
  intros ND H. apply (find_idx_uniq _ _ _ j); auto; [apply Nat.eqb_refl|].
  intros q y Hq E. apply Nat.eqb_eq in E. subst y. now apply (NoDup_nth_error_eq axes q p j).
Qed.

(** * permutations of axes *)

Lemma is_perm_spec n axes : is_perm n axes = true <-> perm_axes n axes.
Proof.
  unfold is_perm, perm_axes. rewrite andb_true_iff, Nat.eqb_eq, forallb_forall. split.
  - intros [L H].
    assert (I : incl (seq 0 n) axes) by (intros k Hk; apply mem_nat_in, H; auto).
    assert (ND : NoDup axes).
    { apply (@NoDup_incl_NoDup _ (seq 0 n)); [apply seq_NoDup|rewrite seq_length; lia|auto]. }
    split; [auto|split; [auto|]]. intros k. split.
    + intros Hk. assert (I' : incl axes (seq 0 n)).
      { apply NoDup_length_incl; auto; [apply seq_NoDup|rewrite seq_length; lia]. }
      apply I', in_seq in Hk. lia.
    + intros Hk. apply I, in_seq. lia.
  - intros (L & ND & H). split; auto. intros k Hk. apply mem_nat_in, H. apply in_seq in Hk. lia.
Qed.

Section Perm.
Variables (n : nat) (axes : list nat).
Hypothesis HP : perm_axes n axes.
Let Lax : length axes = n := proj1 HP.
Let ND : NoDup axes := proj1 (proj2 HP).
Let Hin : forall k, In k axes <-> (k < n)%nat := proj2 (proj2 HP).
Definition pidx (idx : list Z) : list Z := map (fun a => nth a idx 0) axes.

Lemma axes_pos j : (j < n)%nat -> exists p, (p < n)%nat /\ nth_error axes p = Some j /\ find_idx (Nat.eqb j) axes = Some p.
Proof.
  intros Hj. apply Hin, In_nth_error in Hj as (p & Hp). exists p. split; [|split; auto].
  - rewrite <- Lax. apply nth_error_Some. congruence.
  - now apply find_idx_nat.
Qed.
Lemma inv_length idx' : length (inv_idx axes idx') = n.
Proof. unfold inv_idx. now rewrite map_length, seq_length. Qed.
Lemma inv_nth idx' j p : (j < n)%nat -> nth_error axes p = Some j -> nth j (inv_idx axes idx') 0 = nth p idx' 0.
Proof.
  intros Hj Hp. unfold inv_idx. rewrite nth_map_seq by lia. now rewrite (find_idx_nat axes p j).
Qed.
Lemma pidx_nth idx p j : nth_error axes p = Some j -> nth p (pidx idx) 0 = nth j idx 0.
Proof.
  intros Hp. unfold pidx. apply nth_error_nth with (d := 0). rewrite nth_error_map, Hp. reflexivity.
Qed.
Lemma inv_pidx idx : length idx = n -> inv_idx axes (pidx idx) = idx.
Proof.
  intros L. apply (@nth_ext2 _ _ _ 0); [now rewrite inv_length|].
  intros j Hj. rewrite inv_length in Hj. destruct (axes_pos j Hj) as (p & _ & Hp & _).
  rewrite (inv_nth _ j p) by auto. now apply pidx_nth.
Qed.
Lemma pidx_inv idx' : length idx' = n -> pidx (inv_idx axes idx') = idx'.
Proof.
  intros L. unfold pidx. apply (@nth_ext2 _ _ _ 0); [now rewrite map_length, Lax|].
  intros p Hp. rewrite map_length, Lax in Hp.
  destruct (nth_error axes p) as [j|] eqn:E; [|apply nth_error_None in E; lia].
  change (nth p (pidx (inv_idx axes idx')) 0 = nth p idx' 0).
  rewrite (pidx_nth _ p j) by auto. apply inv_nth; auto. apply Hin. now apply nth_error_In with p.
Qed.
Lemma inv_bounds sh idx' : length sh = n -> in_bounds (pidx sh) idx' -> in_bounds sh (inv_idx axes idx').
Proof.
  intros L H. apply in_bounds_nth in H as [Li H]. apply in_bounds_nth. rewrite inv_length. split; auto.
  intros j Hj. rewrite L in Hj. destruct (axes_pos j Hj) as (p & Hpn & Hp & _).
  rewrite (inv_nth _ j p) by auto. rewrite <- (pidx_nth sh p j Hp). apply H. unfold pidx. now rewrite map_length, Lax.
Qed.
Lemma inv_upd idx' p s v : length idx' = n -> nth_error axes p = Some s ->
  inv_idx axes (upd idx' p v) = upd (inv_idx axes idx') s v.
Proof.
  intros L Hp. assert (Hs : (s < n)%nat) by (apply Hin; now apply nth_error_In with p).
  assert (Hpn : (p < n)%nat) by (rewrite <- Lax; apply nth_error_Some; congruence).
  apply (@nth_ext2 _ _ _ 0); [now rewrite upd_length, !inv_length|].
  intros j Hj. rewrite inv_length in Hj. destruct (axes_pos j Hj) as (q & Hqn & Hq & _).
  rewrite (inv_nth _ j q) by auto. destruct (Nat.eq_dec j s) as [->|Hne].
  - assert (q = p) by (now apply (NoDup_nth_error_eq axes q p s)). subst q.
    rewrite !upd_same by (rewrite ?inv_length; lia). reflexivity.
  - rewrite !upd_other; auto. 2:{ intros ->. congruence. } symmetry. now apply inv_nth.
Qed.
Lemma pidx_upd sh p s v : length sh = n -> nth_error axes p = Some s -> pidx (upd sh s v) = upd (pidx sh) p v.
Proof.
  intros L Hp. assert (Hs : (s < n)%nat) by (apply Hin; now apply nth_error_In with p).
  assert (Hpn : (p < n)%nat) by (rewrite <- Lax; apply nth_error_Some; congruence).
  unfold pidx. apply (@nth_ext2 _ _ _ 0); [now rewrite upd_length, !map_length|].
  intros q Hq. rewrite map_length, Lax in Hq.
  destruct (nth_error axes q) as [j|] eqn:E; [|apply nth_error_None in E; lia].
  change (nth q (pidx (upd sh s v)) 0 = nth q (upd (pidx sh) p v) 0). rewrite (pidx_nth _ q j E).
  destruct (Nat.eq_dec q p) as [->|Hne].
  - assert (j = s) by congruence. subst j. rewrite !upd_same; auto; [unfold pidx; rewrite map_length; lia|lia].
  - rewrite !upd_other; auto.
    + symmetry. now apply pidx_nth.
    + intros ->. apply Hne. now apply (NoDup_nth_error_eq axes q p s).
Qed.
Lemma pidx_nonneg sh : Forall (fun x => 0 <= x) sh -> Forall (fun x => 0 <= x) (pidx sh).
Proof. intros H. unfold pidx. rewrite Forall_map. apply Forall_forall. intros a _. now apply Forall_nth0. Qed.

Lemma permute_represents {A} (G : list Z -> A) gsh split cnts ls p :
  length gsh = n -> represents G gsh split cnts ls ->
  match split, p with Some s, Some q => nth_error axes q = Some s | None, None => True | _, _ => False end ->
  represents (fun idx' => G (inv_idx axes idx')) (pidx gsh) p cnts (map (fun t => permute t axes) ls).
Proof.
  intros L (Hlen & Hn & HR) Hp. split; [now rewrite map_length|split; [now apply pidx_nonneg|]].
  assert (Lp : length (pidx gsh) = n) by (unfold pidx; now rewrite map_length).
  destruct split as [s|], p as [q|]; try contradiction.
  - destruct HR as (Hs & Hc & Hsum & HR). assert (Hq : (q < n)%nat) by (rewrite <- Lax; apply nth_error_Some; congruence).
    split; [lia|split; [auto|split; [rewrite (pidx_nth gsh q s Hp); auto|]]].
    intros r t Ht. rewrite nth_error_map in Ht. destruct (nth_error ls r) as [t0|] eqn:E; [|discriminate].
    injection Ht as <-. destruct (HR r t0 E) as [S0 D0]. split.
    + cbn [permute ash]. rewrite S0. fold (pidx (upd gsh s (nth r cnts 0))). now apply pidx_upd.
    + intros idx' Hidx. cbn [permute adat].
      pose proof (in_bounds_length _ _ Hidx) as Li. rewrite upd_length, Lp in Li.
      rewrite D0.
      * unfold move_axis_idx. f_equal. rewrite (inv_upd _ q s) by auto. f_equal. f_equal. apply inv_nth; auto. lia.
      * apply inv_bounds; [now rewrite upd_length|]. now rewrite (pidx_upd gsh q s).
  - intros t Ht. apply in_map_iff in Ht as (t0 & <- & Ht0). destruct (HR t0 Ht0) as [S0 D0]. split.
    + cbn [permute ash]. now rewrite S0.
    + intros idx' Hidx. cbn [permute adat]. apply D0. now apply inv_bounds.
Qed.
End Perm.

(** normalised axes of a call to transpose *)

Lemma transpose_ok {A} (x : dnd A) (G : list Z -> A) cnts l axn :
  let n := length (d_gshape x) in
  represents G (d_gshape x) (d_split x) cnts (d_locals x) ->
  (forall a, In a l -> - Z.of_nat n <= a < Z.of_nat n) ->
  axn = map (norm n) l -> perm_axes n axn ->
  exists y, transpose x (Some l) = Ok y /\
    d_gshape y = map (fun a => nth a (d_gshape x) 0) axn /\
    match d_split x with None => d_split y = None
                       | Some s => exists p, d_split y = Some p /\ nth_error axn p = Some s end /\
    represents (fun idx' => G (inv_idx axn idx')) (d_gshape y) (d_split y) cnts (d_locals y).
Proof.
  intros n HR Hb Eax HP. unfold transpose. fold n.
  pose proof HP as (Lax & ND & Hin).
  assert (Ll : length l = n) by (rewrite <- Lax, Eax, map_length; auto).
  rewrite Ll, Nat.eqb_refl. cbn [bind].
  set (ax := map (fun a => if a <? 0 then a + Z.of_nat n else a) l).
  assert (Hax : ax = map Z.of_nat axn).
  { unfold ax. rewrite Eax, map_map. apply map_ext_in. intros a Ha. unfold norm. specialize (Hb a Ha).
    destruct (Z.ltb_spec a 0); lia. }
  rewrite Hax.
  assert (Hex : existsb (fun a => (a <? - Z.of_nat n) || (Z.of_nat n <=? a)) (map Z.of_nat axn) = false).
  { destruct (existsb _ (map Z.of_nat axn)) eqn:E; auto. apply existsb_exists in E as (z & Hz & E).
    apply in_map_iff in Hz as (k & <- & Hk). apply Hin in Hk. lia. }
  assert (Hm : map (fun a => Z.to_nat (if a <? 0 then a + Z.of_nat n else a)) (map Z.of_nat axn) = axn).
  { rewrite map_map. rewrite <- (map_id axn) at 2. apply map_ext. intros k. destruct (Z.ltb_spec (Z.of_nat k) 0); lia. }
  assert (Hsp : exists p, match d_split x with
     | None => Ok None
     | Some s => match find_idx (Z.eqb (Z.of_nat s)) (map Z.of_nat axn) with Some p => Ok (Some p) | None => Err ValueError end
     end = Ok p /\ match d_split x, p with Some s, Some q => nth_error axn q = Some s | None, None => True | _, _ => False end).
  { destruct (d_split x) as [s|] eqn:Es; [|exists None; auto].
    destruct HR as (_ & _ & Hs & _). assert (Hs' : In s axn) by (now apply Hin).
    apply In_nth_error in Hs' as (q & Hq). exists (Some q). split; [|auto].
    rewrite (find_idx_uniq _ _ q (Z.of_nat s)); auto.
    - rewrite nth_error_map, Hq. reflexivity.
    - apply Z.eqb_refl.
    - intros q' y Hy E. rewrite nth_error_map in Hy. destruct (nth_error axn q') as [j|] eqn:Ej; [|discriminate].
      cbn in Hy. injection Hy as <-. assert (j = s) by lia. subst j. now apply (NoDup_nth_error_eq axn q' q s). }
  destruct Hsp as (p & Ep & Hp). rewrite Ep. cbn [bind]. rewrite Hex, Hm, (proj2 (is_perm_spec n axn) HP).
  eexists; split; [reflexivity|]. cbn [d_gshape d_split d_locals]. split; [auto|split].
  - destruct (d_split x) as [s|], p as [q|]; try contradiction; eauto.
  - apply (permute_represents n axn HP G (d_gshape x) (d_split x)); auto.
Qed.
(** a successful transpose had a permutation as argument *)
Lemma transpose_only_perm {A} (x y : dnd A) l :
  transpose x (Some l) = Ok y ->
  perm_axes (length (d_gshape x)) (map (norm (length (d_gshape x))) l) \/
  exists a, In a l /\ a < - Z.of_nat (length (d_gshape x)).
Proof.
  intros H. destruct (existsb (fun a => a <? - Z.of_nat (length (d_gshape x))) l) eqn:E.
  { right. apply existsb_exists in E as (a & Ha & E). exists a. split; auto. lia. }
  left. unfold transpose in H. destruct (Nat.eqb_spec (length l) (length (d_gshape x))) as [L|]; [|discriminate].
  cbn [bind] in H. destruct (match d_split x with None => _ | Some _ => _ end) as [p|]; [|discriminate]. cbn [bind] in H.
  destruct (existsb _ (map _ l)) eqn:E2 in H; [discriminate|].
  rewrite map_map in H. destruct (is_perm _ _) eqn:E3 in H; [|discriminate].
  apply is_perm_spec in E3. erewrite map_ext_in in E3; [exact E3|].
  intros a Ha. unfold norm. assert (~ a < - Z.of_nat (length (d_gshape x))).
  { intros Hlt. assert (X : existsb (fun a => a <? - Z.of_nat (length (d_gshape x))) l = true); [|congruence].
    apply existsb_exists. exists a. split; auto. lia. }
  destruct (Z.ltb_spec a 0) as [Ha0|Ha0].
  - destruct (Z.ltb_spec (a + Z.of_nat (length (d_gshape x))) 0); lia.
  - destruct (Z.ltb_spec a 0); lia.
Qed.
