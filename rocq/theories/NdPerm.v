(** The elements held by all processes are the elements of the global array. *)
From Coq Require Import Permutation.
From Verif Require Import Base ShapeSpec BaseLemmas NdSpec TensorSpec TensorLemmas NdLemmas OpsModel OpsProofs2 OpsProofs3 OpsProofs4 OpsProofs5.
Open Scope Z_scope.

Definition elems {A} (t : arr A) : list A := map (adat t) (row_major (ash t)).
Lemma elems_agrees {A} (t : arr A) sh F : agrees t sh F -> elems t = map F (row_major sh).
Proof. intros [E H]. unfold elems. rewrite E. apply map_ext_in. intros i Hi. apply H. now apply in_row_major. Qed.

Lemma index_perm gsh s cnts :
  (s < length gsh)%nat -> Forall (fun c => 0 <= c) cnts -> zsum cnts = nth s gsh 0 ->
  Permutation (flat_map (fun r => map (move_axis_idx s (zsum (firstn r cnts))) (row_major (upd gsh s (nth r cnts 0)))) (seq 0 (length cnts)))
              (row_major gsh).
Proof.
  intros Hs Hc Hsum.
  set (L := fun r => map (move_axis_idx s (zsum (firstn r cnts))) (row_major (upd gsh s (nth r cnts 0)))).
  assert (Hmem : forall r j, (r < length cnts)%nat -> In j (L r) <->
     in_bounds gsh j /\ zsum (firstn r cnts) <= nth s j 0 < zsum (firstn r cnts) + nth r cnts 0).
  { intros r j Hr. unfold L. rewrite in_map_iff.
    assert (B : zsum (firstn r cnts) + nth r cnts 0 <= nth s gsh 0).
    { rewrite <- zsum_firstn_S, <- Hsum by auto. now apply zsum_firstn_le. }
    assert (B0 : 0 <= zsum (firstn r cnts)) by (apply zsum_nonneg, Forall_firstn'; auto).
    split.
    - intros (i & <- & Hin).
      apply in_row_major, in_bounds_upd_shape in Hin as (Li & H0 & H); auto. unfold move_axis_idx. split.
      + apply in_bounds_nth. rewrite upd_length. split; auto.
        intros k Hk. destruct (Nat.eq_dec k s) as [->|Hn].
        * rewrite upd_same by lia. lia.
        * rewrite upd_other by auto. auto.
      + rewrite upd_same by lia. lia.
    - intros (Hb & Hj). pose proof (in_bounds_length _ _ Hb) as Lj.
      exists (move_axis_idx s (- zsum (firstn r cnts)) j). split.
      { unfold move_axis_idx. rewrite upd_same by lia. rewrite upd_upd.
        replace (nth s j 0 + - zsum (firstn r cnts) + zsum (firstn r cnts)) with (nth s j 0) by lia. apply upd_self. }
      apply in_row_major, in_bounds_upd_shape; auto. unfold move_axis_idx. rewrite upd_length. split; auto.
      rewrite upd_same by lia. split; [lia|]. intros k Hk Hn. rewrite upd_other by auto. now apply in_bounds_nth. }
  apply NoDup_Permutation.
  - apply NoDup_flat_map; [apply seq_NoDup| |].
    + intros r Hr. unfold L. apply NoDup_map_inj_on; [|apply NoDup_row_major].
      intros x y Hx Hy E.
      apply in_row_major, in_bounds_upd_shape in Hx as (Lx & _ & _), Hy as (Ly & _ & _); auto.
      unfold move_axis_idx in E. assert (E2 := f_equal (fun l => nth s l 0) E). cbn beta in E2.
      rewrite !upd_same in E2 by lia.
      apply (f_equal (fun l => upd l s (nth s x 0))) in E. rewrite !upd_upd, upd_self in E.
      replace (nth s x 0) with (nth s y 0) in E by lia. now rewrite upd_self in E.
    + intros r r' j Hr Hr' H1 H2. apply in_seq in Hr, Hr'.
      apply Hmem in H1 as (_ & H1); [|lia]. apply Hmem in H2 as (_ & H2); [|lia].
      destruct (Nat.lt_trichotomy r r') as [Hlt|[->|Hlt]]; auto; exfalso.
      * pose proof (zsum_firstn_mono cnts (S r) r' Hc ltac:(lia)) as Q. rewrite zsum_firstn_S in Q by lia. lia.
      * pose proof (zsum_firstn_mono cnts (S r') r Hc ltac:(lia)) as Q. rewrite zsum_firstn_S in Q by lia. lia.
  - apply NoDup_row_major.
  - intros j. rewrite in_flat_map, in_row_major. split.
    + intros (r & Hr & Hj). apply in_seq in Hr. apply Hmem in Hj; [tauto|lia].
    + intros Hb. destruct (zsum_find cnts (nth s j 0) Hc) as (r & Hr & E).
      { rewrite Hsum. now apply in_bounds_nth. }
      exists r. split; [apply in_seq; lia|]. apply Hmem; auto.
Qed.

(** all elements of all processes are, up to order, the elements of the global array *)
Lemma elems_perm {A} (G : list Z -> A) gsh s cnts ls : represents G gsh (Some s) cnts ls ->
  Permutation (flat_map elems ls) (map G (row_major gsh)).
Proof.
  intros (L & _ & Hs & Hc & Hsum & R).
  rewrite <- (index_perm gsh s cnts) by auto. rewrite map_flat_map.
  rewrite (flat_map_ext_in _ (fun r => elems (nth r ls (mk_arr [] (fun _ => G []))))).
  - rewrite <- (flat_map_map elems (fun r => nth r ls (mk_arr [] (fun _ => G [])))), <- L, map_nth_seq. reflexivity.
  - intros r Hr. apply in_seq in Hr. rewrite map_map. symmetry.
    apply elems_agrees. apply R. apply nth_error_nth'. lia.
Qed.
