(** Proofs about reductions. *)
From Verif Require Import Base BaseLemmas LayoutModel NdSpec TensorSpec TensorLemmas NdLemmas OpsModel.
From Coq Require Import Permutation.
Open Scope Z_scope.

Lemma all_ok_map {A B} (f : A -> res B) (g : A -> B) l :
  (forall x, In x l -> f x = Ok (g x)) -> all_ok (map f l) = Ok (map g l).
Proof.
  induction l as [|x l IH]; intros H; simpl; auto.
  rewrite (H x) by (left; auto). simpl. rewrite IH; auto. intros; apply H; right; auto.
Qed.

Lemma mem_nat_in k l : mem_nat k l = true <-> In k l.
Proof.
  unfold mem_nat. rewrite existsb_exists. split.
  - intros (x & H & E). apply Nat.eqb_eq in E. now subst.
  - intros H. exists k. split; auto. apply Nat.eqb_refl.
Qed.
Lemma mem_nat_nin k l : mem_nat k l = false <-> ~ In k l.
Proof. rewrite <- mem_nat_in. destruct (mem_nat k l); split; intros; congruence. Qed.

(** * Big operators over a commutative monoid *)
Section Big.
Variables (A : Type) (ok : A -> Prop) (op : A -> A -> A) (e : A).
Hypothesis M : comm_monoid ok op e.
Let ok_e : ok e := proj1 M.
Let ok_op : forall x y, ok x -> ok y -> ok (op x y) := proj1 (proj2 M).
Let op_e : forall x, ok x -> op e x = x := proj1 (proj2 (proj2 M)).
Let op_comm : forall x y, ok x -> ok y -> op x y = op y x := proj1 (proj2 (proj2 (proj2 M))).
Let op_assoc : forall x y z, ok x -> ok y -> ok z -> op x (op y z) = op (op x y) z := proj2 (proj2 (proj2 (proj2 M))).

Lemma op_e_r x : ok x -> op x e = x.
Proof. intros. rewrite op_comm; auto. Qed.
Lemma ok_big l : Forall ok l -> ok (big op e l).
Proof. induction 1; simpl; auto. Qed.
Lemma big_app l1 l2 : Forall ok l1 -> Forall ok l2 -> big op e (l1 ++ l2) = op (big op e l1) (big op e l2).
Proof.
  induction 1 as [|x l1 Hx H IH]; intros H2; simpl.
  - rewrite op_e; auto. now apply ok_big.
  - unfold big in *. rewrite IH by auto. apply op_assoc; auto; now apply ok_big.
Qed.
Lemma big_perm l1 l2 : Permutation l1 l2 -> Forall ok l1 -> big op e l1 = big op e l2.
Proof.
  induction 1 as [|x l1 l2 P IH|x y l|l1 l2 l3 P1 IH1 P2 IH2]; intros H; simpl; auto.
  - inversion_clear H. unfold big in *. now rewrite IH.
  - inversion_clear H as [|? ? Hy H']. inversion_clear H' as [|? ? Hx Hl].
    assert (ok (big op e l)) by now apply ok_big.
    unfold big in *. rewrite (op_assoc y x), (op_assoc x y), (op_comm y x); auto.
  - rewrite IH1 by auto. apply IH2. now rewrite <- P1.
Qed.
Lemma big_all_e l : Forall (eq e) l -> big op e l = e.
Proof. induction 1 as [|x l Hx H IH]; simpl; auto. unfold big in *. rewrite IH, <- Hx. now apply op_e. Qed.
Lemma big_concat ll : Forall (Forall ok) ll -> big op e (concat ll) = big op e (map (big op e) ll).
Proof.
  induction 1 as [|l ll Hl H IH]; simpl; auto.
  rewrite big_app; auto; [now rewrite IH|]. apply Forall_concat; auto.
Qed.
Lemma fold_left_big l acc : ok acc -> Forall ok l -> fold_left op l acc = big op e (acc :: l).
Proof.
  intros Ha H. revert acc Ha. induction H as [|x l Hx H IH]; intros acc Ha; simpl.
  - now rewrite op_e_r.
  - rewrite IH by auto. unfold big. simpl. symmetry. apply op_assoc; auto. now apply ok_big.
Qed.

(** the elements of [L] selected by [Q] are split by the predicates [P j] *)
Lemma big_partition {I J} (js : list J) (L : list I) (f : I -> A) (P : J -> I -> bool) (Q : I -> bool) :
  (forall i, In i L -> ok (f i)) -> NoDup js ->
  (forall i, In i L -> Q i = true -> exists j, In j js /\ P j i = true) ->
  (forall i j, In i L -> In j js -> P j i = true -> Q i = true) ->
  (forall i j j', In i L -> In j js -> In j' js -> P j i = true -> P j' i = true -> j = j') ->
  big op e (map (fun j => big op e (map f (filter (P j) L))) js) = big op e (map f (filter Q L)).
Proof.
  intros Hok ND H1 H2 H3.
  induction L as [|i L IH].
  - simpl. apply big_all_e. rewrite Forall_map. apply Forall_forall. auto.
  - assert (IH' := IH (fun i Hi => Hok i (or_intror Hi)) (fun i Hi => H1 i (or_intror Hi))
       (fun i j Hi => H2 i j (or_intror Hi)) (fun i j j' Hi => H3 i j j' (or_intror Hi))). clear IH.
    assert (okf : forall R, Forall ok (map f (filter R L))).
    { intros R. rewrite Forall_map. apply Forall_forall. intros x Hx. apply filter_In in Hx as [Hx _]. apply Hok; right; auto. }
    cbn [filter]. destruct (Q i) eqn:EQ.
    + destruct (H1 i (or_introl eq_refl) EQ) as (j & Hj & Pj).
      cbn [map]. unfold big at 3. cbn [fold_right]. fold (big op e (map f (filter Q L))). rewrite <- IH'.
      apply in_split in Hj as (js1 & js2 & ->).
      assert (Hn : forall j', In j' (js1 ++ js2) -> P j' i = false).
      { intros j' Hj'. destruct (P j' i) eqn:E'; auto. exfalso.
        assert (j' = j). { apply (H3 i j' j); auto; [left; auto| |]; rewrite in_app_iff in *; simpl; tauto. }
        subst j'. apply NoDup_remove_2 in ND. contradiction. }
      rewrite !map_app. cbn [map]. rewrite Pj. cbn [map].
      assert (Hok2 : forall js', Forall ok (map (fun j => big op e (map f (filter (P j) L))) js')).
      { intros js'. rewrite Forall_map. apply Forall_forall. intros. now apply ok_big. }
      assert (E : forall js', (forall j', In j' js' -> P j' i = false) ->
        map (fun j0 => big op e (map f (if P j0 i then i :: filter (P j0) L else filter (P j0) L))) js'
        = map (fun j0 => big op e (map f (filter (P j0) L))) js').
      { intros js' Hjs. apply map_ext_in. intros a Ha. now rewrite Hjs. }
      rewrite !E by (intros; apply Hn; rewrite in_app_iff; auto).
      assert (okfi : ok (f i)) by (apply Hok; left; auto).
      set (g := fun j0 => big op e (map f (filter (P j0) L))) in *.
      assert (oka : ok (big op e (map g js1))) by (apply ok_big; auto).
      assert (okc : ok (big op e (map g js2))) by (apply ok_big; auto).
      assert (okb : ok (big op e (map f (filter (P j) L)))) by (apply ok_big; auto).
      change (big op e (f i :: map f (filter (P j) L))) with (op (f i) (g j)).
      change (big op e (map f (filter (P j) L))) with (g j).
      rewrite (big_app (map g js1) (op (f i) (g j) :: map g js2)); [|auto|constructor; [apply ok_op; auto|auto]].
      rewrite (big_app (map g js1) (g j :: map g js2)); [|auto|constructor; auto].
      change (big op e (op (f i) (g j) :: map g js2)) with (op (op (f i) (g j)) (big op e (map g js2))).
      change (big op e (g j :: map g js2)) with (op (g j) (big op e (map g js2))).
      change (big op e (map f (filter (P j) L))) with (g j) in okb.
      set (a := big op e (map g js1)) in *. set (c := big op e (map g js2)) in *. set (b := g j) in *.
      rewrite <- (op_assoc (f i) b c) by auto. rewrite (op_assoc a (f i)) by auto.
      rewrite (op_comm a (f i)) by auto. symmetry. apply op_assoc; auto.
    + rewrite <- IH'. f_equal. apply map_ext_in. intros j Hj.
      destruct (P j i) eqn:E; auto. exfalso. rewrite (H2 i j) in EQ; auto; [discriminate|left; auto].
Qed.
End Big.
