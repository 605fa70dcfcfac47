(** Generic facts for ht.sort: sorted lists, cutting lists, double concatenations. *)
From Coq Require Import Permutation Sorted.
From Verif Require Import Base BaseLemmas LayoutModel NdSpec TensorSpec NdLemmas OpsModel OpsProofs4 BinModel SortModel SortProofs.
Open Scope nat_scope.

Section SS.
Context {X : Type} (R : X -> X -> Prop).
Notation SS := (StronglySorted R).
Lemma SS_app l1 l2 : SS (l1 ++ l2) <-> SS l1 /\ SS l2 /\ forall x y, In x l1 -> In y l2 -> R x y.
Proof.
  induction l1 as [|a l1 IH]; cbn [app].
  - split; [intros H; repeat split; auto; [constructor|intros x y []]|tauto].
  - split.
    + intros H. apply StronglySorted_inv in H as [H1 H2]. apply IH in H1 as (A & B & C). rewrite Forall_app in H2. destruct H2 as [F1 F2]. repeat split; auto; [constructor; auto|].
      intros x y [<-|Hx] Hy; [rewrite Forall_forall in F2; auto|auto].
    + intros (H1 & H2 & H3). apply StronglySorted_inv in H1 as [A B]. constructor; [apply IH; repeat split; auto; intros; apply H3; cbn; auto|]. apply Forall_app. split; [auto|]. apply Forall_forall. intros y Hy. apply H3; cbn; auto.
Qed.
Lemma SS_nth l d : SS l <-> forall i j, i < j < length l -> R (nth i l d) (nth j l d).
Proof.
  induction l as [|a l IH]; [split; [intros _ i j H; cbn in H; lia|constructor]|]. split.
  - intros H i j Hij. apply StronglySorted_inv in H as [H1 H2]. cbn [length] in Hij. destruct j as [|j]; [lia|]. destruct i as [|i]; cbn [nth].
    + rewrite Forall_forall in H2. apply H2, nth_In. lia.
    + apply IH; auto. lia.
  - intros H. constructor.
    + apply IH. intros i j Hij. apply (H (S i) (S j)). cbn. lia.
    + apply Forall_forall. intros x Hx. apply (In_nth _ _ d) in Hx as (i & Hi & <-). apply (H 0 (S i)). cbn. lia.
Qed.
Lemma blocks_sorted bs : forall os, Forall2 (fun b o => Permutation o b /\ SS o) bs os -> SS (concat bs) -> SS (concat os).
Proof.
  induction bs as [|b bs IH]; intros os H HS; inversion H as [|b' o bs' os' [Hp Ho] H2]; subst; cbn [concat] in *; [constructor|]. apply SS_app in HS as (_ & S2 & S3). apply SS_app. split; [auto|]. split; [auto|].
  intros x y Hx Hy. apply S3; [eapply Permutation_in; eauto|]. assert (PP : Permutation (concat os') (concat bs)).
  { clear -H2. induction H2 as [|a c l l' [Hp _] _ IH]; cbn; [constructor|]. now apply Permutation_app. }
  eapply Permutation_in; eauto.
Qed.
Lemma concat_sorted d : (forall q, q < length d -> SS (nth q d [])) -> (forall q q' x y, q < q' < length d -> In x (nth q d []) -> In y (nth q' d []) -> R x y) -> SS (concat d).
Proof.
  induction d as [|l d IH]; intros H1 H2; cbn [concat]; [constructor|]. apply SS_app. split; [apply (H1 0); cbn; lia|]. split.
  - apply IH; [intros q Hq; apply (H1 (S q)); cbn; lia|]. intros q q' x y Hq. apply (H2 (S q) (S q')). cbn. lia.
  - intros x y Hx Hy. apply in_concat in Hy as (l' & Hl & Hy). apply (In_nth _ _ []) in Hl as (q & Hq & <-). apply (H2 0 (S q)); cbn; auto. lia.
Qed.
End SS.

(** swapping the order of a double concatenation *)
Lemma concat_swap {X I J : Type} (f : I -> J -> list X) (is : list I) (js : list J) :
  Permutation (concat (map (fun j => concat (map (fun i => f i j) is)) js)) (concat (map (fun i => concat (map (fun j => f i j) js)) is)).
Proof.
  induction is as [|i is IH]; cbn [map concat].
  - induction js; cbn; auto.
  - rewrite <- IH. clear IH. induction js as [|j js IH]; cbn [map concat]; [auto|]. rewrite IH. rewrite <- !app_assoc. apply Permutation_app_head. rewrite !app_assoc. apply Permutation_app_tail. apply Permutation_app_comm.
Qed.

(** cutting [lo, hi) out of a concatenation *)
Lemma sub_app {X} (x y : list X) lo hi : lo <= hi -> sub (x ++ y) lo (hi - lo) = sub x (Nat.min (length x) lo) (Nat.min (length x) hi - Nat.min (length x) lo) ++ sub y (lo - length x) ((hi - length x) - (lo - length x)).
Proof.
  intros H. unfold sub. rewrite skipn_app, firstn_app. f_equal.
  - destruct (Nat.le_gt_cases (length x) lo).
    + rewrite (Nat.min_l _ lo) by lia. rewrite !skipn_all2 by lia. now rewrite !firstn_nil.
    + rewrite (Nat.min_r _ lo) by lia. destruct (Nat.le_gt_cases (length x) hi).
      * rewrite (Nat.min_l _ hi) by lia. rewrite !firstn_all2 by (rewrite skipn_length; lia). auto.
      * rewrite (Nat.min_r _ hi) by lia. auto.
  - rewrite skipn_length. f_equal. lia.
Qed.
Lemma cut_blocks {X} (d : list (list X)) : forall lo hi, lo <= hi ->
  sub (concat d) lo (hi - lo) = concat (map (fun q => sub (nth q d []) (Nat.min (length (nth q d [])) (lo - psum (lens d) q)) (Nat.min (length (nth q d [])) (hi - psum (lens d) q) - Nat.min (length (nth q d [])) (lo - psum (lens d) q))) (seq 0 (length d))).
Proof.
  induction d as [|x d IH]; intros lo hi H; [cbn; unfold sub; now rewrite skipn_nil, firstn_nil|]. cbn [length concat]. rewrite <- cons_seq. cbn [map concat]. rewrite sub_app by auto. rewrite psum_0, !Nat.sub_0_r. cbn [nth]. f_equal.
  rewrite IH by lia. rewrite <- seq_shift, map_map. f_equal. apply map_ext. intros q. cbn [nth lens map]. rewrite psum_cons. fold (lens d). rewrite !Nat.sub_add_distr. reflexivity.
Qed.

(** splitting a list by consecutive nat counts given as differences *)
Lemma perm_nth {X} (l : list X) d o : Permutation o (seq 0 (length l)) -> Permutation (map (fun i => nth i l d) o) l.
Proof. intros H. transitivity (map (fun i => nth i l d) (seq 0 (length l))); [now apply Permutation_map|]. now rewrite map_nth_seq. Qed.

Lemma filter_prefix {X} (R : X -> X -> Prop) (f : X -> bool) l d : StronglySorted R l -> (forall x y, R x y -> f y = true -> f x = true) ->
  forall i, i < length l -> f (nth i l d) = true <-> i < length (filter f l).
Proof.
  intros HS HM. induction HS as [|x l HS IH HF]; intros i Hi; [cbn in Hi; lia|]. cbn [length] in Hi. destruct (f x) eqn:Ex; cbn [filter]; rewrite Ex.
  - destruct i as [|i]; cbn [nth length]; [split; [lia|auto]|]. rewrite IH by lia. lia.
  - assert (E0 : filter f l = []). { apply filter_nil_iff. intros y Hy. destruct (f y) eqn:Ey; [|auto]. rewrite Forall_forall in HF. rewrite (HM x y (HF y Hy) Ey) in Ex. discriminate. }
    rewrite E0. cbn [length]. split; [|lia]. destruct i as [|i]; cbn [nth]; [congruence|]. intros H. assert (Hy : In (nth i l d) l) by (apply nth_In; lia).
    rewrite Forall_forall in HF. rewrite (HM x _ (HF _ Hy) H) in Ex. discriminate.
Qed.
Lemma filter_len_perm {X} (f : X -> bool) l l' : Permutation l l' -> length (filter f l) = length (filter f l').
Proof. induction 1; cbn; repeat match goal with |- context [if ?b then _ else _] => destruct b end; cbn; congruence. Qed.
Lemma filter_len_app {X} (f : X -> bool) l l' : length (filter f (l ++ l')) = length (filter f l) + length (filter f l').
Proof. now rewrite filter_app, app_length. Qed.
