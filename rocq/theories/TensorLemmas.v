(** Lemmas about multi-indices, row-major enumeration and memory writes. *)
From Verif Require Import Base BaseLemmas TensorSpec.
From Coq Require Import Permutation.
Open Scope Z_scope.

Lemma in_zr n i : In i (zr n) <-> 0 <= i < n.
Proof.
  unfold zr. rewrite in_map_iff. split.
  - intros [x [<- H]]. apply in_seq in H. lia.
  - intros H. exists (Z.to_nat i). split; [lia|]. apply in_seq. lia.
Qed.
Lemma NoDup_map_inj_on {A B} (f : A -> B) (l : list A) :
  (forall x y, In x l -> In y l -> f x = f y -> x = y) -> NoDup l -> NoDup (map f l).
Proof.
  induction l as [|a l IH]; simpl; intros Hf Hn; [constructor|].
  inversion Hn as [|? ? Hni Hn']; subst. constructor.
  - rewrite in_map_iff. intros [y [E Hy]]. apply Hni. rewrite (Hf a y); auto.
  - apply IH; auto.
Qed.
Lemma NoDup_zr n : NoDup (zr n).
Proof. apply NoDup_map_inj_on; [intros; lia|]. apply seq_NoDup. Qed.
Lemma length_zr n : length (zr n) = Z.to_nat n.
Proof. unfold zr. now rewrite map_length, seq_length. Qed.
Lemma zr_nonpos n : n <= 0 -> zr n = [].
Proof. intros. unfold zr. replace (Z.to_nat n) with 0%nat by lia. reflexivity. Qed.
Lemma zr_1 : zr 1 = [0]. Proof. reflexivity. Qed.
Lemma map_map_ext {A B} (f g : A -> B) l : (forall x, In x l -> f x = g x) -> map f l = map g l.
Proof. apply map_ext_in. Qed.

Lemma zr_app a b : 0 <= a -> 0 <= b -> zr (a + b) = zr a ++ map (Z.add a) (zr b).
Proof.
  intros. unfold zr. rewrite Z2Nat.inj_add, seq_app, map_app by lia. f_equal.
  rewrite map_map. rewrite Nat.add_0_l.
  assert (E : forall k n, seq k n = map (Nat.add k) (seq 0 n)).
  { clear. intros k n. apply list_eq_nth; rewrite ?map_length, ?seq_length; auto.
    intros i d Hi. rewrite seq_nth by lia. rewrite nth_map_seq by lia. lia. }
  rewrite E, map_map. apply map_ext_in. intros x Hx. apply in_seq in Hx. lia.
Qed.
Lemma zr_S n : 0 <= n -> zr (n + 1) = zr n ++ [n].
Proof. intros. rewrite zr_app by lia. rewrite zr_1. simpl. now rewrite Z.add_0_r. Qed.

Lemma flat_map_ext_in {A B} (f g : A -> list B) l : (forall x, In x l -> f x = g x) -> flat_map f l = flat_map g l.
Proof. induction l; simpl; intros H; auto. rewrite H, IHl; auto. Qed.
Lemma flat_map_app' {A B} (f : A -> list B) l1 l2 : flat_map f (l1 ++ l2) = flat_map f l1 ++ flat_map f l2.
Proof. induction l1; simpl; auto. now rewrite IHl1, app_assoc. Qed.
Lemma map_flat_map {A B C} (g : B -> C) (f : A -> list B) l : map g (flat_map f l) = flat_map (fun x => map g (f x)) l.
Proof. induction l; simpl; auto. now rewrite map_app, IHl. Qed.
Lemma flat_map_map {A B C} (f : B -> list C) (g : A -> B) l : flat_map f (map g l) = flat_map (fun x => f (g x)) l.
Proof. induction l; simpl; auto. now rewrite IHl. Qed.
Lemma flat_map_nil {A B} (l : list A) : flat_map (fun _ => @nil B) l = [].
Proof. induction l; auto. Qed.

(** c blocks of b consecutive numbers are c*b consecutive numbers *)
Lemma zr_mul c b : 0 <= c -> 0 <= b ->
  flat_map (fun i => map (fun j => i * b + j) (zr b)) (zr c) = zr (c * b).
Proof.
  intros Hc Hb. revert c Hc. apply natlike_ind.
  - reflexivity.
  - intros c Hc IH. unfold Z.succ. rewrite zr_S by lia. rewrite flat_map_app', IH. simpl. rewrite app_nil_r.
    replace ((c + 1) * b) with (c * b + b) by lia. now rewrite (zr_app (c * b) b) by nia.
Qed.

Lemma zprod_nonneg l : Forall (fun n => 0 <= n) l -> 0 <= zprod l.
Proof. induction 1; simpl; lia. Qed.
Lemma zprod_pos l : Forall (fun n => 1 <= n) l -> 1 <= zprod l.
Proof. induction 1; simpl; nia. Qed.
Lemma zprod_nz l : Forall (fun n => 0 <= n) l -> zprod l <> 0 -> Forall (fun n => 1 <= n) l.
Proof.
  induction 1 as [|x l Hx Hl IH]; simpl; intros Hp; constructor.
  - destruct (Z.eq_dec x 0); [subst; lia|lia].
  - apply IH. intros E. rewrite E in Hp. lia.
Qed.

Lemma in_row_major sh idx : In idx (row_major sh) <-> in_bounds sh idx.
Proof.
  unfold in_bounds. revert idx; induction sh as [|n sh IH]; intros idx; simpl.
  - split; [intros [<-|[]]; constructor|]. intros H. inversion H; auto.
  - rewrite in_flat_map. split.
    + intros [i [Hi H]]. apply in_map_iff in H. destruct H as [t [<- Ht]].
      apply in_zr in Hi. constructor; auto. now apply IH.
    + intros H. inversion H as [|? i ? t Hi Ht]; subst. exists i. split; [now apply in_zr|].
      apply in_map. now apply IH.
Qed.
Lemma NoDup_flat_map {A B} (f : A -> list B) l : NoDup l -> (forall x, In x l -> NoDup (f x)) ->
  (forall x y b, In x l -> In y l -> In b (f x) -> In b (f y) -> x = y) -> NoDup (flat_map f l).
Proof.
  induction l as [|a l IH]; simpl; intros Hn Hf Hd; [constructor|].
  inversion Hn as [|? ? Hni Hn']; subst.
  assert (R : NoDup (flat_map f l)). { apply IH; auto. intros x y b Hx Hy; apply Hd; auto. }
  assert (D : forall b, In b (f a) -> ~ In b (flat_map f l)).
  { intros b Hb Hb'. apply in_flat_map in Hb'. destruct Hb' as [y [Hy Hby]].
    assert (a = y) by (eapply Hd; eauto). subst; auto. }
  clear -R D Hf. specialize (Hf a (or_introl eq_refl)). induction Hf as [|b bs Hb Hbs IH]; simpl; auto.
  constructor.
  - rewrite in_app_iff. intros [H|H]; auto. apply (D b); simpl; auto.
  - apply IH. intros b' Hb'. apply D. simpl; auto.
Qed.
Lemma NoDup_row_major sh : NoDup (row_major sh).
Proof.
  induction sh as [|n sh IH]; simpl; [repeat constructor; auto|].
  apply NoDup_flat_map; [apply NoDup_zr| |].
  - intros x Hx. apply NoDup_map_inj_on; auto. intros; congruence.
  - intros x y b Hx Hy H1 H2. apply in_map_iff in H1. apply in_map_iff in H2.
    destruct H1 as [? [E1 _]], H2 as [? [E2 _]]. congruence.
Qed.
Lemma row_major_length sh : Forall (fun n => 0 <= n) sh -> Z.of_nat (length (row_major sh)) = zprod sh.
Proof.
  induction 1 as [|n sh Hn Hs IH]; [reflexivity|]. cbn [row_major zprod].
  assert (G : forall l : list Z, Z.of_nat (length (flat_map (fun i => map (cons i) (row_major sh)) l)) = Z.of_nat (length l) * zprod sh).
  { induction l as [|a l IHl]; simpl length; auto. rewrite app_length, map_length. lia. }
  rewrite G, length_zr. lia.
Qed.
Lemma in_bounds_length sh idx : in_bounds sh idx -> length idx = length sh.
Proof. induction 1; simpl; auto. Qed.
Lemma in_bounds_nth sh idx : in_bounds sh idx <->
  length idx = length sh /\ forall i, (i < length sh)%nat -> 0 <= nth i idx 0 < nth i sh 0.
Proof.
  split.
  - intros H. split; [now apply in_bounds_length|]. induction H as [|n k sh idx Hk H IH]; intros i Hi; [simpl in Hi; lia|].
    destruct i; simpl in *; auto. apply IH; lia.
  - revert idx. induction sh as [|n sh IH]; intros [|k idx] [L H]; simpl in *; try lia; [constructor|].
    constructor; [apply (H 0%nat); lia|]. apply IH. split; [lia|]. intros i Hi. apply (H (S i)). lia.
Qed.

Lemma dot_zadd a b st : length a = length b -> length a = length st -> dot (zadd a b) st = dot a st + dot b st.
Proof. revert b st; induction a as [|x a IH]; intros [|y b] [|s st]; simpl; intros; try lia. rewrite IH by lia. lia. Qed.
Lemma dot_comm a b : dot a b = dot b a.
Proof. revert b; induction a as [|x a IH]; intros [|y b]; simpl; auto. rewrite IH. lia. Qed.
Lemma zadd_length a b : length a = length b -> length (zadd a b) = length a.
Proof. revert b; induction a as [|x a IH]; intros [|y b]; simpl; intros; try lia. rewrite IH; lia. Qed.
Lemma zadd_nth a b i : length a = length b -> nth i (zadd a b) 0 = nth i a 0 + nth i b 0.
Proof. revert b i; induction a as [|x a IH]; intros [|y b] i L; simpl in *; try lia; destruct i; auto. Qed.

(** Offsets in a C-contiguous tensor enumerate 0 .. numel-1. *)
Lemma cstrides_offsets sh : Forall (fun n => 0 <= n) sh ->
  map (fun idx => dot idx (cstrides sh)) (row_major sh) = zr (zprod sh).
Proof.
  induction 1 as [|n sh Hn Hs IH]; [reflexivity|]. cbn [row_major cstrides zprod].
  rewrite map_flat_map. rewrite <- zr_mul by (auto using zprod_nonneg).
  apply flat_map_ext_in. intros i _. rewrite map_map. cbn [dot].
  rewrite <- IH, map_map. reflexivity.
Qed.
Lemma cstrides_length sh : length (cstrides sh) = length sh.
Proof. induction sh; simpl; auto. Qed.

Lemma dot_bounds sh idx : in_bounds sh idx -> 0 <= dot idx (cstrides sh) < zprod sh.
Proof.
  induction 1 as [|n i sh idx Hi H IH]; simpl; [lia|]. nia.
Qed.
Lemma dot_inj sh a b : in_bounds sh a -> in_bounds sh b ->
  dot a (cstrides sh) = dot b (cstrides sh) -> a = b.
Proof.
  intros Ha. revert b. induction Ha as [|n i sh a Hi Ha IH]; intros b Hb E; inversion Hb as [|? j ? b' Hj Hb']; subst; auto.
  simpl in E. pose proof (dot_bounds _ _ Ha). pose proof (dot_bounds _ _ Hb').
  assert (i = j) by nia. subst j. f_equal. apply IH; auto. lia.
Qed.

(** ** Writes *)
Lemma writes_not_in {V} (l : list (Z * V)) m a : ~ In a (map fst l) -> writes m l a = m a.
Proof.
  unfold writes. revert m. induction l as [|[k v] l IH]; simpl; intros m H; auto.
  rewrite IH by tauto. unfold write; simpl. destruct (Z.eqb_spec a k); auto. subst; tauto.
Qed.
Lemma writes_in {V} (l : list (Z * V)) m a v : NoDup (map fst l) -> In (a, v) l -> writes m l a = v.
Proof.
  unfold writes. revert m. induction l as [|[k u] l IH]; simpl; intros m Hn H; [tauto|].
  inversion Hn as [|? ? Hni Hn']; subst. destruct H as [E|H].
  - inversion E; subst. fold (writes (write m (a, v)) l). rewrite writes_not_in by auto.
    unfold write; simpl. now rewrite Z.eqb_refl.
  - apply IH; auto.
Qed.
Lemma writes_perm {V} (l l' : list (Z * V)) m a v : Permutation l l' -> NoDup (map fst l) -> In (a, v) l ->
  writes m l' a = v.
Proof.
  intros P N H. apply writes_in.
  - eapply Permutation_NoDup; [|exact N]. now apply Permutation_map.
  - eapply Permutation_in; eauto.
Qed.
