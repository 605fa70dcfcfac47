(** C55, C56: factory functions.  Whatever the number of processes, the local arrays together
    are the array the call describes, cut into balanced pieces; array(is_split=s) accepts
    local pieces exactly when they fit together. *)
From Coq Require Import QArith.
From Verif Require Import Base BaseLemmas LayoutModel LayoutProofs NdSpec TensorSpec TensorLemmas NdLemmas OpsModel OpsProofs2 RedistModel RedistProofs ShapeSpec ShapeModel ShapeProofs3 ShapeProofs4 BinModel BinProofs BinProofs2 ShapeProps RollProofs3 RollProps ReshapeModel ReshapeProofs FactoryModel.
Open Scope Z_scope.

(** the split a caller asks for *)
Definition asked_split (ndim : nat) (arg : axis_arg) (sp : option nat) : Prop :=
  match arg with
  | AxNone => sp = None
  | AxInt a => valid_axis ndim a /\ sp = Some (norm ndim a)
  | _ => False
  end.
(** balanced piece lengths along the split axis (no meaning when nothing is split) *)
Definition balanced_counts (P : nat) (sh : list Z) (sp : option nat) : list Z :=
  match sp with Some s => zcounts (nth s sh 0) P | None => repeat 0 P end.

Lemma split_arg_ok n arg sp : asked_split n arg sp -> split_arg n arg = Ok sp.
Proof.
  unfold asked_split, split_arg. destruct arg; try contradiction.
  - intros ->. unfold sanitize_axis. destruct (Nat.eqb n 0); reflexivity.
  - intros [V ->]. destruct (sanitize_int n z V) as (b & -> & <-). reflexivity.
Qed.
Lemma asked_lt n arg s : asked_split n arg (Some s) -> (s < n)%nat.
Proof. unfold asked_split, valid_axis, norm. destruct arg; try contradiction; [discriminate|]. intros [V E]. injection E as ->. destruct (Z.ltb_spec z 0); lia. Qed.

Lemma chunk_counts sh s r P : (0 < P)%nat -> (r < P)%nat ->
  chunk_shape sh s r P = upd sh s (nth r (zcounts (nth s sh 0) P) 0) /\
  chunk_start sh s r P = zsum (firstn r (zcounts (nth s sh 0) P)).
Proof.
  intros HP Hr. unfold chunk_shape, chunk_start, zcounts. split.
  - f_equal. change 0 with (Z.of_nat 0) at 3. rewrite map_nth, counts_of_nth by auto. reflexivity.
  - rewrite <- psum_zsum by (apply Forall_forall; intros c Hc; apply in_map_iff in Hc as (k & <- & _); lia).
    rewrite to_nat_of_nat_map. rewrite counts_of_psum by lia. reflexivity.
Qed.

(** the one fact behind all factories: give every rank its chunk *)
Lemma chunked_represents {A} (G : list Z -> A) sh sp P (f : nat -> arr A) :
  (0 < P)%nat -> Forall (fun n => 0 <= n) sh -> match sp with Some s => (s < length sh)%nat | None => True end ->
  (forall r, (r < P)%nat -> agrees (f r) (chunk_lsh sh sp r P)
     (fun idx => G (match sp with Some s => move_axis_idx s (chunk_off sh sp r P) idx | None => idx end))) ->
  represents G sh sp (balanced_counts P sh sp) (map f (seq 0 P)).
Proof.
  intros HP Hsh Hs HF. destruct sp as [s|]; cbn [balanced_counts chunk_lsh chunk_off] in *.
  - destruct (zcounts_ok (nth s sh 0) P HP) as (L & F & SM).
    { rewrite Forall_forall in Hsh. apply Hsh, nth_In; auto. }
    split; [rewrite map_length, seq_length; auto|]. split; [auto|]. split; [auto|]. split; [auto|]. split; [auto|].
    intros r t Ht. assert (Hr : (r < P)%nat) by (rewrite <- (seq_length P 0), <- (map_length f); apply nth_error_Some; congruence).
    assert (Et : t = f r).
    { rewrite nth_error_map in Ht. rewrite (nth_error_nth' _ 0%nat) in Ht by (rewrite seq_length; auto). rewrite seq_nth in Ht by auto. now injection Ht as <-. }
    subst t. specialize (HF r Hr). destruct (chunk_counts sh s r P HP Hr) as [E1 E2]. now rewrite E1, E2 in HF.
  - split; [now rewrite map_length, seq_length, repeat_length|]. split; [auto|]. intros t Ht. apply in_map_iff in Ht as (r & <- & Hr). apply in_seq in Hr. apply HF. lia.
Qed.

(** array(obj, split=...): every rank keeps its chunk of the object *)
Theorem C55_array_split : forall (A : Type) (P : nat) (t : arr A) (split : axis_arg) (sp : option nat),
  (0 < P)%nat -> Forall (fun n => 0 <= n) (ash t) -> asked_split (length (ash t)) split sp ->
  exists y, array_split P t split = Ok y /\ d_gshape y = ash t /\ d_split y = sp /\
    rep y (balanced_counts P (ash t) sp) (adat t).
Proof.
  intros A P t split sp HP Hsh HA. unfold array_split. rewrite (split_arg_ok _ _ _ HA). cbn [bind]. eexists. split; [reflexivity|].
  split; [reflexivity|]. split; [reflexivity|]. unfold rep. cbn [d_gshape d_split d_locals].
  apply chunked_represents; auto; [destruct sp; auto; eapply asked_lt; eauto|]. intros r Hr. destruct sp as [s|]; [|split; auto].
  destruct (Nat.eqb_spec P 1) as [->|N]; [|split; [reflexivity|intros; reflexivity]].
  assert (r = 0%nat) by lia. subst r. assert (Hs := asked_lt _ _ _ HA).
  assert (N0 : 0 <= nth s (ash t) 0) by (rewrite Forall_forall in Hsh; apply Hsh, nth_In; auto).
  cbn [chunk_lsh chunk_off]. destruct (chunk_counts (ash t) s 0 1 ltac:(lia) ltac:(lia)) as [-> ->].
  destruct (zcounts_ok (nth s (ash t) 0) 1 ltac:(lia) N0) as (L & _ & SM).
  destruct (zcounts (nth s (ash t) 0) 1) as [|c [|]]; try discriminate. unfold zsum in SM. cbn in SM. cbn [nth firstn]. replace c with (nth s (ash t) 0) by lia.
  assert (EU : forall (l : list Z) v, v = nth s l 0 -> upd l s v = l).
  { intros l v ->. apply (@nth_ext2 _ _ _ 0); [apply upd_length|]. intros i Hi. rewrite upd_length in Hi. destruct (Nat.eq_dec i s) as [->|]; [now rewrite upd_same|now rewrite upd_other]. }
  rewrite EU by auto. split; [reflexivity|]. intros idx Hi. unfold move_axis_idx. rewrite EU; auto. unfold zsum. cbn. lia.
Qed.
Print Assumptions C55_array_split.

(** local pieces fit together along axis [s]: same number of dimensions, same extents off [s] *)
Definition consistent {A} (ls : list (arr A)) (s : nat) : Prop :=
  forall t t', In t ls -> In t' ls ->
    length (ash t) = length (ash t') /\ forall k, (k < length (ash t))%nat -> k <> s -> nth k (ash t) 0 = nth k (ash t') 0.

Lemma fits_left_iff s l o : fits_left s l o = true <-> length l = length o /\ forall k, (k < length o)%nat -> k <> s -> nth k o 0 = nth k l 0.
Proof.
  unfold fits_left. rewrite andb_true_iff, Nat.eqb_eq, forallb_forall. split; intros [H1 H2]; (split; [auto|]).
  - intros k Hk Hn. specialize (H2 k ltac:(apply in_seq; lia)). apply orb_true_iff in H2 as [H2|H2]; [apply Nat.eqb_eq in H2; lia|lia].
  - intros k Hk. apply in_seq in Hk. destruct (Nat.eqb_spec k s); [auto|]. cbn. apply Z.eqb_eq. apply H2; lia.
Qed.
Lemma min_neg l : (fold_right Z.min 0 l <? 0) = true <-> exists z, In z l /\ z < 0.
Proof.
  rewrite Z.ltb_lt. induction l as [|a l IH]; cbn [fold_right].
  - split; [lia|intros (z & [] & _)].
  - split.
    + intros H. destruct (Z.lt_ge_cases a 0) as [L|L]; [exists a; simpl; auto|]. destruct IH as [IH _]. destruct IH as (z & Hz & Hn); [lia|]. exists z. simpl. auto.
    + intros (z & [->|Hz] & Hn); [lia|]. assert (fold_right Z.min 0 l < 0) by (apply IH; eauto). lia.
Qed.
Lemma min_nonneg l : (forall z, In z l -> 0 <= z) -> (fold_right Z.min 0 l <? 0) = false.
Proof. intros H. apply not_true_iff_false. intros E. apply min_neg in E as (z & Hz & Hn). specialize (H z Hz). lia. Qed.

Lemma upd_same_list (l : list Z) s v : v = nth s l 0 -> upd l s v = l.
Proof. intros ->. apply (@nth_ext2 _ _ _ 0); [apply upd_length|]. intros i Hi. rewrite upd_length in Hi. destruct (Nat.eq_dec i s) as [->|]; [now rewrite upd_same|now rewrite upd_other]. Qed.
Lemma upd_upd_same {B} (l : list B) s v w : upd (upd l s v) s w = upd l s w.
Proof. revert s. induction l as [|a l IH]; intros [|s]; cbn; auto. now rewrite IH. Qed.
Lemma forallb_seq_iff f n : forallb f (seq 0 n) = true <-> forall r, (r < n)%nat -> f r = true.
Proof. rewrite forallb_forall. split; intros H r Hr; apply H; [apply in_seq; lia|apply in_seq in Hr; lia]. Qed.

(** array(local, is_split=s) on pieces of a global array: the result is that array, and the
    cached balanced flag tells whether the pieces are the canonical chunks. *)
Theorem C55_array_is_split : forall (A : Type) (ls : list (arr A)) (s : nat) (G : list Z -> A) (gsh cnts : list Z),
  represents G gsh (Some s) cnts ls -> (0 < length ls)%nat ->
  exists y bal, array_is_split ls s = Ok (y, bal) /\ d_gshape y = gsh /\ d_split y = Some s /\ d_locals y = ls /\
    rep y cnts G /\ (bal = true <-> cnts = zcounts (nth s gsh 0) (length ls)).
Proof.
  intros A ls s G gsh cnts HR HP. assert (HR0 := HR). destruct HR as (HL & Hn & Hs & Hc & Hsum & HRr). set (P := length ls) in *.
  assert (N0 : 0 <= nth s gsh 0) by (rewrite Forall_forall in Hn; apply Hn, nth_In; auto).
  destruct (zcounts_ok (nth s gsh 0) P HP N0) as (LZ & FZ & SZ).
  assert (Sh : forall r, (r < P)%nat -> nth r (map ash ls) [] = upd gsh s (nth r cnts 0)).
  { intros r Hr. destruct (nth_error ls r) as [t|] eqn:Et; [|apply nth_error_None in Et; lia].
    erewrite nth_error_nth; [|rewrite nth_error_map, Et; reflexivity]. apply (HRr r t Et). }
  destruct (Nat.eq_dec P 1) as [E1|N1].
  - unfold P in E1. destruct ls as [|t [|]]; try discriminate. cbn [array_is_split].
    assert (Eg : ash t = gsh).
    { destruct cnts as [|c [|]]; cbn in HL; try discriminate. destruct (HRr 0%nat t eq_refl) as [S0 _]. cbn [nth] in S0. rewrite S0. apply upd_same_list. unfold zsum in Hsum. cbn in Hsum. lia. }
    rewrite Eg. eexists _, _. split; [reflexivity|]. repeat (split; [reflexivity|]). split; [exact HR0|]. split; [intros _|auto].
    destruct cnts as [|c [|]]; cbn in HL; try discriminate. unfold P in *. cbn [length] in *. destruct (zcounts (nth s gsh 0) 1) as [|c' [|]]; cbn in LZ; try discriminate.
    unfold zsum in *. cbn in *. f_equal. lia.
  - assert (EM : map (mark s (map ash ls)) (seq 0 P) = cnts).
    { apply (@nth_ext2 _ _ _ 0); [now rewrite map_length, seq_length|]. intros r Hr. rewrite map_length, seq_length in Hr.
      rewrite (@nth_map_seq _ (mark s (map ash ls))) by auto. unfold mark. rewrite (Sh r Hr).
      rewrite upd_same by lia. destruct r as [|r]; [auto|]. rewrite (Sh r) by lia.
      replace (fits_left s (upd gsh s (nth r cnts 0)) (upd gsh s (nth (S r) cnts 0))) with true; auto. symmetry. apply fits_left_iff. rewrite !upd_length. split; auto.
      intros k Hk Hne. now rewrite !upd_other. }
    unfold array_is_split. fold P. rewrite EM.
    assert (Eg : upd (nth 0 (map ash ls) []) s (zsum cnts) = gsh) by (rewrite (Sh 0%nat) by lia; rewrite upd_upd_same; now apply upd_same_list).
    rewrite Eg. rewrite min_nonneg by (intros z Hz; rewrite Forall_forall in Hc; auto).
    assert (EQ : (forallb (fun r => eqb_idx (chunk_shape gsh s r P) (nth r (map ash ls) [])) (seq 0 P) = true <-> cnts = zcounts (nth s gsh 0) P)).
    { rewrite forallb_seq_iff. split.
      - intros H. apply (@nth_ext2 _ _ _ 0); [lia|]. intros r Hr. specialize (H r ltac:(lia)). apply eqb_idx_eq in H. rewrite Sh in H by lia.
        destruct (chunk_counts gsh s r P HP ltac:(lia)) as [E _]. rewrite E in H. apply (f_equal (fun l => nth s l 0)) in H. rewrite !upd_same in H by auto. auto.
      - intros E r Hr. apply eqb_idx_eq. rewrite Sh by auto. destruct (chunk_counts gsh s r P HP Hr) as [E' _]. rewrite E'. now rewrite <- E. }
    destruct ls as [|t [|t' ls']]; [cbn in HP; lia|unfold P in N1; cbn in N1; lia|].
    eexists _, _. split; [reflexivity|]. repeat (split; [reflexivity|]). split; [exact HR0|exact EQ].
Qed.
Print Assumptions C55_array_is_split.

(** pieces that do not fit together are rejected, whichever two ranks disagree *)
Theorem C55_inconsistent_rejected : forall (A : Type) (ls : list (arr A)) (s : nat),
  (forall t, In t ls -> (s < length (ash t))%nat /\ Forall (fun n => 0 <= n) (ash t)) ->
  ~ consistent ls s -> array_is_split ls s = Err ValueError.
Proof.
  intros A ls s HW HN.
  assert (EX : exists r, (S r < length ls)%nat /\ fits_left s (nth r (map ash ls) []) (nth (S r) (map ash ls) []) = false).
  { destruct (existsb (fun r => negb (fits_left s (nth r (map ash ls) []) (nth (S r) (map ash ls) []))) (seq 0 (length ls - 1))) eqn:EE.
    - apply existsb_exists in EE as (r & Hr & E). apply in_seq in Hr. exists r. split; [lia|]. now apply negb_true_iff in E.
    - exfalso. apply HN. rewrite existsb_false_forall in EE.
      assert (C : forall r, (r < length ls)%nat -> length (nth r (map ash ls) []) = length (nth 0 (map ash ls) []) /\
         forall k, (k < length (nth 0 (map ash ls) []))%nat -> k <> s -> nth k (nth r (map ash ls) []) 0 = nth k (nth 0 (map ash ls) []) 0).
      { induction r as [|r IH]; intros Hr; [auto|]. destruct (IH ltac:(lia)) as [I1 I2]. specialize (EE r ltac:(apply in_seq; lia)). apply negb_false_iff in EE.
        apply fits_left_iff in EE as [F1 F2]. split; [lia|]. intros k Hk Hne. rewrite F2 by lia. auto. }
      assert (V : forall t, In t ls -> exists r, (r < length ls)%nat /\ nth r (map ash ls) [] = ash t).
      { intros t Ht. apply In_nth_error in Ht as (r & Ht). exists r. split; [apply nth_error_Some; congruence|]. apply nth_error_nth. now rewrite nth_error_map, Ht. }
      intros t t' Ht Ht'. destruct (V t Ht) as (r & Hr & E). destruct (V t' Ht') as (r' & Hr' & E'). rewrite <- E, <- E'.
      destruct (C r Hr) as [A1 A2]. destruct (C r' Hr') as [B1 B2]. split; [lia|]. intros k Hk Hne. rewrite A2, B2 by lia. auto. }
  destruct EX as (r & Hr & F). unfold array_is_split.
  assert (EM : (fold_right Z.min 0 (map (mark s (map ash ls)) (seq 0 (length ls))) <? 0) = true).
  { apply min_neg. exists MIN64. split; [|reflexivity]. apply in_map_iff. exists (S r). split; [|apply in_seq; lia]. unfold mark. now rewrite F. }
  rewrite EM. destruct ls as [|t [|t' ls']]; cbn in Hr; try lia. reflexivity.
Qed.
Print Assumptions C55_inconsistent_rejected.

(** * zeros, ones, full, empty *)
Theorem C56_full : forall (A : Type) (P : nat) (sh : list Z) (v : A) (split : axis_arg) (sp : option nat),
  (0 < P)%nat -> Forall (fun n => 0 <= n) sh -> asked_split (length sh) split sp ->
  exists y, full P sh v split = Ok y /\ d_gshape y = sh /\ d_split y = sp /\
    rep y (balanced_counts P sh sp) (fun _ => v).
Proof.
  intros A P sh v split sp HP Hsh HA. unfold full.
  replace (existsb (fun n => n <? 0) sh) with false by (symmetry; apply existsb_false_forall; intros x Hx; rewrite Forall_forall in Hsh; specialize (Hsh x Hx); lia).
  rewrite (split_arg_ok _ _ _ HA). cbn [bind]. eexists. split; [reflexivity|]. split; [reflexivity|]. split; [reflexivity|]. unfold rep. cbn.
  apply chunked_represents; auto; [destruct sp; auto; eapply asked_lt; eauto|]. intros r Hr. split; auto.
Qed.
Print Assumptions C56_full.

(** * eye: ones exactly on the global diagonal *)
Lemma eye_pos_in is0 is1 off n m : 0 <= off -> forall k i p, In p (eye_pos is0 is1 off n m k i) <->
  exists j, i <= j < i + Z.of_nat k /\ fst p = (if is0 then j else j + off) /\ snd p = (if is1 then j else j + off) /\ fst p < n /\ snd p < m.
Proof.
  intros Ho. induction k as [|k IH]; intros i p; cbn [eye_pos].
  - split; [intros []|intros (j & H & _); lia].
  - set (px := if is0 then i else i + off). set (py := if is1 then i else i + off).
    destruct ((n <=? px) || (m <=? py)) eqn:E.
    + split; [intros []|]. intros (j & Hj & H1 & H2 & H3 & H4). apply orb_true_iff in E. unfold px, py in E.
      destruct E as [E|E]; destruct is0, is1; lia.
    + apply orb_false_iff in E as [E1 E2]. cbn [In]. rewrite IH. split.
      * intros [<-|(j & Hj & R)]; [exists i|exists j]; cbn [fst snd]; repeat split; try lia; tauto.
      * intros (j & Hj & H1 & H2 & H3 & H4). destruct (Z.eq_dec j i) as [->|]; [left; destruct p; cbn in *; unfold px, py; congruence|].
        right. exists j. repeat split; auto; lia.
Qed.
Theorem C56_eye : forall (P : nat) (n m : Z) (split : axis_arg) (sp : option nat),
  (0 < P)%nat -> 0 <= n -> 0 <= m -> asked_split 2 split sp ->
  exists y, eye P n m split = Ok y /\ d_gshape y = [n; m] /\ d_split y = sp /\
    rep y (balanced_counts P [n; m] sp) (fun idx => if nth 0 idx 0 =? nth 1 idx 0 then 1 else 0).
Proof.
  intros P n m split sp HP Hn Hm HA. unfold eye. rewrite (split_arg_ok _ _ _ HA). cbn [bind]. eexists. split; [reflexivity|]. split; [reflexivity|]. split; [reflexivity|].
  unfold rep. cbn [d_gshape d_split d_locals]. apply chunked_represents; auto; [destruct sp; auto; eapply asked_lt in HA; auto|]. intros r Hr.
  split; [reflexivity|]. intros idx Hi. pose proof (in_bounds_length _ _ Hi) as Li. apply in_bounds_nth in Hi as [_ Hi].
  set (lsh := chunk_lsh [n; m] sp r P) in *. assert (LL : length lsh = 2%nat) by (unfold lsh, chunk_lsh, chunk_shape; destruct sp; rewrite ?upd_length; reflexivity).
  destruct idx as [|i [|j [|]]]; try (cbn in Li; lia). pose proof (Hi 0%nat ltac:(lia)) as B0. pose proof (Hi 1%nat ltac:(lia)) as B1. cbn [nth] in B0, B1. cbn [adat nth].
  assert (Ho : 0 <= chunk_off [n; m] sp r P) by (unfold chunk_off, chunk_start; destruct sp; lia).
  set (ones := eye_pos _ _ _ _ _ _ _).
  assert (EB : existsb (fun p => (fst p =? i) && (snd p =? j)) ones = true <-> In (i, j) ones).
  { rewrite existsb_exists. split; [intros ([a b] & Hp & E); apply andb_true_iff in E as [E1 E2]; cbn in E1, E2; replace i with a by lia; replace j with b by lia; auto|intros H; exists (i, j); cbn; split; auto; lia]. }
  assert (EI : In (i, j) ones <-> (match sp with Some O => j = i + chunk_off [n; m] sp r P | Some _ => i = j + chunk_off [n; m] sp r P | None => i = j end)).
  { unfold ones. rewrite eye_pos_in by auto. cbn [fst snd].
    assert (s2 : match sp with Some s => (s < 2)%nat | None => True end) by (destruct sp; auto; eapply asked_lt in HA; auto).
    destruct sp as [[|[|]]|]; cbn [chunk_off] in *.
    - split; [intros (k & Hk & -> & -> & _); lia|intros ->; exists i; lia].
    - split; [intros (k & Hk & -> & -> & _); lia|intros ->; exists j; lia].
    - lia.
    - split; [intros (k & Hk & -> & -> & _); lia|intros ->; exists j; lia]. }
  assert (s2 : match sp with Some s => (s < 2)%nat | None => True end) by (destruct sp; auto; eapply asked_lt in HA; auto).
  destruct (existsb _ ones) eqn:E.
  - assert (HI := proj1 EI (proj1 EB eq_refl)). destruct sp as [[|[|]]|]; try lia; unfold move_axis_idx; cbn [nth upd]; match goal with |- 1 = (if ?a =? ?b then _ else _) => destruct (Z.eqb_spec a b); lia end.
  - assert (HI : ~ In (i, j) ones) by (intros H; apply EB in H; congruence). rewrite EI in HI.
    destruct sp as [[|[|]]|]; try lia; unfold move_axis_idx; cbn [nth upd]; match goal with |- 0 = (if ?a =? ?b then _ else _) => destruct (Z.eqb_spec a b); lia end.
Qed.
Print Assumptions C56_eye.

(** * arange of integers: the elements are start, start + step, ... before stop *)
Lemma cdiv_spec a b i : b <> 0 -> 0 <= i -> (i < cdiv a b <-> (if 0 <? b then i * b < a else a < i * b)).
Proof.
  intros Hb Hi. unfold cdiv. pose proof (Z.div_mod (- a) b Hb) as E. set (q := - a / b) in *. set (m := (- a) mod b) in *.
  destruct (Z.ltb_spec 0 b) as [L|L].
  - pose proof (Z.mod_pos_bound (- a) b L) as M. fold m in M. nia.
  - pose proof (Z.mod_neg_bound (- a) b ltac:(lia)) as M. fold m in M. nia.
Qed.
Lemma cdiv_mul k b : b <> 0 -> cdiv (k * b) b = k.
Proof. intros H. unfold cdiv. rewrite <- Z.mul_opp_l, Z.div_mul by auto. lia. Qed.
Theorem C56_arange : forall (P : nat) (start stop step : Z) (split : axis_arg) (sp : option nat),
  (0 < P)%nat -> step <> 0 -> (if 0 <? step then start <= stop else stop <= start) -> asked_split 1 split sp ->
  exists y num, arange P start stop step split = Ok y /\ d_gshape y = [num] /\ d_split y = sp /\
    0 <= num /\ (forall i, 0 <= i -> (i < num <-> if 0 <? step then start + i * step < stop else stop < start + i * step)) /\
    rep y (balanced_counts P [num] sp) (fun idx => start + nth 0 idx 0 * step).
Proof.
  intros P start stop step split sp HP H0 HD HA. unfold arange. destruct (Z.eqb_spec step 0) as [|_]; [lia|].
  set (num := cdiv (stop - start) step).
  assert (HN : 0 <= num).
  { unfold num, cdiv. pose proof (Z.div_mod (- (stop - start)) step H0) as E. set (q := - (stop - start) / step) in *.
    destruct (Z.ltb_spec 0 step) as [L|L]; [pose proof (Z.mod_pos_bound (- (stop - start)) step L)|pose proof (Z.mod_neg_bound (- (stop - start)) step ltac:(lia))]; nia. }
  assert (HI : forall i, 0 <= i -> (i < num <-> if 0 <? step then start + i * step < stop else stop < start + i * step)).
  { intros i Hi. unfold num. rewrite cdiv_spec by auto. destruct (0 <? step); lia. }
  rewrite (split_arg_ok _ _ _ HA). cbn [bind].
  set (f := fun r => mk_arr (chunk_lsh [num] sp r P) (fun idx => start + chunk_off [num] sp r P * step + nth 0 idx 0 * step)).
  rewrite all_ok_map with (g := f).
  2:{ intros r Hr. apply in_seq in Hr. set (st := start + chunk_off [num] sp r P * step). set (len := nth 0 (chunk_lsh [num] sp r P) 0).
      assert (HL : 0 <= len /\ [len] = chunk_lsh [num] sp r P).
      { unfold len, chunk_lsh, chunk_shape. destruct sp as [s|]; [|cbn; auto]. assert (Hs := asked_lt _ _ _ HA). assert (s = 0%nat) by lia. subst s. cbn. split; [lia|auto]. }
      unfold torch_arange. destruct (Z.eqb_spec step 0); [lia|].
      replace ((0 <? step) && (st + len * step <? st)) with false by (symmetry; apply andb_false_iff; destruct (Z.ltb_spec 0 step); [right; apply Z.ltb_ge; nia|auto]).
      replace ((step <? 0) && (st <? st + len * step)) with false by (symmetry; apply andb_false_iff; destruct (Z.ltb_spec step 0); [right; apply Z.ltb_ge; nia|auto]).
      f_equal. unfold f. replace (st + len * step - st) with (len * step) by lia. rewrite cdiv_mul by auto. destruct HL as [_ <-]. reflexivity. }
  cbn [bind]. eexists _, num. split; [reflexivity|]. split; [reflexivity|]. split; [reflexivity|]. split; [auto|]. split; [auto|].
  unfold rep. cbn [d_gshape d_split d_locals]. apply chunked_represents; auto; [destruct sp; auto; eapply asked_lt in HA; auto|].
  intros r Hr. split; [reflexivity|]. intros idx Hi. cbn [adat f]. destruct sp as [s|]; cbn [chunk_off]; [|lia].
  assert (s = 0%nat) by (pose proof (asked_lt _ _ _ HA); lia). subst s. pose proof (in_bounds_length _ _ Hi) as Li. destruct idx as [|i [|]]; try (cbn in Li; discriminate).
  unfold move_axis_idx. cbn [nth upd]. lia.
Qed.
Print Assumptions C56_arange.
(** Refuted: an empty range is an error instead of an empty array. *)
Theorem C56_arange_empty_refuted : forall (P : nat) (start stop step : Z), (0 < P)%nat -> 0 < step -> stop + step <= start ->
  arange P start stop step AxNone = Err RuntimeError.
Proof.
  intros P start stop step HP Hs HL. unfold arange. destruct (Z.eqb_spec step 0); [lia|]. cbn [split_arg sanitize_axis bind Nat.eqb chunk_off chunk_lsh nth].
  destruct P; [lia|]. cbn [seq map all_ok]. set (num := cdiv (stop - start) step).
  assert (num < 0).
  { unfold num, cdiv. pose proof (Z.div_mod (- (stop - start)) step n) as E. pose proof (Z.mod_pos_bound (- (stop - start)) step Hs). nia. }
  unfold torch_arange. destruct (Z.eqb_spec step 0); [lia|].
  replace ((0 <? step) && (start + 0 * step + num * step <? start + 0 * step)) with true; [reflexivity|]. symmetry. apply andb_true_iff. split; [lia|]. apply Z.ltb_lt. nia.
Qed.
Print Assumptions C56_arange_empty_refuted.

(** * linspace (exact arithmetic): the i-th point is start + i * step whatever the process count *)
Theorem C56_linspace : forall (P : nat) (start stop : Q) (num : Z) (endpoint : bool) (split : axis_arg) (sp : option nat),
  (0 < P)%nat -> 0 <= num -> asked_split 1 split sp ->
  exists y G, linspace P start stop num endpoint split = Ok y /\ d_gshape y = [num] /\ d_split y = sp /\
    rep y (balanced_counts P [num] sp) G /\
    forall i, (0 <= i < num)%Z ->
      (G [i] == start + inject_Z i * ((stop - start) / inject_Z (Z.max 1 (if endpoint then num - 1 else num))))%Q.
Proof.
  intros P start stop num endpoint split sp HP Hn HA. unfold linspace. destruct (Z.ltb_spec num 0); [lia|].
  rewrite (split_arg_ok _ _ _ HA). cbn [bind]. set (step := lin_step start stop num endpoint).
  eexists _, (fun idx => Qred (start + inject_Z (nth 0%nat idx 0%Z) * step)). split; [reflexivity|]. split; [reflexivity|]. split; [reflexivity|]. split.
  2:{ intros i _. apply Qred_correct. }
  unfold rep. cbn [d_gshape d_split d_locals]. apply chunked_represents; auto; [destruct sp; auto; eapply asked_lt in HA; auto|].
  intros r Hr. set (n := nth 0 (chunk_lsh [num] sp r P) 0). set (off := chunk_off [num] sp r P).
  assert (HL : 0 <= n /\ [n] = chunk_lsh [num] sp r P).
  { unfold n, chunk_lsh, chunk_shape. destruct sp as [s|]; [|cbn; auto]. assert (Hs := asked_lt _ _ _ HA). assert (s = 0%nat) by lia. subst s. cbn. split; [lia|auto]. }
  destruct HL as [HL1 HL2]. split; [cbn [torch_linspace ash]; auto|]. intros idx Hi. rewrite <- HL2 in Hi.
  pose proof (in_bounds_length _ _ Hi) as Li. destruct idx as [|i [|]]; try (cbn in Li; discriminate). assert (B : 0 <= i < n) by (inversion Hi; auto).
  cbn [torch_linspace adat nth]. apply Qred_complete.
  replace (nth 0 match sp with Some s => move_axis_idx s off [i] | None => [i] end 0) with (off + i).
  2:{ destruct sp as [s|]; [|unfold off; cbn; lia]. assert (s = 0%nat) by (pose proof (asked_lt _ _ _ HA); lia). subst s. unfold move_axis_idx. cbn. lia. }
  rewrite inject_Z_plus. destruct (Z.eqb_spec n 1) as [E|E].
  - assert (i = 0) by lia. subst i. ring.
  - assert (NZ : ~ (inject_Z (n - 1) == 0)%Q) by (unfold Qeq; cbn; lia).
    setoid_replace (start + inject_Z off * step + inject_Z n * step - step - (start + inject_Z off * step))%Q with (inject_Z (n - 1) * step)%Q.
    2:{ unfold Z.sub. rewrite inject_Z_plus. change (inject_Z (- (1))) with (- (1))%Q. ring. }
    setoid_replace (inject_Z (n - 1) * step / inject_Z (n - 1))%Q with step; [ring|]. field. auto.
Qed.
Print Assumptions C56_linspace.

(** non-trivial cases *)
Example C55_example : exists y, array_is_split [mk_arr [2; 3] (fun i => dot i [3; 1]); mk_arr [0; 3] (fun _ => 0); mk_arr [1; 3] (fun i => 6 + dot i [3; 1])] 0 = Ok (y, false) /\
  d_gshape y = [3; 3].
Proof. eexists. split; vm_compute; reflexivity. Qed.
Example C55_reject_example : array_is_split [mk_arr [2; 3] (fun _ => 0); mk_arr [2; 4] (fun _ => 0); mk_arr [1; 3] (fun _ => 0)] 0 = Err ValueError.
Proof. reflexivity. Qed.
Example C56_eye_example : exists y, eye 3 4 5 (AxInt (-1)) = Ok y /\ map flat (d_locals y) = [[1;0;0;1;0;0;0;0]; [0;0;0;0;1;0;0;1]; [0;0;0;0]].
Proof. eexists. split; vm_compute; reflexivity. Qed.
Example C56_arange_example : exists y, arange 3 10 (-1) (-2) (AxInt 0) = Ok y /\ map flat (d_locals y) = [[10; 8]; [6; 4]; [2; 0]].
Proof. eexists. split; vm_compute; reflexivity. Qed.
Example C56_linspace_example : exists y, linspace 2 0%Q 1%Q 5 true (AxInt 0) = Ok y /\ map flat (d_locals y) = [[0; 1#4; 1#2]; [3#4; 1]]%Q.
Proof. eexists. split; vm_compute; reflexivity. Qed.
