(** The rebalancing loop of ht.sort computes the interval overlap matrix whenever the
    cumulated bucket sizes do not run ahead of the targets by more than one rank. *)
From Verif Require Import Base BaseLemmas LayoutModel NdSpec TensorSpec NdLemmas OpsModel OpsProofs4 BinModel SortModel.
Open Scope Z_scope.

Lemma cumsum_from_length s l : length (cumsum_from s l) = length l.
Proof. revert s; induction l; intros; cbn; auto. Qed.
Lemma cumsum_from_nth l : forall s i, (i < length l)%nat -> nth i (cumsum_from s l) 0 = s + zsum (firstn (S i) l).
Proof.
  induction l as [|x l IH]; intros s i Hi; cbn [length] in Hi; [lia|]. destruct i as [|i]; cbn [cumsum_from nth]; [cbn; lia|].
  rewrite IH by lia. change (zsum (firstn (S (S i)) (x :: l))) with (x + zsum (firstn (S i) l)). lia.
Qed.
Lemma cumsum_nth l i : (i < length l)%nat -> nth i (cumsum l) 0 = zsum (firstn (S i) l).
Proof. intros. unfold cumsum. rewrite cumsum_from_nth by auto. lia. Qed.

Lemma next_idx_spec f : forall m s j, (s <= j < s + m)%nat -> (forall i, (s <= i < j)%nat -> f i = false) -> f j = true -> next_idx f (seq s m) = Ok j.
Proof.
  induction m as [|m IH]; intros s j Hj H1 H2; [lia|]. cbn [seq next_idx]. destruct (Nat.eq_dec s j) as [->|N]; [now rewrite H2|].
  rewrite (H1 s) by lia. apply IH; auto; [lia|]. intros i Hi. apply H1. lia.
Qed.
(** the least index satisfying f *)
Lemma least f : forall m s, (exists j, (s <= j < s + m)%nat /\ f j = true) -> exists j, (s <= j < s + m)%nat /\ f j = true /\ (forall i, (s <= i < j)%nat -> f i = false) /\ next_idx f (seq s m) = Ok j.
Proof.
  induction m as [|m IH]; intros s (j & Hj & E); [lia|]. destruct (f s) eqn:Es.
  - exists s. split; [lia|]. split; [auto|]. split; [intros; lia|]. cbn. now rewrite Es.
  - destruct (IH (S s)) as (j' & H1 & H2 & H3 & H4); [exists j; split; auto; assert (j <> s) by congruence; lia|].
    exists j'. split; [lia|]. split; [auto|]. split; [intros i Hi; destruct (Nat.eq_dec i s) as [->|]; auto; apply H3; lia|]. cbn. now rewrite Es.
Qed.

(** matrices as functions *)
Definition mat (m : list (list Z)) (i j : nat) : Z := nth j (nth i m []) 0.
Definition wf (P : nat) (m : list (list Z)) : Prop := length m = P /\ forall i, (i < P)%nat -> length (nth i m []) = P.
Lemma wf_set2 P m p i v : wf P m -> wf P (set2 m p i v).
Proof.
  intros [H1 H2]. unfold set2. split; [now rewrite upd_length|]. intros k Hk. destruct (Nat.eq_dec k p) as [->|N]; [rewrite upd_same by lia; rewrite upd_length; auto|rewrite upd_other by auto; auto].
Qed.
Lemma mat_set2 P m p i v a b : wf P m -> (p < P)%nat -> (i < P)%nat -> mat (set2 m p i v) a b = if Nat.eqb a p && Nat.eqb b i then v else mat m a b.
Proof.
  intros [H1 H2] Hp Hi. unfold mat, set2. destruct (Nat.eqb_spec a p) as [->|N]; cbn [andb].
  - rewrite upd_same by lia. destruct (Nat.eqb_spec b i) as [->|N]; [rewrite upd_same; auto; rewrite H2; auto|rewrite upd_other by auto; auto].
  - rewrite upd_other by auto. auto.
Qed.
Fixpoint sum_n (f : nat -> Z) (n : nat) : Z := match n with O => 0 | S k => sum_n f k + f k end.
Lemma sum_n_ext f g n : (forall i, (i < n)%nat -> f i = g i) -> sum_n f n = sum_n g n.
Proof. induction n as [|n IH]; intros H; cbn; auto. rewrite IH by (intros; apply H; lia). now rewrite H by lia. Qed.
Lemma sum_n_0 f n : (forall i, (i < n)%nat -> f i = 0) -> sum_n f n = 0.
Proof. induction n as [|n IH]; intros H; cbn; auto. rewrite IH by (intros; apply H; lia). rewrite H by lia. lia. Qed.
Lemma sum_n_tail f n m : (n <= m)%nat -> (forall i, (n <= i < m)%nat -> f i = 0) -> sum_n f m = sum_n f n.
Proof. induction 1 as [|m Hm IH]; intros H; auto. cbn. rewrite IH by (intros; apply H; lia). rewrite H by lia. lia. Qed.
Lemma zsum_firstn_sum_n l n : (n <= length l)%nat -> zsum (firstn n l) = sum_n (fun i => nth i l 0) n.
Proof. induction n as [|n IH]; intros H; [reflexivity|]. rewrite zsum_firstn_S by lia. cbn. rewrite IH by lia. reflexivity. Qed.
Lemma zsum_sum_n l : zsum l = sum_n (fun i => nth i l 0) (length l).
Proof. rewrite <- zsum_firstn_sum_n by lia. now rewrite firstn_all. Qed.
Lemma col_sum_mat P m i : wf P m -> col_sum m i = sum_n (fun p => mat m p i) P.
Proof.
  intros [H1 H2]. unfold col_sum. rewrite zsum_sum_n, map_length, H1. apply sum_n_ext. intros p Hp. unfold mat.
  rewrite (@nth_indep _ _ _ 0 (nth i (@nil Z) 0)) by (rewrite map_length; lia). now rewrite (map_nth (fun row => nth i row 0)).
Qed.
Lemma row_sum_mat P m p k : wf P m -> (p < P)%nat -> (k <= P)%nat -> zsum (firstn k (nth p m [])) = sum_n (fun j => mat m p j) k.
Proof. intros [H1 H2] Hp Hk. rewrite zsum_firstn_sum_n by (rewrite H2; auto). reflexivity. Qed.
Lemma row_total P m p : wf P m -> (p < P)%nat -> zsum (nth p m []) = sum_n (fun j => mat m p j) P.
Proof. intros W Hp. rewrite <- (row_sum_mat P) by auto. destruct W as [_ W]. now rewrite firstn_all2 by (rewrite W; auto). Qed.

(** length of the intersection of [a i, a (i+1)) and [t j, t (j+1)) *)
Definition overlap (a t : nat -> Z) (i j : nat) : Z := Z.max 0 (Z.min (a (S i)) (t (S j)) - Z.max (a i) (t j)).

Section Loop.
Variables (P : nat) (pm counts : list Z).
Hypothesis LP : length pm = P.
Hypothesis LCn : length counts = P.
Hypothesis NP : Forall (fun c => 0 <= c) pm.
Hypothesis NC : Forall (fun c => 0 <= c) counts.
Hypothesis SS : zsum pm = zsum counts.
Let a (i : nat) : Z := zsum (firstn i pm).
Let t (j : nat) : Z := zsum (firstn j counts).
Hypothesis AHEAD : forall q, (S q < P)%nat -> a (S q) <= t (S (S q)).
(** ranks without elements come last *)
Hypothesis PREF : forall k, (k < P)%nat -> nth k counts 0 = 0 -> t k = t P.
Notation O_ := (overlap a t).

Lemma a_S i : (i < P)%nat -> a (S i) = a i + nth i pm 0.
Proof. intros. unfold a. apply zsum_firstn_S. lia. Qed.
Lemma t_S i : (i < P)%nat -> t (S i) = t i + nth i counts 0.
Proof. intros. unfold t. apply zsum_firstn_S. lia. Qed.
Lemma a_mono i j : (i <= j)%nat -> a i <= a j.
Proof. intros. apply zsum_firstn_mono; auto. Qed.
Lemma t_mono i j : (i <= j)%nat -> t i <= t j.
Proof. intros. apply zsum_firstn_mono; auto. Qed.
Lemma a_end : a P = t P.
Proof. unfold a, t. rewrite !firstn_all2 by lia. auto. Qed.
Lemma a_le i : a i <= a P.
Proof. destruct (Nat.le_gt_cases i P); [now apply a_mono|]. unfold a. rewrite !firstn_all2 by lia. lia. Qed.
Lemma a_0 : a 0 = 0. Proof. reflexivity. Qed.
Lemma t_0 : t 0 = 0. Proof. reflexivity. Qed.
Lemma pm_nonneg i : 0 <= nth i pm 0.
Proof. destruct (Nat.lt_ge_cases i (length pm)); [|rewrite nth_overflow by auto; lia]. rewrite Forall_forall in NP. apply NP, nth_In; auto. Qed.
Lemma c_nonneg i : 0 <= nth i counts 0.
Proof. destruct (Nat.lt_ge_cases i (length counts)); [|rewrite nth_overflow by auto; lia]. rewrite Forall_forall in NC. apply NC, nth_In; auto. Qed.
Lemma a_ahead k : (k < P)%nat -> a k <= t (S k).
Proof. intros H. destruct k as [|k]; [rewrite a_0; rewrite <- t_0; apply t_mono; lia|]. apply AHEAD; auto. Qed.

Lemma O_row i k : sum_n (O_ i) k = Z.min (a (S i)) (t k) - Z.min (a i) (t k).
Proof.
  assert (H0 := a_mono i (S i) ltac:(lia)). assert (H00 := a_mono 0 i ltac:(lia)). rewrite a_0 in H00.
  induction k as [|k IH]; cbn [sum_n]; [rewrite t_0; lia|]. rewrite IH. unfold overlap. assert (H1 := t_mono k (S k) ltac:(lia)). lia.
Qed.
Lemma O_col j k : sum_n (fun i => O_ i j) k = Z.min (a k) (t (S j)) - Z.min (a k) (t j).
Proof.
  assert (H0 := t_mono j (S j) ltac:(lia)). assert (H00 := t_mono 0 j ltac:(lia)). rewrite t_0 in H00.
  induction k as [|k IH]; cbn [sum_n]; [rewrite a_0; lia|]. rewrite IH. unfold overlap. assert (H1 := a_mono k (S k) ltac:(lia)). lia.
Qed.

(** the state before turn k *)
Definition inv (k : nat) (sv : list (list Z)) (cur : list Z) : Prop :=
  wf P sv /\ length cur = P /\
  (forall i j, (i < P)%nat -> (j < P)%nat -> mat sv i j = if (i <? k)%nat || (j <? k)%nat then O_ i j else 0) /\
  (forall j, (j <= P)%nat -> zsum (firstn j cur) = if (j <=? k)%nat then t j else Z.max (a j) (t k)).

Lemma inv_init : inv 0 (repeat (repeat 0 P) P) pm.
Proof.
  split; [|split; [auto|split]].
  - split; [apply repeat_length|]. intros i Hi. rewrite (nth_indep _ _ (repeat 0 P)) by (rewrite repeat_length; auto). rewrite nth_repeat. apply repeat_length.
  - intros i j Hi Hj. unfold mat. rewrite (nth_indep _ _ (repeat 0 P)) by (rewrite repeat_length; auto). rewrite nth_repeat. cbn. apply nth_repeat.
  - intros j Hj. fold (a j). destruct (Nat.leb_spec j 0) as [H|H]; [assert (j = 0)%nat by lia; subst; reflexivity|]. rewrite t_0. assert (X := a_mono 0 j ltac:(lia)). rewrite a_0 in X. lia.
Qed.

Lemma cur_nth k sv cur j : inv k sv cur -> (j < P)%nat -> nth j cur 0 = zsum (firstn (S j) cur) - zsum (firstn j cur).
Proof. intros (_ & L & _) Hj. rewrite zsum_firstn_S by lia. lia. Qed.

(** column sums and row sums of the current state *)
Lemma inv_col k sv cur j : inv k sv cur -> (k < P)%nat -> (j < P)%nat ->
  col_sum sv j = if (j <? k)%nat then nth j counts 0 else Z.min (a k) (t (S j)) - Z.min (a k) (t j).
Proof.
  intros (W & _ & M & _) Hk Hj. rewrite (col_sum_mat P) by auto. destruct (Nat.ltb_spec j k) as [H|H].
  - rewrite (sum_n_ext _ (fun i => O_ i j)) by (intros i Hi; rewrite M by auto; replace ((i <? k)%nat || (j <? k)%nat) with true by lia; auto).
    rewrite O_col, a_end. assert (X := t_mono (S j) P ltac:(lia)). assert (Y := t_mono j (S j) ltac:(lia)). rewrite t_S in * by auto. lia.
  - rewrite (sum_n_tail _ k P) by (try lia; intros i Hi; rewrite M by (auto; lia); replace ((i <? k)%nat || (j <? k)%nat) with false by lia; auto).
    rewrite (sum_n_ext _ (fun i => O_ i j)) by (intros i Hi; rewrite M by lia; replace ((i <? k)%nat || (j <? k)%nat) with true by lia; auto). apply O_col.
Qed.
Lemma inv_row k sv cur i : inv k sv cur -> (k <= i < P)%nat -> zsum (nth i sv []) = Z.min (a (S i)) (t k) - Z.min (a i) (t k).
Proof.
  intros (W & _ & M & _) Hi. rewrite (row_total P) by (auto; lia).
  rewrite (sum_n_tail _ k P) by (try lia; intros j Hj; rewrite M by (auto; lia); replace ((i <? k)%nat || (j <? k)%nat) with false by lia; auto).
  rewrite <- O_row. apply sum_n_ext. intros j Hj. rewrite M by lia. replace ((i <? k)%nat || (j <? k)%nat) with true by lia. auto.
Qed.

(** ** surplus *)
Lemma surplus_ok k sv cur : inv k sv cur -> (k < P)%nat -> t (S k) < a (S k) ->
  exists sv' cur', surplus pm counts k (cumsum cur) sv cur = Ok (sv', cur') /\ inv (S k) sv' (upd cur' k (nth k counts 0)).
Proof.
  intros I Hk HS. pose proof I as (W & LC & M & CC). unfold surplus. rewrite LCn.
  assert (HkP : (S k < P)%nat). { assert (X := a_le (S k)). rewrite a_end in X. assert (S k <> P) by (intros E; rewrite E in *; lia). lia. }
  assert (AK := a_ahead k Hk). assert (AK1 := AHEAD k HkP). assert (AM := a_mono k (S k) ltac:(lia)). assert (TM := t_mono k (S k) ltac:(lia)).
  (* first *)
  set (f1 := fun i => col_sum sv i <? nth i counts 0).
  assert (CS := fun j Hj => inv_col k sv cur j I Hk Hj).
  assert (F1 : forall j, (j < P)%nat -> f1 j = true <-> (k <= j)%nat /\ Z.min (a k) (t (S j)) - Z.min (a k) (t j) < t (S j) - t j).
  { intros j Hj. unfold f1. rewrite CS by auto. rewrite t_S by auto. destruct (Nat.ltb_spec j k); lia. }
  destruct (least f1 P 0) as (fi & Fi1 & Fi2 & Fi3 & ->).
  { exists (S k). split; [lia|]. apply F1; [lia|]. split; [lia|]. lia. }
  cbn [bind]. apply F1 in Fi2 as [Fi2 Fi4]; [|lia].
  (* columns between k and fi take nothing from row k *)
  assert (SKIP : forall j, (k <= j < fi)%nat -> O_ k j = 0).
  { intros j Hj. assert (E := Fi3 j ltac:(lia)). assert (E' : ~ (f1 j = true)) by congruence. rewrite F1 in E' by lia. assert (X := t_mono j (S j) ltac:(lia)). assert (Y := t_mono k j ltac:(lia)). unfold overlap. destruct (Nat.eq_dec j k) as [->|N]; [lia|]. assert (t (S k) <= t j) by (apply t_mono; lia). lia. }
  (* last *)
  set (f2 := fun i => Nat.eqb i P || (nth k (cumsum cur) 0 <? nth i (tc counts) 0)).
  assert (CK : nth k (cumsum cur) 0 = a (S k)). { rewrite cumsum_nth by lia. rewrite CC by lia. replace (S k <=? k)%nat with false by lia. lia. }
  assert (F2 : forall j, (j < P)%nat -> f2 j = true <-> a (S k) < t (S j)).
  { intros j Hj. unfold f2. rewrite CK. unfold tc. rewrite cumsum_nth by lia. fold (t (S j)). replace (Nat.eqb j P) with false by lia. cbn [orb]. lia. }
  destruct (least f2 (S P) 0) as (la & La1 & La2 & La3 & ->).
  { exists P. split; [lia|]. unfold f2. now rewrite Nat.eqb_refl. }
  cbn [bind].
  assert (LaB : forall j, (j < la)%nat -> t (S j) <= a (S k)).
  { intros j Hj. assert (E := La3 j ltac:(lia)). assert (E' : ~ (f2 j = true)) by congruence. rewrite F2 in E' by lia. lia. }
  assert (LaK : (k < la)%nat). { destruct (Nat.le_gt_cases la k) as [H|H]; [|auto]. exfalso. assert (la < P)%nat by lia. apply F2 in La2; [|auto]. assert (t (S la) <= t (S k)) by (apply t_mono; lia). lia. }
  assert (FiLa : (fi <= la)%nat).
  { destruct (Nat.le_gt_cases fi la) as [H|H]; [auto|]. exfalso. assert (H' : (la < P)%nat) by lia. apply F2 in La2; [|auto]. assert (Z0 := SKIP la ltac:(lia)). unfold overlap in Z0.
    assert (a k <= t la). { apply Z.le_trans with (t (S k)); [auto|]. apply t_mono. lia. } assert (t la < a (S k)); [|lia].
    assert (forall d, (d < fi - k)%nat -> t (S (k + d)) = t (S k)) as FLAT.
    { induction d as [|d IH]; intros Hd; [now rewrite Nat.add_0_r|]. assert (Z1 := SKIP (k + S d)%nat ltac:(lia)). unfold overlap in Z1. rewrite <- plus_n_Sm in *. cbn [plus] in *. rewrite IH in Z1 by lia. assert (X := t_mono (S (k + d)) (S (S (k + d))) ltac:(lia)). rewrite IH in X by lia. lia. }
    assert (t (S (k + (la - 1 - k))) = t (S k)) as E by (apply FLAT; lia). replace (S (k + (la - 1 - k)))%nat with la in E by lia. lia. }
  (* the fold *)
  set (stepf := fun (s : list (list Z) * list Z * Z) c => let '(sv, cur, _) := s in
        let amount := nth c counts 0 - col_sum sv c in
        let sv' := set2 sv k c amount in
        (sv', upd cur c (nth c cur 0 + amount), zsum (firstn (S c) (nth k sv' [])))).
  assert (FOLD : forall m, (fi + m <= la)%nat -> exists sv1 cur1 sent, fold_left stepf (seq fi m) (sv, cur, 0) = (sv1, cur1, sent) /\
     wf P sv1 /\ length cur1 = P /\
     (forall i j, (i < P)%nat -> (j < P)%nat -> mat sv1 i j = if Nat.eqb i k && ((fi <=? j)%nat && (j <? fi + m)%nat) then O_ i j else mat sv i j) /\
     (forall j, nth j cur1 0 = nth j cur 0 + if (fi <=? j)%nat && (j <? fi + m)%nat then O_ k j else 0) /\
     sent = if Nat.eqb m 0 then 0 else sum_n (O_ k) (fi + m)).
  { induction m as [|m IH]; intros Hm.
    - exists sv, cur, 0. split; [reflexivity|]. split; [auto|]. split; [auto|]. split; [|split; [|reflexivity]].
      + intros i j Hi Hj. replace ((fi <=? j)%nat && (j <? fi + 0)%nat) with false by lia. now rewrite andb_false_r.
      + intros j. replace ((fi <=? j)%nat && (j <? fi + 0)%nat) with false by lia. lia.
    - destruct IH as (sv1 & cur1 & sent & E & W1 & L1 & M1 & C1 & S1); [lia|]. rewrite seq_S, fold_left_app, E. cbn [fold_left].
      set (c := (fi + m)%nat). assert (Hc : (c < P)%nat) by (unfold c; lia). unfold stepf.
      assert (AMT : nth c counts 0 - col_sum sv1 c = O_ k c).
      { rewrite (col_sum_mat P) by auto. rewrite (sum_n_ext _ (fun p => mat sv p c)).
        2:{ intros i Hi. rewrite M1 by auto. replace ((fi <=? c)%nat && (c <? fi + m)%nat) with false by (unfold c; lia). now rewrite andb_false_r. }
        rewrite <- (col_sum_mat P) by auto. rewrite CS by auto. replace (c <? k)%nat with false by (unfold c; lia).
        assert (TC := t_S c Hc). assert (TB := LaB c ltac:(unfold c; lia)). assert (TMc := t_mono c (S c) ltac:(lia)). assert (TKc := t_mono k c ltac:(unfold c; lia)).
        unfold overlap. destruct (Nat.eq_dec c k) as [Ek|Nk]; [rewrite Ek in *; lia|]. assert (t (S k) <= t c) by (apply t_mono; unfold c in *; lia). lia. }
      rewrite AMT. eexists _, _, _. split; [reflexivity|]. split; [apply wf_set2; auto|]. split; [now rewrite upd_length|].
      assert (M2 : forall i j, (i < P)%nat -> (j < P)%nat -> mat (set2 sv1 k c (O_ k c)) i j = if Nat.eqb i k && ((fi <=? j)%nat && (j <? fi + S m)%nat) then O_ i j else mat sv i j).
      { intros i j Hi Hj. rewrite (mat_set2 P) by auto. rewrite M1 by auto. destruct (Nat.eqb_spec i k) as [->|Ni]; cbn [andb]; [|auto].
        destruct (Nat.eqb_spec j c) as [->|Nj]; [replace ((fi <=? c)%nat && (c <? fi + S m)%nat) with true by (unfold c; lia); auto|].
        replace ((fi <=? j)%nat && (j <? fi + S m)%nat) with ((fi <=? j)%nat && (j <? fi + m)%nat) by (apply eq_true_iff_eq; unfold c in *; lia). auto. }
      split; [exact M2|]. split.
      + intros j. destruct (Nat.eq_dec j c) as [->|Nj].
        * rewrite upd_same by lia. rewrite C1. replace ((fi <=? c)%nat && (c <? fi + m)%nat) with false by (unfold c; lia). replace ((fi <=? c)%nat && (c <? fi + S m)%nat) with true by (unfold c; lia). lia.
        * rewrite upd_other by auto. rewrite C1. replace ((fi <=? j)%nat && (j <? fi + S m)%nat) with ((fi <=? j)%nat && (j <? fi + m)%nat) by (apply eq_true_iff_eq; unfold c in *; lia). auto.
      + cbn [Nat.eqb]. rewrite (row_sum_mat P) by (auto using wf_set2; lia). replace (fi + S m)%nat with (S c) by (unfold c; lia). apply sum_n_ext. intros j Hj. rewrite M2 by lia. rewrite Nat.eqb_refl. cbn [andb].
        destruct (Nat.leb_spec fi j); [replace (j <? fi + S m)%nat with true by (unfold c in *; lia); reflexivity|]. cbn [andb]. rewrite M by lia. destruct (Nat.ltb_spec j k); [now rewrite orb_true_r|]. replace (k <? k)%nat with false by lia. cbn [orb]. symmetry. apply SKIP. lia. }
  destruct (FOLD (la - fi)%nat ltac:(lia)) as (sv1 & cur1 & sent & E & W1 & L1 & M1 & C1 & S1). fold stepf. rewrite E. clear E. replace (fi + (la - fi))%nat with la in * by lia.
  assert (AKLA : a k <= t la). { apply Z.le_trans with (t (S k)); [auto|]. apply t_mono. lia. }
  assert (SENT : sent = sum_n (O_ k) la).
  { rewrite S1. destruct (Nat.eqb_spec (la - fi) 0) as [E0|E0]; [|reflexivity]. assert (fi = la) by lia. subst fi. symmetry.
    assert (t k = t k) by auto. rewrite O_row.
    assert (Z0 := SKIP k ltac:(lia)). unfold overlap in Z0.
    assert (FLAT : forall d, (d < la - k)%nat -> t (S (k + d)) = t (S k)).
    { induction d as [|d IH]; intros Hd; [now rewrite Nat.add_0_r|]. assert (Z1 := SKIP (k + S d)%nat ltac:(lia)). unfold overlap in Z1. rewrite <- plus_n_Sm in *. cbn [plus] in *. rewrite IH in Z1 by lia. assert (X := t_mono (S (k + d)) (S (S (k + d))) ltac:(lia)). rewrite IH in X by lia. lia. }
    assert (E := FLAT (la - 1 - k)%nat ltac:(lia)). replace (S (k + (la - 1 - k)))%nat with la in E by lia.
    assert (nth k counts 0 <> 0). { intros E1. assert (X := PREF k Hk E1). assert (Y := a_le (S k)). rewrite a_end in Y. lia. }
    assert (CN := c_nonneg k). rewrite t_S in * by auto. lia. }
  (* new column sums *)
  assert (CKn : forall j, (j < P)%nat -> nth j cur 0 = (if (S j <=? k)%nat then t (S j) else Z.max (a (S j)) (t k)) - (if (j <=? k)%nat then t j else Z.max (a j) (t k))).
  { intros j Hj. rewrite (cur_nth k sv cur) by auto. rewrite !CC by lia. auto. }
  assert (FIN : forall sv2 cur2, wf P sv2 -> length cur2 = P ->
     (forall i j, (i < P)%nat -> (j < P)%nat -> mat sv2 i j = if Nat.eqb i k && (k <=? j)%nat then O_ i j else mat sv i j) ->
     (forall j, (k < j < P)%nat -> nth j cur2 0 = nth j cur 0 + O_ k j) ->
     (forall j, (j < k)%nat -> nth j cur2 0 = nth j cur 0) ->
     inv (S k) sv2 (upd cur2 k (nth k counts 0))).
  { intros sv2 cur2 W2 L2 M2 C2 C3. split; [auto|]. split; [now rewrite upd_length|]. split.
    - intros i j Hi Hj. rewrite M2, M by auto. destruct (Nat.eqb_spec i k) as [->|Ni]; cbn [andb].
      + replace (k <? S k)%nat with true by lia. cbn [orb]. destruct (Nat.leb_spec k j); [auto|]. replace (j <? k)%nat with true by lia. now rewrite orb_true_r.
      + destruct (Nat.eq_dec j k) as [->|Nj].
        * replace (k <? S k)%nat with true by lia. rewrite orb_true_r. replace (k <? k)%nat with false by lia. rewrite orb_false_r. destruct (Nat.ltb_spec i k); [auto|]. unfold overlap. assert (a (S k) <= a i) by (apply a_mono; lia). lia.
        * replace ((i <? S k)%nat || (j <? S k)%nat) with ((i <? k)%nat || (j <? k)%nat) by (apply eq_true_iff_eq; lia). auto.
    - induction j as [|j IH]; intros Hj; [reflexivity|]. rewrite zsum_firstn_S by (rewrite upd_length; lia). rewrite IH by lia.
      destruct (Nat.lt_trichotomy j k) as [H|[->|H]].
      + rewrite upd_other by lia. rewrite C3, CKn by lia. replace (j <=? S k)%nat with true by lia. replace (S j <=? k)%nat with true by lia. replace (j <=? k)%nat with true by lia. replace (S j <=? S k)%nat with true by lia. lia.
      + rewrite upd_same by lia. replace (k <=? S k)%nat with true by lia. rewrite Nat.leb_refl. rewrite t_S by auto. lia.
      + rewrite upd_other by lia. rewrite C2, CKn by lia. replace (S j <=? k)%nat with false by lia. replace (j <=? k)%nat with false by lia. replace (S j <=? S k)%nat with false by lia.
        assert (AJ := a_mono (S k) j ltac:(lia)). assert (AJ1 := a_mono j (S j) ltac:(lia)). assert (TJ := t_mono j (S j) ltac:(lia)).
        destruct (Nat.eq_dec j (S k)) as [->|Nj]; [rewrite Nat.leb_refl; unfold overlap; lia|]. replace (j <=? S k)%nat with false by lia.
        assert (t (S (S k)) <= t j) by (apply t_mono; lia). unfold overlap. lia. }
  destruct (Nat.ltb_spec la P) as [HL|HL].
  - apply F2 in La2; [|auto]. assert (REST : nth k pm 0 - sent = O_ k la).
    { rewrite SENT, O_row. assert (X := a_S k Hk). assert (LB := LaB (la - 1)%nat ltac:(lia)). replace (S (la - 1))%nat with la in LB by lia. unfold overlap. lia. }
    rewrite REST. eexists _, _. split; [reflexivity|]. apply FIN; [apply wf_set2; auto|now rewrite upd_length| | |].
    + intros i j Hi Hj. rewrite (mat_set2 P) by auto. rewrite M1 by auto. destruct (Nat.eqb_spec i k) as [->|Ni]; cbn [andb]; [|auto].
      destruct (Nat.eqb_spec j la) as [->|Nj]; [replace (k <=? la)%nat with true by lia; auto|].
      destruct (Nat.leb_spec k j).
      * destruct (Nat.leb_spec fi j).
        -- destruct (Nat.ltb_spec j la); cbn [andb]; [auto|]. rewrite M by lia. replace ((k <? k)%nat || (j <? k)%nat) with false by lia. unfold overlap. assert (t (S la) <= t j) by (apply t_mono; lia). lia.
        -- cbn [andb]. rewrite M by lia. replace ((k <? k)%nat || (j <? k)%nat) with false by lia. symmetry. apply SKIP. lia.
      * replace (fi <=? j)%nat with false by lia. auto.
    + intros j Hj. destruct (Nat.eq_dec j la) as [->|Nj].
      * rewrite upd_same by lia. rewrite C1. replace ((fi <=? la)%nat && (la <? la)%nat) with false by lia. lia.
      * rewrite upd_other by auto. rewrite C1. destruct (Nat.leb_spec fi j).
        -- destruct (Nat.ltb_spec j la); cbn [andb]; [auto|]. assert (t (S la) <= t j) by (apply t_mono; lia). unfold overlap. lia.
        -- cbn [andb]. rewrite SKIP by lia. auto.
    + intros j Hj. rewrite upd_other by lia. rewrite C1. replace (fi <=? j)%nat with false by lia. cbn [andb]. lia.
  - eexists _, _. split; [reflexivity|]. assert (la = P) by lia. subst la. apply FIN; auto.
    + intros i j Hi Hj. rewrite M1 by auto. destruct (Nat.eqb_spec i k) as [->|Ni]; cbn [andb]; [|auto]. replace (j <? P)%nat with true by lia. rewrite andb_true_r.
      destruct (Nat.leb_spec fi j); [replace (k <=? j)%nat with true by lia; auto|]. destruct (Nat.leb_spec k j); [|auto]. rewrite M by lia. replace ((k <? k)%nat || (j <? k)%nat) with false by lia. symmetry. apply SKIP. lia.
    + intros j Hj. rewrite C1. replace (j <? P)%nat with true by lia. rewrite andb_true_r. destruct (Nat.leb_spec fi j); [auto|]. rewrite SKIP by lia. auto.
    + intros j Hj. rewrite C1. replace (fi <=? j)%nat with false by lia. cbn [andb]. lia.
Qed.

(** ** deficit *)
Lemma deficit_ok k sv cur : inv k sv cur -> (k < P)%nat -> Z.max (a (S k)) (t k) < t (S k) ->
  exists sv' cur', deficit pm counts k (cumsum cur) sv cur = Ok (sv', cur') /\ inv (S k) sv' (upd cur' k (nth k counts 0)).
Proof.
  intros I Hk HS. pose proof I as (W & LC & M & CC). unfold deficit. rewrite LCn.
  assert (AM := a_mono k (S k) ltac:(lia)). assert (TP := t_mono (S k) P ltac:(lia)). assert (AP := a_end).
  assert (CKj : forall j, (j < P)%nat -> nth j (cumsum cur) 0 = if (S j <=? k)%nat then t (S j) else Z.max (a (S j)) (t k)).
  { intros j Hj. rewrite cumsum_nth by lia. apply CC. lia. }
  assert (TCj : forall j, (j < P)%nat -> nth j (tc counts) 0 = t (S j)) by (intros j Hj; unfold tc; rewrite cumsum_nth by lia; reflexivity).
  assert (FIRST : exists fi, (match k with O => Ok 0%nat | S p => next_idx (fun i => nth p (tc counts) 0 <? nth i (cumsum cur) 0) (seq 0 P) end) = Ok fi /\ (k <= fi < P)%nat /\
     (forall i, (fi <= i)%nat -> (i < P)%nat -> t k <= a (S i)) /\ (forall i, (k <= i < fi)%nat -> a (S i) <= t k)).
  { destruct k as [|p].
    - exists 0%nat. split; [auto|]. split; [lia|]. split; [intros i Hi1 Hi2; rewrite t_0, <- a_0; apply a_mono; lia|intros; lia].
    - destruct (least (fun i => nth p (tc counts) 0 <? nth i (cumsum cur) 0) P 0) as (fi & F1 & F2 & F3 & F4).
      { exists (P - 1)%nat. split; [lia|]. rewrite TCj, CKj by lia. replace (S (P - 1))%nat with P by lia. destruct (Nat.leb_spec P (S p)); [lia|]. rewrite AP. lia. }
      exists fi. split; [exact F4|]. rewrite TCj, CKj in F2 by lia. destruct (Nat.leb_spec (S fi) (S p)) as [H|H]; [assert (t (S fi) <= t (S p)) by (apply t_mono; lia); lia|].
      split; [lia|]. split.
      + intros i Hi1 Hi2. assert (a (S fi) <= a (S i)) by (apply a_mono; lia). lia.
      + intros i Hi. specialize (F3 i ltac:(lia)). cbv beta in F3. rewrite TCj, CKj in F3 by lia. replace (S i <=? S p)%nat with false in F3 by lia. lia. }
  destruct FIRST as (fi & -> & Fi1 & Fi2 & Fi3). cbn [bind].
  destruct (least (fun i => nth k (tc counts) 0 <=? nth i (cumsum cur) 0) P 0) as (la & L1 & L2 & L3 & ->).
  { exists (P - 1)%nat. split; [lia|]. rewrite TCj, CKj by lia. replace (S (P - 1))%nat with P by lia. destruct (Nat.leb_spec P k); [lia|]. rewrite AP. lia. }
  cbn [bind]. rewrite TCj, CKj in L2 by lia.
  assert (LaK : (k < la)%nat). { destruct (Nat.leb_spec (S la) k) as [H|H]; [assert (t (S la) <= t k) by (apply t_mono; lia); lia|]. destruct (Nat.eq_dec la k) as [->|]; lia. }
  replace (S la <=? k)%nat with false in L2 by lia. assert (LA : t (S k) <= a (S la)) by lia. clear L2.
  assert (LB : forall i, (k <= i < la)%nat -> a (S i) < t (S k)).
  { intros i Hi. specialize (L3 i ltac:(lia)). cbv beta in L3. rewrite TCj, CKj in L3 by lia. replace (S i <=? k)%nat with false in L3 by lia. lia. }
  assert (FiLa : (fi <= la)%nat). { destruct (Nat.le_gt_cases fi la); [auto|]. assert (X := Fi3 la ltac:(lia)). lia. }
  set (stepf := fun (s : list (list Z) * list Z) i => let '(sv, cur) := s in (set2 sv i k (nth i pm 0 - zsum (nth i sv [])), upd cur i 0)).
  assert (RS := fun i Hi => inv_row k sv cur i I Hi).
  assert (FOLD : forall m, (fi + m <= la)%nat -> exists sv1 cur1, fold_left stepf (seq fi m) (sv, cur) = (sv1, cur1) /\ wf P sv1 /\ length cur1 = P /\
     (forall i j, (i < P)%nat -> (j < P)%nat -> mat sv1 i j = if Nat.eqb j k && ((fi <=? i)%nat && (i <? fi + m)%nat) then O_ i j else mat sv i j) /\
     (forall j, nth j cur1 0 = if (fi <=? j)%nat && (j <? fi + m)%nat then 0 else nth j cur 0)).
  { induction m as [|m IH]; intros Hm.
    - exists sv, cur. split; [reflexivity|]. split; [auto|]. split; [auto|]. split.
      + intros i j Hi Hj. replace ((fi <=? i)%nat && (i <? fi + 0)%nat) with false by lia. now rewrite andb_false_r.
      + intros j. replace ((fi <=? j)%nat && (j <? fi + 0)%nat) with false by lia. auto.
    - destruct IH as (sv1 & cur1 & E & W1 & L1' & M1 & C1); [lia|]. rewrite seq_S, fold_left_app, E. cbn [fold_left]. set (c := (fi + m)%nat). assert (Hc : (c < P)%nat) by (unfold c; lia). unfold stepf.
      assert (AMT : nth c pm 0 - zsum (nth c sv1 []) = O_ c k).
      { rewrite (row_total P) by auto. rewrite (sum_n_ext _ (fun j => mat sv c j)).
        2:{ intros j Hj. rewrite M1 by auto. replace ((fi <=? c)%nat && (c <? fi + m)%nat) with false by (unfold c; lia). now rewrite andb_false_r. }
        rewrite <- (row_total P) by auto. rewrite RS by (unfold c; lia). assert (X := a_S c Hc). assert (Y := Fi2 c ltac:(unfold c; lia) Hc). assert (Y2 := LB c ltac:(unfold c; lia)). assert (Y3 := a_mono c (S c) ltac:(lia)). unfold overlap. lia. }
      rewrite AMT. eexists _, _. split; [reflexivity|]. split; [apply wf_set2; auto|]. split; [now rewrite upd_length|]. split.
      + intros i j Hi Hj. rewrite (mat_set2 P) by auto. rewrite M1 by auto. destruct (Nat.eqb_spec j k) as [->|Nj]; cbn [andb]; [|now rewrite andb_false_r]. rewrite andb_true_r.
        destruct (Nat.eqb_spec i c) as [->|Ni]; [replace ((fi <=? c)%nat && (c <? fi + S m)%nat) with true by (unfold c; lia); auto|].
        replace ((fi <=? i)%nat && (i <? fi + S m)%nat) with ((fi <=? i)%nat && (i <? fi + m)%nat) by (apply eq_true_iff_eq; unfold c in *; lia). auto.
      + intros j. destruct (Nat.eq_dec j c) as [->|Nj]; [rewrite upd_same by lia; replace ((fi <=? c)%nat && (c <? fi + S m)%nat) with true by (unfold c; lia); auto|].
        rewrite upd_other by auto. rewrite C1. replace ((fi <=? j)%nat && (j <? fi + S m)%nat) with ((fi <=? j)%nat && (j <? fi + m)%nat) by (apply eq_true_iff_eq; unfold c in *; lia). auto. }
  destruct (FOLD (la - fi)%nat ltac:(lia)) as (sv1 & cur1 & E & W1 & L1' & M1 & C1). fold stepf. rewrite E. clear E. replace (fi + (la - fi))%nat with la in * by lia.
  rewrite TCj by auto. destruct la as [|l]; [lia|]. rewrite CKj by lia. replace (S l <=? k)%nat with false by lia.
  assert (AMT : t (S k) - Z.max (a (S l)) (t k) = O_ (S l) k). { assert (X := LB l ltac:(lia)). unfold overlap. lia. }
  rewrite AMT. eexists _, _. split; [reflexivity|]. split; [apply wf_set2; auto|]. split; [now rewrite !upd_length|]. split.
  - intros i j Hi Hj. rewrite (mat_set2 P) by (auto; lia). rewrite M1, M by auto. destruct (Nat.eqb_spec j k) as [->|Nj].
    + replace (k <? S k)%nat with true by lia. rewrite orb_true_r, andb_true_r. cbn [andb]. destruct (Nat.eqb_spec i (S l)) as [->|Ni]; [auto|]. destruct ((fi <=? i)%nat && (i <? S l)%nat) eqn:Ei; [auto|].
      replace (k <? k)%nat with false by lia. rewrite orb_false_r. destruct (Nat.ltb_spec i k); [auto|]. symmetry. unfold overlap. destruct (Nat.lt_ge_cases i fi); [assert (X := Fi3 i ltac:(lia)); lia|].
      assert (a (S (S l)) <= a i) by (apply a_mono; lia). lia.
    + rewrite andb_false_r. cbn [andb]. destruct (Nat.eq_dec i k) as [->|Nik].
      * replace (k <? S k)%nat with true by lia. cbn [orb]. replace (k <? k)%nat with false by lia. cbn [orb]. destruct (Nat.ltb_spec j k); [auto|]. unfold overlap. assert (t (S k) <= t j) by (apply t_mono; lia). assert (X := LB k ltac:(lia)). lia.
      * replace ((i <? S k)%nat || (j <? S k)%nat) with ((i <? k)%nat || (j <? k)%nat) by (apply eq_true_iff_eq; lia). auto.
  - assert (CKn : forall j, (j < P)%nat -> nth j cur 0 = (if (S j <=? k)%nat then t (S j) else Z.max (a (S j)) (t k)) - (if (j <=? k)%nat then t j else Z.max (a j) (t k))).
    { intros j Hj. rewrite (cur_nth k sv cur) by auto. rewrite !CC by lia. auto. }
    induction j as [|j IH]; intros Hj; [reflexivity|]. rewrite zsum_firstn_S by (rewrite !upd_length; lia). rewrite IH by lia.
    destruct (Nat.lt_trichotomy j k) as [H|[->|H]].
    + rewrite !upd_other by lia. rewrite C1. replace ((fi <=? j)%nat && (j <? S l)%nat) with false by lia. rewrite CKn by lia. replace (j <=? S k)%nat with true by lia. replace (S j <=? k)%nat with true by lia. replace (j <=? k)%nat with true by lia. replace (S j <=? S k)%nat with true by lia. lia.
    + rewrite upd_same by (rewrite upd_length; lia). replace (k <=? S k)%nat with true by lia. rewrite Nat.leb_refl. rewrite t_S by auto. lia.
    + rewrite (@upd_other _ _ k) by lia. replace (S j <=? S k)%nat with false by lia.
      assert (PREV : (if (j <=? S k)%nat then t j else Z.max (a j) (t (S k))) = Z.max (a j) (t (S k))).
      { destruct (Nat.leb_spec j (S k)); [|auto]. assert (j = S k) by lia. subst j. assert (X := LB k ltac:(lia)). lia. }
      rewrite PREV. assert (AJ1 := a_mono j (S j) ltac:(lia)). destruct (Nat.eq_dec j (S l)) as [->|Nj].
      * rewrite upd_same by lia. rewrite C1. replace ((fi <=? S l)%nat && (S l <? S l)%nat) with false by lia. rewrite CKn by lia. replace (S (S l) <=? k)%nat with false by lia. replace (S l <=? k)%nat with false by lia. assert (X := LB l ltac:(lia)). unfold overlap. lia.
      * rewrite upd_other by auto. rewrite C1. destruct (Nat.lt_ge_cases j (S l)).
        -- assert (X := LB j ltac:(lia)). destruct (Nat.leb_spec fi j); [replace (j <? S l)%nat with true by lia; cbn [andb]; lia|]. cbn [andb]. rewrite CKn by lia. replace (S j <=? k)%nat with false by lia. replace (j <=? k)%nat with false by lia. assert (Y := Fi3 j ltac:(lia)). lia.
        -- replace (j <? S l)%nat with false by lia. rewrite andb_false_r. rewrite CKn by lia. replace (S j <=? k)%nat with false by lia. replace (j <=? k)%nat with false by lia. assert (a (S (S l)) <= a j) by (apply a_mono; lia). lia.
Qed.

Lemma step_ok k sv cur : inv k sv cur -> (k < P)%nat -> exists sv' cur', rebalance_step pm counts k sv cur = Ok (sv', cur') /\ inv (S k) sv' cur'.
Proof.
  intros I Hk. pose proof I as (W & LC & M & CC). unfold rebalance_step.
  assert (CK : nth k (cumsum cur) 0 = Z.max (a (S k)) (t k)) by (rewrite cumsum_nth by lia; rewrite CC by lia; now replace (S k <=? k)%nat with false by lia).
  assert (TK : nth k (tc counts) 0 = t (S k)) by (unfold tc; rewrite cumsum_nth by lia; reflexivity).
  rewrite CK, TK. assert (TM := t_mono k (S k) ltac:(lia)). destruct (Z.ltb_spec (t (S k)) (Z.max (a (S k)) (t k))) as [H1|H1].
  - destruct (surplus_ok k sv cur I Hk ltac:(lia)) as (sv' & cur' & -> & I'). cbn [bind fst snd]. eexists _, _. split; [reflexivity|exact I'].
  - destruct (Z.ltb_spec (Z.max (a (S k)) (t k)) (t (S k))) as [H2|H2].
    + destruct (deficit_ok k sv cur I Hk ltac:(lia)) as (sv' & cur' & -> & I'). cbn [bind fst snd]. eexists _, _. split; [reflexivity|exact I'].
    + cbn [bind fst snd]. eexists _, _. split; [reflexivity|]. rewrite (inv_row k sv cur k I) by lia.
      assert (AMT : nth k pm 0 - (Z.min (a (S k)) (t k) - Z.min (a k) (t k)) = O_ k k). { assert (X := a_S k Hk). assert (Y := a_mono k (S k) ltac:(lia)). assert (Z1 := a_ahead k Hk). unfold overlap. lia. }
      rewrite AMT. split; [apply wf_set2; auto|]. split; [now rewrite upd_length|]. split.
      * intros i j Hi Hj. rewrite (mat_set2 P) by auto. rewrite M by auto. destruct (Nat.eqb_spec i k) as [->|Ni]; cbn [andb].
        -- replace (k <? S k)%nat with true by lia. replace (k <? k)%nat with false by lia. cbn [orb]. destruct (Nat.eqb_spec j k) as [->|Nj]; [auto|]. destruct (Nat.ltb_spec j k); [auto|]. unfold overlap. assert (t (S k) <= t j) by (apply t_mono; lia). lia.
        -- destruct (Nat.eq_dec j k) as [->|Nj].
           ++ replace (k <? S k)%nat with true by lia. replace (k <? k)%nat with false by lia. rewrite orb_true_r, orb_false_r. destruct (Nat.ltb_spec i k); [auto|]. unfold overlap. assert (a (S k) <= a i) by (apply a_mono; lia). lia.
           ++ replace ((i <? S k)%nat || (j <? S k)%nat) with ((i <? k)%nat || (j <? k)%nat) by (apply eq_true_iff_eq; lia). auto.
      * induction j as [|j IH]; intros Hj; [reflexivity|]. rewrite zsum_firstn_S by (rewrite upd_length; lia). rewrite IH by lia.
        destruct (Nat.eq_dec j k) as [->|Nj]; [rewrite upd_same by lia; replace (k <=? S k)%nat with true by lia; rewrite Nat.leb_refl; rewrite t_S by auto; lia|].
        rewrite upd_other by auto. rewrite (cur_nth k sv cur) by (auto; lia). rewrite !CC by lia. destruct (Nat.lt_ge_cases j k).
        -- replace (j <=? S k)%nat with true by lia. replace (S j <=? k)%nat with true by lia. replace (j <=? k)%nat with true by lia. replace (S j <=? S k)%nat with true by lia. lia.
        -- replace (S j <=? k)%nat with false by lia. replace (j <=? k)%nat with false by lia. replace (S j <=? S k)%nat with false by lia. assert (X := a_mono (S k) j ltac:(lia)). assert (Y := a_mono j (S j) ltac:(lia)).
           destruct (Nat.leb_spec j (S k)); [assert (j = S k) by lia; subst j|]; lia.
Qed.
Lemma loop_ok : forall m k sv cur, (k + m = P)%nat -> inv k sv cur -> exists sv', rebalance_loop pm counts (seq k m) sv cur = Ok sv' /\ exists cur', inv P sv' cur'.
Proof.
  induction m as [|m IH]; intros k sv cur E I; cbn [seq rebalance_loop].
  - exists sv. split; [auto|]. exists cur. replace P with k by lia. auto.
  - destruct (step_ok k sv cur I ltac:(lia)) as (sv' & cur' & -> & I'). cbn [bind fst snd]. apply IH with (2 := I'). lia.
Qed.
Theorem send_vec_ok : exists sv, send_vec pm counts = Ok sv /\ wf P sv /\ forall i j, (i < P)%nat -> (j < P)%nat -> mat sv i j = O_ i j.
Proof.
  unfold send_vec. rewrite LCn. destruct (loop_ok P 0 _ _ eq_refl inv_init) as (sv & -> & cur & W & _ & M & _). exists sv. split; [auto|]. split; [auto|]. intros i j Hi Hj. rewrite M by auto. now replace (i <? P)%nat with true by lia.
Qed.
End Loop.
