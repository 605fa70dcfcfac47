(** Lemmas for pad: the flat argument tuples, and the padding of one local tensor. *)
From Verif Require Import Base BaseLemmas LayoutModel TensorSpec NdSpec TensorLemmas NdLemmas OpsModel ShapeModel ReshapeModel RollModel FactoryModel PadSpec PadModel.
Open Scope Z_scope.

Lemma times_length {X} k (l : list X) : length (times k l) = (k * length l)%nat.
Proof. induction k; cbn [times]; [auto|]. rewrite app_length, IHk. lia. Qed.
Lemma times_even {X} (a b d : X) n : forall j, (j < n)%nat -> nth (2 * j) (times n [a; b]) d = a /\ nth (2 * j + 1) (times n [a; b]) d = b.
Proof.
  induction n; intros j Hj; [lia|]. destruct j; [now cbn|].
  replace (2 * S j)%nat with (S (S (2 * j))) by lia. cbn [times app nth Nat.add]. apply IHn. lia.
Qed.
Lemma flat_pairs_length {X} (ws : list (X * X)) : length (flat_pairs (map (fun w => [fst w; snd w]) ws)) = (2 * length ws)%nat.
Proof. induction ws; cbn [map flat_pairs]; [auto|]. rewrite app_length, IHws. cbn [length]. lia. Qed.
Lemma flat_pairs_nth {X} (ws : list (X * X)) d : forall j, (j < length ws)%nat ->
  nth (2 * j) (flat_pairs (map (fun w => [fst w; snd w]) ws)) d = fst (nth (length ws - 1 - j) ws (d, d)) /\
  nth (2 * j + 1) (flat_pairs (map (fun w => [fst w; snd w]) ws)) d = snd (nth (length ws - 1 - j) ws (d, d)).
Proof.
  induction ws as [|w ws IH]; intros j Hj; [cbn in Hj; lia|]. cbn [map flat_pairs length] in *.
  pose proof (flat_pairs_length ws) as L. destruct (Nat.eq_dec j (length ws)) as [->|N].
  - replace (S (length ws) - 1 - length ws)%nat with 0%nat by lia. rewrite !app_nth2 by lia. rewrite L.
    replace (2 * length ws - 2 * length ws)%nat with 0%nat by lia. replace (2 * length ws + 1 - 2 * length ws)%nat with 1%nat by lia. now cbn.
  - replace (S (length ws) - 1 - j)%nat with (S (length ws - 1 - j)) by lia. cbn [nth]. rewrite !app_nth1 by lia. apply IH. lia.
Qed.
Lemma odd_2 k : Nat.odd (2 * k) = false.
Proof. rewrite Nat.odd_mul. reflexivity. Qed.
Lemma div2_2 k : Nat.div2 (2 * k) = k.
Proof. apply Nat.div2_double. Qed.

(** ** the width argument *)
Lemma flat_widths_ok n p ws : widths n p ws -> length ws = n /\ exists w, flat_widths n p = Ok w /\ length w = (2 * addressed n p)%nat /\ (addressed n p <= n)%nat /\
  forall k, (k < n)%nat -> before n w k = lo ws k /\ after n w k = hi ws k.
Proof.
  intros H. unfold before, after, lo, hi.
  assert (R : forall b e, length (repeat (b, e) n) = n /\ length (times n [b; e]) = (2 * n)%nat /\ forall k, (k < n)%nat ->
    nth (2 * (n - 1 - k)) (times n [b; e]) 0 = fst (nth k (repeat (b, e) n) (0, 0)) /\ nth (2 * (n - 1 - k) + 1) (times n [b; e]) 0 = snd (nth k (repeat (b, e) n) (0, 0))).
  { intros b e. rewrite repeat_length, times_length. split; [auto|]. split; [cbn; lia|]. intros k Hk.
    destruct (@times_even Z b e 0 n (n - 1 - k)) as [-> ->]; [lia|]. rewrite (nth_indep _ (0, 0) (b, e)), nth_repeat by (rewrite repeat_length; lia). auto. }
  destruct H as [z|z|b e|b e|ws N1 LE].
  - destruct (R z z) as (L & L2 & R'). split; [auto|]. eexists. split; [reflexivity|]. cbn [addressed]. auto.
  - destruct (R z z) as (L & L2 & R'). split; [auto|]. eexists. split; [reflexivity|]. cbn [addressed]. auto.
  - destruct (R b e) as (L & L2 & R'). split; [auto|]. eexists. split; [reflexivity|]. cbn [addressed]. auto.
  - destruct (R b e) as (L & L2 & R'). split; [auto|]. eexists. split; [reflexivity|]. cbn [addressed]. auto.
  - split; [rewrite app_length, repeat_length; lia|]. exists (flat_pairs (map (fun w => [fst w; snd w]) ws)).
    rewrite flat_pairs_length.
    assert (E : flat_widths n (PSeq (map (fun w => PL [fst w; snd w]) ws)) = Ok (flat_pairs (map (fun w => [fst w; snd w]) ws)) /\
                addressed n (PSeq (map (fun w => PL [fst w; snd w]) ws)) = length ws).
    { assert (X : existsb is_pi (map (fun w => PL [fst w; snd w]) ws) = false) by (clear; induction ws; auto).
      assert (Y : map (fun x => match x with PL q => q | PI _ => [] end) (map (fun w : Z * Z => PL [fst w; snd w]) ws) = map (fun w => [fst w; snd w]) ws) by (rewrite map_map; auto).
      assert (F : (if existsb is_pi (map (fun w => PL [fst w; snd w]) ws) then Err TypeError else
         let pad := flat_pairs (map (fun x => match x with PL q => q | PI _ => [] end) (map (fun w : Z * Z => PL [fst w; snd w]) ws)) in
         if odd_len pad then Err ValueError else if (n <? Nat.div2 (length pad))%nat then Err ValueError else Ok pad) = Ok (flat_pairs (map (fun w => [fst w; snd w]) ws))).
      { rewrite X, Y. cbv zeta. unfold odd_len. rewrite flat_pairs_length, odd_2, div2_2. replace (n <? length ws)%nat with false by (symmetry; apply Nat.ltb_ge; lia). auto. }
      destruct ws as [|w1 [|w2 ws]]; [|exfalso; cbn in N1; lia|]; split; try exact F; cbn [map addressed length]; rewrite ?map_length; reflexivity. }
    destruct E as [-> ->]. split; [auto|]. split; [auto|]. split; [auto|]. intros k Hk.
    destruct (Nat.lt_ge_cases k (n - length ws)) as [L|G].
    + rewrite app_nth1 by (rewrite repeat_length; lia). rewrite nth_repeat.
      rewrite !nth_overflow by (rewrite flat_pairs_length; lia). auto.
    + rewrite app_nth2 by (rewrite repeat_length; lia). rewrite repeat_length.
      destruct (@flat_pairs_nth Z ws 0 (n - 1 - k)) as [-> ->]; [lia|]. replace (length ws - 1 - (n - 1 - k))%nat with (k - (n - length ws))%nat by lia. auto.
Qed.
Lemma nonneg_widths n p ws w : widths n p ws -> flat_widths n p = Ok w -> Forall (fun q => 0 <= fst q /\ 0 <= snd q) ws -> Forall (fun z => 0 <= z) w.
Proof.
  intros H E F. destruct (flat_widths_ok n p ws H) as (Ln & w' & E' & L & LE & B). assert (w' = w) by congruence. subst w'. clear E E'.
  apply Forall_nth. intros i d Hi. rewrite L in Hi.
  destruct (Nat.Even_or_Odd i) as [[j ->]|[j ->]].
  - destruct (B (n - 1 - j)%nat) as [B1 _]; [lia|]. unfold before in B1. replace (n - 1 - (n - 1 - j))%nat with j in B1 by lia.
    rewrite (nth_indep _ d 0) by lia. rewrite B1. unfold lo. rewrite Forall_forall in F. apply F, nth_In. lia.
  - destruct (B (n - 1 - j)%nat) as [_ B1]; [lia|]. unfold after in B1. replace (n - 1 - (n - 1 - j))%nat with j in B1 by lia.
    rewrite (nth_indep _ d 0) by lia. rewrite B1. unfold hi. rewrite Forall_forall in F. apply F, nth_In. lia.
Qed.

(** ** the fill argument *)
Definition one_value {A} (c : fill_arg A) : option A := match c with CV v => Some v | CSeq [CI v] => Some v | _ => None end.
Lemma flat_values_ok {A} n m (c : fill_arg A) vs d : fills n m c vs -> (m <= n)%nat -> length vs = n /\ exists vt, flat_values m c = Ok vt /\
  match one_value c with
  | Some v => vs = repeat (v, v) n
  | None => length vt = (2 * m)%nat /\ forall k, (n - m <= k < n)%nat ->
      nth (2 * (n - 1 - k)) vt d = fst (nth k vs (d, d)) /\ nth (2 * (n - 1 - k) + 1) vt d = snd (nth k vs (d, d))
  end.
Proof.
  intros H Hm.
  assert (R : forall b e : A, length (repeat (b, e) n) = n /\ length (times m [b; e]) = (2 * m)%nat /\ forall k, (n - m <= k < n)%nat ->
    nth (2 * (n - 1 - k)) (times m [b; e]) d = fst (nth k (repeat (b, e) n) (d, d)) /\ nth (2 * (n - 1 - k) + 1) (times m [b; e]) d = snd (nth k (repeat (b, e) n) (d, d))).
  { intros b e. rewrite repeat_length, times_length. split; [auto|]. split; [cbn; lia|]. intros k Hk.
    destruct (@times_even A b e d m (n - 1 - k)) as [-> ->]; [lia|]. rewrite (nth_indep _ (d, d) (b, e)), nth_repeat by (rewrite repeat_length; lia). auto. }
  destruct H as [v|v|b e|b e|vs us N1 LE NE LU].
  - split; [apply repeat_length|]. eexists. split; reflexivity.
  - split; [apply repeat_length|]. eexists. split; reflexivity.
  - destruct (R b e) as (L & L2 & R'). split; [auto|]. eexists. split; [reflexivity|]. cbn [one_value]. auto.
  - destruct (R b e) as (L & L2 & R'). split; [auto|]. exists (times m [b; e]). cbn [flat_values bind one_value]. unfold odd_len. rewrite L2, odd_2. auto.
  - split; [rewrite app_length; lia|]. exists (flat_pairs (map (fun w => [fst w; snd w]) vs)).
    assert (E : flat_values m (CSeq (map (fun w => CL [fst w; snd w]) vs)) = Ok (flat_pairs (map (fun w => [fst w; snd w]) vs))).
    { destruct vs as [|v1 [|v2 vs]]; [contradiction|cbn in N1; lia|]. cbn [map flat_values].
      replace (existsb is_ci (CL [fst v2; snd v2] :: map (fun w => CL [fst w; snd w]) vs)) with false by (clear; cbn; induction vs; auto).
      cbn [bind]. unfold odd_len. rewrite map_map. change (map (fun x : A * A => [fst x; snd x]) vs) with (map (fun w : A * A => [fst w; snd w]) vs).
      change (flat_pairs ([fst v1; snd v1] :: [fst v2; snd v2] :: map (fun w : A * A => [fst w; snd w]) vs)) with (flat_pairs (map (fun w : A * A => [fst w; snd w]) (v1 :: v2 :: vs))).
      rewrite flat_pairs_length, odd_2. reflexivity. }
    split; [exact E|]. replace (one_value _) with (@None A) by (destruct vs as [|v1 [|v2 vs]]; [contradiction|cbn in N1; lia|reflexivity]).
    rewrite flat_pairs_length. split; [lia|]. intros k Hk. rewrite app_nth2 by lia. rewrite LU.
    destruct (@flat_pairs_nth A vs d (n - 1 - k)) as [-> ->]; [lia|]. replace (length vs - 1 - (n - 1 - k))%nat with (k - (n - m))%nat by lia. auto.
Qed.

(** ** elements of a padded array, for widths given as functions *)
Definition frame (b : nat -> Z) (sh idx : list Z) (k : nat) : bool := (nth k idx 0 <? b k) || (b k + nth k sh 0 <=? nth k idx 0).
Definition pel {A} (n : nat) (b : nat -> Z) (sh : list Z) (F : list Z -> A) (fv sv : nat -> A) (idx : list Z) : A :=
  match find (frame b sh idx) (rev (seq 0 n)) with
  | Some k => if nth k idx 0 <? b k then fv k else sv k
  | None => F (map (fun k => nth k idx 0 - b k) (seq 0 n))
  end.
Lemma find_last n (p : nat -> bool) k : (k < n)%nat -> p k = true -> (forall j, (k < j < n)%nat -> p j = false) -> find p (rev (seq 0 n)) = Some k.
Proof.
  induction n; intros Hk Hp Hj; [lia|]. rewrite seq_S, rev_app_distr. cbn [rev app find Nat.add].
  destruct (Nat.eq_dec k n) as [->|N]; [now rewrite Hp|]. rewrite (Hj n) by lia. apply IHn; auto; try lia. intros j ?. apply Hj. lia.
Qed.
Lemma find_none_iff n (p : nat -> bool) : (forall j, (j < n)%nat -> p j = false) -> find p (rev (seq 0 n)) = None.
Proof.
  induction n; intros Hj; [auto|]. rewrite seq_S, rev_app_distr. cbn [rev app find Nat.add]. rewrite Hj by lia. apply IHn. intros. apply Hj. lia.
Qed.
Lemma find_ext n (p q : nat -> bool) : (forall j, (j < n)%nat -> p j = q j) -> find p (rev (seq 0 n)) = find q (rev (seq 0 n)).
Proof.
  induction n; intros Hj; [auto|]. rewrite seq_S, rev_app_distr. cbn [rev app find Nat.add]. rewrite Hj by lia. destruct (q n); [auto|]. apply IHn. intros. apply Hj. lia.
Qed.
Lemma find_lt n (p : nat -> bool) k : find p (rev (seq 0 n)) = Some k -> (k < n)%nat /\ p k = true.
Proof. intros H. apply find_some in H as [I E]. rewrite <- in_rev, in_seq in I. split; [lia|auto]. Qed.
Lemma padded_pel {A} (G : list Z -> A) gsh ws vs d idx :
  padded G gsh ws vs d idx = pel (length gsh) (lo ws) gsh G (fun k => fst (nth k vs (d, d))) (fun k => snd (nth k vs (d, d))) idx.
Proof. reflexivity. Qed.
Lemma pel_ext {A} n b b' sh (F F' : list Z -> A) fv sv fv' sv' idx : (forall k, (k < n)%nat -> b k = b' k) ->
  (forall k, (k < n)%nat -> frame b sh idx k = true -> fv k = fv' k /\ sv k = sv' k) -> 
  ((forall k, (k < n)%nat -> frame b sh idx k = false) -> F (map (fun k => nth k idx 0 - b k) (seq 0 n)) = F' (map (fun k => nth k idx 0 - b k) (seq 0 n))) ->
  pel n b sh F fv sv idx = pel n b' sh F' fv' sv' idx.
Proof.
  intros Hb Hv HF. unfold pel. rewrite (find_ext n (frame b' sh idx) (frame b sh idx)) by (intros; unfold frame; now rewrite Hb).
  destruct (find (frame b sh idx) (rev (seq 0 n))) as [k|] eqn:E.
  - apply find_lt in E as [Hk Ek]. rewrite Hb by auto. destruct (Hv k Hk Ek) as [-> ->]. reflexivity.
  - rewrite HF; [f_equal; apply map_ext_in; intros k Hk; apply in_seq in Hk; rewrite Hb by lia; auto|].
    intros k Hk. apply (find_none _ _ E). rewrite <- in_rev, in_seq. lia.
Qed.
Lemma frame_false b sh idx k : frame b sh idx k = false <-> b k <= nth k idx 0 < b k + nth k sh 0.
Proof. unfold frame. rewrite orb_false_iff. lia. Qed.

(** ** one call of torch's pad *)
Definition ext_of (b e : nat -> Z) (sh : list Z) : list Z := map (fun k => nth k sh 0 + b k + e k) (seq 0 (length sh)).
Lemma ext_nth b e sh k : (k < length sh)%nat -> nth k (ext_of b e sh) 0 = nth k sh 0 + b k + e k.
Proof. intros. unfold ext_of. now rewrite (@nth_map_seq _ (fun k => nth k sh 0 + b k + e k)). Qed.
Lemma ext_length b e sh : length (ext_of b e sh) = length sh.
Proof. unfold ext_of. now rewrite map_length, seq_length. Qed.
Lemma torch_pad_ok {A} (t : arr A) w v : Nat.odd (length w) = false -> (length w <= 2 * length (ash t))%nat ->
  Forall (fun z => 0 <= z) w -> Forall (fun z => 0 <= z) (ash t) ->
  exists y, torch_pad t w v = Ok y /\ ash y = ext_of (before (length (ash t)) w) (after (length (ash t)) w) (ash t) /\
    forall idx, adat y idx = if forallb (fun k => negb (frame (before (length (ash t)) w) (ash t) idx k)) (seq 0 (length (ash t)))
                             then adat t (map (fun k => nth k idx 0 - before (length (ash t)) w k) (seq 0 (length (ash t)))) else v.
Proof.
  intros Ho Hl Hw Hs. unfold torch_pad, odd_len. rewrite Ho. replace (2 * length (ash t) <? length w)%nat with false by (symmetry; apply Nat.ltb_ge; lia). cbn [orb].
  assert (NN : forall i, 0 <= nth i w 0). { intros i. destruct (Nat.lt_ge_cases i (length w)) as [L|L]; [rewrite Forall_forall in Hw; apply Hw, nth_In; auto|rewrite nth_overflow by lia; lia]. }
  replace (existsb _ _) with false.
  2:{ symmetry. apply not_true_is_false. intros E. apply existsb_exists in E as (z & I & L). apply in_map_iff in I as (k & <- & Ik). apply in_seq in Ik.
      unfold before, after in L. pose proof (NN (2 * (length (ash t) - 1 - k))%nat). pose proof (NN (2 * (length (ash t) - 1 - k) + 1)%nat).
      assert (0 <= nth k (ash t) 0) by (rewrite Forall_forall in Hs; apply Hs, nth_In; lia). lia. }
  eexists. split; [reflexivity|]. split; [reflexivity|]. intros idx. cbn [adat]. cbv zeta.
  replace (forallb (fun k => (0 <=? nth k idx 0 - before (length (ash t)) w k) && (nth k idx 0 - before (length (ash t)) w k <? nth k (ash t) 0)) (seq 0 (length (ash t))))
    with (forallb (fun k => negb (frame (before (length (ash t)) w) (ash t) idx k)) (seq 0 (length (ash t)))); [reflexivity|].
  generalize (seq 0 (length (ash t))). induction l as [|k l IH]; [auto|]. cbn [forallb]. rewrite IH. f_equal. unfold frame. lia.
Qed.
