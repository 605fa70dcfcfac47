(** Proofs about redistribute_. *)
From Verif Require Import Base BaseLemmas LayoutModel LayoutProofs RedistModel.
Set Implicit Arguments.

(* ---------- lists ---------- *)
Lemma upd_nth {A} (l : list A) k j v d :
  nth j (upd l k v) d = if Nat.eqb j k && (k <? length l) then v else nth j l d.
Proof.
  destruct (Nat.eqb_spec j k); simpl.
  - subst. destruct (Nat.ltb_spec k (length l)); [apply upd_same; auto|].
    now rewrite upd_oob.
  - now apply upd_other.
Qed.

Lemma find_from_some {A} (f : A -> bool) l i from p d : find_from f l i from = Some p ->
  from <= p /\ i <= p /\ p < i + length l /\ f (nth (p - i) l d) = true /\
  (forall j, from <= j -> i <= j < p -> f (nth (j - i) l d) = false).
Proof.
  revert i; induction l as [|x l IH]; intros i; simpl; [discriminate|].
  destruct ((from <=? i) && f x) eqn:E.
  - intros [= <-]. rewrite Nat.sub_diag. cbn [nth]. apply andb_true_iff in E. repeat split; try lia; try tauto.
  - intros H. destruct (IH _ H) as (H1 & H2 & H3 & H4 & H5). 
    replace (p - i) with (S (p - S i)) by lia. repeat split; try lia; auto.
    intros j Hj1 Hj2. destruct (Nat.eq_dec j i) as [->|].
    + rewrite Nat.sub_diag. destruct (f x); auto. lia.
    + replace (j - i) with (S (j - S i)) by lia. apply H5; lia.
Qed.

Lemma find_from_none {A} (f : A -> bool) l i from d : find_from f l i from = None ->
  forall j, from <= j -> i <= j < i + length l -> f (nth (j - i) l d) = false.
Proof.
  revert i; induction l as [|x l IH]; intros i H j Hj Hj2; simpl in *; [lia|].
  destruct ((from <=? i) && f x) eqn:E; [discriminate|].
  destruct (Nat.eq_dec j i) as [->|].
  - rewrite Nat.sub_diag. destruct (f x); auto. lia.
  - replace (j - i) with (S (j - S i)) by lia. apply IH; auto; lia.
Qed.

(* ---------- shuffles ---------- *)
(** a transfer is order-preserving when all ranks strictly between are empty and
    the sender has enough *)
Definition xfer_ok (lmap : list nat) (x : xfer) : Prop :=
  x_snd x < length lmap /\ x_rcv x < length lmap /\ x_snd x <> x_rcv x /\
  0 < x_amt x <= nth (x_snd x) lmap 0 /\
  (forall j, (x_snd x < j < x_rcv x) \/ (x_rcv x < j < x_snd x) -> nth j lmap 0 = 0).

Definition xfer_map (lmap : list nat) (x : xfer) : list nat :=
  upd (upd lmap (x_rcv x) (nth (x_rcv x) lmap 0 + x_amt x)) (x_snd x) (nth (x_snd x) lmap 0 - x_amt x).

Lemma lens_upd {A} (d : dist A) k l : lens (upd d k l) = upd (lens d) k (length l).
Proof. unfold lens. revert k; induction d; intros [|k]; simpl; auto. now rewrite IHd. Qed.

Lemma upd_comm {A} (l : list A) i j a b : i <> j -> upd (upd l i a) j b = upd (upd l j b) i a.
Proof. revert i j; induction l; intros [|i] [|j] H; simpl; auto; try lia. now rewrite IHl by lia. Qed.

Lemma shuffle_lens {A} (d : dist A) x : xfer_ok (lens d) x -> lens (shuffle d x) = xfer_map (lens d) x.
Proof.
  intros (H1 & H2 & H3 & H4 & H5). unfold shuffle, xfer_map. rewrite !lens_nth in *.
  rewrite (@upd_comm nat) by auto.
  destruct (Nat.ltb_spec (x_snd x) (x_rcv x)).
  - rewrite !lens_upd, firstn_length, app_length, skipn_length. f_equal; [f_equal|]; lia.
  - destruct (Nat.ltb_spec (x_rcv x) (x_snd x)); [|lia].
    rewrite !lens_upd, skipn_length, app_length, firstn_length. f_equal; lia.
Qed.

Lemma concat_nils {A} (l : list (list A)) : (forall j, j < length l -> nth j l [] = []) -> concat l = [].
Proof.
  induction l as [|h t IH]; intros H; auto. simpl.
  assert (E := H 0 ltac:(simpl; lia)). simpl in E. subst h. simpl. apply IH.
  intros j Hj. apply (H (S j)); simpl; lia.
Qed.

(** splitting a list at two positions *)
Lemma split_two {A} (l : list A) i j d : i < j -> j < length l ->
  l = firstn i l ++ nth i l d :: firstn (j - S i) (skipn (S i) l) ++ nth j l d :: skipn (S j) l.
Proof.
  intros H1 H2. destruct (upd_split l (k:=i) d d ltac:(lia)) as [_ E]. rewrite E at 1. f_equal. f_equal.
  destruct (upd_split (skipn (S i) l) (k:=j - S i) d d) as [_ E2]; [rewrite skipn_length; lia|].
  rewrite E2 at 1. f_equal. f_equal.
  - rewrite <- (firstn_skipn (S i) l) at 2. rewrite app_nth2; rewrite firstn_length; [|lia]. f_equal; lia.
  - rewrite skipn_skipn'. f_equal. lia.
Qed.

Lemma upd_two {A} (l : list A) i j a b : i < j -> j < length l ->
  upd (upd l i a) j b = firstn i l ++ a :: firstn (j - S i) (skipn (S i) l) ++ b :: skipn (S j) l.
Proof.
  revert l j; induction i as [|i IH]; intros l j H1 H2; destruct l as [|h t]; simpl in H2; try lia.
  - destruct j as [|j]; [lia|]. cbn [upd firstn app skipn]. f_equal.
    rewrite Nat.sub_succ, Nat.sub_0_r.
    destruct (upd_split t (k:=j) b h ltac:(lia)) as [E _]. exact E.
  - destruct j as [|j]; [lia|]. cbn [upd firstn app]. f_equal. cbn [skipn]. rewrite Nat.sub_succ. apply IH; lia.
Qed.

Lemma shuffle_glob {A} (d : dist A) x : xfer_ok (lens d) x -> glob (shuffle d x) = glob d.
Proof.
  intros (H1 & H2 & H3 & H4 & H5). rewrite lens_length in *. rewrite lens_nth in H4.
  assert (Z : forall j, (x_snd x < j < x_rcv x) \/ (x_rcv x < j < x_snd x) -> nth j d [] = []).
  { intros j Hj. apply H5 in Hj. rewrite lens_nth in Hj. destruct (nth j d []); auto; simpl in Hj; lia. }
  assert (M : forall i j, i < j -> j < length d -> (forall k, i < k < j -> nth k d [] = []) ->
              concat (firstn (j - S i) (skipn (S i) d)) = []).
  { intros i j Hi Hj Hk. apply concat_nils. intros k Hkl. rewrite firstn_length, skipn_length in Hkl.
    change (firstn (j - S i) (skipn (S i) d)) with (sub d (S i) (j - S i)). rewrite sub_nth by lia. apply Hk; lia. }
  unfold shuffle.
  set (s := nth (x_snd x) d []) in *. set (r := nth (x_rcv x) d []) in *.
  destruct (Nat.ltb_spec (x_snd x) (x_rcv x)) as [L|L].
  - rewrite upd_two by auto. unfold glob. rewrite (@split_two _ d _ _ [] L H2) at 4. fold s r.
    rewrite !concat_app. cbn [concat]. rewrite !concat_app. cbn [concat].
    rewrite M by (auto; intros; apply Z; lia). cbn [app].
    rewrite <- !app_assoc. f_equal. rewrite (app_assoc (firstn _ s)), firstn_skipn. reflexivity.
  - destruct (Nat.ltb_spec (x_rcv x) (x_snd x)) as [L'|]; [|lia].
    rewrite (@upd_comm (list A)) by auto. rewrite upd_two by auto. unfold glob.
    rewrite (@split_two _ d _ _ [] L' H1) at 4. fold s r.
    rewrite !concat_app. cbn [concat]. rewrite !concat_app. cbn [concat].
    rewrite M by (auto; intros; apply Z; lia). cbn [app].
    rewrite <- !app_assoc. f_equal. f_equal. rewrite app_assoc, firstn_skipn. reflexivity.
Qed.

Lemma xfer_map_length lmap x : length (xfer_map lmap x) = length lmap.
Proof. unfold xfer_map. now rewrite !upd_length. Qed.

Lemma xfer_map_sum lmap x : xfer_ok lmap x -> list_sum (xfer_map lmap x) = list_sum lmap.
Proof.
  intros (H1 & H2 & H3 & H4 & H5). unfold xfer_map.
  pose proof (list_sum_upd lmap (k:=x_rcv x) (nth (x_rcv x) lmap 0 + x_amt x) H2) as E1.
  pose proof (list_sum_upd (upd lmap (x_rcv x) (nth (x_rcv x) lmap 0 + x_amt x)) (k:=x_snd x) (nth (x_snd x) lmap 0 - x_amt x)
    ltac:(rewrite upd_length; auto)) as E2.
  rewrite upd_nth in E2. destruct (Nat.eqb_spec (x_snd x) (x_rcv x)); [lia|]. simpl in E2. lia.
Qed.

(** traces in which every transfer is order preserving *)
Inductive trace_ok : list nat -> list xfer -> list nat -> Prop :=
| tok_nil lmap : trace_ok lmap [] lmap
| tok_snoc lmap tr lmap' x : trace_ok lmap tr lmap' -> xfer_ok lmap' x ->
    trace_ok lmap (tr ++ [x]) (xfer_map lmap' x).

Lemma trace_ok_app l1 t1 l2 t2 l3 : trace_ok l1 t1 l2 -> trace_ok l2 t2 l3 -> trace_ok l1 (t1 ++ t2) l3.
Proof.
  intros H1 H2. induction H2; [now rewrite app_nil_r|].
  rewrite app_assoc. constructor; auto.
Qed.

Lemma trace_ok_run {A} (d : dist A) l tr l' : trace_ok l tr l' -> l = lens d ->
  lens (run_trace d tr) = l' /\ glob (run_trace d tr) = glob d.
Proof.
  induction 1; intros E; subst; [split; auto|].
  destruct (IHtrace_ok eq_refl) as [E1 E2]. unfold run_trace in *. rewrite fold_left_app. simpl.
  rewrite <- E1 in *. split; [now apply shuffle_lens|]. rewrite shuffle_glob; auto.
Qed.

Lemma trace_ok_length l tr l' : trace_ok l tr l' -> length l' = length l.
Proof. induction 1; auto. now rewrite xfer_map_length. Qed.
Lemma trace_ok_sum l tr l' : trace_ok l tr l' -> list_sum l' = list_sum l.
Proof. induction 1; auto. now rewrite xfer_map_sum. Qed.

(* ---------- one receiver ---------- *)
Section Pass.
Variable target : list nat.
Let size := length target.

(** Invariant of the inner loop when receiver [rcv] starts from [l0]: only ranks
    in [rcv, snd) changed; ranks in (rcv, snd) are empty unless rcv is satisfied. *)
Definition inner_inv (rcv : nat) (l0 : list nat) (tr0 : list xfer) (cs0 : list Z) (k : nat) (b : bk) : Prop :=
  let '(lmap, cs, tr) := b in
  (exists t, tr = tr0 ++ t /\ trace_ok l0 t lmap) /\
  length cs = length cs0 /\
  (forall j, j < rcv -> nth j lmap 0 = nth j l0 0 /\ nth j cs 0%Z = nth j cs0 0%Z) /\
  (forall j, k <= j -> j <> rcv -> nth j lmap 0 = nth j l0 0) /\
  nth rcv lmap 0 <= Nat.max (nth rcv l0 0) (nth rcv target 0) /\
  nth rcv l0 0 <= nth rcv lmap 0 /\
  (nth rcv lmap 0 < nth rcv target 0 -> forall j, rcv < j < k -> nth j lmap 0 = 0).

Lemma inner_step_inv rcv l0 tr0 cs0 k b :
  rcv < size -> length l0 = size -> rcv <= k < size ->
  inner_inv rcv l0 tr0 cs0 k b ->
  inner_inv rcv l0 tr0 cs0 (S k) (inner_step size rcv (nth rcv target 0) b k).
Proof.
  intros Hr Hl Hk. destruct b as [[lmap cs] tr]. intros ((t & -> & T) & C & I1 & I2 & I3 & I4 & I5).
  unfold inner_step. destruct (Nat.eqb_spec k size); [lia|].
  set (amt := if (nth rcv target 0 <=? nth rcv lmap 0) || Nat.eqb k rcv then 0
              else if absdiff (nth rcv target 0) (nth rcv lmap 0) <=? nth k lmap 0
                   then absdiff (nth rcv target 0) (nth rcv lmap 0) else nth k lmap 0).
  assert (Lm : length lmap = size) by (rewrite (trace_ok_length T); auto).
  assert (CS : forall j, j < rcv -> nth j (upd (upd cs k (nth k cs 0 - Z.of_nat amt)%Z) rcv
      (nth rcv (upd cs k (nth k cs 0 - Z.of_nat amt)%Z) 0 + Z.of_nat amt)%Z) 0%Z = nth j cs 0%Z).
  { intros j Hj. rewrite !upd_other by lia. reflexivity. }
  destruct (Nat.eqb_spec amt 0) as [E|E].
  - (* nothing sent *)
    rewrite E. assert (U1 : upd lmap rcv (nth rcv lmap 0 + 0) = lmap).
    { apply nth_ext2 with 0; [apply upd_length|]. intros i _. rewrite upd_nth.
      destruct (Nat.eqb_spec i rcv); simpl; auto; subst; destruct (rcv <? length lmap); lia. }
    rewrite U1.
    assert (U2 : upd lmap k (nth k lmap 0 - 0) = lmap).
    { apply nth_ext2 with 0; [apply upd_length|]. intros i _. rewrite upd_nth.
      destruct (Nat.eqb_spec i k); simpl; auto; subst; destruct (k <? length lmap); lia. }
    rewrite U2. rewrite E in CS. cbn [inner_inv].
    split; [exists t; auto|]. split; [now rewrite !upd_length|]. split.
    { intros j Hj. split; [apply I1; auto|]. rewrite CS by auto. apply I1; auto. }
    split; [intros j Hj1 Hj2; apply I2; lia|]. split; [auto|]. split; [auto|].
    intros Hlt j Hj. destruct (Nat.eq_dec j k) as [->|]; [|apply I5; auto; lia].
    revert E. unfold amt. destruct (Nat.leb_spec (nth rcv target 0) (nth rcv lmap 0)); [lia|].
    destruct (Nat.eqb_spec k rcv); [lia|]. simpl. unfold absdiff.
    destruct (Nat.leb_spec (nth rcv target 0 - nth rcv lmap 0 + (nth rcv lmap 0 - nth rcv target 0)) (nth k lmap 0)); lia.
  - assert (A1 : nth rcv lmap 0 < nth rcv target 0 /\ k <> rcv /\ amt <= nth k lmap 0 /\
                 amt <= nth rcv target 0 - nth rcv lmap 0 /\
                 (amt < nth rcv target 0 - nth rcv lmap 0 -> amt = nth k lmap 0)).
    { clear CS. revert E. unfold amt. destruct (Nat.leb_spec (nth rcv target 0) (nth rcv lmap 0)); [simpl; lia|].
      destruct (Nat.eqb_spec k rcv); [simpl; lia|]. simpl. unfold absdiff.
      destruct (Nat.leb_spec (nth rcv target 0 - nth rcv lmap 0 + (nth rcv lmap 0 - nth rcv target 0)) (nth k lmap 0)); lia. }
    destruct A1 as (A1 & A2 & A3 & A4 & A5). clearbody amt.
    assert (XO : xfer_ok lmap (Xfer k rcv amt)).
    { repeat split; simpl; try lia. intros j [Hj|Hj]; [lia|]. apply I5; auto. }
    assert (NM : upd (upd lmap rcv (nth rcv lmap 0 + amt)) k
                   (nth k (upd lmap rcv (nth rcv lmap 0 + amt)) 0 - amt) = xfer_map lmap (Xfer k rcv amt)).
    { unfold xfer_map; simpl. rewrite (@upd_other nat) by auto. reflexivity. }
    rewrite NM. cbn [inner_inv].
    assert (V : forall j, nth j (xfer_map lmap (Xfer k rcv amt)) 0 =
              if Nat.eqb j k then nth k lmap 0 - amt else if Nat.eqb j rcv then nth rcv lmap 0 + amt else nth j lmap 0).
    { intros j. unfold xfer_map; simpl. rewrite !upd_nth, !upd_length, Lm.
      destruct (Nat.eqb_spec j k); simpl; [destruct (Nat.ltb_spec k size); lia|].
      destruct (Nat.eqb_spec j rcv); simpl; auto. destruct (Nat.ltb_spec rcv size); lia. }
    split; [exists (t ++ [Xfer k rcv amt]); split; [now rewrite app_assoc|constructor; auto]|].
    split; [now rewrite !upd_length|]. split.
    { intros j Hj. split; [|rewrite CS by auto; apply I1; auto].
      rewrite V. destruct (Nat.eqb_spec j k); [lia|]. destruct (Nat.eqb_spec j rcv); [lia|]. apply I1; auto. }
    split.
    { intros j Hj1 Hj2. rewrite V. destruct (Nat.eqb_spec j k); [lia|]. destruct (Nat.eqb_spec j rcv); [lia|]. apply I2; lia. }
    rewrite (V rcv). destruct (Nat.eqb_spec rcv k); [lia|]. rewrite Nat.eqb_refl.
    split; [lia|]. split; [lia|]. intros Hlt j Hj. rewrite V.
    destruct (Nat.eqb_spec j k); [lia|]. destruct (Nat.eqb_spec j rcv); [lia|]. apply I5; lia.
Qed.

Lemma inner_step_oob rcv need b k : k = size -> inner_step size rcv need b k = b.
Proof. intros ->. destruct b as [[? ?] ?]. unfold inner_step. now rewrite Nat.eqb_refl. Qed.

Lemma inner_loop_inv rcv l0 tr0 cs0 n : forall k b,
  rcv < size -> length l0 = size -> rcv <= k -> k + n <= S size ->
  inner_inv rcv l0 tr0 cs0 k b ->
  inner_inv rcv l0 tr0 cs0 (Nat.min (k + n) size) (fold_left (inner_step size rcv (nth rcv target 0)) (seq k n) b)
  \/ (k = S size /\ n = 0).
Proof.
  induction n as [|n IH]; intros k b Hr Hl Hk Hn I.
  - destruct (Nat.eq_dec k (S size)); [right; lia|left].
    simpl. replace (Nat.min (k + 0) size) with k by lia. auto.
  - left. cbn [seq fold_left]. destruct (Nat.eq_dec k size) as [E|E].
    + assert (n = 0) by lia. subst n. rewrite inner_step_oob by auto. simpl. replace (Nat.min (k + 1) size) with k by lia. auto.
    + destruct (IH (S k) (inner_step size rcv (nth rcv target 0) b k)) as [IH'|]; auto; try lia.
      * apply inner_step_inv; auto; lia.
      * replace (k + S n) with (S k + n) by lia. auto.
Qed.

Lemma psum_gap l a b : a <= b -> b <= length l -> (forall j, a <= j < b -> nth j l 0 = 0) -> psum l b = psum l a.
Proof.
  intros H1 H2. remember (b - a) as m. revert b Heqm H1 H2. induction m; intros b E H1 H2 Z.
  - replace b with a by lia; auto.
  - destruct b as [|b]; [lia|]. rewrite psum_S by lia. rewrite Z by lia. rewrite (IHm b); try lia. intros; apply Z; lia.
Qed.

(** [outer_ok rcv l cs l0]: state when receiver [rcv] is about to be handled *)
Definition outer_inv (l0 : list nat) (rcv : nat) (b : bk) : Prop :=
  let '(lmap, cs, tr) := b in
  trace_ok l0 tr lmap /\ length cs = size /\
  (forall j, j < rcv -> nth j lmap 0 <= nth j target 0).

Lemma psum_ext_le l1 l2 k : length l1 = length l2 -> (forall j, j < k -> nth j l1 0 <= nth j l2 0) -> psum l1 k <= psum l2 k.
Proof.
  intros L. induction k; intros H; [reflexivity|].
  destruct (Nat.le_gt_cases (length l1) k).
  - rewrite !psum_all in * by lia. apply IHk. intros; apply H; lia.
  - rewrite !psum_S by lia. specialize (IHk ltac:(intros; apply H; lia)). specialize (H k ltac:(lia)). lia.
Qed.

Lemma outer_step_spec l0 rcv b :
  length l0 = size -> list_sum l0 = list_sum target -> S rcv < size ->
  outer_inv l0 rcv b ->
  exists b', outer_step target (Ok b) rcv = Ok b' /\ outer_inv l0 (S rcv) b' /\
   (forall j, j < rcv -> nth j (fst (fst b')) 0 = nth j (fst (fst b)) 0 /\ nth j (snd (fst b')) 0%Z = nth j (snd (fst b)) 0%Z) /\
   (* nothing to do at this receiver: state unchanged *)
   (nth rcv (fst (fst b)) 0 = nth rcv target 0 -> b' = (fst (fst b), snd (fst b'), snd b) /\ (forall j, nth j (snd (fst b')) 0%Z = nth j (snd (fst b)) 0%Z)) /\
   (* if the cumsum is a true one from rcv on, the receiver ends up exact *)
   ((forall j, rcv <= j < size -> nth j (snd (fst b)) 0%Z = Z.of_nat (psum (fst (fst b)) (S j))) ->
    psum (fst (fst b)) rcv = psum target rcv ->
    nth rcv (fst (fst b')) 0 = nth rcv target 0).
Proof.
  intros Hl Hs Hr. destruct b as [[lmap cs] tr]. intros (T & C & G). cbn [fst snd].
  assert (Lm : length lmap = size) by (rewrite (trace_ok_length T); auto).
  assert (Sm : list_sum lmap = list_sum target) by (rewrite (trace_ok_sum T); auto).
  unfold outer_step. cbn [bind].
  rewrite (@psum_S target rcv) by (fold size; lia).
  replace (psum target rcv + nth rcv target 0 - psum target rcv) with (nth rcv target 0) by lia.
  assert (INV0 : forall k, rcv <= k -> (forall j, rcv < j < k -> nth rcv lmap 0 < nth rcv target 0 -> nth j lmap 0 = 0) ->
     inner_inv rcv lmap tr cs k (lmap, cs, tr)).
  { intros k Hk Hz. cbn [inner_inv]. split; [exists []; split; [now rewrite app_nil_r|constructor]|].
    repeat split; auto; try lia. }
  destruct (Nat.leb_spec (nth rcv target 0) (nth rcv lmap 0)) as [Hge|Hlt].
  - (* rcv already has enough *)
    cbn [bind]. fold size.
    replace (S rcv - rcv) with 1 by lia. cbn [seq fold_left].
    pose proof (@inner_step_inv rcv lmap tr cs rcv (lmap, cs, tr) ltac:(lia) Lm ltac:(lia) (INV0 rcv ltac:(lia) ltac:(intros; lia))) as I.
    assert (ST : inner_step size rcv (nth rcv target 0) (lmap, cs, tr) rcv =
       (lmap, upd (upd cs rcv (nth rcv cs 0 - Z.of_nat 0)%Z) rcv (nth rcv (upd cs rcv (nth rcv cs 0 - Z.of_nat 0)%Z) 0 + Z.of_nat 0)%Z, tr)).
    { unfold inner_step. destruct (Nat.eqb_spec rcv size); [lia|]. rewrite Nat.eqb_refl, orb_true_r. cbn [Nat.eqb].
      f_equal. f_equal. apply nth_ext2 with 0; [now rewrite !upd_length|]. intros i _. rewrite !upd_nth, !upd_length.
      rewrite Nat.eqb_refl. destruct (Nat.eqb_spec i rcv); simpl; auto; subst; destruct (rcv <? length lmap); lia. }
    rewrite ST. clear I.
    set (cs1 := upd (upd cs rcv (nth rcv cs 0 - Z.of_nat 0)%Z) rcv (nth rcv (upd cs rcv (nth rcv cs 0 - Z.of_nat 0)%Z) 0 + Z.of_nat 0)%Z).
    assert (CS1 : forall j, nth j cs1 0%Z = nth j cs 0%Z).
    { intros j. unfold cs1. rewrite !upd_nth, !upd_length. rewrite Nat.eqb_refl. destruct (Nat.eqb_spec j rcv); simpl; auto.
      subst. destruct (rcv <? length cs); lia. }
    assert (LC1 : length cs1 = size) by (unfold cs1; now rewrite !upd_length).
    destruct (Nat.ltb_spec (nth rcv target 0) (nth rcv lmap 0)) as [Hgt|Heq].
    + set (amt := nth rcv lmap 0 - nth rcv target 0).
      assert (XO : xfer_ok lmap (Xfer rcv (S rcv) amt)).
      { unfold xfer_ok; simpl. unfold amt. split; [lia|]. split; [lia|]. split; [lia|]. split; [lia|]. intros; lia. }
      assert (NM : upd (upd lmap rcv (nth rcv lmap 0 - amt)) (S rcv) (nth (S rcv) (upd lmap rcv (nth rcv lmap 0 - amt)) 0 + amt)
                   = xfer_map lmap (Xfer rcv (S rcv) amt)).
      { unfold xfer_map; simpl. rewrite (@upd_other nat) by lia. apply upd_comm; lia. }
      rewrite NM.
      assert (V : forall j, nth j (xfer_map lmap (Xfer rcv (S rcv) amt)) 0 =
              if Nat.eqb j rcv then nth rcv target 0 else if Nat.eqb j (S rcv) then nth (S rcv) lmap 0 + amt else nth j lmap 0).
      { intros j. unfold xfer_map; simpl. rewrite !upd_nth, !upd_length, Lm.
        destruct (Nat.eqb_spec j rcv); simpl; [destruct (Nat.ltb_spec rcv size); unfold amt; lia|].
        destruct (Nat.eqb_spec j (S rcv)); simpl; auto. destruct (Nat.ltb_spec (S rcv) size); lia. }
      eexists. split; [reflexivity|]. cbn [fst snd]. split; [|split; [|split]].
      * cbn [outer_inv]. split; [constructor; auto|]. split; [now rewrite !upd_length|].
        intros j Hj. rewrite V. destruct (Nat.eqb_spec j rcv); [subst; lia|]. destruct (Nat.eqb_spec j (S rcv)); [lia|]. apply G; lia.
      * intros j Hj. rewrite V. destruct (Nat.eqb_spec j rcv); [lia|]. destruct (Nat.eqb_spec j (S rcv)); [lia|].
        split; auto. rewrite !upd_other by lia. apply CS1.
      * intros Heq. lia.
      * intros _ _. rewrite V. now rewrite Nat.eqb_refl.
    + eexists. split; [reflexivity|]. cbn [fst snd]. split; [|split; [|split]].
      * cbn [outer_inv]. split; auto. split; auto. intros j Hj. destruct (Nat.eq_dec j rcv); [subst; lia|apply G; lia].
      * intros j Hj. split; auto.
      * intros _. split; auto.
      * intros _ _. lia.
  - (* rcv needs data *)
    destruct (find_from (fun c => 0 <? c) lmap 0 rcv) as [st_pr|] eqn:F1.
    2:{ exfalso. pose proof (find_from_none (fun c => 0 <? c) lmap 0 F1) as N. 
        assert (psum lmap size = psum lmap rcv).
        { apply psum_gap; try lia. intros j Hj. specialize (N j ltac:(lia) ltac:(lia)). rewrite Nat.sub_0_r in N. lia. }
        rewrite (psum_all lmap) in H by lia.
        assert (psum lmap rcv <= psum target rcv) by (apply psum_ext_le; auto; fold size; lia).
        pose proof (psum_le_sum target (S rcv)). rewrite psum_S in H1 by (fold size; lia). lia. }
    destruct (@find_from_some _ _ _ _ _ _ 0 F1) as (Q1 & _ & Q3 & Q4 & Q5).
    rewrite Nat.sub_0_r in Q4. simpl in Q3.
    assert (Z0 : forall j, rcv < j < st_pr -> nth j lmap 0 = 0).
    { intros j Hj. specialize (Q5 j ltac:(lia) ltac:(lia)). rewrite Nat.sub_0_r in Q5. lia. }
    cbn [bind]. fold size.
    set (sp_pr := match find_from (fun c => Z.leb (Z.of_nat (psum target rcv + nth rcv target 0)) c) cs 0 rcv with Some p => p | None => size end).
    assert (SP : rcv <= sp_pr <= size).
    { unfold sp_pr. destruct (find_from _ cs 0 rcv) as [p|] eqn:F2; [|lia].
      pose proof (@find_from_some _ _ _ _ _ _ 0%Z F2). lia. }
    pose proof (@inner_loop_inv rcv lmap tr cs (S sp_pr - st_pr) st_pr (lmap, cs, tr) ltac:(lia) Lm ltac:(lia) ltac:(lia)
        (INV0 st_pr ltac:(lia) ltac:(intros; apply Z0; lia))) as LI.
    destruct LI as [LI|[]]; [|lia].
    destruct (fold_left (inner_step size rcv (nth rcv target 0)) (seq st_pr (S sp_pr - st_pr)) (lmap, cs, tr)) as [[lm1 cs1] tr1].
    cbn [inner_inv] in LI. destruct LI as ((t & -> & T1) & C1 & J1 & J2 & J3 & J4 & J5).
    destruct (Nat.ltb_spec (nth rcv target 0) (nth rcv lm1 0)) as [Hgt|Hle]; [lia|].
    eexists. split; [reflexivity|]. cbn [fst snd].
    split; [|split; [|split]].
    + cbn [outer_inv]. split; [eapply trace_ok_app; eauto|]. split; [congruence|].
      intros j Hj. destruct (Nat.eq_dec j rcv); [subst; lia|]. destruct (J1 j ltac:(lia)) as [-> _]. apply G; lia.
    + intros j Hj. apply J1; auto.
    + intros Heq; lia.
    + intros HC HP. destruct (Nat.eq_dec (nth rcv lm1 0) (nth rcv target 0)) as [|NE]; auto. exfalso.
      assert (Hlt1 : nth rcv lm1 0 < nth rcv target 0) by lia. specialize (J5 Hlt1).
      (* all ranks rcv < j < min (S sp_pr) size are empty in lm1; the sum of the window is preserved *)
      assert (Lm1 : length lm1 = size) by (rewrite (trace_ok_length T1); auto).
      set (e := Nat.min (st_pr + (S sp_pr - st_pr)) size) in *.
      assert (E1 : psum lm1 e = psum lm1 (S rcv)).
      { destruct (Nat.le_gt_cases e (S rcv)).
        - unfold e in *. assert (e = S rcv \/ e <= rcv) as [|] by (unfold e; lia); [unfold e in *; congruence|].
          exfalso. unfold e in *. lia.
        - apply psum_gap; try (unfold e in *; lia). intros j Hj. apply J5. unfold e in *; lia. }
      assert (E2 : psum lm1 rcv = psum lmap rcv).
      { assert (forall k, k <= rcv -> psum lm1 k = psum lmap k) as K; [|apply K; auto].
        induction k; intros; auto. rewrite !psum_S by lia. rewrite IHk by lia. destruct (J1 k ltac:(lia)) as [-> _]. auto. }
      assert (E3 : psum lm1 e = psum lmap e).
      { assert (W : forall k, e <= k -> k <= size -> psum lm1 k - psum lm1 e = psum lmap k - psum lmap e /\ psum lm1 e <= psum lm1 k /\ psum lmap e <= psum lmap k).
        { induction k; intros Hk1 Hk2.
          - assert (e = 0) by lia. rewrite H. lia.
          - destruct (Nat.eq_dec e (S k)) as [->|]; [lia|]. rewrite !psum_S by lia. specialize (IHk ltac:(lia) ltac:(lia)).
            rewrite (J2 k) by (unfold e in *; lia). lia. }
        specialize (W size ltac:(unfold e; lia) ltac:(lia)).
        pose proof (@psum_all lm1 size ltac:(lia)). pose proof (@psum_all lmap size ltac:(lia)).
        pose proof (trace_ok_sum T1). lia. }
      assert (E4 : psum lmap e < psum target rcv + nth rcv target 0).
      { rewrite <- E3, E1. rewrite psum_S by lia. lia. }
      (* sp_pr is the first rank whose true cumsum reaches sp; so psum lmap (S sp_pr) >= sp *)
      unfold sp_pr in *. destruct (find_from (fun c => Z.leb (Z.of_nat (psum target rcv + nth rcv target 0)) c) cs 0 rcv) as [p|] eqn:F2.
      * destruct (@find_from_some _ _ _ _ _ _ 0%Z F2) as (R1 & _ & R3 & R4 & _). rewrite Nat.sub_0_r in R4. simpl in R3.
        rewrite HC in R4 by lia.
        destruct (Nat.le_gt_cases st_pr (S p)).
        -- assert (e = S p) by (unfold e; lia). rewrite H0 in E4. lia.
        -- assert (e = st_pr) by (unfold e; lia). pose proof (@psum_mono lmap (S p) e ltac:(lia)). lia.
      * assert (e = size) by (unfold e; lia). rewrite H in E4. rewrite psum_all in E4 by lia.
        pose proof (psum_le_sum target (S rcv)). rewrite psum_S in H0 by (fold size; lia). lia.
Qed.

Lemma pass_aux l0 : length l0 = size -> list_sum l0 = list_sum target ->
  forall n rcv b, rcv + n <= size - 1 -> outer_inv l0 rcv b ->
  exists b', fold_left (outer_step target) (seq rcv n) (Ok b) = Ok b' /\ outer_inv l0 (rcv + n) b' /\
   (forall j, j < rcv -> nth j (fst (fst b')) 0 = nth j (fst (fst b)) 0).
Proof.
  intros Hl Hs. induction n as [|n IH]; intros rcv b Hn I.
  - exists b. simpl. rewrite Nat.add_0_r. auto.
  - cbn [seq fold_left]. destruct (@outer_step_spec l0 rcv b Hl Hs ltac:(lia) I) as (b1 & E1 & I1 & K1 & _ & _).
    rewrite E1. destruct (IH (S rcv) b1 ltac:(lia) I1) as (b2 & E2 & I2 & K2).
    exists b2. split; auto. replace (rcv + S n) with (S rcv + n) by lia. split; auto.
    intros j Hj. rewrite K2 by lia. apply K1; auto.
Qed.

(** ranks that already match are skipped *)
Lemma pass_skip l0 : length l0 = size -> list_sum l0 = list_sum target ->
  forall n rcv b, rcv + n <= size - 1 -> outer_inv l0 rcv b ->
  (forall j, rcv <= j < rcv + n -> nth j (fst (fst b)) 0 = nth j target 0) ->
  exists b', fold_left (outer_step target) (seq rcv n) (Ok b) = Ok b' /\ outer_inv l0 (rcv + n) b' /\
   fst (fst b') = fst (fst b) /\ (forall j, nth j (snd (fst b')) 0%Z = nth j (snd (fst b)) 0%Z).
Proof.
  intros Hl Hs. induction n as [|n IH]; intros rcv b Hn I M.
  - exists b. simpl. rewrite Nat.add_0_r. auto.
  - cbn [seq fold_left]. destruct (@outer_step_spec l0 rcv b Hl Hs ltac:(lia) I) as (b1 & E1 & I1 & K1 & K2 & _).
    rewrite E1. destruct K2 as [K2 K3]; [apply M; lia|].
    assert (F : fst (fst b1) = fst (fst b)) by (rewrite K2; auto).
    destruct (IH (S rcv) b1 ltac:(lia) I1) as (b2 & E2 & I2 & F2 & C2).
    { intros j Hj. rewrite F. apply M; lia. }
    exists b2. split; auto. replace (rcv + S n) with (S rcv + n) by lia. split; auto. split; [congruence|].
    intros j. rewrite C2. apply K3.
Qed.

Lemma cumsum_nth l j : j < length l -> nth j (cumsum l) 0%Z = Z.of_nat (psum l (S j)).
Proof. intros. unfold cumsum. rewrite nth_map_seq; auto. Qed.
Lemma cumsum_length l : length (cumsum l) = length l.
Proof. unfold cumsum. now rewrite map_length, seq_length. Qed.

(** One pass succeeds, is order preserving, and extends the matching prefix. *)
Lemma redist_pass_spec l0 k : length l0 = size -> list_sum l0 = list_sum target ->
  k <= size - 1 -> (forall j, j < k -> nth j l0 0 = nth j target 0) ->
  exists l1 tr, redist_pass l0 target = Ok (l1, tr) /\ trace_ok l0 tr l1 /\
   (forall j, j < Nat.min (S k) (size - 1) -> nth j l1 0 = nth j target 0).
Proof.
  intros Hl Hs Hk M. unfold redist_pass. fold size.
  change (@Ok (list nat * list Z * list xfer) (l0, cumsum l0, [])) with (@Ok bk (l0, cumsum l0, [])).
  assert (I0 : outer_inv l0 0 (l0, cumsum l0, [])).
  { cbn [outer_inv]. split; [constructor|]. split; [now rewrite cumsum_length|]. intros; lia. }
  destruct (@pass_skip l0 Hl Hs k 0 (l0, cumsum l0, []) ltac:(lia) I0) as (b1 & E1 & I1 & F1 & C1).
  { intros j Hj. apply M; lia. }
  cbn [fst snd] in *. simpl in I1.
  destruct (Nat.eq_dec k (size - 1)) as [Ek|Ek].
  - rewrite <- Ek. rewrite E1. cbn [bind]. destruct b1 as [[l1 c1] t1]. cbn [fst] in F1. subst l1.
    do 2 eexists. split; [reflexivity|]. split; [apply I1|]. intros j Hj. apply M. lia.
  - assert (Q : seq 0 (size - 1) = seq 0 k ++ [k] ++ seq (k + 1) (size - 1 - k - 1)).
    { replace (size - 1) with (k + (1 + (size - 1 - k - 1))) at 1 by lia. rewrite !seq_app. reflexivity. }
    rewrite Q, !fold_left_app, E1. cbn [fold_left].
    destruct (@outer_step_spec l0 k b1 Hl Hs ltac:(lia) I1) as (b2 & E2 & I2 & K2 & _ & K3).
    rewrite E2.
    destruct (@pass_aux l0 Hl Hs (size - 1 - k - 1) (k + 1) b2 ltac:(lia)) as (b3 & E3 & I3 & K4).
    { rewrite Nat.add_1_r. exact I2. }
    rewrite E3. cbn [bind]. destruct b3 as [[l3 c3] t3]. do 2 eexists. split; [reflexivity|].
    split; [apply I3|]. intros j Hj. cbn [fst] in K4. rewrite K4 by lia.
    destruct (Nat.eq_dec j k) as [->|].
    + apply K3.
      * intros i Hi. rewrite C1, F1. apply cumsum_nth. lia.
      * rewrite F1. assert (forall q, q <= k -> psum l0 q = psum target q) as Q2; [|apply Q2; auto].
        induction q; intros; auto. rewrite !psum_S by (fold size; lia). rewrite IHq, M by lia. auto.
    + destruct (K2 j ltac:(lia)) as [-> _]. rewrite F1. apply M; lia.
Qed.

Lemma all_match l : length l = size -> list_sum l = list_sum target -> 0 < size ->
  (forall j, j < size - 1 -> nth j l 0 = nth j target 0) -> l = target.
Proof.
  intros Hl Hs Hp M.
  assert (E : psum l (size - 1) = psum target (size - 1)).
  { assert (forall q, q <= size - 1 -> psum l q = psum target q) as Q; [|apply Q; auto].
    induction q; intros; auto. rewrite !psum_S by (fold size; lia). rewrite IHq, M by lia. auto. }
  assert (E2 : nth (size - 1) l 0 = nth (size - 1) target 0).
  { pose proof (@psum_S l (size - 1) ltac:(lia)) as A1. pose proof (@psum_S target (size - 1) ltac:(fold size; lia)) as A2.
    rewrite psum_all in A1 by lia. rewrite psum_all in A2 by (fold size; lia). lia. }
  apply nth_ext2 with 0; auto. intros i Hi. destruct (Nat.eq_dec i (size - 1)) as [->|]; auto. apply M; lia.
Qed.

Lemma redist_loop_spec : forall fuel l0 k tr0, length l0 = size -> list_sum l0 = list_sum target ->
  0 < size -> k <= size - 1 -> (forall j, j < k -> nth j l0 0 = nth j target 0) ->
  size - 1 - k < fuel ->
  exists tr n, redist_loop fuel l0 target tr0 = Ok (target, tr0 ++ tr, n) /\ trace_ok l0 tr target /\ n <= S (size - 1 - k) .
Proof.
  induction fuel as [|fuel IH]; intros l0 k tr0 Hl Hs Hp Hk M Hf; [lia|].
  cbn [redist_loop]. destruct (@redist_pass_spec l0 k Hl Hs Hk M) as (l1 & t1 & E1 & T1 & M1).
  rewrite E1. cbn [bind].
  assert (L1 : length l1 = size) by (rewrite (trace_ok_length T1); auto).
  assert (S1 : list_sum l1 = list_sum target) by (rewrite (trace_ok_sum T1); auto).
  unfold eqb_list. destruct (list_eq_dec Nat.eq_dec l1 target) as [->|NE].
  - exists t1, 1. split; auto. split; auto. lia.
  - assert (Nat.min (S k) (size - 1) < size - 1).
    { destruct (Nat.lt_ge_cases (Nat.min (S k) (size - 1)) (size - 1)); auto. exfalso; apply NE. apply all_match; auto.
      intros j Hj. apply M1. lia. }
    destruct (IH l1 (S k) (tr0 ++ t1) L1 S1 Hp ltac:(lia)) as (t2 & n & E2 & T2 & N2).
    { intros j Hj. apply M1. lia. }
    { lia. }
    rewrite E2. cbn [bind]. exists (t1 ++ t2), (S n). split; [now rewrite app_assoc|]. split; [eapply trace_ok_app; eauto|]. lia.
Qed.
End Pass.

(* ---------- top level ---------- *)
Lemma redistribute_ok_lemma : forall (A : Type) (d : dist A) (t : list nat),
  length t = length d -> list_sum t = length (glob d) ->
  exists d', redistribute (length d) d (Some t) = Ok d' /\ glob d' = glob d /\ lens d' = t.
Proof.
  intros A d t Hl Hs. rewrite glob_length in Hs. unfold redistribute.
  destruct (Nat.leb_spec (length d) 1) as [H1|H1].
  - exists d. repeat split; auto. destruct d as [|x [|]]; destruct t as [|y [|]]; simpl in *; try lia; auto.
    autorewrite with lsum in Hs. f_equal. lia.
  - rewrite Hs, Nat.eqb_refl, Hl, Nat.eqb_refl. cbn [negb bind].
    destruct (@redist_loop_spec t (length d) (lens d) 0 []) as (tr & n & E & T & _); [rewrite lens_length; lia|lia|lia|lia|intros; lia|lia|].
    rewrite E. cbn [bind app]. exists (run_trace d tr). split; auto. destruct (trace_ok_run d T eq_refl); auto.
Qed.

Lemma redistribute_none_lemma : forall (A : Type) (d : dist A), 0 < length d ->
  exists d', redistribute (length d) d None = Ok d' /\ glob d' = glob d /\
     lens d' = counts_of (length (glob d)) (length d).
Proof.
  intros A d Hp. destruct (@redistribute_ok_lemma A d (counts_of (length (glob d)) (length d))) as (d' & E & G & L).
  - apply counts_of_length.
  - apply counts_of_sum; auto.
  - exists d'. split; auto. rewrite <- E. unfold redistribute.
    destruct (Nat.leb_spec (length d) 1); auto.
    rewrite <- glob_length, counts_of_sum, Nat.eqb_refl, counts_of_length, Nat.eqb_refl by auto. reflexivity.
Qed.

Lemma redistribute_bad_lemma : forall (A : Type) fuel (d : dist A) (t : list nat),
  1 < length d -> (list_sum t <> length (glob d) \/ length t <> length d) ->
  redistribute fuel d (Some t) = Err ValueError.
Proof.
  intros A fuel d t H1 H2. unfold redistribute. destruct (Nat.leb_spec (length d) 1); [lia|].
  rewrite <- glob_length. destruct (Nat.eqb_spec (list_sum t) (length (glob d))); cbn [negb]; auto.
  destruct (Nat.eqb_spec (length t) (length d)); cbn [negb]; auto. tauto.
Qed.

Lemma redist_passes_lemma : forall lmap target, length lmap = length target -> list_sum lmap = list_sum target ->
  0 < length target ->
  exists tr n, redist_loop (length target) lmap target [] = Ok (target, tr, n) /\ n <= length target.
Proof.
  intros lmap target Hl Hs Hp. destruct (@redist_loop_spec target (length target) lmap 0 []) as (tr & n & E & T & N); auto; try lia.
  exists tr, n. split; auto. lia.
Qed.

(** more fuel changes nothing *)
Lemma redist_loop_fuel : forall f1 f2 l t tr r, redist_loop f1 l t tr = Ok r -> f1 <= f2 -> redist_loop f2 l t tr = Ok r.
Proof.
  induction f1 as [|f1 IH]; intros [|f2] l t tr r E Hf; try discriminate; try lia.
  cbn [redist_loop] in *. destruct (redist_pass l t) as [[l' t']|]; cbn [bind] in *; [|discriminate].
  destruct (eqb_list l' t); auto.
  destruct (redist_loop f1 l' t (tr ++ t')) as [r1|] eqn:E1; cbn [bind] in *; [|discriminate].
  rewrite (IH f2 _ _ _ _ E1) by lia. exact E.
Qed.

Lemma list_sum_le_len (l : list nat) : (forall x, In x l -> x <= 1) -> list_sum l <= length l.
Proof. induction l; intros H; simpl; auto. rewrite list_sum_cons. specialize (IHl (fun x h => H x (or_intror h))). specialize (H a (or_introl eq_refl)). lia. Qed.
Lemma list_sum_full (l : list nat) : (forall x, In x l -> x <= 1) -> list_sum l = length l -> forall x, In x l -> x = 1.
Proof.
  induction l as [|a l IH]; intros H E x; simpl; [tauto|]. rewrite list_sum_cons in E.
  pose proof (list_sum_le_len l (fun x h => H x (or_intror h))). pose proof (H a (or_introl eq_refl)).
  simpl in E. intros [<-|Hx]; [lia|]. apply IH; auto; [|lia]. intros; apply H; simpl; auto.
Qed.

Lemma is_balanced_iff : forall (A : Type) (d : dist A), 0 < length d ->
  (is_balanced_check d = true <-> lens d = counts_of (length (glob d)) (length d)).
Proof.
  intros A d Hp. unfold is_balanced_check. rewrite <- glob_length. set (n := length (glob d)).
  set (f := fun r => if Nat.eqb (snd (chunk_1d n r (length d))) (length (nth r d [])) then 1 else 0).
  assert (B : forall x, In x (map f (seq 0 (length d))) -> x <= 1).
  { intros x Hx. apply in_map_iff in Hx. destruct Hx as (r & <- & _). unfold f. destruct (Nat.eqb _ _); lia. }
  split.
  - intros H. apply Nat.eqb_eq in H.
    assert (Q : list_sum (map f (seq 0 (length d))) = length (map f (seq 0 (length d)))) by (rewrite map_length, seq_length; auto).
    apply nth_ext2 with 0; [now rewrite lens_length, counts_of_length|].
    intros i Hi. rewrite lens_length in Hi. rewrite lens_nth, counts_of_nth by auto.
    assert (f i = 1). { apply (list_sum_full _ B Q). apply in_map_iff. exists i; split; auto. apply in_seq; lia. }
    unfold f in H0. destruct (Nat.eqb_spec (snd (chunk_1d n i (length d))) (length (nth i d []))); [|lia]. unfold clen. auto.
  - intros H. apply Nat.eqb_eq.
    rewrite (@map_seq_ext _ f (fun _ => 1)).
    + rewrite map_const_seq, list_sum_repeat. lia.
    + intros i Hi. unfold f. fold (clen n i (length d)). rewrite <- counts_of_nth, <- H, lens_nth by auto. now rewrite Nat.eqb_refl.
Qed.

Lemma balance_lemma : forall (A : Type) (d : dist A), 0 < length d ->
  exists d', balance (length d) d = Ok d' /\ glob d' = glob d /\
    lens d' = counts_of (length (glob d)) (length d) /\
    is_balanced_check d' = true /\ balance (length d') d' = Ok d'.
Proof.
  intros A d Hp. assert (R : exists d', balance (length d) d = Ok d' /\ glob d' = glob d /\ lens d' = counts_of (length (glob d)) (length d)).
  { unfold balance. destruct (is_balanced_check d) eqn:E.
    - exists d. split; auto. split; auto. now apply is_balanced_iff.
    - apply redistribute_none_lemma; auto. }
  destruct R as (d' & E & G & L). exists d'. split; auto. split; auto. split; auto.
  assert (LD : length d' = length d) by (rewrite <- (lens_length d'), L; apply counts_of_length).
  assert (B : is_balanced_check d' = true) by (apply is_balanced_iff; rewrite ?LD, ?G; auto).
  split; auto. unfold balance. now rewrite B.
Qed.

Lemma collect_lemma : forall (A : Type) (d : dist A) r, r < length d ->
  exists d', collect (length d) d r = Ok d' /\ length d' = length d /\ glob d' = glob d /\
    nth r d' [] = glob d /\ (forall q, q <> r -> nth q d' [] = []).
Proof.
  intros A d r Hr. unfold collect. destruct (Nat.leb_spec (length d) r); [lia|].
  destruct (Nat.leb_spec (length d) 1).
  - exists d. destruct d as [|x [|]]; simpl in *; try lia. assert (r = 0) by lia. subst. repeat split; auto.
    + unfold glob; simpl. now rewrite app_nil_r.
    + intros [|[|q]] Hq; simpl; auto; lia.
  - set (t := upd (repeat 0 (length d)) r (list_sum (lens d))).
    assert (Lt : length t = length d) by (unfold t; now rewrite upd_length, repeat_length).
    assert (St : list_sum t = list_sum (lens d)).
    { pose proof (list_sum_upd (repeat 0 (length d)) (k:=r) (list_sum (lens d)) ltac:(rewrite repeat_length; auto)) as E.
      rewrite list_sum_repeat in E. assert (nth r (repeat 0 (length d)) 0 = 0) by (rewrite nth_repeat_le; destruct (_ <? _); auto).
      unfold t. lia. }
    destruct (@redistribute_ok_lemma A d t Lt) as (d' & E & G & L); [now rewrite glob_length|].
    assert (LD : length d' = length d) by (rewrite <- (lens_length d'), L; auto).
    assert (Z : forall q, q <> r -> nth q d' [] = []).
    { intros q Hq. assert (length (nth q d' []) = 0); [|destruct (nth q d' []); auto; simpl in *; lia].
      rewrite <- lens_nth, L. unfold t. rewrite upd_other by auto. rewrite nth_repeat_le; destruct (_ <? _); auto. }
    exists d'. repeat split; auto. rewrite <- G.
    rewrite (glob_cut d' (k:=r)) by lia.
    assert (Z1 : glob (firstn r d') = []).
    { apply concat_nils. intros j Hj. rewrite firstn_length in Hj. change (firstn r d') with (sub d' 0 r). rewrite sub_nth by lia. apply Z. simpl; lia. }
    assert (Z2 : glob (skipn (S r) d') = []).
    { apply concat_nils. intros j Hj. rewrite skipn_length in Hj.
      replace (skipn (S r) d') with (sub d' (S r) (length d' - S r)).
      - rewrite sub_nth by lia. apply Z; lia.
      - unfold sub. apply firstn_all2. rewrite skipn_length. lia. }
    rewrite Z1, Z2. simpl. now rewrite app_nil_r.
Qed.

Lemma collect_oob : forall (A : Type) fuel (d : dist A) r, length d <= r -> collect fuel d r = Err ValueError.
Proof. intros. unfold collect. destruct (Nat.leb_spec (length d) r); auto; lia. Qed.
