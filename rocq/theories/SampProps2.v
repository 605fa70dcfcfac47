(** C66: create_train_val_split. *)
From Coq Require Import Permutation.
From Verif Require Import Base BaseLemmas LayoutModel LayoutProofs OpsModel SampSpec SampModel SampProofs SampProofs2 SampProps.
Open Scope nat_scope.

Lemma combine_app_eq {A B} (l l2 : list A) (m m2 : list B) : length l = length m -> combine (l ++ l2) (m ++ m2) = combine l m ++ combine l2 m2.
Proof. revert m. induction l as [|a l IH]; intros [|b m] H; cbn in *; try discriminate; [auto|]. f_equal. apply IH. lia. Qed.
Lemma train_le pn pd n : pn < pd -> train_rows pn pd n <= n /\ (0 < n -> train_rows pn pd n < n).
Proof. intros H. unfold train_rows. split; [apply Nat.div_le_upper_bound; [lia|]; nia|]. intros Hn. apply Nat.div_lt_upper_bound; [lia|]. nia. Qed.
Lemma val_idx_skip pn pd n perm : pn < pd -> length perm = n -> val_idx perm (n - train_rows pn pd n) = skipn (train_rows pn pd n) perm.
Proof.
  intros H L. destruct (train_le pn pd n H) as [T1 T2]. unfold val_idx. destruct (Nat.eqb_spec (n - train_rows pn pd n) 0) as [E|NE].
  - assert (n = 0) by lia. subst n. destruct perm; [now rewrite skipn_nil|cbn in *; lia].
  - f_equal. lia.
Qed.
Lemma split_rank_ok {A} (dflt : A) pn pd perm n l : pn < pd -> length perm = n -> split_rank dflt pn pd perm n l = Some (take dflt l (firstn (train_rows pn pd n) perm), take dflt l (skipn (train_rows pn pd n) perm)).
Proof.
  intros H L. unfold split_rank. cbv zeta. rewrite (val_idx_skip pn pd n perm H L). unfold train_idx. rewrite firstn_length, skipn_length, L. destruct (train_le pn pd n H) as [T1 T2].
  replace (Nat.min (train_rows pn pd n) n + (n - train_rows pn pd n)) with n by lia. now rewrite Nat.eqb_refl.
Qed.
Lemma pairs_take {A B} (da : A) (db : B) l m idx : pairs (take da l idx) (take db m idx) = map (fun k => (nth k l da, nth k m db)) idx.
Proof. unfold pairs, take. induction idx as [|k idx IH]; [auto|]. cbn. now rewrite IH. Qed.
Lemma rank_pairs {A B} (da : A) (db : B) l m perm tr : length m = length l -> is_perm (length l) perm ->
  Permutation (pairs (take da l (firstn tr perm)) (take db m (firstn tr perm)) ++ pairs (take da l (skipn tr perm)) (take db m (skipn tr perm))) (pairs l m).
Proof.
  intros H HP. rewrite !pairs_take, <- map_app, firstn_skipn.
  assert (E : pairs l m = map (fun k => (nth k l da, nth k m db)) (seq 0 (length l))).
  { unfold pairs. apply (@nth_ext _ _ _ (da, db) (da, db)); [rewrite map_length, seq_length, combine_length; lia|]. rewrite combine_length, H, Nat.min_id. intros k Hk. rewrite combine_nth by auto. now rewrite (@nth_map_seq _ (fun k => (nth k l da, nth k m db))). }
  rewrite E. apply Permutation_map. exact HP.
Qed.
Lemma split_ranks_ok {A B} (da : A) (db : B) pn pd : pn < pd -> forall (x : dist A) (y : dist B) perms, lens y = lens x -> length perms = length x ->
  (forall r, r < length x -> is_perm (length (nth r x [])) (nth r perms [])) ->
  exists tx vx ty vy, split_ranks da pn pd perms (lens x) x = Some (tx, vx) /\ split_ranks db pn pd perms (lens x) y = Some (ty, vy) /\
    lens tx = map (train_rows pn pd) (lens x) /\ lens vx = map (fun n => n - train_rows pn pd n) (lens x) /\ lens ty = lens tx /\ lens vy = lens vx /\
    Permutation (pairs (glob tx) (glob ty) ++ pairs (glob vx) (glob vy)) (pairs (glob x) (glob y)).
Proof.
  intros Hp. induction x as [|l x IH]; intros [|m y] [|perm perms] HL HP HQ; try discriminate.
  - exists [], [], [], []. repeat split; auto.
  - injection HL as HM HL. cbn in HP. destruct (IH y perms HL ltac:(lia)) as (tx & vx & ty & vy & E1 & E2 & L1 & L2 & L3 & L4 & PP).
    { intros r Hr. apply (HQ (S r)). cbn. lia. }
    pose proof (HQ 0 ltac:(cbn; lia)) as Q0. cbn [nth] in Q0. destruct (perm_facts _ _ Q0) as (PL & PI & _). destruct (train_le pn pd (length l) Hp) as [T1 _].
    cbn [lens map split_ranks]. fold (lens x). change (map (@length A) x) with (lens x). rewrite (split_rank_ok da pn pd perm (length l) l Hp PL), (split_rank_ok db pn pd perm (length l) m Hp PL), E1, E2.
    do 4 eexists. split; [reflexivity|]. split; [reflexivity|]. cbn [lens map]. fold (lens tx) (lens vx) (lens ty) (lens vy). change (map (@length A) tx) with (lens tx). change (map (@length A) vx) with (lens vx). change (map (@length B) ty) with (lens ty). change (map (@length B) vy) with (lens vy).
    unfold take at 1 2 3 4 5 6. rewrite !map_length, !firstn_length, !skipn_length, PL.
    split; [rewrite L1; f_equal; lia|]. split; [rewrite L2; f_equal; lia|]. split; [now rewrite L3|]. split; [now rewrite L4|].
    set (tr := train_rows pn pd (length l)). pose proof (rank_pairs da db l m perm tr (HM) Q0) as RP.
    unfold glob, pairs in *. cbn [concat]. rewrite !combine_app_eq by (unfold take; now rewrite ?map_length).
    rewrite <- app_assoc. rewrite (app_assoc (combine (concat tx) (concat ty))).
    eapply Permutation_trans; [apply Permutation_app_head, Permutation_app_tail, Permutation_app_comm|].
    rewrite <- app_assoc, app_assoc. apply Permutation_app; auto.
Qed.

(** chunks that are ceil/floor shares keep that form under n -> floor(p n) and n -> n - floor(p n) *)
Lemma shares_balanced (ls : list nat) P q m : length ls = P -> 0 < P -> m < P -> (forall r, r < P -> nth r ls 0 = q + (if r <? m then 1 else 0)) -> ls = counts_of (list_sum ls) P.
Proof.
  intros HL HP Hm H. assert (SUM : list_sum ls = P * q + m).
  { rewrite <- (psum_all ls (Nat.le_refl _)), HL. assert (G : forall k, k <= P -> psum ls k = k * q + Nat.min k m).
    { induction k as [|k IH]; intros Hk; [reflexivity|]. rewrite psum_S by lia. rewrite IH, H by lia. destruct (Nat.ltb_spec k m); lia. }
    rewrite G by lia. lia. }
  apply (@nth_ext _ _ _ 0 0); [now rewrite counts_of_length|]. rewrite HL. intros r Hr. rewrite counts_of_nth, clen_val, SUM, H by auto.
  assert (D : (P * q + m) / P = q) by (symmetry; apply (Nat.div_unique (P * q + m) P q m); lia). assert (M : (P * q + m) mod P = m) by (symmetry; apply (Nat.mod_unique (P * q + m) P q m); lia). now rewrite D, M.
Qed.
Lemma map_balanced (f : nat -> nat) N P : 0 < P -> (forall n, f n <= f (S n) <= S (f n)) -> map f (counts_of N P) = counts_of (list_sum (map f (counts_of N P))) P.
Proof.
  intros HP Hf. set (q := N / P). assert (NV : forall r, r < P -> nth r (map f (counts_of N P)) 0 = f (q + (if r <? N mod P then 1 else 0))).
  { intros r Hr. rewrite (nth_indep _ 0 (f 0)) by (now rewrite map_length, counts_of_length). rewrite map_nth, counts_of_nth, clen_val by auto. reflexivity. }
  assert (MB : N mod P < P) by (apply Nat.mod_upper_bound; lia). destruct (Hf q) as [F1 F2]. destruct (Nat.eq_dec (f (S q)) (f q)) as [E|NE].
  - apply (shares_balanced _ P (f q) 0); auto; [now rewrite map_length, counts_of_length|]. intros r Hr. rewrite NV by auto. destruct (Nat.ltb_spec r (N mod P)); cbn; [rewrite Nat.add_1_r, E|rewrite Nat.add_0_r]; lia.
  - apply (shares_balanced _ P (f q) (N mod P)); auto; [now rewrite map_length, counts_of_length|]. intros r Hr. rewrite NV by auto. destruct (Nat.ltb_spec r (N mod P)); [rewrite Nat.add_1_r|rewrite Nat.add_0_r]; lia.
Qed.
Lemma train_steps pn pd n : pn < pd -> train_rows pn pd n <= train_rows pn pd (S n) <= S (train_rows pn pd n).
Proof.
  intros H. unfold train_rows. split; [apply Nat.div_le_mono; nia|]. replace (S n * pn) with (n * pn + pn) by lia.
  assert ((n * pn + pn) / pd <= (n * pn + 1 * pd) / pd) by (apply Nat.div_le_mono; lia). rewrite Nat.div_add in H0 by lia. lia.
Qed.

(** for every fraction p < 1: the call returns; every (row, label) pair of the input is in exactly one
    of the two parts; rank r gets floor(p * l_r) training rows; both parts are balanced, as the
    result is marked *)
Theorem C66_train_val_split : forall (E F : Type) (bx b_y pn pd : nat) (X : dist (list E)) (Y : dist (list F)) (indices : list nat) (perms : list (list nat)),
  balanced X -> (0 < length X) -> rows_of bx X -> rows_of b_y Y -> lens Y = lens X -> pn < pd ->
  is_perm (list_sum (lens X)) indices -> length perms = length X -> (forall r, r < length X -> is_perm (nth r (lens X) 0) (nth r perms [])) ->
  exists tx ty vx vy, train_val_split bx b_y pn pd indices perms X Y = Ok (Some ((tx, ty), (vx, vy))) /\
    Permutation (pairs (glob tx) (glob ty) ++ pairs (glob vx) (glob vy)) (pairs (glob X) (glob Y)) /\
    lens tx = map (fun l => l * pn / pd) (lens X) /\ lens vx = map (fun l => l - l * pn / pd) (lens X) /\ lens ty = lens tx /\ lens vy = lens vx /\
    balanced tx /\ balanced vx.
Proof.
  intros E F bx b_y pn pd X Y indices perms HB HP0 R1 R2 HL Hp HP PL PQ. destruct (C65_pairs_kept E F bx b_y false X Y indices HB R1 R2 HL HP) as (x & y & E1 & E2 & L1 & L2 & PP).
  assert (LX : length x = length X) by (apply (f_equal (@length nat)) in L1; unfold lens in L1; now rewrite !map_length in L1).
  destruct (split_ranks_ok (@nil E) (@nil F) pn pd Hp x y perms ltac:(congruence) ltac:(congruence)) as (tx & vx & ty & vy & S1 & S2 & T1 & T2 & T3 & T4 & QQ).
  { intros r Hr. assert (EL : length (nth r x []) = nth r (lens X) 0) by (rewrite <- L1; symmetry; exact (map_nth (@length (list E)) x [] r)). rewrite EL. apply PQ. congruence. }
  exists tx, ty, vx, vy. unfold train_val_split. rewrite E1. cbn [bind]. rewrite E2. cbn [bind]. rewrite S1, S2. split; [auto|]. split; [eapply Permutation_trans; eauto|]. rewrite L1 in T1, T2. split; [exact T1|]. split; [exact T2|]. split; [auto|]. split; [auto|].
  assert (TL : length tx = length X) by (apply (f_equal (@length nat)) in T1; unfold lens in T1; now rewrite !map_length in T1).
  assert (VL : length vx = length X) by (apply (f_equal (@length nat)) in T2; unfold lens in T2; now rewrite !map_length in T2).
  unfold balanced in *. rewrite T1, T2, TL, VL. split.
  - rewrite HB. apply map_balanced; auto. intros n. now apply train_steps.
  - rewrite HB. apply map_balanced; auto. intros n. pose proof (train_steps pn pd n Hp). destruct (train_le pn pd n Hp). destruct (train_le pn pd (S n) Hp). lia.
Qed.
Print Assumptions C66_train_val_split.

Example C66_instance :
  let X := [[[1]; [2]]; [[3]; [4]]] in let Y := [[[10]; [20]]; [[30]; [40]]] in
  balanced X /\ rows_of 1 X /\ rows_of 1 Y /\ lens Y = lens X /\ is_perm 4 [0; 1; 2; 3] /\
  train_val_split 1 1 1 2 [0; 1; 2; 3] [[0; 1]; [0; 1]] X Y = Ok (Some (([[[1]]; [[3]]], [[[10]]; [[30]]]), ([[[2]]; [[4]]], [[[20]]; [[40]]]))).
Proof. split; [reflexivity|]. split; [repeat constructor|]. split; [repeat constructor|]. split; [reflexivity|]. split; [apply Permutation_refl|vm_compute; reflexivity]. Qed.

(** p = 1 (no validation rows): perm[-0:] is the whole permutation and the assertion fails *)
Theorem C66_no_validation_refuted :
  let X := [[[1]; [2]]; [[3]; [4]]] in
  train_val_split 1 1 1 1 [0; 1; 2; 3] [[0; 1]; [0; 1]] X X = Ok None.
Proof. vm_compute. reflexivity. Qed.
Print Assumptions C66_no_validation_refuted.
