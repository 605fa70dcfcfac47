(** C93: TS-QR is a QR factorization for every number of processes, merging factor and layout. *)
From Coq Require Import Ring.
From Verif Require Import Base QrSpec QrModel QrProofs QrProofs2 OpsModel.
Open Scope nat_scope.

Lemma find_block (ks : list nat) i : i < list_sum ks -> exists p t, p < length ks /\ t < nth p ks 0 /\ i = list_sum (firstn p ks) + t.
Proof.
  revert i. induction ks as [|k ks IH]; intros i H; [change (list_sum []) with 0 in H; lia|]. change (list_sum (k :: ks)) with (k + list_sum ks) in H. destruct (le_lt_dec k i) as [G|G].
  - destruct (IH (i - k) ltac:(lia)) as (p & t & P1 & P2 & P3). exists (S p), t. cbn [length nth firstn]. change (list_sum (k :: firstn p ks)) with (k + list_sum (firstn p ks)). repeat split; auto; lia.
  - exists 0, i. cbn [length nth firstn]. change (list_sum []) with 0. repeat split; auto; lia.
Qed.
Lemma nsum_list (ks : list nat) : nsum (length ks) (fun r => nth r ks 0) = list_sum ks.
Proof. unfold gsum, list_sum. f_equal. apply nth_ext with 0 0; [now rewrite map_length, seq_length|]. intros k Hk. rewrite map_length, seq_length in Hk. now rewrite nth_map_seq' by auto. Qed.
Lemma rows_in_list {V} (As : list (mat V)) q g : 0 < q -> rows_in As q g = list_sum (map mr (firstn q (skipn (g * q) As))).
Proof.
  intros Hq. unfold rows_in. rewrite <- firstn_map, <- skipn_map. rewrite <- (map_length mr As). generalize (map mr As) as ks. intros ks. clear As.
  pose proof (gsum_zero 0 Nat.add Nat.add_comm Nat.add_assoc Nat.add_0_l) as GZ. pose proof (gsum_app 0 Nat.add Nat.add_comm Nat.add_assoc Nat.add_0_l) as GA.
  assert (DV : forall r, (r / q =? g) = (g * q <=? r) && (r <? g * q + q)).
  { intros r. pose proof (Nat.div_mod r q ltac:(lia)). pose proof (Nat.mod_upper_bound r q ltac:(lia)). destruct (Nat.eqb_spec (r / q) g) as [E|N].
    - rewrite E in H. destruct (Nat.leb_spec (g * q) r), (Nat.ltb_spec r (g * q + q)); try reflexivity; lia.
    - destruct (Nat.leb_spec (g * q) r), (Nat.ltb_spec r (g * q + q)); try reflexivity. exfalso. apply N. symmetry. apply (Nat.div_unique _ _ _ (r - g * q)); lia. }
  transitivity (nsum (length ks) (fun r => if (g * q <=? r) && (r <? g * q + q) then nth r ks 0 else 0)); [apply gsum_ext; intros r _; now rewrite DV|]. generalize (g * q) as a. clear DV. intros a.
  destruct (le_lt_dec (length ks) a) as [G|G].
  - rewrite GZ; [|intros i Hi; destruct (Nat.leb_spec a i); [lia|reflexivity]]. rewrite skipn_all2 by auto. destruct q; reflexivity.
  - set (b := Nat.min q (length ks - a)). replace (length ks) with (a + (b + (length ks - a - b))) at 1 by lia. rewrite !GA.
    rewrite GZ; [|intros i Hi; destruct (Nat.leb_spec a i); [lia|reflexivity]]. rewrite (GZ (length ks - a - b)); [|intros i Hi; destruct (Nat.ltb_spec (a + (b + i)) (a + q)); [lia|now rewrite andb_false_r]]. rewrite Nat.add_0_l, Nat.add_0_r.
    rewrite <- nsum_list. replace (length (firstn q (skipn a ks))) with b by (rewrite firstn_length, skipn_length; reflexivity). apply gsum_ext. intros i Hi. destruct (Nat.leb_spec a (a + i)); [|lia]. destruct (Nat.ltb_spec (a + i) (a + q)); [|lia]. cbn [andb].
    rewrite <- (firstn_skipn a ks) at 1. rewrite app_nth2; rewrite firstn_length; [|lia]. replace (a + i - Nat.min a (length ks)) with i by lia. rewrite <- (firstn_skipn q (skipn a ks)) at 1. rewrite app_nth1; [reflexivity|]. rewrite firstn_length, skipn_length. lia.
Qed.
Lemma max_list l n : Exists (fun k => n <= k) l -> n <= fold_right Nat.max 0 l.
Proof. induction 1; cbn; lia. Qed.
Lemma max_sum l : fold_right Nat.max 0 l <= list_sum l.
Proof. induction l as [|a l IH]; [reflexivity|]. change (list_sum (a :: l)) with (a + list_sum l). cbn [fold_right]. lia. Qed.

Section Main.
Context {V : Type} (zero one : V) (add mul sub : V -> V -> V) (opp : V -> V) (conj : V -> V).
Notation vstack := (vstack zero). Notation is_qr := (is_qr zero one add mul conj). Notation mmul := (mmul zero add mul). Notation msum := (msum zero add).

(** C93.  [qr] is torch's factorization of local matrices; it may raise (None), but what it returns is a QR factorization.
    TS-QR then returns one of the global matrix - the blocks on top of each other - unless a local factorization raises.
    The condition on the groups says that every first-level group of at least two processes holds at least n rows. *)
Theorem C93_tsqr (qr : mat V -> option (mat V * mat V)) (As : list (mat V)) (n : nat) (p : Z) (reduced : bool) :
  ring_theory zero one add mul sub opp eq -> (forall a b, conj (add a b) = add (conj a) (conj b)) -> (forall a b, conj (mul a b) = mul (conj a) (conj b)) ->
  (forall a q r, qr a = Some (q, r) -> is_qr a q r) ->
  2 <= length As -> Forall (fun a => mc a = n) As -> Exists (fun a => n <= mr a) As -> (p = 0 \/ 2 <= p)%Z ->
  let q := if (p =? 0)%Z then length As else Z.to_nat p in
  (reduced = true -> forall g, g * q + 1 < length As -> n <= list_sum (map mr (firstn q (skipn (g * q) As)))) ->
  (exists X, qr X = None) \/
  exists Q R, qr_rows zero add mul qr reduced n p As = Some (Ok (Q, R)) /\ mr R = n /\ mc R = n /\ upper zero R /\
    (forall a b, a < n -> b < n -> msum (mr (vstack n As)) (fun i => mul (conj (me (vstack n As) i a)) (me (vstack n As) i b)) = msum n (fun k => mul (conj (me R k a)) (me R k b))) /\
    if reduced then exists Qs, Q = Some Qs /\ map mr Qs = map mr As /\ Forall (fun x => mc x = n) Qs /\ orthonormal zero one add mul conj (vstack n Qs) /\ meq (mmul (vstack n Qs) R) (vstack n As)
    else Q = None.
Proof.
  intros RT ca cm sound HP HA HE Hp q tall. pose proof (ac zero one add mul sub opp RT) as AC. pose proof (aa zero one add mul sub opp RT) as AA. pose proof (az zero one add mul sub opp RT) as AZ.
  assert (Hq : 2 <= q) by (unfold q; destruct (Z.eqb_spec p 0); lia).
  assert (HA' : forall r, r < length As -> mc (nth r As (m0 zero)) = n) by (intros r Hr; rewrite Forall_forall in HA; apply HA, nth_In; auto).
  assert (TL : reduced = true -> forall g, g * q + 1 < length As -> n <= rows_in As q g) by (intros Hr g Hg; rewrite rows_in_list by lia; apply tall; auto).
  assert (HM : n <= fold_right Nat.max 0 (map mr As)) by (apply max_list; rewrite Exists_exists in *; destruct HE as (a & I1 & I2); exists (mr a); split; [now apply in_map|auto]).
  assert (HS : n <= list_sum (map mr As)) by (pose proof (max_sum (map mr As)); lia).
  assert (ND : (exists X, qr X = None) \/ all_ok (map (local_qr qr) As) = Ok (map (fun a => match qr a with Some p => p | None => (m0 zero, m0 zero) end) As)).
  { destruct (existsb (fun a => match qr a with None => true | Some _ => false end) As) eqn:EX.
    - left. apply existsb_exists in EX as (a & _ & Ha). exists a. destruct (qr a); [discriminate|reflexivity].
    - right. apply all_ok_map_Ok. intros a Ha. unfold local_qr. destruct (qr a) eqn:E; [reflexivity|]. exfalso. assert (T : existsb (fun a => match qr a with None => true | Some _ => false end) As = true); [|congruence]. apply existsb_exists. exists a. split; [auto|]. now rewrite E. }
  destruct ND as [ND|ND]; [left; auto|].
  destruct (tsqr_ok zero one add mul sub opp conj RT ca cm qr sound As n q Hq reduced HA' TL ltac:(lia) HS) as [X|(w & Qs & Rs & E & I)]; [left; auto|right].
  assert (N0 : forall j, nth j (map mr As) 0 = mr (nth j As (m0 zero))) by (intros j; change 0 with (mr (m0 zero)) at 1; now rewrite map_nth).
  assert (DZ : forall r, r < length As -> r / w = 0) by (intros r Hr; pose proof (i_dom _ _ _ _ _ _ _ _ _ _ _ _ I r Hr); generalize dependent (r / w); intros; lia).
  assert (RT0 : rows_in As w 0 = list_sum (map mr As)) by (unfold rows_in; rewrite <- nsum_list, map_length; apply gsum_ext; intros r Hr; now rewrite DZ by auto).
  destruct (i_R _ _ _ _ _ _ _ _ _ _ _ _ I 0 ltac:(lia)) as (R1 & R2 & R3). cbn [Nat.mul] in R1, R2, R3. set (R := nth 0 Rs (m0 zero)) in *. rewrite RT0, Nat.min_r in R1 by auto.
  exists (if reduced then Some Qs else None), R. split.
  { unfold qr_rows. replace ((p <? 0)%Z || (p =? 1)%Z) with false by lia. fold q. destruct (Nat.ltb_spec (fold_right Nat.max 0 (map mr As)) n); [lia|]. unfold tsqr. rewrite ND. cbn [bind]. rewrite !map_map. rewrite E. cbn [bind snd fst]. fold R. rewrite R1, R2, Nat.eqb_refl. reflexivity. }
  split; [auto|]. split; [auto|]. split; [auto|]. split.
  { intros a b Ha Hb. pose proof (i_gram _ _ _ _ _ _ _ _ _ _ _ _ I 0 ltac:(lia) a b Ha Hb) as GR. cbn [Nat.mul] in GR. fold R in GR. rewrite R1 in GR. change msum with (gsum zero add). rewrite <- GR. rewrite vstack_mr, (gsum_blocks _ _ AC AA AZ), map_length. apply gsum_ext. intros r Hr. rewrite (DZ r Hr), N0. cbn [Nat.eqb]. apply gsum_ext. intros i Hi. rewrite firstn_map. now rewrite !(vstack_me zero n As r i _ (m0 zero)) by auto. }
  destruct reduced eqn:ER; [|reflexivity]. exists Qs. split; [reflexivity|].
  pose proof (i_lq _ _ _ _ _ _ _ _ _ _ _ _ I eq_refl) as LQ. pose proof (i_Q _ _ _ _ _ _ _ _ _ _ _ _ I eq_refl) as IQ. cbv zeta in IQ. pose proof (i_orth _ _ _ _ _ _ _ _ _ _ _ _ I eq_refl 0 ltac:(lia)) as IO. cbn [Nat.mul] in IO. fold R in IO.
  assert (EM : map mr Qs = map mr As).
  { apply nth_ext with 0 0; [now rewrite !map_length|]. intros r Hr. rewrite map_length, LQ in Hr. rewrite N0. change 0 with (mr (m0 zero)) at 1. rewrite map_nth. apply IQ; auto. }
  split; [exact EM|]. split.
  { apply Forall_nth. intros r d Hr. rewrite LQ in Hr. rewrite (nth_indep _ d (m0 zero)) by (rewrite LQ; auto). destruct (IQ r Hr) as (_ & X & _). rewrite X, DZ by auto. exact R1. }
  split.
  - intros a b. rewrite vstack_mc. intros Ha Hb. change msum with (gsum zero add). rewrite vstack_mr, (gsum_blocks _ _ AC AA AZ), map_length, LQ. rewrite <- (IO a b ltac:(lia) ltac:(lia)). apply gsum_ext. intros r Hr. rewrite (DZ r Hr). cbn [Nat.eqb]. rewrite EM, N0. apply gsum_ext. intros i Hi. rewrite <- EM, firstn_map.
    destruct (IQ r Hr) as (X & _ & _). now rewrite !(vstack_me zero n Qs r i _ (m0 zero)) by (rewrite ?LQ, ?X; auto).
  - split; [cbn [mmul mr]; rewrite !vstack_mr; now rewrite EM|]. split; [cbn [mmul mc]; now rewrite vstack_mc|]. cbn [QrSpec.mmul mr mc me]. intros i j Hi Hj. rewrite R2 in Hj. rewrite vstack_mr in Hi. rewrite vstack_mc. change msum with (gsum zero add).
    destruct (find_block _ _ Hi) as (r & t & B1 & B2 & B3). rewrite map_length, LQ in B1. rewrite EM, N0 in B2. destruct (IQ r B1) as (X1 & X2 & X3). rewrite DZ in X2, X3 by auto. cbn [Nat.mul] in X2, X3. fold R in X2, X3. rewrite R1 in X3.
    assert (B4 : i = list_sum (map mr (firstn r Qs)) + t) by (rewrite <- firstn_map; exact B3). assert (B5 : i = list_sum (map mr (firstn r As)) + t) by (rewrite <- firstn_map, <- EM; exact B3).
    replace (me (vstack n As) i j) with (me (nth r As (m0 zero)) t j) by (rewrite B5, (vstack_me zero n As r t _ (m0 zero)) by auto; reflexivity). rewrite <- (X3 t j B2 Hj). apply gsum_ext. intros k Hk. rewrite B4. rewrite (vstack_me zero n Qs r t _ (m0 zero)) by (rewrite ?LQ, ?X1; auto). reflexivity.
Qed.
Theorem C93_arguments qr As n p reduced : (p < 0 \/ p = 1)%Z -> qr_rows zero add mul qr reduced n p As = Some (Err ValueError).
Proof. intros H. unfold qr_rows. replace ((p <? 0)%Z || (p =? 1)%Z) with true by lia. reflexivity. Qed.
End Main.

(** Instance.  An oracle over the integers: rows sorted by their first non-zero column, checked. *)
Definition zsumn := QrSpec.msum 0%Z Z.add.
Definition all2 (m n : nat) (f : nat -> nat -> bool) : bool := forallb (fun i => forallb (f i) (seq 0 n)) (seq 0 m).
Definition check (a q r : mat Z) : bool :=
  (mr q =? mr a) && (mc q =? Nat.min (mr a) (mc a)) && (mr r =? Nat.min (mr a) (mc a)) && (mc r =? mc a) &&
  all2 (mc q) (mc q) (fun x y => (zsumn (mr q) (fun i => (me q i x * me q i y)%Z) =? (if (x =? y)%nat then 1 else 0))%Z) &&
  all2 (mr r) (mc r) (fun i j => negb (j <? i) || (me r i j =? 0)%Z) &&
  all2 (mr a) (mc a) (fun i j => (zsumn (mc q) (fun k => (me q i k * me r k j)%Z) =? me a i j)%Z).
Lemma all2_spec m n f : all2 m n f = true -> forall i j, i < m -> j < n -> f i j = true.
Proof. unfold all2. rewrite forallb_forall. intros H i j Hi Hj. specialize (H i ltac:(apply in_seq; lia)). rewrite forallb_forall in H. apply H, in_seq. lia. Qed.
Lemma check_sound a q r : check a q r = true -> is_qr 0%Z 1%Z Z.add Z.mul (fun x => x) a q r.
Proof.
  unfold check. intros H. repeat (apply andb_prop in H as [H ?]). apply Nat.eqb_eq in H, H5, H4, H3. pose proof (all2_spec _ _ _ H2) as O. pose proof (all2_spec _ _ _ H1) as U. pose proof (all2_spec _ _ _ H0) as E.
  split; [auto|]. split; [auto|]. split; [auto|]. split; [auto|]. split; [|split].
  - intros x y Hx Hy. apply Z.eqb_eq. apply O; auto.
  - intros i j Hi Hj L. specialize (U i j Hi Hj). cbv beta in U. destruct (Nat.ltb_spec j i); [|lia]. cbn in U. now apply Z.eqb_eq.
  - split; [exact H|]. split; [exact H3|]. cbn [mmul mr mc me]. intros i j Hi Hj. apply Z.eqb_eq. apply E; lia.
Qed.
Definition lead (a : mat Z) (i : nat) : nat := hd (mc a) (filter (fun j => negb (me a i j =? 0)%Z) (seq 0 (mc a))).
Definition sorted_rows (a : mat Z) : list nat := concat (map (fun c => filter (fun i => lead a i =? c) (seq 0 (mr a))) (seq 0 (S (mc a)))).
Definition tab (m n : nat) (f : nat -> nat -> Z) : mat Z := let l := map (fun i => map (f i) (seq 0 n)) (seq 0 m) in Mat m n (fun i j => nth j (nth i l []) 0%Z).
Definition zqr (a : mat Z) : option (mat Z * mat Z) :=
  let k := Nat.min (mr a) (mc a) in let s := firstn k (sorted_rows a) in
  let q := tab (mr a) k (fun i t => if nth t s 0 =? i then 1%Z else 0%Z) in
  let r := tab k (mc a) (fun t j => me a (nth t s 0) j) in
  if check a q r then Some (q, r) else None.
Lemma zqr_sound a q r : zqr a = Some (q, r) -> is_qr 0%Z 1%Z Z.add Z.mul (fun x => x) a q r.
Proof. unfold zqr. cbv zeta. match goal with |- context[if ?c then _ else _] => destruct c eqn:E end; [|discriminate]. intros H. injection H as <- <-. apply check_sound, E. Qed.
Definition mat_of (n : nat) (l : list (list Z)) : mat Z := Mat (length l) n (fun i j => nth j (nth i l []) 0%Z).
Definition rows_list (a : mat Z) : list (list Z) := map (fun i => map (me a i) (seq 0 (mc a))) (seq 0 (mr a)).
Definition ex3 : list (mat Z) := [mat_of 2 [[0; 0]; [3; 1]]; mat_of 2 [[0; 2]; [0; 0]]; mat_of 2 [[0; 0]]]%Z.
(** the hypotheses of C93_tsqr hold and the call succeeds *)
Example C93_hyps : 2 <= length ex3 /\ Forall (fun a => mc a = 2) ex3 /\ Exists (fun a => 2 <= mr a) ex3 /\
  (forall g, g * 2 + 1 < length ex3 -> 2 <= list_sum (map mr (firstn 2 (skipn (g * 2) ex3)))) /\
  (forall a q r, zqr a = Some (q, r) -> is_qr 0%Z 1%Z Z.add Z.mul (fun x => x) a q r).
Proof.
  split; [cbn; lia|]. split; [repeat constructor|]. split; [constructor; cbn; lia|]. split; [|exact zqr_sound]. intros g Hg. cbn [length ex3] in Hg. assert (g = 0) by lia. subst. vm_compute. lia.
Qed.
Example C93_values : match qr_rows 0%Z Z.add Z.mul zqr true 2 2 ex3 with
  | Some (Ok (Some Qs, R)) => Some (map rows_list Qs, rows_list R) | _ => None end =
  Some ([[[0; 0]; [1; 0]]; [[0; 1]; [0; 0]]; [[0; 0]]], [[3; 1]; [0; 2]])%Z.
Proof. vm_compute. reflexivity. Qed.
(** The full claim has no condition on the groups: a 2x1 matrix in the balanced layout on 4 processes, procs_to_merge = 2
    (the default), raises although the largest block has as many rows as columns *)
Theorem C93_short_group_refuted : exists (qr : mat Z -> option (mat Z * mat Z)) As,
  (forall a q r, qr a = Some (q, r) -> is_qr 0%Z 1%Z Z.add Z.mul (fun x => x) a q r) /\
  map mr As = [1; 1; 0; 0] /\ Forall (fun a => mc a = 1) As /\ qr_rows 0%Z Z.add Z.mul qr true 1 2 As = Some (Err RuntimeError) /\
  (forall p, (p = 0 \/ p = 3 \/ p = 4)%Z -> match qr_rows 0%Z Z.add Z.mul qr true 1 p As with Some (Ok _) => True | _ => False end).
Proof.
  exists zqr, [mat_of 1 [[3]]; mat_of 1 [[0]]; mat_of 1 []; mat_of 1 []]%Z. split; [exact zqr_sound|]. split; [reflexivity|]. split; [repeat constructor|]. split; [vm_compute; reflexivity|].
  intros p [-> | [-> | ->]]; vm_compute; auto.
Qed.
