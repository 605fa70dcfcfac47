(** C94: QR of a matrix split along its columns. *)
From Coq Require Import Ring.
From Verif Require Import Base QrSpec QrModel QrProofs QrProofs2 QrProps QrColModel QrColProofs OpsModel.
Open Scope nat_scope.

Section Main.
Context {V : Type} (zero one : V) (add mul sub : V -> V -> V) (opp : V -> V) (conj : V -> V).
Lemma gs_loop_app qr As a b : forall i l, gs_loop zero add mul sub conj qr As i (a + b) l = (do l <- gs_loop zero add mul sub conj qr As i a l; gs_loop zero add mul sub conj qr As (i + a) b l).
Proof.
  induction a as [|a IH]; intros i l; [cbn; now rewrite Nat.add_0_r|]. cbn [gs_loop plus]. destruct (gs_step zero add mul sub conj qr As i l); [cbn [bind]; rewrite IH; cbn; now rewrite Nat.add_succ_r|reflexivity].
Qed.
Notation hstack := (hstack zero). Notation msum := (msum zero add). Notation mmul := (mmul zero add mul).

(** C94, for at least as many rows as columns; orthonormal columns of Q only if no diagonal entry of R is zero. *)
Theorem C94_qr_columns_partial (qr : mat V -> option (mat V * mat V)) (As : list (mat V)) (m : nat) :
  ring_theory zero one add mul sub opp eq -> (forall a b, conj (add a b) = add (conj a) (conj b)) -> (forall a b, conj (mul a b) = mul (conj a) (conj b)) -> (forall a, conj (conj a) = a) ->
  (forall a q r, qr a = Some (q, r) -> is_qr zero one add mul conj a q r) ->
  Forall (fun a => mr a = m) As ->
  let n := list_sum (map mc As) in n <= m ->
  (exists X, qr X = None) \/
  exists Qs Rs, qr_cols zero add mul sub conj qr m n As = Ok (Qs, Rs) /\ map mc Qs = map mc As /\ map mc Rs = map mc As /\ Forall (fun x => mr x = m) Qs /\ Forall (fun x => mr x = n) Rs /\
    meq (mmul (hstack m Qs) (hstack n Rs)) (hstack m As) /\ upper zero (hstack n Rs) /\
    (forall t, t < length As -> orthonormal zero one add mul conj (nth t Qs (m0 zero))) /\
    ((forall a b, mul a b = zero -> a = zero \/ b = zero) -> (forall i, i < n -> me (hstack n Rs) i i <> zero) -> orthonormal zero one add mul conj (hstack m Qs)).
Proof.
  intros RT ca cm cc sound HA n HN. pose proof (ac zero one add mul sub opp RT) as AC. pose proof (aa zero one add mul sub opp RT) as AA. pose proof (az zero one add mul sub opp RT) as AZ.
  pose proof (conj0 zero one add mul sub opp conj RT ca) as C0.
  assert (HA' : forall r, r < length As -> mr (nth r As (m0 zero)) = m) by (intros r Hr; rewrite Forall_forall in HA; apply HA, nth_In; auto).
  set (l0 := map (fun a => Qst a (Mat m (mc a) (fun _ _ => zero)) (Mat n (mc a) (fun _ _ => zero))) As).
  assert (N0 : forall r, r < length As -> nth r l0 (qst0 zero) = Qst (nth r As (m0 zero)) (Mat m (mc (nth r As (m0 zero))) (fun _ _ => zero)) (Mat n (mc (nth r As (m0 zero))) (fun _ _ => zero))).
  { intros r Hr. unfold l0. rewrite (nth_indep _ (qst0 zero) ((fun a => Qst a (Mat m (mc a) (fun _ _ => zero)) (Mat n (mc a) (fun _ _ => zero))) (m0 zero))) by (rewrite map_length; auto). rewrite (map_nth (fun a => Qst a (Mat m (mc a) (fun _ _ => zero)) (Mat n (mc a) (fun _ _ => zero)))). reflexivity. }
  assert (I0 : ginv zero one add mul conj As m 0 l0).
  { constructor; cbn [Nat.min]; try (intros; lia).
    - unfold l0. apply map_length.
    - intros r [_ Hr]. rewrite N0 by auto. cbn. split; [apply HA'; auto|auto].
    - intros r Hr. rewrite N0 by auto. cbn. auto.
    - intros r Hr p j _ _ _. rewrite N0 by auto. reflexivity.
    - intros r Hr x j Hx Hj. rewrite N0 by auto. cbn. now rewrite AC, AZ.
    - intros _ _. split; intros; lia. }
  destruct (gs_loop_ok zero one add mul sub opp conj RT ca cm qr sound As m HA' HN (length As) 0 l0 ltac:(lia) I0) as [X|(l & E & I)]; [left; auto|right]. cbn [plus] in I. set (P := length As) in *.
  set (sl := fun p : nat * @qst V => let Q := q_Q (snd p) in Mat (mr Q) (Nat.min (Nat.min m n) (offs As (S (fst p))) - offs As (fst p)) (me Q)).
  set (Qs := map sl (combine (seq 0 P) l)). set (Rs := map q_R l). pose proof (g_len _ _ _ _ _ _ _ _ _ I) as LL. fold P in LL.
  assert (EQ : forall t, t < P -> nth t Qs (m0 zero) = Mat m (mc (nth t As (m0 zero))) (me (q_Q (nth t l (qst0 zero))))).
  { intros t Ht. unfold Qs. rewrite (nth_indep _ (m0 zero) (sl (0, qst0 zero))) by (rewrite map_length, combine_length, seq_length; lia). rewrite map_nth, combine_nth by (rewrite seq_length; auto). rewrite seq_nth by auto. unfold sl. cbn [fst snd plus]. destruct (g_Q _ _ _ _ _ _ _ _ _ I t Ht Ht) as (-> & _ & _). f_equal.
    pose proof (offs_S As t (m0 zero) Ht). pose proof (offs_le As t Ht) as LN. fold n in LN. lia. }
  assert (ER : forall t, nth t Rs (m0 zero) = q_R (nth t l (qst0 zero))) by (intros t; unfold Rs; change (m0 zero) with (q_R (qst0 zero)); apply map_nth).
  assert (LQ : length Qs = P) by (unfold Qs; rewrite map_length, combine_length, seq_length; lia). assert (LR : length Rs = P) by (unfold Rs; now rewrite map_length).
  assert (GR : forall r, r < P -> mr (q_R (nth r l (qst0 zero))) = n /\ mc (q_R (nth r l (qst0 zero))) = mc (nth r As (m0 zero))) by (intros r Hr; apply (g_R _ _ _ _ _ _ _ _ _ I r Hr)).
  assert (CN : forall (L : list (mat V)) t, nth t (map mc L) 0 = mc (nth t L (m0 zero))) by (intros L t; change 0 with (mc (m0 zero)) at 1; apply map_nth).
  assert (MQ : map mc Qs = map mc As) by (apply nth_ext with 0 0; [rewrite !map_length; auto|]; intros t Ht; rewrite map_length, LQ in Ht; rewrite !CN, EQ by auto; reflexivity).
  assert (MR : map mc Rs = map mc As) by (apply nth_ext with 0 0; [rewrite !map_length; auto|]; intros t Ht; rewrite map_length, LR in Ht; rewrite !CN, ER; apply GR; auto).
  assert (OQ : forall t, offs Qs t = offs As t) by (intros t; unfold offs; rewrite <- !firstn_map; now rewrite MQ). assert (OR : forall t, offs Rs t = offs As t) by (intros t; unfold offs; rewrite <- !firstn_map; now rewrite MR).
  assert (HQ : forall t s x, t < P -> s < mc (nth t As (m0 zero)) -> me (hstack m Qs) x (offs As t + s) = me (q_Q (nth t l (qst0 zero))) x s).
  { intros t s x Ht Hs. rewrite <- OQ, (hstack_me zero m Qs t s x (m0 zero)) by (rewrite ?LQ, ?EQ; auto). now rewrite EQ. }
  assert (HR : forall t s x, t < P -> s < mc (nth t As (m0 zero)) -> me (hstack n Rs) x (offs As t + s) = me (q_R (nth t l (qst0 zero))) x s).
  { intros t s x Ht Hs. assert (Hs' : s < mc (nth t Rs (m0 zero))) by (rewrite ER; destruct (GR t Ht) as [_ ->]; auto). rewrite <- OR, (hstack_me zero n Rs t s x (m0 zero)) by (rewrite ?LR; auto). exact (f_equal (fun M => me M x s) (ER t)). }
  exists Qs, Rs. split.
  { unfold qr_cols. replace (Nat.min m n) with n by lia. fold l0. unfold iterations. destruct (Nat.leb_spec n m); [|lia]. fold P. rewrite gs_loop_app. fold P in E. rewrite E. cbn [bind plus gs_loop]. unfold gs_step. fold P. rewrite Nat.ltb_irrefl. cbn [bind]. unfold Qs, sl. replace (Nat.min m n) with n by lia. reflexivity. }
  split; [exact MQ|]. split; [exact MR|]. split.
  { apply Forall_nth. intros t d Ht. rewrite (nth_indep _ d (m0 zero)) by auto. rewrite LQ in Ht. now rewrite EQ. }
  split.
  { apply Forall_nth. intros t d Ht. rewrite (nth_indep _ d (m0 zero)) by auto. rewrite LR in Ht. rewrite ER. apply GR; auto. }
  split; [|split; [|split]].
  - split; [cbn [QrSpec.mmul mr]; now rewrite !hstack_mr|]. split; [cbn [QrSpec.mmul mc]; rewrite !hstack_mc; now rewrite MR|]. cbn [QrSpec.mmul mr mc me]. rewrite hstack_mr, !hstack_mc. rewrite MQ, MR. intros x y Hx Hy.
    destruct (find_col As (m0 zero) y Hy) as (r & j & Hr & Hj & ->). rewrite (hstack_me zero m As r j x (m0 zero)) by auto. rewrite (g_eq _ _ _ _ _ _ _ _ _ I r Hr x j Hx Hj). fold P. destruct (Nat.leb_spec P r); [unfold P in *; lia|]. rewrite AZ. rewrite Nat.min_r by (unfold P in *; lia).
    change msum with (gsum zero add). rewrite (gsum_blocks _ _ AC AA AZ), map_length. fold P. fold P in Hr. replace P with (S r + (P - S r)) by lia. rewrite (gsum_app _ _ AC AA AZ). rewrite (gsum_zero _ _ AC AA AZ (P - S r)).
    + rewrite AC, AZ. apply gsum_ext. intros t Ht. rewrite CN. apply gsum_ext. intros s Hs. rewrite firstn_map. fold (offs As t). rewrite HQ, HR by (auto; lia). reflexivity.
    + intros t Ht. apply (gsum_zero _ _ AC AA AZ). intros s Hs. rewrite CN in Hs. rewrite firstn_map. fold (offs As (S r + t)). rewrite HR by auto. rewrite (g_zero _ _ _ _ _ _ _ _ _ I r Hr (offs As (S r + t) + s) j).
      * rewrite (Rmul_comm RT). apply (ARmul_0_l (Rth_ARth (Eqsth V) (Eq_ext add mul opp) RT)).
      * fold P. rewrite Nat.min_r by lia. pose proof (offs_mono As (S r) (S r + t) ltac:(lia)). lia.
      * pose proof (offs_S As (S r + t) (m0 zero) ltac:(unfold P in *; lia)). pose proof (offs_le As (S r + t) ltac:(unfold P in *; lia)). lia.
      * auto.
  - intros p y. rewrite hstack_mr, hstack_mc, MR. intros Hp Hy L. destruct (find_col As (m0 zero) y Hy) as (r & j & Hr & Hj & ->). rewrite HR by auto. destruct (le_lt_dec (offs As (S r)) p) as [G|G].
    + apply (g_zero _ _ _ _ _ _ _ _ _ I r Hr); auto. fold P. rewrite Nat.min_r by (unfold P; lia). auto.
    + rewrite (offs_S As r (m0 zero) Hr) in G. replace p with (offs As r + (p - offs As r)) by lia. apply (g_upper _ _ _ _ _ _ _ _ _ I r Hr Hr); auto; lia.
  - intros t Ht. rewrite EQ by auto. destruct (g_Q _ _ _ _ _ _ _ _ _ I t Ht Ht) as (Q1 & Q2 & Q3). unfold orthonormal in *. rewrite Q1, Q2 in Q3. exact Q3.
  - intros ID HD. destruct (g_orth _ _ _ _ _ _ _ _ _ I ID) as [O1 _].
    { intros r s Hr _ Hs. rewrite <- (HR r s _ Hr Hs). apply HD. pose proof (offs_S As r (m0 zero) Hr). pose proof (offs_le As r Hr). fold n in H0. lia. }
    intros a b. rewrite hstack_mr, hstack_mc, MQ. intros Ha Hb. destruct (find_col As (m0 zero) a Ha) as (t & s & Ht & Hs & ->). destruct (find_col As (m0 zero) b Hb) as (u & v & Hu & Hv & ->). change msum with (gsum zero add).
    transitivity (gsum zero add m (fun x => mul (conj (me (q_Q (nth t l (qst0 zero))) x s)) (me (q_Q (nth u l (qst0 zero))) x v))); [apply gsum_ext; intros x _; now rewrite !HQ by auto|].
    destruct (lt_eq_lt_dec t u) as [[L|L]|L].
    + rewrite O1 by auto. destruct (Nat.eqb_spec (offs As t + s) (offs As u + v)) as [X|]; [|reflexivity]. destruct (col_unique As (m0 zero) t s u v Ht Hu Hs Hv X). lia.
    + subst u. destruct (g_Q _ _ _ _ _ _ _ _ _ I t Ht Ht) as (Q1 & Q2 & Q3). unfold orthonormal in Q3. rewrite Q1, Q2 in Q3. change (gsum zero add) with msum. rewrite Q3 by auto. destruct (Nat.eqb_spec s v), (Nat.eqb_spec (offs As t + s) (offs As t + v)); try reflexivity; lia.
    + transitivity (conj zero); [|rewrite C0; destruct (Nat.eqb_spec (offs As t + s) (offs As u + v)) as [X|]; [destruct (col_unique As (m0 zero) t s u v Ht Hu Hs Hv X); lia|reflexivity]].
      transitivity (conj (gsum zero add m (fun x => mul (conj (me (q_Q (nth u l (qst0 zero))) x v)) (me (q_Q (nth t l (qst0 zero))) x s)))); [|f_equal; apply (O1 u t L Ht Ht v s Hv Hs)]. rewrite (vsum_conj zero one add mul sub opp conj RT ca). apply gsum_ext. intros x _. rewrite cm, cc. apply (Rmul_comm RT).
Qed.
End Main.

(** Instance: a 4x3 matrix on two processes *)
Definition col_of (l : list (list Z)) (n : nat) : mat Z := mat_of n l.
Definition exc : list (mat Z) := [mat_of 2 [[0; 2]; [0; 0]; [3; 1]; [0; 0]]; mat_of 1 [[5]; [0]; [6]; [4]]]%Z.
Example C94_hyps : Forall (fun a => mr a = 4) exc /\ list_sum (map mc exc) = 3 /\ (forall a q r, zqr a = Some (q, r) -> is_qr 0%Z 1%Z Z.add Z.mul (fun x => x) a q r).
Proof. split; [repeat constructor|]. split; [reflexivity|exact zqr_sound]. Qed.
Example C94_values : match qr_cols 0%Z Z.add Z.mul Z.sub (fun x => x) zqr 4 3 exc with Ok (Qs, Rs) => Some (map rows_list Qs, map rows_list Rs) | Err _ => None end =
  Some ([[[0; 1]; [0; 0]; [1; 0]; [0; 0]]; [[0]; [0]; [0]; [1]]], [[[3; 1]; [0; 2]; [0; 0]]; [[6]; [5]; [4]]])%Z.
Proof. vm_compute. reflexivity. Qed.

(** The full claim: Q has orthonormal columns also when a column depends on the others.  [[1, 1], [0, 0]] on two processes: Q = A *)
Theorem C94_dependent_columns_refuted : exists (qr : mat Z -> option (mat Z * mat Z)) As Qs Rs,
  (forall a q r, qr a = Some (q, r) -> is_qr 0%Z 1%Z Z.add Z.mul (fun x => x) a q r) /\
  map rows_list As = [[[1]; [0]]; [[1]; [0]]]%Z /\ qr_cols 0%Z Z.add Z.mul Z.sub (fun x => x) qr 2 2 As = Ok (Qs, Rs) /\ ~ orthonormal 0%Z 1%Z Z.add Z.mul (fun x => x) (hstack 0%Z 2 Qs).
Proof.
  exists zqr, [mat_of 1 [[1]; [0]]; mat_of 1 [[1]; [0]]]%Z. eexists. eexists. split; [exact zqr_sound|]. split; [reflexivity|]. split; [vm_compute; reflexivity|].
  intros H. specialize (H 0 1 ltac:(vm_compute; lia) ltac:(vm_compute; lia)). vm_compute in H. discriminate H.
Qed.
(** ... and for more columns than rows Q R = A.  A 3x4 matrix on two processes (two columns each) whose third column is zero: the last
    block is factorized into two columns, of which only the first is kept; LAPACK's factors of that block are the ones given here *)
Definition lq : mat Z := mat_of 2 [[1; 0]; [0; 0]; [0; 1]]%Z.
Definition lr : mat Z := mat_of 2 [[0; 0]; [0; 1]]%Z.
Definition lqr (a : mat Z) : option (mat Z * mat Z) := if check a lq lr then Some (lq, lr) else zqr a.
Lemma lqr_sound a q r : lqr a = Some (q, r) -> is_qr 0%Z 1%Z Z.add Z.mul (fun x => x) a q r.
Proof. unfold lqr. destruct (check a lq lr) eqn:E; [|apply zqr_sound]. intros H. injection H as <- <-. apply check_sound, E. Qed.
Theorem C94_wide_refuted : exists (qr : mat Z -> option (mat Z * mat Z)) As Qs Rs,
  (forall a q r, qr a = Some (q, r) -> is_qr 0%Z 1%Z Z.add Z.mul (fun x => x) a q r) /\
  map rows_list As = [[[1; 0]; [0; 1]; [0; 0]]; [[0; 0]; [0; 0]; [0; 1]]]%Z /\ qr_cols 0%Z Z.add Z.mul Z.sub (fun x => x) qr 3 4 As = Ok (Qs, Rs) /\
  map mc Qs = [2; 1] /\ map rows_list Rs = [[[1; 0]; [0; 1]; [0; 0]]; [[0; 0]; [0; 0]; [0; 0]]]%Z /\ ~ meq (mmul 0%Z Z.add Z.mul (hstack 0%Z 3 Qs) (hstack 0%Z 3 Rs)) (hstack 0%Z 3 As).
Proof.
  exists lqr, [mat_of 2 [[1; 0]; [0; 1]; [0; 0]]; mat_of 2 [[0; 0]; [0; 0]; [0; 1]]]%Z. eexists. eexists. split; [exact lqr_sound|]. split; [reflexivity|]. split; [vm_compute; reflexivity|]. split; [reflexivity|]. split; [vm_compute; reflexivity|].
  intros (_ & _ & H). specialize (H 2 3 ltac:(vm_compute; lia) ltac:(vm_compute; lia)). vm_compute in H. discriminate H.
Qed.
