(** The merging tree of TS-QR (C93). *)
From Coq Require Import Ring.
From Verif Require Import Base QrSpec QrModel QrProofs OpsModel.
Open Scope nat_scope.

Lemma all_ok_map_Ok {A B} (f : A -> res B) (g : A -> B) l : (forall x, In x l -> f x = Ok (g x)) -> all_ok (map f l) = Ok (map g l).
Proof. induction l as [|x l IH]; intros H; [reflexivity|]. cbn [map all_ok]. rewrite (H x (or_introl eq_refl)). cbn [bind]. rewrite IH by (intros y Hy; apply H; right; auto). reflexivity. Qed.
Lemma nth_map_seq' {B} (g : nat -> B) P r d : r < P -> nth r (map g (seq 0 P)) d = g r.
Proof. intros H. rewrite (nth_indep _ d (g 0)) by (rewrite map_length, seq_length; auto). rewrite map_nth, seq_nth by auto. reflexivity. Qed.

(** number of rows held by the ranks r with r / w = j *)
Notation nsum := (gsum 0 Nat.add).
Definition rows_in {V} (As : list (mat V)) (w j : nat) : nat := nsum (length As) (fun r => if r / w =? j then nth r (map mr As) 0 else 0).

Section Tsqr.
Context {V : Type} (zero one : V) (add mul sub : V -> V -> V) (opp : V -> V) (conj : V -> V) (RT : ring_theory zero one add mul sub opp eq).
Context (conj_add : forall a b, conj (add a b) = add (conj a) (conj b)) (conj_mul : forall a b, conj (mul a b) = mul (conj a) (conj b)).
Add Ring VR : RT.
Notation M := (mat V).
Notation vsum := (gsum zero add).
Lemma ac a b : add a b = add b a. Proof. ring. Qed.
Lemma aa a b c : add a (add b c) = add (add a b) c. Proof. ring. Qed.
Lemma az a : add zero a = a. Proof. ring. Qed.
Lemma conj0 : conj zero = zero.
Proof. assert (E : conj zero = add (conj zero) (conj zero)) by (rewrite <- conj_add; f_equal; ring). assert (F : add (opp (conj zero)) (conj zero) = add (opp (conj zero)) (add (conj zero) (conj zero))) by (now rewrite <- E). ring_simplify in F. symmetry. exact F. Qed.
Lemma vsum_mul_l n a f : mul a (vsum n f) = vsum n (fun i => mul a (f i)).
Proof. induction n; [cbn; ring|]. rewrite !(gsum_S _ _ ac aa az), <- IHn. ring. Qed.
Lemma vsum_mul_r n a f : mul (vsum n f) a = vsum n (fun i => mul (f i) a).
Proof. induction n; [cbn; ring|]. rewrite !(gsum_S _ _ ac aa az), <- IHn. ring. Qed.
Lemma vsum_conj n f : conj (vsum n f) = vsum n (fun i => conj (f i)).
Proof. induction n; [apply conj0|]. rewrite !(gsum_S _ _ ac aa az), conj_add, <- IHn. reflexivity. Qed.
Lemma vsum_if n (b : bool) f : vsum n (fun i => if b then f i else zero) = if b then vsum n f else zero.
Proof. destruct b; [reflexivity|apply (gsum_z _ _ ac aa az)]. Qed.

(** (Q S)^H (Q S) = S^H (Q^H Q) S, entry by entry *)
Lemma gram_mul m k (Q S : nat -> nat -> V) a b :
  vsum m (fun i => mul (conj (vsum k (fun s => mul (Q i s) (S s a)))) (vsum k (fun t => mul (Q i t) (S t b)))) =
  vsum k (fun s => vsum k (fun t => mul (mul (conj (S s a)) (S t b)) (vsum m (fun i => mul (conj (Q i s)) (Q i t))))).
Proof.
  transitivity (vsum m (fun i => vsum k (fun s => vsum k (fun t => mul (mul (conj (S s a)) (S t b)) (mul (conj (Q i s)) (Q i t)))))).
  - apply gsum_ext. intros i _. rewrite vsum_conj, vsum_mul_r. apply gsum_ext. intros s _. rewrite vsum_mul_l. apply gsum_ext. intros t _. rewrite conj_mul. ring.
  - rewrite (gsum_swap _ _ ac aa az). apply gsum_ext. intros s _. rewrite (gsum_swap _ _ ac aa az). apply gsum_ext. intros t _. now rewrite <- vsum_mul_l.
Qed.
(** S^H 1 S = S^H S *)
Lemma gram_id k (S : nat -> nat -> V) a b (D : nat -> nat -> V) : (forall s t, s < k -> t < k -> D s t = if s =? t then one else zero) ->
  vsum k (fun s => vsum k (fun t => mul (mul (conj (S s a)) (S t b)) (D s t))) = vsum k (fun s => mul (conj (S s a)) (S s b)).
Proof.
  intros H. apply gsum_ext. intros s Hs. transitivity (vsum k (fun t => if t =? s then mul (conj (S s a)) (S t b) else zero)).
  - apply gsum_ext. intros t Ht. rewrite H by auto. rewrite Nat.eqb_sym. destruct (t =? s); ring.
  - apply (gsum_one _ _ ac aa az k s (fun t => mul (conj (S s a)) (S t b))). auto.
Qed.

Context (qr : M -> option (M * M)) (sound : forall a q r, qr a = Some (q, r) -> is_qr zero one add mul conj a q r).
Context (As : list M) (n q : nat) (Hq : 2 <= q) (reduced : bool).
Notation P := (length As).
Notation A_ r := (nth r As (m0 zero)).
Context (HA : forall r, r < P -> mc (A_ r) = n).
Context (tall : reduced = true -> forall g, g * q + 1 < P -> n <= rows_in As q g).

Notation Rof Rs w j := (nth (j * w) Rs (m0 zero)).
Record inv (w c : nat) (Qs Rs : list M) : Prop := {
  i_lq : reduced = true -> length Qs = P; i_lr : length Rs = P; i_w : 0 < w; i_c : 0 < c;
  i_dom : forall r, r < P -> r / w < c; i_last : (c - 1) * w < P;
  i_R : forall j, j < c -> mr (Rof Rs w j) = Nat.min (rows_in As w j) n /\ mc (Rof Rs w j) = n /\ upper zero (Rof Rs w j);
  i_Q : reduced = true -> forall r, r < P -> let q := nth r Qs (m0 zero) in let R := Rof Rs w (r / w) in
        mr q = mr (A_ r) /\ mc q = mr R /\ (forall i j, i < mr (A_ r) -> j < n -> vsum (mr R) (fun k => mul (me q i k) (me R k j)) = me (A_ r) i j);
  i_orth : reduced = true -> forall j, j < c -> forall a b, a < mr (Rof Rs w j) -> b < mr (Rof Rs w j) ->
        vsum P (fun r => if r / w =? j then vsum (mr (A_ r)) (fun i => mul (conj (me (nth r Qs (m0 zero)) i a)) (me (nth r Qs (m0 zero)) i b)) else zero) = if a =? b then one else zero;
  i_gram : forall j, j < c -> forall a b, a < n -> b < n ->
        vsum P (fun r => if r / w =? j then vsum (mr (A_ r)) (fun i => mul (conj (me (A_ r) i a)) (me (A_ r) i b)) else zero) =
        vsum (mr (Rof Rs w j)) (fun k => mul (conj (me (Rof Rs w j) k a)) (me (Rof Rs w j) k b)) }.

(** the rows of a merged group *)
Lemma rows_merge w c J : 0 < w -> (forall r, r < P -> r / w < c) -> rows_in As (w * q) J = nsum (Nat.min q (c - J * q)) (fun p => rows_in As w (J * q + p)).
Proof.
  intros Hw HD. unfold rows_in. rewrite (gsum_class 0 Nat.add Nat.add_comm Nat.add_assoc Nat.add_0_l P (Nat.min q (c - J * q)) (fun r => r / w - J * q)).
  2:{ intros r Hr. specialize (HD r Hr). rewrite <- Nat.div_div by lia. destruct (Nat.eqb_spec (r / w / q) J) as [E|N]; [right|left; reflexivity]. pose proof (Nat.div_mod (r / w) q ltac:(lia)) as D. pose proof (Nat.mod_upper_bound (r / w) q ltac:(lia)). rewrite E in D. generalize dependent (r / w). intros d ? ? ? ?. lia. }
  apply gsum_ext. intros p Hp. apply gsum_ext. intros r Hr. rewrite <- Nat.div_div by lia. pose proof (Nat.div_mod (r / w) q ltac:(lia)) as D. pose proof (Nat.mod_upper_bound (r / w) q ltac:(lia)).
  destruct (Nat.eqb_spec (r / w / q) J) as [E|N].
  - rewrite E in D. destruct (Nat.eqb_spec (r / w - J * q) p), (Nat.eqb_spec (r / w) (J * q + p)); try reflexivity; exfalso; generalize dependent (r / w); intros; lia.
  - destruct (Nat.eqb_spec (r / w) (J * q + p)) as [E|]; [|destruct (r / w - J * q =? p); reflexivity]. exfalso. apply N. rewrite E. rewrite Nat.div_add_l, Nat.div_small by lia. lia.
Qed.
Lemma nsum_le k f g : (forall i, i < k -> f i <= g i) -> nsum k f <= nsum k g.
Proof. induction k; intros H; [cbn; lia|]. rewrite !(gsum_S 0 Nat.add Nat.add_comm Nat.add_assoc Nat.add_0_l). specialize (IHk ltac:(intros; apply H; lia)). specialize (H k ltac:(lia)). lia. Qed.
Lemma nsum_min k f m : Nat.min (nsum k (fun i => Nat.min (f i) m)) m = Nat.min (nsum k f) m.
Proof. induction k; [reflexivity|]. rewrite !(gsum_S 0 Nat.add Nat.add_comm Nat.add_assoc Nat.add_0_l). lia. Qed.
(** a group of at least two members has n rows *)
Lemma group_tall l c J : reduced = true -> let w := q ^ l in (c - 1) * w < P -> J * q + 1 < c -> n <= rows_in As (w * q) J.
Proof.
  intros Hr w HL HJ. destruct l as [|l].
  - unfold w in *. cbn [Nat.pow] in *. rewrite Nat.mul_1_l. apply tall; auto. lia.
  - set (v := q ^ l) in *. assert (Hv : 0 < v) by (unfold v; apply Nat.neq_0_lt_0, Nat.pow_nonzero; lia). assert (Ew : w = q * v) by (unfold w, v; reflexivity).
    assert (B : (J * q + 1) * w < P) by nia. eapply Nat.le_trans; [apply (tall Hr (J * q * v)); nia|].
    apply nsum_le. intros r Hr'. destruct (Nat.eqb_spec (r / q) (J * q * v)) as [E|]; [|lia].
    replace (r / (w * q) =? J) with true; [lia|]. symmetry. apply Nat.eqb_eq. rewrite Ew. rewrite <- Nat.mul_assoc, <- Nat.div_div by nia. rewrite E. replace (J * q * v) with (J * (v * q)) by lia. apply Nat.div_mul. nia.
Qed.

Lemma list_sum_nsum (l : list M) : list_sum (map mr l) = nsum (length l) (fun p => mr (nth p l (m0 zero))).
Proof.
  induction l as [|a l IH]; [reflexivity|]. change (list_sum (map mr (a :: l))) with (mr a + list_sum (map mr l)). rewrite IH. cbn [length].
  rewrite <- (Nat.add_1_l (length l)), (gsum_app 0 Nat.add Nat.add_comm Nat.add_assoc Nat.add_0_l). f_equal. cbn. lia.
Qed.
Lemma cdiv_S c : 0 < c -> cdiv c q = S ((c - 1) / q).
Proof. intros H. unfold cdiv. replace (c + q - 1) with ((c - 1) + 1 * q) by lia. rewrite Nat.div_add by lia. lia. Qed.

Section Step.
Context (l c : nat) (Qs Rs : list M) (Hc : 1 < c).
Let w := q ^ l.
Context (I : inv w c Qs Rs).
Definition Lg J := Nat.min q (c - J * q).
Definition Rg J := map (fun k => nth k Rs (m0 zero)) (group q (procs w c) J).
Definition fq J := match qr (vstack zero n (Rg J)) with Some p => p | None => (m0 zero, m0 zero) end.
Definition Sof i := let R := Rof Rs w i in if mr R =? 0 then Mat 0 n (fun _ _ => zero) else rows_of (fst (fq (i / q))) (list_sum (map mr (firstn (i mod q) (Rg (i / q))))) (mr R).
Definition mv r := let R := nth r Rs (m0 zero) in
  if r mod w =? 0 then let i := r / w in
    if Lg (i / q) <=? 1 then (None, R) else (if reduced then Some (Sof i) else None, if i mod q =? 0 then snd (fq (i / q)) else R)
  else (None, R).
Context (F : forall J, J < cdiv c q -> 1 < Lg J -> qr (vstack zero n (Rg J)) <> None).
Lemma w_pos : 0 < w. Proof. unfold w. apply Nat.neq_0_lt_0, Nat.pow_nonzero. lia. Qed.
Lemma Rg_len J : length (Rg J) = Lg J.
Proof. unfold Rg. now rewrite map_length, group_procs, map_length, seq_length. Qed.
Lemma Rg_nth J p : p < Lg J -> nth p (Rg J) (m0 zero) = Rof Rs w (J * q + p).
Proof. intros H. unfold Rg. rewrite group_procs, map_map. rewrite nth_map_seq' by exact H. reflexivity. Qed.
Lemma J_bound J : J < cdiv c q -> J * q <= c - 1 /\ 1 <= Lg J.
Proof. intros H. rewrite cdiv_S in H by lia. assert (J * q <= c - 1) by (pose proof (Nat.mul_div_le (c - 1) q ltac:(lia)); nia). unfold Lg. lia. Qed.
Lemma i_bound i : i < c -> i / q < cdiv c q.
Proof. intros H. rewrite cdiv_S by lia. assert (i / q <= (c - 1) / q) by (apply Nat.div_le_mono; lia). lia. Qed.
Lemma gath_rows J : J < cdiv c q -> list_sum (map mr (Rg J)) = nsum (Lg J) (fun p => Nat.min (rows_in As w (J * q + p)) n).
Proof.
  intros H. rewrite list_sum_nsum, Rg_len. apply gsum_ext. intros p Hp. rewrite Rg_nth by auto. apply (i_R _ _ _ _ I). unfold Lg in Hp. lia.
Qed.
Lemma fq_qr J : J < cdiv c q -> 1 < Lg J -> is_qr zero one add mul conj (vstack zero n (Rg J)) (fst (fq J)) (snd (fq J)).
Proof. intros H1 H2. unfold fq. destruct (qr (vstack zero n (Rg J))) as [[u v]|] eqn:E; [apply sound, E|now apply F in E]. Qed.
Lemma gath_k J : J < cdiv c q -> Nat.min (mr (vstack zero n (Rg J))) n = Nat.min (rows_in As (w * q) J) n.
Proof.
  intros H. rewrite vstack_mr, gath_rows by auto. rewrite nsum_min. f_equal. symmetry. apply rows_merge; [apply w_pos|apply I].
Qed.
Lemma full J : reduced = true -> J < cdiv c q -> 1 < Lg J -> mc (fst (fq J)) = n /\ mr (snd (fq J)) = n.
Proof.
  intros Hr H1 H2. destruct (fq_qr J H1 H2) as (_ & E1 & E2 & _). rewrite vstack_mc, gath_k in E1, E2 by auto.
  assert (n <= rows_in As (w * q) J) by (apply (group_tall l c J Hr); [apply (i_last _ _ _ _ I)|unfold Lg in H2; lia]). lia.
Qed.
Lemma merge_mv r : r < P -> merge zero qr reduced n q (procs w c) Rs r = Ok (mv r).
Proof.
  intros Hr. unfold merge. rewrite pos_procs by apply w_pos. pose proof (i_dom _ _ _ _ I r Hr) as D. unfold mv. destruct (Nat.eqb_spec (r mod w) 0) as [Z0|NZ]; [|reflexivity].
  destruct (Nat.ltb_spec (r / w) c); [|lia]. cbn [andb]. set (i := r / w) in *. set (J := i / q). fold (Rg J).
  replace (length (group q (procs w c) J)) with (Lg J) by (rewrite <- (Rg_len J); unfold Rg; now rewrite map_length). destruct (Nat.leb_spec (Lg J) 1) as [L1|L1]; [reflexivity|].
  assert (HJ : J < cdiv c q) by (apply i_bound; auto).
  assert (EF : local_qr qr (vstack zero n (Rg J)) = Ok (fq J)) by (unfold local_qr, fq; destruct (qr (vstack zero n (Rg J))) eqn:E; [reflexivity|exfalso; now apply (F J HJ L1)]).
  rewrite EF. cbn [bind]. assert (ER : r = i * w) by (unfold i; pose proof (Nat.div_mod r w ltac:(pose proof w_pos; lia)); lia).
  destruct (Bool.bool_dec reduced true) as [ED|ED]; [|apply not_true_is_false in ED]; rewrite ED.
  - unfold Sof. fold J. rewrite <- ER. destruct (mr (nth r Rs (m0 zero)) =? 0) eqn:E0; [reflexivity|]. destruct (full J ED HJ L1) as [E1 _]. rewrite E1, Nat.eqb_refl. reflexivity.
  - reflexivity.
Qed.
Lemma mv_root i : i < c -> mv (i * w) = if Lg (i / q) <=? 1 then (None, Rof Rs w i) else (if reduced then Some (Sof i) else None, if i mod q =? 0 then snd (fq (i / q)) else Rof Rs w i).
Proof. intros H. pose proof w_pos. unfold mv. rewrite Nat.mod_mul by lia. cbn [Nat.eqb]. now rewrite Nat.div_mul by lia. Qed.
(** the scattered rows *)
Lemma Sof_ok i : reduced = true -> i < c -> 1 < Lg (i / q) -> mr (Sof i) = mr (Rof Rs w i) /\ mc (Sof i) = n /\
  forall s b, s < mr (Rof Rs w i) -> me (Sof i) s b = me (fst (fq (i / q))) (list_sum (map mr (firstn (i mod q) (Rg (i / q)))) + s) b.
Proof.
  intros Hr Hi HL. unfold Sof. destruct (Nat.eqb_spec (mr (Rof Rs w i)) 0) as [E|N]; [cbn; rewrite E; repeat split; lia|]. cbn [mr mc me rows_of]. split; [reflexivity|]. split; [|reflexivity]. apply full; auto. apply i_bound; auto.
Qed.
Lemma S_R i s j : reduced = true -> i < c -> 1 < Lg (i / q) -> s < mr (Rof Rs w i) -> j < n -> vsum n (fun k => mul (me (Sof i) s k) (me (snd (fq (i / q))) k j)) = me (Rof Rs w i) s j.
Proof.
  intros Hr Hi HL Hs Hj. set (J := i / q) in *. set (p := i mod q). assert (HJ : J < cdiv c q) by (apply i_bound; auto). assert (Ei : i = J * q + p) by (unfold J, p; pose proof (Nat.div_mod i q ltac:(lia)); lia). assert (Hp : p < Lg J) by (unfold Lg; assert (p < q) by (apply Nat.mod_upper_bound; lia); lia).
  destruct (Sof_ok i Hr Hi HL) as (_ & _ & S3). fold J in S3. fold p in S3. destruct (full J Hr HJ HL) as [E1 E2]. destruct (fq_qr J HJ HL) as (Q1 & Q2 & Q3 & Q4 & Q5 & Q6 & (M1 & M2 & M3)). cbn [mmul mr mc me] in M1, M2, M3. change (msum zero add) with (gsum zero add) in M3. rewrite E1, Q4, vstack_mc in M3.
  assert (ER : Rof Rs w i = nth p (Rg J) (m0 zero)) by (rewrite Rg_nth by auto; now rewrite <- Ei). rewrite ER in *.
  rewrite <- (vstack_me zero n (Rg J) p s j (m0 zero)) by (rewrite ?Rg_len; auto). rewrite <- M3; [apply gsum_ext; intros k Hk; rewrite S3; [reflexivity|auto]| |auto].
  rewrite Q1, vstack_mr. assert (G : forall (L : list M) p, p < length L -> list_sum (map mr (firstn p L)) + mr (nth p L (m0 zero)) <= list_sum (map mr L)).
  { induction L as [|x L IH]; intros [|k] Hk; cbn [length] in Hk; try lia; cbn [firstn map nth]; change (list_sum (mr x :: map mr L)) with (mr x + list_sum (map mr L)); [change (list_sum []) with 0; lia|]. change (list_sum (mr x :: map mr (firstn k L))) with (mr x + list_sum (map mr (firstn k L))). specialize (IH k ltac:(lia)). lia. }
  specialize (G (Rg J) p ltac:(rewrite Rg_len; auto)). lia.
Qed.

Definition newQ r := match fst (mv (r / w * w)) with None => nth r Qs (m0 zero) | Some s => mmul zero add mul (nth r Qs (m0 zero)) s end.
Lemma update_ok r : r < P -> reduced = true -> update_q zero add mul w (map mv (seq 0 P)) Qs r = Ok (newQ r).
Proof.
  intros Hr Hred. unfold update_q, newQ. pose proof w_pos as Hw. assert (HD : r / w < c) by (apply I; auto). assert (HRW : r / w * w <= r) by (pose proof (Nat.mul_div_le r w ltac:(lia)); lia).
  rewrite nth_map_seq' by lia. rewrite mv_root by auto. destruct (Nat.leb_spec (Lg (r / w / q)) 1) as [L1|L1]; [reflexivity|]. cbn [fst]. rewrite Hred. unfold matmul_t.
  destruct (Sof_ok (r / w) Hred HD L1) as (S1 & _ & _). destruct (i_Q _ _ _ _ I Hred r Hr) as (_ & Q2 & _). rewrite S1, Q2, Nat.eqb_refl. reflexivity.
Qed.
Lemma newR J : J < cdiv c q -> nth (J * (w * q)) (map snd (map mv (seq 0 P))) (m0 zero) = if Lg J <=? 1 then Rof Rs w (J * q) else snd (fq J).
Proof.
  intros HJ. pose proof w_pos as Hw. destruct (J_bound J HJ) as [B1 B2]. pose proof (i_last _ _ _ _ I) as HL. assert (J * q * w < P) by nia.
  rewrite map_map. replace (J * (w * q)) with (J * q * w) by lia. rewrite nth_map_seq' by auto. rewrite mv_root by lia. rewrite Nat.div_mul, Nat.mod_mul by lia. cbn [Nat.eqb]. destruct (Lg J <=? 1); reflexivity.
Qed.
Lemma lone i : i < c -> Lg (i / q) <= 1 -> i = i / q * q.
Proof. intros Hi H. unfold Lg in H. pose proof (Nat.div_mod i q ltac:(lia)). lia. Qed.
Lemma inv_step Qs' : (reduced = true -> Qs' = map newQ (seq 0 P)) -> inv (w * q) (cdiv c q) Qs' (map snd (map mv (seq 0 P))).
Proof.
  intros EQ. pose proof w_pos as Hw. pose proof (i_last _ _ _ _ I) as HL.
  assert (DD : forall r, r / (w * q) = r / w / q) by (intros r; now rewrite Nat.div_div by lia).
  constructor.
  - intros Hr. rewrite EQ by auto. now rewrite map_length, seq_length.
  - now rewrite !map_length, seq_length.
  - nia.
  - rewrite cdiv_S by lia. apply Nat.lt_0_succ.
  - intros r Hr. rewrite DD. apply i_bound, I; auto.
  - rewrite cdiv_S by lia. cbn [Nat.sub]. rewrite Nat.sub_0_r. pose proof (Nat.mul_div_le (c - 1) q ltac:(lia)). nia.
  - intros J HJ. rewrite newR by auto. destruct (J_bound J HJ) as [B1 B2]. destruct (Nat.leb_spec (Lg J) 1) as [L1|L1].
    + destruct (i_R _ _ _ _ I (J * q) ltac:(lia)) as (R1 & R2 & R3). split; [|auto]. rewrite R1. rewrite (rows_merge w c J) by (auto; apply I). replace (Nat.min q (c - J * q)) with 1 by (unfold Lg in *; lia). cbn. now rewrite !Nat.add_0_r.
    + destruct (fq_qr J HJ L1) as (Q1 & Q2 & Q3 & Q4 & Q5 & Q6 & Q7). rewrite vstack_mc, gath_k in Q3 by auto. rewrite vstack_mc in Q4. auto.
  - intros Hr r HrP. cbv zeta. rewrite DD. assert (HD : r / w < c) by (apply I; auto). pose proof (i_bound _ HD) as HJ. rewrite newR by auto. rewrite EQ by auto. rewrite nth_map_seq' by auto. unfold newQ. rewrite mv_root by auto. destruct (i_Q _ _ _ _ I Hr r HrP) as (Q1 & Q2 & Q3).
    destruct (Nat.leb_spec (Lg (r / w / q)) 1) as [L1|L1].
    + cbn [fst]. rewrite <- (lone (r / w)) by auto. auto.
    + cbn [fst]. rewrite Hr. cbn [mmul mr mc me]. destruct (full _ Hr HJ L1) as [E1 E2]. rewrite E2. destruct (Sof_ok _ Hr HD L1) as (S1 & S2 & _). split; [auto|]. split; [auto|]. intros i j Hi Hj. change (msum zero add) with (gsum zero add). rewrite Q2.
      rewrite <- (Q3 i j Hi Hj). transitivity (vsum n (fun k => vsum (mr (Rof Rs w (r / w))) (fun s => mul (me (nth r Qs (m0 zero)) i s) (mul (me (Sof (r / w)) s k) (me (snd (fq (r / w / q))) k j))))).
      * apply gsum_ext. intros k _. rewrite vsum_mul_r. apply gsum_ext. intros s _. ring.
      * rewrite (gsum_swap _ _ ac aa az). apply gsum_ext. intros s Hs. rewrite <- vsum_mul_l. f_equal. apply S_R; auto.
  - intros Hr J HJ a b. rewrite newR by auto. destruct (J_bound J HJ) as [B1 B2]. destruct (Nat.leb_spec (Lg J) 1) as [L1|L1]; intros Ha Hb.
    + rewrite <- (i_orth _ _ _ _ I Hr (J * q) ltac:(lia) a b Ha Hb). apply gsum_ext. intros r HrP. rewrite DD. assert (HD : r / w < c) by (apply I; auto).
      destruct (Nat.eqb_spec (r / w / q) J) as [E|N].
      * pose proof (lone (r / w) HD ltac:(rewrite E; auto)) as E'. rewrite E in E'. rewrite E', Nat.eqb_refl. rewrite EQ by auto. rewrite nth_map_seq' by auto. unfold newQ. rewrite mv_root by auto. rewrite E. destruct (Nat.leb_spec (Lg J) 1); [|lia]. reflexivity.
      * destruct (Nat.eqb_spec (r / w) (J * q)) as [E|]; [|reflexivity]. exfalso. apply N. rewrite E. apply Nat.div_mul. lia.
    + destruct (full J Hr HJ L1) as [E1 E2]. rewrite E2 in Ha, Hb. destruct (fq_qr J HJ L1) as (Q1 & Q2 & Q3 & Q4 & Q5 & Q6 & Q7). specialize (Q5 a b ltac:(lia) ltac:(lia)). change (msum zero add) with (gsum zero add) in Q5. rewrite Q1, vstack_mr in Q5. rewrite <- Q5. clear Q5.
      rewrite (gsum_blocks _ _ ac aa az). rewrite map_length, Rg_len.
      rewrite (gsum_class _ _ ac aa az P (Lg J) (fun r => r / w - J * q)).
      2:{ intros r HrP. rewrite DD. assert (HD : r / w < c) by (apply I; auto). destruct (Nat.eqb_spec (r / w / q) J) as [E|N]; [right|left; reflexivity]. pose proof (Nat.div_mod (r / w) q ltac:(lia)) as D. pose proof (Nat.mod_upper_bound (r / w) q ltac:(lia)). rewrite E in D. unfold Lg. generalize dependent (r / w). intros. lia. }
      apply gsum_ext. intros p Hp. assert (Hi : J * q + p < c) by (unfold Lg in Hp; lia). assert (Hpq : p < q) by (unfold Lg in Hp; lia). set (i := J * q + p) in *. assert (Ei : i / q = J) by (unfold i; rewrite Nat.div_add_l, Nat.div_small by lia; lia). assert (Em : i mod q = p) by (unfold i; rewrite Nat.add_comm, Nat.mod_add, Nat.mod_small by lia; lia).
      assert (LL : 1 < Lg (i / q)) by (now rewrite Ei). destruct (Sof_ok i Hr Hi LL) as (S1 & S2 & S3). rewrite Ei, Em in S3.
      assert (EK : nth p (map mr (Rg J)) 0 = mr (Rof Rs w i)) by (change 0 with (mr (m0 zero)); rewrite map_nth, Rg_nth by auto; reflexivity). rewrite EK. rewrite firstn_map.
      transitivity (vsum (mr (Rof Rs w i)) (fun s => mul (conj (me (Sof i) s a)) (me (Sof i) s b))); [|apply gsum_ext; intros s Hs; now rewrite !S3 by auto].
      rewrite <- (gram_id (mr (Rof Rs w i)) (me (Sof i)) a b _ (fun s t Hs Ht => i_orth _ _ _ _ I Hr i Hi s t Hs Ht)).
      transitivity (vsum P (fun r => vsum (mr (Rof Rs w i)) (fun s => vsum (mr (Rof Rs w i)) (fun t => mul (mul (conj (me (Sof i) s a)) (me (Sof i) t b)) (if r / w =? i then vsum (mr (A_ r)) (fun x => mul (conj (me (nth r Qs (m0 zero)) x s)) (me (nth r Qs (m0 zero)) x t)) else zero))))).
      * apply gsum_ext. intros r HrP. rewrite DD. assert (HD : r / w < c) by (apply I; auto). destruct (Nat.eqb_spec (r / w) i) as [E|N].
        -- rewrite E, Ei, Nat.eqb_refl. unfold i at 1. replace (J * q + p - J * q) with p by lia. rewrite Nat.eqb_refl. rewrite <- gram_mul. rewrite EQ by auto. rewrite nth_map_seq' by auto. unfold newQ. rewrite E, mv_root by auto. destruct (Nat.leb_spec (Lg (i / q)) 1); [lia|]. cbn [fst]. rewrite Hr. cbn [mmul me]. destruct (i_Q _ _ _ _ I Hr r HrP) as (_ & Q2' & _). rewrite Q2', E. reflexivity.
        -- replace (if r / w - J * q =? p then _ else zero) with zero.
           ++ symmetry. apply (gsum_zero _ _ ac aa az). intros s _. apply (gsum_zero _ _ ac aa az). intros t _. ring.
           ++ destruct (Nat.eqb_spec (r / w - J * q) p) as [E|]; [|reflexivity]. destruct (Nat.eqb_spec (r / w / q) J) as [E'|]; [|reflexivity]. exfalso. apply N. unfold i. pose proof (Nat.div_mod (r / w) q ltac:(lia)) as D. rewrite E' in D. generalize dependent (r / w). intros. lia.
      * rewrite (gsum_swap _ _ ac aa az). apply gsum_ext. intros s _. rewrite (gsum_swap _ _ ac aa az). apply gsum_ext. intros t _. now rewrite <- vsum_mul_l.
  - intros J HJ a b Ha Hb. rewrite newR by auto. destruct (J_bound J HJ) as [B1 B2]. 
    rewrite (gsum_class _ _ ac aa az P (Lg J) (fun r => r / w - J * q)).
    2:{ intros r HrP. rewrite DD. assert (HD : r / w < c) by (apply I; auto). destruct (Nat.eqb_spec (r / w / q) J) as [E|N]; [right|left; reflexivity]. pose proof (Nat.div_mod (r / w) q ltac:(lia)) as D. pose proof (Nat.mod_upper_bound (r / w) q ltac:(lia)). rewrite E in D. unfold Lg. generalize dependent (r / w). intros. lia. }
    transitivity (vsum (Lg J) (fun p => vsum (mr (Rof Rs w (J * q + p))) (fun k => mul (conj (me (Rof Rs w (J * q + p)) k a)) (me (Rof Rs w (J * q + p)) k b)))).
    { apply gsum_ext. intros p Hp. assert (Hi : J * q + p < c) by (unfold Lg in Hp; lia). rewrite <- (i_gram _ _ _ _ I _ Hi a b Ha Hb). apply gsum_ext. intros r HrP. rewrite DD. pose proof (Nat.div_mod (r / w) q ltac:(lia)) as D.
      destruct (Nat.eqb_spec (r / w / q) J) as [E|N].
      - rewrite E in D. destruct (Nat.eqb_spec (r / w - J * q) p), (Nat.eqb_spec (r / w) (J * q + p)); try reflexivity; exfalso; generalize dependent (r / w); intros; lia.
      - destruct (Nat.eqb_spec (r / w) (J * q + p)) as [E|]; [|destruct (r / w - J * q =? p); reflexivity]. exfalso. apply N. rewrite E. assert (p < q) by (unfold Lg in Hp; lia). rewrite Nat.div_add_l, Nat.div_small by lia. lia. }
    destruct (Nat.leb_spec (Lg J) 1) as [L1|L1].
    + replace (Lg J) with 1 by lia. rewrite (gsum_S _ _ ac aa az). rewrite Nat.add_0_r. apply az.
    + destruct (fq_qr J HJ L1) as (Q1 & Q2 & Q3 & Q4 & Q5 & Q6 & (M1 & M2 & M3)). cbn [mmul mr mc me] in M1, M2, M3. change (msum zero add) with (gsum zero add) in M3. rewrite Q4, vstack_mc in M3. assert (EK : mc (fst (fq J)) = mr (snd (fq J))) by lia. rewrite EK in M3.
      transitivity (vsum (mr (fst (fq J))) (fun i => mul (conj (me (vstack zero n (Rg J)) i a)) (me (vstack zero n (Rg J)) i b))).
      * rewrite Q1, vstack_mr, (gsum_blocks _ _ ac aa az), map_length, Rg_len. apply gsum_ext. intros p Hp. assert (EN : nth p (map mr (Rg J)) 0 = mr (nth p (Rg J) (m0 zero))) by (change 0 with (mr (m0 zero)) at 1; now rewrite map_nth). rewrite EN. rewrite <- (Rg_nth J p Hp). apply gsum_ext. intros t Ht. rewrite firstn_map. rewrite !(vstack_me zero n (Rg J) p t _ (m0 zero)) by (rewrite ?Rg_len; auto). reflexivity.
      * rewrite <- (gram_id (mr (snd (fq J))) (me (snd (fq J))) a b (fun s t => vsum (mr (fst (fq J))) (fun i => mul (conj (me (fst (fq J)) i s)) (me (fst (fq J)) i t)))); [|intros s t Hs Ht; apply Q5; lia].
        rewrite <- gram_mul. apply gsum_ext. intros i Hi. now rewrite !M3 by auto.
Qed.
Lemma step_inv : exists sc Qs', all_ok (map (merge zero qr reduced n q (procs w c) Rs) (seq 0 P)) = Ok sc /\
  (if reduced then all_ok (map (update_q zero add mul w sc Qs) (seq 0 P)) else Ok Qs) = Ok Qs' /\ inv (w * q) (cdiv c q) Qs' (map snd sc).
Proof.
  exists (map mv (seq 0 P)). destruct (Bool.bool_dec reduced true) as [ED|ED].
  - exists (map newQ (seq 0 P)). split; [apply all_ok_map_Ok; intros r Hr; apply in_seq in Hr; apply merge_mv; lia|]. split; [|apply inv_step; auto]. rewrite ED. apply all_ok_map_Ok. intros r Hr. apply in_seq in Hr. apply update_ok; auto. lia.
  - apply not_true_is_false in ED. exists Qs. split; [apply all_ok_map_Ok; intros r Hr; apply in_seq in Hr; apply merge_mv; lia|]. split; [now rewrite ED|]. apply inv_step. congruence.
Qed.
End Step.

Lemma loop_inv fuel : forall l c Qs Rs, inv (q ^ l) c Qs Rs -> c <= fuel ->
  (exists X, qr X = None) \/ exists w Qs' Rs', merge_loop zero add mul qr fuel reduced n q (q ^ l) (procs (q ^ l) c) Qs Rs = Ok (Qs', Rs') /\ inv w 1 Qs' Rs'.
Proof.
  induction fuel as [|fuel IH]; intros l c Qs Rs I HF; pose proof (i_c _ _ _ _ I) as C0; [lia|].
  cbn [merge_loop]. replace (length (procs (q ^ l) c)) with c by (unfold procs; now rewrite map_length, seq_length). destruct (Nat.leb_spec c 1) as [C1|C1].
  - right. exists (q ^ l), Qs, Rs. split; [reflexivity|]. replace 1 with c by lia. exact I.
  - destruct (existsb (fun J => (1 <? Lg c J) && match qr (vstack zero n (Rg l c Rs J)) with None => true | Some _ => false end) (seq 0 (cdiv c q))) eqn:EX.
    + left. apply existsb_exists in EX as (J & _ & HJ). apply andb_prop in HJ as [_ HJ]. exists (vstack zero n (Rg l c Rs J)). destruct (qr _); [discriminate|reflexivity].
    + assert (F : forall J, J < cdiv c q -> 1 < Lg c J -> qr (vstack zero n (Rg l c Rs J)) <> None).
      { intros J HJ HL E. assert (T : existsb (fun J => (1 <? Lg c J) && match qr (vstack zero n (Rg l c Rs J)) with None => true | Some _ => false end) (seq 0 (cdiv c q)) = true); [|congruence].
        apply existsb_exists. exists J. split; [apply in_seq; lia|]. rewrite E. destruct (Nat.ltb_spec 1 (Lg c J)); [reflexivity|lia]. }
      destruct (step_inv l c Qs Rs C1 I F) as (sc & Qs' & E1 & E2 & I'). rewrite (i_lr _ _ _ _ I). rewrite E1. cbn [bind]. rewrite E2. cbn [bind].
      rewrite next_procs_ok by lia. replace (q ^ l * q) with (q ^ S l) in * by (cbn; lia). apply IH; [exact I'|]. rewrite cdiv_S by lia. assert ((c - 1) / q <= (c - 1) / 2) by (apply Nat.div_le_compat_l; lia). assert ((c - 1) / 2 < c - 1 \/ c - 1 = 0) by (destruct (Nat.eq_dec (c - 1) 0); [right; auto|left; apply Nat.div_lt; lia]). lia.
Qed.

Lemma tsqr_ok : 1 <= P -> n <= list_sum (map mr As) ->
  (exists X, qr X = None) \/ exists w Qs Rs, merge_loop zero add mul qr P reduced n q 1 (seq 0 P) (map (fun a => fst (match qr a with Some p => p | None => (m0 zero, m0 zero) end)) As) (map (fun a => snd (match qr a with Some p => p | None => (m0 zero, m0 zero) end)) As) = Ok (Qs, Rs) /\ inv w 1 Qs Rs.
Proof.
  intros HP HN. destruct (existsb (fun a => match qr a with None => true | Some _ => false end) As) eqn:EX.
  { left. apply existsb_exists in EX as (a & _ & Ha). exists a. destruct (qr a); [discriminate|reflexivity]. }
  assert (FS : forall r, r < P -> is_qr zero one add mul conj (A_ r) (fst (match qr (A_ r) with Some p => p | None => (m0 zero, m0 zero) end)) (snd (match qr (A_ r) with Some p => p | None => (m0 zero, m0 zero) end))).
  { intros r Hr. destruct (qr (A_ r)) as [[u v]|] eqn:E; [apply sound, E|]. exfalso. assert (T : existsb (fun a => match qr a with None => true | Some _ => false end) As = true); [|congruence]. apply existsb_exists. exists (A_ r). split; [apply nth_In; auto|]. now rewrite E. }
  set (fo := fun a => match qr a with Some p => p | None => (m0 zero, m0 zero) end) in *.
  assert (N1 : forall r, r < P -> nth r (map (fun a => fst (fo a)) As) (m0 zero) = fst (fo (A_ r))) by (intros r Hr; rewrite (nth_indep _ (m0 zero) (fst (fo (m0 zero)))) by (rewrite map_length; auto); now rewrite (map_nth (fun a => fst (fo a)))).
  assert (N2 : forall r, r < P -> nth r (map (fun a => snd (fo a)) As) (m0 zero) = snd (fo (A_ r))) by (intros r Hr; rewrite (nth_indep _ (m0 zero) (snd (fo (m0 zero)))) by (rewrite map_length; auto); now rewrite (map_nth (fun a => snd (fo a)))).
  assert (N0 : forall j, nth j (map mr As) 0 = mr (A_ j)) by (intros j; change 0 with (mr (m0 zero)) at 1; now rewrite map_nth).
  replace (seq 0 P) with (procs (q ^ 0) P) by (unfold procs; cbn [Nat.pow]; rewrite <- (map_id (seq 0 P)) at 2; apply map_ext; intros; lia).
  change 1 with (q ^ 0) at 1. apply (loop_inv P 0 P); [|lia]. cbn [Nat.pow]. constructor; rewrite ?map_length; try lia.
  - intros j Hj. rewrite Nat.mul_1_r, N2 by auto. destruct (FS j Hj) as (Q1 & Q2 & Q3 & Q4 & Q5 & Q6 & Q7). fold (fo (A_ j)) in Q3, Q4, Q6. rewrite Q3, Q4, HA by auto. split; [|auto]. f_equal. unfold rows_in.
    rewrite <- N0. rewrite <- (gsum_one 0 Nat.add Nat.add_comm Nat.add_assoc Nat.add_0_l P j (fun r => nth r (map mr As) 0) Hj). apply gsum_ext. intros i _. now rewrite Nat.div_1_r.
  - intros Hr r HrP. cbv zeta. rewrite Nat.div_1_r, Nat.mul_1_r, N1, N2 by auto. destruct (FS r HrP) as (Q1 & Q2 & Q3 & Q4 & Q5 & Q6 & (M1 & M2 & M3)). fold (fo (A_ r)) in *. split; [auto|]. split; [lia|]. intros i j Hi Hj. rewrite <- M3; [cbn [mmul me]; rewrite Q2, Q3; reflexivity| |]; cbn [mmul mr mc]; [lia|]. rewrite Q4, HA; auto.
  - intros Hr j Hj a b. rewrite Nat.mul_1_r, N2 by auto. intros Ha Hb. destruct (FS j Hj) as (Q1 & Q2 & Q3 & Q4 & Q5 & Q6 & Q7). fold (fo (A_ j)) in *. specialize (Q5 a b ltac:(lia) ltac:(lia)). rewrite <- Q5. rewrite Q1. change (msum zero add) with (gsum zero add).
    rewrite <- (gsum_one _ _ ac aa az P j (fun r => vsum (mr (A_ r)) (fun i => mul (conj (me (fst (fo (A_ r))) i a)) (me (fst (fo (A_ r))) i b))) Hj). apply gsum_ext. intros i Hi. rewrite Nat.div_1_r. destruct (i =? j); [|reflexivity]. now rewrite N1 by auto.
  - intros j Hj a b Ha Hb. rewrite Nat.mul_1_r, N2 by auto. destruct (FS j Hj) as (Q1 & Q2 & Q3 & Q4 & Q5 & Q6 & (M1 & M2 & M3)). fold (fo (A_ j)) in *. cbn [mmul mr mc me] in M1, M2, M3. change (msum zero add) with (gsum zero add) in M3. rewrite Q4, HA, Q2 in M3 by auto.
    rewrite <- (gram_id (mr (snd (fo (A_ j)))) (me (snd (fo (A_ j)))) a b (fun s t => vsum (mr (fst (fo (A_ j)))) (fun i => mul (conj (me (fst (fo (A_ j))) i s)) (me (fst (fo (A_ j))) i t)))); [|intros s t Hs Ht; apply Q5; lia].
    rewrite <- gram_mul. rewrite Q1, Q3.
    transitivity (vsum (mr (A_ j)) (fun i => mul (conj (me (A_ j) i a)) (me (A_ j) i b))); [|apply gsum_ext; intros i Hi; rewrite !M3 by lia; reflexivity].
    rewrite <- (gsum_one _ _ ac aa az P j (fun r => vsum (mr (A_ r)) (fun i => mul (conj (me (A_ r) i a)) (me (A_ r) i b))) Hj). apply gsum_ext. intros i Hi. rewrite Nat.div_1_r. reflexivity.
Qed.
End Tsqr.
