(** From the local blocks of rows to the global matrices (C96). *)
From Coq Require Import Ring.
From Verif Require Import Base QrSpec QrModel QrProofs QrProofs2 QrProps QrColModel QrRowModel QrRowProofs OpsModel.
Open Scope nat_scope.

Lemma cum_S cs k : k < length cs -> cum cs (S k) = cum cs k + nth k cs 0.
Proof.
  unfold cum. revert k. induction cs as [|c cs IH]; intros [|k] H; cbn [length] in H; try lia; cbn [firstn nth].
  - change (list_sum [c]) with (c + 0). change (list_sum []) with 0. lia.
  - change (list_sum (c :: firstn k cs)) with (c + list_sum (firstn k cs)). specialize (IH k ltac:(lia)). cbn [firstn] in IH. change (list_sum (c :: match cs with [] => [] | a :: l => a :: firstn k l end)) with (c + list_sum (firstn (S k) cs)). cbn [firstn]. lia.
Qed.
Lemma cum_mono cs i j : i <= j -> cum cs i <= cum cs j.
Proof.
  unfold cum. revert i j. induction cs as [|c cs IH]; intros [|i] [|j] H; try lia; cbn [firstn]; try (change (list_sum []) with 0; lia).
  change (list_sum (c :: firstn i cs)) with (c + list_sum (firstn i cs)). change (list_sum (c :: firstn j cs)) with (c + list_sum (firstn j cs)). specialize (IH i j ltac:(lia)). lia.
Qed.
Lemma cum_all cs : cum cs (length cs) = list_sum cs.
Proof. unfold cum. now rewrite firstn_all. Qed.
Lemma filter_le (f : nat -> nat) n P : (forall i j, i <= j -> f i <= f j) -> exists K, K <= P /\ filter (fun x => x <? n) (map f (seq 0 P)) = map f (seq 0 K) /\ (forall k, k < K -> f k < n) /\ (K < P -> n <= f K).
Proof.
  intros Hf. induction P as [|P (K & H1 & H2 & H3 & H4)]; [exists 0; cbn; repeat split; auto; lia|].
  rewrite seq_S, map_app, filter_app, H2. cbn [map filter plus]. destruct (Nat.ltb_spec (f P) n) as [L|L].
  - assert (K = P) as -> by (destruct (Nat.eq_dec K P); [auto|]; specialize (H4 ltac:(lia)); pose proof (Hf K P ltac:(lia)); lia).
    exists (S P). split; [lia|]. split; [now rewrite seq_S, map_app|]. split; [|lia]. intros k Hk. destruct (Nat.eq_dec k P) as [->|]; [auto|apply H3; lia].
  - exists K. split; [lia|]. split; [now rewrite app_nil_r|]. split; [auto|]. intros Hk. destruct (Nat.eq_dec K P) as [->|]; [auto|apply H4; lia].
Qed.
(** the groups of columns: group k starts where the rows of rank k start *)
Lemma column_idx_ok cs n : 0 < n -> let idx := column_idx cs n in exists K, K <= length cs /\ length idx = K + 2 /\ (forall k, k <= K -> nth k idx 0 = cum cs k) /\ nth (S K) idx 0 = n /\
  (forall k, k <= K -> cum cs k < n) /\ (K < length cs -> n <= cum cs (S K)).
Proof.
  intros Hn idx. destruct (filter_le (fun k => cum cs (S k)) n (length cs)) as (K & H1 & H2 & H3 & H4); [intros i j H; apply cum_mono; lia|].
  exists K. unfold idx, column_idx. rewrite H2. split; [auto|]. split; [cbn; rewrite app_length, map_length, seq_length; cbn; lia|]. split; [|split; [|split; [|auto]]].
  - intros [|k] Hk; [reflexivity|]. cbn [nth]. rewrite app_nth1 by (rewrite map_length, seq_length; lia). now rewrite nth_map_seq' by lia.
  - cbn [nth]. rewrite app_nth2; rewrite map_length, seq_length; [|lia]. now rewrite Nat.sub_diag.
  - intros [|k] Hk; [cbn; auto|]. apply H3. lia.
Qed.

Section Conc.
Context {V : Type} (zero one : V) (add mul sub : V -> V -> V) (opp : V -> V) (conj : V -> V) (RT : ring_theory zero one add mul sub opp eq).
Context (conj_add : forall a b, conj (add a b) = add (conj a) (conj b)) (conj_mul : forall a b, conj (mul a b) = mul (conj a) (conj b)) (conj_conj : forall a, conj (conj a) = a).
Notation M := (mat V).
Notation vsum := (gsum zero add).
Context (qr : M -> option (M * M)) (sound : forall a q r, qr a = Some (q, r) -> is_qr zero one add mul conj a q r).
Context (cs : list nat) (n : nat).
Notation m := (list_sum cs).
Notation P := (length cs).
Notation gl w l := (me (vstack zero w l)).
Notation nt r l := (nth r l (m0 zero)).
(** blocks with the given numbers of rows and w columns *)
Definition blocks (w : nat) (l : list M) : Prop := map mr l = cs /\ Forall (fun a => mc a = w) l.
Lemma blocks_len w l : blocks w l -> length l = P.
Proof. intros [<- _]. now rewrite map_length. Qed.
Lemma blocks_mr w l r : blocks w l -> mr (nt r l) = nth r cs 0.
Proof. intros [<- _]. change 0 with (mr (m0 zero)) at 1. symmetry. apply map_nth. Qed.
Lemma blocks_mc w l r : blocks w l -> r < P -> mc (nt r l) = w.
Proof. intros B Hr. pose proof (blocks_len w l B). destruct B as [_ B]. rewrite Forall_forall in B. apply B, nth_In. lia. Qed.
Lemma gl_at w w' l r i j : blocks w' l -> r < P -> i < nth r cs 0 -> gl w l (cum cs r + i) j = me (nt r l) i j.
Proof.
  intros B Hr Hi. pose proof (blocks_len w' l B) as HL. rewrite <- (blocks_mr w' l r B) in Hi. rewrite <- (vstack_me zero w l r i j (m0 zero)) by (auto; lia). f_equal. unfold cum. destruct B as [<- _]. now rewrite firstn_map.
Qed.
Lemma row_at x : x < m -> exists r i, r < P /\ i < nth r cs 0 /\ x = cum cs r + i.
Proof. intros H. destruct (find_block cs x H) as (r & i & H1 & H2 & H3). exists r, i. auto. Qed.
Lemma row_lt r i k : r < P -> i < nth r cs 0 -> cum cs r + i < cum cs k -> r < k.
Proof. intros Hr Hi H. destruct (le_lt_dec k r) as [G|G]; [|auto]. pose proof (cum_mono cs k r G). lia. Qed.
Lemma row_ge r i k : r < P -> i < nth r cs 0 -> cum cs (S k) <= cum cs r + i -> k < r.
Proof. intros Hr Hi H. destruct (le_lt_dec r k) as [G|G]; [|auto]. pose proof (cum_mono cs (S r) (S k) ltac:(lia)). rewrite (cum_S cs r Hr) in H0. lia. Qed.
Lemma row_bound r i : r < P -> i < nth r cs 0 -> cum cs r + i < m.
Proof. intros Hr Hi. rewrite <- cum_all. pose proof (cum_mono cs (S r) P ltac:(lia)). rewrite (cum_S cs r Hr) in H. lia. Qed.
Lemma zipi_nth (f : nat -> M -> M) l r : r < length l -> nt r (zipi zero f l) = f r (nt r l).
Proof. intros H. unfold zipi. now rewrite nth_map_seq'. Qed.
Lemma zipi_blocks w w' (f : nat -> M -> M) l : blocks w l -> (forall r a, mr (f r a) = mr a) -> (forall r, r < P -> mc (f r (nt r l)) = w') -> blocks w' (zipi zero f l).
Proof.
  intros B H1 H2. pose proof (blocks_len w l B) as HL. split.
  - unfold zipi. rewrite map_map. apply nth_ext with 0 0; [now rewrite map_length, seq_length|]. intros r Hr. rewrite map_length, seq_length in Hr. rewrite nth_map_seq', H1 by auto. apply (blocks_mr w l r B).
  - apply Forall_nth. intros r d Hr. rewrite (nth_indep _ d (m0 zero)) by auto. unfold zipi in Hr. rewrite map_length, seq_length in Hr. rewrite zipi_nth by auto. apply H2. lia.
Qed.

Definition kinv (As : list M) (s : nat) (st : list M * list M * list M) : Prop :=
  let '(A, R, Q) := st in blocks n A /\ blocks n R /\ blocks s Q /\ J zero one add mul conj m n (gl n As) s (gl n A) (gl n R) (gl s Q).

Context (p : Z) (Hp : (p = 0 \/ 2 <= p)%Z) (HP : 2 <= P).
Notation q := (if (p =? 0)%Z then P else Z.to_nat p).
(** every group of at least two processes of the first merging level holds as many rows as any single process *)
Context (tall : forall g r, g * q + 1 < P -> nth r cs 0 <= list_sum (firstn q (skipn (g * q) cs))).
Context (As : list M) (HAs : blocks n As).

Lemma step_ok idx k st : let lo := nth k idx 0 in let hi := nth (S k) idx 0 in
  k < P -> lo = cum cs k -> lo <= hi -> hi <= cum cs (S k) -> hi <= n -> (k < length idx - 2 -> hi = cum cs (S k)) -> (length idx - 2 <= k -> hi = n) ->
  kinv As lo st -> (exists X, qr X = None) \/ exists st', row_step zero add mul sub conj qr n p idx k st = Ok st' /\ kinv As hi st'.
Proof.
  intros lo hi Hk Elo Hlh HhS Hhn Hin Hlast. destruct st as [[A R] Q]. intros (BA & BR & BQ & I).
  pose proof (blocks_len _ _ BA) as LA. pose proof (blocks_len _ _ BR) as LR. pose proof (blocks_len _ _ BQ) as LQ.
  pose proof (cum_S cs k Hk) as CS. set (w := hi - lo). assert (Hw : w <= nth k cs 0) by (unfold w; lia).
  pose proof (cum_mono cs (S k) P ltac:(lia)) as CM. rewrite cum_all in CM.
  set (As' := map (cols lo hi) A). assert (MR : map mr As' = cs) by (unfold As'; rewrite map_map; exact (proj1 BA)).
  assert (LA' : length As' = P) by (unfold As'; now rewrite map_length).
  assert (BA' : blocks w As') by (split; [auto|unfold As'; apply Forall_forall; intros a Ha; apply in_map_iff in Ha as (b & <- & _); reflexivity]).
  destruct (C93_tsqr zero one add mul sub opp conj qr As' w p true RT conj_add conj_mul sound) as [X|(Qo & Rn & E & R1 & R2 & RU & _ & (Qn & -> & MQ & CQ & OQ & EQ))].
  - lia.
  - exact (proj2 BA').
  - apply Exists_exists. exists (nt k As'). split; [apply nth_In; lia|]. rewrite (blocks_mr w As' k BA'). lia.
  - exact Hp.
  - intros _ g Hg. rewrite LA' in *. rewrite <- firstn_map, <- skipn_map, MR. specialize (tall g k Hg). lia.
  - left. exact X.
  - right. assert (BQn : blocks w Qn) by (split; [now rewrite MQ|exact CQ]). pose proof (blocks_len _ _ BQn) as LQn.
    unfold row_step. fold lo hi. fold w. fold As'. rewrite E. rewrite (blocks_mr n R k BR). destruct (Nat.ltb_spec (nth k cs 0) w); [lia|].
    set (Rd := zipi zero (put_diag zero k lo hi Rn) R). set (Q1 := zipi zero (fun r q => hcat q (nt r Qn)) Q).
    assert (BRd : blocks n Rd) by (apply (zipi_blocks n n); [auto|reflexivity|]; intros r Hr; cbn; now apply (blocks_mc n)).
    assert (BQ1 : blocks hi Q1). { apply (zipi_blocks lo hi); [auto|reflexivity|]. intros r Hr. cbn [hcat mc]. rewrite (blocks_mc lo Q r BQ Hr), (blocks_mc w Qn r BQn Hr). unfold w. lia. }
    set (co := coeffs zero add mul conj w n hi Qn A). set (R2' := zipi zero (put_coeffs k hi co) Rd). set (A2 := zipi zero (fun r a => project zero add mul sub hi (nt r Qn) co a) A).
    assert (BR2 : blocks n R2') by (apply (zipi_blocks n n); [auto|reflexivity|]; intros r Hr; cbn; now apply (blocks_mc n)).
    assert (BA2 : blocks n A2) by (apply (zipi_blocks n n); [auto|reflexivity|]; intros r Hr; cbn; now apply (blocks_mc n)).
    (* entries *)
    assert (NRd : forall r i j, r < P -> i < nth r cs 0 -> gl n Rd (cum cs r + i) j = if (lo <=? j) && (j <? hi) then (if r =? k then if i <? hi - lo then me Rn i (j - lo) else gl n R (cum cs r + i) j else if k <? r then zero else gl n R (cum cs r + i) j) else gl n R (cum cs r + i) j).
    { intros r i j Hr Hi. rewrite (gl_at n n Rd r i j BRd Hr Hi), (gl_at n n R r i j BR Hr Hi). unfold Rd. rewrite zipi_nth by lia. reflexivity. }
    assert (NR2 : forall r i j, r < P -> i < nth r cs 0 -> gl n R2' (cum cs r + i) j = if (r =? k) && (hi <=? j) then me co i (j - hi) else gl n Rd (cum cs r + i) j).
    { intros r i j Hr Hi. rewrite (gl_at n n R2' r i j BR2 Hr Hi), (gl_at n n Rd r i j BRd Hr Hi). unfold R2'. rewrite zipi_nth by (pose proof (blocks_len _ _ BRd); lia). reflexivity. }
    assert (CO : forall t j, hi <= j -> me co t (j - hi) = vsum m (fun x => mul (conj (gl w Qn x t)) (gl n A x j))).
    { intros t j Hj. rewrite (gsum_blocks zero add (ac zero one add mul sub opp RT) (aa zero one add mul sub opp RT) (az zero one add mul sub opp RT)). unfold co, coeffs. cbn [me]. change (msum zero add) with (gsum zero add). rewrite LA. apply gsum_ext. intros r Hr. rewrite (blocks_mr n A r BA). apply gsum_ext. intros i Hi.
      fold (cum cs r). rewrite (gl_at w w Qn r i t BQn Hr Hi), (gl_at n n A r i j BA Hr Hi). repeat f_equal. lia. }
    (* facts shared by both cases *)
    assert (Common : forall A' R', blocks n A' -> blocks n R' ->
       (forall r i j, r < P -> i < nth r cs 0 -> j < n -> (r <> k \/ j < hi) -> gl n R' (cum cs r + i) j = gl n Rd (cum cs r + i) j) ->
       (forall t j, t < w -> hi <= j -> j < n -> gl n R' (lo + t) j = vsum m (fun x => mul (conj (gl w Qn x t)) (gl n A x j))) ->
       (forall x j, x < m -> hi <= j -> j < n -> gl n A' x j = sub (gl n A x j) (vsum w (fun t => mul (gl w Qn x t) (vsum m (fun y => mul (conj (gl w Qn y t)) (gl n A y j)))))) ->
       kinv As hi (A', R', Q1)).
    { intros A' R' BA1 BR1 HR1 HR2 HA1. split; [auto|]. split; [auto|]. split; [auto|].
      apply (J_step zero one add mul sub opp conj RT conj_add conj_mul conj_conj m n (gl n As) lo hi (gl n A) (gl n R) (gl lo Q) (gl n A') (gl n R') (gl hi Q1) (gl w Qn) (me Rn) I Hlh Hhn); [lia|..].
      - intros a b Ha Hb. fold w in Ha, Hb. unfold orthonormal in OQ. rewrite vstack_mc, vstack_mr, MQ, MR in OQ. apply OQ; auto.
      - intros a b Ha Hb. fold w in Ha, Hb. apply RU; lia.
      - intros x j Hx Hj. fold w in Hj |- *. destruct EQ as (_ & _ & EQ). cbn [mmul mr mc me] in EQ. rewrite vstack_mr, vstack_mc, MQ, MR, R2 in EQ. change (msum zero add) with (gsum zero add) in EQ. rewrite EQ by auto.
        destruct (row_at x Hx) as (r & i & Hr & Hi & ->). rewrite (gl_at w w As' r i j BA' Hr Hi), (gl_at n n A r i (lo + j) BA Hr Hi). unfold As'. rewrite (nth_indep _ (m0 zero) (cols lo hi (m0 zero))) by (rewrite map_length; lia). now rewrite map_nth.
      - intros x a Hx Ha. destruct (row_at x Hx) as (r & i & Hr & Hi & ->). rewrite (gl_at hi hi Q1 r i a BQ1 Hr Hi), (gl_at lo lo Q r i a BQ Hr Hi). unfold Q1. rewrite zipi_nth by lia. cbn [hcat me]. rewrite (blocks_mc lo Q r BQ Hr). destruct (Nat.ltb_spec a lo); [reflexivity|lia].
      - intros x t Hx Ht. fold w in Ht. destruct (row_at x Hx) as (r & i & Hr & Hi & ->). rewrite (gl_at hi hi Q1 r i (lo + t) BQ1 Hr Hi), (gl_at w w Qn r i t BQn Hr Hi). unfold Q1. rewrite zipi_nth by lia. cbn [hcat me]. rewrite (blocks_mc lo Q r BQ Hr). destruct (Nat.ltb_spec (lo + t) lo); [lia|]. f_equal. lia.
      - intros x j Hx Hxn Hj. destruct (row_at x Hx) as (r & i & Hr & Hi & ->). rewrite HR1 by (auto; lia). rewrite NRd by auto. destruct (Nat.leb_spec lo j); [lia|reflexivity].
      - intros x j Hx Hj. assert (Hxm : x < m) by lia. destruct (row_at x Hxm) as (r & i & Hr & Hi & ->). rewrite Elo in Hx. pose proof (row_lt r i k Hr Hi Hx) as Hrk. rewrite HR1 by (auto; lia). rewrite NRd by auto.
        destruct (Nat.eqb_spec r k); [lia|]. destruct (Nat.ltb_spec k r); [lia|]. now destruct ((lo <=? j) && (j <? hi)).
      - intros t j Ht Hj. fold w in Ht, Hj. rewrite Elo at 1. rewrite HR1 by (try lia; right; unfold w in Hj; lia). rewrite NRd by lia. rewrite Nat.eqb_refl. destruct (Nat.leb_spec lo (lo + j)); [|lia]. destruct (Nat.ltb_spec (lo + j) hi); [|unfold w in Hj; lia]. cbn [andb]. fold w. destruct (Nat.ltb_spec t w); [|lia]. f_equal. lia.
      - intros x j Hx Hxm Hxn Hj Hj'. destruct (row_at x Hxm) as (r & i & Hr & Hi & ->). destruct (le_lt_dec (length idx - 2) k) as [G|G]; [rewrite (Hlast G) in Hx; lia|]. rewrite (Hin G) in Hx. pose proof (row_ge r i k Hr Hi Hx) as Hrk.
        rewrite HR1 by (auto; lia). rewrite NRd by auto. destruct (Nat.leb_spec lo j); [|lia]. destruct (Nat.ltb_spec j hi); [|lia]. cbn [andb]. destruct (Nat.eqb_spec r k); [lia|]. destruct (Nat.ltb_spec k r); [reflexivity|lia].
      - exact HR2.
      - exact HA1. }
    destruct (Nat.ltb_spec k (length idx - 2)) as [G|G].
    + pose proof (Hin G) as Eh. assert (Ew : nth k cs 0 = w) by (unfold w; lia). rewrite Ew, Nat.eqb_refl. cbn [negb]. exists (A2, R2', Q1). split; [reflexivity|]. apply Common; auto.
      * intros r i j Hr Hi Hj HH. rewrite NR2 by auto. destruct (Nat.eqb_spec r k) as [->|]; [|reflexivity]. destruct HH as [HH|HH]; [congruence|]. destruct (Nat.leb_spec hi j); [lia|reflexivity].
      * intros t j Ht Hj Hn. rewrite Elo. rewrite NR2 by lia. rewrite Nat.eqb_refl. destruct (Nat.leb_spec hi j); [|lia]. cbn [andb]. apply CO; auto.
      * intros x j Hx Hj Hn. destruct (row_at x Hx) as (r & i & Hr & Hi & ->). rewrite (gl_at n n A2 r i j BA2 Hr Hi), (gl_at n n A r i j BA Hr Hi). unfold A2. rewrite zipi_nth by lia. cbn [project me]. destruct (Nat.leb_spec hi j); [|lia]. f_equal. change (msum zero add) with (gsum zero add). rewrite (blocks_mc w Qn r BQn Hr).
        apply gsum_ext. intros t Ht. rewrite (gl_at w w Qn r i t BQn Hr Hi). f_equal. apply CO; auto.
    + specialize (Hlast G). exists (A, Rd, Q1). split; [reflexivity|]. apply Common; auto; intros; lia.
Qed.

Lemma loop_ok idx cnt : forall k st, (forall i, k <= i < k + cnt -> let lo := nth i idx 0 in let hi := nth (S i) idx 0 in
    i < P /\ lo = cum cs i /\ lo <= hi /\ hi <= cum cs (S i) /\ hi <= n /\ (i < length idx - 2 -> hi = cum cs (S i)) /\ (length idx - 2 <= i -> hi = n)) ->
  kinv As (nth k idx 0) st -> (exists X, qr X = None) \/ exists st', row_loop zero add mul sub conj qr n p idx k cnt st = Ok st' /\ kinv As (nth (k + cnt) idx 0) st'.
Proof.
  induction cnt as [|cnt IH]; intros k st H I; [right; exists st; split; [reflexivity|]; now rewrite Nat.add_0_r|].
  destruct (H k ltac:(lia)) as (H1 & H2 & H3 & H4 & H5 & H6 & H7). cbn [row_loop]. destruct (step_ok idx k st H1 H2 H3 H4 H5 H6 H7 I) as [X|(st' & E & I')]; [left; auto|].
  rewrite E. cbn [bind]. replace (k + S cnt) with (S k + cnt) by lia. apply IH; [|auto]. intros i Hi. apply H. lia.
Qed.
End Conc.
