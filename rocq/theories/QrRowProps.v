(** C96: QR of a row-split matrix whose blocks are shorter than they are wide. *)
From Coq Require Import Ring.
From Verif Require Import Base LayoutModel LayoutProofs QrSpec QrModel QrProofs QrProofs2 QrProps QrColModel QrRowModel QrRowProofs QrRowProofs2 OpsModel.
Open Scope nat_scope.

Lemma list_sum_two l q i : 2 <= q -> i + 1 < length l -> nth i l 0 + nth (i + 1) l 0 <= list_sum (firstn q (skipn i l)).
Proof.
  revert i. induction l as [|a l IH]; intros [|i] Hq H; cbn [length] in H; try lia.
  - destruct l as [|b l]; cbn [length] in H; [lia|]. destruct q as [|[|q]]; try lia. cbn [skipn firstn nth plus]. change (list_sum (a :: b :: firstn q l)) with (a + (b + list_sum (firstn q l))). lia.
  - cbn [skipn nth plus]. apply IH; [auto|lia].
Qed.
(** the canonical layout satisfies the condition on the groups as soon as every process has a row *)
Lemma balanced_groups m P q : 2 <= q -> P <= m -> forall g r, g * q + 1 < P -> nth r (counts_of m P) 0 <= list_sum (firstn q (skipn (g * q) (counts_of m P))).
Proof.
  intros Hq Hm g r Hg. assert (HP : P <> 0) by lia. pose proof (Nat.div_le_lower_bound m P 1 HP ltac:(lia)) as H1.
  assert (N : forall i, i < P -> m / P <= nth i (counts_of m P) 0 <= m / P + 1).
  { intros i Hi. unfold counts_of. rewrite nth_map_seq' by auto. destruct (i <? m mod P); lia. }
  pose proof (list_sum_two (counts_of m P) q (g * q) Hq ltac:(rewrite counts_of_length; auto)) as H2. pose proof (N (g * q) ltac:(lia)). pose proof (N (g * q + 1) ltac:(lia)).
  destruct (le_lt_dec P r) as [G|G]; [rewrite (nth_overflow (counts_of m P)) by (rewrite counts_of_length; auto); lia|]. pose proof (N r G). lia.
Qed.
Lemma trunc_sum cs n r : r <= length cs -> list_sum (firstn r (map (fun r => Nat.min n (cum cs (S r)) - cum cs r) (seq 0 (length cs)))) = Nat.min n (cum cs r).
Proof.
  induction r as [|r IH]; intros H; [change (0 = Nat.min n 0); lia|]. set (l := map _ _) in *. assert (Ll : length l = length cs) by (unfold l; now rewrite map_length, seq_length).
  change (list_sum (firstn (S r) l)) with (cum l (S r)). change (list_sum (firstn r l)) with (cum l r) in IH. rewrite cum_S by lia. rewrite IH by lia. unfold l. rewrite nth_map_seq' by auto. pose proof (cum_mono cs r (S r) ltac:(lia)). lia.
Qed.

Section Main.
Context {V : Type} (zero one : V) (add mul sub : V -> V -> V) (opp : V -> V) (conj : V -> V).
Notation vstack := (vstack zero). Notation is_qr := (is_qr zero one add mul conj). Notation mmul := (mmul zero add mul). Notation msum := (msum zero add).
Notation nt r l := (nth r l (m0 zero)).

(** C96.  m x n matrix in blocks of rows, every block with fewer rows than columns, on at least two processes.  With k = min m n,
    Q (m x k, distributed like A) and R (k rows, split along the rows) satisfy: R is upper triangular, the first k columns of
    Q R are those of A - all of them for n <= m -, and if no diagonal entry of R is zero (in a ring without zero divisors) then the columns of Q
    are orthonormal; for m < n, Q R = A if besides Q Q^H = 1.  [qr] is torch's local routine: when it answers, the answer is a QR
    factorization. *)
Theorem C96_qr_rows_partial (qr : mat V -> option (mat V * mat V)) (As : list (mat V)) (n : nat) (p : Z) (reduced : bool) :
  ring_theory zero one add mul sub opp eq -> (forall a b, conj (add a b) = add (conj a) (conj b)) -> (forall a b, conj (mul a b) = mul (conj a) (conj b)) -> (forall a, conj (conj a) = a) ->
  (forall a q r, qr a = Some (q, r) -> is_qr a q r) ->
  2 <= length As -> Forall (fun a => mc a = n) As -> Forall (fun a => mr a < n) As -> (p = 0 \/ 2 <= p)%Z ->
  let q := if (p =? 0)%Z then length As else Z.to_nat p in
  let cs := map mr As in let m := list_sum cs in let k := Nat.min m n in
  (forall g r, g * q + 1 < length As -> nth r cs 0 <= list_sum (firstn q (skipn (g * q) cs))) ->
  (exists X, qr X = None) \/
  exists Qs Rs, qr_row_split zero add mul sub conj qr reduced n p As = Ok (if reduced then Some Qs else None, Rs) /\
    map mr Qs = map mr As /\ Forall (fun x => mc x = k) Qs /\ length Rs = length As /\ mr (vstack n Rs) = k /\ Forall (fun x => mc x = n) Rs /\
    upper zero (vstack n Rs) /\
    (forall x j, x < m -> j < k -> me (mmul (vstack k Qs) (vstack n Rs)) x j = me (vstack n As) x j) /\
    ((forall a b, mul a b = zero -> a = zero \/ b = zero) -> (forall i, i < k -> me (vstack n Rs) i i <> zero) ->
       orthonormal zero one add mul conj (vstack k Qs) /\
       (m < n -> (forall x y, x < m -> y < m -> msum m (fun a => mul (me (vstack k Qs) x a) (conj (me (vstack k Qs) y a))) = if x =? y then one else zero) ->
          meq (mmul (vstack k Qs) (vstack n Rs)) (vstack n As))).
Proof.
  intros RT ca cm cc sound HP HA Hsh Hp q cs m k tall. pose proof (ac zero one add mul sub opp RT) as AC. pose proof (aa zero one add mul sub opp RT) as AA. pose proof (az zero one add mul sub opp RT) as AZ.
  assert (LP : length cs = length As) by (unfold cs; apply map_length).
  assert (Hn : 0 < n). { destruct As as [|a As']; [cbn in HP; lia|]. apply Forall_inv in Hsh. lia. }
  assert (BAs : blocks cs n As) by (split; [reflexivity|exact HA]).
  assert (NT : forall Qr, qr_rows zero add mul qr Qr n p As = None).
  { intros b. unfold qr_rows. replace ((p <? 0)%Z || (p =? 1)%Z) with false by lia. assert (fold_right Nat.max 0 (map mr As) < n); [|destruct (Nat.ltb_spec (fold_right Nat.max 0 (map mr As)) n); [reflexivity|lia]].
    clear -Hsh Hn. induction Hsh; cbn; [lia|]. lia. }
  destruct (column_idx_ok cs n Hn) as (K & K1 & K2 & K3 & K4 & K5 & K6). set (idx := column_idx cs n) in *.
  set (T := length idx - if n <=? m then 1 else 2).
  assert (Cm : cum cs (length cs) = m) by (apply cum_all).
  assert (HT : T <= length cs /\ nth T idx 0 = k /\ forall i, i < T -> let lo := nth i idx 0 in let hi := nth (S i) idx 0 in
    i < length cs /\ lo = cum cs i /\ lo <= hi /\ hi <= cum cs (S i) /\ hi <= n /\ (i < length idx - 2 -> hi = cum cs (S i)) /\ (length idx - 2 <= i -> hi = n)).
  { unfold T. rewrite K2. destruct (Nat.leb_spec n m) as [L|L].
    - assert (KL : K < length cs). { destruct (Nat.eq_dec K (length cs)) as [E|]; [|lia]. specialize (K5 K ltac:(lia)). rewrite E, Cm in K5. lia. }
      split; [lia|]. replace (K + 2 - 1) with (S K) by lia. split; [rewrite K4; unfold k; lia|]. intros i Hi; cbv zeta; destruct (Nat.eq_dec i K) as [->|N].
      + rewrite K3, K4 by lia. specialize (K6 KL). specialize (K5 K ltac:(lia)). repeat split; auto; lia.
      + rewrite !K3 by lia. pose proof (cum_mono cs i (S i) ltac:(lia)). specialize (K5 (S i) ltac:(lia)). repeat split; auto; lia.
    - assert (K = length cs) as EK. { destruct (Nat.eq_dec K (length cs)) as [|N]; [auto|]. specialize (K6 ltac:(lia)). pose proof (cum_mono cs (S K) (length cs) ltac:(lia)). lia. }
      replace (K + 2 - 2) with K by lia. split; [lia|]. split; [rewrite K3, EK, Cm by lia; unfold k; lia|]. intros i Hi; cbv zeta. rewrite !K3 by lia. pose proof (cum_mono cs i (S i) ltac:(lia)). specialize (K5 (S i) ltac:(lia)). repeat split; auto; lia. }
  destruct HT as (T1 & T2 & T3).
  set (Q0 := map (fun a : mat V => Mat (mr a) 0 (fun _ _ => zero)) As).
  assert (I0 : kinv zero one add mul conj cs n As (nth 0 idx 0) (As, As, Q0)).
  { change (nth 0 idx 0) with 0. split; [auto|]. split; [auto|]. split; [|apply (J_init zero one add mul sub opp conj RT ca cm cc)].
    split; [unfold Q0; rewrite map_map; reflexivity|]. apply Forall_forall. intros a Ha. apply in_map_iff in Ha as (b & <- & _). reflexivity. }
  assert (HP' : 2 <= length cs) by lia.
  assert (tall' : forall g r, g * (if (p =? 0)%Z then length cs else Z.to_nat p) + 1 < length cs -> nth r cs 0 <= list_sum (firstn (if (p =? 0)%Z then length cs else Z.to_nat p) (skipn (g * (if (p =? 0)%Z then length cs else Z.to_nat p)) cs))) by (rewrite LP; exact tall).
  destruct (loop_ok zero one add mul sub opp conj RT ca cm cc qr sound cs n p Hp HP' tall' As idx T 0 (As, As, Q0)) as [X|(((A & R) & Qs) & E & (BA & BR & BQ & I))]; [intros i Hi; apply T3; lia|exact I0|left; exact X|right].
  cbn [plus] in BQ, I. rewrite T2 in BQ, I. fold m in I.
  set (Rs := if n <? m then zipi zero (fun r a => rows_of a 0 (Nat.min n (cum cs (S r)) - cum cs r)) R else R).
  pose proof (blocks_len cs n R BR) as LR.
  assert (HRs : length Rs = length As /\ mr (vstack n Rs) = k /\ Forall (fun x => mc x = n) Rs /\ forall x j, x < k -> me (vstack n Rs) x j = me (vstack n R) x j).
  { unfold Rs. destruct (Nat.ltb_spec n m) as [L|L].
    - set (cs' := map (fun r => Nat.min n (cum cs (S r)) - cum cs r) (seq 0 (length cs))). set (Z' := zipi _ _ _).
      assert (Lz : length Z' = length cs) by (unfold Z', zipi; now rewrite map_length, seq_length).
      assert (Nz : forall r, r < length cs -> nt r Z' = rows_of (nt r R) 0 (Nat.min n (cum cs (S r)) - cum cs r)) by (intros r Hr; unfold Z'; rewrite zipi_nth by lia; reflexivity).
      assert (Bz : blocks cs' n Z').
      { split.
        - unfold Z', zipi, cs'. rewrite map_map, LR. apply map_ext. intros r. reflexivity.
        - apply Forall_nth. intros r d Hr. rewrite (nth_indep _ d (m0 zero)) by auto. rewrite Lz in Hr. rewrite Nz by auto. cbn [rows_of mc]. apply (blocks_mc zero one add mul conj ca cm cc cs n R r BR Hr). }
      assert (Lcs' : length cs' = length cs) by (unfold cs'; now rewrite map_length, seq_length).
      split; [lia|]. split; [|split; [exact (proj2 Bz)|]].
      + rewrite vstack_mr, (proj1 Bz), <- (cum_all cs'). unfold cum. rewrite Lcs'. unfold cs'. rewrite trunc_sum by auto. rewrite Cm. unfold k. lia.
      + intros x j Hx. assert (Hxm : x < list_sum cs) by (fold m; unfold k in Hx; lia). destruct (row_at cs x Hxm) as (r & i & Hr & Hi & ->). pose proof (cum_S cs r Hr) as CS.
        rewrite (gl_at zero one add mul conj ca cm cc cs n n R r i j BR Hr Hi). assert (Ec : cum cs' r = cum cs r) by (unfold cum at 1, cs'; rewrite trunc_sum by lia; unfold k in Hx; lia).
        rewrite <- Ec. rewrite (gl_at zero one add mul conj ca cm cc cs' n n Z' r i j Bz); [|lia|unfold cs'; rewrite nth_map_seq' by auto; unfold k in Hx; lia]. rewrite Nz by auto. reflexivity.
    - split; [lia|]. split; [rewrite vstack_mr, (proj1 BR); fold m; unfold k; lia|]. split; [exact (proj2 BR)|auto]. }
  destruct HRs as (HR1 & HR2 & HR3 & HR4). exists Qs, Rs. split.
  { unfold qr_row_split. rewrite NT. unfold qr_rows_wide. fold cs m idx T Q0. rewrite E. cbn [bind]. fold Rs. reflexivity. }
  split; [exact (proj1 BQ)|]. split; [exact (proj2 BQ)|]. split; [exact HR1|]. split; [exact HR2|]. split; [exact HR3|].
  assert (EQR : forall x j, me (mmul (vstack k Qs) (vstack n Rs)) x j = gsum zero add k (fun a => mul (me (vstack k Qs) x a) (me (vstack n R) a j))).
  { intros x j. cbn [QrSpec.mmul me]. rewrite vstack_mc. change msum with (gsum zero add). apply gsum_ext. intros a Ha. now rewrite HR4. }
  split; [|split].
  - intros i j. rewrite HR2, vstack_mc. intros Hi Hj L. rewrite HR4 by auto. apply (j_zero _ _ _ _ _ _ _ _ _ _ _ _ I); unfold k in *; lia.
  - intros x j Hx Hj. rewrite EQR. symmetry. apply (j_left _ _ _ _ _ _ _ _ _ _ _ _ I); auto.
  - intros ID HD. destruct (j_orth _ _ _ _ _ _ _ _ _ _ _ _ I ID) as [O1 O2]; [intros a Ha; rewrite <- HR4 by auto; apply HD; auto|]. split.
    + intros a b. rewrite vstack_mc, vstack_mr, (proj1 BQ). fold m. intros Ha Hb. apply (O1 a b Ha Hb).
    + intros Hmn HU. split; [cbn [QrSpec.mmul mr]; rewrite !vstack_mr; now rewrite (proj1 BQ)|]. split; [cbn [QrSpec.mmul mc]; now rewrite !vstack_mc|]. intros x j. rewrite EQR. cbn [QrSpec.mmul mr mc]. rewrite vstack_mr, vstack_mc, (proj1 BQ). fold m. intros Hx Hj.
      destruct (le_lt_dec k j) as [G|G]; [|symmetry; apply (j_left _ _ _ _ _ _ _ _ _ _ _ _ I); auto]. rewrite (j_right _ _ _ _ _ _ _ _ _ _ _ _ I x j Hx G Hj).
      assert (Z0 : me (vstack n A) x j = zero); [|now rewrite Z0, AZ].
      assert (Ek : k = m) by (unfold k; lia).
      rewrite <- (gsum_one zero add AC AA AZ m x (fun y => me (vstack n A) y j) Hx).
      transitivity (gsum zero add m (fun y => gsum zero add m (fun a => mul (mul (me (vstack k Qs) x a) (conj (me (vstack k Qs) y a))) (me (vstack n A) y j)))).
      * apply gsum_ext. intros y Hy. rewrite <- (vsum_mul_r zero one add mul sub opp RT). change (gsum zero add m ?f) with (msum m f). rewrite HU by auto. rewrite Nat.eqb_sym. destruct (x =? y); [symmetry; apply (Rmul_1_l RT)|].
        symmetry. rewrite (Rmul_comm RT). rewrite (Rmul_comm RT). apply (ARmul_0_l (Rth_ARth (Eqsth V) (Eq_ext add mul opp) RT)).
      * rewrite (gsum_swap zero add AC AA AZ). apply (gsum_zero zero add AC AA AZ). intros a Ha. transitivity (mul (me (vstack k Qs) x a) (gsum zero add m (fun y => mul (conj (me (vstack k Qs) y a)) (me (vstack n A) y j)))).
        -- rewrite (vsum_mul_l zero one add mul sub opp RT). apply gsum_ext. intros y _. symmetry. apply (Rmul_assoc RT).
        -- rewrite (O2 a j ltac:(lia) G Hj). rewrite (Rmul_comm RT). apply (ARmul_0_l (Rth_ARth (Eqsth V) (Eq_ext add mul opp) RT)).
Qed.
End Main.

(** Instance: a 4x3 matrix on two processes, two rows each *)
Definition ex43 : list (mat Z) := [mat_of 3 [[0; 2; 5]; [3; 1; 6]]; mat_of 3 [[0; 0; 4]; [0; 0; 0]]]%Z.
Example C96_hyps : 2 <= length ex43 /\ Forall (fun a => mc a = 3) ex43 /\ Forall (fun a => mr a < 3) ex43 /\
  (forall g r, g * 2 + 1 < length ex43 -> nth r (map mr ex43) 0 <= list_sum (firstn 2 (skipn (g * 2) (map mr ex43)))) /\
  (forall a q r, zqr a = Some (q, r) -> is_qr 0%Z 1%Z Z.add Z.mul (fun x => x) a q r).
Proof.
  split; [cbn; lia|]. split; [repeat constructor|]. split; [repeat constructor|]. split; [|exact zqr_sound]. intros g r Hg. change (map mr ex43) with (counts_of 4 2). apply balanced_groups; cbn in *; lia.
Qed.
Example C96_values : match qr_row_split 0%Z Z.add Z.mul Z.sub (fun x => x) zqr true 3 2 ex43 with Ok (Some Qs, Rs) => Some (map rows_list Qs, map rows_list Rs) | _ => None end =
  Some ([[[0; 1; 0]; [1; 0; 0]]; [[0; 0; 1]; [0; 0; 0]]], [[[3; 1; 6]; [0; 2; 5]]; [[0; 0; 4]]])%Z.
Proof. vm_compute. reflexivity. Qed.
(** ... and a 2x3 matrix on two processes *)
Definition ex23 : list (mat Z) := [mat_of 3 [[0; 2; 5]]; mat_of 3 [[3; 1; 6]]]%Z.
Example C96_wide_values : match qr_row_split 0%Z Z.add Z.mul Z.sub (fun x => x) zqr true 3 2 ex23 with Ok (Some Qs, Rs) => Some (map rows_list Qs, map rows_list Rs) | _ => None end =
  Some ([[[0; 1]]; [[1; 0]]], [[[3; 1; 6]]; [[0; 2; 5]]])%Z.
Proof. vm_compute. reflexivity. Qed.

(** Dependent columns: [[1, 1], [0, 0]] on two processes gives Q = A, whose columns are equal *)
Theorem C96_dependent_columns_refuted : exists (qr : mat Z -> option (mat Z * mat Z)) As Qs Rs,
  (forall a q r, qr a = Some (q, r) -> is_qr 0%Z 1%Z Z.add Z.mul (fun x => x) a q r) /\
  map rows_list As = [[[1; 1]]; [[0; 0]]]%Z /\ qr_row_split 0%Z Z.add Z.mul Z.sub (fun x => x) qr true 2 2 As = Ok (Some Qs, Rs) /\ ~ orthonormal 0%Z 1%Z Z.add Z.mul (fun x => x) (vstack 0%Z 2 Qs).
Proof.
  exists zqr, [mat_of 2 [[1; 1]]; mat_of 2 [[0; 0]]]%Z. eexists. eexists. split; [exact zqr_sound|]. split; [reflexivity|]. split; [vm_compute; reflexivity|].
  intros H. specialize (H 0 1 ltac:(vm_compute; lia) ltac:(vm_compute; lia)). vm_compute in H. discriminate H.
Qed.
(** Fewer rows than processes: a 2x3 matrix on four processes raises although the same matrix on two processes does not *)
Theorem C96_idle_processes_refuted : exists (qr : mat Z -> option (mat Z * mat Z)) As,
  (forall a q r, qr a = Some (q, r) -> is_qr 0%Z 1%Z Z.add Z.mul (fun x => x) a q r) /\
  map mr As = [1; 1; 0; 0] /\ Forall (fun a => mc a = 3) As /\ qr_row_split 0%Z Z.add Z.mul Z.sub (fun x => x) qr true 3 2 As = Err RuntimeError /\
  match qr_row_split 0%Z Z.add Z.mul Z.sub (fun x => x) qr true 3 2 (firstn 2 As) with Ok _ => True | Err _ => False end.
Proof.
  exists zqr, [mat_of 3 [[0; 2; 5]]; mat_of 3 [[3; 1; 6]]; mat_of 3 []; mat_of 3 []]%Z. split; [exact zqr_sound|]. split; [reflexivity|]. split; [repeat constructor|]. split; [vm_compute; reflexivity|vm_compute; auto].
Qed.
