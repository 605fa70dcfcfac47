From Coq Require Import Field_theory Field Ring.
From Verif Require Import Base BaseLemmas LayoutModel LayoutProofs NdSpec OpsModel OpsProofs5 TriSpec TriModel.
Open Scope nat_scope.

Lemma all_ok_seq {C} (f : nat -> res C) (Q : nat -> C -> Prop) p d :
  (forall r, r < p -> exists y, f r = Ok y /\ Q r y) ->
  exists ys, all_ok (map f (seq 0 p)) = Ok ys /\ length ys = p /\ forall r, r < p -> Q r (nth r ys d).
Proof.
  intros H. destruct (all_ok_Q f Q (seq 0 p)) as (ys & E & FA).
  { intros r Hr. apply in_seq in Hr. apply H. lia. }
  exists ys. split; [exact E|]. assert (L := Forall2_len _ _ _ FA). rewrite seq_length in L. split; [auto|].
  intros r Hr. destruct (nth_error ys r) as [y|] eqn:Ey; [|apply nth_error_None in Ey; lia].
  rewrite (nth_error_nth ys r d Ey). destruct (Forall2_nth_error _ _ _ FA r y Ey) as (x & Ex & HQ).
  apply nth_error_nth with (d := 0) in Ex. rewrite seq_nth in Ex by auto. now subst x.
Qed.

Lemma nth_map_seq0 {C} (f : nat -> C) p r d : r < p -> nth r (map f (seq 0 p)) d = f r.
Proof. intros H. rewrite nth_indep with (d' := f 0) by (now rewrite map_length, seq_length). rewrite map_nth, seq_nth by auto. reflexivity. Qed.

Section Tri.
Context {F : Type}.
Variables (f0 f1 : F) (fadd fmul fsub : F -> F -> F) (fopp : F -> F) (fdiv : F -> F -> F) (finv : F -> F).
Hypothesis FT : field_theory f0 f1 fadd fmul fsub fopp fdiv finv eq.
Add Field Ff : FT.
Notation fsum := (fsum f0 fadd).
Notation back := (back f0 fadd fmul fsub fdiv).
Notation tsolve := (tsolve f0 fadd fmul fsub fdiv).
Notation matmul := (matmul f0 fadd fmul).
Notation isub := (isub fsub).

Lemma fsum_app l l' : fsum (l ++ l') = fadd (fsum l) (fsum l').
Proof. unfold TriSpec.fsum. induction l as [|x l IH]; cbn [app fold_right]; [ring|]. rewrite IH. ring. Qed.
Lemma fsum_ext (f g : nat -> F) l : (forall j, In j l -> f j = g j) -> fsum (map f l) = fsum (map g l).
Proof. intros H. f_equal. now apply map_ext_in. Qed.
Lemma fsum_seq (f : nat -> F) s a b : fsum (map f (seq s (a + b))) = fadd (fsum (map f (seq s a))) (fsum (map f (seq (s + a) b))).
Proof. now rewrite seq_app, map_app, fsum_app. Qed.
Lemma map_shift (f : nat -> F) s a l : map f (seq (s + a) l) = map (fun u => f (s + u)) (seq a l).
Proof.
  revert a. induction l as [|l IH]; intros a; [reflexivity|]. cbn [seq map]. f_equal. rewrite <- IH. f_equal. f_equal. lia.
Qed.
Lemma map_shift0 (f : nat -> F) s l : map f (seq s l) = map (fun u => f (s + u)) (seq 0 l).
Proof. rewrite <- map_shift. now rewrite Nat.add_0_r. Qed.
Lemma fsum_split (f : nat -> F) s m n : s <= m -> m <= n ->
  fsum (map f (seq s (n - s))) = fadd (fsum (map f (seq s (m - s)))) (fsum (map f (seq m (n - m)))).
Proof. intros H1 H2. replace (n - s) with ((m - s) + (n - m)) by lia. rewrite fsum_seq. repeat f_equal. lia. Qed.

Lemma full_solves n K A b x : upper f0 n A -> solves f0 fadd fmul n K A b x -> solves_full f0 fadd fmul n K A b x.
Proof.
  intros U H i c Hi Hc. rewrite <- (H i c Hi Hc). replace (seq 0 n) with (seq 0 (i + (n - i))) by (f_equal; lia). rewrite fsum_seq. cbn [Nat.add].
  assert (E : forall l, (forall j, In j l -> j < i) -> fsum (map (fun j => fmul (A i j) (x j c)) l) = f0).
  { induction l as [|j l IH]; intros Hl; [reflexivity|]. cbn [map]. change (fsum (?y :: ?t)) with (fadd y (fsum t)).
    rewrite IH by (intros; apply Hl; now right). rewrite U; [ring|auto|apply Hl; now left]. }
  rewrite E; [ring|]. intros j Hj. apply in_seq in Hj. lia.
Qed.
(** ** back substitution *)
Lemma back_length m D b t : length (back m D b t) = t.
Proof. induction t; cbn; auto. Qed.
Lemma back_tail m D b t d u : nth u (back m D b t) f0 = nth (d + u) (back m D b (t + d)) f0.
Proof.
  revert t u. induction d as [|d IH]; intros t u; [now rewrite Nat.add_0_r|].
  replace (t + S d) with (S (t + d)) by lia. cbn [TriModel.back nth Nat.add]. apply IH.
Qed.
Lemma back_solves m D b : (forall r, r < m -> D r r <> f0) -> forall r, r < m ->
  fsum (map (fun j => fmul (D r j) (nth j (back m D b m) f0)) (seq r (m - r))) = b r.
Proof.
  intros ND r Hr. set (t := m - r - 1). replace (m - r) with (S t) by lia. cbn [seq map].
  assert (E0 : nth r (back m D b m) f0 = nth 0 (back m D b (S t)) f0).
  { rewrite (back_tail m D b (S t) r 0). f_equal; [lia|]. f_equal. lia. }
  change (fsum (?x :: ?l)) with (fadd x (fsum l)). rewrite E0. cbn [TriModel.back nth]. replace (m - S t) with r by lia.
  assert (E1 : fsum (map (fun j => fmul (D r j) (nth j (back m D b m) f0)) (seq (S r) t)) =
               fsum (map (fun u => fmul (D r (r + 1 + u)) (nth u (back m D b t) f0)) (seq 0 t))).
  { replace (S r) with (r + 1 + 0) by lia. rewrite map_shift. apply fsum_ext. intros u Hu. apply in_seq in Hu. f_equal.
    rewrite (back_tail m D b t (r + 1) u). f_equal. f_equal. lia. }
  rewrite E1. field. auto.
Qed.
Lemma back_unique m D b y : (forall r, r < m -> D r r <> f0) ->
  (forall r, r < m -> fsum (map (fun j => fmul (D r j) (y j)) (seq r (m - r))) = b r) ->
  forall t, t <= m -> forall u, u < t -> nth u (back m D b t) f0 = y (m - t + u).
Proof.
  intros ND HY. induction t as [|t IH]; intros Ht u Hu; [lia|]. destruct u as [|u].
  - cbn [TriModel.back nth]. set (r := m - S t). assert (Hr : r < m) by lia.
    assert (E1 : fsum (map (fun u => fmul (D r (r + 1 + u)) (nth u (back m D b t) f0)) (seq 0 t)) =
                 fsum (map (fun j => fmul (D r j) (y j)) (seq (S r) t))).
    { replace (S r) with (r + 1 + 0) by lia. rewrite map_shift. apply fsum_ext. intros v Hv. apply in_seq in Hv. f_equal. rewrite IH by lia. f_equal. lia. }
    rewrite E1, <- (HY r Hr). replace (m - r) with (S t) by lia. cbn [seq map]. change (fsum (?x :: ?l)) with (fadd x (fsum l)).
    rewrite Nat.add_0_r. field. auto.
  - cbn [TriModel.back nth]. rewrite IH by lia. f_equal. lia.
Qed.
Lemma tsolve_ok D B m K y : br D = m -> bc D = m -> br B = m -> bc B = K -> (forall r, r < m -> be D r r <> f0) ->
  (forall r c, r < m -> c < K -> fsum (map (fun j => fmul (be D r j) (y j c)) (seq r (m - r))) = be B r c) ->
  exists x, tsolve D B = Ok x /\ br x = m /\ bc x = K /\ forall i c, i < m -> c < K -> be x i c = y i c.
Proof.
  intros H1 H2 H3 H4 ND HY. unfold TriModel.tsolve. rewrite H1, H2, H3, Nat.eqb_refl. cbn [andb]. eexists. split; [reflexivity|]. cbn [br bc be].
  split; [auto|]. split; [auto|]. intros i c Hi Hc. rewrite (back_unique m (be D) (fun i => be B i c) (fun j => y j c)); auto.
  f_equal. lia.
Qed.

(** ** the distributed loops *)
Section Run.
Variables (p n K : nat) (A b : nat -> nat -> F) (ss rs : nat).
Hypothesis Hp : 0 < p.
Hypothesis ND : forall i, i < n -> A i i <> f0.
Hypothesis Hsz : ss <= rs.
Notation cs := (cn p n).
Notation cum := (cum cs).
Notation X := (fun j c => nth j (back n A (fun i => b i c) n) f0).
Lemma X_solves : solves f0 fadd fmul n K A b X.
Proof. intros i c Hi Hc. now apply (back_solves n A (fun i => b i c)). Qed.
Lemma cs_len : length cs = p. Proof. apply counts_of_length. Qed.
Lemma cum_S r : r < p -> cum (r + 1) = (cum r + nth r cs 0)%nat.
Proof. intros H. unfold TriModel.cum. rewrite Nat.add_1_r. apply psum_S. now rewrite cs_len. Qed.
Lemma cum_le r : cum r <= n.
Proof. unfold TriModel.cum. rewrite <- (counts_of_sum n Hp) at 2. apply psum_le_sum. Qed.
Lemma cum_mono r s : r <= s -> cum r <= cum s. Proof. apply psum_mono. Qed.
Lemma cum_p : cum p = n.
Proof. unfold TriModel.cum. rewrite psum_all by (now rewrite cs_len). now apply counts_of_sum. Qed.
Definition tail (i row c : nat) : F := fsum (map (fun j => fmul (A row j) (X j c)) (seq (cum (i + 1)) (n - cum (i + 1)))).
Definition goodB (i r : nat) (B : blk F) : Prop :=
  br B = nth r cs 0 /\ bc B = K /\ forall a c, a < nth r cs 0 -> c < K -> be B a c = fsub (b (cum r + a) c) (tail i (cum r + a) c).
Definition goodX (r : nat) (B : blk F) : Prop :=
  br B = nth r cs 0 /\ bc B = K /\ forall a c, a < nth r cs 0 -> c < K -> be B a c = X (cum r + a) c.
(** the diagonal block *)
Lemma solve_block i D B : i < p -> br D = nth i cs 0 -> bc D = nth i cs 0 ->
  (forall a a', a < nth i cs 0 -> a' < nth i cs 0 -> be D a a' = A (cum i + a) (cum i + a')) -> goodB i i B ->
  exists x, tsolve D B = Ok x /\ goodX i x.
Proof.
  intros Hi D1 D2 D3 (B1 & B2 & B3). pose proof (cum_le (i + 1)) as L. rewrite cum_S in L by auto.
  destruct (tsolve_ok D B (nth i cs 0) K (fun a c => X (cum i + a) c)) as (x & E & X1 & X2 & X3); auto.
  - intros r Hr. rewrite D3 by auto. apply ND. lia.
  - intros r c Hr Hc. rewrite B3 by auto. unfold tail.
    pose proof (X_solves (cum i + r) c ltac:(lia) Hc) as E. cbv beta in E.
    rewrite (fsum_split _ (cum i + r) (cum (i + 1)) n) in E by (rewrite ?cum_S; auto; lia). rewrite <- E.
    replace (cum (i + 1) - (cum i + r)) with (nth i cs 0 - r) by (rewrite cum_S by auto; lia).
    rewrite map_shift.
    rewrite (fsum_ext (fun j => fmul (be D r j) (X (cum i + j) c)) (fun u => fmul (A (cum i + r) (cum i + u)) (X (cum i + u) c))); [ring|].
    intros j Hj. apply in_seq in Hj. rewrite D3 by lia. reflexivity.
  - exists x. split; [auto|]. split; [auto|]. split; auto.
Qed.
(** one step of the update of the right-hand sides *)
Lemma tail_step i row c : i < p ->
  fadd (fsum (map (fun u => fmul (A row (cum i + u)) (X (cum i + u) c)) (seq 0 (nth i cs 0)))) (tail i row c) = fsum (map (fun j => fmul (A row j) (X j c)) (seq (cum i) (n - cum i))).
Proof.
  intros Hi. rewrite (fsum_split _ (cum i) (cum (i + 1)) n); [|rewrite cum_S; auto; lia|apply cum_le].
  replace (cum (i + 1) - cum i) with (nth i cs 0) by (rewrite cum_S by auto; lia). unfold tail.
  rewrite (map_shift0 _ (cum i) (nth i cs 0)). reflexivity.
Qed.
Lemma isub_ok B V r (v : nat -> nat -> F) i : i < p -> goodB (S i) r B -> br V = nth r cs 0 -> bc V = K ->
  (forall a c, a < nth r cs 0 -> c < K -> be V a c = fsum (map (fun u => fmul (A (cum r + a) (cum (S i) + u)) (X (cum (S i) + u) c)) (seq 0 (nth (S i) cs 0)))) ->
  S i < p -> exists B', isub B V = Ok B' /\ goodB i r B'.
Proof.
  intros Hi (B1 & B2 & B3) V1 V2 V3 HSi. unfold TriModel.isub. rewrite B1, B2, V1, V2, !Nat.eqb_refl. cbn [negb]. eexists. split; [reflexivity|].
  split; [auto|]. split; [auto|]. cbn [be]. intros a c Ha Hc. rewrite B3, V3 by auto. unfold tail at 2. rewrite Nat.add_1_r. rewrite <- (tail_step (S i)) by auto. ring.
Qed.
Definition state (i : nat) (bt xs : list (blk F)) : Prop :=
  length bt = p /\ length xs = p /\ (forall r, r <= i -> goodB i r (bt_ f0 bt r)) /\ (forall r, i < r -> r < p -> goodX r (nth r xs (noblk f0))).
Lemma state_upd i bt bt' xs xi : S i < p -> state (S i) bt xs -> goodX (S i) xi -> length bt' = p ->
  (forall r, r < S i -> goodB i r (bt_ f0 bt' r)) -> state i bt' (upd xs (S i) xi).
Proof.
  intros Hi (S1 & S2 & S3 & S4) HX L HB. split; [auto|]. split; [now rewrite upd_length|]. split; [intros r Hr; apply HB; lia|].
  intros r Hr Hrp. destruct (Nat.eq_dec r (S i)) as [->|Ne]; [rewrite upd_same by lia; auto|]. rewrite upd_other by auto. apply S4; lia.
Qed.
Lemma rev_seq m : rev (seq 1 (S m)) = S m :: rev (seq 1 m).
Proof. rewrite seq_S, rev_app_distr. reflexivity. Qed.
(** local pieces of A *)
Definition colA (L : nat -> blk F) : Prop := forall r, r < p -> br (L r) = n /\ bc (L r) = nth r cs 0 /\
  forall a u, a < n -> u < nth r cs 0 -> be (L r) a u = A a (cum r + u).
Definition rowA (L : nat -> blk F) : Prop := forall r, r < p -> br (L r) = nth r cs 0 /\ bc (L r) = n /\
  forall a u, a < nth r cs 0 -> u < n -> be (L r) a u = A (cum r + a) u.
Lemma columns_run L : colA L -> forall m bt xs, m < p -> state m bt xs ->
  exists bt' xs', by_columns f0 fadd fmul fsub fdiv p n cs ss rs L (rev (seq 1 m)) bt xs = Ok (bt', xs') /\ state 0 bt' xs'.
Proof.
  intros HL. induction m as [|m IH]; intros bt xs Hm ST; [exists bt, xs; auto|]. rewrite rev_seq. cbn [by_columns].
  destruct (HL (S m) Hm) as (L1 & L2 & L3). pose proof (cum_le (S m + 1)) as LE. pose proof (cum_S (S m) Hm) as ES.
  destruct (solve_block (S m) (rows_of (cum (S m)) (cum (S m + 1)) (L (S m))) (bt_ f0 bt (S m))) as (xi & E & HX); auto.
  - cbn [rows_of br bc be]. rewrite L1. lia.
  - cbn [rows_of br bc be]. intros a a' Ha Ha'. rewrite L3 by lia. reflexivity.
  - apply ST. auto.
  - rewrite E. cbn [bind]. pose proof HX as (X1 & X2 & X3). unfold TriModel.matmul. rewrite L2, X1, Nat.eqb_refl. cbn [bind].
    match goal with |- context [all_ok (map ?f (seq 0 p))] => destruct (all_ok_seq f (fun r B => r < S m -> goodB m r B) p (noblk f0)) as (bt' & E' & Lb & HB) end.
    + intros r Hr. destruct (Nat.ltb_spec r (S m)) as [Hlt|Hge].
      * unfold scatterv. cbn [br bc be]. rewrite L1, X2.
        assert (G1 : (rs * (nth r cs 0 * K) <? ss * (nth r cs 0 * K)) = false) by (apply Nat.ltb_ge; now apply Nat.mul_le_mono_r).
        assert (G2 : (n <? cum r + nth r cs 0) = false) by (apply Nat.ltb_ge; rewrite <- cum_S by auto; apply cum_le).
        rewrite G1, G2. cbn [orb bind].
        match goal with |- context [isub _ ?V] => destruct (isub_ok (bt_ f0 bt r) V r (fun _ _ => f0) m) as (B' & EB & GB); auto; try lia end.
        -- apply ST. lia.
        -- intros a c Ha Hc. cbn [be]. apply fsum_ext. intros u Hu. apply in_seq in Hu. rewrite X3 by lia.
           rewrite L3; [reflexivity| |lia]. pose proof (cum_le (r + 1)) as LR. rewrite cum_S in LR by auto. lia.
        -- exists B'. split; [exact EB|]. auto.
      * eexists. split; [reflexivity|]. intros; lia.
    + rewrite E'. cbn [bind]. apply IH; [lia|]. apply (state_upd m bt); auto. intros r Hr. apply HB; lia.
Qed.
Lemma rows_run L : rowA L -> forall m bt xs, m < p -> state m bt xs ->
  exists bt' xs', by_rows f0 fadd fmul fsub fdiv p n cs L (rev (seq 1 m)) bt xs = Ok (bt', xs') /\ state 0 bt' xs'.
Proof.
  intros HL. induction m as [|m IH]; intros bt xs Hm ST; [exists bt, xs; auto|]. rewrite rev_seq. cbn [by_rows].
  destruct (HL (S m) Hm) as (L1 & L2 & L3). pose proof (cum_le (S m + 1)) as LE. pose proof (cum_S (S m) Hm) as ES.
  destruct (solve_block (S m) (cols_of (cum (S m)) (cum (S m + 1)) (L (S m))) (bt_ f0 bt (S m))) as (xi & E & HX); auto.
  - cbn [cols_of br bc be]. rewrite L2. lia.
  - cbn [cols_of br bc be]. intros a a' Ha Ha'. rewrite L3 by lia. reflexivity.
  - apply ST. auto.
  - rewrite E. cbn [bind]. pose proof HX as (X1 & X2 & X3). rewrite X1, Nat.eqb_refl. cbn [negb].
    match goal with |- context [all_ok (map ?f (seq 0 p))] => destruct (all_ok_seq f (fun r B => r < S m -> goodB m r B) p (noblk f0)) as (bt' & E' & Lb & HB) end.
    + intros r Hr. destruct (Nat.ltb_spec r (S m)) as [Hlt|Hge].
      * destruct (HL r Hr) as (R1 & R2 & R3). unfold TriModel.matmul. cbn [cols_of br bc be]. rewrite R1, R2, X1.
        replace (Nat.min (cum (S m + 1)) n - cum (S m)) with (nth (S m) cs 0) by lia. rewrite Nat.eqb_refl. cbn [bind].
        match goal with |- context [isub _ ?V] => destruct (isub_ok (bt_ f0 bt r) V r (fun _ _ => f0) m) as (B' & EB & GB); auto; try lia end.
        -- apply ST. lia.
        -- intros a c Ha Hc. cbn [be]. apply fsum_ext. intros u Hu. apply in_seq in Hu. rewrite X3 by lia. rewrite R3 by lia. reflexivity.
        -- exists B'. split; [exact EB|]. auto.
      * eexists. split; [reflexivity|]. intros; lia.
    + rewrite E'. cbn [bind]. apply IH; [lia|]. apply (state_upd m bt); auto. intros r Hr. apply HB; lia.
Qed.
Lemma pieces_state : state (p - 1) (pieces p (mk_blk n K b) cs) (map (fun r => mk_blk (nth r cs 0) K (fun _ _ => f0)) (seq 0 p)).
Proof.
  unfold state, pieces, bt_. rewrite !map_length, seq_length. split; [auto|]. split; [auto|]. split; [|intros; lia].
  intros r Hr. rewrite nth_map_seq0 by lia. change (psum cs) with cum. pose proof (cum_le (r + 1)) as LE. pose proof (cum_S r ltac:(lia)) as ES.
  unfold rows_of, goodB. cbn [br bc be]. split; [lia|]. split; [auto|]. intros a c Ha Hc. unfold tail. replace (p - 1 + 1) with p by lia. rewrite cum_p, Nat.sub_diag. cbn. ring.
Qed.
Lemma final L x0 (bt xs : list (blk F)) : state 0 bt xs -> goodX 0 x0 -> L = upd xs 0 x0 -> length L = p /\ forall r, r < p -> goodX r (nth r L (noblk f0)).
Proof.
  intros (S1 & S2 & S3 & S4) HX ->. split; [now rewrite upd_length|]. intros r Hr. destruct (Nat.eq_dec r 0) as [->|Ne]; [rewrite upd_same by lia; auto|].
  rewrite upd_other by auto. apply S4; lia.
Qed.
Lemma cols_ok L : colA L -> exists l, cols_solve f0 fadd fmul fsub fdiv p n K cs ss rs L (pieces p (mk_blk n K b) cs) = Ok l /\ length l = p /\ forall r, r < p -> goodX r (nth r l (noblk f0)).
Proof.
  intros HL. unfold cols_solve. destruct (columns_run L HL (p - 1) _ _ ltac:(lia) pieces_state) as (bt & xs & E & ST). rewrite E. cbn [bind fst snd].
  destruct (HL 0 Hp) as (L1 & L2 & L3). pose proof (cum_le 1) as LE. pose proof (cum_S 0 Hp) as ES. cbn [Nat.add] in ES. change (cum 0) with 0 in ES.
  destruct (solve_block 0 (rows_of 0 (cum 1) (L 0)) (bt_ f0 bt 0)) as (x0 & E0 & HX); auto.
  - cbn [rows_of br]. rewrite L1. lia.
  - cbn [rows_of be]. intros a a' Ha Ha'. change (cum 0) with 0. rewrite L3 by lia. reflexivity.
  - apply ST. auto.
  - rewrite E0. cbn [bind]. eexists. split; [reflexivity|]. now apply (final _ x0 bt xs).
Qed.
Lemma rows_ok L : rowA L -> exists l, rows_solve f0 fadd fmul fsub fdiv p n K cs L (pieces p (mk_blk n K b) cs) = Ok l /\ length l = p /\ forall r, r < p -> goodX r (nth r l (noblk f0)).
Proof.
  intros HL. unfold rows_solve. destruct (rows_run L HL (p - 1) _ _ ltac:(lia) pieces_state) as (bt & xs & E & ST). rewrite E. cbn [bind fst snd].
  destruct (HL 0 Hp) as (L1 & L2 & L3). pose proof (cum_le 1) as LE. pose proof (cum_S 0 Hp) as ES. cbn [Nat.add] in ES. change (cum 0) with 0 in ES.
  destruct (solve_block 0 (cols_of 0 (cum 1) (L 0)) (bt_ f0 bt 0)) as (x0 & E0 & HX); auto.
  - cbn [cols_of bc]. rewrite L2. lia.
  - cbn [cols_of be]. intros a a' Ha Ha'. change (cum 0) with 0. rewrite L3 by lia. reflexivity.
  - apply ST. auto.
  - rewrite E0. cbn [bind]. eexists. split; [reflexivity|]. now apply (final _ x0 bt xs).
Qed.
Lemma colA_ok : colA (fun r => cols_of (psum cs r) (psum cs (r + 1)) (mk_blk n n A)).
Proof.
  intros r Hr. cbn [cols_of br bc be]. change (psum cs) with cum. pose proof (cum_le (r + 1)) as LE. pose proof (cum_S r Hr) as ES. split; [auto|]. split; [lia|]. auto.
Qed.
Lemma rowA_ok : rowA (fun r => rows_of (psum cs r) (psum cs (r + 1)) (mk_blk n n A)).
Proof.
  intros r Hr. cbn [rows_of br bc be]. change (psum cs) with cum. pose proof (cum_le (r + 1)) as LE. pose proof (cum_S r Hr) as ES. split; [lia|]. split; [auto|]. auto.
Qed.
End Run.
End Tri.
