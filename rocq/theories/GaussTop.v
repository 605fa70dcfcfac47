(** det and inv on stacks of matrices in any layout, reduced to the elimination of one
    global matrix. *)
From Verif Require Import Base BaseLemmas LayoutModel LayoutProofs NdSpec TensorSpec TensorLemmas NdLemmas OpsModel OpsProofs4 OpsProofs5 ShapeSpec ShapeModel ShapeProps ConcatProofs3 ReshapeModel ReshapeProofs ReshapeProps GaussModel GaussProofs.
Open Scope nat_scope.

(** matrix [idx] of the stack [G] *)
Definition mat_of {F} (G : list Z -> F) (idx : list Z) (i j : nat) : F := G (idx ++ [Z.of_nat i; Z.of_nat j]).

Lemma zprod_app a b : zprod (a ++ b) = (zprod a * zprod b)%Z.
Proof. induction a as [|x a IH]; cbn [app zprod]; [lia|rewrite IH; lia]. Qed.
Lemma dot_app a : forall i b j, length i = length a -> dot (i ++ j) (cstrides (a ++ b)) = (dot i (cstrides a) * zprod b + dot j (cstrides b))%Z.
Proof.
  induction a as [|x a IH]; intros [|k i] b j L; try discriminate; cbn [app cstrides dot]; [lia|].
  rewrite IH by (cbn in L; lia). rewrite zprod_app. lia.
Qed.
Lemma lead_app ld n : lead (ld ++ [n; n]) = ld.
Proof. unfold lead. rewrite app_length. cbn [length]. replace (length ld + 2 - 2) with (length ld) by lia. rewrite firstn_app, Nat.sub_diag, firstn_all. cbn. apply app_nil_r. Qed.
Lemma lead_app2 (ld : list Z) a b : lead (ld ++ [a; b]) = ld.
Proof. unfold lead. rewrite app_length. cbn [length]. replace (length ld + 2 - 2) with (length ld) by lia. rewrite firstn_app, Nat.sub_diag, firstn_all. cbn. apply app_nil_r. Qed.
Lemma in_bounds_app a b i j : in_bounds a i -> in_bounds b j -> in_bounds (a ++ b) (i ++ j).
Proof. intros H1 H2. now apply Forall2_app. Qed.
Lemma in_bounds_2 n (i j : nat) : i < n -> j < n -> in_bounds [Z.of_nat n; Z.of_nat n] [Z.of_nat i; Z.of_nat j].
Proof. intros. repeat constructor; lia. Qed.
Lemma in_bounds_app_inv ld n idx : in_bounds (ld ++ [n; n]) idx -> exists i a b, idx = i ++ [a; b] /\ in_bounds ld i /\ (0 <= a < n)%Z /\ (0 <= b < n)%Z.
Proof.
  intros H. apply Forall2_app_inv_l in H as (i & t & H1 & H2 & ->). inversion H2 as [|? a ? t1 Ha H3]; subst. inversion H3 as [|? b ? t2 Hb H4]; subst. inversion H4; subst.
  exists i, a, b. auto.
Qed.
Lemma upd_app_l {A} (l m : list A) s v : s < length l -> upd (l ++ m) s v = upd l s v ++ m.
Proof. revert s. induction l as [|x l IH]; intros [|s] H; cbn in *; try lia; [reflexivity|]. f_equal. apply IH. lia. Qed.
Lemma nth_error_combine_seq {X} (l : list X) : forall P r p, nth_error (combine (seq 0 P) l) r = Some p -> fst p = r /\ nth_error l r = Some (snd p).
Proof.
  intros P r p H. assert (G : forall k m (l : list X) r, nth_error (combine (seq m k) l) r = Some p -> fst p = m + r /\ nth_error l r = Some (snd p)).
  { induction k as [|k IH]; intros m [|o l'] [|r'] E; cbn in E; try discriminate.
    - injection E as <-. cbn. split; [lia|auto].
    - apply IH in E. cbn. split; [lia|tauto]. }
  now apply (G P 0) in H.
Qed.
Lemma Forall2_len' {B C} (Q : B -> C -> Prop) l m : Forall2 Q l m -> length l = length m.
Proof. induction 1; cbn; auto. Qed.
Lemma all_ok_err {B C} (f : B -> res C) (Q : B -> C -> Prop) (Bd : B -> exn -> Prop) l :
  (forall x, In x l -> match f x with Ok y => Q x y | Err e => Bd x e end) ->
  match all_ok (map f l) with Ok ys => Forall2 Q l ys | Err e => exists x, In x l /\ Bd x e end.
Proof.
  induction l as [|x l IH]; intros H; [constructor|]. cbn. pose proof (H x (or_introl eq_refl)) as Hx. destruct (f x) as [y|e]; cbn [bind].
  - assert (IH' := IH (fun z Hz => H z (or_intror Hz))). destruct (all_ok (map f l)) as [ys|e]; cbn [bind]; [constructor; auto|].
    destruct IH' as (z & Hz & Hb). exists z. split; [now right|auto].
  - exists x. split; [now left|auto].
Qed.

(** every position of the split axis has a process *)
Lemma zlocate (cs : list Z) : Forall (fun c => (0 <= c)%Z) cs -> forall z, (0 <= z < zsum cs)%Z ->
  exists r, r < length cs /\ (zsum (firstn r cs) <= z < zsum (firstn r cs) + nth r cs 0)%Z.
Proof.
  induction 1 as [|c cs Hc Hcs IH]; intros z Hz; [change (zsum []) with 0%Z in Hz; lia|].
  change (zsum (c :: cs)) with (c + zsum cs)%Z in Hz. destruct (Z.ltb_spec z c) as [H|H].
  - exists 0. cbn [firstn nth length]. change (zsum []) with 0%Z. lia.
  - destruct (IH (z - c)%Z ltac:(lia)) as (r & Hr & Hb). exists (S r). cbn [firstn nth length]. change (zsum (c :: firstn r cs)) with (c + zsum (firstn r cs))%Z. lia.
Qed.
Lemma zsum_prefix cs r : Forall (fun c => (0 <= c)%Z) cs -> r < length cs -> (0 <= zsum (firstn r cs) /\ zsum (firstn r cs) + nth r cs 0 <= zsum cs)%Z.
Proof.
  intros F Hr. pose proof (zsum_firstn_le cs (S r) F) as H. rewrite zsum_firstn_S in H by auto. pose proof (zsum_firstn_mono cs 0 r F ltac:(lia)) as H0. cbn [firstn] in H0. change (zsum []) with 0%Z in H0. lia.
Qed.
Lemma upd_self {A} (l : list A) s d : upd l s (nth s l d) = l.
Proof. revert s. induction l as [|z l IH]; intros [|s]; cbn; auto. now rewrite IH. Qed.
Lemma in_bounds_split (l : list Z) : forall s c idx, s < length l -> in_bounds (upd l s c) idx <->
  (length idx = length l /\ (forall q, q < length l -> q <> s -> (0 <= nth q idx 0 < nth q l 0)%Z) /\ (0 <= nth s idx 0 < c)%Z).
Proof.
  intros s c idx Hs. split.
  - intros H. apply in_bounds_nth in H as [L H]. rewrite upd_len in L, H. split; [auto|]. split.
    + intros q Hq N. specialize (H q Hq). rewrite nth_upd_other in H by auto. exact H.
    + specialize (H s Hs). rewrite nth_upd_same in H by auto. exact H.
  - intros (L & H & Hc). apply in_bounds_nth. rewrite upd_len. split; [auto|]. intros q Hq.
    destruct (Nat.eq_dec q s) as [->|N]; [rewrite nth_upd_same by auto; auto|rewrite nth_upd_other by auto; auto].
Qed.

Lemma undist_agrees {A} (x : dnd A) cnts G : rep x cnts G -> 0 < length cnts -> distributed x = false ->
  forall t, In t (d_locals x) -> agrees t (d_gshape x) G.
Proof.
  intros R HP ED t Ht. destruct R as (L & FZ & H). destruct (d_split x) as [s|] eqn:Es; [|now apply H].
  destruct H as (H1 & H2 & H3 & H4). unfold distributed in ED. rewrite Es in ED. apply Nat.ltb_ge in ED. rewrite L in ED.
  destruct cnts as [|c [|]]; cbn in HP, ED; try lia. apply In_nth_error in Ht as (r & Er).
  assert (r = 0) as -> by (assert (nth_error (d_locals x) r <> None) as N by congruence; apply nth_error_Some in N; cbn in L; lia).
  destruct (H4 0 t Er) as [A1 A2]. cbn [nth firstn] in A1, A2. cbn in H3.
  assert (EU : upd (d_gshape x) s c = d_gshape x) by (replace c with (nth s (d_gshape x) 0%Z) by lia; apply upd_self).
  rewrite EU in A1, A2. split; [exact A1|]. intros idx Hi. rewrite A2 by auto. f_equal. unfold move_axis_idx. cbn. rewrite Z.add_0_r. apply upd_self.
Qed.
Lemma undist_rep {A} (x : dnd A) cnts G (G2 : list Z -> A) ls : rep x cnts G -> 0 < length cnts -> distributed x = false ->
  length ls = length (d_locals x) -> (forall t, In t ls -> agrees t (d_gshape x) G2) -> rep (mk_dnd ls (d_gshape x) (d_split x)) cnts G2.
Proof.
  intros R HP ED LL H'. destruct R as (L & FZ & H). unfold rep. cbn [d_gshape d_split d_locals]. split; [lia|]. split; [auto|].
  destruct (d_split x) as [s|] eqn:Es; [|auto].
  destruct H as (H1 & H2 & H3 & H4). split; [auto|]. split; [auto|]. split; [auto|]. intros r t Er.
  unfold distributed in ED. rewrite Es in ED. apply Nat.ltb_ge in ED. rewrite L in ED.
  destruct cnts as [|c [|]]; cbn in HP, ED; try lia.
  assert (r = 0) as -> by (assert (nth_error ls r <> None) as N by congruence; apply nth_error_Some in N; cbn in L; lia).
  cbn [nth firstn]. cbn in H3.
  assert (EU : upd (d_gshape x) s c = d_gshape x) by (replace c with (nth s (d_gshape x) 0%Z) by lia; apply upd_self).
  rewrite EU. destruct (H' t (nth_error_In _ _ Er)) as [A1 A2]. split; [auto|]. intros idx Hi. rewrite A2 by auto. f_equal. unfold move_axis_idx. cbn. rewrite Z.add_0_r. symmetry. apply upd_self.
Qed.

Section Stack.
Context {F : Type}.
Variables (n : nat) (ld : list Z).
Notation Zn := (Z.of_nat n).
Definition same (M M' : nat -> nat -> F) : Prop := forall i j, i < n -> j < n -> M i j = M' i j.
(** the same elements in row-major order: the matrices of the two stacks correspond *)
Lemma stack_nth (G G' : list Z -> F) K idx i j : in_bounds ld idx -> i < n -> j < n -> K = zprod ld ->
  map G' (row_major [K; Zn; Zn]) = map G (row_major (ld ++ [Zn; Zn])) ->
  G' [dot idx (cstrides ld); Z.of_nat i; Z.of_nat j] = mat_of G idx i j.
Proof.
  intros Hb Hi Hj -> E. unfold mat_of. pose proof (dot_bounds _ _ Hb) as DB. assert (L := in_bounds_length _ _ Hb).
  assert (B1 : in_bounds [zprod ld; Zn; Zn] [dot idx (cstrides ld); Z.of_nat i; Z.of_nat j]) by (repeat constructor; lia).
  assert (B2 : in_bounds (ld ++ [Zn; Zn]) (idx ++ [Z.of_nat i; Z.of_nat j])) by (apply in_bounds_app; [auto|now apply in_bounds_2]).
  pose proof (row_major_ravel _ _ [] B1) as R1. pose proof (row_major_ravel _ _ [] B2) as R2.
  assert (ED : dot [dot idx (cstrides ld); Z.of_nat i; Z.of_nat j] (cstrides [zprod ld; Zn; Zn]) = dot (idx ++ [Z.of_nat i; Z.of_nat j]) (cstrides (ld ++ [Zn; Zn]))).
  { rewrite dot_app by auto. cbn [cstrides dot zprod]. lia. }
  rewrite ED in R1. set (p := Z.to_nat (dot (idx ++ [Z.of_nat i; Z.of_nat j]) (cstrides (ld ++ [Zn; Zn])))) in *.
  pose proof (f_equal (fun l => nth p l (G' [])) E) as E2. cbn beta in E2. rewrite map_nth in E2. rewrite R1 in E2.
  rewrite E2. rewrite (nth_indep _ _ (G [])), map_nth, R2; [reflexivity|].
  rewrite map_length. assert (F0 : Forall (fun z => (0 <= z)%Z) (ld ++ [Zn; Zn])).
  { apply Forall_forall. intros z Hz. apply (In_nth _ _ 0%Z) in Hz as (q & Hq & <-). apply in_bounds_nth in B2 as [_ B2]. specialize (B2 q Hq). lia. }
  pose proof (row_major_length _ F0) as RL. pose proof (dot_bounds _ _ B2) as DB2. unfold p. lia.
Qed.

Variables (f0 f1 : F) (fadd fmul fdiv : F -> F -> F) (fopp : F -> F) (isclose : F -> bool).
Variables (tdet : nat -> (nat -> nat -> F) -> F) (tinv : nat -> (nat -> nat -> F) -> res (nat -> nat -> F)).
Notation gdet1 M := (let '(d, m) := gdet_steps f0 fadd fmul fdiv fopp isclose n (seq 0 n) M f1 0 in if Nat.even m then d else fopp d).
Notation ginv := (ginv f0 f1 fadd fmul fdiv fopp isclose n).
Notation det := (det f0 f1 fadd fmul fdiv fopp isclose tdet).
Notation inv := (inv f0 f1 fadd fmul fdiv fopp isclose tinv).

Section Reshaped.
(** after the reshape to a stack [K; n; n] split along axis 1 or 2 *)
Variables (y : dnd F) (rows : bool) (G' : list Z -> F) (K : Z) (PP : nat).
Let ax := if rows then 1 else 2.
Let cn := counts_of n PP.
Hypothesis HP : 0 < PP.
Hypothesis Gy : d_gshape y = [K; Zn; Zn].
Hypothesis Sy : d_split y = Some ax.
Hypothesis Ry : rep y (map Z.of_nat cn) G'.
Lemma cn_len : length cn = PP. Proof. apply counts_of_length. Qed.
Lemma cn_sum : list_sum cn = n. Proof. now apply counts_of_sum. Qed.
Lemma piece r t : nth_error (d_locals y) r = Some t ->
  ash t = upd [K; Zn; Zn] ax (Z.of_nat (nth r cn 0)) /\
  forall idx, in_bounds (upd [K; Zn; Zn] ax (Z.of_nat (nth r cn 0))) idx -> adat t idx = G' (move_axis_idx ax (Z.of_nat (psum cn r)) idx).
Proof.
  intros E. unfold rep in Ry. rewrite Gy, Sy in Ry. destruct Ry as (_ & _ & _ & _ & _ & H). specialize (H r t E).
  rewrite psum_zsum_nat in H. replace (nth r (map Z.of_nat cn) 0%Z) with (Z.of_nat (nth r cn 0)) in H; [exact H|].
  change 0%Z with (Z.of_nat 0). now rewrite map_nth.
Qed.
Lemma locals_len : length (d_locals y) = PP.
Proof. unfold rep in Ry. destruct Ry as [L _]. rewrite map_length, cn_len in L. exact L. Qed.
Lemma counts_y : stack_counts ax y = cn.
Proof.
  apply (nth_ext _ _ 0 0); [unfold stack_counts; now rewrite map_length, locals_len, cn_len|].
  intros r Hr. unfold stack_counts in *. rewrite map_length in Hr.
  destruct (nth_error (d_locals y) r) as [t|] eqn:E; [|apply nth_error_None in E; lia].
  rewrite (nth_indep _ 0 ((fun t => Z.to_nat (nth ax (ash t) 0%Z)) t)) by (now rewrite map_length). rewrite (map_nth (fun t => Z.to_nat (nth ax (ash t) 0%Z))).
  rewrite (nth_error_nth _ _ _ E). destruct (piece r t E) as [-> _]. unfold ax. destruct rows; cbn [upd nth]; lia.
Qed.
Lemma slice_rel k : (Z.of_nat k < K)%Z -> Rel f0 n rows cn (map (fun t => slice_of t k) (d_locals y)) (fun i j => G' [Z.of_nat k; Z.of_nat i; Z.of_nat j]).
Proof.
  intros Hk. split; [unfold GaussModel.P; now rewrite map_length, locals_len, cn_len|]. intros r a b Hr. unfold GaussModel.P in Hr. rewrite cn_len in Hr.
  destruct (nth_error (d_locals y) r) as [t|] eqn:E; [|apply nth_error_None in E; rewrite locals_len in E; lia].
  assert (EL : loc f0 (map (fun t => slice_of t k) (d_locals y)) r = slice_of t k).
  { unfold loc. rewrite (nth_indep _ _ ((fun t => slice_of t k) t)) by (rewrite map_length, locals_len; auto). rewrite (map_nth (fun t => slice_of t k)). now rewrite (nth_error_nth _ _ _ E). }
  rewrite EL. unfold slice_of. destruct (piece r t E) as [_ H]. unfold ax in H. destruct rows; cbn [upd] in H; intros Ha Hb;
  (rewrite H by (repeat constructor; lia)); unfold move_axis_idx; cbn [upd nth]; f_equal; unfold GaussModel.displ; repeat f_equal; lia.
Qed.
End Reshaped.

Lemma checked_ok {B} (x : dnd F) (k : nat -> res B) : d_gshape x = ld ++ [Zn; Zn] -> checked x k = k n.
Proof.
  intros E. unfold checked. rewrite E, app_length. cbn [length]. destruct (Nat.ltb_spec (length ld + 2) 2); [lia|].
  rewrite !app_nth2 by lia. replace (length ld + 2 - 2 - length ld) with 0 by lia. replace (length ld + 2 - 1 - length ld) with 1 by lia. cbn [nth].
  rewrite Z.eqb_refl. cbn. now rewrite Nat2Z.id.
Qed.
Lemma reshape_stack x cnts G s : rep x cnts G -> 0 < length cnts -> d_gshape x = ld ++ [Zn; Zn] -> 0 < n -> d_split x = Some s -> length ld <= s ->
  exists y x' G', reshape f0 x [-1; Zn; Zn]%Z (AxInt (Z.of_nat (s - length ld + 1))) = Ok (y, x') /\
    d_gshape y = [zprod ld; Zn; Zn] /\ d_split y = Some (s - length ld + 1) /\
    rep y (map Z.of_nat (counts_of n (length cnts))) G' /\
    map G' (row_major [zprod ld; Zn; Zn]) = map G (row_major (ld ++ [Zn; Zn])) /\ (s = length ld \/ s = length ld + 1).
Proof.
  intros R HP Eg Hn Es Hs.
  assert (R' := R). unfold rep in R'. rewrite Es, Eg in R'. destruct R' as (_ & FZ & Hlt & _). rewrite app_length in Hlt. cbn [length] in Hlt.
  assert (Z0 : (0 <= zprod ld)%Z).
  { apply Forall_app in FZ as [FZ _]. clear -FZ. induction FZ; cbn; [lia|nia]. }
  assert (NP : np_shape (d_gshape x) [-1; Zn; Zn]%Z = Ok [zprod ld; Zn; Zn]).
  { pose proof (C36_inferred (d_gshape x) [] [Zn; Zn]) as I. cbn [app zprod] in I. rewrite I.
    - f_equal. f_equal. rewrite Eg, zprod_app. cbn [zprod]. rewrite Z.mul_1_r. apply Z.div_mul. nia.
    - repeat constructor; lia.
    - rewrite Eg. exact FZ.
    - nia.
    - rewrite Eg, zprod_app. cbn [zprod]. exists (zprod ld). lia. }
  destruct (C36_reshape_partial F f0 x G cnts _ _ (AxInt (Z.of_nat (s - length ld + 1))) R HP NP) as (y & x' & c' & c'' & G' & E & _ & _ & Gy & Sy & Ry & M & C & _).
  { left. unfold valid_axis. cbn [length]. lia. }
  { right. left. discriminate. }
  cbn [length] in Sy. assert (EN : norm 3 (Z.of_nat (s - length ld + 1)) = s - length ld + 1) by (unfold norm; destruct (Z.ltb_spec (Z.of_nat (s - length ld + 1)) 0); lia).
  rewrite EN in Sy. cbn [Nat.eqb] in Sy. specialize (C _ Sy).
  assert (EC : Z.to_nat (nth (s - length ld + 1) [zprod ld; Zn; Zn] 0%Z) = n).
  { assert (D : s - length ld + 1 = 1 \/ s - length ld + 1 = 2) by lia. destruct D as [-> | ->]; cbn [nth]; lia. }
  rewrite EC in C. subst c'. exists y, x', G'. rewrite Eg in M. repeat (split; [auto|]). lia.
Qed.

Lemma rep_intro {A} (x : dnd A) cnts G : represents G (d_gshape x) (d_split x) cnts (d_locals x) -> rep x cnts G.
Proof. auto. Qed.

Hypothesis det_ext : forall M M', same M M' -> tdet n M = tdet n M'.
Hypothesis inv_ext : forall M M', same M M' -> tinv n M = tinv n M'.
Section Det.
Variable DetOK : (nat -> nat -> F) -> F -> Prop.
Hypothesis DetOK_ext : forall M M' v, same M M' -> DetOK M v -> DetOK M' v.
Hypothesis gdet_ok : forall M, DetOK M (gdet1 M).

Theorem det_top x cnts G : rep x cnts G -> 0 < length cnts -> d_gshape x = ld ++ [Zn; Zn] ->
  (distributed x = false \/ (exists s, d_split x = Some s /\ s < length ld) \/ 0 < n) ->
  ((distributed x = false \/ exists s, d_split x = Some s /\ s < length ld) -> forall M, DetOK M (tdet n M)) ->
  exists y cnts' G', det x = Ok y /\ d_gshape y = ld /\ rep y cnts' G' /\
    d_split y = (if distributed x then match d_split x with Some s => if s <? length ld then Some s else None | None => None end else None) /\
    forall idx, in_bounds ld idx -> DetOK (mat_of G idx) (G' idx).
Proof.
  intros R HP Eg Hcase Htd. unfold GaussModel.det. rewrite (checked_ok x _ Eg). rewrite Eg, lead_app, app_length. cbn [length].
  replace (length ld + 2 - 2) with (length ld) by lia.
  assert (FL : Forall (fun z => (0 <= z)%Z) ld) by (destruct R as (_ & FZ & _); rewrite Eg in FZ; now apply Forall_app in FZ as [FZ _]).
  destruct (distributed x) eqn:ED.
  2:{ (* not distributed *)
      eexists _, cnts, (fun idx => tdet n (mat_of G idx)). split; [reflexivity|]. split; [reflexivity|]. split; [|split; [reflexivity|intros idx _; apply Htd; now left]].
      apply rep_intro. cbn [d_gshape d_split d_locals]. destruct R as (L & FZ & H). split; [now rewrite map_length|]. split; [auto|].
      intros t' Ht'. apply in_map_iff in Ht' as (t & <- & Ht).
      assert (AG : agrees t (ld ++ [Zn; Zn]) G).
      { rewrite Eg in H. destruct (d_split x) as [s|] eqn:Es; [|now apply H].
        destruct H as (H1 & H2 & H3 & H4). unfold distributed in ED. rewrite Es in ED. apply Nat.ltb_ge in ED. rewrite L in ED.
        destruct cnts as [|c [|]]; cbn in HP, ED; try lia. cbn in H3. apply In_nth_error in Ht as (r & Er).
        assert (r = 0) as -> by (assert (nth_error (d_locals x) r <> None) as N by congruence; apply nth_error_Some in N; cbn in L; lia).
        destruct (H4 0 t Er) as [A1 A2]. cbn [nth firstn] in A1, A2. cbn in H3. 
        assert (EU : upd (ld ++ [Zn; Zn]) s c = ld ++ [Zn; Zn]).
        { replace c with (nth s (ld ++ [Zn; Zn]) 0%Z) by lia. clear. generalize (ld ++ [Zn; Zn]). intros l. revert s. induction l as [|z l IH]; intros [|s]; cbn; auto. now rewrite IH. }
        rewrite EU in A1, A2. split; [exact A1|]. intros idx Hi. rewrite A2 by auto. f_equal. unfold move_axis_idx. cbn. rewrite Z.add_0_r.
        clear. revert s. induction idx as [|z l IH]; intros [|s]; cbn; auto. now rewrite IH. }
      destruct AG as [A1 A2]. split; [cbn [ash]; rewrite A1; apply lead_app|]. intros idx Hi. cbn [adat]. apply det_ext.
      intros i j Hi' Hj'. unfold mat_at, mat_of. apply A2. apply in_bounds_app; [auto|now apply in_bounds_2]. }
  destruct (d_split x) as [s|] eqn:Es; [|unfold distributed in ED; rewrite Es in ED; discriminate].
  destruct (Nat.ltb_spec s (length ld)) as [Hs|Hs].
  - (* the stack is distributed *)
    eexists _, cnts, (fun idx => tdet n (mat_of G idx)). split; [reflexivity|]. split; [reflexivity|]. split; [|split; [reflexivity|intros idx _; apply Htd; right; now exists s]].
    apply rep_intro. cbn [d_gshape d_split d_locals]. destruct R as (L & FZ & H). rewrite Es, Eg in H. destruct H as (H1 & H2 & H3 & H4).
    split; [now rewrite map_length|]. split; [auto|]. split; [auto|]. split; [auto|]. split; [rewrite app_nth1 in H3 by auto; auto|].
    intros r t' Et'. rewrite nth_error_map in Et'. destruct (nth_error (d_locals x) r) as [t|] eqn:Et; [|discriminate]. injection Et' as <-.
    destruct (H4 r t Et) as [A1 A2]. rewrite upd_app_l in A1, A2 by auto. split; [cbn [ash]; rewrite A1; apply lead_app|].
    intros idx Hi. cbn [adat]. apply det_ext. intros i j Hi' Hj'. unfold mat_at, mat_of.
    assert (Li := in_bounds_length _ _ Hi). rewrite upd_len in Li.
    rewrite A2 by (apply in_bounds_app; [auto|now apply in_bounds_2]). f_equal. unfold move_axis_idx. rewrite app_nth1 by lia. rewrite upd_app_l by lia. reflexivity.
  - (* the matrices are distributed *)
    assert (Hn : 0 < n) by (destruct Hcase as [H|[(s' & E & H)|H]]; [discriminate|injection E as <-; lia|auto]).
    destruct (reshape_stack x cnts G s R HP Eg Hn Es Hs) as (y & x' & G' & -> & Gy & Sy & Ry & M & Ds). cbn [bind fst].
    set (rows := Nat.eqb s (length ld)). assert (Eax : s - length ld + 1 = if rows then 1 else 2) by (unfold rows; destruct Ds as [-> | ->]; destruct (Nat.eqb_spec (length ld) (length ld)), (Nat.eqb_spec (length ld + 1) (length ld)); lia).
    rewrite Eax in *. rewrite (counts_y y rows G' (zprod ld) (length cnts) HP Gy Sy Ry). rewrite Gy. cbn [nth].
    assert (Z0 : (0 <= zprod ld)%Z) by (clear -FL; induction FL; cbn; [lia|nia]).
    set (ds := map _ (seq 0 (Z.to_nat (zprod ld)))). rewrite Z2Nat.id by auto.
    set (adet := mk_dnd _ [zprod ld] None).
    assert (Ra : rep adet cnts (fun i => nth (Z.to_nat (nth 0 i 0%Z)) ds f1)).
    { apply rep_intro. unfold adet. cbn [d_gshape d_split d_locals]. split; [rewrite map_length, (locals_len y G' _ Ry); reflexivity|].
      split; [repeat constructor; auto|]. intros t Ht. apply in_map_iff in Ht as (u & <- & _). split; [reflexivity|]. reflexivity. }
    assert (NP : np_shape (d_gshape adet) ld = Ok ld) by (apply np_shape_exact; [auto|cbn; lia]).
    destruct (C36_reshape_partial F f0 adet _ cnts ld ld AxNone Ra HP NP I) as (z & z' & c1 & c2 & G2 & -> & _ & _ & Gz & Sz & Rz & Mz & _); [now left|].
    cbn [bind fst]. exists z, c1, G2. split; [reflexivity|]. split; [auto|]. split; [auto|]. split; [rewrite Sz; cbn; destruct (length ld =? 0); reflexivity|].
    intros idx Hi. pose proof (dot_bounds _ _ Hi) as DB.
    assert (E2 : G2 idx = nth (Z.to_nat (dot idx (cstrides ld))) ds f1).
    { pose proof (f_equal (fun l => nth (Z.to_nat (dot idx (cstrides ld))) l (G2 [])) Mz) as E2. cbn beta in E2.
      rewrite map_nth, (row_major_ravel _ _ [] Hi) in E2. rewrite E2. cbn [d_gshape adet].
      assert (B1 : in_bounds [zprod ld] [dot idx (cstrides ld)]) by (repeat constructor; lia).
      pose proof (row_major_ravel _ _ [] B1) as R1. cbn [cstrides dot zprod] in R1. replace (dot idx (cstrides ld) * 1 + 0)%Z with (dot idx (cstrides ld)) in R1 by lia.
      rewrite (nth_indep _ _ ((fun i => nth (Z.to_nat (nth 0 i 0%Z)) ds f1) [])).
      - rewrite (map_nth (fun i => nth (Z.to_nat (nth 0 i 0%Z)) ds f1)). rewrite R1. reflexivity.
      - rewrite map_length. pose proof (row_major_length [zprod ld] ltac:(repeat constructor; auto)) as RL. cbn [zprod] in RL. lia. }
    rewrite E2. unfold ds. rewrite nth_map_seq by lia.
    apply (DetOK_ext (fun i j => G' [dot idx (cstrides ld); Z.of_nat i; Z.of_nat j])).
    { intros i j Hi' Hj'. apply (stack_nth G G' (zprod ld)); auto. }
    rewrite (det_one_rel f0 f1 fadd fmul fdiv fopp isclose n rows (counts_of n (length cnts)) (counts_of_sum n HP) _ (fun i j => G' [dot idx (cstrides ld); Z.of_nat i; Z.of_nat j])).
    + apply gdet_ok.
    + pose proof (slice_rel y rows G' (zprod ld) (length cnts) HP Gy Sy Ry (Z.to_nat (dot idx (cstrides ld))) ltac:(lia)) as SR. rewrite Z2Nat.id in SR by lia. exact SR.
Qed.
End Det.
Section Invert.
Variable InvOK : (nat -> nat -> F) -> (nat -> nat -> F) -> Prop.
Variable Bad : (nat -> nat -> F) -> exn -> Prop.
Hypothesis InvOK_ext : forall M M' N N', same M M' -> same N N' -> InvOK M N -> InvOK M' N'.
Hypothesis Bad_ext : forall M M' e, same M M' -> Bad M e -> Bad M' e.
Hypothesis ginv_ok : forall M, match ginv M with Ok N => InvOK M N | Err e => Bad M e end.

Definition Gres (G : list Z -> F) (idx : list Z) : F :=
  match tinv n (mat_of G (lead idx)) with
  | Ok N => N (Z.to_nat (nth (length idx - 2) idx 0%Z)) (Z.to_nat (nth (length idx - 1) idx 0%Z))
  | Err _ => f0
  end.
Lemma last2 (idx : list Z) a b : nth (length (idx ++ [a; b]) - 2) (idx ++ [a; b]) 0%Z = a /\ nth (length (idx ++ [a; b]) - 1) (idx ++ [a; b]) 0%Z = b.
Proof.
  rewrite app_length. cbn [length]. rewrite !app_nth2 by lia.
  replace (length idx + 2 - 2 - length idx) with 0 by lia. replace (length idx + 2 - 1 - length idx) with 1 by lia. auto.
Qed.
Lemma Gres_at G idx (a b : Z) : Gres G (idx ++ [a; b]) = match tinv n (mat_of G idx) with Ok N => N (Z.to_nat a) (Z.to_nat b) | Err _ => f0 end.
Proof. unfold Gres. rewrite lead_app2. destruct (last2 idx a b) as [-> ->]. reflexivity. Qed.
Lemma torch_ok t l (G : list Z -> F) : agrees t (l ++ [Zn; Zn]) G -> Forall (fun z => (0 <= z)%Z) l ->
  match torch_inverse f0 tinv n t with
  | Ok t' => agrees t' (l ++ [Zn; Zn]) (Gres G) /\ forall idx, in_bounds l idx -> exists N, tinv n (mat_of G idx) = Ok N
  | Err e => exists idx, in_bounds l idx /\ tinv n (mat_of G idx) = Err e
  end.
Proof.
  intros [A1 A2] FZ. unfold torch_inverse. rewrite A1, lead_app2.
  assert (E : forall idx, in_bounds l idx -> tinv n (mat_at t idx) = tinv n (mat_of G idx)).
  { intros idx Hi. apply inv_ext. intros i j Hi' Hj'. unfold mat_at, mat_of. apply A2. apply in_bounds_app; [auto|now apply in_bounds_2]. }
  pose proof (all_ok_err (fun i => tinv n (mat_at t i)) (fun i N => tinv n (mat_of G i) = Ok N) (fun i e => tinv n (mat_of G i) = Err e) (row_major l)) as H.
  destruct (all_ok (map (fun i => tinv n (mat_at t i)) (row_major l))) as [xs|e]; cbn [bind].
  - assert (F2 : Forall2 (fun i N => tinv n (mat_of G i) = Ok N) (row_major l) xs).
    { apply H. intros i Hi. apply in_row_major in Hi. rewrite <- (E i Hi). destruct (tinv n (mat_at t i)); auto. }
    clear H.
    assert (K : forall idx, in_bounds l idx -> tinv n (mat_of G idx) = Ok (nth (Z.to_nat (ravel l idx)) xs (fun _ _ => f0))).
    { intros idx Hi. pose proof (row_major_ravel _ _ [] Hi) as RR. pose proof (dot_bounds _ _ Hi) as DB. pose proof (row_major_length _ FZ) as RL.
      assert (Q : Z.to_nat (ravel l idx) < length (row_major l)) by (unfold ravel; lia).
      pose proof (Forall2_len' _ _ _ F2) as L2.
      assert (GG : forall k, k < length (row_major l) -> tinv n (mat_of G (nth k (row_major l) [])) = Ok (nth k xs (fun _ _ => f0))).
      { clear -F2. induction F2 as [|i N is xs HN F2 IH]; intros [|k] Hk; cbn in *; try lia; [auto|]. apply IH. lia. }
      specialize (GG _ Q). unfold ravel in *. rewrite RR in GG. exact GG. }
    split; [|intros idx Hi; rewrite (K idx Hi); eauto].
    split; [reflexivity|]. intros idx Hi. apply in_bounds_app_inv in Hi as (i & a & b & -> & Hi & Ha & Hb). cbn [adat].
    rewrite Gres_at, (K i Hi). rewrite lead_app2. destruct (last2 i a b) as [-> ->]. reflexivity.
  - assert (F2 : exists i, In i (row_major l) /\ tinv n (mat_of G i) = Err e).
    { apply H. intros i Hi. apply in_row_major in Hi. rewrite <- (E i Hi). destruct (tinv n (mat_at t i)); auto. }
    destruct F2 as (i & Hi & B). exists i. split; [now apply in_row_major|auto].
Qed.

Theorem inv_top x cnts G : rep x cnts G -> 0 < length cnts -> d_gshape x = ld ++ [Zn; Zn] ->
  (distributed x = false \/ (exists s, d_split x = Some s /\ s < length ld) \/ 0 < n) ->
  ((distributed x = false \/ exists s, d_split x = Some s /\ s < length ld) -> forall M, match tinv n M with Ok N => InvOK M N | Err e => Bad M e end) ->
  match inv x with
  | Ok y => exists cnts' G', d_gshape y = d_gshape x /\ d_split y = d_split x /\ rep y cnts' G' /\
      forall idx, in_bounds ld idx -> InvOK (mat_of G idx) (mat_of G' idx)
  | Err e => exists idx, in_bounds ld idx /\ Bad (mat_of G idx) e
  end.
Proof.
  intros R HP Eg Hcase Hti. unfold GaussModel.inv. rewrite (checked_ok x _ Eg).
  assert (EL : length (d_gshape x) - 2 = length ld) by (rewrite Eg, app_length; cbn [length]; lia). rewrite EL.
  assert (FL : Forall (fun z => (0 <= z)%Z) ld) by (destruct R as (_ & FZ & _); rewrite Eg in FZ; now apply Forall_app in FZ as [FZ _]).
  assert (TI : (distributed x = false \/ exists s, d_split x = Some s /\ s < length ld) -> forall idx N, tinv n (mat_of G idx) = Ok N -> InvOK (mat_of G idx) (mat_of (Gres G) idx)).
  { intros HD idx N E. apply (InvOK_ext (mat_of G idx) _ N); [now intros ? ?| |pose proof (Hti HD (mat_of G idx)) as T; rewrite E in T; exact T].
    intros i j Hi Hj. unfold mat_of at 1. rewrite Gres_at, E, !Nat2Z.id. reflexivity. }
  assert (TB : (distributed x = false \/ exists s, d_split x = Some s /\ s < length ld) -> forall idx e, tinv n (mat_of G idx) = Err e -> Bad (mat_of G idx) e).
  { intros HD idx e E. pose proof (Hti HD (mat_of G idx)) as T. rewrite E in T. exact T. }
  destruct (distributed x) eqn:ED.
  2:{ specialize (TI (or_introl eq_refl)). specialize (TB (or_introl eq_refl)). pose proof (undist_agrees x cnts G R HP ED) as AG. rewrite Eg in AG.
      pose proof (all_ok_err (torch_inverse f0 tinv n) (fun t t' => agrees t' (ld ++ [Zn; Zn]) (Gres G) /\ forall idx, in_bounds ld idx -> exists N, tinv n (mat_of G idx) = Ok N)
        (fun t e => exists idx, in_bounds ld idx /\ tinv n (mat_of G idx) = Err e) (d_locals x)) as H.
      specialize (H (fun t Ht => torch_ok t ld G (AG t Ht) FL)).
      destruct (all_ok (map (torch_inverse f0 tinv n) (d_locals x))) as [ls|e]; cbn [bind].
      - exists cnts, (Gres G). cbn [d_gshape d_split]. split; [auto|]. split; [reflexivity|]. split.
        + apply (undist_rep x cnts G); auto; [symmetry; apply (Forall2_len' _ _ _ H)|]. rewrite Eg. intros t Ht.
          apply In_nth_error in Ht as (r & Er). clear -H Er. revert r Er. induction H as [|a b la lb Hab H IH]; intros [|r] Er; try discriminate; [injection Er as <-; apply Hab|eauto].
        + intros idx Hi. destruct R as (L & _). destruct (d_locals x) as [|t ts]; [cbn in L; lia|]. inversion H as [|? ? ? ? Hab]; subst.
          destruct Hab as [_ K]. destruct (K idx Hi) as (N & E). eauto.
      - destruct H as (t & _ & idx & Hi & E). eauto. }
  destruct (d_split x) as [s|] eqn:Es; [|unfold distributed in ED; rewrite Es in ED; discriminate].
  destruct (Nat.ltb_spec s (length ld)) as [Hs|Hs].
  - (* the stack is distributed *)
    specialize (TI (or_intror (ex_intro _ s (conj eq_refl Hs)))). specialize (TB (or_intror (ex_intro _ s (conj eq_refl Hs)))).
    assert (R' := R). unfold rep in R'. rewrite Es, Eg in R'. destruct R' as (L & FZ & H1 & H2 & H3 & H4). rewrite app_nth1 in H3 by auto.
    assert (PR : forall t, In t (d_locals x) -> exists r, r < length cnts /\ nth_error (d_locals x) r = Some t).
    { intros t Ht. apply In_nth_error in Ht as (r & Er). exists r. split; [|auto]. rewrite <- L. apply nth_error_Some. congruence. }
    set (shift := fun r idx => move_axis_idx s (zsum (firstn r cnts)) idx).
    assert (LB : forall r idx, r < length cnts -> in_bounds (upd ld s (nth r cnts 0%Z)) idx -> in_bounds ld (shift r idx)).
    { intros r idx Hr Hi. apply in_bounds_split in Hi as (Li & Hi & Hc); [|auto]. apply in_bounds_nth. unfold shift, move_axis_idx. rewrite upd_len. split; [auto|].
      intros q Hq. destruct (Nat.eq_dec s q) as [<-|N]; [|rewrite nth_upd_other by auto; auto]. rewrite nth_upd_same by lia.
      assert (HS := zsum_prefix cnts r H2 Hr). lia. }
    assert (SH : forall r idx, r < length cnts -> in_bounds (upd ld s (nth r cnts 0%Z)) idx -> forall i j, mat_of (fun k => G (shift r k)) idx i j = mat_of G (shift r idx) i j).
    { intros r idx Hr Hi i j. unfold mat_of, shift, move_axis_idx. apply in_bounds_length in Hi. rewrite upd_len in Hi. rewrite app_nth1 by lia. rewrite upd_app_l by lia. reflexivity. }
    assert (TQ : forall r t, nth_error (d_locals x) r = Some t -> r < length cnts -> 
      match torch_inverse f0 tinv n t with
      | Ok t' => agrees t' (upd (ld ++ [Zn; Zn]) s (nth r cnts 0%Z)) (fun idx => Gres G (shift r idx)) /\ (forall idx, in_bounds (upd ld s (nth r cnts 0%Z)) idx -> exists N, tinv n (mat_of G (shift r idx)) = Ok N)
      | Err e => exists idx, in_bounds ld idx /\ tinv n (mat_of G idx) = Err e
      end).
    { intros r t Et Hr. pose proof (H4 r t Et) as AG. rewrite upd_app_l in AG by auto. rewrite upd_app_l by auto.
      assert (FU : Forall (fun z => (0 <= z)%Z) (upd ld s (nth r cnts 0%Z))).
      { apply Forall_forall. intros z Hz. apply (In_nth _ _ 0%Z) in Hz as (q & Hq & <-). rewrite upd_len in Hq. rewrite Forall_forall in FL, H2.
        destruct (Nat.eq_dec s q) as [<-|N]; [rewrite nth_upd_same by auto; apply H2; now apply nth_In|rewrite nth_upd_other by auto; apply FL; now apply nth_In]. }
      pose proof (torch_ok t _ _ AG FU) as T. destruct (torch_inverse f0 tinv n t) as [t'|e].
      - destruct T as [[T1 T2] T3]. split.
        + split; [auto|]. intros idx Hi. rewrite T2 by auto. apply in_bounds_app_inv in Hi as (i & a & b & -> & Hi & Ha & Hb).
          unfold shift, move_axis_idx. pose proof (in_bounds_length _ _ Hi) as Li. rewrite upd_len in Li. rewrite app_nth1 by lia. rewrite upd_app_l by lia.
          rewrite !Gres_at. rewrite (inv_ext _ (mat_of G (shift r i))); [reflexivity|]. intros i' j' _ _. apply (SH r i); auto.
        + intros idx Hi. destruct (T3 idx Hi) as (N & E). exists N. rewrite <- E. apply inv_ext. intros i' j' _ _. symmetry. apply (SH r idx); auto.
      - destruct T as (idx & Hi & E). exists (shift r idx). split; [now apply LB|]. rewrite <- E. apply inv_ext. intros i' j' _ _. symmetry. apply (SH r idx); auto. }
    pose proof (all_ok_err (torch_inverse f0 tinv n) (fun t t' => torch_inverse f0 tinv n t = Ok t') (fun t e => torch_inverse f0 tinv n t = Err e) (d_locals x)) as H.
    assert (HH : forall t, In t (d_locals x) -> match torch_inverse f0 tinv n t with Ok y => torch_inverse f0 tinv n t = Ok y | Err e => torch_inverse f0 tinv n t = Err e end) by (intros t _; destruct (torch_inverse f0 tinv n t); reflexivity). specialize (H HH). clear HH.
    destruct (all_ok (map (torch_inverse f0 tinv n) (d_locals x))) as [ls|e]; cbn [bind].
    + assert (NE : forall r t', nth_error ls r = Some t' -> exists t, nth_error (d_locals x) r = Some t /\ torch_inverse f0 tinv n t = Ok t').
      { clear -H. induction H as [|a b la lb Hab H IH]; intros [|r] t' Er; try discriminate; cbn in *; [injection Er as <-; eauto|eauto]. }
      exists cnts, (Gres G). cbn [d_gshape d_split]. split; [auto|]. split; [reflexivity|]. split.
      * unfold rep. cbn [d_gshape d_split d_locals]. rewrite Eg. split; [rewrite <- L; symmetry; apply (Forall2_len' _ _ _ H)|]. split; [auto|]. split; [auto|]. split; [auto|]. split; [rewrite app_nth1 by auto; auto|].
        intros r t' Er. destruct (NE r t' Er) as (t & Et & E). assert (Hr : r < length cnts) by (rewrite <- L; apply nth_error_Some; congruence).
        specialize (TQ r t Et Hr). rewrite E in TQ. apply TQ.
      * intros idx Hi. assert (Li := in_bounds_length _ _ Hi). apply in_bounds_nth in Hi as [_ Hi]. pose proof (Hi s Hs) as His. rewrite <- H3 in His.
        destruct (zlocate cnts H2 _ His) as (r & Hr & Hb).
        destruct (nth_error (d_locals x) r) as [t|] eqn:Et; [|apply nth_error_None in Et; lia].
        assert (exists t', torch_inverse f0 tinv n t = Ok t') as (t' & E).
        { clear -H Et. revert r Et. induction H as [|a b la lb Hab H IH]; intros [|r] Et; try discriminate; cbn in *; [injection Et as <-; eauto|eauto]. }
        specialize (TQ r t Et Hr). rewrite E in TQ. destruct TQ as [_ TQ].
        destruct (TQ (upd idx s (nth s idx 0%Z - zsum (firstn r cnts))%Z)) as (N & EN).
        { apply in_bounds_split; [auto|]. rewrite upd_len. split; [auto|]. split; [intros q Hq NQ; rewrite nth_upd_other by auto; auto|rewrite nth_upd_same by lia; lia]. }
        unfold shift, move_axis_idx in EN. rewrite nth_upd_same in EN by lia. rewrite upd_upd in EN.
        replace (nth s idx 0%Z - zsum (firstn r cnts) + zsum (firstn r cnts))%Z with (nth s idx 0%Z) in EN by lia. rewrite upd_self in EN. eauto.
    + destruct H as (t & Ht & E). destruct (PR t Ht) as (r & Hr & Et). specialize (TQ r t Et Hr). rewrite E in TQ. destruct TQ as (idx & Hi & B). eauto.
  - (* the matrices are distributed *)
    assert (Hn : 0 < n) by (destruct Hcase as [H|[(s' & E & H)|H]]; [discriminate|injection E as <-; lia|auto]).
    destruct (reshape_stack x cnts G s R HP Eg Hn Es Hs) as (y & x' & G' & -> & Gy & Sy & Ry & M & Ds). cbn [bind fst].
    set (rows := Nat.eqb s (length ld)). assert (Eax : s - length ld + 1 = if rows then 1 else 2) by (unfold rows; destruct Ds as [-> | ->]; destruct (Nat.eqb_spec (length ld) (length ld)), (Nat.eqb_spec (length ld + 1) (length ld)); lia).
    rewrite Eax in *. rewrite (counts_y y rows G' (zprod ld) (length cnts) HP Gy Sy Ry). rewrite Gy. cbn [nth].
    assert (Z0 : (0 <= zprod ld)%Z) by (clear -FL; induction FL; cbn; [lia|nia]).
    set (cn := counts_of n (length cnts)).
    assert (LC : GaussModel.P cn = length cnts) by (unfold GaussModel.P, cn; apply counts_of_length).
    set (Mk := fun (k i j : nat) => G' [Z.of_nat k; Z.of_nat i; Z.of_nat j]).
    assert (HM : forall idx, in_bounds ld idx -> same (Mk (Z.to_nat (dot idx (cstrides ld)))) (mat_of G idx)).
    { intros idx Hi i j Hi' Hj'. unfold Mk. pose proof (dot_bounds _ _ Hi). rewrite Z2Nat.id by lia. apply (stack_nth G G' (zprod ld)); auto. }
    assert (SR : forall k, (Z.of_nat k < zprod ld)%Z -> Rel f0 n rows cn (map (fun t => slice_of t k) (d_locals y)) (Mk k)).
    { intros k Hk. apply (slice_rel y rows G' (zprod ld) (length cnts) HP Gy Sy Ry k Hk). }
    set (one := fun k => inv_one f0 f1 fadd fmul fdiv fopp isclose rows n cn (map (fun t => slice_of t k) (d_locals y))).
    assert (ONE : forall k, In k (seq 0 (Z.to_nat (zprod ld))) -> match one k with Ok X => exists N, Rel f0 n rows cn X N /\ InvOK (Mk k) N | Err e => Bad (Mk k) e end).
    { intros k Hk. apply in_seq in Hk.
      pose proof (inv_one_rel f0 f1 fadd fmul fdiv fopp isclose n rows cn (counts_of_sum n HP)) as I1.
      rewrite LC in I1. specialize (I1 eq_refl _ _ HP (SR k ltac:(lia))). fold (one k) in I1. pose proof (ginv_ok (Mk k)) as I2.
      destruct (one k), (ginv (Mk k)); try contradiction; [eauto|now subst]. }
    pose proof (all_ok_err one _ _ (seq 0 (Z.to_nat (zprod ld))) ONE) as AO.
    destruct (all_ok (map one (seq 0 (Z.to_nat (zprod ld))))) as [xs|e]; cbn [bind].
    + set (ainv := mk_dnd _ [zprod ld; Zn; Zn] (d_split y)).
      assert (NS : exists Ns : nat -> nat -> nat -> F, forall k, k < Z.to_nat (zprod ld) -> Rel f0 n rows cn (nth k xs []) (Ns k) /\ InvOK (Mk k) (Ns k)).
      { assert (AO2 : forall k, k < Z.to_nat (zprod ld) -> exists N, Rel f0 n rows cn (nth k xs []) N /\ InvOK (Mk k) N).
        { intros k Hk. assert (GG : forall l m, Forall2 (fun k X => exists N, Rel f0 n rows cn X N /\ InvOK (Mk k) N) (seq m l) xs -> forall k, k < l -> exists N, Rel f0 n rows cn (nth k xs []) N /\ InvOK (Mk (m + k)) N).
          { clear. intros l. revert xs. induction l as [|l IH]; intros xs m F2 k Hk; [lia|]. cbn in F2. inversion F2 as [|? X ? xs' HX F2']; subst. destruct k as [|k]; cbn [nth]; [rewrite Nat.add_0_r; auto|].
            replace (m + S k) with (S m + k) by lia. apply IH; [auto|lia]. }
          now apply (GG _ 0 AO k Hk). }
        (* a finite choice *)
        clear -AO2. generalize dependent (Z.to_nat (zprod ld)). intros K. induction K as [|K IH]; intros H; [exists (fun _ _ _ => f0); intros; lia|].
        destruct IH as (Ns & HN); [intros k Hk; apply H; lia|]. destruct (H K ltac:(lia)) as (N & HK).
        exists (fun k => if Nat.eqb k K then N else Ns k). intros k Hk. destruct (Nat.eqb_spec k K) as [->|D]; [auto|]. apply HN. lia. }
      destruct NS as (Ns & HN).
      set (Gi := fun i : list Z => Ns (Z.to_nat (nth 0 i 0%Z)) (Z.to_nat (nth 1 i 0%Z)) (Z.to_nat (nth 2 i 0%Z))).
      assert (LY : length (d_locals y) = length cnts) by apply (locals_len y G' _ Ry).
      assert (Ra : rep ainv (map Z.of_nat cn) Gi).
      { assert (Ry' := Ry). unfold rep in Ry'. rewrite Gy, Sy in Ry'. destruct Ry' as (Y1 & Y2 & Y3 & Y4 & Y5 & Y6).
        unfold rep, ainv. cbn [d_gshape d_split d_locals]. rewrite Sy. split; [rewrite map_length, combine_length, seq_length, Nat.min_id; exact Y1|].
        split; [auto|]. split; [auto|]. split; [auto|]. split; [auto|].
        intros r t' Et'. rewrite nth_error_map in Et'. destruct (nth_error (combine (seq 0 (length (d_locals y))) (d_locals y)) r) as [p|] eqn:Ep; [|discriminate]. injection Et' as <-.
        apply nth_error_combine_seq in Ep as [E1 E2]. rewrite E1. clear E1.
        assert (Hr : r < length cnts) by (rewrite <- LY; apply nth_error_Some; congruence).
        destruct (Y6 r _ E2) as [A1 _]. split; [exact A1|]. intros idx Hi. cbn [adat].
        rewrite psum_zsum_nat. replace (nth r (map Z.of_nat cn) 0%Z) with (Z.of_nat (nth r cn 0)) in Hi by (change 0%Z with (Z.of_nat 0); now rewrite map_nth).
        destruct rows; cbn [upd] in Hi; inversion Hi as [|? k ? l1 Hk Hi1]; subst; inversion Hi1 as [|? a ? l2 Ha Hi2]; subst; inversion Hi2 as [|? b ? l3 Hb Hi3]; subst; inversion Hi3; subst;
        unfold Gi, move_axis_idx; cbn [upd nth];
        destruct (HN (Z.to_nat k) ltac:(lia)) as [[_ HR] _]; specialize (HR r (Z.to_nat a) (Z.to_nat b) ltac:(lia)); rewrite HR by lia; unfold GaussModel.displ; f_equal; lia. }
      assert (NP : np_shape (d_gshape ainv) (d_gshape x) = Ok (d_gshape x)).
      { apply np_shape_exact; [destruct R as (_ & FZ & _); exact FZ|]. unfold ainv. cbn [d_gshape]. rewrite Eg, zprod_app. cbn [zprod]. lia. }
      assert (HPc : 0 < length (map Z.of_nat cn)) by (rewrite map_length; unfold GaussModel.P in LC; lia).
      assert (VS : s < length (d_gshape x)) by (rewrite Eg, app_length; cbn [length]; destruct Ds; lia).
      destruct (C36_reshape_partial F f0 ainv Gi (map Z.of_nat cn) (d_gshape x) (d_gshape x) (AxInt (Z.of_nat s)) Ra HPc NP) as (z & z' & c1 & c2 & G2 & -> & _ & _ & Gz & Sz & Rz & Mz & _).
      { left. unfold valid_axis. lia. }
      { right. left. rewrite Eg. destruct ld; discriminate. }
      cbn [bind fst]. exists c1, G2. split; [auto|]. split.
      { rewrite Sz. replace (length (d_gshape x) =? 0) with false by (symmetry; apply Nat.eqb_neq; lia). f_equal. unfold norm. destruct (Z.ltb_spec (Z.of_nat s) 0); lia. }
      split; [auto|]. intros idx Hi. pose proof (dot_bounds _ _ Hi) as DB.
      destruct (HN (Z.to_nat (dot idx (cstrides ld))) ltac:(lia)) as [_ IO].
      refine (InvOK_ext _ _ _ _ (HM idx Hi) _ IO). intros i j Hi' Hj'.
      rewrite <- (stack_nth G2 Gi (zprod ld) idx i j Hi Hi' Hj' eq_refl).
      * unfold Gi. cbn [nth]. now rewrite !Nat2Z.id.
      * unfold ainv in Mz. cbn [d_gshape] in Mz. rewrite Eg in Mz. now rewrite Mz.
    + destruct AO as (k & Hk & B). apply in_seq in Hk.
      (* index k of the stack *)
      set (idx := nth k (row_major ld) []).
      assert (RL := row_major_length _ FL).
      assert (Hi : in_bounds ld idx) by (apply in_row_major, nth_In; lia).
      exists idx. split; [auto|]. apply (Bad_ext (Mk k)); [|auto].
      replace k with (Z.to_nat (dot idx (cstrides ld))); [now apply HM|].
      pose proof (row_major_ravel _ _ [] Hi) as RR. pose proof (dot_bounds _ _ Hi) as DB.
      apply (proj1 (NoDup_nth (row_major ld) []) (NoDup_row_major ld)); [lia|lia|]. rewrite RR. reflexivity.
Qed.
End Invert.
End Stack.
