From Coq Require Import Permutation Sorted.
From Verif Require Import Base BaseLemmas LayoutModel LayoutProofs NdSpec TensorSpec NdLemmas TensorLemmas OpsModel OpsProofs4 RedistModel HaloModel ShapeModel ShapeSpec ShapeProofs ShapeProofs4 ShapeProps BinModel BinProofs2 ReshapeModel ReshapeProofs FactoryModel FactoryProps ConcatModel ConcatProps DiagModel DiagProps RollProps SplitProps UnfoldModel UnfoldProofs ArgModel SortSpec SortModel SortNd SortProps TopkSpec TopkModel TopkProofs.
Open Scope Z_scope.

Lemma top_map {V} (lt : V -> V -> bool) largest k (phi : V * Z -> V * Z) l c : (forall p, In p l -> fst (phi p) = fst p) ->
  top_of (ltp lt) largest k l c -> top_of (ltp lt) largest k (map phi l) (map phi c) /\ map fst (map phi c) = map fst c.
Proof.
  intros HF (L & r & P & H). assert (IC : forall p, In p c -> In p l) by (intros p Hp; rewrite <- P; apply in_or_app; auto). assert (IR : forall p, In p r -> In p l) by (intros p Hp; rewrite <- P; apply in_or_app; auto).
  split; [split; [now rewrite map_length|]; exists (map phi r); split; [rewrite <- map_app; now apply Permutation_map|]|rewrite map_map; apply map_ext_in; auto].
  intros x y Hx Hy. apply in_map_iff in Hx as (x' & <- & Hx). apply in_map_iff in Hy as (y' & <- & Hy). specialize (H x' y' Hx Hy). unfold beats, ltp in *. rewrite !HF by auto. exact H.
Qed.
Lemma top_self {V} (lt : V -> V -> bool) largest l c : Permutation c l -> top_of lt largest (length l) l c.
Proof. intros H. split; [now apply Permutation_length|]. exists []. split; [now rewrite app_nil_r|]. intros x y _ []. Qed.
Lemma numbered_length {V} (l : list V) : length (numbered l) = length l.
Proof. unfold numbered, zr. rewrite combine_length, !map_length, seq_length. lia. Qed.
Lemma numbered_fst {V} (l : list V) : map fst (numbered l) = l.
Proof.
  unfold numbered, zr. rewrite Nat2Z.id. generalize 0%nat. induction l as [|a l IH]; intros b; [reflexivity|]. cbn [length seq map combine fst]. f_equal. apply IH.
Qed.
Lemma nth_zr m i : (i < Z.to_nat m)%nat -> nth i (zr m) 0 = Z.of_nat i.
Proof. intros H. unfold zr. change 0 with (Z.of_nat 0). rewrite map_nth, seq_nth by auto. auto. Qed.
Lemma numbered_at {V} (l : list V) p dv : In p (numbered l) -> 0 <= snd p < Z.of_nat (length l) /\ fst p = nth (Z.to_nat (snd p)) l dv.
Proof.
  intros H. apply (In_nth _ _ (dv, 0)) in H as (i & Hi & <-). rewrite numbered_length in Hi. unfold numbered. rewrite combine_nth by (unfold zr; rewrite map_length, seq_length; lia). cbn [fst snd].
  rewrite nth_zr by lia. rewrite Nat2Z.id. split; [lia|auto].
Qed.
Lemma lane_agree {V} (G : list Z -> V) gsh s cnts ls r t idx : represents G gsh (Some s) cnts ls -> nth_error ls r = Some t -> in_bounds (upd gsh s 1) idx ->
  lane_of s t idx = map (fun i => G (upd idx s (zsum (firstn r cnts) + i))) (zr (nth r cnts 0)).
Proof.
  intros (HLc & Hn & Hs & Hc & Hsum & HRr) Ht Hi. destruct (HRr r t Ht) as [E D]. unfold lane_of. rewrite E, upd_same by auto. apply map_ext_in. intros i Hi'. apply in_zr in Hi'.
  assert (LI := in_bounds_length _ _ Hi). rewrite upd_length in LI. rewrite D.
  - unfold move_axis_idx. rewrite upd_same by lia. rewrite upd_upd_same. f_equal. f_equal. lia.
  - apply in_bounds_upd_shape; auto. rewrite upd_length. split; [auto|]. rewrite upd_same by lia. split; [auto|]. intros k Hk Nk. rewrite upd_other by auto. apply in_bounds_upd_shape in Hi as (_ & _ & Hi); auto.
Qed.
Lemma lane_cat' {V} : forall (ls : list (list V)) (f : Z -> V) cs o, (forall c, In c cs -> 0 <= c) -> length ls = length cs ->
  (forall r, (r < length ls)%nat -> nth r ls [] = map (fun i => f (o + zsum (firstn r cs) + i)) (zr (nth r cs 0))) -> concat ls = map (fun i => f (o + i)) (zr (zsum cs)).
Proof.
  intros ls f. induction ls as [|l ls IH]; intros [|c cs] o Hc HL H; try discriminate; [reflexivity|]. cbn [concat].
  assert (H0 := H 0%nat ltac:(cbn; lia)). cbn [nth firstn] in H0. change (zsum []) with 0 in H0. rewrite Z.add_0_r in H0. rewrite H0.
  assert (CS : 0 <= zsum cs) by (apply zsum_nonneg; apply Forall_forall; intros; apply Hc; right; auto).
  rewrite (IH cs (o + c)); [|intros; apply Hc; right; auto|cbn in HL; lia|].
  - change (zsum (c :: cs)) with (c + zsum cs). rewrite zr_app by (auto; apply Hc; left; auto). rewrite map_app. f_equal. rewrite map_map. apply map_ext. intros i. f_equal. lia.
  - intros r Hr. specialize (H (S r) ltac:(cbn; lia)). cbn [nth] in H. rewrite H. apply map_ext. intros i. f_equal. change (firstn (S r) (c :: cs)) with (c :: firstn r cs). change (zsum (c :: firstn r cs)) with (c + zsum (firstn r cs)). lia.
Qed.
Lemma lane_whole {V} (G : list Z -> V) gsh s cnts ls idx : represents G gsh (Some s) cnts ls -> in_bounds (upd gsh s 1) idx ->
  concat (map (fun t => lane_of s t idx) ls) = lane G s (nth s gsh 0) idx.
Proof.
  intros HR Hi. pose proof HR as (HLc & Hn & Hs & Hc & Hsum & HRr). rewrite (lane_cat' (map (fun t => lane_of s t idx) ls) (fun i => G (upd idx s i)) cnts 0).
  - unfold lane. now rewrite Hsum.
  - intros c H. rewrite Forall_forall in Hc. auto.
  - now rewrite map_length.
  - intros r Hr. rewrite map_length in Hr. destruct (nth_error ls r) as [t|] eqn:Et; [|apply nth_error_None in Et; lia]. erewrite nth_error_nth; [|rewrite nth_error_map, Et; reflexivity]. erewrite lane_agree by eauto. reflexivity.
Qed.
Lemma concat_app_perm {B} (f g : nat -> list B) l : Permutation (concat (map (fun r => f r ++ g r) l)) (concat (map f l) ++ concat (map g l)).
Proof. induction l as [|a l IH]; cbn; [auto|]. rewrite IH. rewrite <- !app_assoc. apply Permutation_app_head. rewrite !app_assoc. apply Permutation_app_tail. apply Permutation_app_comm. Qed.
Lemma concat_repeat_eq {B} (e : B) (f : nat -> nat) l : exists m, concat (map (fun r => repeat e (f r)) l) = repeat e m /\ ((forall r, In r l -> f r = 0%nat) -> m = 0%nat).
Proof.
  induction l as [|a l (m & E & H)]; [exists 0%nat; auto|]. exists (f a + m)%nat. cbn. rewrite E, <- repeat_app. split; [auto|]. intros Q. rewrite (Q a (or_introl eq_refl)), H; auto.
Qed.
Lemma map_fst_repeat {V} (p : V * Z) m : map fst (repeat p m) = repeat (fst p) m.
Proof. induction m; cbn; congruence. Qed.

Lemma nodup_app_l {B} (a b : list B) : NoDup (a ++ b) -> NoDup a.
Proof. induction a as [|x a IH]; intros H; [constructor|]. cbn in H. apply NoDup_cons_iff in H as [N H]. constructor; [|auto]. intros HI. apply N, in_or_app. auto. Qed.
Lemma upd_comm2 {A} (l : list A) : forall i j a b, i <> j -> upd (upd l i a) j b = upd (upd l j b) i a.
Proof. induction l as [|x l IH]; intros [|i] [|j] a b H; cbn; auto; try lia. f_equal. apply IH. lia. Qed.
Section D.
Context {V : Type} (dv : V) (lt : V -> V -> bool) (tk : bool -> bool -> nat -> list V -> list nat) (dbl : V -> V) (neutral : V).
Hypothesis (HW : weak_order lt) (HT : topks dv lt tk).
Variables (largest sorted : bool) (k : nat) (tree : rtree).
Variables (gsh : list Z) (s : nat) (cnts : list Z) (ls : list (arr V)) (G : list Z -> V).
Let n := nth s gsh 0.
Let P := length ls.
Hypothesis HR : represents G gsh (Some s) cnts ls.
Hypothesis HL : Permutation (leaves tree) (seq 0 P).
Hypothesis HD : forall idx, in_bounds gsh idx -> dbl (G idx) = G idx.
Hypothesis HS : (forall c, In c cnts -> Z.of_nat k <= c) /\ (0 < P)%nat \/
  length gsh = 2%nat /\ s = 1%nat /\ Z.of_nat k <= n /\ (forall a b, lt a b = false -> lt b a = false -> a = b) /\ forall idx, in_bounds gsh idx -> beats lt largest (G idx) (dbl neutral).
Let lanes idx := do ps <- all_ok (map (fun p => local_split dv tk dbl neutral largest sorted k (length gsh) s (fst p) P (lane_of s (snd p) idx)) (ranked ls)); Ok (reduce_tree (mpi_topk dv tk largest sorted k) (fun r => nth r ps []) tree).

Lemma HL_leaves r : In r (leaves tree) <-> (r < P)%nat.
Proof. split; intros H; [apply (Permutation_in _ HL), in_seq in H; lia|apply (Permutation_in _ (Permutation_sym HL)), in_seq; lia]. Qed.

Lemma topk_lane idx : in_bounds (upd gsh s 1) idx -> exists L, lanes idx = Ok L /\ top_of lt largest k (lane G s n idx) (map fst L) /\ (sorted = true -> in_order lt largest (map fst L)).
Proof.
  intros Hi. pose proof HR as (LC & NN & Hs & CN & SM & Q). assert (LI := in_bounds_length _ _ Hi). rewrite upd_length in LI.
  set (ln r := lane_of s (nth r ls (mk_arr [] (fun _ => dv))) idx).
  assert (NE : forall r, (r < P)%nat -> nth_error ls r = Some (nth r ls (mk_arr [] (fun _ => dv)))) by (intros r Hr; apply nth_error_nth'; auto).
  assert (LNE : forall r, (r < P)%nat -> ln r = map (fun i => G (upd idx s (zsum (firstn r cnts) + i))) (zr (nth r cnts 0))) by (intros r Hr; apply (lane_agree G gsh s cnts ls r); auto).
  assert (LNG : forall r v, (r < P)%nat -> In v (ln r) -> exists idx', in_bounds gsh idx' /\ v = G idx').
  { intros r v Hr Hv. rewrite LNE in Hv by auto. apply in_map_iff in Hv as (i & <- & Hz). apply in_zr in Hz. eexists. split; [|reflexivity]. apply in_bounds_nth. rewrite upd_length. split; [auto|]. intros q Hq. destruct (Nat.eq_dec q s) as [->|N].
    - rewrite upd_same by lia. assert (0 <= zsum (firstn r cnts)) by (apply zsum_nonneg, Forall_firstn', CN). assert (X : zsum (firstn (S r) cnts) <= zsum cnts) by (apply zsum_firstn_le; auto). rewrite zsum_firstn_S in X by (unfold P in Hr; lia). lia.
    - rewrite upd_other by auto. apply in_bounds_upd_shape in Hi as (_ & _ & Hi); auto. }
  assert (LNL : forall r, (r < P)%nat -> Z.of_nat (length (ln r)) = nth r cnts 0).
  { intros r Hr. rewrite LNE by auto. unfold zr. rewrite !map_length, seq_length. apply Z2Nat.id. rewrite Forall_forall in CN. apply CN, nth_In. unfold P in Hr. lia. }
  set (off r := Z.of_nat (fst (chunk_1d (length (ln r)) r P)) * Z.of_nat r).
  set (g r := map (fun v => (fst v, snd v + off r)) (numbered (ln r)) ++ repeat (dbl neutral, 0 + off r) (k - length (ln r))%nat).
  assert (LOC : forall r, (r < P)%nat -> exists f, local_split dv tk dbl neutral largest sorted k (length gsh) s r P (ln r) = Ok f /\ top_of (ltp lt) largest k (g r) f /\ (length (ln r) < k \/ (sorted = true -> in_order lt largest (map fst f)))%nat).
  { intros r Hr. unfold local_split. fold (off r). assert (NF : forall p, In p (numbered (ln r)) -> dbl (fst p) = fst p).
    { intros p Hp. apply (in_map fst) in Hp. rewrite numbered_fst in Hp. apply (LNG r _ Hr) in Hp as (i & Hi' & ->). auto. }
    destruct (Nat.ltb_spec (length (ln r)) k) as [SH|SH].
    - destruct HS as [[H _]|(H1 & H2 & _)]; [specialize (H _ (nth_In cnts 0 (n := r) ltac:(unfold P in Hr; lia))); specialize (LNL r Hr); lia|]. rewrite H1, H2. cbn [Nat.eqb andb bind]. eexists. split; [reflexivity|]. split; [|auto].
      destruct (tk_pairs_ok dv lt tk HT largest sorted (length (ln r)) (numbered (ln r))) as [A _]; [now rewrite numbered_length|].
      unfold packed. rewrite map_map, map_app. cbn [fst snd]. apply (top_map lt largest _ (fun v => (dbl (fst v), snd v + off r))) in A; [|intros p Hp; cbn [fst]; auto]. destruct A as [(A1 & rst & A2 & _) _].
      assert (RN : rst = []). { apply Permutation_length in A2. rewrite app_length, !map_length, numbered_length in A2. rewrite !map_length in A1. destruct rst; [auto|cbn in A2; lia]. }
      subst rst. rewrite app_nil_r in A2. assert (LG : length (g r) = k) by (unfold g; rewrite app_length, map_length, numbered_length, repeat_length; lia). assert (TP := fun c => top_self (ltp lt) largest (g r) c). rewrite LG in TP. apply TP. unfold g. apply Permutation_app.
      + rewrite A2. erewrite map_ext_in; [apply Permutation_refl|]. intros p Hp. cbn. now rewrite NF.
      + assert (EM : forall m, map (fun v : V * Z => (dbl (fst v), snd v + off r)) (repeat (neutral, 0) m) = repeat (dbl neutral, 0 + off r) m) by (induction m as [|m IH]; [auto|cbn [map repeat fst snd]; now rewrite IH]). rewrite EM. apply Permutation_refl.
    - cbn [bind]. eexists. split; [reflexivity|]. destruct (tk_pairs_ok dv lt tk HT largest sorted k (numbered (ln r))) as [A B]; [rewrite numbered_length; auto|].
      unfold packed. rewrite map_map. cbn [fst snd]. apply (top_map lt largest _ (fun v => (dbl (fst v), snd v + off r))) in A; [|intros p Hp; cbn [fst]; auto]. destruct A as [A1 A2]. split; [|right; intros E; rewrite A2; auto].
      unfold g. replace (k - length (ln r))%nat with 0%nat by lia. cbn [repeat]. rewrite app_nil_r. erewrite map_ext_in; [exact A1|]. intros p Hp. cbn. now rewrite NF. }
  set (fr r := match local_split dv tk dbl neutral largest sorted k (length gsh) s r P (ln r) with Ok f => f | Err _ => [] end).
  assert (PS : all_ok (map (fun p => local_split dv tk dbl neutral largest sorted k (length gsh) s (fst p) P (lane_of s (snd p) idx)) (ranked ls)) = Ok (map (fun p => fr (fst p)) (ranked ls))).
  { apply OpsProofs2.all_ok_map. intros [r t] Hp. apply In_nth_error in Hp as (q & Hp). apply ranked_nth in Hp as (E1 & E2 & E3). cbn [fst snd] in *. subst q. assert (Hr : (r < P)%nat) by (unfold P; apply nth_error_Some; congruence).
    unfold fr. destruct (LOC r Hr) as (f & Ef & _). unfold ln in Ef |- *. rewrite (nth_error_nth _ _ _ E2) in *. now rewrite Ef. }
  unfold lanes. rewrite PS. cbn [bind]. eexists. split; [reflexivity|].
  assert (NP : forall r, (r < P)%nat -> nth r (map (fun p : nat * arr V => fr (fst p)) (ranked ls)) [] = fr r).
  { intros r Hr. destruct (nth_error (ranked ls) r) as [[r' t]|] eqn:E; [|apply nth_error_None in E; rewrite ranked_length in E; unfold P in Hr; lia]. erewrite nth_error_nth; [|rewrite nth_error_map, E; reflexivity]. apply ranked_nth in E as (E & _ & _). cbn [fst] in *. now rewrite E. }
  assert (FR : forall r, (r < P)%nat -> top_of (ltp lt) largest k (g r) (fr r)) by (intros r Hr; unfold fr; destruct (LOC r Hr) as (f & -> & A & _); exact A).
  destruct (tree_ok dv lt tk HW HT largest sorted k (fun r => nth r (map (fun p : nat * arr V => fr (fst p)) (ranked ls)) []) g tree) as [A B].
  { intros r Hr. apply HL_leaves in Hr. rewrite NP by auto. auto. }
  { intros r Hr ES. assert (HL' := HL). rewrite Hr in HL'. cbn [leaves] in HL'. assert (P1 := Permutation_length HL'). rewrite seq_length in P1. cbn in P1. assert (Hr0 : (r < P)%nat) by (apply HL_leaves; rewrite Hr; left; auto). rewrite NP by auto. unfold fr. destruct (LOC r Hr0) as (f & -> & _ & [C|C]); [|auto]. exfalso.
    assert (LL := LNL r Hr0). destruct HS as [[H _]|(_ & _ & H & _)]; [specialize (H _ (nth_In cnts 0 (n := r) ltac:(unfold P in *; lia))); lia|]. assert (r = 0%nat) by lia. subst r. destruct cnts as [|c [|]]; cbn in LC; try (unfold P in *; lia). cbn [nth] in LL. change (zsum [c]) with (c + 0) in SM. unfold n in H. lia. }
  split; [|auto]. apply top_fst in A. rewrite concat_map, map_map in A.
  set (e := dbl neutral). assert (GF : forall r, map fst (g r) = ln r ++ repeat e (k - length (ln r))%nat).
  { intros r. unfold g. rewrite map_app, map_map. cbn [fst]. rewrite numbered_fst, map_fst_repeat. auto. }
  destruct (concat_repeat_eq e (fun r => k - length (ln r))%nat (seq 0 P)) as (m & EM & M0).
  assert (PM : Permutation (concat (map (fun r => map fst (g r)) (leaves tree))) (lane G s n idx ++ repeat e m)).
  { assert (X : Permutation (concat (map (fun r => map fst (g r)) (leaves tree))) (concat (map (fun r => map fst (g r)) (seq 0 P)))) by (rewrite <- !flat_map_concat_map; now apply Permutation_flat_map).
    rewrite X. rewrite (map_ext _ _ GF). rewrite concat_app_perm, EM. apply Permutation_app_tail. unfold n. rewrite <- (lane_whole G gsh s cnts ls idx HR Hi). assert (EL := map_nth_seq ls (mk_arr [] (fun _ => dv))). fold P in EL. rewrite <- EL at 1. rewrite map_map. auto. }
  apply (top_perm lt largest k _ _ _ PM) in A.
  destruct HS as [[HS1 HP]|(S1 & S2 & S3 & ANTI & NEU)].
  - rewrite M0 in A; [cbn in A; now rewrite app_nil_r in A|]. intros r Hr. apply in_seq in Hr. specialize (HS1 _ (nth_In cnts 0 (n := r) ltac:(unfold P in Hr; lia))). specialize (LNL r ltac:(lia)). lia.
  - apply (top_strip lt largest HW ANTI k (lane G s n idx) e m); auto; [|rewrite lane_length; lia].
    intros v Hv. unfold lane in Hv. apply in_map_iff in Hv as (i & <- & Hz). apply in_zr in Hz. apply NEU. apply in_bounds_nth. rewrite upd_length. split; [auto|]. intros q Hq. destruct (Nat.eq_dec q s) as [->|N]; [rewrite upd_same by lia; exact Hz|]. rewrite upd_other by auto. apply in_bounds_upd_shape in Hi as (_ & _ & Hi); auto.
Qed.

Definition TD (idx : list Z) : V * Z := match lanes idx with Ok l => nth (Z.to_nat (nth s idx 0)) l (dv, 0) | Err _ => (dv, 0) end.
Lemma tlanes_upd idx v : lanes (upd idx s v) = lanes idx.
Proof. unfold lanes. erewrite map_ext; [reflexivity|]. intros p. cbv beta. now rewrite lane_of_upd. Qed.
Lemma TD_top : top_along lt largest sorted s k gsh G TD.
Proof.
  intros idx Hi. destruct (topk_lane idx Hi) as (L & E & A & B). assert (LI := in_bounds_length _ _ Hi). rewrite upd_length in LI. pose proof HR as (_ & _ & Hs & _).
  assert (LL : length L = k) by (destruct A as [A _]; now rewrite map_length in A).
  assert (EQ : lane TD s (Z.of_nat k) idx = L).
  { unfold lane, zr. rewrite map_map, Nat2Z.id. rewrite <- (map_nth_seq L (dv, 0)) at 1. rewrite LL. apply map_ext. intros i. unfold TD. rewrite tlanes_upd, E, upd_same by lia. now rewrite Nat2Z.id. }
  cbv zeta. rewrite EQ. auto.
Qed.
Lemma lanes_all : exists ys, all_ok (map lanes (row_major (upd gsh s 1))) = Ok ys.
Proof.
  exists (map (fun idx => match lanes idx with Ok l => l | Err _ => [] end) (row_major (upd gsh s 1))). apply OpsProofs2.all_ok_map. intros idx Hi. apply in_row_major in Hi. destruct (topk_lane idx Hi) as (L & E & _). now rewrite E.
Qed.
End D.

(** an axis that is not distributed: one lane, all on one rank *)
Section L.
Context {V : Type} (dv : V) (lt : V -> V -> bool) (tk : bool -> bool -> nat -> list V -> list nat) (dbl : V -> V).
Hypothesis (HW : weak_order lt) (HT : topks dv lt tk).
Variables (largest sorted : bool) (k ax : nat) (gsh : list Z) (G : list Z -> V).
Let n := nth ax gsh 0.
Hypothesis (HA : (ax < length gsh)%nat) (HK : Z.of_nat k <= n) (NN : Forall (fun n => 0 <= n) gsh).
Hypothesis HD : forall idx, in_bounds gsh idx -> dbl (G idx) = G idx.
Definition TL (idx : list Z) : V * Z := nth (Z.to_nat (nth ax idx 0)) (packed dbl (tk_pairs dv tk largest sorted k (numbered (lane G ax n idx)))) (dv, 0).
Lemma lane_in idx p : in_bounds (upd gsh ax 1) idx -> In p (numbered (lane G ax n idx)) -> 0 <= snd p < n /\ fst p = G (upd idx ax (snd p)) /\ dbl (fst p) = fst p.
Proof.
  intros Hi Hp. assert (N0 : 0 <= n) by lia. apply (numbered_at _ _ dv) in Hp as [B E]. rewrite lane_length in B. rewrite Z2Nat.id in B by lia.
  assert (EV : fst p = G (upd idx ax (snd p))). { rewrite E. unfold lane, zr. rewrite map_map. rewrite (@nth_map_seq) by lia. rewrite Z2Nat.id by lia. auto. }
  split; [auto|]. split; [auto|]. rewrite EV. apply HD. assert (LI := in_bounds_length _ _ Hi). rewrite upd_length in LI. apply in_bounds_upd_shape in Hi as (_ & _ & Hi); [|auto]. apply in_bounds_nth. rewrite upd_length. split; [auto|]. intros q Hq. destruct (Nat.eq_dec q ax) as [->|N]; [rewrite upd_same by lia; fold n; lia|rewrite upd_other by auto; auto].
Qed.
Lemma TL_ok : top_along lt largest sorted ax k gsh G TL /\ indices_along ax k gsh G TL.
Proof.
  assert (X : forall idx, in_bounds (upd gsh ax 1) idx -> let c := tk_pairs dv tk largest sorted k (numbered (lane G ax n idx)) in
    lane TL ax (Z.of_nat k) idx = c /\ top_of (ltp lt) largest k (numbered (lane G ax n idx)) c /\ (sorted = true -> in_order lt largest (map fst c))).
  { intros idx Hi c. assert (LI := in_bounds_length _ _ Hi). rewrite upd_length in LI. destruct (tk_pairs_ok dv lt tk HT largest sorted k (numbered (lane G ax n idx))) as [A B]; [rewrite numbered_length, lane_length; lia|]. fold c in A, B. split; [|auto]. destruct A as (L & r & P & _).
    assert (PC : packed dbl c = c). { unfold packed. rewrite <- (map_id c) at 2. apply map_ext_in. intros p Hp. destruct (lane_in idx p Hi) as (_ & _ & ->); [rewrite <- P; apply in_or_app; auto|]. now destruct p. }
    unfold lane at 1, zr. rewrite map_map, Nat2Z.id. rewrite <- (map_nth_seq c (dv, 0)). rewrite L. apply map_ext. intros i. unfold TL. rewrite lane_upd. fold c. rewrite PC, upd_same by lia. now rewrite Nat2Z.id. }
  split.
  - intros idx Hi. destruct (X idx Hi) as (-> & A & B). cbv zeta. split; [|auto]. apply top_fst in A. rewrite numbered_fst in A. exact A.
  - intros idx Hi. destruct (X idx Hi) as (E & (L & r & P & _) & _). cbv zeta in *. set (c := tk_pairs dv tk largest sorted k (numbered (lane G ax n idx))) in *. rewrite E. split.
    + apply (nodup_app_l (map snd c) (map snd r)). rewrite <- map_app. apply (Permutation_NoDup (l := map snd (numbered (lane G ax n idx)))); [symmetry; now apply Permutation_map|].
      assert (ES : forall (l : list V), map snd (numbered l) = zr (Z.of_nat (length l))).
      { intros l. unfold numbered, zr. rewrite Nat2Z.id. generalize 0%nat. induction l as [|a l IH]; intros b; [reflexivity|]. cbn [length seq map combine snd]. f_equal. apply IH. }
      rewrite ES. unfold zr. apply FinFun.Injective_map_NoDup; [intros a b; lia|apply seq_NoDup].
    + intros j Hj. assert (EJ : In (TL (upd idx ax j)) c). { rewrite <- E. unfold lane. apply in_map_iff. exists j. split; [auto|]. apply in_zr. lia. }
      destruct (lane_in idx (TL (upd idx ax j)) Hi) as (A & B & _); [rewrite <- P; apply in_or_app; auto|]. auto.
Qed.
Lemma local_other_ok (t : arr V) sh F : agrees t sh F -> (ax < length sh)%nat -> nth ax sh 0 = n ->
  agrees (local_other dv tk dbl largest sorted k ax t) (upd sh ax (Z.of_nat k)) (fun idx => nth (Z.to_nat (nth ax idx 0)) (packed dbl (tk_pairs dv tk largest sorted k (numbered (lane F ax n idx)))) (dv, 0)).
Proof.
  intros [E D] H0 H1. unfold local_other. split; [cbn [ash]; now rewrite E|]. intros idx Hi. cbn [adat]. replace (lane_of ax t idx) with (lane F ax n idx); [auto|].
  unfold lane_of, lane. rewrite E, H1. apply map_ext_in. intros i Hz. apply in_zr in Hz. symmetry. apply D. assert (LI := in_bounds_length _ _ Hi). rewrite upd_length in LI. apply in_bounds_upd_shape in Hi as (_ & _ & Hi); [|auto]. apply in_bounds_nth. rewrite upd_length. split; [auto|]. intros q Hq. destruct (Nat.eq_dec q ax) as [->|N]; [rewrite upd_same by lia; lia|rewrite upd_other by auto; auto].
Qed.
End L.

(** topk(x, k, dim): values.  Along a distributed axis every rank must hold at least k
    elements (or x is two-dimensional, dim = 1, elements are totally ordered and none is
    beaten by the fill value), for every tree in which MPI combines the ranks.  [dbl] is the
    conversion to double and back, assumed exact on the elements. *)
Theorem C39_topk : forall (V : Type) (dv : V) (lt : V -> V -> bool) (tk : bool -> bool -> nat -> list V -> list nat) (dbl : V -> V) (neutral : V)
    (largest sorted : bool) (k : nat) (x : dnd V) (G : list Z -> V) (cnts : list Z) (dim : Z) (tree : rtree),
  let ax := norm (length (d_gshape x)) dim in
  weak_order lt -> topks dv lt tk -> rep x cnts G -> (0 < length cnts)%nat -> valid_axis (length (d_gshape x)) dim ->
  Permutation (leaves tree) (seq 0 (length cnts)) ->
  (forall idx, in_bounds (d_gshape x) idx -> dbl (G idx) = G idx) ->
  Z.of_nat k <= nth ax (d_gshape x) 0 ->
  (d_split x = Some ax ->
     (forall c, In c cnts -> Z.of_nat k <= c) \/
     length (d_gshape x) = 2%nat /\ ax = 1%nat /\ (forall a b, lt a b = false -> lt b a = false -> a = b) /\
     (forall idx, in_bounds (d_gshape x) idx -> beats lt largest (G idx) (dbl neutral))) ->
  exists y H, topk_nd dv tk dbl neutral largest sorted k x dim tree = Ok y /\
    d_gshape y = upd (d_gshape x) ax (Z.of_nat k) /\ d_split y = d_split x /\
    rep y (match d_split x with Some s => if Nat.eqb s ax then zcounts (Z.of_nat k) (length cnts) else cnts | None => cnts end) H /\
    top_along lt largest sorted ax k (d_gshape x) G H /\
    (d_split x <> Some ax \/ length cnts = 1%nat -> indices_along ax k (d_gshape x) G H).
Proof.
  intros V dv lt tk dbl neutral largest sorted k x G cnts dim tree ax HW HT HR HP VA HL HD HK HS. unfold topk_nd.
  destruct (sanitize_int _ _ VA) as (az & EZ & EA). rewrite EZ. cbn [bind]. replace (Z.to_nat az) with ax by (unfold ax; rewrite <- EA; auto).
  assert (HA : (ax < length (d_gshape x))%nat) by (unfold ax, norm, valid_axis in *; destruct (Z.ltb_spec dim 0); lia).
  assert (LC : length (d_locals x) = length cnts) by apply HR. assert (NN : Forall (fun n => 0 <= n) (d_gshape x)) by apply HR. set (n := nth ax (d_gshape x) 0) in *.
  destruct (TL_ok dv lt tk dbl HT largest sorted k ax (d_gshape x) G HA HK HD) as [T1 T2].
  assert (NK : Forall (fun n => 0 <= n) (upd (d_gshape x) ax (Z.of_nat k))).
  { apply Forall_forall. intros m Hm. apply (In_nth _ _ 0) in Hm as (q & Hq & <-). rewrite upd_length in Hq. destruct (Nat.eq_dec q ax) as [->|N]; [rewrite upd_same; auto; lia|]. rewrite upd_other by auto. rewrite Forall_forall in NN. apply NN, nth_In. auto. }
  destruct (d_split x) as [s|] eqn:ES.
  - assert (HRr := HR). unfold rep in HRr. rewrite ES in HRr. destruct (Nat.eqb_spec s ax) as [->|NS].
    + assert (HL' : Permutation (leaves tree) (seq 0 (length (d_locals x)))) by (now rewrite LC).
      assert (HS' : (forall c, In c cnts -> Z.of_nat k <= c) /\ (0 < length (d_locals x))%nat \/ length (d_gshape x) = 2%nat /\ ax = 1%nat /\ Z.of_nat k <= nth ax (d_gshape x) 0 /\ (forall a b, lt a b = false -> lt b a = false -> a = b) /\ forall idx, in_bounds (d_gshape x) idx -> beats lt largest (G idx) (dbl neutral)).
      { destruct (HS eq_refl) as [H|(H1 & H2 & H3 & H4)]; [left; split; [auto|lia]|right; auto]. }
      destruct (lanes_all dv lt tk dbl neutral HW HT largest sorted k tree _ ax cnts _ G HRr HL' HD HS') as (ys & EY). rewrite EY. cbn [bind].
      assert (TT := TD_top dv lt tk dbl neutral HW HT largest sorted k tree _ ax cnts _ G HRr HL' HD HS').
      set (H := TD dv tk dbl neutral largest sorted k tree (d_gshape x) ax (d_locals x)) in *.
      destruct (C55_array_split _ (length (d_locals x)) (mk_arr (upd (d_gshape x) ax (Z.of_nat k)) H) (AxInt (Z.of_nat ax)) (Some ax)) as (y & A & B & C & D); [lia|exact NK| |].
      { cbn [asked_split ash]. rewrite upd_length. split; [unfold valid_axis; lia|]. unfold norm. replace (Z.of_nat ax <? 0) with false by lia. now rewrite Nat2Z.id. }
      exists y, H. split; [exact A|]. split; [exact B|]. split; [exact C|]. split.
      { cbn [balanced_counts ash] in D. rewrite upd_same in D by auto. rewrite <- LC. exact D. }
      split; [exact TT|]. intros [NE|P1]; [congruence|]. assert (LT : exists r, tree = Leaf r). { destruct tree as [r|a b]; [eauto|]. apply Permutation_length in HL. rewrite seq_length, P1 in HL. cbn in HL. rewrite app_length in HL. assert (LP : forall t, (0 < length (leaves t))%nat) by (induction t; cbn; rewrite ?app_length; lia). assert (A1 := LP a). assert (A2 := LP b). lia. }
      destruct LT as (r & ->). assert (r = 0%nat) by (cbn in HL; rewrite P1 in HL; apply Permutation_length_1 in HL; auto). subst r.
      destruct (d_locals x) as [|t [|]] eqn:EL; try (cbn in LC; lia). intros idx Hi.
      destruct HRr as (_ & _ & _ & CN & SM & Q). destruct cnts as [|c [|]]; try (cbn in LC; lia). change (zsum [c]) with (c + 0) in SM. assert (AG := Q 0%nat t eq_refl). cbn [nth firstn] in AG. change (zsum []) with 0 in AG.
      assert (EE : upd (d_gshape x) ax c = d_gshape x) by (apply upd_same_list; fold n; lia). rewrite EE in AG.
      assert (EQ : forall i, in_bounds (upd (d_gshape x) ax 1) i -> forall j, H (upd i ax j) = TL dv tk dbl largest sorted k ax (d_gshape x) G (upd i ax j)).
      { intros i Hb j. unfold H, TD. rewrite tlanes_upd. unfold TL. fold n. rewrite lane_upd. cbn [ranked length seq combine map all_ok fst snd]. unfold local_split.
        assert (LN : lane_of ax t i = lane G ax n i). { destruct AG as [A0 D0]. unfold lane_of, lane. rewrite A0. fold n. apply map_ext_in. intros q Hq. apply in_zr in Hq. rewrite D0.
          - unfold move_axis_idx. rewrite upd_same by (assert (LI := in_bounds_length _ _ Hb); rewrite upd_length in LI; lia). rewrite upd_upd_same, Z.add_0_r. auto.
          - assert (LI := in_bounds_length _ _ Hb). rewrite upd_length in LI. apply in_bounds_upd_shape in Hb as (_ & _ & Hb); [|auto]. apply in_bounds_nth. rewrite upd_length. split; [auto|]. intros m Hm. destruct (Nat.eq_dec m ax) as [->|N]; [rewrite upd_same by lia; auto|rewrite upd_other by auto; auto]. }
        rewrite LN. rewrite lane_length. replace (Z.to_nat n <? k)%nat with false by lia. cbn [bind all_ok reduce_tree nth]. f_equal. f_equal. rewrite <- (map_id (tk_pairs dv tk largest sorted k (numbered (lane G ax n i)))) at 2. apply map_ext. intros [v z]. cbn [fst snd]. f_equal. lia. }
      destruct (T2 idx Hi) as [U1 U2]. split.
      * replace (lane H ax (Z.of_nat k) idx) with (lane (TL dv tk dbl largest sorted k ax (d_gshape x) G) ax (Z.of_nat k) idx); [auto|]. unfold lane. apply map_ext. intros j. symmetry. auto.
      * intros j Hj. cbv zeta. rewrite EQ by auto. apply U2. auto.
    + replace (n <? Z.of_nat k) with false by lia.
      assert (RR : represents (TL dv tk dbl largest sorted k ax (d_gshape x) G) (upd (d_gshape x) ax (Z.of_nat k)) (Some s) cnts (map (local_other dv tk dbl largest sorted k ax) (d_locals x))).
      { destruct HRr as (_ & _ & Hs & CN & SM & Q). split; [now rewrite map_length|]. split; [auto|]. split; [now rewrite upd_length|]. split; [auto|]. split; [now rewrite upd_other by auto|].
        intros r u Hu. rewrite nth_error_map in Hu. destruct (nth_error (d_locals x) r) as [t|] eqn:Et; [|discriminate]. injection Hu as <-.
        destruct (local_other_ok dv tk dbl largest sorted k ax (d_gshape x) G HA HD t _ _ (Q r t Et)) as [A D]; [now rewrite upd_length|rewrite upd_other by auto; auto|]. rewrite upd_comm2 in A by auto. split; [exact A|]. rewrite upd_comm2 by auto. intros idx Hi. assert (LI := in_bounds_length _ _ Hi). rewrite !upd_length in LI.
        rewrite D by auto. unfold TL. fold n. unfold move_axis_idx at 2. rewrite upd_other by auto. f_equal. f_equal. f_equal. f_equal. unfold lane. apply map_ext. intros i. f_equal. unfold move_axis_idx. rewrite upd_other by auto. symmetry. apply upd_comm2. auto. }
      destruct (C55_array_is_split _ _ _ _ _ _ RR ltac:(rewrite (proj1 RR); lia)) as (y & bal & EY & Y1 & Y2 & Y3 & Y4 & _). rewrite EY. cbn [bind fst]. exists y, (TL dv tk dbl largest sorted k ax (d_gshape x) G). auto 10.
  - replace (n <? Z.of_nat k) with false by lia. eexists _, (TL dv tk dbl largest sorted k ax (d_gshape x) G). split; [reflexivity|]. cbn [d_gshape d_split]. split; [auto|]. split; [auto|]. split; [|auto].
    unfold rep in *. rewrite ES in HR. destruct HR as (_ & _ & Q). cbn [d_gshape d_split d_locals]. split; [now rewrite map_length|]. split; [auto|]. intros u Hu. apply in_map_iff in Hu as (t & <- & Ht). apply (local_other_ok dv tk dbl largest sorted k ax (d_gshape x) G HA HD t (d_gshape x) G); auto.
Qed.
