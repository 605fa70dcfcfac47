(** The branches of matmul for two operands of the same dimension. *)
From Verif Require Import Base BaseLemmas LayoutModel TensorSpec NdSpec TensorLemmas NdLemmas OpsModel OpsProofs2 OpsProofs4 ShapeModel ShapeProps BinModel BinProofs BinProofs2 ReshapeModel ReshapeProofs ConcatProofs3 FactoryModel FactoryProps MatmulSpec MatmulModel MatmulProofs.
Open Scope Z_scope.

Lemma all_ok_list {X Y} (f : X -> res Y) (I : nat -> Y -> Prop) : forall (l : list X) k,
  (forall r x, nth_error l r = Some x -> exists y, f x = Ok y /\ I (k + r)%nat y) ->
  exists ys, all_ok (map f l) = Ok ys /\ length ys = length l /\ forall r y, nth_error ys r = Some y -> I (k + r)%nat y.
Proof.
  induction l as [|x l IH]; intros k H.
  - exists []. split; [reflexivity|]. split; [reflexivity|]. intros [|r] y; discriminate.
  - destruct (H 0%nat x eq_refl) as (y & E & HI). destruct (IH (S k)) as (ys & EL & LL & HL).
    { intros r z Hz. destruct (H (S r) z Hz) as (w & Ew & Hw). exists w. split; auto. now replace (S k + r)%nat with (k + S r)%nat by lia. }
    exists (y :: ys). cbn [map all_ok]. rewrite E. cbn [bind]. rewrite EL. cbn [bind]. split; [reflexivity|]. split; [cbn; lia|].
    intros [|r] w Hw; cbn in Hw; [injection Hw as <-; auto|]. replace (k + S r)%nat with (S k + r)%nat by lia. auto.
Qed.
Lemma all_ok_seq {Y} (f : nat -> res Y) (I : nat -> Y -> Prop) P : (forall r, (r < P)%nat -> exists y, f r = Ok y /\ I r y) ->
  exists ys, all_ok (map f (seq 0 P)) = Ok ys /\ length ys = P /\ forall r y, nth_error ys r = Some y -> I r y.
Proof.
  intros H. destruct (all_ok_list f I (seq 0 P) 0) as (ys & E & L & HI).
  - intros r x Hx. assert (Hr : (r < P)%nat) by (rewrite <- (seq_length P 0); apply nth_error_Some; congruence).
    rewrite (nth_error_nth' _ 0%nat) in Hx by (now rewrite seq_length). rewrite seq_nth in Hx by auto. injection Hx as <-. apply H; auto.
  - exists ys. rewrite seq_length in L. auto.
Qed.
Lemma nth_error_pairs {X Y} (l : list X) (k : list Y) r x y : nth_error (combine l k) r = Some (x, y) -> nth_error l r = Some x /\ nth_error k r = Some y.
Proof. revert k r. induction l as [|a l IH]; intros [|b k] [|r] H; try discriminate; cbn in *; [injection H as -> ->; auto|auto]. Qed.
Lemma nth_error_triples {Y Z0} (P : nat) (l : list Y) (k : list Z0) r x y z : nth_error (combine (seq 0 P) (combine l k)) r = Some (x, (y, z)) -> x = r /\ (r < P)%nat /\ nth_error l r = Some y /\ nth_error k r = Some z.
Proof.
  intros H. apply nth_error_pairs in H as [H1 H2]. apply nth_error_pairs in H2 as [H2 H3]. assert (Hr : (r < P)%nat) by (rewrite <- (seq_length P 0); apply nth_error_Some; congruence).
  rewrite (nth_error_nth' _ 0%nat) in H1 by (now rewrite seq_length). rewrite seq_nth in H1 by auto. injection H1 as <-. auto.
Qed.

Lemma share (P : nat) (HP : (0 < P)%nat) n r : 0 <= n -> (r < P)%nat -> let c := zcounts n P in
  0 <= zsum (firstn r c) /\ 0 <= nth r c 0 /\ zsum (firstn (S r) c) = zsum (firstn r c) + nth r c 0 /\ zsum (firstn r c) + nth r c 0 <= n.
Proof.
  intros Hn Hr c. destruct (zcounts_ok n P HP Hn) as (L & F & ES). fold c in L, F, ES.
  assert (0 <= nth r c 0) by (rewrite Forall_forall in F; apply F, nth_In; lia).
  split; [apply (zsum_firstn_mono c 0 r F); lia|].
  split; [auto|]. rewrite zsum_firstn_S by lia. split; [auto|]. rewrite <- zsum_firstn_S by lia. rewrite <- ES. now apply zsum_firstn_le.
Qed.

Section Cases.
Context {V : Type}.
Variables (zero : V) (add mul : V -> V -> V).
Hypothesis SU : sums zero add.
Notation bsum f l := (fold_right add zero (map f l)).
Variables (bs : list Z) (m K q : Z) (P : nat).
Variables (A B : list Z -> V) (a b : dnd V) (ca cb : list Z).
Hypotheses (HP : (0 < P)%nat) (Hbs : Forall (fun n => 0 <= n) bs) (Hm : 0 <= m) (HK : 0 <= K) (Hq : 0 <= q).
Hypotheses (GA : d_gshape a = bs ++ [m; K]) (GB : d_gshape b = bs ++ [K; q]).
Hypotheses (RA : rep a ca A) (RB : rep b cb B) (LA : length (d_locals a) = P) (LB : length (d_locals b) = P).

Definition PR := product zero add mul K A B.
Lemma PR2 js i j : PR (js ++ [i; j]) = bsum (fun k => mul (A (js ++ [i; k])) (B (js ++ [k; j]))) (zr K).
Proof.
  unfold PR, product. rewrite len2. replace (length js + 2 - 1)%nat with (S (length js)) by lia. replace (length js + 2 - 2)%nat with (length js) by lia.
  f_equal. apply map_ext. intros k. now rewrite upd_r0, upd_r1.
Qed.
Lemma addz x : add zero x = x. Proof. destruct SU as (_ & H & _). apply H. Qed.
Lemma NN : Forall (fun n => 0 <= n) (bs ++ [m; q]).
Proof. apply Forall_app. split; auto. Qed.

(** an outcome from which the call makes the product with split [s] *)
Definition good (s : option nat) (o : outcome V) : Prop :=
  match o with
  | Early y => s = None /\ d_split y = None /\ d_gshape y = bs ++ [m; q] /\ length (d_locals y) = P /\ forall t, In t (d_locals y) -> M2 t bs m q (fun js i j => PR (js ++ [i; j]))
  | Whole cs k => s = Some k /\ (k < length bs + 2)%nat /\ length cs = P /\ forall t, In t cs -> M2 t bs m q (fun js i j => PR (js ++ [i; j]))
  | Pieces cs k => s = Some k /\ exists cnts, length cnts = P /\ represents PR (bs ++ [m; q]) (Some k) cnts cs
  | Buffer y => d_split y = s /\ d_gshape y = bs ++ [m; q] /\ exists cnts k, s = Some k /\ length cnts = P /\ represents PR (bs ++ [m; q]) (Some k) cnts (d_locals y)
  end.
Definition unfolded := matmul_nd zero add mul a b false.

Ltac start := unfold unfolded, matmul_nd; rewrite GA, GB, ?LA, !len2; replace (length bs + 2 - 2)%nat with (length bs) by lia; replace (length bs + 2 - 1)%nat with (S (length bs)) by lia;
  rewrite ?first_bs, ?nth_r0, ?nth_r1.

Lemma repA_none : d_split a = None -> forall r t, nth_error (d_locals a) r = Some t -> M2 t bs m K (fun js i j => A (js ++ [i; j])).
Proof. intros E r t Ht. unfold rep in RA. rewrite E, GA in RA. destruct RA as (_ & _ & H). apply M2_agrees, H. eapply nth_error_In; eauto. Qed.
Lemma repB_none : d_split b = None -> forall r t, nth_error (d_locals b) r = Some t -> M2 t bs K q (fun js i j => B (js ++ [i; j])).
Proof. intros E r t Ht. unfold rep in RB. rewrite E, GB in RB. destruct RB as (_ & _ & H). apply M2_agrees, H. eapply nth_error_In; eauto. Qed.

Lemma case_none : d_split a = None -> d_split b = None -> exists o, unfolded = Ok o /\ good None o.
Proof.
  intros EA EB. start. rewrite EA, EB.
  destruct (all_ok_list (fun p => mm zero add mul (fst p) (snd p)) (fun _ t => M2 t bs m q (fun js i j => PR (js ++ [i; j]))) (combine (d_locals a) (d_locals b)) 0) as (cs & E & L & H).
  { intros r [x y] Hxy. apply nth_error_pairs in Hxy as [Hx Hy]. cbn [fst snd].
    destruct (mm_M2 zero add mul x y bs m q K _ _ HK (repA_none EA r x Hx) (repB_none EB r y Hy)) as (c & Ec & Hc). exists c. split; auto.
    eapply M2_ext; [exact Hc|]. intros. now rewrite PR2. }
  rewrite E. cbn [bind]. eexists. split; [reflexivity|]. cbn. rewrite L, combine_length, LA, LB, Nat.min_id. repeat (split; [reflexivity|]).
  intros t Ht. apply In_nth_error in Ht as (r & Hr). now apply (H r).
Qed.

Lemma case_0_none : d_split a = Some (length bs) -> d_split b = None -> exists o, unfolded = Ok o /\ good (Some (length bs)) o.
Proof.
  intros EA EB. start. rewrite EA, EB. rewrite Nat.eqb_refl, orb_true_r. unfold rep in RA. rewrite EA, GA in RA.
  destruct (all_ok_list (fun p => mm zero add mul (fst p) (snd p)) (fun r t => M2 t bs (nth r ca 0) q (fun js i j => PR (js ++ [i + zsum (firstn r ca); j]))) (combine (d_locals a) (d_locals b)) 0) as (cs & E & L & H).
  { intros r [x y] Hxy. apply nth_error_pairs in Hxy as [Hx Hy]. cbn [fst snd plus].
    destruct (mm_M2 zero add mul x y bs _ q K _ _ HK (rep_row A bs m K ca _ r x RA Hx) (repB_none EB r y Hy)) as (c & Ec & Hc). exists c. split; auto.
    eapply M2_ext; [exact Hc|]. intros. now rewrite PR2. }
  rewrite E. cbn [bind]. eexists. split; [reflexivity|]. cbn [good]. split; [auto|]. destruct RA as (RL & RN & _ & RC & RS & _). rewrite nth_r0 in RS.
  exists ca. split; [congruence|]. apply rows_rep; auto; [|apply NN]. rewrite L, combine_length, LA, LB, Nat.min_id. congruence.
Qed.
Lemma case_none_1 : d_split a = None -> d_split b = Some (S (length bs)) -> exists o, unfolded = Ok o /\ good (Some (S (length bs))) o.
Proof.
  intros EA EB. start. rewrite EA, EB. rewrite Nat.eqb_refl. unfold rep in RB. rewrite EB, GB in RB.
  destruct (all_ok_list (fun p => mm zero add mul (fst p) (snd p)) (fun r t => M2 t bs m (nth r cb 0) (fun js i j => PR (js ++ [i; j + zsum (firstn r cb)]))) (combine (d_locals a) (d_locals b)) 0) as (cs & E & L & H).
  { intros r [x y] Hxy. apply nth_error_pairs in Hxy as [Hx Hy]. cbn [fst snd plus].
    destruct (mm_M2 zero add mul x y bs m _ K _ _ HK (repA_none EA r x Hx) (rep_col B bs K q cb _ r y RB Hy)) as (c & Ec & Hc). exists c. split; auto.
    eapply M2_ext; [exact Hc|]. intros. now rewrite PR2. }
  rewrite E. cbn [bind]. eexists. split; [reflexivity|]. cbn [good]. split; [auto|]. destruct RB as (RL & RN & _ & RC & RS & _). rewrite nth_r1 in RS.
  exists cb. split; [congruence|]. apply cols_rep; auto; [|apply NN]. rewrite L, combine_length, LA, LB, Nat.min_id. congruence.
Qed.

(** a batch axis *)
Lemma batch_rep {X} (G : list Z -> X) x y cnts ls s r t : represents G (bs ++ [x; y]) (Some s) cnts ls -> (s < length bs)%nat -> nth_error ls r = Some t ->
  M2 t (upd bs s (nth r cnts 0)) x y (fun js i j => G (move_axis_idx s (zsum (firstn r cnts)) js ++ [i; j])).
Proof.
  intros (_ & _ & _ & _ & _ & H) Hs Ht. specialize (H r t Ht).
  assert (EU : forall (l : list Z) v u w, (s < length l)%nat -> upd (l ++ [u; w]) s v = upd l s v ++ [u; w]).
  { clear. induction s as [|s IH]; intros [|z l] v u w Hl; cbn in *; try lia; [reflexivity|]. f_equal. apply IH. lia. }
  rewrite EU in H by auto. apply M2_agrees in H. eapply M2_ext; [exact H|]. intros js i j Hj _ _. cbn. unfold move_axis_idx.
  assert (length js = length bs) by (rewrite (in_len _ _ Hj); apply upd_length). rewrite EU by lia. now rewrite app_nth1 by lia.
Qed.
Lemma case_batch s : (s < length bs)%nat -> d_split a = Some s -> d_split b = Some s -> ca = cb -> exists o, unfolded = Ok o /\ good (Some s) o.
Proof.
  intros Hs EA EB EC. start. rewrite EA, EB. replace (s <? length bs)%nat with true by (symmetry; now apply Nat.ltb_lt). unfold rep in RA, RB. rewrite EA, GA in RA. rewrite EB, GB in RB.
  destruct (all_ok_list (fun p => mm zero add mul (fst p) (snd p)) (fun r t => M2 t (upd bs s (nth r ca 0)) m q (fun js i j => PR (move_axis_idx s (zsum (firstn r ca)) js ++ [i; j]))) (combine (d_locals a) (d_locals b)) 0) as (cs & E & L & H).
  { intros r [x y] Hxy. apply nth_error_pairs in Hxy as [Hx Hy]. cbn [fst snd plus].
    pose proof (batch_rep B K q cb _ s r y RB Hs Hy) as MB. rewrite <- EC in MB.
    destruct (mm_M2 zero add mul x y _ m q K _ _ HK (batch_rep A m K ca _ s r x RA Hs Hx) MB) as (c & Ec & Hc). exists c. split; auto.
    eapply M2_ext; [exact Hc|]. intros. now rewrite PR2. }
  rewrite E. cbn [bind]. eexists. split; [reflexivity|]. cbn [good]. split; [auto|]. destruct RA as (RL & RN & RS' & RC & RS & _).
  exists ca. split; [congruence|]. split; [rewrite L, combine_length, LA, LB, Nat.min_id; congruence|]. split; [apply NN|]. split; [rewrite len2; lia|]. split; [auto|].
  rewrite app_nth1 in RS |- * by auto. split; [auto|].
  assert (EU : forall (l : list Z) v u w, (s < length l)%nat -> upd (l ++ [u; w]) s v = upd l s v ++ [u; w]).
  { clear. induction s as [|s IH]; intros [|z l] v u w Hl; cbn in *; try lia; [reflexivity|]. f_equal. apply IH. lia. }
  intros r t Ht. rewrite EU by auto. apply M2_agrees. eapply M2_ext; [now apply (H r)|]. intros js i j Hj _ _. cbn. unfold move_axis_idx.
  assert (length js = length bs) by (rewrite (in_len _ _ Hj); apply upd_length). rewrite EU by lia. now rewrite app_nth1 by lia.
Qed.

(** ** chunks *)
Lemma slice_of sh s r : (r < P)%nat -> chunk_slice sh (Some s) s r P = (zsum (firstn r (zcounts (nth s sh 0) P)), zsum (firstn r (zcounts (nth s sh 0) P)) + nth s (upd sh s (nth r (zcounts (nth s sh 0) P) 0)) 0).
Proof.
  intros Hr. unfold chunk_slice. rewrite Nat.eqb_refl. unfold chunk_off, chunk_lsh. destruct (chunk_counts sh s r P HP Hr) as [E1 E2]. now rewrite E1, E2.
Qed.
Definition offs := share P HP.
(** summing per-rank partial sums over the ranks *)
Lemma allreduce_M2 (cs : list (arr V)) (F : nat -> list Z -> Z -> Z -> V) (f : list Z -> Z -> Z -> Z -> V) :
  length cs = P -> (forall r t, nth_error cs r = Some t -> M2 t bs m q (F r)) ->
  (forall r js i j, (r < P)%nat -> F r js i j = bsum (fun k => f js i j (k + zsum (firstn r (zcounts K P)))) (zr (nth r (zcounts K P) 0))) ->
  length (allreduce add cs) = P /\ forall t, In t (allreduce add cs) -> M2 t bs m q (fun js i j => bsum (f js i j) (zr K)).
Proof.
  intros L H HF. destruct cs as [|c0 rest]; [cbn in L; lia|]. unfold allreduce. split; [now rewrite map_length|].
  intros t Ht. apply in_map_iff in Ht as (p & <- & Hp). apply In_nth_error in Hp as (rp & Hp). destruct (H rp p Hp) as [Ep _]. split; [exact Ep|].
  intros js i j Hj Hi Hjj. cbn [adat].
  assert (EV : map (fun c => adat c (js ++ [i; j])) (c0 :: rest) = map (fun r => F r js i j) (seq 0 P)).
  { apply (@nth_ext2 _ _ _ zero); rewrite ?map_length, ?seq_length; auto. intros r Hr. rewrite L in Hr. rewrite (@nth_map_seq _ (fun r => F r js i j)) by auto.
    destruct (nth_error (c0 :: rest) r) as [c|] eqn:Ec; [|apply nth_error_None in Ec; lia].
    rewrite (nth_error_nth _ r (x:=adat c (js ++ [i; j]))) by (now rewrite nth_error_map, Ec). now apply (H r c Ec). }
  assert (FL : fold_left add (map (fun c => adat c (js ++ [i; j])) rest) (adat c0 (js ++ [i; j])) = fold_left add (map (fun r => F r js i j) (seq 0 P)) zero).
  { rewrite <- EV. cbn [map fold_left]. now rewrite addz. }
  rewrite FL. destruct (zcounts_ok K P HP HK) as (ZL & ZF & ZS).
  assert (Q : forall k, (k <= P)%nat -> fold_left add (map (fun r => F r js i j) (seq 0 k)) zero = bsum (f js i j) (zr (zsum (firstn k (zcounts K P))))).
  { induction k as [|k IH]; intros Hk; [reflexivity|]. rewrite seq_S, map_app, fold_left_app, IH by lia. cbn [plus map fold_left].
    destruct (offs K k HK ltac:(lia)) as (O1 & O2 & O3 & _). rewrite O3, (bsum_split zero add mul SU) by auto. f_equal. now rewrite HF by lia. }
  rewrite Q by lia. rewrite (@firstn_all2 Z P) by (rewrite ZL; apply Nat.le_refl). now rewrite ZS.
Qed.

Lemma case_1_none : d_split a = Some (S (length bs)) -> d_split b = None -> ca = zcounts K P -> exists o, unfolded = Ok o /\ good (Some (S (length bs))) o.
Proof.
  intros EA EB EC. start. rewrite EA, EB. replace ((S (length bs) <? length bs)%nat || (S (length bs) =? length bs)%nat) with false by (symmetry; rewrite orb_false_iff, Nat.ltb_ge, Nat.eqb_neq; lia).
  unfold rep in RA. rewrite EA, GA in RA.
  match goal with |- context [all_ok (map ?f ?l)] => destruct (all_ok_list f (fun r t => M2 t bs m q (fun js i j => bsum (fun k => mul (A (js ++ [i; k + zsum (firstn r (zcounts K P))])) (B (js ++ [k + zsum (firstn r (zcounts K P)); j]))) (zr (nth r (zcounts K P) 0)))) l 0) as (cs & E & L & H) end.
  { intros r [x [la lb]] Hx. apply nth_error_triples in Hx as (-> & Hr & Ha & Hb). rewrite slice_of by auto. cbn [fst plus]. rewrite nth_r1. 
    destruct (offs K r HK Hr) as (O1 & O2 & O3 & O4). pose proof (rep_col A bs m K ca _ r la RA Ha) as MA. rewrite EC in MA.
    assert (SA : ash la = _) by (destruct MA as [SA _]; exact SA). rewrite SA, nth_r1.
    pose proof (slice_r0 zero add mul lb bs K q _ (zsum (firstn r (zcounts K P))) (zsum (firstn r (zcounts K P)) + nth r (zcounts K P) 0) (repB_none EB r lb Hb) ltac:(lia) ltac:(lia)) as MB.
    replace (zsum (firstn r (zcounts K P)) + nth r (zcounts K P) 0 - zsum (firstn r (zcounts K P))) with (nth r (zcounts K P) 0) in MB by lia.
    pose proof (rep_col A bs m K ca _ r la RA Ha) as MA2. rewrite EC in MA2.
    destruct (mm_M2 zero add mul _ _ bs m q _ _ _ O2 MA2 MB) as (c & Ec & Hc). rewrite Ec. cbn [bind].
    destruct (iadd_M2 add _ c bs m q _ _ (zeros_M2 zero bs m q) Hc) as (c' & Ec' & Hc'). exists c'. split; [exact Ec'|]. eapply M2_ext; [exact Hc'|]. intros. cbn. now rewrite addz. }
  rewrite E. cbn [bind]. eexists. split; [reflexivity|]. cbn [good]. rewrite !combine_length, seq_length, LA, LB, !Nat.min_id in L.
  destruct (allreduce_M2 cs _ (fun js i j k => mul (A (js ++ [i; k])) (B (js ++ [k; j]))) L H) as [AL AM]; [auto|].
  split; [auto|]. split; [lia|]. split; [exact AL|]. intros t Ht. eapply M2_ext; [now apply AM|]. intros. now rewrite PR2.
Qed.
Lemma case_none_0 : d_split a = None -> d_split b = Some (length bs) -> cb = zcounts K P -> exists o, unfolded = Ok o /\ good (Some (length bs)) o.
Proof.
  intros EA EB EC. start. rewrite EA, EB. replace (length bs =? S (length bs))%nat with false by (symmetry; rewrite Nat.eqb_neq; lia).
  unfold rep in RB. rewrite EB, GB in RB.
  match goal with |- context [all_ok (map ?f ?l)] => destruct (all_ok_list f (fun r t => M2 t bs m q (fun js i j => bsum (fun k => mul (A (js ++ [i; k + zsum (firstn r (zcounts K P))])) (B (js ++ [k + zsum (firstn r (zcounts K P)); j]))) (zr (nth r (zcounts K P) 0)))) l 0) as (cs & E & L & H) end.
  { intros r [x [la lb]] Hx. apply nth_error_triples in Hx as (-> & Hr & Ha & Hb). rewrite slice_of by auto. cbn [fst plus]. rewrite nth_r0.
    destruct (offs K r HK Hr) as (O1 & O2 & O3 & O4). pose proof (rep_row B bs K q cb _ r lb RB Hb) as MB. rewrite EC in MB.
    assert (SB : ash lb = _) by (destruct MB as [SB _]; exact SB). rewrite SB, nth_r0.
    pose proof (slice_r1 zero add mul la bs m K _ (zsum (firstn r (zcounts K P))) (zsum (firstn r (zcounts K P)) + nth r (zcounts K P) 0) (repA_none EA r la Ha) ltac:(lia) ltac:(lia)) as MA.
    replace (zsum (firstn r (zcounts K P)) + nth r (zcounts K P) 0 - zsum (firstn r (zcounts K P))) with (nth r (zcounts K P) 0) in MA by lia.
    destruct (mm_M2 zero add mul _ _ bs m q _ _ _ O2 MA MB) as (c & Ec & Hc). rewrite Ec. cbn [bind].
    destruct (iadd_M2 add _ c bs m q _ _ (zeros_M2 zero bs m q) Hc) as (c' & Ec' & Hc'). exists c'. split; [exact Ec'|]. eapply M2_ext; [exact Hc'|]. intros. cbn. now rewrite addz. }
  rewrite E. cbn [bind]. eexists. split; [reflexivity|]. cbn [good]. rewrite !combine_length, seq_length, LA, LB, !Nat.min_id in L.
  destruct (allreduce_M2 cs _ (fun js i j k => mul (A (js ++ [i; k])) (B (js ++ [k; j]))) L H) as [AL AM]; [auto|].
  split; [auto|]. split; [lia|]. split; [exact AL|]. intros t Ht. eapply M2_ext; [now apply AM|]. intros. now rewrite PR2.
Qed.

(** ** both operands distributed *)
Lemma local_nth (x : dnd V) r : (r < length (d_locals x))%nat -> nth_error (d_locals x) r = Some (local zero x r).
Proof. intros H. unfold local. now apply nth_error_nth'. Qed.

Lemma case_00 : d_split a = Some (length bs) -> d_split b = Some (length bs) -> ca = zcounts m P -> cb = zcounts K P -> exists o, unfolded = Ok o /\ good (Some (length bs)) o.
Proof.
  intros EA EB ECa ECb. start. rewrite EA, EB. rewrite Nat.ltb_irrefl. replace (length bs =? S (length bs))%nat with false by (symmetry; rewrite Nat.eqb_neq; lia). cbn [andb].
  rewrite EB, GB, !Nat.eqb_refl. cbv zeta. unfold rep in RA, RB. rewrite EA, GA in RA. rewrite EB, GB in RB.
  match goal with |- context [all_ok (map ?f (seq 0 P))] => destruct (all_ok_seq f (fun r t => M2 t bs (nth r (zcounts m P) 0) q (fun js i j => PR (js ++ [i + zsum (firstn r (zcounts m P)); j]))) P) as (cs & E & L & H) end.
  { intros r Hr. rewrite (bcast_loop_fold zero add). set (x := zcounts m P) in *.
    pose proof (rep_row A bs m K ca _ r _ RA (local_nth a r ltac:(lia))) as MA. rewrite ECa in MA. fold x in MA.
    destruct (fold_inv zero add (fun p c => let '(st, sp) := chunk_slice (bs ++ [K; q]) (Some (length bs)) (length bs) p P in
                 do x <- mm zero add mul (slice_axis (S (length bs)) st sp (local zero a r)) (local zero b p); iadd add c x)
        (fun k c => M2 c bs (nth r x 0) q (fun js i j => bsum (fun k => mul (A (js ++ [i + zsum (firstn r x); k])) (B (js ++ [k; j]))) (zr (zsum (firstn k (zcounts K P)))))) P
        (zeros zero (chunk_shape (bs ++ [m; q]) (length bs) r P))) as (c & Ec & Hc).
    - destruct (chunk_counts (bs ++ [m; q]) (length bs) r P HP Hr) as [E1 _]. rewrite E1, nth_r0, upd_r0. fold x. split; reflexivity.
    - intros p c Hp Hc. rewrite slice_of by auto. rewrite nth_r0, upd_r0, nth_r0. destruct (offs K p HK Hp) as (O1 & O2 & O3 & O4).
      pose proof (slice_r1 zero add mul _ bs _ K _ (zsum (firstn p (zcounts K P))) (zsum (firstn p (zcounts K P)) + nth p (zcounts K P) 0) MA ltac:(lia) ltac:(lia)) as MS.
      replace (zsum (firstn p (zcounts K P)) + nth p (zcounts K P) 0 - zsum (firstn p (zcounts K P))) with (nth p (zcounts K P) 0) in MS by lia.
      pose proof (rep_row B bs K q cb _ p _ RB (local_nth b p ltac:(lia))) as MB. rewrite ECb in MB.
      destruct (mm_M2 zero add mul _ _ bs _ q _ _ _ O2 MS MB) as (d & Ed & Hd). rewrite Ed. cbn [bind].
      destruct (iadd_M2 add c d bs _ q _ _ Hc Hd) as (c' & Ec' & Hc'). exists c'. split; [exact Ec'|]. eapply M2_ext; [exact Hc'|]. intros. cbv beta. rewrite O3. now rewrite (bsum_split zero add mul SU).
    - exists c. split; [exact Ec|]. eapply M2_ext; [exact Hc|]. intros js i j Hj Hi Hjj. cbv beta. rewrite PR2. destruct (zcounts_ok K P HP HK) as (ZL & ZF & ZS). rewrite (@firstn_all2 Z P) by (rewrite ZL; apply Nat.le_refl). now rewrite ZS. }
  rewrite E. cbn [bind]. eexists. split; [reflexivity|]. cbn [good d_split d_gshape d_locals]. do 2 (split; [reflexivity|]). destruct (zcounts_ok m P HP Hm) as (ZL & ZF & ZS).
  exists (zcounts m P), (length bs). split; [auto|]. split; [auto|]. apply rows_rep; auto; [lia|apply NN].
Qed.

Lemma case_01 : d_split a = Some (length bs) -> d_split b = Some (S (length bs)) -> ca = zcounts m P -> cb = zcounts q P -> exists o, unfolded = Ok o /\ good (Some (length bs)) o.
Proof.
  intros EA EB ECa ECb. start. rewrite EA, EB. rewrite Nat.ltb_irrefl. replace (length bs =? S (length bs))%nat with false by (symmetry; rewrite Nat.eqb_neq; lia). cbn [andb].
  rewrite EB, GB, !Nat.eqb_refl. replace (S (length bs) =? length bs)%nat with false by (symmetry; rewrite Nat.eqb_neq; lia). cbv zeta. unfold rep in RA, RB. rewrite EA, GA in RA. rewrite EB, GB in RB.
  match goal with |- context [all_ok (map ?f (seq 0 P))] => destruct (all_ok_seq f (fun r t => M2 t bs (nth r (zcounts m P) 0) q (fun js i j => PR (js ++ [i + zsum (firstn r (zcounts m P)); j]))) P) as (cs & E & L & H) end.
  { intros r Hr. rewrite (bcast_loop_fold zero add). set (x := zcounts m P) in *.
    pose proof (rep_row A bs m K ca _ r _ RA (local_nth a r ltac:(lia))) as MA. rewrite ECa in MA. fold x in MA.
    destruct (fold_inv zero add (fun p c => let '(st0, sp0) := let '(u, v) := chunk_slice (bs ++ [m; K]) (Some (length bs)) (length bs) p P in (u, v + 1) in
                 let '(st1, sp1) := chunk_slice (bs ++ [K; q]) (Some (S (length bs))) (S (length bs)) p P in
                 do x <- mm zero add mul (local zero a r) (local zero b p); iadd_block add 0 (sp0 - st0) st1 sp1 c x)
        (fun k c => M2 c bs (nth r x 0) q (fun js i j => if j <? zsum (firstn k (zcounts q P)) then PR (js ++ [i + zsum (firstn r x); j]) else zero)) P
        (zeros zero (chunk_shape (bs ++ [m; q]) (length bs) r P))) as (c & Ec & Hc).
    - destruct (chunk_counts (bs ++ [m; q]) (length bs) r P HP Hr) as [E1 _]. rewrite E1, nth_r0, upd_r0. fold x. split; [reflexivity|].
      intros js i j _ _ Hj. cbn. replace (j <? 0) with false by (symmetry; apply Z.ltb_ge; lia). reflexivity.
    - intros p c Hp Hc. rewrite !slice_of by auto. rewrite !nth_r0, !nth_r1, upd_r0, upd_r1, nth_r0, nth_r1. fold x. destruct (offs q p Hq Hp) as (O1 & O2 & O3 & O4).
      destruct (offs m p Hm Hp) as (Q1 & Q2 & _). destruct (offs m r Hm Hr) as (W1 & W2 & _). fold x in Q1, Q2, W1, W2.
      pose proof (rep_col B bs K q cb _ p _ RB (local_nth b p ltac:(lia))) as MB. rewrite ECb in MB.
      destruct (mm_M2 zero add mul _ _ bs _ _ _ _ _ HK MA MB) as (d & Ed & Hd). rewrite Ed. cbn [bind].
      assert (ROWS : nth r x 0 <= nth p x 0 + 1).
      { unfold x, zcounts. rewrite !nth_of_nat. unfold counts_of. rewrite !(@nth_map_seq _ (fun r => (Z.to_nat m / P + (if (r <? Z.to_nat m mod P)%nat then 1 else 0))%nat)) by auto.
        destruct (r <? _)%nat, (p <? _)%nat; lia. }
      replace (nth r x 0) with (Z.min (zsum (firstn p x) + nth p x 0 + 1 - zsum (firstn p x)) (nth r x 0) - 0) in Hd by lia.
      replace (nth p (zcounts q P) 0) with (zsum (firstn p (zcounts q P)) + nth p (zcounts q P) 0 - zsum (firstn p (zcounts q P))) in Hd by lia.
      destruct (iadd_block_M2 zero add mul c d bs (nth r x 0) q _ _ 0 (zsum (firstn p x) + nth p x 0 + 1 - zsum (firstn p x)) (zsum (firstn p (zcounts q P))) (zsum (firstn p (zcounts q P)) + nth p (zcounts q P) 0) Hc ltac:(lia) ltac:(lia) ltac:(lia) ltac:(lia) Hd) as (c' & Ec' & Hc').
      exists c'. split; [exact Ec'|]. eapply M2_ext; [exact Hc'|]. intros js i j Hj Hi Hjj. cbv beta. rewrite O3.
      replace (0 <=? i) with true by (symmetry; apply Z.leb_le; lia). replace (i <? zsum (firstn p x) + nth p x 0 + 1 - zsum (firstn p x)) with true by (symmetry; apply Z.ltb_lt; lia). cbn [andb].
      destruct (Z.leb_spec (zsum (firstn p (zcounts q P))) j), (Z.ltb_spec j (zsum (firstn p (zcounts q P)))); try lia; cbn [andb].
      + destruct (Z.ltb_spec j (zsum (firstn p (zcounts q P)) + nth p (zcounts q P) 0)); [|reflexivity]. rewrite addz, PR2. f_equal. apply map_ext. intros k. now rewrite Z.sub_0_r, Z.sub_add.
      + destruct (Z.ltb_spec j (zsum (firstn p (zcounts q P)) + nth p (zcounts q P) 0)); [reflexivity|lia].
    - exists c. split; [exact Ec|]. eapply M2_ext; [exact Hc|]. intros js i j Hj Hi Hjj. cbv beta. destruct (zcounts_ok q P HP Hq) as (ZL & ZF & ZS). rewrite (@firstn_all2 Z P) by (rewrite ZL; apply Nat.le_refl). rewrite ZS.
      replace (j <? q) with true by (symmetry; apply Z.ltb_lt; lia). reflexivity. }
  rewrite E. cbn [bind]. eexists. split; [reflexivity|]. cbn [good d_split d_gshape d_locals]. do 2 (split; [reflexivity|]). destruct (zcounts_ok m P HP Hm) as (ZL & ZF & ZS).
  exists (zcounts m P), (length bs). split; [auto|]. split; [auto|]. apply rows_rep; auto; [lia|apply NN].
Qed.

Lemma case_11 sb : d_split a = Some (S (length bs)) -> d_split b = Some sb -> ca = zcounts K P ->
  (sb = S (length bs) /\ cb = zcounts q P) \/ sb = length bs ->
  exists o, unfolded = Ok o /\ good (Some (S (length bs))) o.
Proof.
  intros EA EB ECa HB. start. rewrite EA, EB. replace (S (length bs) <? length bs)%nat with false by (symmetry; rewrite Nat.ltb_ge; lia). rewrite Nat.eqb_refl. cbn [andb].
  set (b' := if (sb =? length bs)%nat then resplit_any zero b (Some (S (length bs))) else b).
  assert (HB' : d_gshape b' = bs ++ [K; q] /\ d_split b' = Some (S (length bs)) /\ length (d_locals b') = P /\ represents B (bs ++ [K; q]) (Some (S (length bs))) (zcounts q P) (d_locals b')).
  { unfold b'. unfold rep in RB. rewrite EB in RB. destruct HB as [[-> EC]| ->].
    - replace (S (length bs) =? length bs)%nat with false by (symmetry; rewrite Nat.eqb_neq; lia). rewrite GB in RB. rewrite EC in RB. auto.
    - rewrite Nat.eqb_refl. pose proof RB as (RL & _). destruct (resplit_any_ok zero b B cb (length bs) (Some (S (length bs))) RB EB ltac:(lia)) as (E1 & E2 & E3 & c' & E4 & E5 & _ & E6).
      { intros k Ek. injection Ek as <-. rewrite GB, len2. lia. }
      rewrite (E6 (S (length bs)) eq_refl ltac:(lia)) in E4. rewrite GB, nth_r1, <- RL, LB in E4. rewrite E1, GB. split; [auto|]. split; [auto|]. split; [congruence|auto]. }
  destruct HB' as (GB' & EB' & LB' & RB'). clearbody b'. unfold rep in RA. rewrite EA, GA in RA. cbv zeta.
  replace (S (length bs) =? length bs)%nat with false by (symmetry; rewrite Nat.eqb_neq; lia).
  match goal with |- context [all_ok (map ?f (seq 0 P))] => destruct (all_ok_seq f (fun r t => M2 t bs m (nth r (zcounts q P) 0) (fun js i j => PR (js ++ [i; j + zsum (firstn r (zcounts q P))]))) P) as (cs & E & L & H) end.
  { intros r Hr. rewrite (bcast_loop_fold zero add). set (x := zcounts q P) in *.
    pose proof (rep_col B bs K q _ _ r _ RB' (local_nth b' r ltac:(lia))) as MB. fold x in MB.
    destruct (fold_inv zero add (fun p c => let '(st, sp) := chunk_slice (bs ++ [m; K]) (Some (S (length bs))) (S (length bs)) p P in
                 do x <- mm zero add mul (local zero a p) (slice_axis (length bs) st sp (local zero b' r)); iadd add c x)
        (fun k c => M2 c bs m (nth r x 0) (fun js i j => bsum (fun k => mul (A (js ++ [i; k])) (B (js ++ [k; j + zsum (firstn r x)]))) (zr (zsum (firstn k (zcounts K P)))))) P
        (zeros zero (chunk_shape (bs ++ [m; q]) (S (length bs)) r P))) as (c & Ec & Hc).
    - destruct (chunk_counts (bs ++ [m; q]) (S (length bs)) r P HP Hr) as [E1 _]. rewrite E1, nth_r1, upd_r1. fold x. split; reflexivity.
    - intros p c Hp Hc. rewrite slice_of by auto. rewrite nth_r1, upd_r1, nth_r1. destruct (offs K p HK Hp) as (O1 & O2 & O3 & O4).
      pose proof (slice_r0 zero add mul _ bs K _ _ (zsum (firstn p (zcounts K P))) (zsum (firstn p (zcounts K P)) + nth p (zcounts K P) 0) MB ltac:(lia) ltac:(lia)) as MS.
      replace (zsum (firstn p (zcounts K P)) + nth p (zcounts K P) 0 - zsum (firstn p (zcounts K P))) with (nth p (zcounts K P) 0) in MS by lia.
      pose proof (rep_col A bs m K ca _ p _ RA (local_nth a p ltac:(lia))) as MA. rewrite ECa in MA.
      destruct (mm_M2 zero add mul _ _ bs m _ _ _ _ O2 MA MS) as (d & Ed & Hd). rewrite Ed. cbn [bind].
      destruct (iadd_M2 add c d bs m _ _ _ Hc Hd) as (c' & Ec' & Hc'). exists c'. split; [exact Ec'|]. eapply M2_ext; [exact Hc'|]. intros. cbv beta. rewrite O3. now rewrite (bsum_split zero add mul SU).
    - exists c. split; [exact Ec|]. eapply M2_ext; [exact Hc|]. intros js i j Hj Hi Hjj. cbv beta. rewrite PR2. destruct (zcounts_ok K P HP HK) as (ZL & ZF & ZS). rewrite (@firstn_all2 Z P) by (rewrite ZL; apply Nat.le_refl). now rewrite ZS. }
  rewrite E. cbn [bind]. eexists. split; [reflexivity|]. cbn [good d_split d_gshape d_locals]. do 2 (split; [reflexivity|]). destruct (zcounts_ok q P HP Hq) as (ZL & ZF & ZS).
  exists (zcounts q P), (S (length bs)). split; [auto|]. split; [auto|]. apply cols_rep; auto; [lia|apply NN].
Qed.
End Cases.
