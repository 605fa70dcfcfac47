(** The outer product ring: every process ends up with its block. *)
From Verif Require Import Base BaseLemmas LayoutModel LayoutProofs NdSpec TensorSpec TensorLemmas SchedModel RingModel RingProofs OpsModel OpsProofs5 ShapeModel OuterModel.
Set Implicit Arguments.
Open Scope nat_scope.

(** the process whose piece process [r] holds after [t] rounds *)
Definition back (P t r : nat) : nat := if r <? t then r + P - t else r - t.
Lemma back_lt P t r : r < P -> t <= P -> back P t r < P.
Proof. unfold back. destruct (Nat.ltb_spec r t); lia. Qed.
Lemma back_left P p r : r < P -> p + 1 < P -> back P p (left P r) = back P (p + 1) r /\ actual_origin P r p = back P (p + 1) r.
Proof.
  unfold back, actual_origin, left. intros H1 H2. destruct (Nat.eqb_spec r 0) as [->|].
  - destruct (Nat.ltb_spec (P - 1) p), (Nat.ltb_spec 0 (p + 1)); lia.
  - destruct (Nat.ltb_spec (r - 1) p), (Nat.ltb_spec r (p + 1)); lia.
Qed.
Lemma back_all P r q : r < P -> q < P -> exists t, t <= P - 1 /\ back P t r = q.
Proof.
  intros H1 H2. unfold back. destruct (Nat.le_gt_cases q r).
  - exists (r - q). split; [lia|]. destruct (Nat.ltb_spec r (r - q)); lia.
  - exists (r + P - q). split; [lia|]. destruct (Nat.ltb_spec r (r + P - q)); lia.
Qed.
Lemma owner n P g : 0 < P -> g < n -> exists q, q < P /\ cstart n q P <= g < cstart n q P + clen n q P.
Proof.
  intros HP Hg. assert (G : forall k, k <= P -> cstart n k P <= g \/ exists q, q < k /\ cstart n q P <= g < cstart n q P + clen n q P).
  { induction k as [|k IH]; intros Hk; [left; rewrite cstart_0; lia|]. destruct (IH ltac:(lia)) as [H|(q & Hq & H)]; [|right; exists q; split; [lia|auto]].
    destruct (Nat.lt_ge_cases g (cstart n k P + clen n k P)); [right; exists k; split; [lia|auto]|left; rewrite cstart_S; lia]. }
  destruct (G P ltac:(lia)) as [H|(q & Hq & H)]; [rewrite cstart_P in H; lia|eauto].
Qed.

Section Run.
Variables (A C : Type) (zero : C) (dflt : A) (P : nat) (val : A -> A -> C) (kept trav : dist A).
Let N := length (glob trav).
Hypothesis HP : 0 < P.
Hypothesis LT : length trav = P.
Hypothesis Canon : lens trav = counts_of N P.

Lemma piece_len q : q < P -> length (nth q trav []) = clen N q P.
Proof. intros H. rewrite <- lens_nth, Canon. now apply counts_of_nth. Qed.
Lemma piece_nth q g d : q < P -> cstart N q P <= g < cstart N q P + clen N q P -> nth (g - cstart N q P) (nth q trav []) d = nth g (glob trav) d.
Proof.
  intros Hq Hg. pose proof (@glob_nth _ trav q (g - cstart N q P) d) as E. rewrite piece_len in E by auto.
  rewrite Canon, counts_of_psum in E by lia.
  replace (cstart N q P + (g - cstart N q P)) with g in E by lia. symmetry. apply E. lia.
Qed.
Lemma lmap_nth q : q < P -> nth q (lmap trav) 0 = clen N q P.
Proof. intros H. unfold lmap. rewrite Canon. now apply counts_of_nth. Qed.

(** after an assignment of the right piece, its columns are right and the others unchanged *)
Lemma assign_ok k q acc : q < P -> exists acc', assign dflt P N val k q (nth q trav []) acc = Ok acc' /\
  forall i g, acc' i g = if (cstart N q P <=? g) && (g <? cstart N q P + clen N q P) then val (nth i k dflt) (nth g (glob trav) dflt) else acc i g.
Proof.
  intros Hq. unfold assign. pose proof (piece_len Hq) as E. unfold cstart, clen in *. destruct (chunk_1d N q P) as [st len] eqn:EC. cbn [fst snd] in *.
  rewrite E, Nat.eqb_refl. cbn [orb]. eexists. split; [reflexivity|]. intros i g. cbn beta.
  destruct ((st <=? g) && (g <? st + len)) eqn:B; [|reflexivity]. f_equal.
  apply andb_true_iff in B as [B1 B2]. apply Nat.leb_le in B1. apply Nat.ltb_lt in B2.
  assert (E2 : nth (g - st) (nth q trav []) dflt = nth g (glob trav) dflt).
  { replace st with (cstart N q P) by (unfold cstart; now rewrite EC). apply piece_nth; auto. unfold cstart, clen. rewrite EC. cbn. lia. }
  destruct (Nat.eqb_spec len 1) as [->|]; [|exact E2]. replace (g - st) with 0 in E2 by lia. exact E2.
Qed.

Definition good (r p : nat) (s : res (ost A C)) : Prop := exists o, s = Ok o /\
  o_run o = nth (back P p r) trav [] /\ length (o_buf o) = clen N 0 P /\
  forall i t g, t <= p -> cstart N (back P t r) P <= g < cstart N (back P t r) P + clen N (back P t r) P ->
    o_acc o i g = val (nth i (nth r kept []) dflt) (nth g (glob trav) dflt).

Lemma start_good r : r < P -> good r 0 (start zero dflt P N val kept trav r).
Proof.
  intros Hr. unfold start. cbv zeta.
  assert (B0 : forall x, back P 0 x = x) by (intros x; unfold back; cbn; lia).
  rewrite lmap_nth by auto. destruct (Nat.eqb_spec (clen N r P) 0) as [E0|E0].
  - cbn [bind]. eexists. split; [reflexivity|]. cbn [o_run o_buf o_acc]. rewrite B0, repeat_length, lmap_nth by auto. split; [auto|]. split; [auto|].
    intros i t g Ht Hg. replace t with 0 in Hg by lia. rewrite B0 in Hg. lia.
  - destruct (@assign_ok (nth r kept []) r (fun _ _ => zero) Hr) as (acc & E & HA). rewrite E. cbn [bind].
    eexists. split; [reflexivity|]. cbn [o_run o_buf o_acc]. rewrite B0, repeat_length, lmap_nth by auto. split; [auto|]. split; [auto|].
    intros i t g Ht Hg. replace t with 0 in Hg by lia. rewrite B0 in Hg. rewrite HA.
    replace (cstart N r P <=? g) with true by (symmetry; apply Nat.leb_le; lia).
    replace (g <? cstart N r P + clen N r P) with true by (symmetry; apply Nat.ltb_lt; lia). reflexivity.
Qed.

Lemma inc_good r p s m : r < P -> p + 1 < P -> good r p s -> m = nth (back P (p + 1) r) trav [] ->
  good r (p + 1) (o_inc dflt P N val kept trav r p s m).
Proof.
  intros Hr Hp (o & -> & H1 & H2 & H3) ->. unfold o_inc. cbn [bind].
  set (q := back P (p + 1) r). assert (Hq : q < P) by (apply back_lt; lia).
  destruct (@back_left P p r Hr Hp) as [_ EA].
  pose proof (@piece_len q Hq) as EL. pose proof (@clen_mono N 0 q P ltac:(lia)) as MO.
  destruct (Nat.ltb_spec (length (o_buf o)) (length (nth q trav []))) as [Hlt|_]; [lia|].
  rewrite EA. fold q. rewrite lmap_nth by auto.
  assert (EF : firstn (clen N q P) (nth q trav [] ++ skipn (length (nth q trav [])) (o_buf o)) = nth q trav []).
  { rewrite <- EL. rewrite firstn_app, Nat.sub_diag, firstn_all. cbn. apply app_nil_r. }
  rewrite EF. destruct (@assign_ok (nth r kept []) q (o_acc o) Hq) as (acc & E & HA). rewrite E. cbn [bind].
  eexists. split; [reflexivity|]. cbn [o_run o_buf o_acc]. split; [reflexivity|]. split.
  { rewrite app_length, skipn_length. lia. }
  intros i t g Ht Hg. rewrite HA. destruct ((cstart N q P <=? g) && (g <? cstart N q P + clen N q P)) eqn:B; [reflexivity|].
  destruct (Nat.eq_dec t (p + 1)) as [->|Hn].
  - exfalso. fold q in Hg. apply andb_false_iff in B as [B|B]; [apply Nat.leb_gt in B|apply Nat.ltb_ge in B]; lia.
  - apply (H3 i t g); [lia|auto].
Qed.

Notation states p := (ring_rounds P (@o_out A C) (o_inc dflt P N val kept trav) (Err OutOfFuel) p (map (start zero dflt P N val kept trav) (seq 0 P))).
Lemma rounds_good p : p <= P - 1 -> forall r, r < P -> good r p (nth r (states p) (Err OutOfFuel)).
Proof.
  induction p as [|p IH]; intros Hp r Hr.
  - cbn. rewrite nth_map_seq by auto. now apply start_good.
  - cbn [ring_rounds]. unfold ring_round. rewrite nth_map_seq by auto.
    replace (Datatypes.S p) with (p + 1) by lia. apply inc_good; auto; [lia|apply IH; lia|].
    assert (HL : left P r < P) by (unfold left; destruct (Nat.eqb_spec r 0); lia).
    destruct (IH ltac:(lia) (left P r) HL) as (o & E & H1 & _). rewrite E. cbn. rewrite H1. f_equal.
    apply (@back_left P p r); lia.
Qed.

Lemma states_length p : length (states p) = P.
Proof. destruct p; cbn; [now rewrite map_length, seq_length|]. unfold ring_round. now rewrite map_length, seq_length. Qed.

(** the result of the whole ring *)
Lemma ring_result_ok : exists os, all_ok (ring_result zero dflt P N val kept trav) = Ok os /\ length os = P /\
  forall r o i g, nth_error os r = Some o -> g < N -> o_acc o i g = val (nth i (nth r kept []) dflt) (nth g (glob trav) dflt).
Proof.
  unfold ring_result. pose proof (@rounds_good (P - 1) (le_n _)) as G. pose proof (states_length (P - 1)) as SL.
  set (l := states (P - 1)) in *.
  assert (K : forall m (l : list (res (ost A C))), (forall r, r < length l -> exists o, nth r l (Err OutOfFuel) = Ok o /\
      forall i g, g < N -> o_acc o i g = val (nth i (nth (m + r) kept []) dflt) (nth g (glob trav) dflt)) ->
     exists os, all_ok l = Ok os /\ length os = length l /\
      forall r o i g, nth_error os r = Some o -> g < N -> o_acc o i g = val (nth i (nth (m + r) kept []) dflt) (nth g (glob trav) dflt)).
  { clear. intros m l. revert m. induction l as [|s l IH]; intros m H.
    - exists []. split; [reflexivity|]. split; [reflexivity|]. intros [|r] o i g E; discriminate.
    - destruct (H 0 ltac:(cbn; lia)) as (o & E & HO). cbn in E. subst s.
      destruct (IH (Datatypes.S m)) as (os & E2 & L2 & H2).
      { intros r Hr. destruct (H (Datatypes.S r) ltac:(cbn; lia)) as (o' & E' & HO'). exists o'. split; [exact E'|].
        intros i g Hg. rewrite HO' by auto. replace (m + Datatypes.S r) with (Datatypes.S m + r) by lia. reflexivity. }
      exists (o :: os). cbn. rewrite E2. cbn. split; [reflexivity|]. split; [now rewrite L2|].
      intros [|r] o' i g E' Hg; cbn in E'.
      + injection E' as <-. now apply HO.
      + replace (m + Datatypes.S r) with (Datatypes.S m + r) by lia. now apply H2. }
  destruct (K 0 l) as (os & E & L & H).
  { intros r Hr. rewrite SL in Hr. destruct (G r Hr) as (o & Eo & _ & _ & HA). exists o. split; [exact Eo|].
    intros i g Hg. destruct (owner (n:=N) (P:=P) HP Hg) as (q & Hq & B). destruct (back_all Hr Hq) as (t & Ht & Eb).
    apply (HA i t g Ht). now rewrite Eb. }
  exists os. rewrite E. split; [auto|]. split; [congruence|]. intros r o i g Eo Hg. apply (H r o i g Eo Hg).
Qed.
End Run.
