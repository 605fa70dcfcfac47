(** Executing a plan process by process, given an oracle for the messages. *)
From Verif Require Import Base BaseLemmas SchedModel SchedProofs.
Set Implicit Arguments.

Section Oracle.
Variables St M : Type.
Variable m : nat -> nat -> nat -> M.     (* message with source, destination and tag *)

(** one process alone: receives come from the oracle, sends must agree with it *)
Fixpoint lrun (q : nat) (s : St) (l : list (act St M)) : St :=
  match l with
  | [] => s
  | ASend d t f :: l' => lrun q (snd (f s)) l'
  | ARecv a t f :: l' => lrun q (f s (m a q t)) l'
  end.
Fixpoint sends_ok (q : nat) (s : St) (l : list (act St M)) : Prop :=
  match l with
  | [] => True
  | ASend d t f :: l' => fst (f s) = m q d t /\ sends_ok q (snd (f s)) l'
  | ARecv a t f :: l' => sends_ok q (f s (m a q t)) l'
  end.

Lemma lrun_app q l1 l2 : forall s, lrun q s (l1 ++ l2) = lrun q (lrun q s l1) l2.
Proof. induction l1 as [|[d t f|a t f] l1 IH]; intros s; cbn; auto. Qed.
Lemma sends_app q l1 l2 : forall s, sends_ok q s (l1 ++ l2) <-> sends_ok q s l1 /\ sends_ok q (lrun q s l1) l2.
Proof. induction l1 as [|[d t f|a t f] l1 IH]; intros s; cbn; [tauto| |]; rewrite IH; tauto. Qed.

Lemma exec_oracle P (G : list (event St M)) : plan_ok P G -> forall s, length s = P ->
  (forall q s0, nth_error s q = Some s0 -> sends_ok q s0 (proj q G)) ->
  forall q s0, nth_error s q = Some s0 -> nth_error (exec s G) q = Some (lrun q s0 (proj q G)).
Proof.
  induction G as [|e G IH]; intros HP s Hs Hok q s0 Hq; [exact Hq|].
  destruct (HP e (or_introl eq_refl)) as (Ha & Hb & Hab).
  assert (HP' : plan_ok P G) by (intros e' He'; apply HP; right; auto).
  unfold exec; cbn [fold_left]. fold (exec (exec1 s e) G).
  destruct (nth_error s (e_src e)) as [sa|] eqn:Ea; [|apply nth_error_None in Ea; lia].
  destruct (nth_error s (e_dst e)) as [sb|] eqn:Eb; [|apply nth_error_None in Eb; lia].
  assert (E1 : exec1 s e = upd (upd s (e_src e) (snd (e_send e sa))) (e_dst e) (e_recv e sb (fst (e_send e sa)))).
  { unfold exec1. rewrite Ea, Eb. reflexivity. }
  assert (Hl : length (exec1 s e) = P) by (rewrite E1, !upd_length; exact Hs).
  assert (Pa : forall r, proj r (e :: G) = proj1 r e ++ proj r G) by reflexivity.
  assert (Sa : fst (e_send e sa) = m (e_src e) (e_dst e) (e_tag e) /\ sends_ok (e_src e) (snd (e_send e sa)) (proj (e_src e) G)).
  { specialize (Hok _ _ Ea). rewrite Pa in Hok. unfold proj1 in Hok. rewrite Nat.eqb_refl in Hok. exact Hok. }
  assert (Sb : sends_ok (e_dst e) (e_recv e sb (m (e_src e) (e_dst e) (e_tag e))) (proj (e_dst e) G)).
  { specialize (Hok _ _ Eb). rewrite Pa in Hok. unfold proj1 in Hok.
    destruct (Nat.eqb_spec (e_src e) (e_dst e)); [lia|]. rewrite Nat.eqb_refl in Hok. exact Hok. }
  destruct Sa as (Sa1 & Sa2). rewrite Sa1 in E1.
  assert (Look : forall r, nth_error (exec1 s e) r =
     if Nat.eqb r (e_dst e) then Some (e_recv e sb (m (e_src e) (e_dst e) (e_tag e)))
     else if Nat.eqb r (e_src e) then Some (snd (e_send e sa)) else nth_error s r).
  { intros r. rewrite E1, !nth_error_upd.
    destruct (Nat.eqb_spec (e_dst e) (e_src e)); [lia|]. rewrite Ea, Eb.
    destruct (Nat.eqb_spec r (e_dst e)); [reflexivity|]. reflexivity. }
  assert (Hok' : forall r s1, nth_error (exec1 s e) r = Some s1 -> sends_ok r s1 (proj r G)).
  { intros r s1 H1. rewrite Look in H1.
    destruct (Nat.eqb_spec r (e_dst e)) as [->|N1]; [injection H1 as <-; exact Sb|].
    destruct (Nat.eqb_spec r (e_src e)) as [->|N2]; [injection H1 as <-; exact Sa2|].
    specialize (Hok _ _ H1). rewrite Pa in Hok. unfold proj1 in Hok.
    destruct (Nat.eqb_spec (e_src e) r); [congruence|]. destruct (Nat.eqb_spec (e_dst e) r); [congruence|]. exact Hok. }
  rewrite Pa. unfold proj1.
  specialize (Look q).
  destruct (Nat.eqb_spec q (e_dst e)) as [->|N1].
  - destruct (Nat.eqb_spec (e_src e) (e_dst e)); [lia|]. rewrite Nat.eqb_refl.
    rewrite Eb in Hq; injection Hq as <-. cbn. apply IH; auto.
  - destruct (Nat.eqb_spec q (e_src e)) as [->|N2].
    + rewrite Nat.eqb_refl. rewrite Ea in Hq; injection Hq as <-. cbn. apply IH; auto.
    + destruct (Nat.eqb_spec (e_src e) q); [congruence|]. destruct (Nat.eqb_spec (e_dst e) q); [congruence|].
      cbn. apply IH; auto. rewrite Look; exact Hq.
Qed.
End Oracle.

(** flat_map over a range with one or two non-empty images *)
Unset Implicit Arguments.
Section Flat.
Variable B : Type.
Variable f : nat -> list B.
Lemma flat_none a n : (forall i, a <= i < a + n -> f i = []) -> flat_map f (seq a n) = [].
Proof.
  revert a; induction n as [|n IH]; intros a H; [reflexivity|]. cbn. rewrite H by lia.
  apply IH. intros; apply H; lia.
Qed.
Lemma flat_one a n x : a <= x < a + n -> (forall i, a <= i < a + n -> i <> x -> f i = []) -> flat_map f (seq a n) = f x.
Proof.
  intros Hx H. replace n with ((x - a) + (1 + (a + n - x - 1))) by lia.
  rewrite !seq_app, !flat_map_app. replace (a + (x - a)) with x by lia.
  rewrite (flat_none a) by (intros; apply H; lia). rewrite (flat_none (x + 1)) by (intros; apply H; lia).
  cbn. now rewrite !app_nil_r.
Qed.
Lemma flat_two a n x y : a <= x -> x < y -> y < a + n ->
  (forall i, a <= i < a + n -> i <> x -> i <> y -> f i = []) -> flat_map f (seq a n) = f x ++ f y.
Proof.
  intros Hx Hxy Hy H. replace n with ((x + 1 - a) + (a + n - x - 1)) by lia.
  rewrite !seq_app, !flat_map_app.
  rewrite (flat_one a _ x) by (try lia; intros; apply H; lia).
  rewrite (flat_one (a + (x + 1 - a)) _ y) by (try lia; intros; apply H; lia). reflexivity.
Qed.
End Flat.
Lemma flat_map_map {A B C} (g : A -> B) (f : B -> list C) l : flat_map f (map g l) = flat_map (fun x => f (g x)) l.
Proof. induction l; cbn; congruence. Qed.
Lemma flat_map_flat {A B C} (g : A -> list B) (f : B -> list C) l : flat_map f (flat_map g l) = flat_map (fun x => flat_map f (g x)) l.
Proof. induction l; cbn; [reflexivity|]. rewrite flat_map_app; congruence. Qed.
