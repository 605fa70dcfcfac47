(** All interleavings of the three threads: progress, termination, what the batches hold. *)
From Verif Require Import Base BaseLemmas PdsModel.
Open Scope nat_scope.

Section Pds.
Context {A : Type} (dflt : A).
Variables (file : list (list A)) (total size bs load_len needed : nat).
Hypothesis HB : 0 < bs.
Notation pst := (pstate (A := A)).
Notation cstep := (conv_step dflt file bs load_len).
Notation lstep := (load_step file total size load_len needed).
Notation pstep := (pstep dflt file total size bs load_len needed).
Notation run := (run dflt file total size bs load_len needed).
Notation work := (work dflt file total size bs load_len needed).

Lemma run_inv (I : pst -> Prop) len : (forall t s s', I s -> pstep len t s = Some s' -> I s') -> forall sched s, I s -> I (run len sched s).
Proof. intros H. induction sched as [|t ts IH]; intros s Hs; [auto|]. cbn [PdsModel.run]. apply IH. destruct (pstep len t s) eqn:E; [eapply H; eauto|auto]. Qed.

(** the lock *)
Definition load_locked (l : load_pc (A := A)) := match l with LEnter _ _ | LRepl _ _ _ | LReset _ | LLeave _ => True | _ => False end.
Definition conv_locked (c : conv_pc (A := A)) := match c with CNotify _ _ => True | _ => False end.
Definition lock_ok (s : pst) := match lock s with Free => ~ load_locked (lpc s) /\ ~ conv_locked (cpc s) | ByConv => conv_locked (cpc s) /\ ~ load_locked (lpc s) | ByLoad => load_locked (lpc s) /\ ~ conv_locked (cpc s) end.
Lemma lock_step len t s s' : lock_ok s -> pstep len t s = Some s' -> lock_ok s'.
Proof.
  intros H E. unfold lock_ok in *. destruct s as [mm us lk cp lp qq ll ls le rd tk]. cbn [lock lpc cpc] in H. destruct t; cbn [PdsModel.pstep] in E.
  - unfold next_step in E. cbn [taken ready] in E. destruct (_ =? _); [discriminate|]. destruct rd; [discriminate|]. injection E as <-. exact H.
  - unfold conv_step in E. cbn [cpc lock used lpc loads_left mem] in E. destruct cp as [[|i rest] cv|i rest got cv|i rest cv|rest cv|rest cv|rest cv|rest cv|]; try discriminate.
    + injection E as <-. cbn. destruct lk; tauto.
    + injection E as <-. cbn. destruct lk; tauto.
    + destruct (_ <? _); injection E as <-; cbn; destruct lk; tauto.
    + injection E as <-. cbn. unfold after_append. destruct (_ =? _); cbn; destruct lk; tauto.
    + destruct (_ && _); injection E as <-; cbn; destruct lk; tauto.
    + destruct lk; try discriminate. injection E as <-. cbn. tauto.
    + destruct lk; try (cbn in H; tauto). injection E as <-. destruct lp; cbn in *; tauto.
    + injection E as <-. cbn. destruct lk; tauto.
  - unfold load_step in E. cbn [lpc lock queued mem used load_start load_end] in E. destruct lp as [|[|k]|k h|k h|k h|k h|k h j|k|k]; try discriminate.
    + destruct qq; [discriminate|]. injection E as <-. cbn. destruct lk; tauto.
    + injection E as <-. cbn. destruct lk; tauto.
    + injection E as <-. cbn. destruct lk; tauto.
    + destruct lk; try discriminate. injection E as <-. cbn. tauto.
    + injection E as <-. cbn. destruct lk; cbn in H; tauto.
    + destruct lk; try discriminate. injection E as <-. cbn. tauto.
    + destruct (_ <? _); injection E as <-; cbn; destruct lk; cbn in H; tauto.
    + injection E as <-. cbn. destruct lk; cbn in H; tauto.
    + injection E as <-. cbn. destruct lk; cbn in H; tauto.
Qed.

(** the batches *)
Definition chunks (s : pst) : list (list nat) := map (map fst) (taken s ++ ready s).
Definition todo (c : conv_pc (A := A)) (l : list nat) : Prop :=
  match c with
  | CNext rest cv => l = map fst cv ++ rest /\ length cv < bs
  | CRead i rest got cv => l = map fst cv ++ i :: rest /\ length cv < bs
  | CUsed i rest cv => l = map fst cv ++ rest /\ length cv <= bs
  | CFull rest cv | CAcq rest cv | CNotify rest cv | CPut rest cv => l = map fst cv ++ rest /\ length cv = bs
  | CDone => length l < bs
  end.
Definition chunks_ok (idx : list nat) (s : pst) : Prop :=
  Forall (fun b => length b = bs) (chunks s) /\ exists l, idx = concat (chunks s) ++ l /\ todo (cpc s) l.
Lemma chunks_step idx len t s s' : chunks_ok idx s -> pstep len t s = Some s' -> chunks_ok idx s'.
Proof.
  intros (F & l & EI & T) E. destruct s as [mm us lk cp lp qq ll ls le rd tk]. destruct t; cbn [PdsModel.pstep] in E.
  - unfold next_step in E. cbn [taken ready] in E. destruct (_ =? _); [discriminate|]. destruct rd as [|b rd]; [discriminate|]. injection E as <-.
    assert (C : forall m u k c p q a w e, chunks (mk_p m u k c p q a w e rd (tk ++ [b])) = chunks (mk_p m u k c p q a w e (b :: rd) tk)) by (intros; unfold chunks; cbn [taken ready]; now rewrite <- app_assoc).
    unfold chunks_ok. rewrite C. split; [exact F|]. exists l. split; [exact EI|exact T].
  - assert (C : forall x, chunks (mk_p mm us lk cp lp qq ll ls le rd tk) = x -> forall m u k c p q a w e, chunks (mk_p m u k c p q a w e rd tk) = x) by (intros x <-; reflexivity).
    specialize (C _ eq_refl). unfold conv_step in E. cbn [cpc lock used lpc loads_left mem] in E. unfold chunks_ok. cbn [cpc] in T.
    destruct cp as [[|i rest] cv|i rest got cv|i rest cv|rest cv|rest cv|rest cv|rest cv|]; try discriminate.
    + injection E as <-. cbn [set_c]. split; [exact F|]. exists l. split; [exact EI|]. cbn in *. destruct T as [-> L]. rewrite app_nil_r, map_length. exact L.
    + injection E as <-. cbn [set_c]. split; [exact F|]. exists l. split; [exact EI|]. exact T.
    + destruct (_ <? _); injection E as <-; cbn [set_c].
      * split; [exact F|]. exists l. split; [exact EI|]. exact T.
      * split; [exact F|]. exists l. split; [exact EI|]. cbn in *. destruct T as [-> L]. rewrite map_app, app_length. cbn. rewrite <- app_assoc. split; [auto|lia].
    + injection E as <-. cbn [set_c set_used]. split; [exact F|]. exists l. split; [exact EI|]. cbn in *. destruct T as [-> L]. unfold after_append. destruct (Nat.eqb_spec (length cv) bs); cbn; split; auto. lia.
    + injection E as <-. cbn [set_c]. split; [exact F|]. exists l. split; [exact EI|]. cbn in *. destruct (_ && _); cbn; exact T.
    + destruct lk; try discriminate. injection E as <-. cbn [set_c set_lock]. split; [exact F|]. exists l. split; [exact EI|]. exact T.
    + injection E as <-. destruct lp; cbn [set_c set_lock set_l]; (split; [exact F|]); exists l; (split; [exact EI|]); exact T.
    + injection E as <-. cbn in T. destruct T as [-> L].
      assert (CC : forall m u k c p q a w e, chunks (mk_p m u k c p q a w e (rd ++ [cv]) tk) = chunks (mk_p mm us lk (CPut rest cv) lp qq ll ls le rd tk) ++ [map fst cv]) by (intros; unfold chunks; cbn [taken ready]; rewrite app_assoc, map_app; reflexivity).
      rewrite CC. split; [apply Forall_app; split; [exact F|constructor; [now rewrite map_length|constructor]]|]. exists rest. split; [|cbn; split; [auto|lia]]. rewrite concat_app. cbn [concat]. rewrite app_nil_r, <- app_assoc. exact EI.
  - assert (E2 : cpc s' = cp /\ ready s' = rd /\ taken s' = tk).
    { unfold load_step in E. cbn [lpc lock queued mem used load_start load_end] in E. destruct lp as [|[|k]|k h|k h|k h|k h|k h j|k|k]; try discriminate; try (injection E as <-; cbn; auto).
      - destruct qq; [discriminate|]. injection E as <-; cbn; auto.
      - destruct lk; try discriminate. injection E as <-; cbn; auto.
      - destruct lk; try discriminate. injection E as <-; cbn; auto.
      - destruct (_ <? _); injection E as <-; cbn; auto. }
    destruct E2 as (E2 & E3 & E4). unfold chunks_ok, chunks in *. rewrite E2, E3, E4. cbn [taken ready cpc] in *. split; [exact F|]. exists l. split; [exact EI|exact T].
Qed.

(** termination: every step lowers this number *)
Definition K := length file + 9.
Definition conv_cost (c : conv_pc (A := A)) : nat :=
  match c with
  | CNext rest _ => K * length rest + 1
  | CRead _ rest got _ => K * length rest + (length file - length got) + 9
  | CUsed _ rest _ => K * length rest + 8
  | CFull rest _ => K * length rest + 7
  | CAcq rest _ => K * length rest + 6
  | CNotify rest _ => K * length rest + 5
  | CPut rest _ => K * length rest + 3
  | CDone => 0
  end.
Definition load_cost (l : load_pc (A := A)) : nat :=
  match l with
  | LIdle => 0
  | LRead k => K * k + 1
  | LAcq k _ => K * k + length file + 9
  | LEnter k _ => K * k + length file + 8
  | LWait k _ => K * k + length file + 7
  | LWoken k _ => K * k + length file + 6
  | LRepl k _ j => K * k + (length file - j) + 4
  | LReset k => K * k + 3
  | LLeave k => K * k + 2
  end.
Definition cost (s : pst) : nat := conv_cost (cpc s) + load_cost (lpc s) + queued s * (K * needed + 2) + length (ready s).
Lemma cost_step len t s s' : pstep len t s = Some s' -> cost s' < cost s.
Proof.
  intros E. assert (HK : K = length file + 9) by reflexivity. destruct s as [mm us lk cp lp qq ll ls le rd tk]. unfold cost. destruct t; cbn [PdsModel.pstep] in E.
  - unfold next_step in E. cbn [taken ready] in E. destruct (_ =? _); [discriminate|]. destruct rd as [|b rd]; [discriminate|]. injection E as <-. cbn. lia.
  - unfold conv_step in E. cbn [cpc lock used lpc loads_left mem] in E. destruct cp as [[|i rest] cv|i rest got cv|i rest cv|rest cv|rest cv|rest cv|rest cv|]; try discriminate.
    + injection E as <-. cbn [conv_cost cpc lpc queued ready set_c]. cbn [length]. lia.
    + injection E as <-. cbn [conv_cost cpc lpc queued ready set_c]. cbn [length]. lia.
    + unfold ncols in E. destruct (Nat.ltb_spec (length got) (length file)); injection E as <-; cbn [conv_cost cpc lpc queued ready set_c]; rewrite ?app_length; cbn [length]; lia.
    + injection E as <-. cbn [conv_cost cpc lpc queued ready set_c set_used]. unfold after_append. destruct (_ =? _); cbn [conv_cost]; lia.
    + injection E as <-. cbn [conv_cost cpc lpc queued ready set_c]. destruct (_ && _); cbn [conv_cost]; lia.
    + destruct lk; try discriminate. injection E as <-. cbn [conv_cost cpc lpc queued ready set_c set_lock]. lia.
    + injection E as <-. destruct lp; cbn [conv_cost load_cost cpc lpc queued ready set_c set_lock set_l]; lia.
    + injection E as <-. cbn [conv_cost cpc lpc queued ready set_c]. rewrite app_length. cbn [length]. lia.
  - unfold load_step in E. cbn [lpc lock queued mem used load_start load_end] in E. destruct lp as [|[|k]|k h|k h|k h|k h|k h j|k|k]; try discriminate.
    + destruct qq; [discriminate|]. injection E as <-. cbn [load_cost cpc lpc queued ready]. lia.
    + injection E as <-. cbn [load_cost cpc lpc queued ready set_l]. lia.
    + injection E as <-. cbn [load_cost cpc lpc queued ready set_l]. lia.
    + destruct lk; try discriminate. injection E as <-. cbn [load_cost cpc lpc queued ready set_l set_lock]. lia.
    + injection E as <-. cbn [load_cost cpc lpc queued ready set_l set_lock]. lia.
    + destruct lk; try discriminate. injection E as <-. cbn [load_cost cpc lpc queued ready set_l set_lock]. lia.
    + unfold ncols in E. destruct (Nat.ltb_spec j (length file)); injection E as <-; cbn [load_cost cpc lpc queued ready set_l]; lia.
    + injection E as <-. cbn [load_cost cpc lpc queued ready set_l set_used]. lia.
    + injection E as <-. cbn [load_cost cpc lpc queued ready set_l]. lia.
Qed.
Lemma work_bound len sched : forall s, work len sched s <= cost s.
Proof. induction sched as [|t ts IH]; intros s; [cbn; lia|]. cbn [PdsModel.work]. destruct (pstep len t s) as [s'|] eqn:E; [|apply IH]. pose proof (cost_step _ _ _ _ E). specialize (IH s'). lia. Qed.

(** progress *)
Definition stuck len s := forall t, pstep len t s = None.
Lemma stuck_done len s : lock_ok s -> stuck len s -> cpc s = CDone /\ (length (taken s) = len \/ ready s = []).
Proof.
  intros HL HS. pose proof (HS Converter) as S1. pose proof (HS Loader) as S2. pose proof (HS Consumer) as S3. destruct s as [mm us lk cp lp qq ll ls le rd tk]. cbn [PdsModel.pstep] in *. unfold next_step in S3. cbn [taken ready cpc] in *. split.
  - unfold conv_step in S1. cbn [cpc lock used lpc loads_left mem] in S1. destruct cp as [[|i rest] cv|i rest got cv|i rest cv|rest cv|rest cv|rest cv|rest cv|]; try discriminate; auto; [destruct (_ <? _); discriminate|].
    exfalso. unfold lock_ok in HL. cbn [lock lpc cpc] in HL. destruct lk; [discriminate|cbn in HL; tauto|]. destruct HL as [HL _]. unfold load_step in S2. cbn [lpc lock queued mem used load_start load_end] in S2. destruct lp; cbn in HL; try tauto; try discriminate. destruct (_ <? _); discriminate.
  - destruct (Nat.eqb_spec (length tk) len); [auto|]. destruct rd; [auto|discriminate].
Qed.
End Pds.
