(** The programs of [CdistModel] are projections of a global exchange plan. *)
From Verif Require Import Base BaseLemmas LayoutModel SchedModel SchedProofs CdistModel CdistProofs.

Lemma modadd size a i : a < size -> i <= size -> (a + i) mod size = if a + i <? size then a + i else a + i - size.
Proof.
  intros Ha Hi. destruct (Nat.ltb_spec (a + i) size); [now apply Nat.mod_small|].
  replace (a + i) with ((a + i - size) + 1 * size) at 1 by lia. rewrite Nat.mod_add by lia.
  apply Nat.mod_small; lia.
Qed.
Lemma modsub size a i : a < size -> 1 <= i <= size -> (a + size - i) mod size = if i <=? a then a - i else a + size - i.
Proof.
  intros Ha Hi. replace (a + size - i) with (a + (size - i)) at 1 by lia. rewrite modadd by lia.
  destruct (Nat.ltb_spec (a + (size - i)) size); destruct (Nat.leb_spec i a); lia.
Qed.
Lemma div_first r i : 1 <= i -> negb (r / i =? 0) = (i <=? r).
Proof.
  intros Hi. destruct (Nat.leb_spec i r) as [H|H].
  - destruct (Nat.eqb_spec (r / i) 0) as [E|E]; [|reflexivity].
    apply Nat.div_small_iff in E; lia.
  - rewrite (proj2 (Nat.div_small_iff r i ltac:(lia)) H). reflexivity.
Qed.

Section Plan.
Context {R V : Type}.
Variable zero : V.
Variable metric : list R -> list R -> list (list V).
Variables n size : nat.
Notation st := (cst R V).
Notation cm := (cmsg R V).
Notation ev := (event st cm).

Definition sndr (q i : nat) := (q + size - i) mod size.
Definition rcvr (q i : nat) := (q + i) mod size.

Definition fsend (i q : nat) : st -> cm * st :=
  if negb (q / i =? 0) then fun s => (send_rows s, calc metric n size (sndr q i) s) else fun s => (send_rows s, s).
Definition frecv (i q : nat) : st -> cm -> st :=
  if negb (q / i =? 0) then @store_moving R V else fun s m => calc metric n size (sndr q i) (store_moving s m).
Definition bsend (i q : nat) : st -> cm * st :=
  if negb (q / i =? 0) then fun s => (send_dij s, set_sym zero n size (rcvr q i) s) else fun s => (send_dij s, s).
Definition brecv (i q : nat) : st -> cm -> st :=
  if negb (q / i =? 0) then @store_sym R V else fun s m => set_sym zero n size (rcvr q i) (store_sym s m).

Definition fwd (i r : nat) : ev := Event r (rcvr r i) i (fsend i r) (frecv i (rcvr r i)).
Definition bwd (i r : nat) : ev := Event r (sndr r i) i (bsend i r) (brecv i (sndr r i)).
Definition round (i : nat) : list ev := map (fwd i) (seq 0 size).
Definition back (i : nat) : list ev :=
  map (bwd i) (seq 0 i) ++ map (bwd i) (map (fun k => size - 1 - k) (seq 0 (size - i))).
Definition hf := (size + 1) / 2.
Definition hfwd (a : nat) : ev :=
  Event (a + hf) a hf (fun s => (send_rows s, s)) (fun s m => calc metric n size (sndr a hf) (store_moving s m)).
Definition hbwd (a : nat) : ev :=
  Event a (a + hf) hf (fun s => (send_dij s, s)) (fun s m => set_sym zero n size (rcvr (a + hf) hf) (store_sym s m)).
Definition half : list ev := map hfwd (seq 0 hf) ++ map hbwd (seq 0 hf).

Definition pair_plan : list ev := flat_map round (seq 1 (size - 1)).
Definition sym_plan : list ev :=
  flat_map (fun i => round i ++ back i) (seq 1 ((size + 1) / 2 - 1)) ++ (if (size + 1) mod 2 =? 0 then [] else half).

Ltac projnil := unfold proj1; cbn [e_src e_dst fwd bwd hfwd hbwd]; repeat match goal with |- context [Nat.eqb ?a ?b] => destruct (Nat.eqb_spec a b); [exfalso|] end; try reflexivity.

Lemma rcvr_sndr q i : q < size -> 1 <= i < size -> rcvr (sndr q i) i = q.
Proof.
  intros Hq Hi. unfold rcvr, sndr. rewrite (modsub size q i) by lia.
  destruct (Nat.leb_spec i q); rewrite modadd by lia; destruct (Nat.ltb_spec (q - i + i) size); try lia;
  match goal with |- context [?a <? ?b] => destruct (Nat.ltb_spec a b) end; lia.
Qed.
Lemma sndr_rcvr q i : q < size -> 1 <= i < size -> sndr (rcvr q i) i = q.
Proof.
  intros Hq Hi. unfold rcvr, sndr. rewrite (modadd size q i) by lia.
  destruct (Nat.ltb_spec (q + i) size); rewrite modsub by lia;
  match goal with |- context [?a <=? ?b] => destruct (Nat.leb_spec a b) end; lia.
Qed.
Lemma sndr_lt q i : q < size -> sndr q i < size.
Proof. intros; apply Nat.mod_upper_bound; lia. Qed.
Lemma rcvr_lt q i : q < size -> rcvr q i < size.
Proof. intros; apply Nat.mod_upper_bound; lia. Qed.

Lemma proj_round q i : q < size -> 1 <= i < size -> proj q (round i) = ring_step metric n size q i.
Proof.
  intros Hq Hi. unfold proj, round. rewrite flat_map_map.
  assert (Oth : forall r, 0 <= r < 0 + size -> r <> q -> r <> sndr q i -> proj1 q (fwd i r) = []).
  { intros r Hr N1 N2. projnil; [auto|]. apply N2. rewrite <- e, sndr_rcvr by lia. reflexivity. }
  assert (Own : proj1 q (fwd i q) = [ASend (rcvr q i) i (fsend i q)]).
  { unfold proj1; cbn [e_src]. rewrite Nat.eqb_refl. reflexivity. }
  assert (Nq : sndr q i <> q). { unfold sndr. rewrite modsub by lia. destruct (Nat.leb_spec i q); lia. }
  assert (Rec : proj1 q (fwd i (sndr q i)) = [ARecv (sndr q i) i (frecv i q)]).
  { unfold proj1; cbn [e_src e_dst e_tag e_recv e_send fwd]. destruct (Nat.eqb_spec (sndr q i) q); [contradiction|].
    rewrite rcvr_sndr by lia. rewrite Nat.eqb_refl. reflexivity. }
  unfold ring_step. unfold fsend, frecv in *. rewrite div_first in * by lia.
  assert (Sv : sndr q i = if i <=? q then q - i else q + size - i) by (apply modsub; lia).
  destruct (Nat.leb_spec i q) as [C|C].
  - rewrite (flat_two _ _ 0 size (sndr q i) q); try lia; [|intros; apply Oth; auto].
    now rewrite Own, Rec.
  - rewrite (flat_two _ _ 0 size q (sndr q i)); try lia; [|intros; apply Oth; auto].
    now rewrite Own, Rec.
Qed.

Lemma proj_back q i : q < size -> 1 <= i -> 2 * i < size -> proj q (back i) = back_step R zero n size q i.
Proof.
  intros Hq Hi H2. unfold proj, back. rewrite flat_map_app, !flat_map_map.
  assert (Oth : forall r, r < size -> r <> q -> r <> rcvr q i -> proj1 q (bwd i r) = []).
  { intros r Hr N1 N2. projnil; [auto|]. apply N2. rewrite <- e, rcvr_sndr by lia. reflexivity. }
  assert (Own : proj1 q (bwd i q) = [ASend (sndr q i) i (bsend i q)]).
  { unfold proj1; cbn [e_src]. rewrite Nat.eqb_refl. reflexivity. }
  assert (Rv : rcvr q i = if q + i <? size then q + i else q + i - size) by (apply modadd; lia).
  assert (Nq : rcvr q i <> q). { rewrite Rv. destruct (Nat.ltb_spec (q + i) size); lia. }
  assert (Rec : proj1 q (bwd i (rcvr q i)) = [ARecv (rcvr q i) i (brecv i q)]).
  { unfold proj1; cbn [e_src e_dst e_tag e_recv e_send bwd]. destruct (Nat.eqb_spec (rcvr q i) q); [contradiction|].
    rewrite sndr_rcvr by lia. rewrite Nat.eqb_refl. reflexivity. }
  unfold back_step. unfold bsend, brecv in *. rewrite div_first in * by lia. fold (rcvr q i) (sndr q i).
  destruct (Nat.leb_spec i q) as [C|C]; destruct (Nat.ltb_spec (q + i) size) as [D|D].
  - (* both in the descending part *)
    rewrite flat_none by (intros; apply Oth; lia).
    rewrite (flat_two _ _ 0 (size - i) (size - 1 - rcvr q i) (size - 1 - q)); try lia; [|intros; apply Oth; lia].
    replace (size - 1 - (size - 1 - rcvr q i)) with (rcvr q i) by lia. replace (size - 1 - (size - 1 - q)) with q by lia.
    now rewrite Own, Rec.
  - rewrite (flat_one _ _ 0 i (rcvr q i)) by (try lia; intros; apply Oth; lia).
    rewrite (flat_one _ _ 0 (size - i) (size - 1 - q)) by (try lia; intros; apply Oth; lia).
    replace (size - 1 - (size - 1 - q)) with q by lia. now rewrite Own, Rec.
  - rewrite (flat_one _ _ 0 i q) by (try lia; intros; apply Oth; lia).
    rewrite (flat_one _ _ 0 (size - i) (size - 1 - rcvr q i)) by (try lia; intros; apply Oth; lia).
    replace (size - 1 - (size - 1 - rcvr q i)) with (rcvr q i) by lia. now rewrite Own, Rec.
  - lia.
Qed.

Lemma proj_half q : q < size -> size = 2 * hf -> proj q half = half_step zero metric n size q.
Proof.
  intros Hq Hs. unfold proj, half. rewrite flat_map_app, !flat_map_map.
  assert (Hh : 1 <= hf) by lia.
  assert (S2 : size / 2 = hf) by (rewrite Hs at 1; rewrite Nat.mul_comm; apply Nat.div_mul; lia).
  unfold half_step. fold hf. rewrite S2. fold (sndr q hf) (rcvr q hf).
  destruct (Nat.ltb_spec q hf) as [C|C].
  - rewrite (flat_one _ _ 0 hf q) by (try lia; intros; projnil; lia).
    rewrite (flat_one _ _ 0 hf q) by (try lia; intros; projnil; lia).
    assert (E : sndr q hf = q + hf) by (unfold sndr; rewrite modsub by lia; destruct (Nat.leb_spec hf q); lia).
    unfold proj1; cbn [e_src e_dst e_tag e_recv e_send hfwd hbwd]. rewrite Nat.eqb_refl.
    destruct (Nat.eqb_spec (q + hf) q); [lia|]. rewrite E. reflexivity.
  - rewrite (flat_one _ _ 0 hf (q - hf)) by (try lia; intros; projnil; lia).
    rewrite (flat_one _ _ 0 hf (q - hf)) by (try lia; intros; projnil; lia).
    assert (E : rcvr q hf = q - hf) by (unfold rcvr; rewrite modadd by lia; destruct (Nat.ltb_spec (q + hf) size); lia).
    unfold proj1; cbn [e_src e_dst e_tag e_recv e_send hfwd hbwd]. replace (q - hf + hf) with q by lia. rewrite Nat.eqb_refl.
    destruct (Nat.eqb_spec (q - hf) q); [lia|]. rewrite E. reflexivity.
Qed.

Lemma flat_map_ext_in {A B} (f g : A -> list B) l : (forall x, In x l -> f x = g x) -> flat_map f l = flat_map g l.
Proof. induction l; intros H; cbn; [reflexivity|]. rewrite H by (now left). f_equal. apply IHl. intros; apply H; now right. Qed.

Lemma proj_pair q : q < size -> proj q pair_plan = pair_prog metric n size q.
Proof.
  intros Hq. unfold pair_plan, pair_prog, proj. rewrite flat_map_flat. apply flat_map_ext_in.
  intros i Hi. apply in_seq in Hi. apply proj_round; lia.
Qed.
Lemma half_lt i : 1 <= i -> i < 1 + ((size + 1) / 2 - 1) -> 2 * i < size.
Proof. intros. pose proof (Nat.mul_div_le (size + 1) 2 ltac:(lia)). lia. Qed.
Lemma even_hf : (size + 1) mod 2 <> 0 -> size = 2 * hf.
Proof.
  intros H. unfold hf. pose proof (Nat.div_mod (size + 1) 2 ltac:(lia)).
  pose proof (Nat.mod_upper_bound (size + 1) 2 ltac:(lia)). lia.
Qed.
Lemma proj_sym q : q < size -> proj q sym_plan = sym_prog zero metric n size q.
Proof.
  intros Hq. unfold sym_plan, sym_prog, proj. rewrite flat_map_app, flat_map_flat. f_equal.
  - apply flat_map_ext_in. intros i Hi. apply in_seq in Hi. pose proof (half_lt i ltac:(lia) ltac:(lia)).
    rewrite flat_map_app. f_equal; [apply proj_round|apply proj_back]; lia.
  - destruct (Nat.eqb_spec ((size + 1) mod 2) 0) as [E|E]; [reflexivity|]. apply proj_half; auto. now apply even_hf.
Qed.

Lemma round_ok i : 1 <= i < size -> plan_ok size (round i).
Proof.
  intros Hi e He. unfold round in He. apply in_map_iff in He. destruct He as (r & <- & Hr). apply in_seq in Hr.
  cbn. repeat split; [lia|apply rcvr_lt; lia|]. unfold rcvr. rewrite modadd by lia. destruct (Nat.ltb_spec (r + i) size); lia.
Qed.
Lemma back_ok i : 1 <= i < size -> plan_ok size (back i).
Proof.
  intros Hi e He. unfold back in He. rewrite <- map_app in He. apply in_map_iff in He. destruct He as (r & <- & Hr).
  assert (r < size). { apply in_app_iff in Hr. destruct Hr as [Hr|Hr]; [apply in_seq in Hr; lia|].
    apply in_map_iff in Hr. destruct Hr as (k & <- & Hk). apply in_seq in Hk. lia. }
  cbn. repeat split; [lia|apply sndr_lt; lia|]. unfold sndr. rewrite modsub by lia. destruct (Nat.leb_spec i r); lia.
Qed.
Lemma half_ok : size = 2 * hf -> plan_ok size half.
Proof.
  intros Hs e He. unfold half in He. apply in_app_iff in He.
  destruct He as [He|He]; apply in_map_iff in He; destruct He as (a & <- & Ha); apply in_seq in Ha; cbn [e_src e_dst hfwd hbwd]; lia.
Qed.
Lemma pair_ok : plan_ok size pair_plan.
Proof.
  intros e He. unfold pair_plan in He. apply in_flat_map in He. destruct He as (i & Hi & He). apply in_seq in Hi.
  apply (round_ok i); auto; lia.
Qed.
Lemma sym_ok : plan_ok size sym_plan.
Proof.
  destruct (Nat.eq_dec size 0) as [Z|NZ]; [intros e He; unfold sym_plan, half, hf in He; rewrite Z in He; cbn in He; contradiction|].
  intros e He. unfold sym_plan in He. apply in_app_iff in He. destruct He as [He|He].
  - apply in_flat_map in He. destruct He as (i & Hi & He). apply in_seq in Hi. pose proof (half_lt i ltac:(lia) ltac:(lia)).
    apply in_app_iff in He. destruct He; [apply (round_ok i)|apply (back_ok i)]; auto; lia.
  - destruct (Nat.eqb_spec ((size + 1) mod 2) 0) as [E|E]; [contradiction|]. apply half_ok; auto. now apply even_hf.
Qed.
End Plan.
