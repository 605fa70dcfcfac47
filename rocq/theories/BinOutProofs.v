(** out=, where= and in-place binary operations: proofs. *)
From Verif Require Import Base ShapeSpec BaseLemmas LayoutModel NdSpec TensorSpec TensorLemmas OpsModel OpsProofs4 RedistModel ShapeModel ShapeProofs3 ShapeProofs4 ShapeProps BinSpec BinModel NdLemmas BinProofs BinProofs2 BinProofs3 BinProps CloseProofs2 BinOutModel.
Open Scope Z_scope.

Lemma eqb_idx_refl l : eqb_idx l l = true.
Proof. now apply eqb_idx_eq. Qed.
Lemma opt_eqb_eq a b : opt_eqb a b = true <-> a = b.
Proof. destruct a, b; cbn; try rewrite Nat.eqb_eq; split; congruence. Qed.
Lemma out_split_spec osh sh1 sh2 s1 s2 : out_split osh sh1 sh2 s1 s2 = result_split sh1 sh2 osh s1 s2.
Proof. unfold out_split, result_split. destruct s1 as [a|], s2 as [b|]; cbn; auto; repeat (destruct (_ =? _); auto). Qed.
Lemma lpad_padded n sh : lpad n sh = padded n sh.
Proof. reflexivity. Qed.
Lemma bshapes_ok s1 s2 o : bshapes s1 s2 = Ok o <-> bcast_shape s1 s2 o.
Proof.
  unfold bshapes, bcast_shape. rewrite bshape_ok. change lpad with padded. set (m := Nat.max (length s1) (length s2)).
  assert (L1 : length (padded m s1) = m) by (unfold padded; rewrite app_length, repeat_length; lia).
  assert (L2 : length (padded m s2) = m) by (unfold padded; rewrite app_length, repeat_length; lia).
  rewrite L1, L2. split.
  - intros (E & _ & H). split; [auto|]. intros i Hi. rewrite <- E. specialize (H i Hi). rewrite (nth_indep _ 1 0), (nth_indep (padded m s2) 1 0), (nth_indep o 1 0); auto; lia.
  - intros (E & H). split; [auto|]. split; [auto|]. intros i Hi. specialize (H i Hi). rewrite E in H. rewrite (nth_indep _ 1 0), (nth_indep (padded m s2) 1 0), (nth_indep o 1 0) in H; auto; lia.
Qed.

(** writing to out, where the values have the layout of out *)
Lemma copy_same {C} (t v : arr C) : ash t = ash v -> exists z, copy_ t v = Ok z /\ ash z = ash v /\ forall idx, in_bounds (ash v) idx -> adat z idx = adat v idx.
Proof.
  intros E. unfold copy_. rewrite E, bshape_same, eqb_idx_refl. eexists. split; [reflexivity|]. split; [reflexivity|]. intros idx Hi. cbn [adat]. now rewrite bclamp_in.
Qed.
Lemma copy_ok {C} (Go F : list Z -> C) gsh sp c os vs : represents Go gsh sp c os -> represents F gsh sp c vs ->
  exists ws, all_ok (map (fun p => copy_ (fst p) (snd p)) (combine os vs)) = Ok ws /\ represents F gsh sp c ws.
Proof.
  intros RO RV. destruct RO as (LO & N & RO). destruct RV as (LV & _ & RV).
  destruct (all_ok_Qn (fun p => copy_ (fst p) (snd p)) (fun r z => exists v, nth_error vs r = Some v /\ ash z = ash v /\ forall idx, in_bounds (ash v) idx -> adat z idx = adat v idx) (combine os vs)) as (ws & E & L & Q).
  - intros r [o v] Hp. apply nth_error_combine in Hp as [P1 P2]. cbn [fst snd] in *.
    assert (ES : ash o = ash v).
    { destruct sp as [s|]; [destruct RO as (_ & _ & _ & RO); destruct RV as (_ & _ & _ & RV); rewrite (proj1 (RO r o P1)), (proj1 (RV r v P2)); reflexivity|].
      rewrite (proj1 (RO o (nth_error_In _ _ P1))), (proj1 (RV v (nth_error_In _ _ P2))). reflexivity. }
    destruct (copy_same o v ES) as (z & Ez & Sz & Dz). exists z. split; [exact Ez|]. exists v. auto.
  - exists ws. split; [exact E|]. rewrite combine_length in L. split; [lia|]. split; [exact N|]. destruct sp as [s|].
    + destruct RV as (Hs & Hc & Hsum & RV). split; [exact Hs|]. split; [exact Hc|]. split; [exact Hsum|]. intros r z Hz. destruct (Q r z Hz) as (v & Hv & Sz & Dz). destruct (RV r v Hv) as [Sv Dv].
      split; [congruence|]. intros idx Hi. rewrite Dz by (rewrite Sv; exact Hi). auto.
    + intros z Hz. apply In_nth_error in Hz as (r & Hz). destruct (Q r z Hz) as (v & Hv & Sz & Dz). destruct (RV v (nth_error_In _ _ Hv)) as [Sv Dv].
      split; [congruence|]. intros idx Hi. rewrite Dz by (rewrite Sv; exact Hi). auto.
Qed.

(** an operand of (padded) shape [g] and split [sp] can be brought to the layout of an array of
    shape [osh] split along [s] on [P] processes *)
Definition fits (P : nat) (g osh : list Z) (sp : option nat) (s : nat) : Prop :=
  P = 1%nat \/ (nth s g 0 = 1 /\ 1 < nth s osh 0) \/ (nth s g 0 = nth s osh 0 /\ (sp = None \/ sp = Some s)).

Section Core.
Context {A B C : Type} (da : A) (db : B) (f : A -> B -> C) (x1 : bnd A) (x2 : bnd B) (out : bnd C).
Context (G1 : list Z -> A) (G2 : list Z -> B) (Go : list Z -> C) (c1 c2 c0 osh : list Z).
Notation y1 := (b_arr x1). Notation y2 := (b_arr x2). Notation yo := (b_arr out). Notation P := (length (d_locals (b_arr out))).
Notation g1 := (d_gshape (b_arr x1)). Notation g2 := (d_gshape (b_arr x2)).
Hypothesis R1 : represents G1 g1 (d_split y1) c1 (d_locals y1).
Hypothesis R2 : represents G2 g2 (d_split y2) c2 (d_locals y2).
Hypothesis RO : represents Go osh (d_split yo) c0 (d_locals yo).
Hypothesis GO : d_gshape yo = osh.
Hypothesis T1 : truthful x1.
Hypothesis T2 : truthful x2.
Hypothesis TO : truthful out.
Hypothesis HP : (0 < P)%nat.
Hypothesis HP1 : length (d_locals y1) = P.
Hypothesis HP2 : length (d_locals y2) = P.
Hypothesis HB : bshape g1 g2 = Ok osh.

Lemma sanitize_to_ok {T} (dt : T) (arg : bnd T) (G : list Z -> T) c s : represents G (d_gshape (b_arr arg)) (d_split (b_arr arg)) c (d_locals (b_arr arg)) -> truthful arg ->
  length (d_locals (b_arr arg)) = P -> d_split yo = Some s -> length (d_gshape (b_arr arg)) = length osh ->
  (nth s (d_gshape (b_arr arg)) 0 = nth s osh 0 \/ nth s (d_gshape (b_arr arg)) 0 = 1) ->
  fits P (d_gshape (b_arr arg)) osh (d_split (b_arr arg)) s ->
  exists z, sanitize_to dt arg out = Ok z /\ length (d_locals z) = P /\
    forall r t, nth_error (d_locals z) r = Some t ->
      exists e, aligned t (d_gshape (b_arr arg)) G s (nth r c0 0) (zsum (firstn r c0)) e /\ (nth s (d_gshape (b_arr arg)) 0 = nth s osh 0 -> e = nth r c0 0).
Proof.
  clear HP1 HP2 HB R1 R2 T1 T2. clear f da db x1 x2 G1 G2 c1 c2. intros R HT LP Es LG D FT. pose proof RO as RO'. rewrite Es in RO'. pose proof (local_counts _ _ _ _ _ RO') as LC. fold (lcounts yo s) in LC. destruct RO' as (LO & No & Hs & Hc & Hsum & _).
  assert (E : sanitize_to dt arg out = sanitize_dist dt arg s (nth s osh 0) (lcounts yo s) (is_bal out)).
  { unfold sanitize_to. rewrite Es, GO. destruct (Nat.eqb_spec P 1) as [E1|]; [|reflexivity]. unfold sanitize_dist. rewrite LP, E1. reflexivity. }
  rewrite E, LC.
  destruct (sanitize_dist_ok dt arg G c s (nth s osh 0) c0 (is_bal out)) as (z & Ez & Lz & Al); auto.
  - lia.
  - lia.
  - lia.
  - intros Hb. rewrite LP. rewrite <- LC. rewrite <- GO. apply (is_bal_true out s TO Es Hb).
  - unfold fits in FT. rewrite LP. destruct FT as [H|[H|H]]; [left|right; left|right; right]; auto.
  - exists z. split; [exact Ez|]. split; [lia|exact Al].
Qed.
Definition FF (idx : list Z) : C := f (G1 (clamp g1 idx)) (G2 (clamp g2 idx)).
Lemma core_out : (match d_split yo with Some s => fits P g1 osh (d_split y1) s /\ fits P g2 osh (d_split y2) s | None => d_split y1 = None /\ d_split y2 = None end) ->
  exists z1 z2 ls, sanitize_to da x1 out = Ok z1 /\ sanitize_to db x2 out = Ok z2 /\
    all_ok (map (fun p => bop f (fst p) (snd p)) (combine (d_locals z1) (d_locals z2))) = Ok ls /\ represents FF osh (d_split yo) c0 ls.
Proof.
  intros HF. pose proof HB as HB'. apply bshape_ok in HB' as (LG1 & LG2 & D).
  assert (HD : (exists s, d_split yo = Some s) \/ d_split yo = None) by (destruct (d_split yo); eauto). destruct HD as [[s Es]|Es]; rewrite Es in HF |- *; pose proof RO as RO'; rewrite Es in RO'.
  - destruct HF as [F1 F2]. assert (Hs : (s < length osh)%nat) by apply RO'. pose proof (D s Hs) as Ds. unfold bcast_dim in Ds.
    destruct (sanitize_to_ok da x1 G1 c1 s) as (z1 & E1 & L1 & A1); auto; try lia.
    destruct (sanitize_to_ok db x2 G2 c2 s) as (z2 & E2 & L2 & A2); auto; try lia.
    exists z1, z2. destruct (assemble f g1 g2 osh G1 G2 s c0 (d_locals z1) (d_locals z2)) as (ls & EL & RL); auto.
    + apply RO'.
    + apply RO'.
    + apply RO'.
    + destruct RO' as (LO & _). lia.
    + destruct RO' as (LO & _). lia.
    + intros r t1 t2 H1 H2. destruct (A1 r t1 H1) as (e1 & B1 & I1). destruct (A2 r t2 H2) as (e2 & B2 & I2). exists e1, e2. split; [exact B1|]. split; [exact B2|].
      assert (nth s g1 0 = nth s osh 0 \/ nth s g2 0 = nth s osh 0) as [Q|Q] by lia; auto.
    + exists ls. auto.
  - destruct HF as [N1 N2]. exists y1, y2.
    assert (ES : forall T (dt : T) (a : bnd T), d_split (b_arr a) = None -> sanitize_to dt a out = Ok (b_arr a)).
    { intros T dt a Ha. unfold sanitize_to. rewrite Es, Ha. destruct (P =? 1)%nat; reflexivity. }
    rewrite !ES by auto. 
    destruct (core_none A B C da db f x1 x2 G1 G2 c1 c2 osh R1 R2) as (ls & EL & RL); auto; try lia.
    exists ls. split; [reflexivity|]. split; [reflexivity|]. split; [exact EL|]. destruct RL as (LL & NL & RL). destruct RO' as (LO & _). destruct R1 as (LL1 & _). split; [lia|]. auto.
Qed.
End Core.

(** where=: per rank, the pairs (value, mask) and then the choice *)
Lemma all_ok_bind {X Y W} (g : X -> res Y) (h : Y -> res W) (gs : list X) ys : all_ok (map g gs) = Ok ys -> all_ok (map (fun x => do y <- g x; h y) gs) = all_ok (map h ys).
Proof.
  revert ys. induction gs as [|x gs IH]; intros ys E; cbn [map all_ok] in E |- *; [injection E as <-; reflexivity|].
  destruct (g x) as [y|e]; [|discriminate E]. cbn [bind] in E |- *. destruct (all_ok (map g gs)) as [ys'|e]; [|discriminate E]. cbn [bind] in E. injection E as <-. cbn [map all_ok].
  now rewrite (IH ys' eq_refl).
Qed.
Lemma all_ok_bind2 {X Y O W} (g : X -> res Y) (h : Y -> O -> res W) (gs : list X) : forall (os : list O) ys, all_ok (map g gs) = Ok ys ->
  length gs = length os ->
  all_ok (map (fun p => do y <- g (fst p); h y (snd p)) (combine gs os)) = all_ok (map (fun p => h (fst p) (snd p)) (combine ys os)).
Proof.
  induction gs as [|x gs IH]; intros os ys E L; destruct os as [|o os]; try discriminate L; cbn [map all_ok combine] in E |- *; [injection E as <-; reflexivity|].
  destruct (g x) as [y|e] eqn:Eg; [|discriminate E]. cbn [bind fst snd] in E |- *. rewrite Eg. cbn [bind]. destruct (all_ok (map g gs)) as [ys'|e] eqn:Es; [|discriminate E]. cbn [bind] in E. injection E as <-. cbn [map all_ok combine fst snd].
  rewrite (IH os ys' eq_refl) by (cbn in L; lia). reflexivity.
Qed.
Lemma clamp_in sh idx : in_bounds sh idx -> clamp sh idx = idx.
Proof. intros H. rewrite <- bclamp_clamp. now apply bclamp_in. Qed.

Section Where.
Context {C : Type} (dc : C) (out : bnd C) (w : bnd bool) (F Go : list Z -> C) (W : list Z -> bool) (cw c0 osh : list Z) (ls : list (arr C)).
Notation yo := (b_arr out). Notation yw := (b_arr w). Notation P := (length (d_locals (b_arr out))).
Hypothesis RF : represents F osh (d_split yo) c0 ls.
Hypothesis RW : represents W (d_gshape yw) (d_split yw) cw (d_locals yw).
Hypothesis RO : represents Go osh (d_split yo) c0 (d_locals yo).
Hypothesis GO : d_gshape yo = osh.
Hypothesis TW : truthful w.
Hypothesis TO : truthful out.
Hypothesis HP : (0 < P)%nat.
Hypothesis HPW : length (d_locals yw) = P.
Hypothesis HB : bshape osh (d_gshape yw) = Ok osh.
(** the mask has the layout of out if it has its split axis, and fits otherwise *)
Hypothesis HW : match d_split yo with
  | Some s => (d_split yw = Some s -> cw = c0 /\ nth s (d_gshape yw) 0 = nth s osh 0) /\ fits P (d_gshape yw) osh (d_split yw) s
  | None => d_split yw = None end.
Definition x1' : bnd C := mk_bnd (mk_dnd ls osh (d_split yo)) (b_flag out).
Lemma length_ls : length ls = P.
Proof. destruct RF as (L & _). destruct RO as (L' & _). lia. Qed.
Lemma masked : exists z ts, (if opt_eqb (d_split yw) (d_split yo) then Ok yw else sanitize_to false w out) = Ok z /\ length (d_locals z) = P /\
  all_ok (map (fun p => bop (fun v b => (v, b)) (fst p) (snd p)) (combine ls (d_locals z))) = Ok ts /\
  represents (fun idx => (F (clamp osh idx), W (clamp (d_gshape yw) idx))) osh (d_split yo) c0 ts.
Proof.
  pose proof length_ls as LL. pose proof HB as HB'. apply bshape_ok in HB' as (_ & LW & D).
  assert (HD : (exists s, d_split yo = Some s) \/ d_split yo = None) by (destruct (d_split yo); eauto). destruct HD as [[s Es]|Es].
  - pose proof HW as HW'. rewrite Es in HW'. destruct HW' as [HW1 HW2]. pose proof RO as RO'. rewrite Es in RO'. pose proof RF as RF'. rewrite Es in RF'.
    assert (Hs : (s < length osh)%nat) by apply RO'. pose proof (D s Hs) as Ds. unfold bcast_dim in Ds.
    assert (Z : exists z, (if opt_eqb (d_split yw) (d_split yo) then Ok yw else sanitize_to false w out) = Ok z /\ length (d_locals z) = P /\
      forall r t, nth_error (d_locals z) r = Some t -> exists e, aligned t (d_gshape yw) W s (nth r c0 0) (zsum (firstn r c0)) e).
    { rewrite Es. destruct (opt_eqb (d_split yw) (Some s)) eqn:EQ.
      - apply opt_eqb_eq in EQ. destruct (HW1 EQ) as [Ec En]. exists yw. split; [reflexivity|]. split; [exact HPW|]. intros r t Et.
        pose proof RW as RW'. rewrite EQ, Ec in RW'. destruct RW' as (L & _ & Hs' & Hc' & Hsum' & HR'). exists (nth r c0 0). apply aligned_cut; auto. rewrite <- L. apply nth_error_Some. congruence.
      - destruct (sanitize_to_ok out Go c0 osh RO GO TO HP false w W cw s) as (z & E & L & A); auto; try lia.
        exists z. split; [exact E|]. split; [exact L|]. intros r t Et. destruct (A r t Et) as (e & Al & _). eauto. }
    destruct Z as (z & Ez & Lz & Az). exists z.
    destruct (assemble (fun (v : C) (b : bool) => (v, b)) osh (d_gshape yw) osh F W s c0 ls (d_locals z)) as (ts & ET & RT); auto; try (apply RO').
    + apply RF'.
    + destruct RF' as (L & _). lia.
    + intros r t1 t2 H1 H2. destruct (Az r t2 H2) as (e & Al). exists (nth r c0 0), e. split; [|split; [exact Al|auto]]. destruct RF' as (L & _ & _ & Hc' & Hsum' & HR'). apply aligned_cut; auto. rewrite <- L. apply nth_error_Some. congruence.
    + exists ts. split; [exact Ez|]. split; [exact Lz|]. split; [exact ET|]. rewrite Es. exact RT.
  - pose proof HW as HW'. rewrite Es in HW'. exists yw.
    destruct (core_none C bool (C * bool) dc false (fun (v : C) (b : bool) => (v, b)) x1' w F W c0 cw osh) as (ts & ET & RT); auto; try (cbn; lia).
    exists ts. split; [rewrite Es, HW'; reflexivity|]. split; [exact HPW|]. split; [exact ET|]. rewrite Es. exact RT.
Qed.
Lemma where_ok : exists vs, where_step (Some w) out ls = Ok vs /\
  represents (fun idx => if W (clamp (d_gshape yw) idx) then F idx else Go idx) osh (d_split yo) c0 vs.
Proof.
  pose proof length_ls as LL. destruct masked as (z & ts & Ez & Lz & ET & RT). unfold where_step. rewrite Ez. cbn [bind]. unfold where_local.
  rewrite (all_ok_bind2 (fun p => bop (fun v b => (v, b)) (fst p) (snd p)) (fun t o => bop (fun (p : C * bool) o => if snd p then fst p else o) t o) (combine ls (d_locals z)) (d_locals yo) ts ET) by (rewrite combine_length; lia).
  assert (HD : (exists s, d_split yo = Some s) \/ d_split yo = None) by (destruct (d_split yo); eauto).
  assert (K : exists vs, all_ok (map (fun p => bop (fun (p : C * bool) o => if snd p then fst p else o) (fst p) (snd p)) (combine ts (d_locals yo))) = Ok vs /\
    represents (fun idx => if snd (F (clamp osh (clamp osh idx)), W (clamp (d_gshape yw) (clamp osh idx))) then fst (F (clamp osh (clamp osh idx)), W (clamp (d_gshape yw) (clamp osh idx))) else Go (clamp osh idx)) osh (d_split yo) c0 vs).
  { destruct HD as [[s Es]|Es].
    - rewrite Es in *. pose proof RO as RO'. pose proof RT as RT'.
      destruct (assemble (fun (p : C * bool) (o : C) => if snd p then fst p else o) osh osh osh (fun idx => (F (clamp osh idx), W (clamp (d_gshape yw) idx))) Go s c0 ts (d_locals yo)) as (vs & EV & RV); try (apply RO').
      + apply bshape_same.
      + apply RT'.
      + intros r t1 t2 H1 H2. exists (nth r c0 0), (nth r c0 0). split; [|split; [|auto]].
        * destruct RT' as (L & _ & Hs' & Hc' & Hsum' & HR'). apply aligned_cut; auto. rewrite <- L. apply nth_error_Some. congruence.
        * destruct RO' as (L & _ & Hs' & Hc' & Hsum' & HR'). apply aligned_cut; auto. rewrite <- L. apply nth_error_Some. congruence.
      + exists vs. split; [exact EV|]. exact RV.
    - rewrite Es in *.
      destruct (core_none (C * bool) C C (dc, false) dc (fun (p : C * bool) (o : C) => if snd p then fst p else o) (mk_bnd (mk_dnd ts osh None) None) out (fun idx => (F (clamp osh idx), W (clamp (d_gshape yw) idx))) Go c0 c0 osh) as (vs & EV & RV); auto; cbn [b_arr d_gshape d_split d_locals].
      + rewrite Es, GO. exact RO.
      + destruct RT as (L & _). destruct RO as (L' & _). lia.
      + destruct RT as (L & _). destruct RO as (L' & _). lia.
      + rewrite GO. apply bshape_same.
      + exists vs. split; [exact EV|]. rewrite GO in RV. exact RV. }
  destruct K as (vs & EV & RV). exists vs. split; [exact EV|]. eapply represents_ext; [|exact RV]. intros idx Hi. cbn [fst snd]. rewrite !(clamp_in osh idx) by auto. reflexivity.
Qed.
End Where.
