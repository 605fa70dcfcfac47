(** C88: broadcast_to and broadcast_arrays. *)
From Verif Require Import Base ShapeSpec BaseLemmas LayoutModel NdSpec TensorSpec TensorLemmas NdLemmas OpsModel OpsProofs4 RedistModel ShapeModel ShapeProofs3 ShapeProofs4 ShapeProps BinSpec BinModel BinProofs BinProofs2 BinProofs3 BinProps CloseProofs2 VmapProofs BinOutModel BinOutProofs BinOutProps BcSpec BcModel BcProofs.
Open Scope Z_scope.

(** broadcast_to(x, shape) for all shapes and layouts: x broadcast as NumPy does, split along the
    same data axis and balanced.  Partial: on several processes an array split along an axis of
    length one may not be broadcast to length zero there (see C88_empty_refuted). *)
Theorem C88_broadcast_to_partial : forall (A : Type) (z : A) (add : A -> A -> A) (x : bnd A) (G : list Z -> A) (c shape : list Z),
  (forall v, add z v = v) -> rep (b_arr x) c G -> flag_ok x c ->
  let P := length (d_locals (b_arr x)) in let sh := d_gshape (b_arr x) in let n := length shape in (0 < P)%nat ->
  Forall (fun n => 0 <= n) shape -> bcast_shape sh shape shape ->
  (P = 1%nat \/ forall s, d_split (b_arr x) = Some s -> nth s sh 0 = nth (n - length sh + s) shape 0 \/ 1 < nth (n - length sh + s) shape 0) ->
  exists y cy, broadcast_to z add x shape = Ok y /\
    d_gshape (b_arr y) = shape /\ d_split (b_arr y) = shift_split n sh (d_split (b_arr x)) /\ b_flag y = Some true /\
    length (d_locals (b_arr y)) = P /\ rep (b_arr y) cy (fun idx => G (bcast_idx sh idx)) /\ flag_ok y cy.
Proof.
  intros A z add x G c shape Hz HR HF P sh n HP Hn HB HC. unfold broadcast_to. fold sh P. rewrite (proj2 (bshapes_ok _ _ _) HB).
  pose proof (bcast_len _ _ _ HB) as [LS _]. fold n in LS |- *.
  assert (LOC : (forall t, In t (d_locals (b_arr x)) -> agrees t sh G) -> exists ls, all_ok (map (fun t => expand t shape) (d_locals (b_arr x))) = Ok ls /\ length ls = P /\ forall r t, nth_error ls r = Some t -> agrees t shape (fun idx => G (bcast_idx sh idx))).
  { intros HA. destruct (all_ok_Qn (fun t => expand t shape) (fun _ t => agrees t shape (fun idx => G (bcast_idx sh idx))) (d_locals (b_arr x))) as (ls & E & L & Q); [|exists ls; auto].
    intros r t Et. apply expand_agrees; auto. apply HA. eapply nth_error_In; eauto. }
  destruct (d_split (b_arr x)) as [s|] eqn:Es.
  - unfold shift_split. cbn [option_map]. set (so := (n - length sh + s)%nat). assert (Hs : (s < length sh)%nat) by (unfold rep in HR; rewrite Es in HR; apply HR).
    assert (Hso : (so < n)%nat) by (unfold so; lia).
    assert (H0 : 0 <= nth so shape 0) by (rewrite Forall_forall in Hn; apply Hn, nth_In; auto).
    destruct (Nat.ltb_spec 1 P) as [P1|P1].
    + rewrite (proj2 (Nat.ltb_ge n (length sh)) LS). destruct (zeros_rep z P shape so HP Hso Hn) as (ZR & ZF & ZL).
      destruct (C87_inplace A A z z add (zeros_split z P shape so) x (fun _ => z) G (zcounts (nth so shape 0) P) c ZR HR ZF HF) as (y & E & G1 & S1 & F1 & R1).
      * rewrite ZL. exact HP.
      * rewrite ZL. reflexivity.
      * cbn [zeros_split b_arr d_gshape]. now apply bcast_sym.
      * rewrite ZL. cbn [zeros_split b_arr d_gshape d_split]. unfold can_follow, fits. fold sh n. rewrite Es. unfold shift_split. cbn [option_map]. fold so.
        assert (EP : nth so (padded n sh) 0 = nth s sh 0) by (unfold so; apply nth_padded). rewrite EP. destruct HC as [HC|HC]; [lia|]. specialize (HC s eq_refl). fold so in HC.
        destruct (Z.eq_dec (nth s sh 0) (nth so shape 0)) as [|Ne]; [right; right; auto|]. right. left. destruct HB as [_ HB]. specialize (HB so Hso). fold n in HB.
        rewrite (nth_indep _ 1 0) in HB by (rewrite padded_length; auto). rewrite EP in HB. unfold n in HB. rewrite padded_self in HB. rewrite (nth_indep shape 1 0) in HB by exact Hso. unfold bcast_dim in HB. lia.
      * exists y, (zcounts (nth so shape 0) P). split; [exact E|]. cbn [zeros_split b_arr b_flag d_gshape d_split] in G1, S1, F1. split; [exact G1|]. split; [exact S1|]. split; [exact F1|].
        assert (LY : length (d_locals (b_arr y)) = P) by (destruct R1 as (-> & _); apply zcounts_ok; auto). split; [exact LY|]. split.
        -- unfold rep in *. eapply represents_ext; [|exact R1]. intros idx _. cbn beta. now rewrite Hz.
        -- intros _. rewrite S1, G1, LY. reflexivity.
    + assert (P = 1%nat) as EP by lia. destruct LOC as (ls & E & L & Q); [intros t Ht; eapply one_rank_whole; [exact HR|exact EP|exact Ht]|]. rewrite E. cbn [bind].
      eexists. exists [nth so shape 0]. split; [reflexivity|]. cbn [b_arr b_flag d_gshape d_split d_locals]. repeat (split; [reflexivity|]). split; [exact L|]. split.
      * unfold rep. cbn [d_gshape d_split d_locals]. split; [cbn; lia|]. split; [exact Hn|]. split; [exact Hso|]. split; [repeat constructor; lia|]. split; [unfold zsum; cbn; lia|].
        intros [|r] t Et; [|exfalso; assert (S r < length ls)%nat by (apply nth_error_Some; congruence); lia]. destruct (Q 0%nat t Et) as [S0 D0]. cbn [nth firstn]. rewrite upd_self. split; [exact S0|].
        intros idx Hi. rewrite D0 by exact Hi. unfold move_axis_idx. change (zsum []) with 0. now rewrite Z.add_0_r, upd_self.
      * intros _. cbn [b_arr d_split d_gshape d_locals]. rewrite L, EP. unfold counts_of. cbn. f_equal. rewrite ?Nat.div_1_r, ?Nat.mod_1_r. symmetry. 
        destruct (zcounts_ok (nth so shape 0) 1 ltac:(lia) H0) as (L1 & _ & Z1). unfold zcounts, counts_of in L1, Z1. cbn in Z1. unfold zsum in Z1. cbn in Z1. lia.
  - destruct LOC as (ls & E & L & Q); [intros t Ht; unfold rep in HR; rewrite Es in HR; apply HR, Ht|]. rewrite E. cbn [bind].
    eexists. exists c. split; [reflexivity|]. cbn [b_arr b_flag d_gshape d_split d_locals shift_split option_map]. repeat (split; [reflexivity|]). split; [exact L|]. split.
    + unfold rep. cbn [d_gshape d_split d_locals]. split; [destruct HR as (HL & _); unfold P in L; lia|]. split; [exact Hn|]. intros t Ht. apply In_nth_error in Ht as [r Hr]. eapply Q; eauto.
    + intros _. exact I.
Qed.
Print Assumptions C88_broadcast_to_partial.

(** a shape x does not broadcast to is refused *)
Theorem C88_broadcast_to_raises : forall (A : Type) (z : A) (add : A -> A -> A) (x : bnd A) (G : list Z -> A) (c shape : list Z),
  rep (b_arr x) c G -> flag_ok x c -> (0 < length (d_locals (b_arr x)))%nat -> Forall (fun n => 0 <= n) shape ->
  ~ bcast_shape (d_gshape (b_arr x)) shape shape -> exists e, broadcast_to z add x shape = Err e.
Proof.
  intros A z add x G c shape HR HF HP Hn HB. unfold broadcast_to. destruct (bshapes (d_gshape (b_arr x)) shape) as [o|e] eqn:EB; [|eauto]. apply bshapes_ok in EB.
  assert (LOC : forall t0, In t0 (d_locals (b_arr x)) -> ash t0 = d_gshape (b_arr x) -> exists e, all_ok (map (fun t => expand t shape) (d_locals (b_arr x))) = Err e).
  { clear - HB. intros t0. induction (d_locals (b_arr x)) as [|t ls IH]; intros [] E; cbn [map all_ok].
    - subst t0. rewrite expand_err by (rewrite E; exact HB). cbn. eauto.
    - destruct (expand t shape); cbn [bind]; [|eauto]. destruct (IH H E) as [e ->]. cbn. eauto. }
  assert (E1 : exists t0, In t0 (d_locals (b_arr x))) by (destruct (d_locals (b_arr x)) as [|t ls]; [cbn in HP; lia|exists t; now left]). destruct E1 as [t0 Ht0].
  destruct (d_split (b_arr x)) as [s|] eqn:Es.
  - destruct (Nat.ltb_spec 1 (length (d_locals (b_arr x)))) as [P1|P1].
    + destruct (Nat.ltb_spec (length shape) (length (d_gshape (b_arr x)))) as [L|L]; [eauto|]. set (so := (length shape - length (d_gshape (b_arr x)) + s)%nat).
      assert (Hs : (s < length (d_gshape (b_arr x)))%nat) by (unfold rep in HR; rewrite Es in HR; apply HR).
      destruct (zeros_rep z (length (d_locals (b_arr x))) shape so HP ltac:(unfold so; lia) Hn) as (ZR & ZF & ZL).
      exists ValueError. unfold inplace. rewrite (C87_wrong_buffer_raises A A A z z add _ x _ _ G _ c o ZR HR ZF HF); [reflexivity| |].
      * cbn [zeros_split b_arr d_gshape]. now apply bcast_sym.
      * left. cbn [zeros_split b_arr d_gshape]. intros E. subst o. contradiction.
    + destruct (LOC t0 Ht0) as [e Ee]; [eapply one_rank_whole; [exact HR|lia|exact Ht0]|]. rewrite Ee. cbn. eauto.
  - destruct (LOC t0 Ht0) as [e Ee]; [unfold rep in HR; rewrite Es in HR; apply HR, Ht0|]. rewrite Ee. cbn. eauto.
Qed.
Print Assumptions C88_broadcast_to_raises.

Lemma nth_error_ext' {A} : forall (l1 l2 : list A), (forall i, nth_error l1 i = nth_error l2 i) -> l1 = l2.
Proof. induction l1 as [|a l1 IH]; intros [|b l2] H; auto; try (specialize (H 0%nat); discriminate H). pose proof (H 0%nat) as [= ->]. f_equal. apply IH. intros i. exact (H (S i)). Qed.
Lemma sanitize_dist_gshape : forall A (dflt : A) x s n m b y, sanitize_dist dflt x s n m b = Ok y -> d_gshape y = d_gshape (b_arr x).
Proof.
  intros A dflt x s n m b y. unfold sanitize_dist. destruct (_ =? 1)%nat; [now intros [= <-]|]. destruct (_ && _)%bool.
  { intros [= <-]. unfold resplit_none. destruct (d_split (b_arr x)); reflexivity. }
  destruct (negb _); [intros H; discriminate H|]. destruct (d_split (b_arr x)).
  - destruct (negb _); [intros H; discriminate H|]. destruct (negb _); [|now intros [= <-]]. destruct (eqb_idx _ _); [now intros [= <-]|]. unfold redistribute_nd.
    repeat match goal with |- bind ?m _ = _ -> _ => destruct m; cbn [bind]; [|intros H; discriminate H] | |- match ?m with _ => _ end = _ -> _ => destruct m; try (intros H; discriminate H) end; now intros [= <-].
  - destruct b; intros [= <-]; reflexivity.
Qed.

(** broadcast_arrays for any number of arrays of one dimension: every array broadcast to the joint
    shape, in the layout of the first.  Partial: see the refutations for arrays of different
    dimension and for a first array of extent one along its split axis. *)
Theorem C88_broadcast_arrays_partial : forall (A : Type) (dflt : A) (ps : list (bnd A * (list Z -> A))) (x0 : bnd A) (c0 osh : list Z),
  (2 <= length ps)%nat -> option_map fst (nth_error ps 0) = Some x0 ->
  let P := length (d_locals (b_arr x0)) in (0 < P)%nat ->
  (forall x G, In (x, G) ps -> length (d_locals (b_arr x)) = P /\ exists c, rep (b_arr x) c G /\ flag_ok x c) ->
  (exists G0, rep (b_arr x0) c0 G0) -> flag_ok x0 c0 ->
  jointly (map (fun p => d_gshape (b_arr (fst p))) ps) osh ->
  (match d_split (b_arr x0) with
   | Some s => nth s (d_gshape (b_arr x0)) 0 = nth s osh 0 /\ forall x G, In (x, G) ps -> fits P (d_gshape (b_arr x)) osh (d_split (b_arr x)) s
   | None => forall x G, In (x, G) ps -> d_split (b_arr x) = None
   end) ->
  exists zs, broadcast_arrays dflt (map fst ps) = Ok zs /\ length zs = length ps /\
    forall k x G z, nth_error ps k = Some (x, G) -> nth_error zs k = Some z ->
      d_gshape (b_arr z) = osh /\ d_split (b_arr z) = d_split (b_arr x0) /\ b_flag z = b_flag x0 /\
      rep (b_arr z) c0 (fun idx => G (bcast_idx (d_gshape (b_arr x)) idx)).
Proof.
  intros A dflt ps x0 c0 osh H2 H0 P HP HA [G0 R0] F0 HJ HC.
  assert (EX : exists tl, map fst ps = x0 :: tl /\ tl <> []).
  { destruct ps as [|[x G] ps]; [discriminate H0|]. injection H0 as ->. exists (map fst ps). split; [reflexivity|]. destruct ps; [cbn in H2; lia|discriminate]. }
  destruct EX as (tl & EX & Ntl). unfold broadcast_arrays. rewrite EX. destruct tl as [|x1 tl]; [contradiction|]. rewrite <- EX. fold P.
  assert (NG : 0 < 1) by lia.
  assert (JN : map (fun p : bnd A * (list Z -> A) => d_gshape (b_arr (fst p))) ps <> []) by (destruct ps; [cbn in H2; lia|discriminate]).
  assert (On : Forall (fun n => 0 <= n) osh).
  { apply Forall_forall. intros m Hm. apply (In_nth _ _ 0) in Hm as (i & Hi & <-). destruct HJ as [HL HJ]. destruct (HJ i Hi) as [_ [E|(g & Hg & E)]]; [lia|]. rewrite <- E.
    apply in_map_iff in Hg as ([x G] & <- & Hx). destruct (HA x G Hx) as [_ (c & (_ & Nn & _) & _)]. cbn [fst] in *. rewrite Forall_forall in Nn. apply Nn, nth_In. rewrite (HL (d_gshape (b_arr x))); [exact Hi|]. apply in_map_iff. exists (x, G). auto. }
  assert (LG : forall x G, In (x, G) ps -> length (d_gshape (b_arr x)) = length osh) by (intros x G Hx; apply HJ; apply in_map_iff; exists (x, G); auto).
  assert (B1 : forall x G, In (x, G) ps -> bcast_shape (d_gshape (b_arr x)) osh osh) by (intros x G Hx; eapply jointly_one; [exact HJ|]; apply in_map_iff; exists (x, G); auto).
  assert (I0 : exists G, In (x0, G) ps) by (destruct ps as [|[x G] ps]; [discriminate H0|]; injection H0 as ->; exists G; now left). destruct I0 as [G0' I0].
  assert (LC0 : length c0 = P) by (destruct R0 as (L & _); unfold P; lia).
  (* what one array is on rank r: its local tensor can be expanded to the local part of the result *)
  set (lsh := fun r => match d_split (b_arr x0) with Some s => upd osh s (nth r c0 0) | None => osh end).
  set (lG := fun (x : bnd A) (G : list Z -> A) r idx => match d_split (b_arr x0) with Some s => G (clamp (d_gshape (b_arr x)) (move_axis_idx s (zsum (firstn r c0)) idx)) | None => G (clamp (d_gshape (b_arr x)) idx) end).
  set (good := fun (p : bnd A * (list Z -> A)) (y : dnd A) => d_gshape y = d_gshape (b_arr (fst p)) /\ length (d_locals y) = P /\
     forall r t, nth_error (d_locals y) r = Some t -> (exists z, expand t (lsh r) = Ok z /\ agrees z (lsh r) (lG (fst p) (snd p) r)) /\
       match d_split (b_arr x0) with Some s => exists e, ash t = upd (d_gshape (b_arr (fst p))) s e /\ (e = nth r c0 0 \/ e = 1) /\ (nth s (d_gshape (b_arr (fst p))) 0 = nth s osh 0 -> e = nth r c0 0)
       | None => ash t = d_gshape (b_arr (fst p)) end).
  assert (FOL : forall p, In p ps -> exists y, follow dflt x0 (fst p) = Ok y /\ good p y).
  { intros [x G] Hx. cbn [fst]. destruct (HA x G Hx) as [LX (c & RX & FX)]. pose proof (LG x G Hx) as LX0. pose proof (B1 x G Hx) as BX. unfold follow. fold P. unfold good, lsh, lG. cbn [fst snd].
    assert (TX : truthful x) by (eapply flag_truthful; [exact RX|exact FX]). assert (T0 : truthful x0) by (eapply flag_truthful; [exact R0|exact F0]).
    destruct (d_split (b_arr x0)) as [s|] eqn:Es.
    - destruct HC as [HS HC]. specialize (HC x G Hx). unfold rep in R0. rewrite Es in R0. pose proof (local_counts _ _ _ _ _ R0) as LC. fold (lcounts (b_arr x0) s) in LC. destruct R0 as (L0 & _ & Hs & Hc0 & Hsum & _).
      assert (Hs' : (s < length osh)%nat) by (rewrite <- (LG x0 G0' I0); exact Hs).
      assert (DX : nth s (d_gshape (b_arr x)) 0 = nth s osh 0 \/ nth s (d_gshape (b_arr x)) 0 = 1) by (destruct HJ as [_ HJ]; destruct (HJ s Hs') as [HJ1 _]; apply HJ1; apply in_map_iff; exists (x, G); auto).
      destruct (sanitize_dist_ok dflt x G c s (nth s osh 0) c0 (is_bal x0)) as (y & Ey & Ly & Al); auto; try lia.
      + intros Hb. rewrite LX. rewrite <- LC, <- HS. apply (is_bal_true x0 s T0 Es Hb).
      + rewrite LX. destruct HC as [HC|[HC|HC]]; [left|right; left|right; right]; auto.
      + exists y. split.
        * destruct (Nat.eqb_spec P 1) as [E1|N1].
          -- unfold sanitize_dist in Ey. rewrite LX, E1 in Ey. exact Ey.
          -- rewrite (proj2 (Nat.leb_gt _ _)) by lia. rewrite HS, LC, Ey. reflexivity.
        * split; [|split; [lia|]].
          -- eapply sanitize_dist_gshape; exact Ey.
          -- intros r t Et. destruct (Al r t Et) as (e & A0 & Ie). assert (Hr : 0 <= nth r c0 0) by (assert (r < length c0)%nat by (rewrite LC0, <- LX; rewrite <- Ly; apply nth_error_Some; congruence); rewrite Forall_forall in Hc0; apply Hc0, nth_In; auto).
             split; [eapply expand_aligned; eauto|]. destruct A0 as (S0 & He & _). exists e. auto.
    - pose proof (HC x G Hx) as NX. exists (b_arr x). split; [rewrite NX; destruct (P =? 1)%nat; reflexivity|]. split; [reflexivity|]. split; [exact LX|]. intros r t Et.
      assert (AG : agrees t (d_gshape (b_arr x)) G) by (unfold rep in RX; rewrite NX in RX; apply RX; eapply nth_error_In; eauto). split; [|apply AG].
      destruct (expand_agrees t (d_gshape (b_arr x)) G osh AG BX) as (z & Ez & Az). exists z. split; [exact Ez|]. destruct Az as [S D]. split; [exact S|]. intros idx Hi. rewrite D by exact Hi. f_equal. apply (bcast_same_len _ osh); [exact LX0|now apply in_bounds_length]. }
  (* all arrays follow *)
  rewrite map_map.
  destruct (all_ok_Qn (fun p => follow dflt x0 (fst p)) (fun k y => forall p, nth_error ps k = Some p -> good p y) ps) as (ys & EY & LY & QY).
  { intros k p Hp. destruct (FOL p (nth_error_In _ _ Hp)) as (y & Ey & Gy). exists y. split; [exact Ey|]. intros p' Hp'. congruence. }
  rewrite EY. cbn [bind].
  assert (SH : map d_gshape ys = map (fun p => d_gshape (b_arr (fst p))) ps).
  { apply nth_error_ext'. intros k. rewrite !nth_error_map. destruct (nth_error ys k) as [y|] eqn:Ek; destruct (nth_error ps k) as [p|] eqn:Ep; cbn [option_map]; auto.
    - f_equal. apply (QY k y Ek p Ep).
    - exfalso. apply nth_error_None in Ep. assert (k < length ys)%nat by (apply nth_error_Some; congruence). lia.
    - exfalso. apply nth_error_None in Ek. assert (k < length ps)%nat by (apply nth_error_Some; congruence). lia. }
  rewrite SH, (fold_shapes_ok _ osh JN HJ).
  (* one rank *)
  assert (COL : forall r, (r < P)%nat -> exists col, expand_all (map (fun y => nth_arr dflt (d_locals y) r) ys) = Ok col /\ length col = length ps /\
     forall k p t, nth_error ps k = Some p -> nth_error col k = Some t -> agrees t (lsh r) (lG (fst p) (snd p) r)).
  { intros r Hr. unfold expand_all.
    assert (TK : forall k y p, nth_error ys k = Some y -> nth_error ps k = Some p -> nth_error (d_locals y) r = Some (nth_arr dflt (d_locals y) r)).
    { intros k y p Ek Ep. apply nth_error_nth'. destruct (QY k y Ek p Ep) as (_ & -> & _). exact Hr. }
    assert (JR : jointly (map ash (map (fun y => nth_arr dflt (d_locals y) r) ys)) (lsh r)).
    { split.
      - intros g Hg. rewrite map_map in Hg. apply in_map_iff in Hg as (y & <- & Hy). apply In_nth_error in Hy as [k Ek]. assert (Hk : (k < length ps)%nat) by (rewrite <- LY; apply nth_error_Some; congruence).
        destruct (nth_error ps k) as [[x G]|] eqn:Ep; [|apply nth_error_None in Ep; lia]. destruct (QY k y Ek _ Ep) as (_ & _ & Q). destruct (Q r _ (TK k y _ Ek Ep)) as [_ Q2]. pose proof (LG x G (nth_error_In _ _ Ep)) as LX. cbn [fst] in Q2. unfold lsh.
        destruct (d_split (b_arr x0)) as [s|]; [destruct Q2 as (e & -> & _); rewrite !upd_length; exact LX|rewrite Q2; exact LX].
      - intros i Hi. assert (Hi' : (i < length osh)%nat) by (unfold lsh in Hi; destruct (d_split (b_arr x0)); rewrite ?upd_length in Hi; exact Hi). destruct HJ as [_ HJ]. destruct (HJ i Hi') as [J1 J2]. split.
        + intros g Hg. rewrite map_map in Hg. apply in_map_iff in Hg as (y & <- & Hy). apply In_nth_error in Hy as [k Ek]. assert (Hk : (k < length ps)%nat) by (rewrite <- LY; apply nth_error_Some; congruence).
          destruct (nth_error ps k) as [[x G]|] eqn:Ep; [|apply nth_error_None in Ep; lia]. destruct (QY k y Ek _ Ep) as (_ & _ & Q). destruct (Q r _ (TK k y _ Ek Ep)) as [_ Q2]. pose proof (LG x G (nth_error_In _ _ Ep)) as LX. cbn [fst] in Q2. unfold lsh.
          assert (JX : nth i (d_gshape (b_arr x)) 0 = nth i osh 0 \/ nth i (d_gshape (b_arr x)) 0 = 1) by (apply J1; apply in_map_iff; exists (x, G); split; [reflexivity|eapply nth_error_In; eauto]).
          destruct (d_split (b_arr x0)) as [s|]; [|rewrite Q2; exact JX]. destruct Q2 as (e & -> & He & _). destruct (Nat.eq_dec i s) as [->|Hne]; [rewrite !upd_same by lia; lia|rewrite !upd_other by auto; exact JX].
        + assert (GET : forall g, In g (map (fun p => d_gshape (b_arr (fst p))) ps) -> nth i g 0 = nth i osh 0 -> exists g', In g' (map ash (map (fun y => nth_arr dflt (d_locals y) r) ys)) /\ nth i g' 0 = nth i (lsh r) 0).
          { intros g Hg Eg. apply in_map_iff in Hg as ([x G] & <- & Hx). cbn [fst] in Eg. apply In_nth_error in Hx as [k Ep]. assert (Hk : (k < length ys)%nat) by (rewrite LY; apply nth_error_Some; congruence).
            destruct (nth_error ys k) as [y|] eqn:Ek; [|apply nth_error_None in Ek; lia]. destruct (QY k y Ek _ Ep) as (_ & _ & Q). destruct (Q r _ (TK k y _ Ek Ep)) as [_ Q2]. pose proof (LG x G (nth_error_In _ _ Ep)) as LX. cbn [fst] in Q2.
            exists (ash (nth_arr dflt (d_locals y) r)). split; [rewrite map_map; apply in_map_iff; exists y; split; [reflexivity|eapply nth_error_In; eauto]|]. unfold lsh. destruct (d_split (b_arr x0)) as [s|]; [|rewrite Q2; exact Eg].
            destruct Q2 as (e & -> & _ & Ie). destruct (Nat.eq_dec i s) as [->|Hne]; [rewrite !upd_same by lia; auto|rewrite !upd_other by auto; exact Eg]. }
          destruct (d_split (b_arr x0)) as [s|] eqn:Es.
          * destruct (Nat.eq_dec i s) as [->|Hne].
            -- right. apply (GET (d_gshape (b_arr x0))); [apply in_map_iff; exists (x0, G0'); auto|apply HC].
            -- destruct J2 as [J2|(g & Hg & Eg)]; [left; unfold lsh; rewrite upd_other by auto; exact J2|right; now apply (GET g)].
          * destruct J2 as [J2|(g & Hg & Eg)]; [left; unfold lsh; exact J2|right; now apply (GET g)]. }
    assert (YN : map ash (map (fun y => nth_arr dflt (d_locals y) r) ys) <> []) by (destruct ys; [cbn in LY; lia|discriminate]).
    rewrite (fold_shapes_ok _ (lsh r) YN JR). cbn [bind]. rewrite map_map.
    destruct (all_ok_Qn (fun y => expand (nth_arr dflt (d_locals y) r) (lsh r)) (fun k t => forall p, nth_error ps k = Some p -> agrees t (lsh r) (lG (fst p) (snd p) r)) ys) as (col & EC & LCo & QC).
    - intros k y Ek. assert (Hk : (k < length ps)%nat) by (rewrite <- LY; apply nth_error_Some; congruence). destruct (nth_error ps k) as [p|] eqn:Ep; [|apply nth_error_None in Ep; lia].
      destruct (QY k y Ek p Ep) as (_ & _ & Q). destruct (Q r _ (TK k y p Ek Ep)) as [(z & Ez & Az) _]. exists z. split; [exact Ez|]. intros p' [= <-]. exact Az.
    - exists col. split; [exact EC|]. split; [lia|]. intros k p t Ep Et. exact (QC k t Et p Ep). }
  destruct (all_ok_Qn (fun r => expand_all (map (fun y => nth_arr dflt (d_locals y) r) ys)) (fun r col => length col = length ps /\ forall k p t, nth_error ps k = Some p -> nth_error col k = Some t -> agrees t (lsh r) (lG (fst p) (snd p) r)) (seq 0 P)) as (cols & EC & LCs & QC).
  { intros i r Er. assert (Hi : (i < P)%nat) by (rewrite <- (seq_length P 0); apply nth_error_Some; congruence). apply (nth_error_nth _ _ 0%nat) in Er. rewrite seq_nth in Er by exact Hi. cbn in Er. subst r. destruct (COL i Hi) as (col & E & L & Q). exists col. auto. }
  rewrite EC. cbn [bind]. rewrite seq_length in LCs. eexists. split; [reflexivity|]. split; [now rewrite map_length, seq_length, map_length|].
  intros k x G z Ep Ez. rewrite nth_error_map in Ez. destruct (nth_error (seq 0 (length (map fst ps))) k) as [k'|] eqn:Ek; [|discriminate Ez]. injection Ez as <-.
  assert (k' = k) as ->. { assert (Hk : (k < length (map fst ps))%nat) by (rewrite <- (seq_length (length (map fst ps)) 0); apply nth_error_Some; congruence). apply (nth_error_nth _ _ 0%nat) in Ek. rewrite seq_nth in Ek by exact Hk. cbn in Ek. lia. }
  cbn [b_arr b_flag d_gshape d_split d_locals]. repeat (split; [reflexivity|]). unfold rep. cbn [d_gshape d_split d_locals].
  assert (AG : forall r t, nth_error (map (fun col => nth_arr dflt col k) cols) r = Some t -> agrees t (lsh r) (lG x G r)).
  { intros r t Et. rewrite nth_error_map in Et. destruct (nth_error cols r) as [col|] eqn:Ec; [|discriminate Et]. injection Et as <-. destruct (QC r col Ec) as [Lc Q]. apply (Q k (x, G)); [exact Ep|]. apply nth_error_nth'. rewrite Lc. apply nth_error_Some. congruence. }
  split; [rewrite map_length; lia|]. split; [exact On|]. pose proof (LG x G (nth_error_In _ _ Ep)) as LX. unfold lsh, lG in AG. destruct (d_split (b_arr x0)) as [s|] eqn:Es.
  - unfold rep in R0. rewrite Es in R0. destruct R0 as (_ & _ & Hs & Hc0 & Hsum & _). assert (Hs' : (s < length osh)%nat) by (rewrite <- (LG x0 G0' I0); exact Hs). destruct HC as [HS _].
    split; [exact Hs'|]. split; [exact Hc0|]. split; [congruence|]. intros r t Et. destruct (AG r t Et) as [S D]. split; [exact S|]. intros idx Hi. rewrite D by exact Hi. f_equal. symmetry. apply (bcast_same_len _ osh); [exact LX|].
    unfold move_axis_idx. rewrite upd_length. apply in_bounds_length in Hi. rewrite upd_length in Hi. exact Hi.
  - intros t Ht. apply In_nth_error in Ht as [r Er]. destruct (AG r t Er) as [S D]. split; [exact S|]. intros idx Hi. rewrite D by exact Hi. f_equal. symmetry. apply (bcast_same_len _ osh); [exact LX|now apply in_bounds_length].
Qed.
Print Assumptions C88_broadcast_arrays_partial.

(** ** concrete cases *)
(** the array [G] of shape [gsh], cut along axis s / replicated on P processes *)
Definition cutg {A} (gsh : list Z) (G : list Z -> A) (s : nat) (cnts : list Z) (flag : option bool) : bnd A :=
  mk_bnd (mk_dnd (map (fun r => mk_arr (upd gsh s (nth r cnts 0)) (fun i => G (move_axis_idx s (zsum (firstn r cnts)) i))) (seq 0 (length cnts))) gsh (Some s)) flag.
Lemma cutg_rep {A} gsh (G : list Z -> A) s cnts flag : Forall (fun n => 0 <= n) gsh -> (s < length gsh)%nat -> Forall (fun n => 0 <= n) cnts -> zsum cnts = nth s gsh 0 -> rep (b_arr (cutg gsh G s cnts flag)) cnts G.
Proof.
  intros H1 H2 H3 H4. unfold rep, cutg. cbn [b_arr d_gshape d_split d_locals]. split; [now rewrite map_length, seq_length|]. do 4 (split; [auto|]).
  intros r t E. rewrite nth_error_map in E. destruct (nth_error (seq 0 (length cnts)) r) as [k|] eqn:Ek; [|discriminate E]. injection E as <-.
  assert (k = r) as ->. { assert (r < length (seq 0 (length cnts)))%nat by (apply nth_error_Some; congruence). rewrite seq_length in *. apply (nth_error_nth _ _ 0%nat) in Ek. rewrite seq_nth in Ek; lia. }
  split; [reflexivity|]. intros idx Hi. reflexivity.
Qed.
Definition replg {A} (P : nat) (gsh : list Z) (G : list Z -> A) (flag : option bool) : bnd A := mk_bnd (mk_dnd (repeat (mk_arr gsh G) P) gsh None) flag.
Lemma replg_rep {A} P gsh (G : list Z -> A) flag c : Forall (fun n => 0 <= n) gsh -> length c = P -> rep (b_arr (replg P gsh G flag)) c G.
Proof.
  intros H1 H2. unfold rep, replg. cbn [b_arr d_gshape d_split d_locals]. split; [now rewrite repeat_length|]. split; [auto|]. intros t Ht. apply repeat_spec in Ht. subst t. split; [reflexivity|]. intros idx _. reflexivity.
Qed.

Definition g2 (i : list Z) : Z := 10 * nth 0 i 0 + nth 1 i 0.
Definition col := cutg [4; 1] g2 0 [3; 1] (Some false).
(** a column of four broadcast to (2, 4, 3): split along axis 1 and balanced *)
Example C88_to_instance : exists y cy, broadcast_to 0 Z.add col [2; 4; 3] = Ok y /\ d_split (b_arr y) = Some 1%nat /\ rep (b_arr y) cy (fun i => g2 (bcast_idx [4; 1] i)).
Proof.
  destruct (C88_broadcast_to_partial Z 0 Z.add col g2 [3; 1] [2; 4; 3]) as (y & cy & E & _ & S & _ & _ & R & _).
  - intros v. lia.
  - apply cutg_rep; try (repeat constructor; cbn; lia).
  - intros H. discriminate H.
  - cbn. lia.
  - repeat constructor; lia.
  - split; [reflexivity|]. intros [|[|[|i]]] Hi; cbn in Hi |- *; [| | |lia]; unfold bcast_dim; lia.
  - right. intros s [= <-]. left. reflexivity.
  - exists y, cy. auto.
Qed.
Example C88_to_values : match broadcast_to 0 Z.add col [2; 4; 3] with Ok y => map flat (d_locals (b_arr y)) | Err _ => [] end =
  [[0; 0; 0; 10; 10; 10; 0; 0; 0; 10; 10; 10]; [20; 20; 20; 30; 30; 30; 20; 20; 20; 30; 30; 30]].
Proof. vm_compute. reflexivity. Qed.

Definition row := replg 2 [1; 2] g2 (Some true).
Definition mat := cutg [4; 2] g2 0 [3; 1] (Some false).
Example C88_arrays_instance : exists zs, broadcast_arrays 0 [col; row; mat] = Ok zs /\ forall z, nth_error zs 1 = Some z -> rep (b_arr z) [3; 1] (fun i => g2 (bcast_idx [1; 2] i)).
Proof.
  assert (RC : rep (b_arr col) [3; 1] g2) by (apply cutg_rep; try (repeat constructor; cbn; lia)).
  assert (RR : rep (b_arr row) [3; 1] g2) by (apply replg_rep; [repeat constructor; lia|reflexivity]).
  assert (RM : rep (b_arr mat) [3; 1] g2) by (apply cutg_rep; try (repeat constructor; cbn; lia)).
  destruct (C88_broadcast_arrays_partial Z 0 [(col, g2); (row, g2); (mat, g2)] col [3; 1] [4; 2]) as (zs & E & _ & Q).
  - cbn. lia.
  - reflexivity.
  - cbn. lia.
  - intros x G [[= <- <-]|[[= <- <-]|[[= <- <-]|[]]]]; (split; [reflexivity|]); exists [3; 1]; (split; [assumption|]); intros H; try discriminate H. exact I.
  - exists g2. exact RC.
  - intros H. discriminate H.
  - split; [intros g [<-|[<-|[<-|[]]]]; reflexivity|]. intros i Hi. cbn in Hi. assert (i = 0 \/ i = 1)%nat as [-> | ->] by lia; (split; [intros g [<-|[<-|[<-|[]]]]; cbn; auto|]); right; exists [4; 2]; (split; [cbn; auto|reflexivity]).
  - split; [reflexivity|]. intros x G [[= <- <-]|[[= <- <-]|[[= <- <-]|[]]]]; right; [right|left|right]; cbn; auto; lia.
  - exists zs. split; [exact E|]. intros z Ez. exact (proj2 (proj2 (proj2 (Q 1%nat row g2 z eq_refl Ez)))).
Qed.
Example C88_arrays_values : match broadcast_arrays 0 [col; row; mat] with Ok zs => map (fun z => map flat (d_locals (b_arr z))) zs | Err _ => [] end =
  [[[0; 0; 10; 10; 20; 20]; [30; 30]]; [[0; 1; 0; 1; 0; 1]; [0; 1]]; [[0; 1; 10; 11; 20; 21]; [30; 31]]].
Proof. vm_compute. reflexivity. Qed.

(** The full claims have no condition on the extents along the split axis and on the dimensions.
    An array of shape (1) split on two processes broadcast to shape (0), which NumPy allows *)
Theorem C88_empty_refuted : exists (x : bnd Z) G, rep (b_arr x) [1; 0] G /\ flag_ok x [1; 0] /\ bcast_shape (d_gshape (b_arr x)) [0] [0] /\ broadcast_to 0 Z.add x [0] = Err ValueError.
Proof.
  exists (cutg [1] g2 0 [1; 0] (Some true)), g2. split; [apply cutg_rep; try (repeat constructor; cbn; lia)|]. split; [intros _; vm_compute; reflexivity|].
  split; [split; [reflexivity|]; intros [|i] Hi; cbn in Hi |- *; [unfold bcast_dim; lia|lia]|]. vm_compute. reflexivity.
Qed.
(** the example of the docstring, scaled down: ones((4, 2), split=0), ones((2,)) and ones((1, 2), split=1)
    on two processes *)
Theorem C88_docstring_refuted : exists (a b c : bnd Z) Ga Gb Gc,
  rep (b_arr a) [2; 2] Ga /\ rep (b_arr b) [0; 0] Gb /\ rep (b_arr c) [1; 1] Gc /\ flag_ok a [2; 2] /\ flag_ok b [0; 0] /\ flag_ok c [1; 1] /\
  d_gshape (b_arr a) = [4; 2] /\ d_gshape (b_arr b) = [2] /\ d_gshape (b_arr c) = [1; 2] /\ broadcast_arrays 0 [a; b; c] = Err ValueError.
Proof.
  exists (cutg [4; 2] (fun _ => 1) 0 [2; 2] (Some true)), (replg 2 [2] (fun _ => 1) (Some true)), (cutg [1; 2] (fun _ => 1) 1 [1; 1] (Some true)), (fun _ => 1), (fun _ => 1), (fun _ => 1).
  split; [apply cutg_rep; try (repeat constructor; cbn; lia)|]. split; [apply replg_rep; [repeat constructor; lia|reflexivity]|]. split; [apply cutg_rep; try (repeat constructor; cbn; lia)|].
  split; [intros _; vm_compute; reflexivity|]. split; [intros _; exact I|]. split; [intros _; vm_compute; reflexivity|]. repeat (split; [reflexivity|]). vm_compute. reflexivity.
Qed.
(** arrays of different dimension, silently: shapes (4, 1), split along axis 0, and (4): the result
    claims shape (4, 4) but process 0 holds a tensor of shape (2, 2) *)
Theorem C88_dimensions_refuted : exists (a b : bnd Z) Ga Gb,
  rep (b_arr a) [2; 2] Ga /\ rep (b_arr b) [0; 0] Gb /\ flag_ok a [2; 2] /\ flag_ok b [0; 0] /\
  exists z0 z1, broadcast_arrays 0 [a; b] = Ok [z0; z1] /\ d_gshape (b_arr z0) = [4; 4] /\ d_split (b_arr z0) = Some 0%nat /\ map ash (d_locals (b_arr z0)) = [[2; 2]; [2; 2]] /\ map flat (d_locals (b_arr z1)) = [[0; 10; 0; 10]; [20; 30; 20; 30]].
Proof.
  exists (cutg [4; 1] g2 0 [2; 2] (Some true)), (replg 2 [4] g2 (Some true)), g2, g2.
  split; [apply cutg_rep; try (repeat constructor; cbn; lia)|]. split; [apply replg_rep; [repeat constructor; lia|reflexivity]|]. split; [intros _; vm_compute; reflexivity|]. split; [intros _; exact I|].
  do 2 eexists. split; [vm_compute; reflexivity|]. split; [reflexivity|]. split; [reflexivity|]. split; vm_compute; reflexivity.
Qed.
(** a first array of extent one along its split axis *)
Theorem C88_first_extent_one_refuted : exists (a b : bnd Z) Ga Gb,
  rep (b_arr a) [1; 0] Ga /\ rep (b_arr b) [2; 2] Gb /\ flag_ok a [1; 0] /\ flag_ok b [2; 2] /\
  bcast_shape (d_gshape (b_arr a)) (d_gshape (b_arr b)) [4] /\ d_split (b_arr a) = d_split (b_arr b) /\ broadcast_arrays 0 [a; b] = Err ValueError.
Proof.
  exists (cutg [1] g2 0 [1; 0] (Some true)), (cutg [4] g2 0 [2; 2] (Some true)), g2, g2.
  split; [apply cutg_rep; try (repeat constructor; cbn; lia)|]. split; [apply cutg_rep; try (repeat constructor; cbn; lia)|]. split; [intros _; vm_compute; reflexivity|]. split; [intros _; vm_compute; reflexivity|].
  split; [split; [reflexivity|]; intros [|i] Hi; cbn in Hi |- *; [unfold bcast_dim; lia|lia]|]. split; [reflexivity|]. vm_compute. reflexivity.
Qed.
