From Verif Require Import Base BaseLemmas LayoutModel LayoutProofs NdSpec TensorSpec NdLemmas TensorLemmas OpsModel OpsProofs4 RedistModel HaloModel HaloProofs HaloProps ShapeModel ShapeSpec ShapeProofs ShapeProofs4 ShapeProps BinModel BinProofs2 ReshapeModel FactoryModel FactoryProps ConcatModel ConcatProps DiagModel DiagProps RollProps SplitModel SplitProps SplitProps2 UnfoldModel UnfoldSpec UnfoldProofs.
Open Scope Z_scope.

Lemma n_windows_val n size step : 1 < size <= n -> 1 <= step -> n_windows n size step = (n - size) / step + 1.
Proof.
  intros Hs Ht. unfold n_windows. set (k := (n - size) / step + 1).
  assert (D0 : 0 <= (n - size) / step) by (apply Z.div_pos; lia).
  assert (D1 : (n - size) / step * step <= n - size < (n - size) / step * step + step).
  { pose proof (Z.div_mod (n - size) step ltac:(lia)). pose proof (Z.mod_pos_bound (n - size) step ltac:(lia)). nia. }
  assert (D2 : (n - size) / step <= n - size) by (apply Z.div_le_upper_bound; nia).
  unfold zr.
  assert (E : filter (fun w => w * step + size <=? n) (map Z.of_nat (seq 0 (Z.to_nat n))) = map Z.of_nat (seq 0 (Z.to_nat k))).
  { replace (Z.to_nat n) with (Z.to_nat k + (Z.to_nat n - Z.to_nat k))%nat by (unfold k; lia). rewrite seq_app, map_app, filter_app.
    assert (F1 : forall l, (forall w, In w l -> w * step + size <= n) -> filter (fun w => w * step + size <=? n) l = l).
    { induction l as [|w l IH]; intros H; cbn [filter]; [auto|]. replace (w * step + size <=? n) with true by (specialize (H w (or_introl eq_refl)); lia). f_equal. apply IH. intros; apply H; right; auto. }
    assert (F2 : forall l, (forall w, In w l -> n < w * step + size) -> filter (fun w => w * step + size <=? n) l = []).
    { induction l as [|w l IH]; intros H; cbn [filter]; [auto|]. replace (w * step + size <=? n) with false by (specialize (H w (or_introl eq_refl)); lia). apply IH. intros; apply H; right; auto. }
    rewrite F1, F2; [now rewrite app_nil_r| |].
    - intros w Hw. apply in_map_iff in Hw as (i & <- & Hi). apply in_seq in Hi. unfold k in Hi. nia.
    - intros w Hw. apply in_map_iff in Hw as (i & <- & Hi). apply in_seq in Hi. unfold k in Hi. nia. }
  rewrite E, map_length, seq_length. unfold k. lia.
Qed.

Theorem C43_unfold : forall (A : Type) (dflt : A) (x : dnd A) (G : list Z -> A) (cnts : list Z) st (axis size step : Z),
  let ax := norm (length (d_gshape x)) axis in let n := nth ax (d_gshape x) 0 in
  rep x cnts G -> (0 < length cnts)%nat -> valid_axis (length (d_gshape x)) axis -> 1 <= step -> 1 < size <= n ->
  (d_split x = Some ax -> (1 < length cnts)%nat -> Forall (fun c => size - 1 <= c) cnts) ->
  exists y cnts', unfold_arr dflt x st axis size step = Ok y /\
    d_gshape y = upd (d_gshape x) ax (n_windows n size step) ++ [size] /\ d_split y = d_split x /\
    rep y cnts' (fun idx => G (win ax step idx)).
Proof.
  intros A dflt x G cnts st axis size step ax n HR HP V Hs Hz HC. rewrite n_windows_val by auto. set (nw := (n - size) / step + 1).
  unfold unfold_arr. replace (step <? 1) with false by lia. replace (size <=? 1) with false by lia. destruct (sanitize_int _ _ V) as (az & -> & EA). cbn [bind]. rewrite EA. fold ax n. replace (n <? size) with false by lia.
  assert (AX : (ax < length (d_gshape x))%nat) by (unfold ax, norm, valid_axis in *; destruct (Z.ltb_spec axis 0); lia).
  assert (NW : 0 <= nw) by (unfold nw; assert (0 <= (n - size) / step) by (apply Z.div_pos; lia); lia).
  assert (NN : Forall (fun m => 0 <= m) (upd (d_gshape x) ax nw ++ [size])).
  { destruct HR as (_ & NN & _). apply Forall_app. split; [|repeat constructor; lia]. apply Forall_forall. intros m Hm. apply (In_nth _ _ 0) in Hm as (k & Hk & <-). rewrite upd_length in Hk.
    destruct (Nat.eq_dec k ax) as [->|N]; [rewrite upd_same; auto|]. rewrite upd_other by auto. rewrite Forall_forall in NN. apply NN, nth_In. auto. }
  destruct (d_split x) as [s|] eqn:Es.
  - assert (HRr := HR). unfold rep in HRr. rewrite Es in HRr. pose proof HRr as (LC & _ & Hsx & CN & SM & Q).
    destruct (Nat.eqb (length (d_locals x)) 1 || negb (Nat.eqb s ax)) eqn:EC.
    + (* every rank unfolds its own part *)
      set (c' := if Nat.eqb s ax then [nw] else cnts).
      destruct (all_ok_Qn (torch_unfold ax size step) (fun r u => agrees u (upd (upd (d_gshape x) ax nw ++ [size]) s (nth r c' 0)) (fun idx => G (win ax step (move_axis_idx s (zsum (firstn r c')) idx)))) (d_locals x)) as (us & EU & LU & QU).
      { intros r t Ht. assert (Hr : (r < length (d_locals x))%nat) by (apply nth_error_Some; congruence). assert (AG := Q r t Ht). unfold c'. destruct (Nat.eqb_spec s ax) as [->|N].
        - assert (L1 : length (d_locals x) = 1%nat) by (cbn in EC; lia). assert (r = 0%nat) by lia. subst r. destruct cnts as [|c [|]]; cbn in LC; try lia. cbn [nth firstn] in *. change (zsum []) with 0 in *.
          assert (c = n) by (unfold zsum in SM; cbn in SM; fold n in SM; lia). subst c.
          destruct (torch_unfold_ok ax size step t _ _ ltac:(lia) ltac:(lia) ltac:(rewrite upd_length; exact AX) AG ltac:(rewrite upd_same by exact AX; lia)) as (u & Eu & [Su Du]).
          exists u. split; [exact Eu|]. rewrite upd_same in Su, Du by exact AX. rewrite upd_upd_same in Su, Du. fold nw in Su, Du. rewrite upd_snoc by (now rewrite upd_length). rewrite upd_upd_same. split; [exact Su|]. intros idx Hi. rewrite (Du idx Hi). f_equal.
          apply in_bounds_snoc in Hi as (i & j & -> & Hi & Hj). assert (LI := in_bounds_length _ _ Hi). rewrite upd_length in LI.
          unfold move_axis_idx. rewrite !Z.add_0_r. rewrite (upd_same_list (i ++ [j])) by auto. apply upd_same_list. auto.
        - assert (EN : nth ax (upd (d_gshape x) s (nth r cnts 0)) 0 = n) by (rewrite upd_other by auto; reflexivity).
          destruct (torch_unfold_ok ax size step t _ _ ltac:(lia) ltac:(lia) ltac:(rewrite upd_length; exact AX) AG ltac:(rewrite EN; lia)) as (u & Eu & [Su Du]).
          exists u. split; [exact Eu|]. rewrite EN in Su, Du. fold nw in Su, Du. assert (ES : upd (upd (d_gshape x) ax nw ++ [size]) s (nth r cnts 0) = upd (upd (d_gshape x) s (nth r cnts 0)) ax nw ++ [size]).
          { rewrite upd_snoc by (now rewrite upd_length). f_equal. apply (@nth_ext2 _ _ _ 0); [now rewrite !upd_length|]. intros k Hk. rewrite !upd_length in Hk.
            destruct (Nat.eq_dec k s) as [->|]; [rewrite upd_same by (now rewrite upd_length); rewrite upd_other by auto; now rewrite upd_same|].
            rewrite upd_other by auto. destruct (Nat.eq_dec k ax) as [->|]; [rewrite !upd_same; auto; now rewrite upd_length|now rewrite !upd_other by auto]. }
          rewrite ES. split; [exact Su|]. intros idx Hi. rewrite (Du idx Hi). f_equal.
          apply in_bounds_snoc in Hi as (i & j & -> & Hi & Hj). assert (LI := in_bounds_length _ _ Hi). rewrite !upd_length in LI.
          rewrite win_snoc by lia. unfold move_axis_idx. rewrite (app_nth1 i [j]) by lia. rewrite upd_snoc by lia. rewrite win_snoc by (rewrite upd_length; lia). rewrite !upd_other by auto.
          apply (@nth_ext2 _ _ _ 0); [now rewrite !upd_length|]. intros k Hk. rewrite !upd_length in Hk.
          destruct (Nat.eq_dec k s) as [->|]; [rewrite upd_same by (rewrite upd_length; lia); rewrite upd_other by auto; rewrite upd_same; auto; lia|].
          rewrite upd_other by auto. destruct (Nat.eq_dec k ax) as [->|]; [rewrite !upd_same; auto; rewrite ?upd_length; lia|now rewrite !upd_other by auto]. }
      rewrite EU. cbn [bind].
      assert (RR : represents (fun idx => G (win ax step idx)) (upd (d_gshape x) ax nw ++ [size]) (Some s) c' us).
      { split; [rewrite LU; unfold c'; destruct (Nat.eqb_spec s ax); [cbn in EC; cbn; lia|auto]|]. split; [auto|]. split; [rewrite app_length, upd_length; cbn; lia|].
        split; [unfold c'; destruct (Nat.eqb s ax); [repeat constructor; auto|auto]|]. split; [|intros r u Hu; apply (QU r u Hu)].
        rewrite app_nth1 by (now rewrite upd_length). unfold c'. destruct (Nat.eqb_spec s ax) as [->|N]; [rewrite upd_same by auto; cbn; lia|now rewrite upd_other by auto]. }
      destruct (C55_array_is_split _ _ _ _ _ _ RR ltac:(lia)) as (y & bal & -> & Y1 & Y2 & Y3 & Y4 & _). cbn [bind fst]. exists y, c'. auto.
    + (* along the split axis *)
      apply orb_false_iff in EC as [E1 E2]. assert (s = ax) by (destruct (Nat.eqb_spec s ax); [auto|discriminate]). subst s.
      destruct (all_ok_Qn (fun p => unfold_split dflt x ax size step st (fst p) (snd p)) (fun r u => agrees u (upd (upd (d_gshape x) ax nw ++ [size]) ax (nth r (wcnts nw step cnts) 0)) (fun idx => G (win ax step (move_axis_idx ax (zsum (firstn r (wcnts nw step cnts))) idx)))) (ranked (d_locals x))) as (us & EU & LU & QU).
      { intros r [r' t] Hp. apply ranked_nth in Hp as (P1 & P2 & _). cbn [fst snd] in *. subst r'. apply unfold_split_ok; auto; try lia. apply HC; auto; lia. }
      rewrite EU. cbn [bind]. rewrite ranked_length in LU.
      assert (T := tele (fun r => wb nw step (zsum (firstn r cnts))) (length cnts)).
      assert (RR : represents (fun idx => G (win ax step idx)) (upd (d_gshape x) ax nw ++ [size]) (Some ax) (wcnts nw step cnts) us).
      { split; [rewrite LU; unfold wcnts; rewrite map_length, seq_length; auto|]. split; [auto|]. split; [rewrite app_length, upd_length; cbn; lia|].
        split; [|split; [|intros r u Hu; apply (QU r u Hu)]].
        - apply Forall_forall. intros c Hc. unfold wcnts in Hc. apply in_map_iff in Hc as (r & <- & Hr). apply in_seq in Hr. assert (M := wb_mono nw step (zsum (firstn r cnts)) (zsum (firstn (S r) cnts)) ltac:(lia) ltac:(apply zsum_firstn_mono; [exact CN|lia])). lia.
        - rewrite app_nth1 by (now rewrite upd_length). rewrite upd_same by auto. specialize (T (length cnts) (le_n _)). rewrite firstn_all2 in T by (rewrite map_length, seq_length; auto).
          unfold wcnts. rewrite T. cbn [firstn]. change (zsum []) with 0. rewrite wb_0 by lia. rewrite firstn_all, SM. fold n. pose proof (wb_all step n size ltac:(lia) ltac:(lia) ltac:(lia)) as WA. fold nw in WA. lia. }
      destruct (C55_array_is_split _ _ _ _ _ _ RR ltac:(lia)) as (y & bal & -> & Y1 & Y2 & Y3 & Y4 & _). cbn [bind fst]. exists y, (wcnts nw step cnts). auto.
  - assert (HRr := HR). unfold rep in HRr. rewrite Es in HRr. destruct HRr as (LC & _ & Q).
    destruct (all_ok_Qn (torch_unfold ax size step) (fun r u => agrees u (upd (d_gshape x) ax nw ++ [size]) (fun idx => G (win ax step idx))) (d_locals x)) as (us & EU & LU & QU).
    { intros r t Ht. apply torch_unfold_ok; auto; [lia|lia|apply Q, (nth_error_In _ _ Ht)|fold n; lia]. }
    rewrite EU. cbn [bind]. destruct us as [|u us]; [cbn in LU; lia|]. exists (mk_dnd (u :: us) (ash u) None), cnts. split; [reflexivity|]. cbn [d_gshape d_split]. assert (Hu := QU 0%nat u eq_refl). destruct Hu as [Su _].
    split; [exact Su|]. split; [reflexivity|]. unfold rep. cbn [d_gshape d_split d_locals]. rewrite Su. split; [congruence|]. split; [auto|]. intros v Hv. apply In_nth_error in Hv as (r & Hv). apply (QU r v Hv).
Qed.

(** arguments that are refused *)
Theorem C43_rejected : forall (A : Type) (dflt : A) (x : dnd A) st (axis size step : Z),
  let n := nth (norm (length (d_gshape x)) axis) (d_gshape x) 0 in
  valid_axis (length (d_gshape x)) axis -> step < 1 \/ size <= 1 \/ n < size -> unfold_arr dflt x st axis size step = Err ValueError.
Proof.
  intros A dflt x st axis size step n V H. unfold unfold_arr. destruct (Z.ltb_spec step 1); [auto|]. destruct (Z.leb_spec size 1); [auto|].
  destruct (sanitize_int _ _ V) as (az & -> & EA). cbn [bind]. rewrite EA. fold n. replace (n <? size) with true by lia. reflexivity.
Qed.

Theorem C43_chunk_too_small : forall (A : Type) (dflt : A) (x : dnd A) (G : list Z -> A) (cnts : list Z) st (axis size step : Z),
  let ax := norm (length (d_gshape x)) axis in let n := nth ax (d_gshape x) 0 in
  rep x cnts G -> valid_axis (length (d_gshape x)) axis -> 1 <= step -> 1 < size <= n -> d_split x = Some ax -> (1 < length cnts)%nat ->
  (exists c, In c cnts /\ c < size - 1) -> unfold_arr dflt x st axis size step = Err RuntimeError.
Proof.
  intros A dflt x G cnts st axis size step ax n HR V Hs Hz Es HP (c & Hc & Hl). unfold unfold_arr. replace (step <? 1) with false by lia. replace (size <=? 1) with false by lia. destruct (sanitize_int _ _ V) as (az & -> & EA). cbn [bind]. rewrite EA. fold ax n. replace (n <? size) with false by lia.
  unfold rep in HR. rewrite Es in HR. rewrite Es. pose proof HR as (LC & _). replace (Nat.eqb (length (d_locals x)) 1 || negb (Nat.eqb ax ax)) with false by (rewrite Nat.eqb_refl; lia).
  assert (EX : existsb (fun c => c <? size - 1) cnts = true) by (apply existsb_exists; exists c; split; [auto|lia]).
  assert (EE : forall p, unfold_split dflt x ax size step st (fst p) (snd p) = Err RuntimeError) by (intros p; unfold unfold_split; rewrite (local_counts _ _ _ _ _ HR), EX; reflexivity).
  erewrite all_ok_err with (e := RuntimeError); [reflexivity|intros p _; right; apply EE|].
  destruct (ranked (d_locals x)) as [|p l] eqn:ER; [apply (f_equal (@length _)) in ER; rewrite ranked_length in ER; cbn in ER; lia|]. exists p. split; [left; auto|apply EE].
Qed.

(** concrete case: 2 columns, 7 rows over 3 ranks (2, 3, 2), windows of 3 rows, step 2 *)
Definition uf_G (idx : list Z) : Z := 100 * nth 0 idx 0 + nth 1 idx 0.
Definition uf_part (o c : Z) : arr Z := mk_arr [c; 2] (fun idx => uf_G (upd idx 0 (nth 0 idx 0 + o))).
Definition uf_x : dnd Z := mk_dnd [uf_part 0 2; uf_part 2 3; uf_part 5 2] [7; 2] (Some 0%nat).
Lemma uf_rep : rep uf_x [2; 3; 2] uf_G.
Proof.
  split; [reflexivity|]. split; [repeat constructor; lia|]. split; [cbn; lia|]. split; [repeat constructor; lia|]. split; [reflexivity|].
  intros [|[|[|r]]] t Ht; unfold uf_x in Ht; cbn [d_locals nth_error] in Ht; try (destruct r; discriminate); injection Ht as <-; split; reflexivity.
Qed.
Example C43_example : exists y cnts', unfold_arr 0 uf_x (fun _ => Halo None None false) (-2) 3 2 = Ok y /\ d_gshape y = [3; 2; 3] /\ d_split y = Some 0%nat /\ rep y cnts' (fun idx => uf_G (win 0 2 idx)).
Proof. apply (C43_unfold Z 0 uf_x uf_G [2; 3; 2] (fun _ => Halo None None false) (-2) 3 2); [apply uf_rep|cbn; lia|unfold valid_axis; cbn; lia|lia|cbn; lia|intros _ _; repeat constructor; lia]. Qed.
Print Assumptions C43_unfold.
Print Assumptions C43_chunk_too_small.
