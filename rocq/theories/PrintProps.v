(** C98: print shows the global array, whatever the layout. *)
From Verif Require Import Base BaseLemmas LayoutModel NdSpec TensorSpec TensorLemmas NdLemmas OpsModel RedistModel ShapeModel ShapeProofs4 ShapeProps BinModel BinProofs BinProofs2 BinProps RollProofs3 ReshapeModel FactoryModel FactoryProps RollModel PrintSpec PrintModel PrintProofs PrintProofs2.
Open Scope Z_scope.

Lemma torch_rows {A} e sum : forall sh (D G : list Z -> A), Forall (fun n => 0 <= n) sh -> 0 <= e -> (forall idx, in_bounds sh idx -> D idx = G idx) -> torch_str e sum sh D = rows_of e sum sh G.
Proof.
  intros sh D G Hs He HD. apply (rows_sel e sum He sh sh (fun _ i => i)); auto.
  - intros i Hi. left. auto.
  - intros idx Hx. rewrite HD by auto. f_equal. apply (@nth_ext2 _ _ _ 0); [rewrite map_length, seq_length; now apply in_bounds_length|]. intros i Hi. rewrite (nth_map_seq (fun i => nth i idx 0)); auto. rewrite <- (in_bounds_length _ _ Hx). auto.
Qed.
Lemma hd_in {A} (d : A) l : (0 < length l)%nat -> In (hd d l) l.
Proof. destruct l; cbn; [lia|auto]. Qed.

Ltac conj := repeat match goal with |- _ /\ _ => split end.
Section Print.
Context {V : Type} (dflt : V) (e threshold : Z).

(** C98.  Rank 0 prints the summary of the global array and printing leaves the elements where an array of this split has them
    (balanced).  If the array is distributed and summarized, the split axis must not have between 2e+1 and 3e-1 rows on more than
    two processes. *)
Theorem C98_print_partial (x : bnd V) (cnts : list Z) (G : list Z -> V) : rep (b_arr x) cnts G -> flag_ok x cnts -> (0 < length (d_locals (b_arr x)))%nat -> 0 <= e ->
  let sh := d_gshape (b_arr x) in
  (threshold < zprod sh -> forall s, d_split (b_arr x) = Some s -> nth s sh 0 <= 2 * e \/ 3 * e <= nth s sh 0 \/ (length (d_locals (b_arr x)) <= 2)%nat) ->
  exists y cnts' F, tensor_str dflt e threshold x = Ok (y, F, displayed e threshold sh G) /\
    d_gshape y = sh /\ d_split y = d_split (b_arr x) /\ length (d_locals y) = length (d_locals (b_arr x)) /\ rep y cnts' G.
Proof.
  intros HX HF HP He sh HC. unfold tensor_str, displayed. fold sh. destruct (Z.eqb_spec (zprod sh) 0) as [Z0|Z0].
  { exists (b_arr x), cnts, []. auto. }
  assert (BAL : exists y c', (match d_split (b_arr x) with
          | Some s => if (match d_split (b_arr x) with Some _ => negb (length (d_locals (b_arr x)) =? 1)%nat | None => false end) && negb (is_bal x) then balance_nd dflt (b_arr x) s else Ok (b_arr x)
          | None => Ok (b_arr x) end) = Ok y /\ d_gshape y = sh /\ d_split y = d_split (b_arr x) /\ length (d_locals y) = length (d_locals (b_arr x)) /\ rep y c' G /\
          (forall s, d_split y = Some s -> length (d_locals y) <> 1%nat -> c' = zcounts (nth s sh 0) (length (d_locals y)))).
  { pose proof HX as (L & _). destruct (d_split (b_arr x)) as [s|] eqn:Es; [|exists (b_arr x), cnts; conj; auto; rewrite Es; discriminate].
    destruct (Nat.eqb_spec (length (d_locals (b_arr x))) 1) as [P1|P1]; cbn [negb andb].
    - exists (b_arr x), cnts. conj; auto. intros; lia.
    - destruct (is_bal x) eqn:EB; cbn [negb].
      + exists (b_arr x), cnts. conj; auto. intros s' E' _. rewrite Es in E'. injection E' as <-.
        pose proof (is_bal_true x s (flag_truthful x cnts G HX HF) Es EB) as Q. unfold lcounts in Q. unfold rep in HX. rewrite Es in HX. rewrite (ShapeProofs4.local_counts _ _ _ _ _ HX) in Q. exact Q.
      + pose proof HX as HX'. unfold rep in HX'. rewrite Es in HX'. destruct (balance_nd_ok dflt (b_arr x) G cnts s HX' ltac:(lia)) as (y & E & Sy & Py & Ry).
        exists y, (zcounts (nth s sh 0) (length cnts)). assert (Ly : length (d_locals y) = length (d_locals (b_arr x))).
        { destruct Ry as (Ly & _). rewrite Ly, L. apply zcounts_ok; [lia|]. eapply represents_nth_nonneg; [exact HX'|]. apply HX'. }
        conj; auto; try congruence; try (unfold rep; rewrite Sy, Py, Es; exact Ry); try (intros s' E' _; rewrite Py in E'; injection E' as <-; now rewrite Ly, L). }
  destruct BAL as (y & c' & EB & Sy & Py & Ly & Ry & Cy). unfold torch_data. cbv zeta. rewrite EB. cbn [bind].
  assert (NN : Forall (fun n => 0 <= n) sh) by (destruct HX as (_ & N & _); exact N).
  assert (WHOLE : forall t, agrees t sh G -> torch_str e (threshold <? zprod sh) (ash t) (adat t) = rows_of e (threshold <? zprod sh) sh G).
  { intros t [S0 D0]. rewrite S0. now apply torch_rows. }
  destruct (d_split y) as [s|] eqn:Es.
  - destruct (Nat.eqb_spec (length (d_locals y)) 1) as [P1|P1].
    + cbn [bind]. rewrite ?Es, ?P1. cbn [Nat.eqb negb]. rewrite WHOLE.
      * exists y, c'; eexists. rewrite <- Py, Es. auto.
      * rewrite <- Sy. apply (one_rank_whole G (d_gshape y) (d_split y) c' (d_locals y)); auto. apply hd_in. lia.
    + unfold rep in Ry. rewrite Es in Ry. rewrite (Cy s eq_refl P1) in Ry. destruct (threshold <? zprod sh) eqn:ET; cbn [negb].
      * rewrite Sy in *. destruct (gather_shown dflt e He sh s (length (d_locals y)) ltac:(lia) (d_locals y) G Ry) as (ts & E & EQ).
        { rewrite Ly. apply HC; [lia|]. congruence. }
        rewrite E. cbn [bind]. cbn [bind]. exists y, (zcounts (nth s sh 0) (length (d_locals y))); eexists. rewrite EQ, Es. rewrite <- Py. conj; auto. unfold rep. rewrite Es, Sy. exact Ry.
      * cbn [bind]. rewrite WHOLE.
        -- exists y, (zcounts (nth s sh 0) (length (d_locals y))); eexists. rewrite Es, <- Py. conj; auto. unfold rep. rewrite Es. exact Ry.
        -- unfold resplit_none, local0. rewrite Es. cbn [d_locals]. destruct (d_locals y) as [|t ts] eqn:El; [cbn in Ly; lia|]. cbn [map hd]. rewrite <- Sy. apply (gather_agrees _ _ _ _ _ dflt Ry).
  - cbn [bind]. rewrite WHOLE.
    + exists y, c'; eexists. rewrite <- Py, Es. auto.
    + unfold rep in Ry. rewrite Es in Ry. destruct Ry as (_ & _ & A0). rewrite <- Sy. apply A0. apply hd_in. lia.
Qed.
End Print.

(** a 7 x 200 array with default options (3 edge items, threshold 1000) on 3 processes: the row 4 is left out without an ellipsis *)
Definition wide (cnts : list Z) : bnd Z :=
  mk_bnd (mk_dnd (map (fun r => mk_arr [nth r cnts 0; 200] (fun idx => (nth 0 idx 0 + zsum (firstn r cnts)) * 1000 + nth 1 idx 0)) (seq 0 (length cnts))) [7; 200] (Some 0%nat)) (Some true).
Definition wide_G (idx : list Z) : Z := nth 0 idx 0 * 1000 + nth 1 idx 0.
Lemma wide_rep cnts : Forall (fun c => 0 <= c) cnts -> zsum cnts = 7 -> rep (b_arr (wide cnts)) cnts wide_G.
Proof.
  intros H1 H2. unfold rep, wide. cbn [b_arr d_gshape d_split d_locals]. split; [now rewrite map_length, seq_length|]. split; [repeat constructor; lia|]. split; [cbn; lia|]. split; [auto|]. split; [exact H2|].
  intros r t Ht. rewrite nth_error_map in Ht. destruct (nth_error (seq 0 (length cnts)) r) as [q|] eqn:E; [|discriminate Ht]. injection Ht as <-. assert (Hr : (r < length cnts)%nat) by (rewrite <- (seq_length (length cnts) 0); apply nth_error_Some; congruence).
  apply (nth_error_nth _ _ 0%nat) in E. rewrite seq_nth in E by auto. cbn in E. subst q. split; [reflexivity|]. intros idx Hx. cbn [adat]. pose proof (in_bounds_length _ _ Hx) as LI. cbn in LI. unfold wide_G, move_axis_idx. destruct idx as [|i [|j [|]]]; try discriminate LI. reflexivity.
Qed.
Theorem C98_short_axis_refuted : rep (b_arr (wide [3; 2; 2])) [3; 2; 2] wide_G /\ flag_ok (wide [3; 2; 2]) [3; 2; 2] /\
  exists y F l, tensor_str 0 3 1000 (wide [3; 2; 2]) = Ok (y, F, Rows l) /\ length l = 6%nat /\ displayed 3 1000 [7; 200] wide_G <> Rows l.
Proof.
  split; [apply wide_rep; [repeat constructor; lia|reflexivity]|]. split; [intros _; reflexivity|].
  destruct (tensor_str 0 3 1000 (wide [3; 2; 2])) as [[[y F] t]|] eqn:E; [|vm_compute in E; discriminate].
  assert (T : match tensor_str 0 3 1000 (wide [3; 2; 2]) with Ok (_, _, Rows l) => length l | _ => 0%nat end = 6%nat) by (vm_compute; reflexivity).
  rewrite E in T. destruct t as [a|l|f l]; try discriminate T. exists y, F, l. split; [reflexivity|]. split; [exact T|].
  unfold displayed. change (zprod [7; 200] =? 0) with false. cbn [rows_of]. change (1000 <? zprod [7; 200]) with true. cbn [andb]. change (2 * 3 <? 7) with true. cbv iota beta. discriminate.
Qed.
(** the same values on one and on two processes: the elements the number formatter looks at are different *)
Definition line (cnts : list Z) : bnd Z :=
  mk_bnd (mk_dnd (map (fun r => mk_arr [nth r cnts 0] (fun idx => nth 0 idx 0 + zsum (firstn r cnts))) (seq 0 (length cnts))) [10] (Some 0%nat)) (Some true).
Theorem C98_format_refuted : exists y y' t, tensor_str 0 3 5 (line [10]) = Ok (y, [0; 1; 2; 7; 8; 9], t) /\ tensor_str 0 3 5 (line [5; 5]) = Ok (y', [0; 1; 2; 3; 5; 6; 7; 8; 9], t).
Proof. vm_compute. do 3 eexists. split; reflexivity. Qed.
(** printing moves the rows of an unbalanced array *)
Theorem C98_layout_refuted : exists y F t, tensor_str 0 3 1000 (mk_bnd (b_arr (wide [7; 0])) None) = Ok (y, F, t) /\ map (fun t => ash t) (d_locals y) = [[4; 200]; [3; 200]].
Proof.
  destruct (tensor_str 0 3 1000 (mk_bnd (b_arr (wide [7; 0])) None)) as [[[y F] t]|] eqn:E; [|vm_compute in E; discriminate]. exists y, F, t. split; [reflexivity|].
  assert (T : match tensor_str 0 3 1000 (mk_bnd (b_arr (wide [7; 0])) None) with Ok (y, _, _) => map (fun t => ash t) (d_locals y) | _ => [] end = [[4; 200]; [3; 200]]) by (vm_compute; reflexivity). now rewrite E in T.
Qed.
(** non-vacuity: 7 rows on two processes *)
Example C98_instance : exists y c F, tensor_str 0 3 1000 (wide [4; 3]) = Ok (y, F, displayed 3 1000 [7; 200] wide_G) /\ rep y c wide_G.
Proof.
  destruct (C98_print_partial 0 3 1000 (wide [4; 3]) [4; 3] wide_G) as (y & c & F & E & _ & _ & _ & R).
  - apply wide_rep; [repeat constructor; lia|reflexivity].
  - intros _; reflexivity.
  - cbn; lia.
  - lia.
  - intros _ s _. cbn. lia.
  - exists y, c, F. split; [exact E|exact R].
Qed.
