(** C100: MinMaxScaler and the inverse transforms of the scalers, in every layout. *)
From Coq Require Import QArith Qcanon.
From Verif Require Import Base BaseLemmas LayoutModel LayoutProofs NdSpec TensorSpec TensorLemmas NdLemmas OpsModel OpsProofs2 OpsProps RedistModel ShapeSpec ShapeModel ShapeProofs3 ShapeProps BinSpec BinModel BinProofs BinProofs2 BinProofs3 BinProps WhereProps DotProps ScalerModel.
Open Scope Z_scope.

(** ** order on rationals *)
Lemma qle_spec a b : reflect (Qcle a b) (qle a b).
Proof. unfold qle. destruct (Qclt_le_dec b a) as [H|H]; constructor; [now apply Qclt_not_le|auto]. Qed.
Lemma qle_total a b : Qcle a b \/ Qcle b a.
Proof. destruct (Qclt_le_dec b a); auto. right. now apply Qclt_le_weak. Qed.
Lemma qmin_monoid top : comm_monoid (fun x => Qcle x top) qmin top.
Proof.
  unfold comm_monoid, qmin. repeat match goal with |- _ /\ _ => split end.
  - apply Qcle_refl.
  - intros x y Hx Hy. destruct (qle_spec x y); auto.
  - intros x Hx. destruct (qle_spec top x); auto. now apply Qcle_antisym.
  - intros x y _ _. destruct (qle_spec x y), (qle_spec y x); auto; [now apply Qcle_antisym|destruct (qle_total x y); contradiction].
  - intros x y z _ _ _. destruct (qle_spec y z) as [H1|H1]; destruct (qle_spec x y) as [H2|H2]; repeat match goal with |- context [qle ?a ?b] => destruct (qle_spec a b) end; auto; try contradiction;
      exfalso; destruct (qle_total y z), (qle_total x y); try contradiction; eauto using Qcle_trans.
Qed.
Lemma qmax_monoid bot : comm_monoid (fun x => Qcle bot x) qmax bot.
Proof.
  unfold comm_monoid, qmax. repeat match goal with |- _ /\ _ => split end.
  - apply Qcle_refl.
  - intros x y Hx Hy. destruct (qle_spec x y); auto.
  - intros x Hx. destruct (qle_spec bot x); auto. contradiction.
  - intros x y _ _. destruct (qle_spec x y), (qle_spec y x); auto; [now apply Qcle_antisym|destruct (qle_total x y); contradiction].
  - intros x y z _ _ _. destruct (qle_spec y z) as [H1|H1]; destruct (qle_spec x y) as [H2|H2]; repeat match goal with |- context [qle ?a ?b] => destruct (qle_spec a b) end; auto; try contradiction;
      exfalso; destruct (qle_total y z), (qle_total x y); try contradiction; eauto using Qcle_trans.
Qed.
Lemma big_qmin top l : (forall x, In x l -> Qcle x top) -> l <> [] -> In (big qmin top l) l /\ forall x, In x l -> Qcle (big qmin top l) x.
Proof.
  induction l as [|a l IH]; intros H N; [congruence|]. cbn [big fold_right]. change (fold_right qmin top l) with (big qmin top l). destruct l as [|b l].
  - cbn. unfold qmin. assert (Qcle a top) by (apply H; now left). destruct (qle_spec a top); [|contradiction]. split; [auto|]. intros x [->|[]]. apply Qcle_refl.
  - destruct IH as [I1 I2]; [intros; apply H; now right|discriminate|]. unfold qmin at 1 3. destruct (qle_spec a (big qmin top (b :: l))) as [L|L].
    + split; [now left|]. intros x [->|Hx]; [apply Qcle_refl|]. eapply Qcle_trans; [exact L|auto].
    + split; [now right|]. intros x [->|Hx]; [destruct (qle_total x (big qmin top (b :: l))); auto; contradiction|auto].
Qed.
Lemma big_qmax bot l : (forall x, In x l -> Qcle bot x) -> l <> [] -> In (big qmax bot l) l /\ forall x, In x l -> Qcle x (big qmax bot l).
Proof.
  induction l as [|a l IH]; intros H N; [congruence|]. cbn [big fold_right]. change (fold_right qmax bot l) with (big qmax bot l). destruct l as [|b l].
  - cbn. unfold qmax. assert (Hb : Qcle bot a) by (apply H; now left). destruct (qle_spec a bot) as [L|L]; [replace bot with a by (now apply Qcle_antisym)|]; (split; [auto|]); intros x [->|[]]; apply Qcle_refl.
  - destruct IH as [I1 I2]; [intros; apply H; now right|discriminate|]. unfold qmax at 1 3. destruct (qle_spec a (big qmax bot (b :: l))) as [L|L].
    + split; [now right|]. intros x [->|Hx]; auto.
    + split; [now left|]. intros x [->|Hx]; [apply Qcle_refl|]. eapply Qcle_trans; [apply I2; auto|]. destruct (qle_total a (big qmax bot (b :: l))); auto; contradiction.
Qed.

(** ** shapes *)
Lemma in_bounds2 n f idx : in_bounds [n; f] idx -> exists i j, idx = [i; j] /\ 0 <= i < n /\ 0 <= j < f.
Proof. intros H. inversion H as [|? i' ? idx' Hi Hr]; subst. inversion Hr as [|? j' ? idx2 Hj Hr2]; subst. inversion Hr2; subst. eauto. Qed.
Definition par_split (sp : option nat) : option nat := match sp with Some (S k) => Some k | _ => None end.

(** row-wise operation with one parameter per column *)
Lemma with_param {C} (op : Qc -> Qc -> C) (x p : bnd Qc) (G Gp : list Z -> Qc) cx cp n f P :
  rep (b_arr x) cx G -> rep (b_arr p) cp Gp -> flag_ok x cx -> flag_ok p cp -> (0 < P)%nat -> length (d_locals (b_arr x)) = P -> length (d_locals (b_arr p)) = P ->
  d_gshape (b_arr x) = [n; f] -> d_gshape (b_arr p) = [f] -> 1 <= n -> 1 <= f -> d_split (b_arr p) = par_split (d_split (b_arr x)) ->
  exists u c, binary_op q0 q0 op x p = Ok u /\ d_gshape (b_arr u) = [n; f] /\ d_split (b_arr u) = d_split (b_arr x) /\ length (d_locals (b_arr u)) = P /\
    rep (b_arr u) c (fun idx => op (G idx) (Gp [nth 1 idx 0])) /\ flag_ok u c /\ (d_split (b_arr x) <> None -> c = cx).
Proof.
  intros R1 R2 F1 F2 HP L1 L2 S1 S2 Hn Hf PS.
  assert (SP : match d_split (b_arr x) with Some s => (s < 2)%nat | None => True end). { destruct R1 as (_ & _ & R). rewrite S1 in R. destruct (d_split (b_arr x)); [|auto]. exact (proj1 R). }
  assert (HB : bcast_shape [n; f] [f] [n; f]).
  { split; [reflexivity|]. intros i Hi. cbn [length] in *. unfold padded. cbn [length Nat.sub repeat app]. destruct i as [|[|i]]; cbn [nth]; [right; right; auto|left; auto|lia]. }
  assert (C45 := C45_binary_partial Qc Qc C q0 q0 op x p G Gp cx cp [n; f] R1 R2 F1 F2). cbv zeta in C45. rewrite L1, L2, S1, S2 in C45.
  destruct C45 as (u & c & E & E1 & E2 & E3 & E4 & _); auto.
  - right. unfold shift_split, padded. rewrite PS. cbn [length Nat.sub repeat app]. destruct (d_split (b_arr x)) as [[|[|s]]|]; cbn [par_split option_map Nat.add Nat.eqb nth]; auto; try lia; intros _; lia.
  - assert (ES : d_split (b_arr u) = d_split (b_arr x)).
    { rewrite E2. unfold shift_split, padded, result_split. rewrite PS. cbn [length Nat.sub repeat app]. destruct (d_split (b_arr x)) as [[|[|s]]|]; cbn [par_split option_map Nat.add nth]; auto; try lia; rewrite ?Z.eqb_refl; auto. }
    assert (R' : rep (b_arr u) c (fun idx => op (G idx) (Gp [nth 1 idx 0]))).
    { unfold rep in *. rewrite E1 in *. eapply represents_ext; [|exact E3]. intros idx Hi. apply in_bounds2 in Hi as (i & j & -> & Hi & Hj). cbn beta. f_equal; f_equal; [apply bcast_id; repeat constructor; lia|].
      change (clamp [f] [j] = [j]). apply clamp_id. repeat constructor; lia. }
    exists u, c. split; [exact E|]. split; [exact E1|]. split; [exact ES|].
    destruct (d_split (b_arr x)) as [s|] eqn:Es.
    + destruct (E4 s ES) as [-> FO]; [unfold shift_split; cbn; f_equal; lia|unfold padded; cbn; auto|]. split; [destruct E3 as [X _]; destruct R1 as [Y _]; lia|]. split; [auto|]. split; auto.
    + split; [|split; [auto|split; [intros _; now rewrite ES|congruence]]].
      revert E. unfold binary_op. rewrite S1, S2. cbn [length Nat.max Nat.sub]. destruct (pad_dims_ok 1 (b_arr p) Gp cp R2) as (y & EP & YG & YS & YR). rewrite EP. cbn [pad_dims bind]. unfold bin_core. cbn [b_arr].
      rewrite S1, YG, YS, Es, PS. cbn [par_split option_map]. destruct (bshape [n; f] _); [|discriminate]. cbn [bind]. intros E.
      destruct (all_ok _) as [ls|] eqn:EA in E; [|discriminate]. cbn [bind] in E. injection E as <-. cbn [b_arr d_locals].
      apply all_ok_length in EA. rewrite map_length, combine_length in EA. destruct YR as [YL _]. destruct R2 as [RL _]. lia.
Qed.
