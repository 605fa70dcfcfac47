(** C100: fit, transform and inverse_transform together. *)
From Coq Require Import QArith Qcanon.
From Verif Require Import Base BaseLemmas LayoutModel LayoutProofs NdSpec TensorSpec TensorLemmas NdLemmas OpsModel OpsProofs2 OpsProps RedistModel ShapeSpec ShapeModel ShapeProofs3 ShapeProps BinSpec BinModel BinProofs BinProofs2 BinProofs3 BinProps WhereProps DotProps ScalerModel ScalerProps.
Open Scope Z_scope.

Lemma map_bnd_flag {A B} (f : A -> B) (u : bnd A) c : flag_ok u c -> flag_ok (map_bnd f u) c.
Proof. unfold flag_ok. cbn [map_bnd b_arr b_flag d_locals d_split d_gshape]. rewrite map_length. auto. Qed.
Lemma map_bnd_len {A B} (f : A -> B) (u : bnd A) : length (d_locals (b_arr (map_bnd f u))) = length (d_locals (b_arr u)).
Proof. cbn. apply map_length. Qed.
(** the values that a column reduction combines *)
Lemma col_in (G : list Z -> Qc) n f j v : 0 <= j < f -> 0 <= n -> In v (map G (filter (fun i => eqb_idx (drop_axes [0%nat] i) [j]) (row_major [n; f]))) <-> exists i, 0 <= i < n /\ v = G [i; j].
Proof.
  intros Hj Hn. rewrite in_map_iff. split.
  - intros (idx & <- & H). apply filter_In in H as [H E]. apply in_row_major in H. apply in_bounds2 in H as (i & k & -> & Hi & Hk). apply eqb_idx_eq in E. cbn in E. injection E as ->. exists i. auto.
  - intros (i & Hi & ->). exists [i; j]. split; [auto|]. apply filter_In. split; [apply in_row_major; repeat constructor; lia|]. apply eqb_idx_eq. reflexivity.
Qed.
Lemma col_ok (ok : Qc -> Prop) op e (x : bnd Qc) (G : list Z -> Qc) cx n f P : comm_monoid ok op e ->
  rep (b_arr x) cx G -> flag_ok x cx -> length (d_locals (b_arr x)) = P -> d_gshape (b_arr x) = [n; f] -> 1 <= n -> 1 <= f -> (forall idx, in_bounds [n; f] idx -> ok (G idx)) -> (d_split (b_arr x) = Some 1%nat -> Forall (fun c => 1 <= c) cx) ->
  exists b, col_reduce op e x = Ok b /\ d_gshape (b_arr b) = [f] /\ d_split (b_arr b) = par_split (d_split (b_arr x)) /\ length (d_locals (b_arr b)) = P /\ flag_ok b cx /\ rep (b_arr b) cx (reduce_drop op e G [n; f] [0%nat]).
Proof.
  intros HM R F L S Hn Hf Hok HC. pose proof R as R0. unfold rep in R. rewrite S in R.
  assert (SP : match d_split (b_arr x) with Some s => (s < 2)%nat | None => True end). { destruct R as (_ & _ & R). destruct (d_split (b_arr x)); [exact (proj1 R)|auto]. }
  destruct (C23_reduce_partial Qc ok op e HM true [n; f] _ _ _ G (AxInt 0) [0%nat] R Hok) as (r & E & S3 & R3 & SP3); auto.
  - constructor; [intros []|constructor].
  - cbn. lia.
  - exists 1%nat. split; [cbn; lia|]. intros [H|[]]; discriminate.
  - intros _. split; [repeat constructor; lia|]. destruct (d_split (b_arr x)) as [[|[|s]]|]; auto; [left; now left|lia].
  - assert (PS : r_split r = par_split (d_split (b_arr x))).
    { destruct (d_split (b_arr x)) as [[|[|s]]|]; [apply SP3; now left| |lia|exact SP3]. destruct SP3 as [_ SP3]. destruct SP3 as (s' & -> & N); [intros [H|[]]; discriminate|]. cbn in N. destruct s' as [|s']; [reflexivity|]. destruct s'; discriminate N. }
    exists (of_reduced x r). unfold col_reduce. rewrite S, E. cbn [bind of_reduced b_arr d_gshape d_split d_locals]. split; [reflexivity|]. split; [exact S3|]. split; [exact PS|]. unfold rep. cbn [of_reduced b_arr d_gshape d_split d_locals]. rewrite S3 in *.
    assert (LR : length (r_locals r) = P) by (destruct R3 as [X _]; destruct R as [Y _]; lia). split; [exact LR|]. split; [|exact R3].
    unfold flag_ok in *. cbn [of_reduced b_arr d_gshape d_split d_locals b_flag]. rewrite PS, S3, LR. destruct (d_split (b_arr x)) as [[|[|s]]|]; cbn [par_split]; auto; [|lia]. rewrite L, S in F. exact F.
Qed.
(** where for arrays of one layout (C57), with the flag of the result *)
Lemma where_flag {V} (dv zero one : V) (mul add : V -> V -> V) (is0 : V -> V) (cond x y : bnd V) Gc Gx Gy cc cx cy P :
  (forall v, mul one v = v) -> (forall v, mul zero v = zero) -> (forall v, add v zero = v) -> (forall v, add zero v = v) ->
  is0 zero = one -> is0 one = zero -> (0 < P)%nat ->
  rep (b_arr cond) cc Gc -> rep (b_arr x) cx Gx -> rep (b_arr y) cy Gy -> flag_ok cond cc -> flag_ok x cx -> flag_ok y cy ->
  length (d_locals (b_arr cond)) = P -> length (d_locals (b_arr x)) = P -> length (d_locals (b_arr y)) = P ->
  d_gshape (b_arr x) = d_gshape (b_arr cond) -> d_gshape (b_arr y) = d_gshape (b_arr cond) ->
  d_split (b_arr x) = d_split (b_arr cond) -> d_split (b_arr y) = d_split (b_arr cond) ->
  exists u c, where_op dv mul add is0 cond x y = Ok u /\ d_gshape (b_arr u) = d_gshape (b_arr cond) /\ d_split (b_arr u) = d_split (b_arr cond) /\ length (d_locals (b_arr u)) = P /\ flag_ok u c /\
    rep (b_arr u) c (fun idx => add (mul (is0 (Gc idx)) (Gy idx)) (mul (Gc idx) (Gx idx))).
Proof.
  intros M1 M0 A0 A0' I0 I1 HP Rc Rx Ry Fc Fx Fy Lc Lx Ly Ex Ey Sx Sy.
  unfold where_op. rewrite Sx, Sy.
  replace (_ || _) with false. 2:{ destruct (d_split (b_arr cond)); [now rewrite Nat.eqb_refl|reflexivity]. } cbn [andb].
  destruct (binary_same dv dv mul (map_bnd is0 cond) y (fun idx => is0 (Gc idx)) Gy cc cy P) as (a & ca & -> & A1 & A2 & A3 & A4 & A5 & A6); auto.
  { now apply map_bnd_rep. }
  { now apply map_bnd_flag. }
  { now rewrite map_bnd_len. }
  cbn [bind]. destruct (binary_same dv dv mul cond x Gc Gx cc cx P) as (b & cb & -> & B1 & B2 & B3 & B4 & B5 & B6); auto. cbn [bind].
  cbn [map_bnd b_arr d_gshape d_split] in *.
  destruct (binary_same dv dv add a b (fun idx => mul (is0 (Gc idx)) (Gy idx)) (fun idx => mul (Gc idx) (Gx idx)) ca cb P) as (u & c & -> & U1 & U2 & U3 & U4 & U5 & U6); auto; try congruence.
  exists u, c. split; [auto|]. split; [congruence|]. split; [congruence|]. auto.
Qed.
Lemma qinv1 : Qcinv q1 = q1.
Proof. unfold q1. field. intros E. discriminate E. Qed.
Lemma forallb_const {A} (g : A -> bool) l b : l <> [] -> (forall x, In x l -> g x = b) -> forallb (fun b => b) (map g l) = b /\ existsb (fun b => b) (map g l) = b.
Proof.
  induction l as [|x l IH]; intros N H; [congruence|]. cbn. rewrite (H x) by now left. destruct l as [|y l]; [cbn; destruct b; auto|]. destruct IH as [-> ->]; [discriminate|intros; apply H; now right|]. destruct b; auto.
Qed.

(** [m] is the least element of column [j] of an n-row array, [M] the greatest *)
Definition col_min (G : list Z -> Qc) (n : Z) (j : Z) (m : Qc) : Prop := (forall i, 0 <= i < n -> Qcle m (G [i; j])) /\ exists i, 0 <= i < n /\ G [i; j] = m.
Definition col_max (G : list Z -> Qc) (n : Z) (j : Z) (m : Qc) : Prop := (forall i, 0 <= i < n -> Qcle (G [i; j]) m) /\ exists i, 0 <= i < n /\ G [i; j] = m.

(** fit: the shift is the column minimum, the scale (hi-lo)/(max-min), or 1 for an almost constant column *)
Lemma fit_ok (top tol lo hi : Qc) (x : bnd Qc) (G : list Z -> Qc) cx n f P :
  rep (b_arr x) cx G -> flag_ok x cx -> length (d_locals (b_arr x)) = P -> (0 < P)%nat -> d_gshape (b_arr x) = [n; f] -> 1 <= n -> 1 <= f ->
  (d_split (b_arr x) = Some 1%nat -> Forall (fun c => 1 <= c) cx) ->
  (forall i, in_bounds [n; f] i -> Qcle (Qcopp top) (G i) /\ Qcle (G i) top) -> (forall i i', in_bounds [n; f] i -> in_bounds [n; f] i' -> Qcle (Qcminus (G i) (G i')) top) ->
  exists p mn mx cm cs Gm Gs, minmax_fit top tol lo hi x = Ok p /\
    (forall j, 0 <= j < f -> col_min G n j (mn j) /\ col_max G n j (mx j) /\ Gm [j] = mn j /\ Gs [j] = if qle tol (Qcminus (mx j) (mn j)) then Qcinv (Qcdiv (Qcminus (mx j) (mn j)) (Qcminus hi lo)) else q1) /\
    (rep (b_arr (sc_shift p)) cm Gm /\ flag_ok (sc_shift p) cm /\ length (d_locals (b_arr (sc_shift p))) = P /\ d_gshape (b_arr (sc_shift p)) = [f] /\ d_split (b_arr (sc_shift p)) = par_split (d_split (b_arr x))) /\
    (rep (b_arr (sc_scale p)) cs Gs /\ flag_ok (sc_scale p) cs /\ length (d_locals (b_arr (sc_scale p))) = P /\ d_gshape (b_arr (sc_scale p)) = [f] /\ d_split (b_arr (sc_scale p)) = par_split (d_split (b_arr x))).
Proof.
  intros R F L HP S Hn Hf HC HB HD.
  destruct (col_ok _ _ _ x G cx n f P (qmin_monoid top) R F L S Hn Hf (fun i Hi => proj2 (HB i Hi)) HC) as (mnb & E1 & N1 & N2 & N3 & N4 & N5).
  destruct (col_ok _ _ _ x G cx n f P (qmax_monoid (Qcopp top)) R F L S Hn Hf (fun i Hi => proj1 (HB i Hi)) HC) as (mxb & E2 & X1 & X2 & X3 & X4 & X5).
  set (Gm := reduce_drop qmin top G [n; f] [0%nat]) in *. set (GM := reduce_drop qmax (Qcopp top) G [n; f] [0%nat]) in *.
  assert (IB : forall i j, 0 <= i < n -> 0 <= j < f -> in_bounds [n; f] [i; j]) by (intros; repeat constructor; lia).
  assert (HMIN : forall j, 0 <= j < f -> col_min G n j (Gm [j])).
  { intros j Hj. destruct (big_qmin top (map G (filter (fun i => eqb_idx (drop_axes [0%nat] i) [j]) (row_major [n; f])))) as [I1 I2].
    - intros v Hv. apply col_in in Hv as (i & Hi & ->); [|lia|lia]. apply HB; auto.
    - intros E. assert (In (G [0; j]) []); [|contradiction]. rewrite <- E. apply col_in; [lia|lia|]. exists 0. split; [lia|auto].
    - split; [intros i Hi; apply I2; apply col_in; [lia|lia|eauto]|]. apply col_in in I1 as (i & Hi & E); [|lia|lia]. exists i. auto. }
  assert (HMAX : forall j, 0 <= j < f -> col_max G n j (GM [j])).
  { intros j Hj. destruct (big_qmax (Qcopp top) (map G (filter (fun i => eqb_idx (drop_axes [0%nat] i) [j]) (row_major [n; f])))) as [I1 I2].
    - intros v Hv. apply col_in in Hv as (i & Hi & ->); [|lia|lia]. apply HB; auto.
    - intros E. assert (In (G [0; j]) []); [|contradiction]. rewrite <- E. apply col_in; [lia|lia|]. exists 0. split; [lia|auto].
    - split; [intros i Hi; apply I2; apply col_in; [lia|lia|eauto]|]. apply col_in in I1 as (i & Hi & E); [|lia|lia]. exists i. auto. }
  destruct (binary_same q0 q0 Qcminus mxb mnb GM Gm cx cx P) as (rg & cr & E3 & G1 & G2 & G3 & G4 & G5 & G6); auto; try congruence.
  assert (RNG : forall j, 0 <= j < f -> Qcle q0 (Qcminus (GM [j]) (Gm [j])) /\ Qcle (Qcminus (GM [j]) (Gm [j])) top).
  { intros j Hj. destruct (HMIN j Hj) as [A1 (i & Hi & A2)], (HMAX j Hj) as [B1 (k & Hk & B2)]. split.
    - apply -> Qcle_minus_iff. rewrite <- A2. apply B1. auto.
    - rewrite <- A2, <- B2. apply HD; auto. }
  assert (ABS : forall j, 0 <= j < f -> qabs (Qcminus (GM [j]) (Gm [j])) = Qcminus (GM [j]) (Gm [j])).
  { intros j Hj. unfold qabs. change (Q2Qc 0) with q0. destruct (qle_spec q0 (Qcminus (GM [j]) (Gm [j]))) as [_|H]; [auto|]. destruct H. apply RNG, Hj. }
  set (ab := map_bnd qabs rg). assert (RA : rep (b_arr ab) cr (fun idx => qabs (Qcminus (GM idx) (Gm idx)))) by now apply map_bnd_rep.
  assert (GSa : d_gshape (b_arr ab) = [f]) by (unfold ab; cbn; congruence). assert (Sa : d_split (b_arr ab) = par_split (d_split (b_arr x))) by (unfold ab; cbn; congruence). assert (La : length (d_locals (b_arr ab)) = P) by (unfold ab; rewrite map_bnd_len; auto).
  pose proof RA as RA'. unfold rep in RA'. rewrite GSa in RA'.
  destruct (C23_reduce_all_partial Qc _ qmin top (qmin_monoid top) top true [f] _ _ _ _ false eq_refl RA') as (g & E4 & S4 & P4 & R4).
  { intros idx Hi. apply in_bounds1 in Hi as (j & -> & Hj). rewrite ABS by auto. apply RNG, Hj. }
  { intros _. repeat constructor. lia. }
  unfold minmax_fit. rewrite E1. cbn [bind]. rewrite E2. cbn [bind]. rewrite E3. cbn [bind]. cbv zeta. fold ab. rewrite GSa. rewrite E4. cbn [bind].
  set (mall := big qmin top (map (fun idx => qabs (Qcminus (GM idx) (Gm idx))) (row_major [f]))) in *.
  assert (ML : In mall (map (fun idx => qabs (Qcminus (GM idx) (Gm idx))) (row_major [f])) /\ forall v, In v (map (fun idx => qabs (Qcminus (GM idx) (Gm idx))) (row_major [f])) -> Qcle mall v).
  { apply big_qmin.
    - intros v Hv. apply in_map_iff in Hv as (idx & <- & Hi). apply in_row_major in Hi. apply in_bounds1 in Hi as (j & -> & Hj). rewrite ABS by auto. apply RNG, Hj.
    - intros E. apply map_eq_nil in E. assert (In [0] []); [|contradiction]. rewrite <- E. apply in_row_major; repeat constructor; lia. }
  assert (LG : length (r_locals g) = P). { destruct R4 as [X _]. destruct RA' as [Y _]. lia. }
  destruct (forallb_const (fun t => negb (qle tol (adat t []))) (r_locals g) (negb (qle tol mall))) as [V1 V2].
  { intros E. rewrite E in LG. cbn in LG. lia. }
  { intros t Ht. destruct R4 as (_ & _ & R4). destruct (R4 t Ht) as [_ D]. rewrite D by constructor. reflexivity. }
  rewrite V1, V2.
  assert (R0 : rep (b_arr (map_bnd (fun r => Qcdiv r (Qcminus hi lo)) rg)) cr (fun idx => Qcdiv (Qcminus (GM idx) (Gm idx)) (Qcminus hi lo))) by now apply (map_bnd_rep (fun r => Qcdiv r (Qcminus hi lo))).
  assert (STEP : exists s1 cs Gs, (if negb (qle tol mall)
       then where_op q0 Qcmult Qcplus (fun c => if Qc_eq_bool c q0 then q1 else q0) (map_bnd (fun r => if qle tol r then q1 else q0) ab) (map_bnd (fun r => Qcdiv r (Qcminus hi lo)) rg) (map_bnd (fun _ => q1) rg)
       else if negb (qle tol mall) then Err RuntimeError else Ok (map_bnd (fun r => Qcdiv r (Qcminus hi lo)) rg)) = Ok s1 /\
     rep (b_arr s1) cs Gs /\ flag_ok s1 cs /\ length (d_locals (b_arr s1)) = P /\ d_gshape (b_arr s1) = [f] /\ d_split (b_arr s1) = par_split (d_split (b_arr x)) /\
     forall j, 0 <= j < f -> Gs [j] = if qle tol (Qcminus (GM [j]) (Gm [j])) then Qcdiv (Qcminus (GM [j]) (Gm [j])) (Qcminus hi lo) else q1).
  { destruct (qle_spec tol mall) as [T|T]; cbn [negb].
    - exists (map_bnd (fun r => Qcdiv r (Qcminus hi lo)) rg), cr, (fun idx => Qcdiv (Qcminus (GM idx) (Gm idx)) (Qcminus hi lo)). split; [reflexivity|]. split; [exact R0|]. split; [now apply map_bnd_flag|]. split; [now rewrite map_bnd_len|]. split; [cbn; congruence|]. split; [cbn; congruence|].
      intros j Hj. destruct (qle_spec tol (Qcminus (GM [j]) (Gm [j]))) as [_|N]; [auto|]. destruct N. eapply Qcle_trans; [exact T|]. rewrite <- ABS by auto. apply (proj2 ML). apply (in_map (fun idx => qabs (Qcminus (GM idx) (Gm idx)))). apply in_row_major; repeat constructor; lia.
    - destruct (where_flag q0 q0 q1 Qcmult Qcplus (fun c => if Qc_eq_bool c q0 then q1 else q0) (map_bnd (fun r => if qle tol r then q1 else q0) ab) (map_bnd (fun r => Qcdiv r (Qcminus hi lo)) rg) (map_bnd (fun _ => q1) rg)
        (fun idx => if qle tol (qabs (Qcminus (GM idx) (Gm idx))) then q1 else q0) (fun idx => Qcdiv (Qcminus (GM idx) (Gm idx)) (Qcminus hi lo)) (fun _ => q1) cr cr cr P) as (u & c & E & U1 & U2 & U3 & U4 & U5); auto using map_bnd_flag.
      + intros v. unfold q1. apply Qcmult_1_l.
      + intros v. unfold q0. apply Qcmult_0_l.
      + intros v. unfold q0. apply Qcplus_0_r.
      + intros v. unfold q0. apply Qcplus_0_l.
      + now apply (map_bnd_rep (fun r => if qle tol r then q1 else q0)).
      + now apply (map_bnd_rep (fun _ => q1)) in G5.
      + apply map_bnd_flag. now apply map_bnd_flag.
      + now rewrite map_bnd_len.
      + now rewrite map_bnd_len.
      + now rewrite map_bnd_len.
      + exists u, c. eexists. split; [exact E|]. split; [exact U5|]. split; [exact U4|]. split; [exact U3|]. split; [rewrite U1; exact GSa|]. split; [rewrite U2; exact Sa|].
        intros j Hj. cbn beta. rewrite ABS by auto. destruct (qle tol (Qcminus (GM [j]) (Gm [j]))).
        * change (Qc_eq_bool q1 q0) with false. cbn match. unfold q1, q0. rewrite Qcmult_1_l, Qcmult_0_l. apply Qcplus_0_l.
        * change (Qc_eq_bool q0 q0) with true. cbn match. unfold q1, q0. rewrite Qcmult_1_l, Qcmult_0_l. apply Qcplus_0_r. }
  destruct STEP as (s1 & cs & Gs & ES & RS & FS & LS & SS & PS & VS). change (@nil Z) with (@nil Z). rewrite ES. cbn [bind].
  exists (mk_scaler mnb (map_bnd Qcinv s1)), (fun j => Gm [j]), (fun j => GM [j]), cx, cs, Gm, (fun idx => Qcinv (Gs idx)). split; [reflexivity|]. split.
  - intros j Hj. split; [auto|]. split; [auto|]. split; [auto|]. cbn beta. rewrite VS by auto. destruct (qle tol (Qcminus (GM [j]) (Gm [j]))); [reflexivity|]. exact qinv1.
  - cbn [sc_shift sc_scale]. split; [auto|]. split; [now apply map_bnd_rep|]. split; [now apply map_bnd_flag|]. split; [now rewrite map_bnd_len|]. split; cbn; auto.
Qed.
