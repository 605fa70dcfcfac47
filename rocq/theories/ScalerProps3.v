(** C100: theorems about the scalers. *)
From Coq Require Import QArith Qcanon.
From Verif Require Import Base BaseLemmas LayoutModel LayoutProofs NdSpec TensorSpec TensorLemmas NdLemmas OpsModel OpsProofs2 OpsProps RedistModel ShapeSpec ShapeModel ShapeProofs3 ShapeProps BinSpec BinModel BinProofs BinProofs2 BinProofs3 BinProps WhereProps DotProps ScalerModel ScalerProps ScalerProps2.
Open Scope Z_scope.

Lemma qlt_neq (a b : Qc) : Qclt a b -> a <> b.
Proof. intros H ->. revert H. apply Qcle_not_lt, Qcle_refl. Qed.
Lemma q10 : q1 <> q0.
Proof. apply not_eq_sym, qlt_neq. reflexivity. Qed.
Lemma qinv_pos d : Qclt q0 d -> Qclt q0 (Qcinv d).
Proof.
  intros H. destruct (Qclt_le_dec q0 (Qcinv d)) as [L|L]; [auto|]. exfalso. apply (Qcmult_le_compat_r _ _ d) in L; [|now apply Qclt_le_weak].
  replace (Qcmult (Qcinv d) d) with q1 in L by (unfold q1; field; intros E; subst d; now apply (qlt_neq _ _ H)). replace (Qcmult q0 d) with q0 in L by (unfold q0; ring). revert L. apply Qclt_not_le. reflexivity.
Qed.
Lemma qsub_pos a b : Qclt a b -> Qclt q0 (Qcminus b a).
Proof. intros H. now apply -> Qclt_minus_iff. Qed.
Lemma qadd_le a b c : Qcle a b -> Qcle (Qcplus c a) (Qcplus c b).
Proof. intros H. apply Qcplus_le_compat; [apply Qcle_refl|auto]. Qed.
(** the scaled value lies in the range *)
Lemma scaled_range (lo hi a d : Qc) : Qclt lo hi -> Qclt q0 d -> Qcle q0 a -> Qcle a d ->
  Qcle lo (Qcplus lo (Qcmult (Qcdiv a d) (Qcminus hi lo))) /\ Qcle (Qcplus lo (Qcmult (Qcdiv a d) (Qcminus hi lo))) hi.
Proof.
  intros L D A1 A2. assert (W := qsub_pos _ _ L). assert (I := qinv_pos _ D). assert (N : d <> q0) by (intros ->; now apply (qlt_neq _ _ D)).
  assert (K1 : Qcle q0 (Qcdiv a d)). { unfold Qcdiv. replace q0 with (Qcmult q0 (Qcinv d)) by (unfold q0; ring). apply Qcmult_le_compat_r; [auto|now apply Qclt_le_weak]. }
  assert (K2 : Qcle (Qcdiv a d) q1). { unfold Qcdiv. replace q1 with (Qcmult d (Qcinv d)) by (unfold q1; field; exact N). apply Qcmult_le_compat_r; [auto|now apply Qclt_le_weak]. }
  split.
  - replace lo with (Qcplus lo q0) at 1 by (unfold q0; ring). apply qadd_le. replace q0 with (Qcmult q0 (Qcminus hi lo)) by (unfold q0; ring). apply Qcmult_le_compat_r; [auto|now apply Qclt_le_weak].
  - replace hi with (Qcplus lo (Qcmult q1 (Qcminus hi lo))) at 2 by (unfold q1; ring). apply qadd_le. apply Qcmult_le_compat_r; [auto|now apply Qclt_le_weak].
Qed.

(** shift and scale per column; [k] is their layout *)
Definition params (p : scaler) (cm cs : list Z) (Gm Gs : list Z -> Qc) (f : Z) (P : nat) (k : option nat) : Prop :=
  (rep (b_arr (sc_shift p)) cm Gm /\ flag_ok (sc_shift p) cm /\ length (d_locals (b_arr (sc_shift p))) = P /\ d_gshape (b_arr (sc_shift p)) = [f] /\ d_split (b_arr (sc_shift p)) = k) /\
  (rep (b_arr (sc_scale p)) cs Gs /\ flag_ok (sc_scale p) cs /\ length (d_locals (b_arr (sc_scale p))) = P /\ d_gshape (b_arr (sc_scale p)) = [f] /\ d_split (b_arr (sc_scale p)) = k).
Definition arr_ok (x : bnd Qc) (c : list Z) (G : list Z -> Qc) (n f : Z) (P : nat) (sp : option nat) : Prop :=
  rep (b_arr x) c G /\ flag_ok x c /\ length (d_locals (b_arr x)) = P /\ d_gshape (b_arr x) = [n; f] /\ d_split (b_arr x) = sp.

Lemma two_steps (o1 o2 : Qc -> Qc -> Qc) (a b x : bnd Qc) Ga Gb G ca cb c n f P sp : arr_ok x c G n f P sp -> (0 < P)%nat -> 1 <= n -> 1 <= f ->
  rep (b_arr a) ca Ga /\ flag_ok a ca /\ length (d_locals (b_arr a)) = P /\ d_gshape (b_arr a) = [f] /\ d_split (b_arr a) = par_split sp ->
  rep (b_arr b) cb Gb /\ flag_ok b cb /\ length (d_locals (b_arr b)) = P /\ d_gshape (b_arr b) = [f] /\ d_split (b_arr b) = par_split sp ->
  exists u v c', binary_op q0 q0 o1 x a = Ok u /\ binary_op q0 q0 o2 u b = Ok v /\ arr_ok v c' (fun idx => o2 (o1 (G idx) (Ga [nth 1 idx 0])) (Gb [nth 1 idx 0])) n f P sp.
Proof.
  intros (X1 & X2 & X3 & X4 & X5) HP Hn Hf (A1 & A2 & A3 & A4 & A5) (B1 & B2 & B3 & B4 & B5).
  destruct (with_param o1 x a G Ga c ca n f P X1 A1 X2 A2 HP X3 A3 X4 A4 Hn Hf ltac:(congruence)) as (u & cu & E & U1 & U2 & U3 & U4 & U5 & _).
  destruct (with_param o2 u b _ Gb cu cb n f P U4 B1 U5 B2 HP U3 B3 U1 B4 Hn Hf ltac:(congruence)) as (v & cv & E2 & V1 & V2 & V3 & V4 & V5 & _).
  exists u, v, cv. split; [exact E|]. split; [exact E2|]. unfold arr_ok. split; [exact V4|]. split; [exact V5|]. split; [exact V3|]. split; [exact V1|congruence].
Qed.
Lemma map_arr_ok g (x : bnd Qc) c G n f P sp : arr_ok x c G n f P sp -> arr_ok (map_bnd g x) c (fun i => g (G i)) n f P sp.
Proof. intros (X1 & X2 & X3 & X4 & X5). unfold arr_ok. split; [now apply map_bnd_rep|]. split; [now apply map_bnd_flag|]. rewrite map_bnd_len. cbn. auto. Qed.

(** StandardScaler: for non-zero scales, inverse_transform undoes transform, in every layout, on any data with the
    right number of features *)
Theorem C100_standard_roundtrip (p : scaler) (y : bnd Qc) (cm cs cy : list Z) (Gm Gs G : list Z -> Qc) (m f : Z) (P : nat) :
  rep (b_arr y) cy G -> flag_ok y cy -> length (d_locals (b_arr y)) = P -> (0 < P)%nat -> d_gshape (b_arr y) = [m; f] -> 1 <= m -> 1 <= f ->
  params p cm cs Gm Gs f P (par_split (d_split (b_arr y))) -> (forall j, 0 <= j < f -> Gs [j] <> q0) ->
  exists t u ct cu, std_transform p y = Ok t /\ d_gshape (b_arr t) = [m; f] /\ d_split (b_arr t) = d_split (b_arr y) /\
    rep (b_arr t) ct (fun idx => Qcmult (Qcminus (G idx) (Gm [nth 1 idx 0])) (Gs [nth 1 idx 0])) /\
    std_inverse p t = Ok u /\ d_gshape (b_arr u) = [m; f] /\ d_split (b_arr u) = d_split (b_arr y) /\ rep (b_arr u) cu G.
Proof.
  intros R F L HP S Hm Hf [PA PB] NZ.
  destruct (two_steps Qcminus Qcmult (sc_shift p) (sc_scale p) y Gm Gs G cm cs cy m f P (d_split (b_arr y))) as (a & t & ct & E1 & E2 & T); auto; [unfold arr_ok; auto|].
  destruct (two_steps Qcdiv Qcplus (sc_scale p) (sc_shift p) t Gs Gm _ cs cm ct m f P (d_split (b_arr y)) T) as (b & u & cu & E3 & E4 & U); auto.
  destruct T as (T1 & T2 & T3 & T4 & T5), U as (U1 & U2 & U3 & U4 & U5).
  exists t, u, ct, cu. unfold std_transform, std_inverse. rewrite E1. cbn [bind]. rewrite E3. cbn [bind].
  split; [exact E2|]. split; [exact T4|]. split; [exact T5|]. split; [exact T1|]. split; [exact E4|]. split; [exact U4|]. split; [exact U5|].
  unfold rep in *. rewrite U4 in *. eapply represents_ext; [|exact U1]. intros idx Hi. apply in_bounds2 in Hi as (i & j & -> & Hi & Hj). cbn [nth]. specialize (NZ j Hj). field. exact NZ.
Qed.

(** MinMaxScaler fitted to x (n, f): shift and range are the column minima and maxima; transform of any data y with f
    features is lo + (y - min) / (max - min) * (hi - lo) in the columns whose range is at least tol, lo + (y - min) in the
    others; shape and split are kept; inverse_transform gives y back.  Excluded (hence _partial): processes without
    columns when x is split along the features. *)
Theorem C100_minmax_partial (top tol lo hi : Qc) (x : bnd Qc) (G : list Z -> Qc) (cx : list Z) (n f : Z) (P : nat) : Qclt q0 tol -> Qclt lo hi ->
  rep (b_arr x) cx G -> flag_ok x cx -> length (d_locals (b_arr x)) = P -> (0 < P)%nat -> d_gshape (b_arr x) = [n; f] -> 1 <= n -> 1 <= f ->
  (d_split (b_arr x) = Some 1%nat -> Forall (fun c => 1 <= c) cx) ->
  (forall i, in_bounds [n; f] i -> Qcle (Qcopp top) (G i) /\ Qcle (G i) top) -> (forall i i', in_bounds [n; f] i -> in_bounds [n; f] i' -> Qcle (Qcminus (G i) (G i')) top) ->
  exists p mn mx, minmax_fit top tol lo hi x = Ok p /\
    (forall j, 0 <= j < f -> col_min G n j (mn j) /\ col_max G n j (mx j)) /\
    forall (y : bnd Qc) (Gy : list Z -> Qc) (cy : list Z) (m : Z), rep (b_arr y) cy Gy -> flag_ok y cy -> length (d_locals (b_arr y)) = P -> d_gshape (b_arr y) = [m; f] -> 1 <= m ->
      par_split (d_split (b_arr y)) = par_split (d_split (b_arr x)) ->
      exists t u ct cu H, minmax_transform lo p y = Ok t /\ d_gshape (b_arr t) = [m; f] /\ d_split (b_arr t) = d_split (b_arr y) /\ rep (b_arr t) ct H /\
        (forall i j, 0 <= i < m -> 0 <= j < f ->
           (Qcle tol (Qcminus (mx j) (mn j)) -> H [i; j] = Qcplus lo (Qcmult (Qcdiv (Qcminus (Gy [i; j]) (mn j)) (Qcminus (mx j) (mn j))) (Qcminus hi lo))) /\
           (Qclt (Qcminus (mx j) (mn j)) tol -> H [i; j] = Qcplus lo (Qcminus (Gy [i; j]) (mn j)))) /\
        minmax_inverse lo p t = Ok u /\ d_gshape (b_arr u) = [m; f] /\ d_split (b_arr u) = d_split (b_arr y) /\ rep (b_arr u) cu Gy.
Proof.
  intros HT HLH R F L HP S Hn Hf HC HB HD.
  destruct (fit_ok top tol lo hi x G cx n f P R F L HP S Hn Hf HC HB HD) as (p & mn & mx & cm & cs & Gm & Gs & E & V & PA & PB).
  exists p, mn, mx. split; [exact E|]. split; [intros j Hj; destruct (V j Hj) as (V1 & V2 & _); auto|].
  intros y Gy cy m Ry Fy Ly Sy Hm PS. rewrite <- PS in PA, PB.
  assert (W : Qcminus hi lo <> q0). { apply not_eq_sym, qlt_neq, qsub_pos, HLH. }
  assert (NZ : forall j, 0 <= j < f -> Gs [j] <> q0).
  { intros j Hj Z0. destruct (V j Hj) as (_ & _ & _ & VS). rewrite Z0 in VS. destruct (qle_spec tol (Qcminus (mx j) (mn j))) as [T|T].
    - assert (D : Qcminus (mx j) (mn j) <> q0). { apply not_eq_sym, qlt_neq. eapply Qclt_le_trans; [exact HT|exact T]. }
      set (d := Qcminus (mx j) (mn j)) in *. set (w := Qcminus hi lo) in *. assert (ONE : Qcmult (Qcinv (Qcdiv d w)) (Qcdiv d w) = q1). { unfold q1. field. split; auto. }
      rewrite <- VS in ONE. apply q10. rewrite <- ONE. unfold q0. ring.
    - symmetry in VS. now apply q10. }
  destruct (two_steps Qcminus Qcmult (sc_shift p) (sc_scale p) y Gm Gs Gy cm cs cy m f P (d_split (b_arr y))) as (a & b & cb & E1 & E2 & T); auto; [unfold arr_ok; auto|].
  pose proof (map_arr_ok (fun v => Qcplus v lo) _ _ _ _ _ _ _ T) as T'.
  pose proof (map_arr_ok (fun v => Qcminus v lo) _ _ _ _ _ _ _ T') as T2.
  destruct (two_steps Qcdiv Qcplus (sc_scale p) (sc_shift p) _ Gs Gm _ cs cm cb m f P (d_split (b_arr y)) T2) as (a2 & u & cu & E3 & E4 & U); auto.
  destruct T' as (T1 & _ & T3 & T4 & T5), U as (U1 & U2 & U3 & U4 & U5).
  exists (map_bnd (fun v => Qcplus v lo) b), u, cb, cu. eexists. unfold minmax_transform, minmax_inverse. rewrite E1. cbn [bind]. rewrite E2. cbn [bind]. rewrite E3. cbn [bind].
  split; [reflexivity|]. split; [exact T4|]. split; [exact T5|]. split; [exact T1|]. split; [|split; [exact E4|]; split; [exact U4|]; split; [exact U5|]].
  - intros i j Hi Hj. cbn [nth]. destruct (V j Hj) as (_ & _ & VM & VS). rewrite VM, VS. split; intros HR.
    + destruct (qle_spec tol (Qcminus (mx j) (mn j))) as [_|N]; [|contradiction]. assert (D : Qcminus (mx j) (mn j) <> q0). { apply not_eq_sym, qlt_neq. eapply Qclt_le_trans; [exact HT|exact HR]. }
      field. split; auto.
    + destruct (qle_spec tol (Qcminus (mx j) (mn j))) as [N|_]; [exfalso; revert N; now apply Qclt_not_le|]. unfold q1. ring.
  - unfold rep in *. rewrite U4 in *. eapply represents_ext; [|exact U1]. intros idx Hi. apply in_bounds2 in Hi as (i & j & -> & Hi & Hj). cbn [nth]. specialize (NZ j Hj). field. exact NZ.
Qed.

(** on the data it was fitted to, the scaled columns fill [lo, hi] exactly: the minimum goes to lo, the maximum to hi *)
Theorem C100_minmax_range_partial (top tol lo hi : Qc) (x : bnd Qc) (G : list Z -> Qc) (cx : list Z) (n f : Z) (P : nat) : Qclt q0 tol -> Qclt lo hi ->
  rep (b_arr x) cx G -> flag_ok x cx -> length (d_locals (b_arr x)) = P -> (0 < P)%nat -> d_gshape (b_arr x) = [n; f] -> 1 <= n -> 1 <= f ->
  (d_split (b_arr x) = Some 1%nat -> Forall (fun c => 1 <= c) cx) ->
  (forall i, in_bounds [n; f] i -> Qcle (Qcopp top) (G i) /\ Qcle (G i) top) -> (forall i i', in_bounds [n; f] i -> in_bounds [n; f] i' -> Qcle (Qcminus (G i) (G i')) top) ->
  exists p t ct H, minmax_fit top tol lo hi x = Ok p /\ minmax_transform lo p x = Ok t /\ d_gshape (b_arr t) = [n; f] /\ d_split (b_arr t) = d_split (b_arr x) /\ rep (b_arr t) ct H /\
    forall j m M, 0 <= j < f -> col_min G n j m -> col_max G n j M -> Qcle tol (Qcminus M m) -> col_min H n j lo /\ col_max H n j hi.
Proof.
  intros HT HLH R F L HP S Hn Hf HC HB HD.
  destruct (C100_minmax_partial top tol lo hi x G cx n f P HT HLH R F L HP S Hn Hf HC HB HD) as (p & mn & mx & E & V & T).
  destruct (T x G cx n R F L S Hn eq_refl) as (t & _ & ct & _ & H & E2 & T1 & T2 & T3 & T4 & _).
  exists p, t, ct, H. split; [exact E|]. split; [exact E2|]. split; [exact T1|]. split; [exact T2|]. split; [exact T3|].
  intros j m M Hj [M1 (i1 & I1 & M2)] [N1 (i2 & I2 & N2)] RG. destruct (V j Hj) as [[V1 (i3 & I3 & V2)] [W1 (i4 & I4 & W2)]].
  assert (EM : m = mn j) by (apply Qcle_antisym; [rewrite <- V2; auto|rewrite <- M2; auto]). assert (EX : M = mx j) by (apply Qcle_antisym; [rewrite <- N2; auto|rewrite <- W2; auto]). rewrite EM, EX in RG. rewrite EM in M2. rewrite EX in N2.
  assert (D : Qclt q0 (Qcminus (mx j) (mn j))) by (eapply Qclt_le_trans; [exact HT|exact RG]). assert (D0 : Qcminus (mx j) (mn j) <> q0) by (apply not_eq_sym, qlt_neq, D).
  assert (B : forall i, 0 <= i < n -> Qcle lo (H [i; j]) /\ Qcle (H [i; j]) hi).
  { intros i Hi. destruct (T4 i j Hi Hj) as [-> _]; [|exact RG]. apply scaled_range; auto.
    - apply -> Qcle_minus_iff. auto.
    - unfold Qcminus. apply Qcplus_le_compat; [auto|apply Qcle_refl]. }
  split; (split; [intros i Hi; apply B; auto|]).
  - exists i1. split; [auto|]. destruct (T4 i1 j I1 Hj) as [-> _]; [|exact RG]. rewrite M2. field. auto.
  - exists i2. split; [auto|]. destruct (T4 i2 j I2 Hj) as [-> _]; [|exact RG]. rewrite N2. field. auto.
Qed.
Print Assumptions C100_minmax_partial.
Print Assumptions C100_minmax_range_partial.
Print Assumptions C100_standard_roundtrip.

(** non-vacuity: three points with two features, rows 2 + 1 on two processes; the first column is 0, 2, 4, the second is 1, 1, 1 *)
Definition demo_G (i : list Z) : Qc := if nth 1 i 0 =? 0 then Q2Qc (inject_Z (2 * nth 0 i 0)) else q1.
Definition demo : bnd Qc := mk_bnd (mk_dnd [mk_arr [2; 2] demo_G; mk_arr [1; 2] (fun i => demo_G [nth 0 i 0 + 2; nth 1 i 0])] [3; 2] (Some 0%nat)) (Some true).
Lemma demo_rep : rep (b_arr demo) [2; 1] demo_G.
Proof.
  unfold rep. cbn [demo b_arr d_gshape d_split d_locals]. split; [reflexivity|]. split; [repeat constructor; lia|]. split; [cbn; lia|]. split; [repeat constructor; lia|]. split; [reflexivity|].
  intros r t Ht. destruct r as [|[|r]]; [injection Ht as <-|injection Ht as <-|destruct r; discriminate Ht].
  - split; [reflexivity|]. intros idx Hi. apply in_bounds2 in Hi as (i & j & -> & Hi & Hj). cbn [adat]. unfold move_axis_idx. f_equal. cbn. f_equal. lia.
  - split; [reflexivity|]. intros idx Hi. apply in_bounds2 in Hi as (i & j & -> & Hi & Hj). cbn [adat]. unfold move_axis_idx. f_equal.
Qed.
Lemma demo_cases idx : in_bounds [3; 2] idx -> idx = [0; 0] \/ idx = [1; 0] \/ idx = [2; 0] \/ idx = [0; 1] \/ idx = [1; 1] \/ idx = [2; 1].
Proof.
  intros H. apply in_bounds2 in H as (i & j & -> & Hi & Hj). assert (i = 0 \/ i = 1 \/ i = 2) as [->|[->| ->]] by lia; assert (j = 0 \/ j = 1) as [->| ->] by lia; auto 8.
Qed.
Example C100_instance : exists p t ct H, minmax_fit (Q2Qc 100) (Q2Qc (1 # 10)) q0 q1 demo = Ok p /\ minmax_transform q0 p demo = Ok t /\ d_split (b_arr t) = Some 0%nat /\ rep (b_arr t) ct H /\ col_min H 3 0 q0 /\ col_max H 3 0 q1.
Proof.
  destruct (C100_minmax_range_partial (Q2Qc 100) (Q2Qc (1 # 10)) q0 q1 demo demo_G [2; 1] 3 2 2) as (p & t & ct & H & E & E2 & _ & E3 & E4 & E5); auto; try reflexivity; try lia.
  - exact demo_rep.
  - intros _. reflexivity.
  - discriminate.
  - intros i Hi. apply demo_cases in Hi as [->|[->|[->|[->|[->| ->]]]]]; split; vm_compute; discriminate.
  - intros i k Hi Hk. apply demo_cases in Hi as [->|[->|[->|[->|[->| ->]]]]]; apply demo_cases in Hk as [->|[->|[->|[->|[->| ->]]]]]; vm_compute; discriminate.
  - exists p, t, ct, H. split; [exact E|]. split; [exact E2|]. split; [exact E3|]. split; [exact E4|]. apply (E5 0 q0 (Q2Qc 4)); [lia| | |vm_compute; discriminate].
    + split; [intros i Hi; assert (i = 0 \/ i = 1 \/ i = 2) as [->|[->| ->]] by lia; vm_compute; discriminate|]. exists 0. split; [lia|]. apply Qc_is_canon. reflexivity.
    + split; [intros i Hi; assert (i = 0 \/ i = 1 \/ i = 2) as [->|[->| ->]] by lia; vm_compute; discriminate|]. exists 2. split; [lia|]. apply Qc_is_canon. reflexivity.
Qed.

(** feature-split data with fewer features than processes: data_min_ has shape (2,), but the process without features holds
    a local tensor of shape (2, 0) *)
Definition wide_G (i : list Z) : Qc := Q2Qc (inject_Z (nth 0 i 0)).
Definition wide : bnd Qc := mk_bnd (mk_dnd [mk_arr [2; 1] wide_G; mk_arr [2; 1] wide_G; mk_arr [2; 0] wide_G] [2; 2] (Some 1%nat)) (Some true).
Theorem C100_empty_process_refuted : rep (b_arr wide) [1; 1; 0] wide_G /\
  exists p, minmax_fit (Q2Qc 100) (Q2Qc (1 # 10)) q0 q1 wide = Ok p /\ d_gshape (b_arr (sc_shift p)) = [2] /\ d_split (b_arr (sc_shift p)) = Some 0%nat /\ map ash (d_locals (b_arr (sc_shift p))) = [[1]; [1]; [2; 0]].
Proof.
  split.
  - unfold rep. cbn [wide b_arr d_gshape d_split d_locals]. split; [reflexivity|]. split; [repeat constructor; lia|]. split; [cbn; lia|]. split; [repeat constructor; lia|]. split; [reflexivity|].
    intros r t Ht. destruct r as [|[|[|r]]]; [injection Ht as <-|injection Ht as <-|injection Ht as <-|destruct r; discriminate Ht]; (split; [reflexivity|]; intros idx Hi; apply in_bounds2 in Hi as (i & j & -> & Hi & Hj); reflexivity).
  - assert (T : match minmax_fit (Q2Qc 100) (Q2Qc (1 # 10)) q0 q1 wide with Ok p => (d_gshape (b_arr (sc_shift p)), d_split (b_arr (sc_shift p)), map ash (d_locals (b_arr (sc_shift p)))) | Err _ => ([], None, []) end = ([2], Some 0%nat, [[1]; [1]; [2; 0]])) by (vm_compute; reflexivity).
    destruct (minmax_fit (Q2Qc 100) (Q2Qc (1 # 10)) q0 q1 wide) as [p|]; [|discriminate T]. injection T as T1 T2 T3. exists p. auto.
Qed.
