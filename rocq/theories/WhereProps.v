(** C57: where(cond, x, y) on distributed arrays (heat/core/indexing.py L95-155). *)
From Verif Require Import Base BaseLemmas LayoutModel LayoutProofs NdSpec TensorSpec TensorLemmas NdLemmas OpsModel ShapeSpec ShapeModel ShapeProofs4 BinSpec BinModel BinProofs BinProofs2 BinProps ShapeProps RollProofs2.
From Coq Require Import Floats.SpecFloat.
Open Scope Z_scope.

(** one-operand map; [cond == 0] and the cast to cond's type (L141) *)
Definition map_bnd {A B} (f : A -> B) (u : bnd A) : bnd B :=
  mk_bnd (mk_dnd (map (fun t => mk_arr (ash t) (fun idx => f (adat t idx))) (d_locals (b_arr u))) (d_gshape (b_arr u)) (d_split (b_arr u))) (b_flag u).
(** L129-141 for DNDarray x and y; V: the elements, with their product, sum and [iszero] as 0/1 *)
Definition where_op {V} (dv : V) (mul add : V -> V -> V) (is0 : V -> V) (cond x y : bnd V) : res (bnd V) :=
  let sc := d_split (b_arr cond) in
  let differs (u : bnd V) := match sc, d_split (b_arr u) with Some a, Some b => negb (Nat.eqb a b) | Some _, None => true | None, _ => false end in
  if (differs x || differs y) && (1 <=? Z.of_nat (length (d_gshape (b_arr y)))) && (1 <? nth 0 (d_gshape (b_arr y)) 0)
  then Err NotImplementedErr                                                                (* L129-134 *)
  else do a <- binary_op dv dv mul (map_bnd is0 cond) y;                                    (* L139 *)
       do b <- binary_op dv dv mul cond x;
       binary_op dv dv add a b.

Lemma clamp_id sh : forall idx, in_bounds sh idx -> clamp sh idx = idx.
Proof. induction sh as [|n sh IH]; intros idx H; inversion H as [|? ? ? ? Hi Hr]; subst; [reflexivity|]. cbn [clamp]. rewrite IH by auto. destruct (Z.eqb_spec n 1); [f_equal; lia|auto]. Qed.
Lemma bcast_id sh idx : in_bounds sh idx -> bcast_idx sh idx = idx.
Proof. intros H. unfold bcast_idx. rewrite (in_bounds_length _ _ H), Nat.sub_diag. cbn [skipn]. now apply clamp_id. Qed.
Lemma bcast_refl sh : bcast_shape sh sh sh.
Proof. split; [lia|]. intros i Hi. left. unfold padded. rewrite Nat.sub_diag. cbn [repeat app]. auto. Qed.

Lemma all_ok_length {A} (l : list (res A)) : forall ls, all_ok l = Ok ls -> length ls = length l.
Proof. induction l as [|r l IH]; intros ls E; cbn in E; [now injection E as <-|]. destruct r as [x|]; [|discriminate]. cbn [bind] in E. destruct (all_ok l) as [xs|]; [|discriminate]. cbn [bind] in E. injection E as <-. cbn. now rewrite (IH xs). Qed.

(** equal shapes and splits: pointwise, in the layout of the first operand *)
Lemma binary_same {A B C} (da : A) (db : B) (f : A -> B -> C) (u1 : bnd A) (u2 : bnd B) G1 G2 c1 c2 P :
  rep (b_arr u1) c1 G1 -> rep (b_arr u2) c2 G2 -> flag_ok u1 c1 -> flag_ok u2 c2 -> (0 < P)%nat ->
  length (d_locals (b_arr u1)) = P -> length (d_locals (b_arr u2)) = P ->
  d_gshape (b_arr u2) = d_gshape (b_arr u1) -> d_split (b_arr u2) = d_split (b_arr u1) ->
  exists u c, binary_op da db f u1 u2 = Ok u /\ d_gshape (b_arr u) = d_gshape (b_arr u1) /\ d_split (b_arr u) = d_split (b_arr u1) /\
    length (d_locals (b_arr u)) = P /\ (d_split (b_arr u1) <> None -> c = c1) /\
    rep (b_arr u) c (fun idx => f (G1 idx) (G2 idx)) /\ flag_ok u c.
Proof.
  intros R1 R2 F1 F2 HP L1 L2 EG ES. set (sh := d_gshape (b_arr u1)) in *.
  assert (PD : padded (length sh) sh = sh) by (unfold padded; now rewrite Nat.sub_diag).
  assert (SH : shift_split (length sh) sh (d_split (b_arr u1)) = d_split (b_arr u1)) by (unfold shift_split; destruct (d_split (b_arr u1)); cbn [option_map]; [f_equal; lia|auto]).
  assert (C45 := C45_binary_partial A B C da db f u1 u2 G1 G2 c1 c2 sh R1 R2 F1 F2). cbn zeta in C45. rewrite L1, L2, EG, ES in C45. fold sh in C45. rewrite PD, SH in C45.
  destruct C45 as (u & c & E & E1 & E2 & E3 & E4 & _); auto; [apply bcast_refl| |].
  - right. destruct (d_split (b_arr u1)) as [s|]; auto. rewrite Nat.eqb_refl. intros [->| ->]; lia.
  - assert (E2' : d_split (b_arr u) = d_split (b_arr u1)). { rewrite E2. unfold result_split. destruct (d_split (b_arr u1)) as [s|]; auto. now rewrite Z.eqb_refl. }
    assert (R' : rep (b_arr u) c (fun idx => f (G1 idx) (G2 idx))).
    { unfold rep in *. eapply represents_ext; [|exact E3]. intros idx Hi. rewrite E1 in Hi. cbn beta. rewrite !bcast_id by auto. auto. }
    exists u, c. split; [auto|]. split; [auto|]. split; [auto|].
    assert (LU : length (d_locals (b_arr u)) = length c) by (destruct E3 as [X _]; exact X).
    destruct (d_split (b_arr u1)) as [s|] eqn:Es.
    + destruct (E4 s E2' eq_refl eq_refl) as [-> FO]. destruct R1 as [X1 _]. split; [congruence|]. split; [auto|]. split; auto.
    + split; [|split; [congruence|split; [auto|]]].
      * revert E. unfold binary_op. rewrite EG. fold sh. rewrite Nat.max_id, Nat.sub_diag. cbn [pad_dims bind]. unfold bin_core. cbn [b_arr]. rewrite EG, ES, Es. fold sh.
        destruct (bshape sh sh); [|discriminate]. cbn [bind]. intros E.
        destruct (all_ok (map (fun p => bop f (fst p) (snd p)) (combine (d_locals (b_arr u1)) (d_locals (b_arr u2))))) as [ls|] eqn:EA; [|discriminate]. cbn [bind] in E. injection E as <-. cbn [b_arr d_locals].
        apply all_ok_length in EA. rewrite map_length, combine_length in EA. lia.
      * intros _. rewrite E2'. auto.
Qed.

Lemma map_bnd_rep {A B} (f : A -> B) (u : bnd A) c G : rep (b_arr u) c G -> rep (b_arr (map_bnd f u)) c (fun idx => f (G idx)).
Proof.
  unfold rep. cbn [map_bnd b_arr d_gshape d_split d_locals]. intros (HL & HN & HR). split; [now rewrite map_length|]. split; [auto|]. destruct (d_split (b_arr u)) as [s|].
  - destruct HR as (Hs & Hc & Hsum & Q). split; [auto|]. split; [auto|]. split; [auto|]. intros r t Ht. rewrite nth_error_map in Ht. destruct (nth_error (d_locals (b_arr u)) r) as [t0|] eqn:E; [|discriminate]. injection Ht as <-. destruct (Q r t0 E) as [S0 D0]. split; [exact S0|]. intros idx Hi. cbn [adat]. now rewrite D0.
  - intros t Ht. apply in_map_iff in Ht as (t0 & <- & Ht). destruct (HR t0 Ht) as [S0 D0]. split; [exact S0|]. intros idx Hi. cbn [adat]. now rewrite D0.
Qed.

(** Where the elements satisfy 1*v = v, 0*v = 0, v+0 = v = 0+v and cond holds zeros and
    ones, where picks x or y element by element, in cond's layout, whatever the layouts
    of the three arrays along the common split axis. *)
Theorem C57_where : forall (V : Type) (dv zero one : V) (mul add : V -> V -> V) (is0 : V -> V) (cond x y : bnd V)
    (Gc Gx Gy : list Z -> V) (cc cx cy : list Z) (P : nat),
  (forall v, mul one v = v) -> (forall v, mul zero v = zero) -> (forall v, add v zero = v) -> (forall v, add zero v = v) ->
  is0 zero = one -> is0 one = zero -> (0 < P)%nat ->
  rep (b_arr cond) cc Gc -> rep (b_arr x) cx Gx -> rep (b_arr y) cy Gy -> flag_ok cond cc -> flag_ok x cx -> flag_ok y cy ->
  length (d_locals (b_arr cond)) = P -> length (d_locals (b_arr x)) = P -> length (d_locals (b_arr y)) = P ->
  d_gshape (b_arr x) = d_gshape (b_arr cond) -> d_gshape (b_arr y) = d_gshape (b_arr cond) ->
  d_split (b_arr x) = d_split (b_arr cond) -> d_split (b_arr y) = d_split (b_arr cond) ->
  (forall idx, in_bounds (d_gshape (b_arr cond)) idx -> Gc idx = zero \/ Gc idx = one) ->
  exists u c H, where_op dv mul add is0 cond x y = Ok u /\ d_gshape (b_arr u) = d_gshape (b_arr cond) /\ d_split (b_arr u) = d_split (b_arr cond) /\ length (d_locals (b_arr u)) = P /\ (d_split (b_arr cond) <> None -> c = cc) /\ rep (b_arr u) c H /\ forall idx, in_bounds (d_gshape (b_arr cond)) idx ->
      (Gc idx = one -> H idx = Gx idx) /\ (Gc idx = zero -> H idx = Gy idx).
Proof.
  intros V dv zero one mul add is0 cond x y Gc Gx Gy cc cx cy P M1 M0 A0 A0' I0 I1 HP Rc Rx Ry Fc Fx Fy Lc Lx Ly Ex Ey Sx Sy HC.
  unfold where_op. rewrite Sx, Sy.
  replace (_ || _) with false. 2:{ destruct (d_split (b_arr cond)); [now rewrite Nat.eqb_refl|reflexivity]. } cbn [andb].
  destruct (binary_same dv dv mul (map_bnd is0 cond) y (fun idx => is0 (Gc idx)) Gy cc cy P) as (a & ca & -> & A1 & A2 & A3 & A4 & A5 & A6); auto.
  { now apply map_bnd_rep. }
  { unfold flag_ok in *. cbn [map_bnd b_arr b_flag d_locals d_split d_gshape]. rewrite map_length. exact Fc. }
  { cbn [map_bnd b_arr d_locals]. now rewrite map_length. }
  cbn [bind]. destruct (binary_same dv dv mul cond x Gc Gx cc cx P) as (b & cb & -> & B1 & B2 & B3 & B4 & B5 & B6); auto. cbn [bind].
  cbn [map_bnd b_arr d_gshape d_split] in *.
  destruct (binary_same dv dv add a b (fun idx => mul (is0 (Gc idx)) (Gy idx)) (fun idx => mul (Gc idx) (Gx idx)) ca cb P) as (u & c & -> & U1 & U2 & U3 & U4 & U5 & U6); auto; try congruence.
  exists u, c, (fun idx => add (mul (is0 (Gc idx)) (Gy idx)) (mul (Gc idx) (Gx idx))). split; [auto|]. split; [congruence|]. split; [congruence|]. split; [auto|]. split; [intros N; rewrite U4 by congruence; apply A4; auto|]. split; [auto|].
  intros idx Hi. split; intros E; rewrite E.
  - rewrite I1, M0, M1. auto.
  - rewrite I0, M0, M1. auto.
Qed.
Print Assumptions C57_where.

(** integers meet the algebraic hypotheses *)
Example C57_instance :
  let mk v := mk_bnd (mk_dnd [mk_arr [2] (fun i => nth (Z.to_nat (nth 0 i 0)) v 0); mk_arr [1] (fun i => nth (Z.to_nat (nth 0 i 0 + 2)) v 0)] [3] (Some 0%nat)) (Some true) in
  exists u, where_op 0 Z.mul Z.add (fun v => if v =? 0 then 1 else 0) (mk [1; 0; 1]) (mk [10; 11; 12]) (mk [20; 21; 22]) = Ok u /\ map flat (d_locals (b_arr u)) = [[10; 21]; [12]].
Proof. eexists. split; vm_compute; reflexivity. Qed.
(** a condition that is neither 0 nor 1 scales x *)
Theorem C57_nonboolean_refuted : ~ (forall (cond x y : bnd Z) u, where_op 0 Z.mul Z.add (fun v => if v =? 0 then 1 else 0) cond x y = Ok u ->
  forall r i, nth i (flat (nth r (d_locals (b_arr cond)) (mk_arr [] (fun _ => 0)))) 0 <> 0 ->
    nth i (flat (nth r (d_locals (b_arr u)) (mk_arr [] (fun _ => 0)))) 0 = nth i (flat (nth r (d_locals (b_arr x)) (mk_arr [] (fun _ => 0)))) 0).
Proof.
  intros F. set (mk := fun v : Z => mk_bnd (mk_dnd [mk_arr [1] (fun _ => v)] [1] None) (Some true)).
  specialize (F (mk 2) (mk 5) (mk 7) (mk_bnd (mk_dnd [mk_arr [1] (fun _ => 10)] [1] None) (Some true)) eq_refl 0%nat 0%nat). vm_compute in F. specialize (F ltac:(discriminate)). discriminate.
Qed.
(** binary64: where(True, 1.0, inf) is nan, because False * inf = nan is added *)
Definition f64mul := SFmul 53 1024. Definition f64add := SFadd 53 1024.
Definition f64one := S754_finite false 4503599627370496 (-52). Definition f64zero := S754_zero false.
Definition f64is0 (v : spec_float) := match v with S754_zero _ => f64one | _ => f64zero end.
Theorem C57_infinite_refuted :
  let mk v := mk_bnd (mk_dnd [mk_arr [1] (fun _ : list Z => v)] [1] None) (Some true) in
  exists u, where_op f64zero f64mul f64add f64is0 (mk f64one) (mk f64one) (mk (S754_infinity false)) = Ok u /\ map flat (d_locals (b_arr u)) = [[S754_nan]].
Proof. eexists. split; vm_compute; reflexivity. Qed.
Print Assumptions C57_infinite_refuted.
