(** C87: binary operations with out= and where=, and in-place operations. *)
From Verif Require Import Base ShapeSpec BaseLemmas LayoutModel NdSpec TensorSpec TensorLemmas NdLemmas OpsModel RedistModel ShapeModel ShapeProofs3 ShapeProps BinSpec BinModel BinProofs BinProofs2 BinProofs3 BinProps CloseProofs2 CloseProps BinOutModel BinOutProofs.
Open Scope Z_scope.

(** the layout an operand of shape [sh] and split [sp] has, seen with [n] axes, can be brought to
    that of an array of shape [osh] split along [so] over P processes *)
Definition can_follow (P : nat) (sh osh : list Z) (sp so : option nat) : Prop :=
  match so with
  | Some s => fits P (padded (length osh) sh) osh (shift_split (length osh) sh sp) s
  | None => sp = None
  end.
Lemma padded_ok {A} (u : bnd A) (G : list Z -> A) c n : rep (b_arr u) c G -> flag_ok u c -> (length (d_gshape (b_arr u)) <= n)%nat ->
  exists y, pad_dims (n - length (d_gshape (b_arr u))) (b_arr u) = Ok y /\ d_gshape y = padded n (d_gshape (b_arr u)) /\
    d_split y = shift_split n (d_gshape (b_arr u)) (d_split (b_arr u)) /\
    represents (fun idx => G (skipn (n - length (d_gshape (b_arr u))) idx)) (d_gshape y) (d_split y) c (d_locals y) /\
    truthful (mk_bnd y (b_flag u)) /\ length (d_locals y) = length (d_locals (b_arr u)).
Proof.
  intros R F Hn. destruct (pad_dims_ok (n - length (d_gshape (b_arr u))) _ _ _ R) as (y & E & Eg & Es & Q). exists y. split; [exact E|]. split; [exact Eg|]. split; [exact Es|]. split; [exact Q|].
  assert (L : length (d_locals y) = length (d_locals (b_arr u))) by (destruct Q as (-> & _); destruct R as (-> & _); auto). split; [|exact L].
  assert (NN : forall k (l : list Z) s, nth (k + s) (repeat 1 k ++ l) 0 = nth s l 0) by (intros k l s; rewrite app_nth2; rewrite repeat_length; [f_equal; lia|lia]).
  apply (flag_truthful (mk_bnd y (b_flag u)) c _ Q). unfold flag_ok in *. cbn [b_flag b_arr]. intros Hf. specialize (F Hf). rewrite Es, L, Eg.
  destruct (d_split (b_arr u)); auto. cbn [option_map]. rewrite NN. exact F.
Qed.
Lemma bshape_padded sh1 sh2 osh : bcast_shape sh1 sh2 osh -> bshape (padded (length osh) sh1) (padded (length osh) sh2) = Ok osh.
Proof. intros H. pose proof H as [L _]. apply bshapes_ok in H. unfold bshapes in H. rewrite <- L in H. exact H. Qed.
Lemma bcast_len sh1 sh2 osh : bcast_shape sh1 sh2 osh -> (length sh1 <= length osh /\ length sh2 <= length osh)%nat.
Proof. intros [L _]. lia. Qed.
Lemma bcast_sym a b o : bcast_shape a b o -> bcast_shape b a o.
Proof. intros [L H]. split; [lia|]. intros i Hi. specialize (H i Hi). unfold bcast_dim in *. intuition congruence. Qed.
Lemma shift_none n sh sp : sp = None -> shift_split n sh sp = None.
Proof. intros ->. reflexivity. Qed.

Section T.
Context {A B C : Type} (da : A) (db : B) (f : A -> B -> C) (u1 : bnd A) (u2 : bnd B) (out : bnd C).
Context (G1 : list Z -> A) (G2 : list Z -> B) (Go : list Z -> C) (c1 c2 c0 : list Z).
Notation P := (length (d_locals (b_arr out))).
Notation sh1 := (d_gshape (b_arr u1)). Notation sh2 := (d_gshape (b_arr u2)). Notation osh := (d_gshape (b_arr out)).
Notation n := (length (d_gshape (b_arr out))).
Hypothesis R1 : rep (b_arr u1) c1 G1.
Hypothesis R2 : rep (b_arr u2) c2 G2.
Hypothesis RO : rep (b_arr out) c0 Go.
Hypothesis F1 : flag_ok u1 c1.
Hypothesis F2 : flag_ok u2 c2.
Hypothesis FO : flag_ok out c0.
Hypothesis HP : (0 < P)%nat.
Hypothesis HP1 : length (d_locals (b_arr u1)) = P.
Hypothesis HP2 : length (d_locals (b_arr u2)) = P.
Hypothesis HB : bcast_shape sh1 sh2 osh.
Hypothesis HS : d_split (b_arr out) = result_split (padded n sh1) (padded n sh2) osh (shift_split n sh1 (d_split (b_arr u1))) (shift_split n sh2 (d_split (b_arr u2))).
Hypothesis K1 : can_follow P sh1 osh (d_split (b_arr u1)) (d_split (b_arr out)).
Hypothesis K2 : can_follow P sh2 osh (d_split (b_arr u2)) (d_split (b_arr out)).
Definition FR (idx : list Z) : C := f (G1 (bcast_idx sh1 idx)) (G2 (bcast_idx sh2 idx)).

Lemma main (w : option (bnd bool)) (R : list Z -> C) :
  (match w with
   | None => R = FR
   | Some w => bcast_shape (d_gshape (b_arr w)) osh osh /\
       forall y, pad_dims (n - length (d_gshape (b_arr w))) (b_arr w) = Ok y -> forall ls, represents FR osh (d_split (b_arr out)) c0 ls ->
         exists vs, where_step (Some (mk_bnd y (b_flag w))) out ls = Ok vs /\ represents R osh (d_split (b_arr out)) c0 vs
   end) -> (forall v, w = Some v -> exists y, pad_dims (n - length (d_gshape (b_arr v))) (b_arr v) = Ok y) ->
  exists o, binary_out da db f u1 u2 w out = Ok o /\
    d_gshape (b_arr o) = osh /\ d_split (b_arr o) = d_split (b_arr out) /\ b_flag o = b_flag out /\ rep (b_arr o) c0 R.
Proof.
  intros HW HWp. destruct (bcast_len _ _ _ HB) as [L1 L2].
  destruct (padded_ok u1 G1 c1 n R1 F1 L1) as (y1 & E1 & Eg1 & Es1 & Q1 & T1 & LL1).
  destruct (padded_ok u2 G2 c2 n R2 F2 L2) as (y2 & E2 & Eg2 & Es2 & Q2 & T2 & LL2).
  pose proof (bshape_padded _ _ _ HB) as BS. pose proof (proj2 (bshapes_ok _ _ _) HB) as BSS.
  assert (TO : truthful out) by (eapply flag_truthful; [exact RO|exact FO]).
  destruct (core_out da db f (mk_bnd y1 (b_flag u1)) (mk_bnd y2 (b_flag u2)) out (fun idx => G1 (skipn (n - length sh1) idx)) (fun idx => G2 (skipn (n - length sh2) idx)) Go c1 c2 c0 osh) as (z1 & z2 & ls & S1 & S2 & EL & RL); cbn [b_arr]; auto; try lia; try (exact Q1); try (exact Q2).
  { rewrite Eg1, Eg2. exact BS. }
  { unfold can_follow in K1, K2. rewrite Es1, Es2, Eg1, Eg2. destruct (d_split (b_arr out)); [auto|]. split; now apply shift_none. }
  assert (RL' : represents FR osh (d_split (b_arr out)) c0 ls).
  { eapply represents_ext; [|exact RL]. intros i Hi. unfold FF, FR. cbn [b_arr]. apply in_bounds_length in Hi. rewrite Eg1, Eg2, !pad_clamp by auto. reflexivity. }
  unfold binary_out. rewrite BSS. cbn [bind].
  assert (EW : exists wp vs, match w with Some v => bshapes (d_gshape (b_arr v)) osh | None => Ok osh end = Ok osh /\
     (match w with Some v => do y <- pad_dims (n - length (d_gshape (b_arr v))) (b_arr v); Ok (Some (mk_bnd y (b_flag v))) | None => Ok None end) = Ok wp /\
     where_step wp out ls = Ok vs /\ represents R osh (d_split (b_arr out)) c0 vs).
  { destruct w as [v|].
    - destruct HW as [BW HW]. destruct (HWp v eq_refl) as [y Ey]. destruct (HW y Ey ls RL') as (vs & EV & RV). exists (Some (mk_bnd y (b_flag v))), vs.
      rewrite (proj2 (bshapes_ok _ _ _) BW), Ey. cbn [bind]. auto.
    - exists None, ls. cbn [bind where_step]. subst R. auto. }
  destruct EW as (wp & vs & EW1 & EW2 & EW3 & RV). 
  rewrite EW1. cbn [bind].
  rewrite E1, E2. cbn [bind]. rewrite EW2. cbn [bind]. rewrite eqb_idx_refl. cbn [negb].
  rewrite out_split_spec, Eg1, Eg2, Es1, Es2, <- HS. rewrite (proj2 (opt_eqb_eq _ _) eq_refl). cbn [negb].
  rewrite S1. cbn [bind]. rewrite S2. cbn [bind]. rewrite EL. cbn [bind]. rewrite EW3. cbn [bind].
  destruct (copy_ok Go R osh (d_split (b_arr out)) c0 (d_locals (b_arr out)) vs RO RV) as (ws & EC & RW). rewrite EC. cbn [bind].
  eexists. split; [reflexivity|]. cbn [b_arr b_flag d_gshape d_split]. repeat (split; [reflexivity|]). exact RW.
Qed.
End T.

(** f(a, b, out=o) for all shapes that broadcast to o's, all layouts of the three arrays (also
    unbalanced): afterwards o holds f of the broadcast elements, in the layout it had.
    Required: o has the split axis of f(a, b), and each operand is replicated, split along the
    same axis, or has extent one there. *)
Theorem C87_out : forall (A B C : Type) (da : A) (db : B) (f : A -> B -> C) (a : bnd A) (b : bnd B) (o : bnd C)
    (Ga : list Z -> A) (Gb : list Z -> B) (Go : list Z -> C) (ca cb co : list Z),
  rep (b_arr a) ca Ga -> rep (b_arr b) cb Gb -> rep (b_arr o) co Go -> flag_ok a ca -> flag_ok b cb -> flag_ok o co ->
  let P := length (d_locals (b_arr o)) in (0 < P)%nat -> length (d_locals (b_arr a)) = P -> length (d_locals (b_arr b)) = P ->
  let osh := d_gshape (b_arr o) in let n := length osh in
  bcast_shape (d_gshape (b_arr a)) (d_gshape (b_arr b)) osh ->
  d_split (b_arr o) = result_split (padded n (d_gshape (b_arr a))) (padded n (d_gshape (b_arr b))) osh (shift_split n (d_gshape (b_arr a)) (d_split (b_arr a))) (shift_split n (d_gshape (b_arr b)) (d_split (b_arr b))) ->
  can_follow P (d_gshape (b_arr a)) osh (d_split (b_arr a)) (d_split (b_arr o)) ->
  can_follow P (d_gshape (b_arr b)) osh (d_split (b_arr b)) (d_split (b_arr o)) ->
  exists o', binary_out da db f a b None o = Ok o' /\
    d_gshape (b_arr o') = osh /\ d_split (b_arr o') = d_split (b_arr o) /\ b_flag o' = b_flag o /\
    rep (b_arr o') co (fun idx => f (Ga (bcast_idx (d_gshape (b_arr a)) idx)) (Gb (bcast_idx (d_gshape (b_arr b)) idx))).
Proof. intros. eapply main; eauto; first [reflexivity|discriminate]. Qed.
Print Assumptions C87_out.

(** x op= y: x keeps its shape, split and layout, and holds op(x, y) with y broadcast *)
Theorem C87_inplace : forall (A B : Type) (da : A) (db : B) (f : A -> B -> A) (x : bnd A) (y : bnd B)
    (Gx : list Z -> A) (Gy : list Z -> B) (cx cy : list Z),
  rep (b_arr x) cx Gx -> rep (b_arr y) cy Gy -> flag_ok x cx -> flag_ok y cy ->
  let P := length (d_locals (b_arr x)) in (0 < P)%nat -> length (d_locals (b_arr y)) = P ->
  let sh := d_gshape (b_arr x) in
  bcast_shape sh (d_gshape (b_arr y)) sh ->
  can_follow P (d_gshape (b_arr y)) sh (d_split (b_arr y)) (d_split (b_arr x)) ->
  exists x', inplace da db f x y = Ok x' /\
    d_gshape (b_arr x') = sh /\ d_split (b_arr x') = d_split (b_arr x) /\ b_flag x' = b_flag x /\
    rep (b_arr x') cx (fun idx => f (Gx idx) (Gy (bcast_idx (d_gshape (b_arr y)) idx))).
Proof.
  intros A B da db f x y Gx Gy cx cy RX RY FX FY P HP HPY sh HB K.
  assert (PS : padded (length sh) sh = sh) by (unfold padded; now rewrite Nat.sub_diag).
  assert (SS : forall sp, shift_split (length sh) sh sp = sp) by (intros [s|]; unfold shift_split; cbn; [rewrite Nat.sub_diag; reflexivity|reflexivity]).
  destruct (C87_out A B A da db f x y x Gx Gy Gx cx cy cx) as (x' & E & G0 & S0 & Fl & R); auto.
  - fold sh. rewrite PS, SS. unfold result_split. destruct (d_split (b_arr x)) as [s|] eqn:Es.
    + rewrite Z.eqb_refl. destruct (shift_split _ _ _); reflexivity.
    + unfold can_follow in K. rewrite K. reflexivity.
  - unfold can_follow. fold sh. destruct (d_split (b_arr x)) as [s|] eqn:Es; [|reflexivity]. rewrite PS, SS. right. right. auto.
  - exists x'. unfold inplace. rewrite E. split; [reflexivity|]. split; [exact G0|]. split; [exact S0|]. split; [exact Fl|]. unfold rep in *. rewrite G0 in *. eapply represents_ext; [|exact R].
    intros idx Hi. cbn beta. do 2 f_equal. unfold bcast_idx. fold sh. rewrite (in_bounds_length _ _ Hi), Nat.sub_diag. cbn [skipn]. apply (clamp_in sh idx Hi).
Qed.
Print Assumptions C87_inplace.

(** where=mask: only the selected elements of o are overwritten.  Partial: a mask split like o
    must have o's layout *)
Theorem C87_where_partial : forall (A B C : Type) (da : A) (db : B) (dc : C) (f : A -> B -> C) (a : bnd A) (b : bnd B) (w : bnd bool) (o : bnd C)
    (Ga : list Z -> A) (Gb : list Z -> B) (W : list Z -> bool) (Go : list Z -> C) (ca cb cw co : list Z),
  rep (b_arr a) ca Ga -> rep (b_arr b) cb Gb -> rep (b_arr w) cw W -> rep (b_arr o) co Go -> flag_ok a ca -> flag_ok b cb -> flag_ok w cw -> flag_ok o co ->
  let P := length (d_locals (b_arr o)) in (0 < P)%nat -> length (d_locals (b_arr a)) = P -> length (d_locals (b_arr b)) = P -> length (d_locals (b_arr w)) = P ->
  let osh := d_gshape (b_arr o) in let n := length osh in
  bcast_shape (d_gshape (b_arr a)) (d_gshape (b_arr b)) osh -> bcast_shape (d_gshape (b_arr w)) osh osh ->
  d_split (b_arr o) = result_split (padded n (d_gshape (b_arr a))) (padded n (d_gshape (b_arr b))) osh (shift_split n (d_gshape (b_arr a)) (d_split (b_arr a))) (shift_split n (d_gshape (b_arr b)) (d_split (b_arr b))) ->
  can_follow P (d_gshape (b_arr a)) osh (d_split (b_arr a)) (d_split (b_arr o)) ->
  can_follow P (d_gshape (b_arr b)) osh (d_split (b_arr b)) (d_split (b_arr o)) ->
  can_follow P (d_gshape (b_arr w)) osh (d_split (b_arr w)) (d_split (b_arr o)) ->
  (forall s, shift_split n (d_gshape (b_arr w)) (d_split (b_arr w)) = Some s -> d_split (b_arr o) = Some s ->
     cw = co /\ nth s (padded n (d_gshape (b_arr w))) 0 = nth s osh 0) ->
  exists o', binary_out da db f a b (Some w) o = Ok o' /\
    d_gshape (b_arr o') = osh /\ d_split (b_arr o') = d_split (b_arr o) /\ b_flag o' = b_flag o /\
    rep (b_arr o') co (fun idx => if W (bcast_idx (d_gshape (b_arr w)) idx)
      then f (Ga (bcast_idx (d_gshape (b_arr a)) idx)) (Gb (bcast_idx (d_gshape (b_arr b)) idx)) else Go idx).
Proof.
  intros A B C da db dc f a b w o Ga Gb W Go ca cb cw co RA RB RW RO FA FB FW FO P HP HPA HPB HPW osh n HB HBW HS KA KB KW HL.
  destruct (bcast_len _ _ _ HBW) as [LW _].
  destruct (padded_ok w W cw n RW FW LW) as (y & E & Eg & Es & Q & T & LL).
  assert (TO : truthful o) by (eapply flag_truthful; [exact RO|exact FO]).
  eapply (main da db f a b o Ga Gb Go ca cb co); eauto.
  - split; [exact HBW|]. intros y' E' ls RL. assert (y' = y) as -> by (unfold n, osh in E; congruence).
    destruct (where_ok dc o (mk_bnd y (b_flag w)) (FR f a b Ga Gb) Go (fun idx => W (skipn (n - length (d_gshape (b_arr w))) idx)) cw co osh ls) as (vs & EV & RV); auto; try (cbn [b_arr]; lia).
    + cbn [b_arr]. rewrite Eg. pose proof (bcast_sym _ _ _ HBW) as HBW'. apply bshape_padded in HBW'. fold n in HBW'. unfold padded at 1 in HBW'. rewrite Nat.sub_diag in HBW'. exact HBW'.
    + cbn [b_arr]. rewrite Eg, Es. unfold can_follow in KW. destruct (d_split (b_arr o)) as [s|]; [split; [intros H; apply HL; auto|exact KW]|now apply shift_none].
    + exists vs. split; [exact EV|]. eapply represents_ext; [|exact RV]. intros i Hi. cbn beta. cbn [b_arr]. rewrite Eg. rewrite pad_clamp; [reflexivity|now apply in_bounds_length in Hi|exact LW].
  - intros v [= <-]. eauto.
Qed.
Print Assumptions C87_where_partial.

(** a buffer of another shape or another split axis is refused *)
Theorem C87_wrong_buffer_raises : forall (A B C : Type) (da : A) (db : B) (f : A -> B -> C) (a : bnd A) (b : bnd B) (o : bnd C)
    (Ga : list Z -> A) (Gb : list Z -> B) (ca cb osh : list Z),
  rep (b_arr a) ca Ga -> rep (b_arr b) cb Gb -> flag_ok a ca -> flag_ok b cb ->
  let n := length osh in
  bcast_shape (d_gshape (b_arr a)) (d_gshape (b_arr b)) osh ->
  d_gshape (b_arr o) <> osh \/
  d_split (b_arr o) <> result_split (padded n (d_gshape (b_arr a))) (padded n (d_gshape (b_arr b))) osh (shift_split n (d_gshape (b_arr a)) (d_split (b_arr a))) (shift_split n (d_gshape (b_arr b)) (d_split (b_arr b))) ->
  binary_out da db f a b None o = Err ValueError.
Proof.
  intros A B C da db f a b o Ga Gb ca cb osh RA RB FA FB n HB H. destruct (bcast_len _ _ _ HB) as [L1 L2].
  destruct (padded_ok a Ga ca n RA FA L1) as (y1 & E1 & Eg1 & Es1 & _). destruct (padded_ok b Gb cb n RB FB L2) as (y2 & E2 & Eg2 & Es2 & _).
  unfold binary_out. rewrite (proj2 (bshapes_ok _ _ _) HB). cbn [bind]. fold n. rewrite E1, E2. cbn [bind].
  destruct (eqb_idx osh (d_gshape (b_arr o))) eqn:EQ; cbn [negb]; [|reflexivity]. apply eqb_idx_eq in EQ.
  rewrite out_split_spec, Eg1, Eg2, Es1, Es2. destruct (opt_eqb _ _) eqn:EO; cbn [negb]; [|reflexivity]. apply opt_eqb_eq in EO. destruct H as [H|H]; congruence.
Qed.
Print Assumptions C87_wrong_buffer_raises.
(** x op= y with an x that is not distributed and a y that is *)
Theorem C87_inplace_replicated_raises : forall (A B : Type) (da : A) (db : B) (f : A -> B -> A) (x : bnd A) (y : bnd B)
    (Gx : list Z -> A) (Gy : list Z -> B) (cx cy : list Z) s,
  rep (b_arr x) cx Gx -> rep (b_arr y) cy Gy -> flag_ok x cx -> flag_ok y cy ->
  bcast_shape (d_gshape (b_arr x)) (d_gshape (b_arr y)) (d_gshape (b_arr x)) ->
  d_split (b_arr x) = None -> d_split (b_arr y) = Some s -> inplace da db f x y = Err ValueError.
Proof.
  intros A B da db f x y Gx Gy cx cy s RX RY FX FY HB SX SY. unfold inplace. rewrite (C87_wrong_buffer_raises A B A da db f x y x Gx Gy cx cy (d_gshape (b_arr x))); auto.
  right. rewrite SX, SY. cbn. discriminate.
Qed.
Print Assumptions C87_inplace_replicated_raises.

(** ** concrete cases *)
Definition vecg {A} (d : A) (vals : list A) (cnts : list Z) (flag : option bool) : bnd A :=
  mk_bnd (mk_dnd (map (fun r => mk_arr [nth r cnts 0] (fun i => nth (Z.to_nat (nth 0 i 0 + zsum (firstn r cnts))) vals d)) (seq 0 (length cnts))) [zsum cnts] (Some 0%nat)) flag.
Lemma vecg_rep {A} (d : A) vals cnts flag : Forall (fun c => 0 <= c) cnts -> rep (b_arr (vecg d vals cnts flag)) cnts (fun i => nth (Z.to_nat (nth 0 i 0)) vals d).
Proof.
  intros H. unfold rep, vecg. cbn [b_arr d_gshape d_split d_locals].
  assert (0 <= zsum cnts) by (clear -H; induction H; [simpl; lia|]; change (0 <= x + zsum l); lia).
  split; [now rewrite map_length, seq_length|]. split; [repeat constructor; auto|]. split; [simpl; lia|]. split; [auto|]. split; [reflexivity|].
  intros r t E. rewrite nth_error_map in E. destruct (nth_error (seq 0 (length cnts)) r) as [k|] eqn:Ek; [|discriminate]. injection E as <-.
  assert (k = r) as ->. { assert (r < length (seq 0 (length cnts)))%nat by (apply nth_error_Some; congruence). rewrite seq_length in *. apply (nth_error_nth _ _ 0%nat) in Ek. rewrite seq_nth in Ek; lia. }
  split; [reflexivity|]. intros idx Hi. inversion Hi as [|? k ? l H1 H2]; subst. inversion H2; subst. cbn. reflexivity.
Qed.
Definition xs := vecg 0 [1; 2; 3; 4] [3; 1] (Some false).
Definition ys := vecg 0 [10; 20; 30; 40] [2; 2] (Some true).
(** x += y for differently laid out x (3 + 1) and y (2 + 2) *)
Example C87_instance : exists x', inplace 0 0 Z.add xs ys = Ok x' /\ rep (b_arr x') [3; 1] (fun i => nth (Z.to_nat (nth 0 i 0)) [1; 2; 3; 4] 0 + nth (Z.to_nat (nth 0 (bcast_idx [4] i) 0)) [10; 20; 30; 40] 0).
Proof.
  destruct (C87_inplace Z Z 0 0 Z.add xs ys _ _ [3; 1] [2; 2] (vecg_rep 0 [1; 2; 3; 4] [3; 1] (Some false) ltac:(repeat constructor; lia)) (vecg_rep 0 [10; 20; 30; 40] [2; 2] (Some true) ltac:(repeat constructor; lia))) as (x' & E & _ & _ & _ & R).
  - intros H. discriminate H.
  - intros _. vm_compute. reflexivity.
  - cbn. lia.
  - reflexivity.
  - split; [reflexivity|]. intros [|i] Hi; [left; split; reflexivity|cbn in Hi; lia].
  - right. right. split; [reflexivity|]. right. reflexivity.
  - exists x'. split; [exact E|exact R].
Qed.
Example C87_values : match inplace 0 0 Z.add xs ys with Ok x' => map flat (d_locals (b_arr x')) | Err _ => [] end = [[11; 22; 33]; [44]].
Proof. vm_compute. reflexivity. Qed.

(** The full claim about where= asks for the mask's layout not to matter.  An out held by process 0
    alone, a mask [True, False] with one element per process: element 1 is overwritten too. *)
Definition two := vecg 0 [1; 2] [2; 0] (Some false).
Definition msk := vecg false [true; false] [1; 1] (Some true).
Theorem C87_where_layout_refuted : exists (a o : bnd Z) (w : bnd bool) Ga W Go,
  rep (b_arr a) [2; 0] Ga /\ rep (b_arr o) [2; 0] Go /\ rep (b_arr w) [1; 1] W /\ flag_ok a [2; 0] /\ flag_ok o [2; 0] /\ flag_ok w [1; 1] /\
  d_gshape (b_arr a) = [2] /\ d_gshape (b_arr o) = [2] /\ d_gshape (b_arr w) = [2] /\ W [1] = false /\
  exists o', binary_out 0 0 Z.add a a (Some w) o = Ok o' /\ map flat (d_locals (b_arr o')) = [[2; 4]; []] /\ Go [1] = 7.
Proof.
  exists two, (vecg 0 [7; 7] [2; 0] (Some false)), msk. do 3 eexists.
  split; [apply vecg_rep; repeat constructor; lia|]. split; [apply vecg_rep; repeat constructor; lia|]. split; [apply vecg_rep; repeat constructor; lia|].
  split; [intros H; discriminate H|]. split; [intros H; discriminate H|]. split; [intros _; vm_compute; reflexivity|]. repeat (split; [reflexivity|]).
  eexists. split; [reflexivity|]. split; [vm_compute; reflexivity|reflexivity].
Qed.
(** other layouts: an exception on one process *)
Theorem C87_where_raises_refuted : exists (a o : bnd Z) (w : bnd bool) Ga W Go,
  rep (b_arr a) [2; 1] Ga /\ rep (b_arr o) [2; 1] Go /\ rep (b_arr w) [1; 2] W /\ flag_ok a [2; 1] /\ flag_ok o [2; 1] /\ flag_ok w [1; 2] /\
  binary_out 0 0 Z.add a a (Some w) o = Err RuntimeError.
Proof.
  exists (vecg 0 [1; 2; 3] [2; 1] (Some true)), (vecg 0 [7; 7; 7] [2; 1] (Some true)), (vecg false [true; false; true] [1; 2] (Some false)). do 3 eexists.
  split; [apply vecg_rep; repeat constructor; lia|]. split; [apply vecg_rep; repeat constructor; lia|]. split; [apply vecg_rep; repeat constructor; lia|].
  split; [intros _; vm_compute; reflexivity|]. split; [intros _; vm_compute; reflexivity|]. split; [intros H; discriminate H|]. vm_compute. reflexivity.
Qed.
