(** vmap: proofs. *)
From Verif Require Import Base ShapeSpec BaseLemmas LayoutModel NdSpec TensorSpec TensorLemmas NdLemmas OpsModel OpsProofs4 OpsProofs5 RedistModel ShapeModel ShapeProofs4 ShapeProps BinModel BinProofs BinProofs2 FactoryModel FactoryProps VmapSpec VmapModel.
Open Scope Z_scope.

Lemma del_upd {A} s (v : A) : forall l, del s (upd l s v) = del s l.
Proof. unfold del. induction s as [|s IH]; intros [|a l]; cbn [upd firstn skipn app]; auto. f_equal. apply IH. Qed.
Lemma upd_ins {A} d (v w : A) : forall l, (d <= length l)%nat -> upd (ins d v l) d w = ins d w l.
Proof. unfold ins. induction d as [|d IH]; intros [|a l] H; cbn [upd firstn skipn app] in *; auto; [simpl in H; lia|]. f_equal. apply IH. simpl in H. lia. Qed.
Lemma nth_ins {A} d (v df : A) : forall l, (d <= length l)%nat -> nth d (ins d v l) df = v.
Proof. unfold ins. induction d as [|d IH]; intros [|a l] H; cbn [nth firstn skipn app] in *; auto; [simpl in H; lia|]. apply IH. simpl in H. lia. Qed.
Lemma len_ins {A} d (v : A) l : (d <= length l)%nat -> length (ins d v l) = S (length l).
Proof. intros H. unfold ins. rewrite app_length, firstn_length. cbn [length]. rewrite skipn_length. lia. Qed.
Lemma del_ins_b sh : forall d n idx, (d <= length sh)%nat -> in_bounds (ins d n sh) idx -> 0 <= nth d idx 0 < n /\ in_bounds sh (del d idx).
Proof.
  unfold ins, del. induction sh as [|a sh IH]; intros d n idx Hd Hi.
  - assert (d = 0%nat) as -> by (simpl in Hd; lia). cbn [firstn skipn app] in Hi. inversion Hi as [|? k ? l H1 H2]; subst. cbn [nth firstn skipn app]. auto.
  - destruct d as [|d]; cbn [firstn skipn app] in Hi; inversion Hi as [|? k ? l H1 H2]; subst.
    + cbn [nth firstn skipn app]. auto.
    + destruct (IH d n l) as [K1 K2]; [simpl in Hd; lia|auto|]. cbn [nth firstn skipn app]. split; [auto|]. constructor; auto.
Qed.
Lemma ins_b sh : forall s n i idx, (s < length sh)%nat -> 0 <= i < n -> in_bounds (del s sh) idx -> in_bounds (upd sh s n) (ins s i idx).
Proof.
  unfold ins, del. induction sh as [|a sh IH]; intros s n i idx Hs Hn Hi; [simpl in Hs; lia|].
  destruct s as [|s]; cbn [firstn skipn app upd] in *.
  - constructor; auto.
  - inversion Hi as [|? k ? l H1 H2]; subst. cbn [firstn skipn app]. constructor; [auto|]. apply IH; auto. simpl in Hs. lia.
Qed.
Lemma move_ins s o i idx : (s <= length idx)%nat -> move_axis_idx s o (ins s i idx) = ins s (i + o) idx.
Proof. intros H. unfold move_axis_idx. rewrite nth_ins, upd_ins by auto. reflexivity. Qed.
Lemma del_length {A} s (l : list A) : (s < length l)%nat -> S (length (del s l)) = length l.
Proof. intros H. unfold del. rewrite app_length, firstn_length, skipn_length. lia. Qed.
Lemma nth_move d o idx : (d < length idx)%nat -> nth d (move_axis_idx d o idx) 0 = nth d idx 0 + o.
Proof. intros H. unfold move_axis_idx. now rewrite upd_same. Qed.

Lemma select_del {A} (t : arr A) s i : select t (Some s) i = mk_arr (del s (ash t)) (fun idx => adat t (ins s i idx)).
Proof. reflexivity. Qed.

(** slices of a local piece are slices of the global array *)
Lemma select_slice {A} (x : dnd A) (G : list Z -> A) cnts r t i : rep x cnts G -> nth_error (d_locals x) r = Some t ->
  (forall s, d_split x = Some s -> 0 <= i < nth r cnts 0) ->
  same_tensor (select t (d_split x) i) (slice_of (d_gshape x) G (d_split x) (i + zsum (firstn r cnts))).
Proof.
  intros HR Ht Hi. unfold rep in HR. destruct (d_split x) as [s|].
  - specialize (Hi s eq_refl). destruct HR as (HL & Hn & Hs & Hc & Hsum & HR). destruct (HR r t Ht) as [S0 D0]. rewrite select_del. unfold slice_of, same_tensor. cbn [ash adat].
    rewrite S0, del_upd. split; [reflexivity|]. intros idx Hidx. rewrite D0 by (apply ins_b; auto). rewrite move_ins; [reflexivity|].
    apply in_bounds_length in Hidx. rewrite Hidx. pose proof (del_length s (d_gshape x) Hs). lia.
  - destruct HR as (HL & Hn & HR). destruct (HR t (nth_error_In _ _ Ht)) as [S0 D0]. unfold select, slice_of, same_tensor. cbn [ash adat]. rewrite S0. auto.
Qed.

Lemma all_ok_map {B C} (f : B -> res C) (g : B -> C) l : (forall b, In b l -> f b = Ok (g b)) -> OpsModel.all_ok (map f l) = Ok (map g l).
Proof. induction l as [|b l IH]; intros H; [reflexivity|]. cbn [map OpsModel.all_ok]. rewrite (H b), IH by (intros; try apply H; cbn; auto). reflexivity. Qed.

Section V.
Context {A B : Type} (da : A) (dflt : B) (f : list (arr A) -> list (arr B)) (shapes : list (list Z) -> list (list Z)).
Hypothesis HF : vectorisable f shapes.
Context (P : nat) (c : list Z) (ps : list (dnd A * (list Z -> A))) (ds : list nat).
Hypothesis HP : (0 < P)%nat. Hypothesis HC : length c = P.
(** every argument represents its array; split ones all with the same counts [c] *)
Hypothesis HA : forall p, In p ps -> length (d_locals (fst p)) = P /\ exists cn, rep (fst p) cn (snd p) /\ (forall s, d_split (fst p) = Some s -> cn = c).
Let args := map fst ps.
Definition slices (i : Z) : list (arr A) := map (fun p => slice_of (d_gshape (fst p)) (snd p) (d_split (fst p)) i) ps.
Let osh := shapes (map ash (slices 0)).
Hypothesis HS : exists p s, In p ps /\ d_split (fst p) = Some s.
Hypothesis HD : length ds = length osh.
Hypothesis HDk : forall k, (k < length ds)%nat -> (nth k ds 0 <= length (nth k osh []))%nat /\ Forall (fun n => 0 <= n) (nth k osh []).

Definition locals_at (r : nat) : list (arr A) := map (fun x => nth r (d_locals x) (mk_arr [] (fun _ => da))) args.
Definition call_at (r : nat) (i : Z) : list (arr B) := f (map (fun p => select (snd p) (fst p) i) (combine (map d_split args) (locals_at r))).
Definition out_at (r k : nat) : arr B :=
  let d := nth k ds 0%nat in
  mk_arr (ins d (nth r c 0) (nth k osh [])) (fun idx => adat (nth k (call_at r (nth d idx 0)) (mk_arr [] (fun _ => dflt))) (del d idx)).

Lemma combine_map {X Y W} (g : X -> Y) (h : X -> W) l : combine (map g l) (map h l) = map (fun a => (g a, h a)) l.
Proof. induction l as [|a l IH]; [reflexivity|]. cbn. now rewrite IH. Qed.
Lemma pairs_at r : combine (map d_split args) (locals_at r) = map (fun p => (d_split (fst p), nth r (d_locals (fst p)) (mk_arr [] (fun _ => da)))) ps.
Proof. unfold locals_at, args. rewrite !map_map, combine_map. reflexivity. Qed.
Lemma slices_shape i : map ash (slices i) = map ash (slices 0).
Proof. unfold slices. rewrite !map_map. apply map_ext. intros p. unfold slice_of. destruct (d_split (fst p)); reflexivity. Qed.
Lemma local_at p r : In p ps -> (r < P)%nat -> exists t, nth_error (d_locals (fst p)) r = Some t /\ nth r (d_locals (fst p)) (mk_arr [] (fun _ => da)) = t.
Proof.
  intros Hp Hr. destruct (HA p Hp) as [L _]. destruct (nth_error (d_locals (fst p)) r) as [t|] eqn:E; [|apply nth_error_None in E; lia].
  exists t. split; [auto|]. now apply nth_error_nth.
Qed.
Lemma call_same r i : (r < P)%nat -> 0 <= i < nth r c 0 -> Forall2 same_tensor (call_at r i) (f (slices (i + zsum (firstn r c)))).
Proof.
  intros Hr Hi. unfold call_at. apply (proj2 HF). rewrite pairs_at, map_map. cbn [fst snd]. unfold slices.
  assert (K : forall l, (forall p, In p l -> In p ps) -> Forall2 same_tensor (map (fun p => select (nth r (d_locals (fst p)) (mk_arr [] (fun _ => da))) (d_split (fst p)) i) l)
     (map (fun p => slice_of (d_gshape (fst p)) (snd p) (d_split (fst p)) (i + zsum (firstn r c))) l)).
  { induction l as [|p l IH]; intros Hl; cbn [map]; constructor; [|apply IH; intros; apply Hl; now right].
    assert (Hp : In p ps) by (apply Hl; now left). destruct (local_at p r Hp Hr) as (t & E1 & ->). destruct (HA p Hp) as (_ & cn & R & Ec).
    destruct (d_split (fst p)) as [s|] eqn:Sp.
    - rewrite (Ec s eq_refl) in R. rewrite <- Sp. eapply select_slice; eauto.
    - pose proof (select_slice (fst p) (snd p) cn r t i R E1) as Q. rewrite Sp in Q. apply Q. discriminate. }
  apply K. auto.
Qed.
Lemma call_shape r i : (r < P)%nat -> map ash (call_at r i) = osh.
Proof.
  intros Hr. unfold call_at. rewrite (proj1 HF). unfold osh. f_equal. rewrite pairs_at, !map_map. unfold slices. rewrite map_map. apply map_ext_in. intros p Hp. cbn [fst snd].
  destruct (local_at p r Hp Hr) as (t & E1 & ->). destruct (HA p Hp) as (_ & cn & R & Ec). unfold rep in R. unfold select, slice_of. destruct (d_split (fst p)) as [s|]; cbn [ash].
  - destruct R as (_ & _ & _ & _ & _ & R). destruct (R r t E1) as [-> _]. fold (del s (upd (d_gshape (fst p)) s (nth r cn 0))). now rewrite del_upd.
  - destruct R as (_ & _ & R). apply R. eapply nth_error_In; eauto.
Qed.
Lemma local_vmap r : (r < P)%nat -> torch_vmap dflt f ds (map d_split args) (locals_at r) = Ok (map (out_at r) (seq 0 (length ds))).
Proof.
  intros Hr. unfold torch_vmap.
  assert (SZ : forall m, In m (flat_map (fun p => match fst p with Some s => [nth s (ash (snd p)) 0] | None => [] end) (combine (map d_split args) (locals_at r))) -> m = nth r c 0).
  { intros m Hm. rewrite pairs_at in Hm. apply in_flat_map in Hm as (q & Hq & Hm). apply in_map_iff in Hq as (p & <- & Hp). cbn [fst snd] in Hm.
    destruct (d_split (fst p)) as [s|] eqn:Sp; [|contradiction]. destruct Hm as [<-|[]]. destruct (local_at p r Hp Hr) as (t & E1 & ->). destruct (HA p Hp) as (_ & cn & R & Ec).
    unfold rep in R. rewrite Sp in R. rewrite (Ec s Sp) in R. destruct R as (_ & _ & Hs & _ & _ & R). destruct (R r t E1) as [-> _]. now rewrite upd_same. }
  destruct (flat_map _ _) as [|n rest] eqn:EF.
  - exfalso. destruct HS as (p & s & Hp & Sp). 
    set (q := (d_split (fst p), nth r (d_locals (fst p)) (mk_arr [] (fun _ => da)))).
    assert (I : In q (combine (map d_split args) (locals_at r))) by (rewrite pairs_at; apply in_map_iff; exists p; auto).
    assert (J : In (nth s (ash (snd q)) 0) (flat_map (fun p => match fst p with Some s => [nth s (ash (snd p)) 0] | None => [] end) (combine (map d_split args) (locals_at r)))).
    { apply in_flat_map. exists q. split; [auto|]. unfold q. cbn [fst snd]. rewrite Sp. left. reflexivity. }
    rewrite EF in J. contradiction.
  - assert (n = nth r c 0) as -> by (apply SZ; now left).
    replace (existsb _ rest) with false.
    2:{ symmetry. apply not_true_is_false. intros E. apply existsb_exists in E as (m & Hm & E). rewrite (SZ m) in E by (now right). rewrite Z.eqb_refl in E. discriminate E. }
    fold (call_at r 0). pose proof (call_shape r 0 Hr) as CS. assert (LC : length (call_at r 0) = length ds) by (rewrite HD, <- CS, map_length; auto).
    rewrite LC, Nat.eqb_refl. cbn [negb].
    assert (NS : forall k, ash (nth k (call_at r 0) (mk_arr [] (fun _ => dflt))) = nth k osh []) by (intros k; rewrite <- CS; symmetry; exact (map_nth ash _ (mk_arr [] (fun _ => dflt)) k)).
    replace (existsb _ (combine ds (call_at r 0))) with false.
    2:{ symmetry. apply not_true_is_false. intros E. apply existsb_exists in E as (q & Hq & E). apply In_nth_error in Hq as [k Ek]. apply nth_error_combine in Ek as [E1 E2].
        assert (Hk : (k < length ds)%nat) by (apply nth_error_Some; congruence). destruct (HDk k Hk) as [Q _]. apply Nat.ltb_lt in E. rewrite <- (NS k), (nth_error_nth _ _ _ E2), (nth_error_nth _ _ _ E1) in Q. lia. }
    f_equal. apply map_ext_in. intros k Hk. unfold out_at. rewrite NS. reflexivity.
Qed.

Lemma column_ok k : (k < length ds)%nat ->
  let d := nth k ds 0%nat in
  represents (fun idx => adat (nth k (f (slices (nth d idx 0))) (mk_arr [] (fun _ => dflt))) (del d idx)) (ins d (zsum c) (nth k osh [])) (Some d) c (map (fun r => out_at r k) (seq 0 P)).
Proof.
  intros Hk d. destruct (HDk k Hk) as [Hd Hn]. fold d in Hd.
  assert (Hc : Forall (fun z => 0 <= z) c).
  { destruct HS as (p & s & Hp & Sp). destruct (HA p Hp) as (_ & cn & R & Ec). rewrite (Ec s Sp) in R. unfold rep in R. rewrite Sp in R. apply R. }
  split; [rewrite map_length, seq_length; auto|]. split.
  { unfold ins. apply Forall_app. split; [|constructor].
    - rewrite Forall_forall in *. intros z Hz. apply Hn. rewrite <- (firstn_skipn d (nth k osh [])). apply in_or_app. now left.
    - clear -Hc. induction Hc; [simpl; lia|]. change (0 <= x + zsum l). lia.
    - rewrite Forall_forall in *. intros z Hz. apply Hn. rewrite <- (firstn_skipn d (nth k osh [])). apply in_or_app. now right. }
  split; [rewrite len_ins; lia|]. split; [auto|]. split; [now rewrite nth_ins|].
  intros r t Ht. rewrite nth_error_map in Ht. destruct (nth_error (seq 0 P) r) as [q|] eqn:E; [|discriminate Ht]. injection Ht as <-.
  assert (Hr : (r < P)%nat) by (rewrite <- (seq_length P 0); apply nth_error_Some; congruence).
  assert (q = r) as -> by (apply nth_error_nth with (d := 0%nat) in E; rewrite seq_nth in E by auto; lia).
  rewrite upd_ins by auto. unfold out_at. fold d. split; [reflexivity|]. cbn [ash adat]. intros idx Hi.
  assert (LI : (d < length idx)%nat) by (apply in_bounds_length in Hi; rewrite Hi, len_ins; lia).
  apply del_ins_b in Hi as [Hi1 Hi2]; [|auto]. rewrite nth_move by auto. unfold move_axis_idx. rewrite del_upd.
  pose proof (call_same r (nth d idx 0) Hr Hi1) as FS. pose proof (call_shape r (nth d idx 0) Hr) as CS.
  assert (LC : (k < length (call_at r (nth d idx 0)%Z))%nat) by (rewrite <- (map_length ash), CS; lia).
  assert (NS : ash (nth k (call_at r (nth d idx 0)) (mk_arr [] (fun _ => dflt))) = nth k osh []) by (rewrite <- CS; symmetry; exact (map_nth ash _ (mk_arr [] (fun _ => dflt)) k)).
  revert LC NS FS. generalize (call_at r (nth d idx 0)) (f (slices (nth d idx 0 + zsum (firstn r c)))). intros l l' LC NS FS.
  assert (Q : same_tensor (nth k l (mk_arr [] (fun _ => dflt))) (nth k l' (mk_arr [] (fun _ => dflt)))).
  { clear - FS LC. revert k LC. induction FS; intros [|k] LC; cbn [nth length] in *; try lia; auto. apply IHFS. lia. }
  apply Q. now rewrite NS.
Qed.

Lemma vmap_ok : exists zs, vmap da dflt P f ds args = Ok zs /\ length zs = length ds /\
  forall k z, nth_error zs k = Some z ->
    let d := nth k ds 0%nat in
    d_gshape z = ins d (zsum c) (nth k osh []) /\ d_split z = Some d /\
    rep z c (fun idx => adat (nth k (f (slices (nth d idx 0))) (mk_arr [] (fun _ => dflt))) (del d idx)).
Proof.
  unfold vmap. rewrite (all_ok_map _ (fun r => map (out_at r) (seq 0 (length ds)))) by (intros r Hr; apply in_seq in Hr; apply local_vmap; lia). cbn [bind].
  set (outs := map _ (seq 0 P)).
  assert (EC : forall k, (k < length ds)%nat -> column dflt outs k = map (fun r => out_at r k) (seq 0 P)).
  { intros k Hk. unfold column, outs. rewrite map_map. apply map_ext. intros r. rewrite (nth_indep _ _ (out_at r 0%nat)) by (now rewrite map_length, seq_length).
    rewrite (map_nth (out_at r)). now rewrite seq_nth. }
  destruct (all_ok_Qn (fun p : nat * nat => do y <- array_is_split (column dflt outs (fst p)) (snd p); Ok (fst y))
    (fun k z => let d := nth k ds 0%nat in d_gshape z = ins d (zsum c) (nth k osh []) /\ d_split z = Some d /\
       rep z c (fun idx => adat (nth k (f (slices (nth d idx 0))) (mk_arr [] (fun _ => dflt))) (del d idx))) (combine (seq 0 (length ds)) ds)) as (zs & E & L & Q).
  - intros k p Ep. apply nth_error_combine in Ep as [E1 E2]. assert (Hk : (k < length ds)%nat) by (apply nth_error_Some; congruence).
    assert (fst p = k) as -> by (apply nth_error_nth with (d := 0%nat) in E1; rewrite seq_nth in E1 by auto; lia). apply (nth_error_nth _ _ 0%nat) in E2. rewrite <- E2, EC by auto.
    destruct (C55_array_is_split _ _ _ _ _ _ (column_ok k Hk)) as (y & b & Ey & Eg & Es & _ & R & _); [now rewrite map_length, seq_length|].
    rewrite Ey. cbn [bind fst]. exists y. split; [reflexivity|]. split; [auto|]. split; [auto|]. exact R.
  - exists zs. split; [exact E|]. split; [rewrite L, combine_length, seq_length; lia|]. exact Q.
Qed.
End V.
