(** C89: meshgrid. *)
From Verif Require Import Base ShapeSpec BaseLemmas LayoutModel NdSpec TensorSpec TensorLemmas NdLemmas OpsModel OpsProofs4 RedistModel ShapeModel ShapeProofs3 ShapeProofs4 ShapeProps BinSpec BinModel BinProofs BinProofs2 BinProofs3 BinProps BinOutModel BcModel BcProofs BcProps MeshSpec MeshModel.
Open Scope Z_scope.

Lemma find_split_none {A} : forall (xs : list (bnd A)) i acc, (forall x, In x xs -> d_split (b_arr x) = None) -> find_split i xs acc = Ok acc.
Proof. induction xs as [|x xs IH]; intros i acc H; cbn; [reflexivity|]. rewrite (H x) by now left. apply IH. intros y Hy. apply H. now right. Qed.
Lemma find_split_one {A} : forall (xs : list (bnd A)) i j, (forall k x, nth_error xs k = Some x -> (d_split (b_arr x) <> None <-> k = j)) -> (j < length xs)%nat -> find_split i xs None = Ok (Some (i + j)%nat).
Proof.
  induction xs as [|x xs IH]; intros i j H Hj; [cbn in Hj; lia|]. cbn [find_split]. pose proof (H 0%nat x eq_refl) as H0. destruct (d_split (b_arr x)) as [s|].
  - assert (0 = j)%nat as <- by (apply H0; discriminate). rewrite find_split_none; [f_equal; f_equal; lia|]. intros y Hy. apply In_nth_error in Hy as [k Ek]. specialize (H (S k) y Ek). destruct (d_split (b_arr y)); [|reflexivity]. assert (S k = 0)%nat by (apply H; discriminate). lia.
  - destruct j as [|j]; [exfalso; apply H0; auto|]. rewrite (IH (S i) j).
    + f_equal. f_equal. lia.
    + intros k y Ek. rewrite (H (S k) y Ek). lia.
    + cbn in Hj. lia.
Qed.
Lemma find_split_acc {A} : forall (xs : list (bnd A)) i a j x, nth_error xs j = Some x -> d_split (b_arr x) <> None -> find_split i xs (Some a) = Err ValueError.
Proof. induction xs as [|y xs IH]; intros i a [|j] x E H; try discriminate E; cbn in E |- *. - injection E as ->. destruct (d_split (b_arr x)); [reflexivity|congruence]. - destruct (d_split (b_arr y)); [reflexivity|]. eapply IH; eauto. Qed.
Lemma find_split_two {A} : forall (xs : list (bnd A)) i j k x y, (j < k)%nat -> nth_error xs j = Some x -> nth_error xs k = Some y -> d_split (b_arr x) <> None -> d_split (b_arr y) <> None -> find_split i xs None = Err ValueError.
Proof.
  induction xs as [|z xs IH]; intros i [|j] [|k] x y L E1 E2 H1 H2; try discriminate E1; try lia; cbn in E1, E2 |- *.
  - injection E1 as ->. destruct (d_split (b_arr x)); [|congruence]. eapply find_split_acc; eauto.
  - destruct (d_split (b_arr z)); [eapply find_split_acc; eauto|]. eapply (IH _ j k); eauto. lia.
Qed.

Lemma swap01_length {X} (l : list X) : length (swap01 l) = length l.
Proof. destruct l as [|a [|b l]]; reflexivity. Qed.
Lemma nth_swap01 {X} (l : list X) k d : nth k (swap01 l) d = nth (mesh_axis true (length l) k) l d.
Proof. destruct l as [|a [|b l]]; destruct k as [|[|k]]; reflexivity. Qed.
Lemma mesh_axis_lt xy n k : (k < n)%nat -> (mesh_axis xy n k < n)%nat.
Proof. destruct xy; [|auto]. destruct n as [|[|n]]; destruct k as [|[|k]]; cbn; lia. Qed.
Lemma mesh_axis_inv xy n k : mesh_axis xy n (mesh_axis xy n k) = k.
Proof. destruct xy; [|auto]. destruct n as [|[|n]]; destruct k as [|[|k]]; reflexivity. Qed.
Lemma swap01_upd (l : list Z) k v : swap01 (upd l k v) = upd (swap01 l) (mesh_axis true (length l) k) v.
Proof. destruct l as [|a [|b l]]; destruct k as [|[|k]]; reflexivity. Qed.
Lemma in_bounds_swap01 sh idx : in_bounds (swap01 sh) idx -> in_bounds sh (swap01 idx).
Proof. intros H. destruct sh as [|a [|b sh]]; cbn in H. - inversion H; subst. constructor. - inversion H as [|? ? ? ? H1 H2]; subst. inversion H2; subst. constructor; auto. - inversion H as [|? i ? l1 H1 H2]; subst. inversion H2 as [|? j ? l2 H3 H4]; subst. cbn. constructor; [auto|constructor; auto]. Qed.
Lemma swap_split (b : bool) n sp : (if b && (1 <? n)%nat then match sp with Some O => Some 1%nat | Some (S O) => Some 0%nat | s => s end else sp) = option_map (mesh_axis b n) sp.
Proof. destruct b; [|destruct sp; reflexivity]. destruct n as [|[|n]]; destruct sp as [[|[|s]]|]; reflexivity. Qed.
Lemma swap_shape (b : bool) (l : list Z) : (if b && (1 <? length l)%nat then swap01 l else l) = if b then swap01 l else l.
Proof. destruct b; [|reflexivity]. destruct l as [|a [|c l]]; reflexivity. Qed.

Lemma nthc {X Y} : forall (l : list X) (m : list Y) k a b, nth_error l k = Some a -> nth_error m k = Some b -> nth_error (combine l m) k = Some (a, b).
Proof. induction l as [|x l IH]; intros [|y m] [|k] a b E1 E2; try discriminate E1; try discriminate E2; cbn in *; [congruence|eauto]. Qed.
(** what torch.meshgrid does *)
Lemma torch_meshgrid_ok {A} (ts : list (arr A)) (ns : list Z) (xy : bool) :
  length ts = length ns -> (forall k t, nth_error ts k = Some t -> ash t = [nth k ns 0]) ->
  exists gs, torch_meshgrid ts xy = Ok gs /\ length gs = length ts /\
    forall k t g, nth_error ts k = Some t -> nth_error gs k = Some g ->
      ash g = (if xy then swap01 ns else ns) /\ forall idx, length idx = length ns -> adat g idx = adat t [nth (mesh_axis xy (length ns) k) idx 0].
Proof.
  intros L H. unfold torch_meshgrid.
  assert (F : forallb (fun t => (length (ash t) =? 1)%nat) ts = true). { apply forallb_forall. intros t Ht. apply In_nth_error in Ht as [k Ek]. now rewrite (H k t Ek). }
  rewrite F. eexists. split; [reflexivity|].
  assert (SH : map (fun t : arr A => nth 0 (ash t) 0) ts = ns). { apply (nth_ext _ _ 0 0); [now rewrite map_length|]. rewrite map_length. intros k Hk. destruct (nth_error ts k) as [t|] eqn:Ek; [|apply nth_error_None in Ek; lia]. apply (nth_error_nth _ _ 0). rewrite nth_error_map, Ek. cbn. now rewrite (H k t Ek). }
  rewrite SH. split.
  - destruct xy; rewrite ?map_length, combine_length, seq_length; lia.
  - intros k t g Et Eg.
    assert (EC : nth_error (combine (seq 0 (length ts)) ts) k = Some (k, t)). { apply nthc; [|exact Et]. rewrite (nth_error_nth' _ 0%nat) by (rewrite seq_length; apply nth_error_Some; congruence). rewrite seq_nth by (apply nth_error_Some; congruence). reflexivity. }
    destruct xy.
    + rewrite !nth_error_map, EC in Eg. cbn in Eg. injection Eg as <-. cbn [ash adat]. split; [reflexivity|]. intros idx Hi. rewrite nth_swap01, Hi. reflexivity.
    + rewrite !nth_error_map, EC in Eg. cbn in Eg. injection Eg as <-. cbn [ash adat]. split; reflexivity.
Qed.

(** For any number of vectors of any lengths, at most one of them distributed (number [sp]) in any
    layout, and both values of indexing: grid k repeats vector k along its axis and has its
    elements, the shape is that of NumPy and the distributed axis keeps the vector's layout. *)
Theorem C89_meshgrid : forall (A : Type) (dflt : A) (ps : list (bnd A * (list Z -> A))) (ns c : list Z) (P : nat) (sp : option nat) (ix : indexing),
  ix <> OtherIndexing -> length ps = length ns -> length c = P ->
  (forall k x G, nth_error ps k = Some (x, G) -> d_gshape (b_arr x) = [nth k ns 0] /\ length (d_locals (b_arr x)) = P /\ rep (b_arr x) c G /\ (d_split (b_arr x) <> None <-> sp = Some k)) ->
  (forall j, sp = Some j -> (j < length ps)%nat) ->
  let xy := match ix with XY => true | _ => false end in let n := length ps in
  exists zs, meshgrid dflt (map fst ps) ix = Ok zs /\ length zs = n /\
    forall k x G z, nth_error ps k = Some (x, G) -> nth_error zs k = Some z ->
      length (d_gshape (b_arr z)) = n /\ (forall j, (j < n)%nat -> nth (mesh_axis xy n j) (d_gshape (b_arr z)) 0 = nth j ns 0) /\
      d_split (b_arr z) = option_map (mesh_axis xy n) sp /\ b_flag z = Some true /\
      rep (b_arr z) c (fun idx => G [nth (mesh_axis xy n k) idx 0]).
Proof.
  intros A dflt ps ns c P sp ix HX HL HC HA HS xy n.
  destruct ps as [|p0 ps0]; [destruct ix; [..|contradiction]; (exists []; split; [reflexivity|]; split; [reflexivity|]; intros [|k] x G z E; discriminate E)|].
  set (ps := p0 :: ps0) in *. assert (EM : exists tl, map fst ps = fst p0 :: tl) by (exists (map fst ps0); reflexivity). destruct EM as [tl EM].
  assert (HP : length (d_locals (b_arr (fst p0))) = P) by (destruct p0 as [x0 G0]; apply (HA 0%nat x0 G0 eq_refl)).
  assert (EMESH : meshgrid dflt (map fst ps) ix = (do sp0 <- find_split 0 (map fst ps) None;
        do cols <- all_ok (map (fun r => torch_meshgrid (map (fun x => nth_arr dflt (d_locals (b_arr x)) r) (map fst ps)) xy) (seq 0 P));
        Ok (map (fun k => mk_bnd (mk_dnd (map (fun col => nth_arr dflt col k) cols) (if xy then swap01 ns else ns) (option_map (mesh_axis xy n) sp0)) (Some true)) (seq 0 (length (map fst ps)))))).
  { assert (SZ : map (fun x : bnd A => size_of (d_gshape (b_arr x))) (map fst ps) = ns).
    { rewrite map_map. apply (nth_ext _ _ 0 0); [now rewrite map_length|]. rewrite map_length. intros k Hk. destruct (nth_error ps k) as [[x G]|] eqn:Ek; [|apply nth_error_None in Ek; lia]. apply (nth_error_nth _ _ 0). rewrite nth_error_map, Ek. cbn [option_map fst]. destruct (HA k x G Ek) as (-> & _). unfold size_of. cbn. now rewrite Z.mul_1_r. }
    unfold meshgrid. rewrite EM. rewrite <- EM. fold xy. rewrite SZ, HP.
    assert (EQ : forall sp0, (if xy && (1 <? length ns)%nat then match sp0 with Some O => Some 1%nat | Some (S O) => Some 0%nat | s => s end else sp0) = option_map (mesh_axis xy n) sp0) by (intros sp0; rewrite swap_split; unfold n; rewrite HL; reflexivity).
    destruct ix; [| |contradiction]; (destruct (find_split 0 (map fst ps) None) as [sp0|]; cbn [bind]; [|reflexivity]); rewrite EQ, swap_shape; reflexivity. }
  rewrite EMESH. clear EMESH EM tl.
  assert (ESP : find_split 0 (map fst ps) None = Ok sp).
  { destruct sp as [j|].
    - rewrite (find_split_one (map fst ps) 0 j); [reflexivity| |rewrite map_length; auto]. intros k x Ek. rewrite nth_error_map in Ek. destruct (nth_error ps k) as [[x' G]|] eqn:E; [|discriminate Ek]. injection Ek as <-. destruct (HA k x' G E) as (_ & _ & _ & ->). split; [intros [= ->]; reflexivity|intros ->; reflexivity].
    - apply find_split_none. intros x Hx. apply in_map_iff in Hx as ([x' G] & <- & Hx). apply In_nth_error in Hx as [k E]. destruct (HA k x' G E) as (_ & _ & _ & H). cbn [fst]. destruct (d_split (b_arr x')); [|reflexivity]. assert (None = Some k) as H' by (apply H; discriminate). discriminate H'. }
  rewrite ESP. cbn [bind].
  set (lsh := fun r => match sp with Some j => upd ns j (nth r c 0) | None => ns end).
  assert (LL : forall r, length (lsh r) = n) by (intros r; unfold lsh, n; destruct sp; rewrite ?upd_length; auto).
  (* the local tensors *)
  assert (LOC : forall r k x G, (r < P)%nat -> nth_error ps k = Some (x, G) -> nth_error (d_locals (b_arr x)) r = Some (nth_arr dflt (d_locals (b_arr x)) r) /\
     agrees (nth_arr dflt (d_locals (b_arr x)) r) [nth k (lsh r) 0] (fun idx => G (if opt_eqb sp (Some k) then move_axis_idx 0 (zsum (firstn r c)) idx else idx))).
  { intros r k x G Hr Ek. destruct (HA k x G Ek) as (GS & LX & RX & DX). assert (E : nth_error (d_locals (b_arr x)) r = Some (nth_arr dflt (d_locals (b_arr x)) r)) by (apply nth_error_nth'; lia). split; [exact E|].
    assert (Hk : (k < length ns)%nat) by (rewrite <- HL; apply nth_error_Some; congruence).
    unfold rep in RX. rewrite GS in RX. destruct (d_split (b_arr x)) as [s|].
    - assert (sp = Some k) as -> by (apply DX; discriminate). destruct RX as (_ & _ & Hs & _ & _ & R). cbn in Hs. assert (s = 0)%nat as -> by lia. destruct (R r _ E) as [S D]. unfold lsh. rewrite upd_same by lia. cbn [opt_eqb]. rewrite Nat.eqb_refl. split; [exact S|exact D].
    - assert (NE : sp <> Some k) by (intros H; apply DX in H; congruence). destruct RX as (_ & _ & R). destruct (R _ (nth_error_In _ _ E)) as [S D].
      assert (EO : opt_eqb sp (Some k) = false) by (unfold opt_eqb; destruct sp as [j|]; [|reflexivity]; apply Nat.eqb_neq; congruence). rewrite EO.
      assert (EL : nth k (lsh r) 0 = nth k ns 0) by (unfold lsh; destruct sp as [j|]; [rewrite upd_other by congruence|]; reflexivity). rewrite EL. split; [exact S|exact D]. }
  destruct (all_ok_Qn (fun r => torch_meshgrid (map (fun x => nth_arr dflt (d_locals (b_arr x)) r) (map fst ps)) xy) (fun r col => length col = n /\ forall k x G g, nth_error ps k = Some (x, G) -> nth_error col k = Some g ->
      ash g = (if xy then swap01 (lsh r) else lsh r) /\ forall idx, length idx = n -> adat g idx = adat (nth_arr dflt (d_locals (b_arr x)) r) [nth (mesh_axis xy n k) idx 0]) (seq 0 P)) as (cols & EC & LC & QC).
  { intros i r Er. assert (Hi : (i < P)%nat) by (rewrite <- (seq_length P 0); apply nth_error_Some; congruence). apply (nth_error_nth _ _ 0%nat) in Er. rewrite seq_nth in Er by exact Hi. cbn in Er. subst r.
    destruct (torch_meshgrid_ok (map (fun x => nth_arr dflt (d_locals (b_arr x)) i) (map fst ps)) (lsh i) xy) as (gs & E & L & Q).
    - rewrite !map_length, LL. reflexivity.
    - intros k t Et. rewrite map_map, nth_error_map in Et. destruct (nth_error ps k) as [[x G]|] eqn:Ek; [|discriminate Et]. injection Et as <-. apply (LOC i k x G Hi Ek).
    - exists gs. split; [exact E|]. rewrite !map_length in L. split; [exact L|]. intros k x G g Ek Eg. rewrite LL in Q. apply (Q k); [|exact Eg]. rewrite map_map, nth_error_map, Ek. reflexivity. }
  rewrite EC. cbn [bind]. rewrite seq_length in LC. eexists. split; [reflexivity|]. split; [now rewrite map_length, seq_length, map_length|].
  intros k x G z Ep Ez. assert (Hk : (k < n)%nat) by (apply nth_error_Some; congruence). rewrite nth_error_map in Ez. rewrite map_length in Ez. fold n in Ez. rewrite (nth_error_nth' _ 0%nat) in Ez by (now rewrite seq_length). rewrite seq_nth in Ez by exact Hk. cbn in Ez. injection Ez as <-.
  cbn [b_arr b_flag d_gshape d_split d_locals].
  assert (GL : length (if xy then swap01 ns else ns) = n) by (destruct xy; rewrite ?swap01_length; auto).
  assert (NS : forall j, nth (mesh_axis xy n j) (if xy then swap01 ns else ns) 0 = nth j ns 0) by (intros j; destruct xy; [rewrite nth_swap01; unfold n; rewrite HL, mesh_axis_inv|]; reflexivity).
  split; [exact GL|]. split; [auto|]. split; [reflexivity|]. split; [reflexivity|].
  assert (SH : forall r, (if xy then swap01 (lsh r) else lsh r) = match sp with Some j => upd (if xy then swap01 ns else ns) (mesh_axis xy n j) (nth r c 0) | None => if xy then swap01 ns else ns end).
  { intros r. unfold lsh. destruct sp as [j|]; [|reflexivity]. destruct xy; [rewrite swap01_upd, <- HL|]; reflexivity. }
  assert (EL : forall r t, nth_error (map (fun col => nth_arr dflt col k) cols) r = Some t -> ash t = match sp with Some j => upd (if xy then swap01 ns else ns) (mesh_axis xy n j) (nth r c 0) | None => if xy then swap01 ns else ns end /\
     forall idx, in_bounds (ash t) idx -> adat t idx = G (if opt_eqb sp (Some k) then move_axis_idx 0 (zsum (firstn r c)) [nth (mesh_axis xy n k) idx 0] else [nth (mesh_axis xy n k) idx 0])).
  { intros r t Et. rewrite nth_error_map in Et. destruct (nth_error cols r) as [cl|] eqn:Ec; [|discriminate Et]. injection Et as <-. assert (Hr : (r < P)%nat) by (rewrite <- LC; apply nth_error_Some; congruence).
    destruct (QC r cl Ec) as [Lc Q]. destruct (Q k x G (nth_arr dflt cl k) Ep) as [S D]; [apply nth_error_nth'; lia|]. rewrite S. split; [apply SH|]. intros idx Hi.
    assert (Li : length idx = n) by (apply in_bounds_length in Hi; destruct xy; rewrite ?swap01_length, ?LL in Hi; exact Hi). rewrite D by exact Li.
    destruct (LOC r k x G Hr Ep) as [_ [S' D']]. apply D'. constructor; [|constructor].
    assert (HB : forall a, (a < n)%nat -> 0 <= nth a idx 0 < nth a (if xy then swap01 (lsh r) else lsh r) 0). { intros a Ha. apply in_bounds_nth; [exact Hi|]. destruct xy; rewrite ?swap01_length, ?LL; exact Ha. }
    specialize (HB _ (mesh_axis_lt xy n k Hk)). destruct xy; [rewrite nth_swap01, LL, mesh_axis_inv in HB|]; exact HB. }
  unfold rep. cbn [d_gshape d_split d_locals]. split; [rewrite map_length; lia|].
  assert (NN : Forall (fun m => 0 <= m) (if xy then swap01 ns else ns)).
  { apply Forall_forall. intros m Hm. apply (In_nth _ _ 0) in Hm as (a & Ha & <-). rewrite GL in Ha. rewrite <- (mesh_axis_inv xy n a), NS. pose proof (mesh_axis_lt xy n a Ha) as Hj. destruct (nth_error ps (mesh_axis xy n a)) as [[x' G']|] eqn:Ej; [|apply nth_error_None in Ej; unfold n in *; lia].
    destruct (HA _ _ _ Ej) as (GS & _ & (_ & N & _) & _). rewrite GS in N. now inversion N. }
  split; [exact NN|]. destruct sp as [j|]; cbn [option_map].
  - assert (Hj : (j < n)%nat) by (apply HS; reflexivity). destruct (nth_error ps j) as [[xj Gj]|] eqn:Ej; [|apply nth_error_None in Ej; unfold n in *; lia]. destruct (HA j xj Gj Ej) as (GSj & _ & Rj & Dj). unfold rep in Rj. rewrite GSj in Rj. destruct (d_split (b_arr xj)) as [s|]; [|exfalso; apply Dj; reflexivity].
    destruct Rj as (_ & _ & Hs & Hc & Hsum & _). cbn in Hs. assert (s = 0)%nat as -> by lia. cbn in Hsum.
    split; [rewrite GL; now apply mesh_axis_lt|]. split; [exact Hc|]. split; [rewrite NS; exact Hsum|].
    intros r t Et. destruct (EL r t Et) as [S D]. split; [exact S|]. intros idx Hi. rewrite D by (rewrite S; exact Hi). f_equal. unfold opt_eqb. unfold move_axis_idx.
    assert (Li : length idx = n) by (apply in_bounds_length in Hi; rewrite upd_length, GL in Hi; exact Hi).
    destruct (Nat.eqb_spec j k) as [->|Ne].
    + rewrite upd_same by (rewrite Li; now apply mesh_axis_lt). reflexivity.
    + rewrite upd_other; [reflexivity|]. intros E. apply Ne. rewrite <- (mesh_axis_inv xy n j), <- (mesh_axis_inv xy n k), E. reflexivity.
  - intros t Ht. apply In_nth_error in Ht as [r Er]. destruct (EL r t Er) as [S D]. split; [exact S|]. intros idx Hi. rewrite D by (rewrite S; exact Hi). reflexivity.
Qed.
Print Assumptions C89_meshgrid.

(** Two distributed vectors, or another value of indexing, are refused. *)
Theorem C89_raises : forall (A : Type) (dflt : A) (xs : list (bnd A)) (ix : indexing),
  ix = OtherIndexing \/ (exists i j x y, (i < j)%nat /\ nth_error xs i = Some x /\ nth_error xs j = Some y /\ d_split (b_arr x) <> None /\ d_split (b_arr y) <> None) ->
  meshgrid dflt xs ix = Err ValueError.
Proof.
  intros A dflt xs ix [->|(i & j & x & y & L & E1 & E2 & H1 & H2)]; [reflexivity|]. unfold meshgrid. destruct xs as [|x0 xs]; [destruct i; discriminate E1|].
  rewrite (find_split_two (x0 :: xs) 0 i j x y); auto. cbn [bind]. destruct ix; reflexivity.
Qed.
Print Assumptions C89_raises.

(** the grids of a balanced vector are balanced, as their flag says *)
Theorem C89_balanced_flag : forall (A : Type) (dflt : A) (ps : list (bnd A * (list Z -> A))) (ns c : list Z) (P : nat) (sp : option nat) (ix : indexing),
  ix <> OtherIndexing -> length ps = length ns -> length c = P ->
  (forall k x G, nth_error ps k = Some (x, G) -> d_gshape (b_arr x) = [nth k ns 0] /\ length (d_locals (b_arr x)) = P /\ rep (b_arr x) c G /\ (d_split (b_arr x) <> None <-> sp = Some k)) ->
  (forall j, sp = Some j -> (j < length ps)%nat /\ c = map Z.of_nat (counts_of (Z.to_nat (nth j ns 0)) P)) ->
  exists zs, meshgrid dflt (map fst ps) ix = Ok zs /\ forall k z, (k < length ps)%nat -> nth_error zs k = Some z -> flag_ok z c.
Proof.
  intros A dflt ps ns c P sp ix HX HL HC HA HS. destruct (C89_meshgrid A dflt ps ns c P sp ix HX HL HC HA) as (zs & E & LZ & Q); [intros j Hj; apply (HS j Hj)|].
  exists zs. split; [exact E|]. intros k z Hk Ez. destruct (nth_error ps k) as [[x G]|] eqn:Ep; [|apply nth_error_None in Ep; lia]. destruct (Q k x G z Ep Ez) as (_ & NS & DS & _ & R). intros _. rewrite DS.
  destruct R as (LR & _). destruct sp as [j|]; cbn [option_map]; [|exact I]. destruct (HS j eq_refl) as [Hj ->]. rewrite (NS j Hj). f_equal. f_equal. rewrite LR. exact (eq_sym HC).
Qed.
Print Assumptions C89_balanced_flag.

(** ** concrete cases *)
Definition gv (i : list Z) : Z := 10 * (nth 0 i 0 + 1).
Definition gw (i : list Z) : Z := nth 0 i 0 + 1.
Definition mx := cutg [3] gv 0 [1; 2] (Some false).
Definition my := replg 2 [2] gw (Some true).
Example C89_instance : exists zs, meshgrid 0 [mx; my] XY = Ok zs /\ forall z, nth_error zs 0 = Some z -> d_split (b_arr z) = Some 1%nat /\ rep (b_arr z) [1; 2] (fun i => gv [nth 1 i 0]).
Proof.
  destruct (C89_meshgrid Z 0 [(mx, gv); (my, gw)] [3; 2] [1; 2] 2 (Some 0%nat) XY) as (zs & E & _ & Q).
  - discriminate.
  - reflexivity.
  - reflexivity.
  - intros [|[|[|k]]] x G Ek; try discriminate Ek; injection Ek as <- <-; (split; [reflexivity|split; [reflexivity|split]]).
    + apply cutg_rep; try (repeat constructor; cbn; lia).
    + split; [reflexivity|discriminate].
    + apply replg_rep; [repeat constructor; lia|reflexivity].
    + split; [intros H; contradiction H; reflexivity|discriminate].
  - intros j [= <-]. cbn. lia.
  - exists zs. split; [exact E|]. intros z Ez. destruct (Q 0%nat mx gv z eq_refl Ez) as (_ & _ & S & _ & R). split; [exact S|exact R].
Qed.
Example C89_values : match meshgrid 0 [mx; my] XY with Ok zs => map (fun z => map flat (d_locals (b_arr z))) zs | Err _ => [] end =
  [[[10; 10]; [20; 30; 20; 30]]; [[1; 2]; [1; 1; 2; 2]]].
Proof. vm_compute. reflexivity. Qed.
(** A vector of three held as 1 + 2: the grids are flagged balanced all the same (a balanced layout
    of three on two processes is 2 + 1). *)
Theorem C89_flag_refuted : exists (x y : bnd Z) Gx Gy, rep (b_arr x) [1; 2] Gx /\ flag_ok x [1; 2] /\ rep (b_arr y) [0; 0] Gy /\ flag_ok y [0; 0] /\
  exists z0 z1, meshgrid 0 [x; y] IJ = Ok [z0; z1] /\ rep (b_arr z0) [1; 2] (fun i => Gx [nth 0 i 0]) /\ b_flag z0 = Some true /\ ~ flag_ok z0 [1; 2].
Proof.
  exists mx, my, gv, gw. split; [apply cutg_rep; try (repeat constructor; cbn; lia)|]. split; [intros H; discriminate H|]. split; [apply replg_rep; [repeat constructor; lia|reflexivity]|]. split; [intros _; exact I|].
  destruct (C89_meshgrid Z 0 [(mx, gv); (my, gw)] [3; 2] [1; 2] 2 (Some 0%nat) IJ) as (zs & E & L & Q).
  - discriminate.
  - reflexivity.
  - reflexivity.
  - intros [|[|[|k]]] x G Ek; try discriminate Ek; injection Ek as <- <-; (split; [reflexivity|split; [reflexivity|split]]).
    + apply cutg_rep; try (repeat constructor; cbn; lia).
    + split; [reflexivity|discriminate].
    + apply replg_rep; [repeat constructor; lia|reflexivity].
    + split; [intros H; contradiction H; reflexivity|discriminate].
  - intros j [= <-]. cbn. lia.
  - destruct zs as [|z0 [|z1 [|z2 zs]]]; try (cbn in L; discriminate L). exists z0, z1. split; [exact E|]. destruct (Q 0%nat mx gv z0 eq_refl eq_refl) as (_ & NS & S & F & R). split; [exact R|]. split; [exact F|].
    intros H. specialize (H F). rewrite S in H. cbn [option_map mesh_axis] in H. specialize (NS 0%nat ltac:(cbn; lia)). cbn [mesh_axis] in NS. rewrite NS in H. destruct R as (LR & _). rewrite LR in H. vm_compute in H. discriminate H.
Qed.
