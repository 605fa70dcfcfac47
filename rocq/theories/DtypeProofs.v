(** Proofs about the derived datatypes. *)
From Verif Require Import Base BaseLemmas TensorSpec TensorLemmas DtypeModel.
From Coq Require Import Permutation.
Open Scope Z_scope.
Global Opaque COUNT_LIMIT.
Lemma CL_val : COUNT_LIMIT = 2147483647. Proof. reflexivity. Qed.

Definition offsets_of (w : Z) (st : list Z) (sh : list Z) : list Z :=
  map (fun idx => w * dot idx st) (row_major sh).

Lemma shift_shift a b l : shift a (shift b l) = shift (a + b) l.
Proof. unfold shift. rewrite map_map. apply map_ext. intros; lia. Qed.
Lemma shift_0 l : shift 0 l = l.
Proof. unfold shift. rewrite <- (map_id l) at 2. apply map_ext. intros; lia. Qed.
Lemma int_ok_iff z : int_ok z = true <-> -2147483648 <= z <= 2147483647.
Proof. unfold int_ok. lia. Qed.

Lemma vector1 n s t v : create_vector n 1 s t = Ok v ->
  disps v = flat_map (fun i => shift (i * s * ext t) (disps t)) (zr n).
Proof.
  unfold create_vector. destruct (_ && _); intros E; inversion E; subst; clear E. cbn [disps]. change (zr 1) with [0].
  apply flat_map_ext_in. intros i _. cbn [flat_map]. rewrite app_nil_r. f_equal. lia.
Qed.
Lemma vector_ok c b s t : int_ok c = true -> int_ok b = true -> int_ok s = true ->
  exists v, create_vector c b s t = Ok v.
Proof. intros A B C. unfold create_vector. rewrite A, B, C. simpl. eauto. Qed.

Lemma offsets_cons w n s st sh :
  offsets_of w (s :: st) (n :: sh) = flat_map (fun i => shift (i * (w * s)) (offsets_of w st sh)) (zr n).
Proof.
  unfold offsets_of. cbn [row_major]. rewrite map_flat_map. apply flat_map_ext_in. intros i _.
  unfold shift. rewrite !map_map. apply map_ext. intros idx. cbn [dot]. lia.
Qed.

Lemma chain_spec w sh : forall s0 ss ty, sh <> [] -> length ss = length sh ->
  chain (combine (combine sh (repeat 1 (length sh - 1) ++ [last (s0 :: ss) 0]))
                 (map (Z.mul w) (removelast (s0 :: ss)))) (base_type w) = Ok ty ->
  ext ty = w * s0 /\ disps ty = offsets_of w ss sh /\ com ty = true.
Proof.
  induction sh as [|n sh IH]; intros s0 ss ty Hne L E; [congruence|].
  destruct ss as [|s ss]; [simpl in L; lia|].
  destruct sh as [|n' sh].
  - destruct ss; [|simpl in L; lia]. cbn in E.
    destruct (create_vector n 1 s (base_type w)) as [v|] eqn:Ev; simpl in E; inversion E; subst; clear E.
    simpl. split; [auto|]. split; [|auto]. rewrite (vector1 _ _ _ _ Ev). simpl. rewrite offsets_cons. unfold offsets_of. simpl.
    apply flat_map_ext_in. intros i _. f_equal. lia.
  - destruct ss as [|s' ss]; [simpl in L; lia|].
    set (sh1 := n' :: sh) in *. set (ss1 := s' :: ss) in *.
    assert (Hl : length ss1 = length sh1) by (simpl in *; lia).
    replace (length (n :: sh1) - 1)%nat with (S (length sh1 - 1)) in E by (simpl; lia).
    change (last (s0 :: s :: ss1) 0) with (last (s :: ss1) 0) in E.
    change (removelast (s0 :: s :: ss1)) with (s0 :: removelast (s :: ss1)) in E.
    cbn [repeat app combine map chain] in E.
    destruct (chain _ (base_type w)) as [t'|] eqn:Et; cbn [bind] in E; [|congruence].
    destruct (create_vector n 1 1 t') as [v|] eqn:Ev; cbn [bind] in E; inversion E; subst; clear E.
    destruct (IH s ss1 t') as [E1 [E2 E3]]; auto; [subst sh1; congruence|].
    cbn [ext disps commit create_resized com]. split; [auto|]. split; [|auto].
    rewrite (vector1 _ _ _ _ Ev), E1, E2, offsets_cons. apply flat_map_ext_in. intros i _. f_equal. lia.
Qed.

Lemma chain_ok w dims : Forall (fun d => int_ok (fst (fst d)) = true /\ int_ok (snd (fst d)) = true) dims ->
  exists ty, chain dims (base_type w) = Ok ty.
Proof.
  induction 1 as [|[[n s] off] dims [H1 H2] Hd [t Et]]; [simpl; eauto|].
  cbn [chain]. rewrite Et. cbn [bind]. simpl in H1, H2.
  destruct (vector_ok n 1 s t H1 eq_refl H2) as [v ->]. simpl. eauto.
Qed.

Lemma buf_offsets w n t s0 ss sh : ext t = w * s0 -> disps t = offsets_of w ss sh ->
  buf_positions n t = offsets_of w (s0 :: ss) (n :: sh).
Proof. intros E1 E2. unfold buf_positions. rewrite offsets_cons, E1, E2. reflexivity. Qed.

(** ** Contiguity *)
Lemma contig_go_app a b e : contig_go (a ++ b) e = contig_go a e && contig_go b (e * zprod (map fst a)).
Proof.
  revert e; induction a as [|[n s] a IH]; intros e; cbn [app contig_go map fst zprod].
  - rewrite andb_true_l. f_equal. lia.
  - destruct (Z.eqb_spec n 1) as [->|]; rewrite IH.
    + now replace (1 * zprod (map fst a)) with (zprod (map fst a)) by lia.
    + rewrite andb_assoc. now replace (e * (n * zprod (map fst a))) with (e * n * zprod (map fst a)) by lia.
Qed.
Lemma zprod_app a b : zprod (a ++ b) = zprod a * zprod b.
Proof. induction a; cbn [app zprod]; [lia|]. rewrite IHa. lia. Qed.
Lemma zprod_rev a : zprod (rev a) = zprod a.
Proof. induction a; simpl; auto. rewrite zprod_app, IHa. cbn [zprod]. lia. Qed.
Lemma map_fst_combine {A B} (a : list A) (b : list B) : length a = length b -> map fst (combine a b) = a.
Proof. revert b; induction a; intros [|]; simpl; intros; try lia; auto. f_equal; auto. Qed.

Lemma contig_dot sh : forall st idx, length st = length sh -> contig_go (rev (combine sh st)) 1 = true ->
  in_bounds sh idx -> dot idx st = dot idx (cstrides sh).
Proof.
  induction sh as [|n sh IH]; intros [|s st] idx L C H; simpl in *; try lia; auto.
  inversion H as [|? i ? t Hi Ht]; subst. simpl.
  rewrite contig_go_app in C. apply andb_true_iff in C. destruct C as [C1 C2].
  rewrite (IH st t) by (auto; lia).
  rewrite map_rev, map_fst_combine, zprod_rev in C2 by lia. cbn [contig_go] in C2.
  destruct (Z.eqb_spec n 1).
  - replace i with 0 by lia. lia.
  - assert (s = zprod sh) by lia. subst; lia.
Qed.
Lemma is_contig_dot sh st idx : length st = length sh -> is_contiguous sh st = true ->
  in_bounds sh idx -> dot idx st = dot idx (cstrides sh).
Proof.
  intros L C H. unfold is_contiguous in C. apply orb_true_iff in C. destruct C as [C|C].
  - exfalso. pose proof (dot_bounds _ _ H). lia.
  - now apply contig_dot.
Qed.
Lemma contig_cstrides sh : contig_go (rev (combine sh (cstrides sh))) 1 = true.
Proof.
  induction sh as [|n sh IH]; [reflexivity|]. cbn [cstrides combine rev].
  rewrite contig_go_app, IH. rewrite map_rev, map_fst_combine, zprod_rev by (now rewrite cstrides_length).
  cbn [contig_go]. destruct (n =? 1); auto. replace (1 * zprod sh) with (zprod sh) by lia. now rewrite Z.eqb_refl.
Qed.
Lemma is_contiguous_cstrides sh : is_contiguous sh (cstrides sh) = true.
Proof. unfold is_contiguous. rewrite contig_cstrides. apply orb_true_r. Qed.

Lemma offsets_contig w sh st : Forall (fun n => 0 <= n) sh -> length st = length sh -> is_contiguous sh st = true ->
  offsets_of w st sh = map (Z.mul w) (zr (zprod sh)).
Proof.
  intros Hs L C. unfold offsets_of. rewrite <- cstrides_offsets, map_map by auto.
  apply map_ext_in. intros idx Hi. apply in_row_major in Hi. rewrite (is_contig_dot _ _ _ L C Hi). reflexivity.
Qed.

Lemma flat_map_single {A B} (f : A -> B) (l : list A) : flat_map (fun x => [f x]) l = map f l.
Proof. induction l as [|a l IHl]; cbn [flat_map map app]; [reflexivity|]. now rewrite IHl. Qed.
Lemma buf_base w n : buf_positions n (base_type w) = map (Z.mul w) (zr n).
Proof.
  unfold buf_positions, base_type. simpl. transitivity (map (fun i => i * w + 0) (zr n)).
  - apply flat_map_single.
  - apply map_ext. intros; lia.
Qed.

(** ** Large counts *)
Lemma large_count_spec w n t c : 0 <= n -> handle_large_count (base_type w) n = Ok (t, c) ->
  buf_positions c t = map (Z.mul w) (zr n).
Proof.
  intros Hn. unfold handle_large_count.
  assert (HL := CL_val).
  set (q := n / COUNT_LIMIT). set (r := n mod COUNT_LIMIT).
  assert (Hq : 0 <= q) by (apply Z.div_pos; lia).
  assert (Hr : 0 <= r < COUNT_LIMIT) by (apply Z.mod_pos_bound; lia).
  assert (Hqr : n = q * COUNT_LIMIT + r) by (rewrite (Z.div_mod n COUNT_LIMIT); [fold q r; lia|lia]).
  clearbody q r.
  destruct (COUNT_LIMIT <? q); [congruence|].
  unfold create_vector. destruct (_ && _); cbn [bind]; [|congruence].
  set (D := flat_map _ (zr q)).
  assert (HD : D = map (Z.mul w) (zr (q * COUNT_LIMIT))).
  { subst D. rewrite <- zr_mul by lia. rewrite map_flat_map. apply flat_map_ext_in. intros i _.
    rewrite map_map. cbn [ext disps base_type]. unfold shift. simpl.
    rewrite (flat_map_single (fun j => (i * COUNT_LIMIT + j) * w + 0)). apply map_ext. intros; lia. }
  destruct (Z.ltb_spec 0 r).
  - unfold create_contiguous. destruct (int_ok r); cbn [bind]; [|congruence].
    intros E; inversion E; subst t c; clear E. unfold buf_positions. rewrite zr_1.
    cbn [flat_map commit create_struct2 disps ext app]. rewrite app_nil_r.
    rewrite ?Z.mul_0_l. rewrite !shift_0. rewrite HD. rewrite Hqr, (zr_app (q * COUNT_LIMIT) r) by nia.
    rewrite map_app. f_equal. cbn [base_type disps ext]. unfold shift. cbn [map].
    rewrite (flat_map_single (fun i => i * w + 0)). rewrite !map_map. apply map_ext. intros; lia.
  - intros E; inversion E; subst t c; clear E. unfold buf_positions. rewrite zr_1. cbn [flat_map disps ext].
    rewrite app_nil_r. rewrite ?Z.mul_0_l. rewrite shift_0, HD. f_equal. f_equal. lia.
Qed.

Lemma large_count_ok t n : 0 <= n -> n / COUNT_LIMIT <= COUNT_LIMIT ->
  exists r, handle_large_count t n = Ok r.
Proof.
  intros Hn Hq. unfold handle_large_count. assert (HL := CL_val).
  assert (0 <= n / COUNT_LIMIT) by (apply Z.div_pos; lia).
  assert (0 <= n mod COUNT_LIMIT < COUNT_LIMIT) by (apply Z.mod_pos_bound; lia).
  destruct (Z.ltb_spec COUNT_LIMIT (n / COUNT_LIMIT)); [lia|].
  destruct (vector_ok (n / COUNT_LIMIT) COUNT_LIMIT COUNT_LIMIT t) as [v ->]; try (apply int_ok_iff; lia).
  cbn [bind]. destruct (0 <? _); [|eauto].
  unfold create_contiguous. replace (int_ok (n mod COUNT_LIMIT)) with true by (symmetry; apply int_ok_iff; lia). cbn. eauto.
Qed.
Lemma large_count_commit t n r : handle_large_count t n = Ok r -> com (fst r) = (0 <? n mod COUNT_LIMIT).
Proof.
  unfold handle_large_count. destruct (_ <? _); [congruence|].
  unfold create_vector. destruct (_ && _); cbn [bind]; [|congruence].
  destruct (0 <? _).
  - unfold create_contiguous. destruct (int_ok _); cbn [bind]; [|congruence]. intros E; inversion E; reflexivity.
  - intros E; inversion E; reflexivity.
Qed.
Lemma large_count_err t n e : 0 <= n -> handle_large_count t n = Err e -> e = ValueError /\ COUNT_LIMIT < n / COUNT_LIMIT.
Proof.
  intros Hn E. destruct (Z.lt_ge_cases COUNT_LIMIT (n / COUNT_LIMIT)) as [H|H].
  - split; auto. unfold handle_large_count in E. destruct (Z.ltb_spec COUNT_LIMIT (n / COUNT_LIMIT)); [congruence|lia].
  - destruct (large_count_ok t n Hn H) as [r E']. congruence.
Qed.

(** ** mpi_type_and_elements_of *)
Lemma type_noncontig w n sh s st counts b : length st = length sh -> sh <> [] ->
  mpi_type_and_elements_of w (n :: sh) (s :: st) counts (Some false) = Ok b ->
  ext (fst b) = w * s /\ disps (fst b) = offsets_of w st sh /\ com (fst b) = true /\
  snd b = match counts with Some (cs, ds) => EVec cs ds | None => ECount n end.
Proof.
  intros L Hne. unfold mpi_type_and_elements_of. cbn [tl]. destruct sh as [|n' sh]; [congruence|].
  destruct (chain _ _) as [ty|] eqn:E; cbn [bind]; [|congruence].
  intros X; inversion X; subst b; clear X.
  destruct (chain_spec w (n' :: sh) s st ty) as [E1 [E2 E3]]; auto; congruence.
Qed.
Lemma type_noncontig_ok w n sh s st counts : length st = length sh -> sh <> [] ->
  Forall (fun k => int_ok k = true) sh -> int_ok (last st 0) = true ->
  exists b, mpi_type_and_elements_of w (n :: sh) (s :: st) counts (Some false) = Ok b.
Proof.
  intros L Hne H1 H2. unfold mpi_type_and_elements_of. cbn [tl]. destruct sh as [|n' sh]; [congruence|].
  match goal with |- context [chain ?d ?t] => destruct (chain_ok w d) as [ty ->] end; [|cbn [bind]; eauto].
  apply Forall_forall. intros [[a b] c] Hin. cbn [fst snd].
  apply in_combine_l in Hin. split.
  - apply in_combine_l in Hin. rewrite Forall_forall in H1. auto.
  - apply in_combine_r in Hin. apply in_app_or in Hin. destruct Hin as [Hin|[<-|[]]].
    + apply repeat_spec in Hin. subst; reflexivity.
    + destruct st; [simpl in L; lia|]. exact H2.
Qed.

Lemma type_contig_spec w sh st b : Forall (fun n => 0 <= n) sh -> length st = length sh -> is_contiguous sh st = true ->
  mpi_type_and_elements_of w sh st None (Some true) = Ok b -> simple_positions b = offsets_of w st sh.
Proof.
  intros Hs L C. unfold mpi_type_and_elements_of.
  rewrite (offsets_contig w sh st) by auto.
  destruct (COUNT_LIMIT <? zprod sh).
  - destruct (handle_large_count _ _) as [[t c]|] eqn:E; cbn [bind fst snd]; [|congruence].
    intros X; inversion X; subst b. cbn [simple_positions]. apply large_count_spec in E; auto. now apply zprod_nonneg.
  - intros X; inversion X; subst b. cbn [simple_positions]. apply buf_base.
Qed.

Lemma type_none w sh st counts : mpi_type_and_elements_of w sh st counts None =
  mpi_type_and_elements_of w sh st counts (Some (is_contiguous sh st)).
Proof. reflexivity. Qed.

Lemma offsets_unsqueeze w n s : offsets_of w [s; 1] [n; 1] = offsets_of w [s] [n].
Proof. rewrite !offsets_cons. apply flat_map_ext_in. intros i _. reflexivity. Qed.

Theorem as_buffer_spec w sh st b : Forall (fun n => 0 <= n) sh -> length st = length sh ->
  as_buffer w sh st None None = Ok b -> simple_positions b = offsets_of w st sh.
Proof.
  intros Hs L. unfold as_buffer. destruct (is_contiguous sh st) eqn:C; cbn [negb andb].
  - rewrite type_none, C. now apply type_contig_spec.
  - destruct (Nat.eqb_spec (length sh) 1) as [E1|E1].
    + destruct sh as [|n [|? ?]]; simpl in E1; try lia. destruct st as [|s [|? ?]]; simpl in L; try lia.
      cbn [app]. rewrite type_none.
      destruct (is_contiguous [n; 1] [s; 1]) eqn:C2.
      { exfalso. unfold is_contiguous in C, C2. simpl in C, C2.
        replace (n * 1) with n in * by lia. destruct (n =? 0); simpl in *; [congruence|]. congruence. }
      intros E. destruct b as [t e]. apply type_noncontig in E; [|reflexivity|congruence].
      cbn [fst snd] in E. destruct E as [E2 [E3 [_ ->]]]. cbn [simple_positions].
      rewrite (buf_offsets w n t s [1] [1]) by auto. apply offsets_unsqueeze.
    + rewrite type_none, C. destruct sh as [|n sh]; [discriminate C|]. destruct st as [|s st]; [simpl in L; lia|].
      intros E. destruct b as [t e]. assert (sh <> []) by (destruct sh; simpl in *; congruence).
      apply type_noncontig in E; auto. cbn [fst snd] in E. destruct E as [E2 [E3 [_ ->]]]. cbn [simple_positions].
      now apply buf_offsets.
Qed.

Theorem as_buffer_ok w sh st : Forall (fun n => 0 <= n <= COUNT_LIMIT) sh -> length st = length sh ->
  Forall (fun s => 0 <= s <= COUNT_LIMIT) st -> zprod sh / COUNT_LIMIT <= COUNT_LIMIT ->
  exists b, as_buffer w sh st None None = Ok b.
Proof.
  intros Hs L Ht Hp. assert (HL := CL_val).
  assert (Hs0 : Forall (fun n => 0 <= n) sh) by (eapply Forall_impl; [|exact Hs]; simpl; intros; lia).
  assert (Hi : forall l, Forall (fun n => 0 <= n <= COUNT_LIMIT) l -> Forall (fun k => int_ok k = true) l).
  { intros l Hl. eapply Forall_impl; [|exact Hl]. simpl. intros a Ha. apply int_ok_iff. lia. }
  assert (Hlast : forall l, Forall (fun n => 0 <= n <= COUNT_LIMIT) l -> int_ok (last l 0) = true).
  { intros l Hl. apply int_ok_iff. induction Hl as [|x l Hx Hl IH]; simpl; [lia|]. destruct l; [lia|auto]. }
  unfold as_buffer. destruct (is_contiguous sh st) eqn:C; cbn [negb andb].
  - rewrite type_none, C. unfold mpi_type_and_elements_of. destruct (_ <? _); [|eauto].
    destruct (large_count_ok (base_type w) (zprod sh)) as [r ->]; auto using zprod_nonneg. cbn. eauto.
  - destruct (Nat.eqb_spec (length sh) 1) as [E1|E1].
    + destruct sh as [|n [|? ?]]; simpl in E1; try lia. destruct st as [|s [|? ?]]; simpl in L; try lia.
      cbn [app]. rewrite type_none. destruct (is_contiguous [n; 1] [s; 1]) eqn:C2.
      { exfalso. unfold is_contiguous in C, C2. simpl in C, C2.
        replace (n * 1) with n in * by lia. destruct (n =? 0); simpl in *; [congruence|]. congruence. }
      apply type_noncontig_ok; auto; try congruence; repeat constructor.
    + rewrite type_none, C. destruct sh as [|n sh]; [discriminate C|]. destruct st as [|s st]; [simpl in L; lia|].
      inversion Hs; inversion Ht; subst.
      apply type_noncontig_ok; auto. destruct sh; simpl in *; congruence.
Qed.
