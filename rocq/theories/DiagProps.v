(** C41: tril, triu, diag, diagonal and fill_diagonal act on the right global elements. *)
From Verif Require Import Base BaseLemmas LayoutModel LayoutProofs NdSpec TensorSpec TensorLemmas NdLemmas OpsModel OpsProofs2 OpsProofs4 RedistModel RedistProofs ShapeSpec ShapeModel ShapeProofs ShapeProofs2 ShapeProofs3 ShapeProofs4 ShapeProofs5 BinModel BinProofs BinProofs2 ShapeProps RollProofs3 RollProps ReshapeModel ReshapeProofs FactoryModel FactoryProps ConcatSpec ConcatModel ConcatProofs ConcatProofs2 ConcatProofs3 ConcatProps DiagSpec DiagModel.
Open Scope Z_scope.

Lemma ranked_nth {A} (ls : list A) r p : nth_error (ranked ls) r = Some p -> fst p = r /\ nth_error ls r = Some (snd p) /\ (r < length ls)%nat.
Proof.
  intros H. destruct p as [r' t]. unfold ranked in H. apply nth_error_combine in H as [H1 H2].
  assert (Hr : (r < length ls)%nat) by (apply nth_error_Some; congruence).
  rewrite (nth_error_nth' _ 0%nat) in H1 by (rewrite seq_length; auto). rewrite seq_nth in H1 by auto. injection H1 as <-. auto.
Qed.
Lemma ranked_length {A} (ls : list A) : length (ranked ls) = length ls.
Proof. unfold ranked. rewrite combine_length, seq_length. lia. Qed.
Lemma ranked_map {A B} (f : nat * A -> B) (ls : list A) r y : nth_error (map f (ranked ls)) r = Some y ->
  exists t, nth_error ls r = Some t /\ y = f (r, t) /\ (r < length ls)%nat.
Proof.
  intros H. rewrite nth_error_map in H. destruct (nth_error (ranked ls) r) as [[r' t]|] eqn:E; [|discriminate]. injection H as <-.
  apply ranked_nth in E as (E1 & E2 & E3). cbn in *. subst r'. eauto.
Qed.
Lemma my_off_balanced {A} (x : dnd A) P s r : length (d_locals x) = P -> (r < P)%nat -> d_split x = Some s ->
  my_off x r = zsum (firstn r (zcounts (nth s (d_gshape x) 0) P)).
Proof. intros HL Hr Hs. unfold my_off, chunk_off. rewrite Hs, HL. apply chunk_counts; lia. Qed.

(** * tril / triu *)
Definition tri_of {A} (zero : A) lower k n (G : list Z -> A) idx := if tri_keep lower k (nth (n - 2) idx 0) (nth (n - 1) idx 0) then G idx else zero.
Lemma tri_of_spec {A} (zero : A) lower k n G : tri_spec zero lower k n G (tri_of zero lower k n G).
Proof. intros idx. unfold tri_of, in_triangle, tri_keep. destruct lower; cbn zeta; split; intros H; destruct (Z.leb_spec (nth (n - 1) idx 0 - nth (n - 2) idx 0) k), (Z.leb_spec k (nth (n - 1) idx 0 - nth (n - 2) idx 0)); auto; lia. Qed.

Lemma tri_keep_row lower k off i j : tri_keep lower (k + off) i j = tri_keep lower k (i + off) j.
Proof. unfold tri_keep. destruct lower; apply eq_true_iff_eq; rewrite !Z.leb_le; lia. Qed.
Lemma tri_keep_col lower k off i j : tri_keep lower (k - off) i j = tri_keep lower k i (j + off).
Proof. unfold tri_keep. destruct lower; apply eq_true_iff_eq; rewrite !Z.leb_le; lia. Qed.

Theorem C41_tri_nd : forall (A : Type) (zero : A) (lower : bool) (m : dnd A) (k : Z) (P : nat) (G : list Z -> A),
  is_rep P m G -> (2 <= length (d_gshape m))%nat ->
  exists y H, tri_op zero lower m k = Ok y /\ d_gshape y = d_gshape m /\ d_split y = d_split m /\ is_rep P y H /\
    tri_spec zero lower k (length (d_gshape m)) G H.
Proof.
  intros A zero lower m k P G [HL HR] HN. set (n := length (d_gshape m)) in *.
  exists (mk_dnd (map (fun p => torch_tri zero lower (match d_split m with None => k | Some s => if Nat.eqb (s + 1) (n - 1) then k + my_off m (fst p) else if Nat.eqb s (n - 1) then k - my_off m (fst p) else k end) (snd p)) (ranked (d_locals m))) (d_gshape m) (d_split m)), (tri_of zero lower k n G).
  split; [|split; [auto|split; [auto|split; [|apply tri_of_spec]]]].
  - unfold tri_op. destruct (d_gshape m) as [|a [|b l]] eqn:E; [cbn in HN; lia|cbn in HN; lia|]. reflexivity.
  - split; [cbn; now rewrite map_length, ranked_length|]. unfold rep. cbn [d_gshape d_split d_locals]. unfold rep in HR.
    destruct (d_split m) as [s|] eqn:Es; cbn [balanced_counts] in *.
    + destruct HR as (L & N & Hs & C & S & Q). split; [now rewrite map_length, ranked_length|]. split; [auto|]. split; [auto|]. split; [auto|]. split; [auto|].
      intros r y Hy. apply ranked_map in Hy as (t & Ht & -> & Hr). cbn [fst snd]. destruct (Q r t Ht) as [S0 D0].
      rewrite (my_off_balanced m P s r HL ltac:(lia) Es). set (off := zsum _) in *. unfold torch_tri. split; [exact S0|]. cbn [adat ash]. rewrite S0, upd_length. fold n.
      intros idx Hi. unfold tri_of. rewrite D0 by auto. apply in_bounds_length in Hi. rewrite upd_length in Hi. fold n in Hi. fold n in Hs.
      unfold move_axis_idx. destruct (Nat.eqb_spec (s + 1) (n - 1)) as [E|E]; [|destruct (Nat.eqb_spec s (n - 1)) as [E'|E']].
      * replace (n - 2)%nat with s by lia. rewrite upd_same by lia. rewrite upd_other by lia. rewrite tri_keep_row. auto.
      * rewrite <- E'. rewrite upd_same by lia. rewrite upd_other by lia. rewrite tri_keep_col. auto.
      * rewrite !upd_other by lia. auto.
    + destruct HR as (L & N & Q). split; [now rewrite map_length, ranked_length|]. split; [auto|]. intros y Hy. apply In_nth_error in Hy as [r Hy].
      apply ranked_map in Hy as (t & Ht & -> & Hr). cbn [fst snd]. apply nth_error_In in Ht. destruct (Q t Ht) as [S0 D0]. unfold torch_tri. split; [exact S0|]. cbn [adat]. rewrite S0. fold n.
      intros idx Hi. unfold tri_of. rewrite D0 by auto. auto.
Qed.
Print Assumptions C41_tri_nd.

(** a vector is repeated as the rows of a square matrix *)
Theorem C41_tri_vector : forall (A : Type) (zero : A) (lower : bool) (m : dnd A) (k n : Z) (P : nat) (G : list Z -> A),
  is_rep P m G -> d_gshape m = [n] ->
  exists y H, tri_op zero lower m k = Ok y /\ d_gshape y = [n; n] /\ d_split y = option_map (fun _ => 1%nat) (d_split m) /\
    is_rep P y H /\ tri_spec zero lower k 2 (fun idx => G [nth 1 idx 0]) H.
Proof.
  intros A zero lower m k n P G [HL HR] HN. unfold tri_op. rewrite HN. eexists _, (tri_of zero lower k 2 (fun idx => G [nth 1 idx 0])). split; [reflexivity|]. cbn [d_gshape d_split].
  split; [auto|]. split; [destruct (d_split m); reflexivity|]. split; [|apply tri_of_spec].
  split; [cbn; now rewrite map_length, ranked_length|]. unfold rep. cbn [d_gshape d_split d_locals]. unfold rep in HR. rewrite HN in HR.
  destruct (d_split m) as [s|] eqn:Es; cbn [balanced_counts option_map] in *.
  - destruct HR as (L & N & Hs & C & S & Q). assert (s = 0%nat) by (cbn in Hs; lia). subst s. cbn [nth] in *.
    split; [now rewrite map_length, ranked_length|]. split; [constructor; [now inversion N|auto]|]. split; [cbn; lia|]. split; [auto|]. split; [auto|].
    intros r y Hy. apply ranked_map in Hy as (t & Ht & -> & Hr). cbn [fst snd]. destruct (Q r t Ht) as [S0 D0].
    rewrite (my_off_balanced m P 0 r HL ltac:(lia) Es). rewrite HN. cbn [nth] in *. set (off := zsum (firstn r _)) in *. unfold torch_tri. split; [cbn [ash upd]; rewrite S0; reflexivity|]. cbn [adat ash length Nat.sub upd nth].
    intros idx Hi. unfold tri_of. assert (LI := in_bounds_length _ _ Hi). destruct idx as [|i [|j [|]]]; try discriminate. cbn [nth Nat.sub upd move_axis_idx].
    replace (adat t [j]) with (G [j + off]).
    2:{ rewrite D0; [reflexivity|]. cbn [upd] in *. inversion Hi as [|? ? ? ? H1 H2]; subst. exact H2. }
    rewrite tri_keep_col. auto.
  - destruct HR as (L & N & Q). split; [now rewrite map_length, ranked_length|]. split; [constructor; [now inversion N|auto]|]. intros y Hy. apply In_nth_error in Hy as [r Hy].
    apply ranked_map in Hy as (t & Ht & -> & Hr). cbn [fst snd]. apply nth_error_In in Ht. destruct (Q t Ht) as [S0 D0]. unfold torch_tri. split; [cbn [ash]; rewrite S0; reflexivity|]. cbn [adat ash length].
    intros idx Hi. unfold tri_of, my_off, chunk_off. rewrite Es, Z.sub_0_r. cbn [adat]. assert (LI := in_bounds_length _ _ Hi). destruct idx as [|i [|j [|]]]; try discriminate. cbn [nth].
    rewrite D0; [reflexivity|]. inversion Hi as [|? ? ? ? H1 H2]; subst. exact H2.
Qed.
Print Assumptions C41_tri_vector.

(** * fill_diagonal *)
Theorem C41_fill_diagonal : forall (A : Type) (v : A) (x : dnd A) (P : nat) (G : list Z -> A),
  is_rep P x G -> (0 < P)%nat -> length (d_gshape x) = 2%nat ->
  exists y, fill_diagonal v x = Ok y /\ d_gshape y = d_gshape x /\ d_split y = d_split x /\
    is_rep P y (fun idx => if nth 0 idx 0 =? nth 1 idx 0 then v else G idx).
Proof.
  intros A v x P G [HL HR] HP HN. unfold fill_diagonal. rewrite HN. cbn [Nat.eqb negb]. rewrite HL. unfold rep in HR.
  destruct (d_gshape x) as [|n0 [|n1 [|]]] eqn:Eg; try discriminate.
  assert (F1 : forall t F lsh, length lsh = 2%nat -> nth 1 lsh 0 <= n1 -> agrees t lsh F -> agrees (fill_block v true 0 n1 t) lsh (fun idx => if nth 0 idx 0 =? nth 1 idx 0 then v else F idx)).
  { intros t F lsh HL2 HB [S D]. split; [exact S|]. intros idx Hi. cbn [fill_block adat]. rewrite D by auto. apply in_bounds_nth in Hi as [LI Hi]. specialize (Hi 1%nat ltac:(lia)).
    rewrite Z.sub_0_r. replace (0 <=? nth 1 idx 0) with true by lia. replace (nth 1 idx 0 <? n1) with true by lia. now rewrite andb_true_r. }
  destruct (d_split x) as [s|] eqn:Es.
  - destruct HR as (L & N & Hs & C & SM & Q). assert (Q' := Q). cbn [balanced_counts] in *. destruct (Nat.eqb_spec P 1) as [->|NP].
    + eexists. split; [reflexivity|]. cbn [d_gshape d_split d_locals nth]. split; [auto|]. split; [auto|]. split; [cbn; now rewrite map_length|]. unfold rep. cbn [d_gshape d_split d_locals balanced_counts].
      split; [rewrite map_length; auto|]. split; [auto|]. split; [auto|]. split; [auto|]. split; [auto|].
      intros r t Ht. rewrite nth_error_map in Ht. destruct (nth_error (d_locals x) r) as [t0|] eqn:E; [|discriminate]. injection Ht as <-. destruct (Q r t0 E) as [S0 D0].
      assert (Hr : r = 0%nat) by (assert (r < length (d_locals x))%nat by (apply nth_error_Some; congruence); lia). subst r. cbn [firstn] in *. 
      assert (MV : forall i, move_axis_idx s (zsum []) i = i) by (intros i; unfold move_axis_idx; apply upd_same_list; unfold zsum; cbn; lia).
      pose proof (F1 t0 (fun idx => G (move_axis_idx s (zsum []) idx)) (upd [n0; n1] s (nth 0 (zcounts (nth s [n0; n1] 0) 1) 0)) ltac:(now rewrite upd_length)) as FF.
      destruct FF as [S1 D1]; [|split; auto|].
      * destruct (zcounts_ok (nth s [n0; n1] 0) 1 ltac:(lia)) as (LZ & FZ & SZ). { rewrite Forall_forall in N. apply N, nth_In. auto. }
        destruct (zcounts (nth s [n0; n1] 0) 1) as [|c [|]]; try discriminate. unfold zsum in SZ. cbn in SZ. destruct s as [|[|s]]; cbn in *; lia.
      * split; [exact S1|]. intros idx Hi. rewrite D1 by auto. now rewrite MV.
    + set (k := Z.min (nth 0 [n0; n1] 0) (nth 1 [n0; n1] 0)) in *. set (displ := fun r => chunk_start [n0; n1] s r P).
      assert (FD : forall r, (r < P)%nat -> displ r = zsum (firstn r (zcounts (nth s [n0; n1] 0) P))) by (intros r Hr; unfold displ; apply chunk_counts; auto).
      set (c := zcounts (nth s [n0; n1] 0) P) in *.
      assert (PR : forall b p, fold_left (fun (b : bool * nat) p => if fst b || (k <? displ p) then (true, snd b) else (false, p)) (seq 0 P) (false, 0%nat) = (b, p) ->
        forall r, (r < P)%nat -> (p < r)%nat -> k < displ r).
      { assert (MON : forall r r', (r <= r')%nat -> (r' < P)%nat -> displ r <= displ r').
        { intros r r' H1 H2. rewrite !FD by lia. apply zsum_firstn_mono; auto. }
        assert (GEN : forall m a b0 p0 b p, fold_left (fun (b : bool * nat) p => if fst b || (k <? displ p) then (true, snd b) else (false, p)) (seq a m) (b0, p0) = (b, p) -> (a + m <= P)%nat ->
          (b0 = true -> k < displ (a - 1)%nat /\ (0 < a)%nat /\ (forall r, (p0 < r)%nat -> (r < a)%nat -> k < displ r)) -> (b0 = false -> p0 = (a - 1)%nat) ->
          forall r, (r < a + m)%nat -> (p < r)%nat -> k < displ r).
        { induction m as [|m IH]; intros a b0 p0 b p E HA H1 H2 r Hr Hpr.
          - cbn in E. injection E as <- <-. destruct b0; [destruct (H1 eq_refl) as (_ & _ & H3); apply H3; lia|]. rewrite (H2 eq_refl) in Hpr. lia.
          - cbn [seq fold_left fst snd] in E. destruct b0; cbn [orb] in E.
            + apply (IH (S a) true p0 b p E); [lia| |discriminate|lia|auto]. intros _. destruct (H1 eq_refl) as (H3 & H4 & H5). replace (S a - 1)%nat with a by lia.
              assert (k < displ a) by (pose proof (MON (a - 1)%nat a ltac:(lia) ltac:(lia)); lia). split; [auto|]. split; [lia|]. intros r' R1 R2. destruct (Nat.eq_dec r' a) as [->|]; [auto|apply H5; lia].
            + destruct (Z.ltb_spec k (displ a)).
              * apply (IH (S a) true p0 b p E); [lia| |discriminate|lia|auto]. intros _. replace (S a - 1)%nat with a by lia. split; [auto|]. split; [lia|]. intros r' R1 R2. rewrite (H2 eq_refl) in R1.
                assert (r' = a) by lia. subst; auto.
              * apply (IH (S a) false a b p E); [lia|discriminate|intros _; lia|lia|auto]. }
        intros b p E r Hr Hp. apply (GEN P 0%nat false 0%nat b p E); [lia|discriminate|intros _; reflexivity|lia|auto]. }
      destruct (fold_left _ (seq 0 P) (false, 0%nat)) as [bb pp] eqn:EP. specialize (PR bb pp eq_refl). cbn [snd].
      eexists. split; [reflexivity|]. cbn [d_gshape d_split d_locals]. split; [auto|]. split; [auto|]. split; [cbn; now rewrite map_length, ranked_length|]. unfold rep. cbn [d_gshape d_split d_locals balanced_counts]. fold c.
      split; [now rewrite map_length, ranked_length|]. split; [auto|]. split; [auto|]. split; [auto|]. split; [auto|].
      intros r y Hy. apply ranked_map in Hy as (t & Ht & -> & Hr). cbn [fst snd]. destruct (Q r t Ht) as [S0 D0]. rewrite HL in Hr.
      assert (OFF := FD r Hr). set (off := zsum (firstn r c)) in *. assert (OFFc : chunk_start [n0; n1] s r P = off) by exact OFF.
      assert (OFF1 : (r + 1 < P)%nat -> chunk_start [n0; n1] s (r + 1) P = off + nth r c 0).
      { intros H1. change (displ (r + 1)%nat = off + nth r c 0). rewrite FD by auto. replace (r + 1)%nat with (S r) by lia. unfold off. apply zsum_firstn_S. rewrite <- L. lia. }
      assert (OFFL : (r + 1)%nat = P -> off + nth r c 0 = nth s [n0; n1] 0).
      { intros H1. rewrite <- SM. unfold off. rewrite <- zsum_firstn_S by (rewrite <- L; lia). f_equal. apply firstn_all2. rewrite <- L. lia. }
      destruct (Nat.leb_spec r pp) as [LE|GT].
      * split; [exact S0|]. intros idx Hi. cbn [fill_block adat]. rewrite D0 by auto. apply in_bounds_nth in Hi as [LI Hi]. rewrite upd_length in LI, Hi. pose proof (Hi 0%nat ltac:(cbn; lia)) as H0. pose proof (Hi 1%nat ltac:(cbn; lia)) as H1. clear Hi.
        destruct idx as [|i [|j [|]]]; try discriminate. cbv beta. unfold move_axis_idx. rewrite OFFc. destruct s as [|[|s]]; [| |cbn in Hs; lia]; cbn [nth upd Nat.eqb] in *.
        -- destruct (Z.eqb_spec i (j - off)) as [E|E]; destruct (Z.eqb_spec (i + off) j) as [E'|E']; try lia; [|auto]. cbn [andb].
           replace (off <=? j) with true by lia. cbn [andb]. destruct (Nat.eqb_spec (r + 1) P) as [EP1|NP1]; cbn [negb].
           ++ specialize (OFFL EP1). cbn in OFFL. replace (j <? k) with true by (unfold k; lia). auto.
           ++ rewrite OFF1 by lia. replace (j <? off + nth r c 0) with true by lia. auto.
        -- destruct (Z.eqb_spec (i - off) j) as [E|E]; destruct (Z.eqb_spec i (j + off)) as [E'|E']; try lia; [|auto]. cbn [andb].
           replace (off <=? i) with true by lia. cbn [andb]. destruct (Nat.eqb_spec (r + 1) P) as [EP1|NP1]; cbn [negb].
           ++ specialize (OFFL EP1). cbn in OFFL. replace (i <? k) with true by (unfold k; lia). auto.
           ++ rewrite OFF1 by lia. replace (i <? off + nth r c 0) with true by lia. auto.
      * split; [exact S0|]. intros idx Hi. rewrite D0 by auto. specialize (PR r Hr GT). rewrite OFF in PR. apply in_bounds_nth in Hi as [LI Hi]. rewrite upd_length in LI, Hi. pose proof (Hi 0%nat ltac:(cbn; lia)) as H0. pose proof (Hi 1%nat ltac:(cbn; lia)) as H1. clear Hi.
        destruct idx as [|i [|j [|]]]; try discriminate. unfold move_axis_idx. destruct s as [|[|s]]; [| |cbn in Hs; lia]; cbn [nth upd] in *; unfold k in PR.
        -- destruct (Z.eqb_spec (i + off) j); [|auto]. exfalso. assert (off + nth r c 0 <= n0). { rewrite <- SM. unfold off. rewrite <- zsum_firstn_S by (rewrite <- L; lia). apply zsum_firstn_le; auto. } lia.
        -- destruct (Z.eqb_spec i (j + off)); [|auto]. exfalso. assert (off + nth r c 0 <= n1). { rewrite <- SM. unfold off. rewrite <- zsum_firstn_S by (rewrite <- L; lia). apply zsum_firstn_le; auto. } lia.
  - destruct HR as (L & N & Q). eexists. split; [reflexivity|]. cbn [d_gshape d_split d_locals nth]. split; [auto|]. split; [auto|]. split; [cbn; now rewrite map_length|]. unfold rep. cbn [d_gshape d_split d_locals balanced_counts] in *.
    split; [now rewrite map_length|]. split; [auto|]. intros t Ht. apply in_map_iff in Ht as (t0 & <- & Ht). apply F1; auto. cbn; lia.
Qed.
Print Assumptions C41_fill_diagonal.
