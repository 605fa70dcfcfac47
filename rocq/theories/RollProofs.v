(** roll, flip, rot90: proofs. *)
From Verif Require Import Base BaseLemmas LayoutModel LayoutProofs TensorSpec NdSpec TensorLemmas NdLemmas OpsModel OpsProofs2 OpsProofs3 OpsProofs4 RedistModel RedistProofs ShapeSpec ShapeModel ShapeProofs ShapeProofs3 ShapeProofs4 ShapeProofs5 ShapeProofs6 BinModel BinProofs SlabLemmas RollModel.
Close Scope Z_scope. Open Scope nat_scope.

Lemma all_some_map {A B} (f : A -> option B) (g : A -> B) l : (forall x, In x l -> f x = Some (g x)) -> all_some (map f l) = Some (map g l).
Proof. induction l as [|x t IH]; cbn; intros H; auto. rewrite H by auto. now rewrite IH by auto. Qed.
Lemma nb_exchange_ok {A} (sends : list (list (imsg A))) recvs (v : nat -> nat -> A) :
  (forall r k, r < length recvs -> k < length (nth r recvs []) -> nb_recv sends r (nth r recvs []) k = Some (v r k)) ->
  nb_exchange sends recvs = Some (map (fun r => map (v r) (seq 0 (length (nth r recvs [])))) (seq 0 (length recvs))).
Proof.
  intros H. unfold nb_exchange. apply all_some_map. intros r Hr. apply in_seq in Hr. apply all_some_map.
  intros k Hk. apply in_seq in Hk. apply H; lia.
Qed.
Lemma filter_one (f : nat -> bool) i0 n : i0 < n -> (forall i, i < n -> f i = true <-> i = i0) -> filter f (seq 0 n) = [i0].
Proof.
  intros H U. replace n with (i0 + S (n - S i0)) by lia. rewrite seq_app, filter_app. cbn.
  rewrite (proj2 (U i0 H) eq_refl).
  rewrite (proj2 (filter_nil_iff f (seq 0 i0))), (proj2 (filter_nil_iff f (seq (S i0) _))); auto.
  - intros x Hx. apply in_seq in Hx. destruct (f x) eqn:E; auto. apply U in E; lia.
  - intros x Hx. apply in_seq in Hx. destruct (f x) eqn:E; auto. apply U in E; lia.
Qed.
Lemma filter_map_comm {A B} (f : B -> bool) (g : A -> B) l : filter f (map g l) = map g (filter (fun x => f (g x)) l).
Proof. induction l as [|x t IH]; cbn; auto. destruct (f (g x)); cbn; now rewrite IH. Qed.

Lemma index_map_nth ls r i : r < length ls -> i < nth r ls 0 -> nth (psum ls r + i) (index_map ls) 0 = r.
Proof.
  intros Hr Hi. unfold index_map. rewrite flat_map_concat_map.
  set (d := map (fun r => repeat r (nth r ls 0)) (seq 0 (length ls))).
  assert (L : lens d = ls).
  { unfold lens, d. rewrite map_map. rewrite <- (map_nth_seq ls 0) at 2. apply map_ext. intros. apply repeat_length. }
  assert (E : nth r d [] = repeat r (nth r ls 0)) by (unfold d; now rewrite (@nth_map_seq _ (fun r => repeat r (nth r ls 0)))).
  change (concat d) with (glob d). rewrite <- L at 1. rewrite glob_nth by (rewrite E, repeat_length; auto). rewrite E, nth_repeat_le.
  apply Nat.ltb_lt in Hi. now rewrite Hi.
Qed.

(** the rank and local position of a global index *)
Lemma locate ls g : g < list_sum ls -> exists r i, r < length ls /\ i < nth r ls 0 /\ g = psum ls r + i.
Proof.
  revert g. induction ls as [|a ls IH]; intros g H; [rewrite list_sum_nil in H; lia|]. rewrite list_sum_cons in H.
  destruct (Nat.lt_ge_cases g a) as [L|L].
  - exists 0, g. cbn. rewrite psum_0. lia.
  - destruct (IH (g - a)) as (r & i & A & B & C); [lia|]. exists (S r), i. rewrite psum_cons. cbn. lia.
Qed.
Lemma psum_bound ls r i : r < length ls -> i < nth r ls 0 -> psum ls r + i < list_sum ls.
Proof. intros Hr Hi. pose proof (psum_S ls Hr). pose proof (psum_le_sum ls (S r)). lia. Qed.
Lemma psum_inj ls r i r' i' : r < length ls -> i < nth r ls 0 -> r' < length ls -> i' < nth r' ls 0 ->
  psum ls r + i = psum ls r' + i' -> r = r' /\ i = i'.
Proof.
  intros. destruct (Nat.lt_trichotomy r r') as [L|[->|L]]; [| split; lia |].
  - pose proof (@psum_mono ls (S r) r' L). pose proof (@psum_S ls r). lia.
  - pose proof (@psum_mono ls (S r') r L). pose proof (@psum_S ls r'). lia.
Qed.

Lemma wrap_lt i s n : 0 < n -> wrap_index i s n < n.
Proof. intros H. unfold wrap_index. pose proof (Z.mod_pos_bound (Z.of_nat i + s) (Z.of_nat n)). lia. Qed.
Lemma wrap_back i s n : i < n -> wrap_index (wrap_index i s n) (- s) n = i.
Proof.
  intros H. unfold wrap_index. pose proof (Z.mod_pos_bound (Z.of_nat i + s) (Z.of_nat n)).
  rewrite Z2Nat.id by lia. rewrite Zplus_mod_idemp_l. replace (Z.of_nat i + s + - s)%Z with (Z.of_nat i) by lia.
  rewrite Z.mod_small by lia. lia.
Qed.
Lemma wrap_fwd i s n : i < n -> wrap_index (wrap_index i (- s) n) s n = i.
Proof. intros H. pose proof (wrap_back i (- s) n H) as W. now rewrite Z.opp_involutive in W. Qed.

Section Roll.
Context {A : Type}.
Variables (d : dist A) (s : Z).
Let ls := lens d.
Let n := list_sum ls.

Lemma roll_send_eq q dflt : q < length d ->
  roll_sends d s q = map (fun j => let si := wrap_index (psum ls q + j) s n in IMsg (nth si (index_map ls) 0) si (nth (psum ls q + j) (glob d) dflt))
                         (seq 0 (nth q ls 0)).
Proof.
  intros Hq. unfold roll_sends. fold ls n. cbv zeta. unfold ls. rewrite lens_nth.
  apply (@nth_ext2 _ _ _ (IMsg 0 0 dflt)); [rewrite !map_length, combine_length, seq_length; lia|].
  intros j Hj. rewrite map_length, combine_length, seq_length in Hj.
  rewrite (nth_indep _ _ ((fun p : nat * A => let si := wrap_index (psum (lens d) q + fst p) s n in IMsg (nth si (index_map (lens d)) 0) si (snd p)) (0, dflt)))
    by (rewrite map_length, combine_length, seq_length; lia).
  rewrite map_nth with (d := (0, dflt)). rewrite combine_nth by now rewrite seq_length. rewrite seq_nth by lia. cbn [fst snd].
  rewrite (@nth_map_seq _ (fun j => let si := wrap_index (psum (lens d) q + j) s n in IMsg (nth si (index_map (lens d)) 0) si (nth (psum (lens d) q + j) (glob d) dflt))) by lia.
  cbv zeta. rewrite glob_nth by lia. reflexivity.
Qed.

Lemma roll_recv_ok r i dflt : r < length d -> i < nth r ls 0 ->
  nb_recv (map (roll_sends d s) (seq 0 (length d))) r (roll_recvs d s r) i =
  Some (nth (wrap_index (psum ls r + i) (- s) n) (glob d) dflt).
Proof.
  intros Hr Hi. assert (Lr : length ls = length d) by apply lens_length.
  pose proof (psum_bound ls r i ltac:(lia) Hi) as Hg. fold n in Hg.
  set (g := psum ls r + i) in *. pose proof (wrap_lt g (- s) n ltac:(lia)) as Hri. set (ri := wrap_index g (- s) n) in *.
  destruct (locate ls ri Hri) as (q & j & Hq & Hj & E).
  assert (ER : nth i (roll_recvs d s r) (0, 0) = (q, g)).
  { unfold roll_recvs. fold ls n. cbv zeta. rewrite (@nth_map_seq _ (fun i => (nth (wrap_index (psum ls r + i) (- s) n) (index_map ls) 0, psum ls r + i))).
    - fold g. fold ri. rewrite E, index_map_nth by auto. reflexivity.
    - unfold ls in Hi. rewrite lens_nth in Hi. auto. }
  unfold nb_recv. rewrite ER.
  assert (Z0 : filter (fun x => Nat.eqb (fst x) q && Nat.eqb (snd x) g) (firstn i (roll_recvs d s r)) = []).
  { apply filter_nil_iff. intros x Hx. unfold roll_recvs in Hx. fold ls n in Hx. cbv zeta in Hx.
    rewrite firstn_map in Hx. apply in_map_iff in Hx. destruct Hx as (k & <- & Hk). cbn [fst snd].
    assert (k < i). { rewrite firstn_seq' in Hk. apply in_seq in Hk. lia. }
    destruct (Nat.eqb_spec (psum ls r + k) g); [unfold g in *; lia|]. apply andb_false_r. }
  rewrite Z0. cbn [length]. unfold nb_match.
  rewrite (@nth_map_seq _ (roll_sends d s)) by lia. rewrite (roll_send_eq q dflt) by lia. cbv zeta.
  rewrite filter_map_comm. cbn [i_dst i_tag].
  rewrite (filter_one _ j); [|auto|].
  - cbn. now rewrite <- E.
  - intros k Hk. rewrite andb_true_iff, !Nat.eqb_eq. split.
    + intros [_ W]. assert (psum ls q + k = ri). { unfold ri. rewrite <- W. rewrite wrap_back; auto. now apply psum_bound. } lia.
    + intros ->. rewrite <- E. unfold ri. rewrite wrap_fwd by auto. split; auto. unfold g. apply index_map_nth; lia.
Qed.
End Roll.

Lemma roll_split_ok {A} (d : dist A) (s : Z) (dflt : A) : exists d',
  roll_split d s = Some d' /\ lens d' = lens d /\
  forall g, g < length (glob d) -> nth g (glob d') dflt = nth (wrap_index g (- s) (length (glob d))) (glob d) dflt.
Proof.
  unfold roll_split.
  rewrite (@nb_exchange_ok _ _ _ (fun r i => nth (wrap_index (psum (lens d) r + i) (- s) (list_sum (lens d))) (glob d) dflt)).
  - rewrite map_length, seq_length. eexists. split; [reflexivity|].
    set (d' := map _ _).
    assert (LR : forall r, r < length d -> length (nth r (map (roll_recvs d s) (seq 0 (length d))) []) = length (nth r d [])).
    { intros r Hr. rewrite (@nth_map_seq _ (roll_recvs d s)) by auto. unfold roll_recvs. now rewrite map_length, seq_length. }
    assert (EL : lens d' = lens d).
    { unfold lens, d'. rewrite map_map. rewrite <- (map_nth_seq d []) at 2. rewrite map_map. apply map_seq_ext. intros r Hr.
      rewrite map_length, seq_length. auto. }
    split; [auto|]. intros g Hg. rewrite glob_length in Hg.
    destruct (locate _ _ Hg) as (r & i & Hr & Hi & ->). rewrite lens_length in Hr. rewrite lens_nth in Hi.
    rewrite <- EL at 1. unfold d'. rewrite glob_nth.
    2:{ rewrite <- lens_nth. fold d'. rewrite EL, lens_nth. auto. }
    rewrite (@nth_map_seq _ (fun r => map _ (seq 0 _))) by auto. rewrite LR by auto.
    rewrite (@nth_map_seq _ (fun i => nth (wrap_index (psum (lens d) r + i) (- s) (list_sum (lens d))) (glob d) dflt)) by auto.
    now rewrite glob_length.
  - intros r k Hr Hk. rewrite map_length, seq_length in Hr. rewrite (@nth_map_seq _ (roll_recvs d s)) in * by auto.
    apply roll_recv_ok; auto. unfold roll_recvs in Hk. rewrite map_length, seq_length in Hk. now rewrite lens_nth.
Qed.
