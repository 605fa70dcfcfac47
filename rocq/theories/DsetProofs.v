(** The ring exchange keeps all rows. *)
From Coq Require Import Permutation.
From Verif Require Import Base BaseLemmas LayoutModel LayoutProofs OpsModel MatmulProofs2 SampSpec SampProofs2 SampProps DsetModel.
Open Scope nat_scope.

Lemma perm_concat {A} (f g : nat -> list A) qs : (forall q, In q qs -> Permutation (f q) (g q)) -> Permutation (concat (map f qs)) (concat (map g qs)).
Proof. induction qs as [|q qs IH]; intros H; [apply Permutation_refl|]. cbn [map concat]. apply Permutation_app; [apply H; left; auto|apply IH; intros; apply H; right; auto]. Qed.
Lemma perm_concat_app {A} (f g : nat -> list A) qs : Permutation (concat (map (fun q => f q ++ g q) qs)) (concat (map f qs) ++ concat (map g qs)).
Proof.
  induction qs as [|q qs IH]; [apply Permutation_refl|]. cbn [map concat]. rewrite <- !app_assoc. apply Permutation_app_head. eapply Permutation_trans; [apply Permutation_app_head, IH|]. rewrite !app_assoc. apply Permutation_app_tail, Permutation_app_comm.
Qed.
Lemma perm_concat_map {A} (f : nat -> list A) qs rs : Permutation qs rs -> Permutation (concat (map f qs)) (concat (map f rs)).
Proof. induction 1; cbn [map concat]; [apply Permutation_refl|apply Permutation_app_head; auto|rewrite !app_assoc; apply Permutation_app_tail, Permutation_app_comm|eapply Permutation_trans; eauto]. Qed.
Lemma ring_perm P : 0 < P -> Permutation (map (ring_src P) (seq 0 P)) (seq 0 P).
Proof.
  intros HP. destruct P as [|n]; [lia|]. cbn [seq map]. unfold ring_src at 1. cbn [Nat.eqb]. replace (S n - 1) with n by lia.
  assert (E : map (ring_src (S n)) (seq 1 n) = seq 0 n). { rewrite <- seq_shift, map_map. rewrite <- (map_id (seq 0 n)) at 2. apply map_ext. intros k. unfold ring_src. cbn [Nat.eqb]. lia. }
  rewrite E. change (0 :: seq 1 n) with (seq 0 (S n)). rewrite seq_S. cbn [Nat.add]. apply Permutation_cons_append.
Qed.
Lemma ring_lt P r : 0 < P -> r < P -> ring_src P r < P.
Proof. intros. unfold ring_src. destruct (Nat.eqb_spec r 0); lia. Qed.
Lemma nth_seq_concat {A} (d : list (list A)) : concat (map (fun q => nth q d []) (seq 0 (length d))) = concat d.
Proof. f_equal. induction d as [|x d IH]; [auto|]. cbn [length seq map nth]. f_equal. rewrite <- seq_shift, map_map. exact IH. Qed.
(** exchanging pieces around the ring *)
Lemma ring_keeps {A} (f g : nat -> list A) P : 0 < P -> Permutation (concat (map (fun r => f (ring_src P r) ++ g r) (seq 0 P))) (concat (map (fun r => f r ++ g r) (seq 0 P))).
Proof.
  intros HP. eapply Permutation_trans; [apply (perm_concat_app (fun r => f (ring_src P r)) g)|]. eapply Permutation_trans; [|apply Permutation_sym, perm_concat_app]. apply Permutation_app_tail.
  rewrite <- (map_map (ring_src P) f). apply perm_concat_map, ring_perm. auto.
Qed.
Lemma reorder_perm {A} (dflt : A) l p : is_perm (length l) p -> Permutation (map (fun k => nth k l dflt) p) l.
Proof. intros H. eapply Permutation_trans; [apply Permutation_map; exact H|]. apply Permutation_refl'. apply nth_seq_id. Qed.
Lemma reorder_first {A} (dflt : A) l n p : n <= length l -> is_perm n p -> Permutation (map (fun k => nth k l dflt) p) (firstn n l).
Proof.
  intros Hn H. rewrite (map_ext_in _ (fun k => nth k (firstn n l) dflt)).
  - apply reorder_perm. rewrite firstn_length, Nat.min_l by auto. auto.
  - intros k Hk. apply (Permutation_in _ H), in_seq in Hk. rewrite <- (firstn_skipn n l) at 1. rewrite app_nth1; [auto|]. rewrite firstn_length. lia.
Qed.
Lemma perm_forallb n p m : is_perm n p -> n <= m -> forallb (fun k => k <? m) p = true.
Proof. intros H Hm. apply forallb_forall. intros k Hk. apply (Permutation_in _ H), in_seq in Hk. apply Nat.ltb_lt. lia. Qed.

Section Keep.
Context {A : Type} (dflt : A).
Variables (mn half P : nat).
Hypothesis HP : 0 < P.
Hypothesis HH : half <= mn.
Definition good (a : attr (A := A)) : Prop := length (ht a) = P /\ length (data a) = P /\ forall r, r < P -> nth r (data a) [] = firstn mn (nth r (ht a) []) /\ mn <= length (nth r (ht a) []).
Lemma exchange_ok a : good a -> exchange half a = Ok (map (fun r => firstn half (nth (ring_src P r) (ht a) [])) (seq 0 P)).
Proof.
  intros (L1 & L2 & H). unfold exchange. rewrite L2. apply all_ok_fun. intros r Hr. apply in_seq in Hr. unfold received. rewrite L2.
  destruct (H r ltac:(lia)) as [D1 M1]. destruct (H _ (ring_lt P r HP ltac:(lia))) as [D2 M2]. rewrite D1, D2. rewrite !firstn_firstn, !(Nat.min_l half mn) by lia. rewrite !firstn_length.
  destruct (Nat.eqb_spec (Nat.min half (length (nth (ring_src P r) (ht a) []))) (Nat.min half (length (nth r (ht a) [])))); [auto|lia].
Qed.
Definition mixed (a : attr (A := A)) r := firstn half (nth (ring_src P r) (ht a) []) ++ skipn half (nth r (ht a) []).
Lemma mixed_length a r : good a -> r < P -> length (mixed a r) = length (nth r (ht a) []).
Proof. intros (L1 & L2 & H) Hr. unfold mixed. destruct (H r Hr) as [_ M1]. destruct (H _ (ring_lt P r HP Hr)) as [_ M2]. rewrite app_length, firstn_length, skipn_length. lia. Qed.
Lemma on_ranks_ok a prms ns : good a -> (forall r, r < P -> is_perm (ns r) (nth r prms []) /\ ns r <= length (nth r (ht a) [])) ->
  let h r := map (fun k => nth k (mixed a r) dflt) (nth r prms []) in
  on_ranks dflt mn half a (map (fun r => firstn half (nth (ring_src P r) (ht a) [])) (seq 0 P)) prms = Ok (mk_attr (map h (seq 0 P)) (map (fun r => firstn mn (h r)) (seq 0 P))).
Proof.
  intros HG HPm h. pose proof HG as (L1 & L2 & H). unfold on_ranks. rewrite L1. rewrite (all_ok_fun _ (fun r => (h r, firstn mn (h r)))).
  - cbn [bind]. now rewrite !map_map.
  - intros r Hr. apply in_seq in Hr. rewrite (@nth_map_seq _ (fun r => firstn half (nth (ring_src P r) (ht a) []))) by lia. unfold insert_shuffle.
    destruct (H r ltac:(lia)) as [_ M1]. destruct (H _ (ring_lt P r HP ltac:(lia))) as [_ M2]. rewrite !firstn_length, !Nat.min_l, Nat.eqb_refl by lia. cbv zeta. fold (mixed a r).
    destruct (HPm r ltac:(lia)) as [PM LE]. rewrite (perm_forallb (ns r) _ (length (mixed a r))); [reflexivity|auto|]. rewrite mixed_length by (auto; lia). auto.
Qed.
Lemma shuffle_keeps a prms : good a -> (forall r, r < P -> is_perm (length (nth r (ht a) [])) (nth r prms [])) ->
  exists a', shuffle dflt mn half prms a = Ok a' /\ good a' /\ lens (ht a') = lens (ht a) /\ Permutation (glob (ht a')) (glob (ht a)).
Proof.
  intros HG HPm. pose proof HG as (L1 & L2 & H). unfold shuffle. rewrite exchange_ok by auto. cbn [bind]. rewrite (on_ranks_ok a prms (fun r => length (nth r (ht a) []))) by (auto; intros; split; auto).
  set (h := fun r => map (fun k => nth k (mixed a r) dflt) (nth r prms [])). eexists. split; [reflexivity|]. cbn [ht data].
  assert (HR : forall r, r < P -> Permutation (h r) (mixed a r)) by (intros r Hr; apply reorder_perm; rewrite mixed_length by auto; auto).
  assert (HL : forall r, r < P -> length (h r) = length (nth r (ht a) [])) by (intros r Hr; rewrite (Permutation_length (HR r Hr)); apply mixed_length; auto).
  split; [|split].
  - split; [cbn [ht]; now rewrite map_length, seq_length|]. split; [cbn [data]; now rewrite map_length, seq_length|]. intros r Hr. cbn [ht data]. rewrite (@nth_map_seq _ (fun r => firstn mn (h r))), (@nth_map_seq _ h) by auto. split; [auto|]. rewrite HL by auto. apply H; auto.
  - apply (@nth_ext _ _ _ 0 0); [unfold lens; rewrite !map_length, seq_length; auto|]. unfold lens at 1. rewrite !map_length, seq_length. intros r Hr. unfold lens at 1. rewrite map_map, (@nth_map_seq _ (fun r => length (h r))) by auto. rewrite HL by auto. symmetry. exact (map_nth (@length A) (ht a) [] r).
  - unfold glob. eapply Permutation_trans; [apply (perm_concat h (mixed a)); intros q Hq; apply in_seq in Hq; apply HR; lia|]. unfold mixed.
    eapply Permutation_trans; [apply (ring_keeps (fun q => firstn half (nth q (ht a) [])) (fun q => skipn half (nth q (ht a) []))); auto|].
    rewrite (map_ext _ (fun q => nth q (ht a) [])) by (intros; apply firstn_skipn). rewrite <- L1, nth_seq_concat. apply Permutation_refl.
Qed.
Lemma ishuffle_keeps a prms : good a -> (forall r, r < P -> is_perm mn (nth r prms [])) ->
  exists news a', exchange half a = Ok news /\ on_ranks dflt mn half a news prms = Ok a' /\ good a' /\ Permutation (glob (data a')) (glob (data a)).
Proof.
  intros HG HPm. pose proof HG as (L1 & L2 & H). eexists; eexists. split; [now apply exchange_ok|]. split; [apply (on_ranks_ok a prms (fun _ => mn)); auto; intros r Hr; split; [auto|apply H; auto]|].
  set (h := fun r => map (fun k => nth k (mixed a r) dflt) (nth r prms [])).
  assert (HR : forall r, r < P -> Permutation (h r) (firstn mn (mixed a r))) by (intros r Hr; apply reorder_first; [rewrite mixed_length by auto; apply H; auto|auto]).
  assert (HL : forall r, r < P -> length (h r) = mn). { intros r Hr. rewrite (Permutation_length (HR r Hr)), firstn_length, mixed_length by auto. destruct (H r Hr). lia. }
  split.
  - split; [cbn [ht]; now rewrite map_length, seq_length|]. split; [cbn [data]; now rewrite map_length, seq_length|]. intros r Hr. cbn [ht data]. rewrite (@nth_map_seq _ (fun r => firstn mn (h r))), (@nth_map_seq _ h) by auto. split; [auto|]. rewrite HL by auto. lia.
  - cbn [data]. unfold glob. eapply Permutation_trans.
    + apply (perm_concat _ (fun r => firstn half (firstn mn (nth (ring_src P r) (ht a) [])) ++ skipn half (firstn mn (nth r (ht a) [])))). intros r Hr. apply in_seq in Hr. rewrite firstn_all2 by (rewrite HL by lia; lia).
      eapply Permutation_trans; [apply HR; lia|]. unfold mixed. match goal with |- Permutation ?x ?y => replace x with y; [apply Permutation_refl|symmetry] end. destruct (H r ltac:(lia)) as [_ M1]. destruct (H _ (ring_lt P r HP ltac:(lia))) as [_ M2].
      rewrite firstn_app, firstn_length. rewrite firstn_firstn, Nat.min_r by lia. rewrite firstn_firstn, (Nat.min_l half mn) by lia. f_equal. rewrite Nat.min_l by lia. rewrite firstn_skipn_comm. do 2 f_equal. lia.
    + eapply Permutation_trans; [apply (ring_keeps (fun q => firstn half (firstn mn (nth q (ht a) []))) (fun q => skipn half (firstn mn (nth q (ht a) [])))); auto|].
      rewrite (map_ext _ (fun q => firstn mn (nth q (ht a) []))) by (intros; apply firstn_skipn).
      rewrite (map_ext_in _ (fun q => nth q (data a) [])) by (intros q Hq; apply in_seq in Hq; symmetry; apply H; lia). rewrite <- L2, nth_seq_concat. apply Permutation_refl.
Qed.
End Keep.

(** all operations only move rows, so they commute with a function applied to every row *)
Section Natural.
Context {A B : Type} (f : A -> B) (dflt : A).
Definition dmap (d : dist A) : dist B := map (map f) d.
Definition amap (a : attr (A := A)) : attr (A := B) := mk_attr (dmap (ht a)) (dmap (data a)).
Definition rmap {X Y} (g : X -> Y) (m : res X) : res Y := match m with Ok x => Ok (g x) | Err e => Err e end.
Lemma dmap_nth d r : nth r (dmap d) [] = map f (nth r d []).
Proof. exact (map_nth (map f) d [] r). Qed.
Lemma all_ok_rmap {I X Y} (g : X -> Y) (F : I -> res X) (F' : I -> res Y) l : (forall i, F' i = rmap g (F i)) -> all_ok (map F' l) = rmap (map g) (all_ok (map F l)).
Proof. intros H. induction l as [|i l IH]; [auto|]. cbn [map all_ok]. rewrite H, IH. destruct (F i); cbn; [|auto]. destruct (all_ok (map F l)); auto. Qed.
Lemma received_nat half d r : received half (dmap d) r = rmap (map f) (received half d r).
Proof.
  unfold received. assert (L : length (dmap d) = length d) by apply map_length. rewrite L, !dmap_nth. rewrite !firstn_map, !map_length. destruct (_ =? _); reflexivity.
Qed.
Lemma exchange_nat half a : exchange half (amap a) = rmap dmap (exchange half a).
Proof. unfold exchange, amap. cbn [data]. assert (L : length (dmap (data a)) = length (data a)) by apply map_length. rewrite L. apply all_ok_rmap. intros r. apply received_nat. Qed.
Lemma insert_nat mn half h new prm : insert_shuffle (f dflt) mn half (map f h) (map f new) prm = rmap (fun p => (map f (fst p), map f (snd p))) (insert_shuffle dflt mn half h new prm).
Proof.
  unfold insert_shuffle. rewrite firstn_map, !map_length. destruct (_ =? _); [|reflexivity]. cbv zeta. rewrite skipn_map, <- map_app, map_length. destruct (forallb _ prm); [|reflexivity]. cbn [rmap fst snd].
  rewrite <- firstn_map, map_map. rewrite (map_ext (fun k => nth k (map f (new ++ skipn half h)) (f dflt)) (fun k => f (nth k (new ++ skipn half h) dflt))) by (intros; apply map_nth). reflexivity.
Qed.
Lemma on_ranks_nat mn half a news prms : on_ranks (f dflt) mn half (amap a) (dmap news) prms = rmap amap (on_ranks dflt mn half a news prms).
Proof.
  unfold on_ranks. assert (L : length (ht (amap a)) = length (ht a)) by apply map_length. rewrite L.
  rewrite (all_ok_rmap (fun p => (map f (fst p), map f (snd p))) (fun r => insert_shuffle dflt mn half (nth r (ht a) []) (nth r news []) (nth r prms []))).
  - destruct (all_ok _) as [out|]; [|reflexivity]. cbn [rmap bind]. unfold amap, dmap. cbn [ht data]. now rewrite !map_map.
  - intros r. unfold amap. cbn [ht]. rewrite !dmap_nth. apply insert_nat.
Qed.
Lemma shuffle_nat mn half prms a : shuffle (f dflt) mn half prms (amap a) = rmap amap (shuffle dflt mn half prms a).
Proof. unfold shuffle. rewrite exchange_nat. destruct (exchange half a) as [news|]; [|reflexivity]. cbn [rmap bind]. apply on_ranks_nat. Qed.
Definition lmap (s : loader (A := A)) : loader (A := B) := mk_loader (amap (att s)) (first s) (option_map dmap (rcv s)).
Lemma blocking_nat mn half test prms s : iter_blocking (f dflt) mn half test prms (lmap s) = rmap lmap (iter_blocking dflt mn half test prms s).
Proof. unfold iter_blocking. cbn [lmap first att rcv]. destruct (first s); [reflexivity|]. destruct test; [reflexivity|]. rewrite shuffle_nat. destruct (shuffle _ _ _ _ _); reflexivity. Qed.
Lemma ishuffle_nat mn half test last prms s : iter_ishuffle (f dflt) mn half test last prms (lmap s) = rmap lmap (iter_ishuffle dflt mn half test last prms s).
Proof.
  unfold iter_ishuffle. destruct (last || test).
  - cbn [bind lmap first att rcv]. destruct (first s); [reflexivity|]. destruct (rcv s) as [news|]; [|reflexivity]. cbn [option_map]. rewrite on_ranks_nat. destruct (on_ranks _ _ _ _ _ _); reflexivity.
  - cbn [lmap first att rcv]. rewrite exchange_nat. destruct (exchange half (att s)) as [news|]; [|reflexivity]. cbn [rmap bind first att rcv]. destruct (first s); [reflexivity|]. rewrite on_ranks_nat. destruct (on_ranks _ _ _ _ _ _); reflexivity.
Qed.
Lemma epochs_nat step step' ps : (forall p s, step' p (lmap s) = rmap lmap (step p s)) -> forall s, epochs step' ps (lmap s) = rmap lmap (epochs step ps s).
Proof. intros H. induction ps as [|p ps IH]; intros s; [reflexivity|]. cbn [epochs]. rewrite H. destruct (step p s) as [s'|]; [|reflexivity]. cbn [rmap bind]. apply IH. Qed.
Lemma new_dataset_nat d : new_dataset (dmap d) = amap (new_dataset d).
Proof.
  unfold new_dataset, amap. cbn [ht data]. f_equal. assert (E : min_split (dmap d) = min_split d). { unfold min_split. assert (L : length (dmap d) = length d) by apply map_length. rewrite L. f_equal. f_equal. unfold lens, dmap. rewrite map_map. apply map_ext. intros; apply map_length. }
  rewrite E. unfold dmap. rewrite !map_map. apply map_ext. intros; apply firstn_map.
Qed.
End Natural.
