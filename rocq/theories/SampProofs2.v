(** What arrives, and the correction of the order. *)
From Coq Require Import Permutation.
From Verif Require Import Base BaseLemmas LayoutModel LayoutProofs OpsModel RollProofs MatmulProofs2 SampSpec SampModel SampProofs.
Open Scope nat_scope.

Lemma all_ok_fun {A B} (f : A -> res B) (g : A -> B) l : (forall x, In x l -> f x = Ok (g x)) -> all_ok (map f l) = Ok (map g l).
Proof. induction l as [|a l IH]; intros H; [auto|]. cbn [map all_ok]. rewrite H by (left; auto). cbn [bind]. rewrite IH by (intros; apply H; right; auto). auto. Qed.

Lemma NoDup_parts {A} (a b : list A) : NoDup (a ++ b) -> NoDup a /\ NoDup b.
Proof. induction a as [|x a IH]; cbn; intros H; [split; [constructor|auto]|]. inversion H as [|? ? H1 H2]; subst. destruct (IH H2). split; [constructor; auto; intros Hx; apply H1, in_or_app; auto|auto]. Qed.

Section Exchange.
Context {E : Type}.
Variables (bl : nat) (d : dist (list E)) (indices : list nat).
Let ls := lens d.
Hypothesis HN : length indices = list_sum ls.
Hypothesis HI : forall x, In x indices -> x < list_sum ls.
Hypothesis HB : Forall (Forall (fun row => length row = bl)) d.
Let mems := map (@concat E) d.
Let displs := map (psum ls) (seq 0 (length d)).
Definition row (g : nat) : list E := nth g (glob d) [].
Lemma len_ls : length ls = length d. Proof. unfold ls, lens. apply map_length. Qed.
Lemma row_len g : g < list_sum ls -> length (row g) = bl.
Proof.
  intros Hg. unfold row. assert (F : Forall (fun r => length r = bl) (glob d)). { unfold glob. apply Forall_forall. intros x Hx. apply in_concat in Hx as (l & Hl & Hx). rewrite Forall_forall in HB. specialize (HB l Hl). rewrite Forall_forall in HB. auto. }
  rewrite Forall_forall in F. apply F, nth_In. rewrite glob_length. auto.
Qed.
Lemma read_own r g : r < length d -> g < list_sum ls -> own ls g = r ->
  read_block (nth r mems []) (Z.of_nat (g * bl) - Z.of_nat (nth r displs 0 * bl)) bl = Ok (row g).
Proof.
  intros Hr Hg Ho. destruct (own_spec ls g Hg) as (_ & Hb). rewrite Ho in Hb. unfold read_block.
  assert (D : nth r displs 0 = psum ls r) by (unfold displs; apply (@nth_map_seq _ (psum ls)); auto). rewrite D.
  assert (M : nth r mems [] = concat (nth r d [])) by (unfold mems; exact (map_nth (@concat E) d [] r)). rewrite M.
  assert (LR : nth r ls 0 = length (nth r d [])) by (unfold ls, lens; exact (map_nth (@length (list E)) d [] r)).
  assert (FR : Forall (fun row => length row = bl) (nth r d [])) by (rewrite Forall_forall in HB; apply HB, nth_In; auto).
  rewrite (concat_rows_length bl) by auto. set (k := g - psum ls r).
  assert (EO : (Z.of_nat (g * bl) - Z.of_nat (psum ls r * bl) = Z.of_nat (k * bl))%Z) by (unfold k; nia).
  rewrite EO. replace ((Z.of_nat (k * bl) <? 0)%Z) with false by (symmetry; lia). cbn [orb].
  assert (KB : k * bl + bl <= length (nth r d []) * bl). { replace (k * bl + bl) with (S k * bl) by lia. apply Nat.mul_le_mono_r. unfold k. lia. }
  replace ((Z.of_nat (length (nth r d []) * bl) <? Z.of_nat (k * bl) + Z.of_nat bl)%Z) with false by (symmetry; lia).
  rewrite Nat2Z.id, concat_row by (auto; unfold k; lia). unfold row. replace g with (psum ls r + k) by (unfold k; lia). f_equal. symmetry. apply glob_nth. unfold k. lia.
Qed.
Lemma message_ok r q : r < length d -> q < length d ->
  message bl (slices ls) indices displs mems r q = Ok (concat (map row (filter (fun x => own ls x =? r) (L ls indices q)))).
Proof.
  intros Hr Hq. unfold message. rewrite send_plan by (rewrite ?len_ls; auto).
  assert (G : forall l, (forall x, In x l -> x < list_sum ls /\ own ls x = r) -> read_blocks (nth r mems []) (map (fun disp => (Z.of_nat (disp * bl) - Z.of_nat (nth r displs O * bl))%Z) l) bl = Ok (concat (map row l))).
  { induction l as [|x l IH]; intros H; [auto|]. cbn [map read_blocks]. destruct (H x (or_introl eq_refl)) as [A1 A2]. rewrite read_own by auto. cbn [bind]. rewrite IH by (intros; apply H; right; auto). auto. }
  apply G. intros x Hx. apply filter_In in Hx as [Hx Ho]. split; [eapply L_in; eauto|]. now apply Nat.eqb_eq.
Qed.
Definition arrived (q : nat) : list nat := flat_map (fun r => filter (fun x => own ls x =? r) (L ls indices q)) (seq 0 (length d)).
Lemma receive_ok q : q < length d -> receive_all bl (slices ls) indices displs mems q (seq 0 (length d)) = Ok (concat (map row (arrived q))).
Proof.
  intros Hq. unfold arrived. assert (G : forall srcs, (forall r, In r srcs -> r < length d) -> receive_all bl (slices ls) indices displs mems q srcs = Ok (concat (map row (flat_map (fun r => filter (fun x => own ls x =? r) (L ls indices q)) srcs)))).
  { induction srcs as [|r srcs IH]; intros H; [auto|]. cbn [receive_all flat_map]. rewrite message_ok by (auto; apply H; left; auto). cbn [bind].
    rewrite recv_plan by (rewrite ?len_ls; auto; apply H; left; auto). rewrite (concat_rows_length bl), map_length, Nat.eqb_refl.
    - rewrite IH by (intros; apply H; right; auto). cbn [bind]. now rewrite map_app, concat_app.
    - apply Forall_forall. intros x Hx. apply in_map_iff in Hx as (g & <- & Hg). apply filter_In in Hg as [Hg _]. apply row_len. eapply L_in; eauto. }
  apply G. intros r Hr. apply in_seq in Hr. lia.
Qed.
Lemma arrived_perm q : Permutation (arrived q) (L ls indices q).
Proof. apply perm_buckets. intros x Hx. rewrite <- len_ls. apply own_spec. eapply L_in; eauto. Qed.
Lemma L_length q : q < length d -> length (L ls indices q) = nth q ls 0.
Proof. intros Hq. unfold L. apply sub_length. rewrite HN. rewrite <- psum_S by (now rewrite len_ls). apply psum_le_sum. Qed.
Lemma rows_back (l : list nat) : (forall x, In x l -> x < list_sum ls) -> rows bl (length l) (concat (map row l)) = map row l.
Proof.
  intros H. unfold rows. apply (@nth_ext _ _ _ [] []); [now rewrite !map_length, seq_length|]. rewrite map_length, seq_length. intros k Hk.
  rewrite (@nth_map_seq _ (fun k => sub (concat (map row l)) (k * bl) bl)) by auto. apply concat_row; [|now rewrite map_length]. apply Forall_forall. intros x Hx. apply in_map_iff in Hx as (g & <- & Hg). apply row_len. auto.
Qed.
Lemma upd_fold_length {X} (f : X -> nat) (g : X -> list E) l : forall a : list (list E), length (fold_left (fun a x => upd a (f x) (g x)) l a) = length a.
Proof. induction l as [|x l IH]; intros a; [auto|]. cbn [fold_left]. rewrite IH. apply upd_length. Qed.
Lemma upd_fold_nth {X} (f : X -> nat) (g : X -> list E) v j l : forall a : list (list E), j < length a -> (forall x, In x l -> f x = j -> g x = v) -> ((exists x, In x l /\ f x = j) \/ nth j a [] = v) ->
  nth j (fold_left (fun a x => upd a (f x) (g x)) l a) [] = v.
Proof.
  induction l as [|x l IH]; intros a Hj Hv Hx; cbn [fold_left]; [destruct Hx as [(x & Hin & _)|]; [destruct Hin|auto]|].
  apply IH; [now rewrite upd_length| intros; apply Hv; [right|]; auto|]. destruct (Nat.eq_dec (f x) j) as [Ej|NE].
  - right. rewrite Ej, upd_same by auto. apply Hv; [left|]; auto.
  - destruct Hx as [(y & Hin & Ey)|Hx]; [destruct Hin as [->|Hy]; [congruence|left; eauto]|right; rewrite upd_other by auto; auto].
Qed.
Lemma position_nth x l : In x l -> position x l < length l /\ nth (position x l) l 0 = x.
Proof. induction l as [|y l IH]; intros HIn; [destruct HIn|]; destruct HIn as [->|H]; cbn [position]; [rewrite Nat.eqb_refl; cbn; split; [lia|auto]|]. destruct (Nat.eqb_spec x y) as [->|]; [cbn; split; [lia|auto]|]. destruct (IH H). cbn. split; [lia|auto]. Qed.
Lemma sorted_is_arrived q : map (fun j => nth j (L ls indices q) 0) (stable_argsort (map (holder (slices ls) 0) (L ls indices q))) = arrived q \/ length d = 0.
Proof.
  destruct (Nat.eq_dec (length d) 0) as [|HP]; [auto|left]. unfold stable_argsort, arrived. set (l := L ls indices q). rewrite map_length.
  set (keys := map (holder (slices ls) 0) l). assert (KL : forall x, In x keys -> x < length d).
  { intros x Hx. unfold keys in Hx. apply in_map_iff in Hx as (g & <- & Hg). rewrite <- len_ls. apply own_spec. eapply L_in; eauto. }
  assert (FM : forall (k : nat), map (fun j => nth j l 0) (filter (fun j => nth j keys 0 =? k) (seq 0 (length l))) = filter (fun x => own ls x =? k) l).
  { intros k. assert (G : forall l, map (fun j => nth j l 0) (filter (fun j => nth j (map (holder (slices ls) 0) l) 0 =? k) (seq 0 (length l))) = filter (fun x => own ls x =? k) l); [|apply G].
    clear. induction l as [|x l IH]; [auto|]. cbn [length seq filter map nth]. rewrite <- seq_shift. rewrite filter_map_comm. cbn [nth]. fold (own ls x).
    destruct (own ls x =? k); cbn [map nth]; rewrite map_map; cbn [nth]; rewrite IH; auto. }
  assert (MF : forall ks, map (fun j => nth j l 0) (flat_map (fun k => filter (fun j => nth j keys 0 =? k) (seq 0 (length l))) ks) = flat_map (fun k => filter (fun x => own ls x =? k) l) ks).
  { induction ks as [|k ks IH]; [auto|]. cbn [flat_map]. now rewrite map_app, FM, IH. }
  rewrite MF. assert (SM : S (list_max keys) <= length d). { assert (list_max keys <= length d - 1); [|lia]. apply list_max_le. apply Forall_forall. intros x Hx. specialize (KL x Hx). lia. }
  replace (length d) with (S (list_max keys) + (length d - S (list_max keys))) by lia. rewrite seq_app, flat_map_app. rewrite <- (app_nil_r (flat_map _ (seq 0 (S (list_max keys))))) at 1. f_equal. symmetry.
  assert (Z : forall ks, (forall k, In k ks -> list_max keys < k) -> flat_map (fun k => filter (fun x => own ls x =? k) l) ks = []).
  { induction ks as [|k ks IH]; intros H; [auto|]. cbn [flat_map]. rewrite IH by (intros; apply H; right; auto). rewrite app_nil_r.
    assert (Hk : list_max keys < k) by (apply H; left; auto). rewrite (filter_ext_in _ (fun _ => false)); [clear; induction l; auto|]. intros x Hx. apply Nat.eqb_neq. intros Ek.
    assert (In k keys) by (unfold keys; apply in_map_iff; exists x; split; [exact Ek|auto]). pose proof (proj1 (list_max_le keys (list_max keys)) (Nat.le_refl _)) as FA. rewrite Forall_forall in FA. specialize (FA _ H0). lia. }
  apply Z. intros k Hk. apply in_seq in Hk. lia.
Qed.
Lemma correct_ok q : q < length d -> NoDup indices -> correct_order (slices ls) (L ls indices q) (nth q d []) (map row (arrived q)) = map row (L ls indices q).
Proof.
  intros Hq ND. unfold correct_order. destruct (sorted_is_arrived q) as [E0|]; [|lia]. cbv zeta. rewrite E0. set (l := L ls indices q) in *. set (ar := arrived q).
  assert (G : forall (m : list nat) s a, (forall i, i < length m -> nth i m 0 = nth (s + i) ar 0 /\ s + i < length ar) ->
     fold_left (fun a p => let '(i, idx) := p in upd a (position idx l) (nth i (map row ar) [])) (combine (seq s (length m)) m) a = fold_left (fun a x => upd a (position x l) (row x)) m a).
  { induction m as [|x m IH]; intros s a H; [auto|]. cbn [length seq combine fold_left]. rewrite IH.
    - f_equal. f_equal. destruct (H 0 ltac:(cbn; lia)) as [H0 H1]. cbn in H0. rewrite Nat.add_0_r in *. rewrite (nth_indep _ [] (row 0)) by (now rewrite map_length). rewrite map_nth. now rewrite H0.
    - intros i Hi. destruct (H (S i) ltac:(cbn; lia)) as [H0 H1]. cbn [nth] in H0. rewrite Nat.add_succ_r in *. auto. }
  rewrite G by (intros i Hi; auto). clear G.
  assert (LA : length (nth q d []) = length l). { unfold l. rewrite L_length by auto. symmetry. unfold ls, lens. exact (map_nth (@length (list E)) d [] q). }
  apply (@nth_ext _ _ _ [] []); [rewrite upd_fold_length, map_length; auto|]. rewrite upd_fold_length. intros j Hj. rewrite LA in Hj.
  rewrite (nth_indep (map row l) [] (row 0)) by (now rewrite map_length). rewrite map_nth. apply upd_fold_nth; [lia| |].
  - intros x Hx Ep. apply (Permutation_in _ (arrived_perm q)) in Hx. fold l in Hx. destruct (position_nth x l Hx) as [_ En]. rewrite <- Ep, En. auto.
  - left. exists (nth j l 0). split; [apply (Permutation_in _ (Permutation_sym (arrived_perm q))); fold l; apply nth_In; auto|].
    destruct (position_nth (nth j l 0) l (nth_In _ _ Hj)) as [Hp En]. assert (NL : NoDup l).
    { unfold l, L, sub. assert (N2 : NoDup (skipn (psum ls q) indices)) by (rewrite <- (firstn_skipn (psum ls q) indices) in ND; apply NoDup_parts in ND; tauto). rewrite <- (firstn_skipn (nth q ls 0) (skipn (psum ls q) indices)) in N2. apply NoDup_parts in N2. tauto. }
    rewrite NoDup_nth in NL. apply (NL _ _ Hp Hj En).
Qed.
End Exchange.
