(** Lemmas for the single-process collectives. *)
From Verif Require Import Base BaseLemmas CollModel.

Section P.
Context {V : Type}.
Variable junk : V.
Notation mem := (@mem V).
Notation elems := (elems junk).
Notation read := (read junk).
Notation copy_into := (copy_into junk).

Definition cell (m : mem) (sto p : nat) : V := nth p (nth sto m []) junk.
Definition fits (m : mem) (t : view) : Prop :=
  v_sto t < length m /\ length (v_stride t) = length (v_shape t) /\
  forall p, In p (positions t) -> p < length (nth (v_sto t) m []).
Definition apart (s r : view) : Prop :=
  v_sto s <> v_sto r \/ forall p, In p (positions s) -> ~ In p (positions r).

Lemma in_indices_len sh : forall idx, In idx (indices sh) -> length idx = length sh.
Proof.
  induction sh as [|n sh IH]; intros idx H; cbn [indices] in H.
  - destruct H as [<-|[]]; reflexivity.
  - apply in_flat_map in H. destruct H as (i & _ & H). apply in_map_iff in H. destruct H as (x & <- & H). cbn. f_equal. auto.
Qed.
Lemma bc_ok_refl l : bc_ok l l = true.
Proof. induction l as [|a l IH]; cbn; [reflexivity|]. now rewrite Nat.eqb_refl. Qed.
Lemma bc_idx_same sh : forall idx, In idx (indices sh) -> bc_idx sh idx = idx.
Proof.
  intros idx H. unfold bc_idx. rewrite (in_indices_len _ _ H), Nat.sub_diag. cbn [skipn]. revert idx H.
  induction sh as [|n sh IH]; intros idx H; cbn [indices] in H.
  - destruct H as [<-|[]]; reflexivity.
  - apply in_flat_map in H. destruct H as (i & Hi & H). apply in_map_iff in H. destruct H as (x & <- & H).
    apply in_seq in Hi. cbn [combine map fst snd]. rewrite IH by auto. f_equal. destruct (Nat.eqb_spec n 1); lia.
Qed.

Lemma write_len l : forall s : list V, length (write_all s l) = length s.
Proof. induction l as [|p l IH]; intros s; [reflexivity|]. change (length (write_all (upd s (fst p) (snd p)) l) = length s). rewrite IH. apply upd_length. Qed.
Lemma nth_upd_ne (l : list V) k i v d : i <> k -> nth i (upd l k v) d = nth i l d.
Proof. revert k i; induction l as [|a l IH]; intros [|k] [|i] H; cbn; auto; lia. Qed.
Lemma nth_upd_at {A} (l : list A) k v d : k < length l -> nth k (upd l k v) d = v.
Proof. revert k; induction l as [|a l IH]; intros [|k] H; cbn in *; auto; try lia. apply IH; lia. Qed.
Lemma nth_upd_ne' {A} (l : list A) k i v d : i <> k -> nth i (upd l k v) d = nth i l d.
Proof. revert k i; induction l as [|a l IH]; intros [|k] [|i] H; cbn; auto; lia. Qed.
Lemma write_out l : forall (s : list V) p, ~ In p (map fst l) -> nth p (write_all s l) junk = nth p s junk.
Proof.
  induction l as [|[q v] l IH]; intros s p H; [reflexivity|]. cbn [map fst] in H. cbn [write_all fold_left fst snd].
  fold (write_all (upd s q v) l). rewrite IH by (intros X; apply H; now right). apply nth_upd_ne. intros ->. apply H; now left.
Qed.
Lemma write_in {A} (f : A -> nat) (g : A -> V) l : NoDup (map f l) -> forall s x, In x l -> f x < length s ->
  nth (f x) (write_all s (map (fun x => (f x, g x)) l)) junk = g x.
Proof.
  induction l as [|a l IH]; intros Hn s x Hx Hl; [contradiction|]. cbn [map] in *. inversion Hn as [|? ? Ha Hn']; subst.
  cbn [write_all fold_left fst snd]. fold (write_all (upd s (f a) (g a)) (map (fun x => (f x, g x)) l)).
  destruct Hx as [->|Hx].
  - rewrite write_out; [now apply nth_upd_at|]. rewrite map_map. cbn [fst]. exact Ha.
  - apply IH; auto. now rewrite upd_length.
Qed.

Lemma copy_same m s r : fits m s -> fits m r -> v_shape s = v_shape r -> NoDup (positions r) -> apart s r ->
  exists m', copy_into m r s = Ok m' /\ elems m' r = elems m s /\ elems m' s = elems m s /\
   (forall sto p, sto <> v_sto r \/ ~ In p (positions r) -> cell m' sto p = cell m sto p) /\ length m' = length m.
Proof.
  intros (Fs1 & Fs2 & Fs3) (Fr1 & Fr2 & Fr3) Hsh Hn Ha. unfold copy_into. rewrite Hsh, bc_ok_refl.
  eexists. split; [reflexivity|].
  set (vals := map _ _).
  assert (Ev : vals = map (fun idx => (pos_at r idx, read m s idx)) (indices (v_shape r))).
  { unfold vals. apply map_ext_in. intros idx H. now rewrite bc_idx_same. }
  rewrite Ev. clear vals Ev. set (vals := map (fun idx => (pos_at r idx, read m s idx)) (indices (v_shape r))).
  assert (Mf : map fst vals = positions r) by (unfold vals, positions; now rewrite map_map).
  set (m' := upd m (v_sto r) (write_all (nth (v_sto r) m []) vals)).
  assert (Out : forall sto p, sto <> v_sto r \/ ~ In p (positions r) -> cell m' sto p = cell m sto p).
  { intros sto p H. unfold cell, m'. destruct (Nat.eq_dec sto (v_sto r)) as [->|N].
    - rewrite nth_upd_at by auto. apply write_out. rewrite Mf. destruct H; [congruence|auto].
    - now rewrite nth_upd_ne'. }
  repeat split.
  - unfold elems. rewrite Hsh. apply map_ext_in. intros idx H. unfold CollModel.read at 1. unfold m'. rewrite nth_upd_at by auto.
    unfold vals. apply (write_in (pos_at r) (read m s)); auto. apply Fr3. unfold positions. now apply in_map.
  - unfold elems. apply map_ext_in. intros idx H. apply Out. destruct Ha as [Ha|Ha]; [now left|]. right. apply Ha.
    unfold positions. now apply in_map.
  - exact Out.
  - unfold m'. apply upd_length.
Qed.

(** contiguous tensors *)
Lemma prod_seq n k : map (fun i => i) (seq 0 (n * k)) = flat_map (fun i => map (fun j => i * k + j) (seq 0 k)) (seq 0 n).
Proof.
  rewrite map_id. induction n as [|n IH]; [reflexivity|]. rewrite seq_S, flat_map_app, <- IH. cbn [flat_map plus]. rewrite app_nil_r.
  replace (S n * k) with (n * k + k) by lia. rewrite seq_app. f_equal. cbn [plus].
  clear. generalize (n * k) as a. intros a. replace (seq a k) with (map (fun j => a + j) (seq 0 k)); [reflexivity|].
  clear. induction k as [|k IH]; [reflexivity|]. rewrite !seq_S, map_app, IH. reflexivity.
Qed.
Lemma dot_cstride sh : map (fun idx => dot idx (cstride sh)) (indices sh) = seq 0 (fold_right Nat.mul 1 sh).
Proof.
  induction sh as [|n sh IH]; [reflexivity|]. cbn [indices cstride fold_right].
  rewrite <- (map_id (seq 0 (n * fold_right Nat.mul 1 sh))), prod_seq.
  rewrite flat_map_concat_map, concat_map, map_map, flat_map_concat_map. f_equal. apply map_ext. intros i.
  rewrite map_map. cbn [dot]. rewrite <- IH, map_map. reflexivity.
Qed.
Lemma indices_len sh : length (indices sh) = fold_right Nat.mul 1 sh.
Proof. rewrite <- (map_length (fun idx => dot idx (cstride sh))), dot_cstride. apply seq_length. Qed.
Lemma cstride_len sh : length (cstride sh) = length sh.
Proof. induction sh; cbn; auto. Qed.
Lemma map_nth_fun {A} (l : list A) d : map (fun i => nth i l d) (seq 0 (length l)) = l.
Proof. apply map_nth_seq. Qed.

Lemma elems_app m t x : v_sto t < length m -> elems (m ++ [x]) t = elems m t.
Proof. intros H. unfold elems, CollModel.read. apply map_ext. intros idx. now rewrite app_nth1. Qed.
Lemma fits_app m t x : fits m t -> fits (m ++ [x]) t.
Proof. intros (A & B & C). split; [rewrite app_length; lia|]. split; auto. intros p Hp. rewrite app_nth1 by auto. auto. Qed.

Lemma fresh_elems m sh (l : list V) : length l = fold_right Nat.mul 1 sh ->
  elems (m ++ [l]) (View (length m) 0 sh (cstride sh)) = l.
Proof.
  intros H. unfold elems, CollModel.read, pos_at. cbn [v_sto v_off v_shape v_stride plus]. rewrite app_nth2, Nat.sub_diag by lia. cbn [nth].
  rewrite <- (map_map (fun idx => dot idx (cstride sh)) (fun p => nth p l junk)), dot_cstride, <- H. apply map_nth_seq.
Qed.
Lemma fresh_positions k sh : positions (View k 0 sh (cstride sh)) = seq 0 (fold_right Nat.mul 1 sh).
Proof. unfold positions, pos_at. cbn. apply dot_cstride. Qed.
Lemma fresh_fits m sh (l : list V) : length l = fold_right Nat.mul 1 sh -> fits (m ++ [l]) (View (length m) 0 sh (cstride sh)).
Proof.
  intros H. repeat split; cbn [v_sto v_shape v_stride]; [rewrite app_length; cbn; lia|apply cstride_len|].
  intros p. rewrite fresh_positions, in_seq, app_nth2, Nat.sub_diag by (cbn; lia). cbn [nth]. lia.
Qed.

Lemma make_contiguous_spec m t : fits m t -> let (m', t') := make_contiguous junk m t in
  elems m' t' = elems m t /\ fits m' t' /\ v_shape t' = v_shape t /\
  (NoDup (positions t) -> NoDup (positions t')) /\
  (forall u, fits m u -> fits m' u /\ elems m' u = elems m u /\ (apart u t -> apart u t')) /\
  (t' = t \/ (v_sto t' = length m /\ length m' = S (length m))).
Proof.
  intros F. unfold make_contiguous. destruct (is_contiguous t).
  - repeat split; auto; try apply F; try apply H.
  - assert (L : length (elems m t) = fold_right Nat.mul 1 (v_shape t)) by (unfold elems; rewrite map_length; apply indices_len).
    split; [now apply fresh_elems|]. split; [now apply fresh_fits|]. split; [reflexivity|]. split; [|split].
    + intros _. rewrite fresh_positions. apply seq_NoDup.
    + intros u Fu. split; [now apply fits_app|]. split; [apply elems_app; apply Fu|].
      intros _. left. destruct Fu. cbn [v_sto]. lia.
    + right. split; [reflexivity|]. rewrite app_length; cbn; lia.
Qed.
End P.
