(** Proofs about cumulative operations. *)
From Verif Require Import Base BaseLemmas LayoutModel NdSpec TensorSpec OpsModel.
Open Scope nat_scope.

Section Cum.
Variables (A : Type) (op : A -> A -> A) (e : A).
Hypothesis op_e : forall x, op e x = x.
Hypothesis op_comm : forall x y, op x y = op y x.
Hypothesis op_assoc : forall x y z, op x (op y z) = op (op x y) z.

Lemma lscan_from_eq acc l : lscan_from op acc l = scan_from op acc l.
Proof. revert acc; induction l as [|x l IH]; intros acc; simpl; auto; now rewrite IH. Qed.
Lemma lscan_scan l : lscan op l = scan_from op e l.
Proof. destruct l as [|x l]; simpl; auto. now rewrite lscan_from_eq, op_e. Qed.
Lemma scan_scan_e l : scan op l = scan_from op e l.
Proof. destruct l as [|x l]; simpl; auto. now rewrite op_e. Qed.

Lemma scan_from_length acc l : length (scan_from op acc l) = length l.
Proof. revert acc; induction l; intros; simpl; auto. Qed.
Lemma scan_from_shift a acc l : map (fun x => op x a) (scan_from op acc l) = scan_from op (op a acc) l.
Proof.
  revert acc; induction l as [|x l IH]; intros acc; simpl; auto. f_equal.
  - now rewrite op_comm, op_assoc.
  - rewrite IH. now rewrite op_assoc.
Qed.
Lemma scan_from_app acc l1 l2 :
  scan_from op acc (l1 ++ l2) = scan_from op acc l1 ++ scan_from op (fold_left op l1 acc) l2.
Proof. revert acc; induction l1 as [|x l1 IH]; intros acc; simpl; auto. now rewrite IH. Qed.
Lemma last_scan_from acc l d : last (scan_from op acc l) d = match l with [] => d | _ => fold_left op l acc end.
Proof.
  revert acc; induction l as [|x l IH]; intros acc; auto.
  destruct l as [|y l]; [reflexivity|].
  change (last (scan_from op acc (x :: y :: l)) d) with (last (scan_from op (op acc x) (y :: l)) d).
  rewrite IH. reflexivity.
Qed.
Lemma send_eq l : cum_send e (lscan op l) = fold_left op l e.
Proof. unfold cum_send. rewrite lscan_scan, last_scan_from. destruct l; auto. Qed.
Lemma fold_left_acc l acc : fold_left op l acc = op acc (fold_left op l e).
Proof.
  revert acc; induction l as [|x l IH]; intros acc; simpl.
  - now rewrite op_comm, op_e.
  - rewrite IH, (IH (op e x)), op_e. now rewrite op_assoc.
Qed.
Lemma exscan_eq sends r : exscan_recv op e sends r = fold_left op (firstn r sends) e.
Proof. unfold exscan_recv. destruct (firstn r sends) as [|x t]; auto. simpl. now rewrite op_e. Qed.
Lemma fold_sends (d : dist A) acc : fold_left op (map (fun l => fold_left op l e) d) acc = fold_left op (concat d) acc.
Proof.
  revert acc; induction d as [|l d IH]; intros acc; simpl; auto.
  rewrite IH, fold_left_app. now rewrite <- fold_left_acc.
Qed.

Lemma cum_op_nth d r : r < length d ->
  nth r (cum_op op e d) [] = scan_from op (fold_left op (concat (firstn r d)) e) (nth r d []).
Proof.
  intros Hr. unfold cum_op. rewrite nth_map_seq by auto.
  rewrite exscan_eq, map_map.
  assert (E : nth r (map (lscan op) d) [] = scan_from op e (nth r d [])).
  { change (@nil A) with (lscan op []) at 1. rewrite map_nth. apply lscan_scan. }
  rewrite E, scan_from_shift. f_equal.
  rewrite op_comm, op_e. rewrite firstn_map.
  rewrite (map_ext (fun x => cum_send e (lscan op x)) (fun l => fold_left op l e)) by apply send_eq.
  apply fold_sends.
Qed.
Lemma cum_op_length d : length (cum_op op e d) = length d.
Proof. unfold cum_op. now rewrite map_length, seq_length. Qed.

Lemma scan_blocks (d : dist A) acc :
  concat (map (fun r => scan_from op (fold_left op (concat (firstn r d)) acc) (nth r d [])) (seq 0 (length d)))
  = scan_from op acc (concat d).
Proof.
  revert acc; induction d as [|l d IH]; intros acc; simpl; auto.
  rewrite scan_from_app. f_equal. rewrite <- seq_shift, map_map.
  rewrite <- IH. f_equal. apply map_ext. intros r. simpl. now rewrite fold_left_app.
Qed.

Lemma cum_op_glob d : glob (cum_op op e d) = scan op (glob d).
Proof.
  unfold glob. rewrite scan_scan_e, <- scan_blocks. f_equal.
  apply (@nth_ext2 _ _ _ []); [now rewrite cum_op_length, map_length, seq_length|].
  intros r Hr. rewrite cum_op_length in Hr. rewrite cum_op_nth, nth_map_seq by auto. reflexivity.
Qed.
Lemma scan_nth l k x : k < length l -> nth k (scan op l) x = fold_left op (firstn (S k) l) e.
Proof.
  rewrite scan_scan_e. generalize e as acc. revert k. induction l as [|y l IH]; intros k acc Hk; [simpl in Hk; lia|].
  destruct k as [|k].
  - reflexivity.
  - change (firstn (S (S k)) (y :: l)) with (y :: firstn (S k) l).
    change (nth (S k) (scan_from op acc (y :: l)) x) with (nth k (scan_from op (op acc y) l) x).
    rewrite IH by (simpl in Hk; lia). reflexivity.
Qed.
Lemma cum_op_lens d : lens (cum_op op e d) = lens d.
Proof.
  apply (@nth_ext2 _ _ _ 0); [now rewrite !lens_length, cum_op_length|].
  intros r Hr. rewrite lens_length, cum_op_length in Hr. rewrite !lens_nth, cum_op_nth by auto.
  apply scan_from_length.
Qed.
End Cum.

Lemma cum_op_statement : forall (A : Type) (op : A -> A -> A) (e : A),
  (forall x, op e x = x) -> (forall x y, op x y = op y x) -> (forall x y z, op x (op y z) = op (op x y) z) ->
  forall ndim s (d : dist A) scan_in, s < ndim ->
  exists d', cum_op_axis op e scan_in ndim (Some s) (AxInt (Z.of_nat s)) d = Ok d' /\
    lens d' = lens d /\
    forall k x, k < length (glob d) -> nth k (glob d') x = fold_left op (firstn (S k) (glob d)) e.
Proof.
  intros A op e H1 H2 H3 ndim s d scan_in Hs. exists (cum_op op e d). split; [|split].
  - unfold cum_op_axis, sanitize_axis. destruct (Nat.eqb_spec ndim 0); [lia|].
    replace ((0 <=? Z.of_nat s)%Z && (Z.of_nat s <? Z.of_nat ndim)%Z) with true by lia. cbn [bind].
    now rewrite Z.eqb_refl.
  - now apply cum_op_lens.
  - intros k x Hk. rewrite cum_op_glob by auto. now apply scan_nth.
Qed.
Lemma cum_op_other : forall (A : Type) (op : A -> A -> A) (e : A) ndim split a (d : dist A) scan_in,
  a < ndim -> split <> Some a ->
  exists d', cum_op_axis op e scan_in ndim split (AxInt (Z.of_nat a)) d = Ok d' /\
    lens d' = lens d /\ glob d' = map (scan_in (Z.of_nat a)) (glob d).
Proof.
  intros A op e ndim split a d scan_in Ha Hs. exists (map (map (scan_in (Z.of_nat a))) d). split; [|split].
  - unfold cum_op_axis, sanitize_axis. destruct (Nat.eqb_spec ndim 0); [lia|].
    replace ((0 <=? Z.of_nat a)%Z && (Z.of_nat a <? Z.of_nat ndim)%Z) with true by lia. cbn [bind].
    destruct split as [s|]; auto. destruct (Z.eqb_spec (Z.of_nat a) (Z.of_nat s)); auto. exfalso. apply Hs. f_equal. lia.
  - unfold lens. rewrite map_map. apply map_ext. intros. apply map_length.
  - unfold glob. now rewrite concat_map.
Qed.
