(** The distributed elimination does what the elimination on the global matrix does. *)
From Verif Require Import Base BaseLemmas LayoutModel LayoutProofs NdSpec TensorSpec OpsModel ShapeModel ReshapeModel GaussModel.
Open Scope nat_scope.

Lemma nth_upd_same {A} (l : list A) i x d : i < length l -> nth i (upd l i x) d = x.
Proof. revert i. induction l as [|y l IH]; intros [|i] H; cbn in *; try lia; [reflexivity|apply IH; lia]. Qed.
Lemma nth_upd_other {A} (l : list A) i j x d : i <> j -> nth j (upd l i x) d = nth j l d.
Proof. revert i j. induction l as [|y l IH]; intros [|i] [|j] H; cbn; try lia; try reflexivity. apply IH. lia. Qed.
Lemma upd_len {A} (l : list A) i x : length (upd l i x) = length l.
Proof. revert i. induction l as [|y l IH]; intros [|i]; cbn; auto. Qed.
Lemma find_ext_in {A} (f g : A -> bool) l : (forall x, In x l -> f x = g x) -> find f l = find g l.
Proof. induction l as [|x l IH]; intros H; [reflexivity|]. cbn. rewrite (H x) by (left; auto). destruct (g x); [reflexivity|]. apply IH. intros y Hy. apply H. now right. Qed.

Section Seq.
Context {F : Type}.
Variables (f0 f1 : F) (fadd fmul fdiv : F -> F -> F) (fopp : F -> F) (isclose : F -> bool) (n : nat).
(** the elimination on one global matrix *)
Notation fsub := (fsub fadd fopp).
Definition gswap (i j : nat) (M : nat -> nat -> F) : nat -> nat -> F :=
  fun a b => M (if Nat.eqb a i then j else if Nat.eqb a j then i else a) b.
Definition gpivot (M : nat -> nat -> F) (i : nat) : option nat := find (fun j => negb (isclose (M j i))) (seq (i + 1) (n - (i + 1))).
Definition gsub (lo hi : nat) (z : nat -> F) (i : nat) (M : nat -> nat -> F) : nat -> nat -> F :=
  fun a b => if in_slice lo hi a then fsub (M a b) (fmul (z a) (M i b)) else M a b.
Definition gscale (i : nat) (s : F) (M : nat -> nat -> F) : nat -> nat -> F :=
  fun a b => if Nat.eqb a i then fdiv (M a b) s else M a b.
Fixpoint gdet_steps (is : list nat) (M : nat -> nat -> F) (d : F) (m : nat) : F * nat :=
  match is with
  | [] => (d, m)
  | i :: is =>
      let step M m := gdet_steps is (gsub (i + 1) n (fun a => fdiv (M a i) (M i i)) i M) (fmul d (M i i)) m in
      if isclose (M i i) then match gpivot M i with Some j => step (gswap i j M) (S m) | None => (f0, m) end
      else step M m
  end.
Fixpoint ginv_steps (is : list nat) (A X : nat -> nat -> F) : res ((nat -> nat -> F) * (nat -> nat -> F)) :=
  match is with
  | [] => Ok (A, X)
  | i :: is =>
      let step A X :=
        let s := A i i in let X := gscale i s X in let A := gscale i s A in
        ginv_steps is (gsub (i + 1) n (fun a => A a i) i A) (gsub (i + 1) n (fun a => A a i) i X) in
      if isclose (A i i) then match gpivot A i with Some j => step (gswap i j A) (gswap i j X) | None => Err RuntimeError end
      else step A X
  end.
Fixpoint ginv_back (is : list nat) (A X : nat -> nat -> F) : nat -> nat -> F :=
  match is with
  | [] => X
  | i :: is => ginv_back is (gsub 0 i (fun a => A a i) i A) (gsub 0 i (fun a => A a i) i X)
  end.

Lemma gpivot_spec M i j : gpivot M i = Some j -> i < j < n /\ isclose (M j i) = false.
Proof. clear. intros H. apply find_some in H as [H1 H2]. apply in_seq in H1. destruct (isclose (M j i)); [discriminate|]. split; [lia|reflexivity]. Qed.

Section Rel.
Variables (rows : bool) (cnts : list nat).
Hypothesis Sum : list_sum cnts = n.
Notation P := (P cnts). Notation displ := (displ cnts). Notation owner := (owner cnts). Notation loc := (loc f0). Notation get := (get f0 rows cnts).
Definition Rel (X : lmat) (M : nat -> nat -> F) : Prop :=
  length X = P /\ forall r a b, r < P ->
    if rows then a < nth r cnts 0 -> b < n -> loc X r a b = M (displ r + a) b
    else a < n -> b < nth r cnts 0 -> loc X r a b = M a (displ r + b).

Lemma displ_S r : r < P -> displ (r + 1) = displ r + nth r cnts 0.
Proof. intros H. unfold GaussModel.displ. rewrite Nat.add_1_r. now apply psum_S. Qed.
Lemma displ_top r : r < P -> displ r + nth r cnts 0 <= n.
Proof. intros H. rewrite <- displ_S by auto. unfold GaussModel.displ. rewrite <- Sum. apply psum_le_sum. Qed.
Lemma owner_spec i : i < n -> owner i < P /\ displ (owner i) <= i < displ (owner i) + nth (owner i) cnts 0.
Proof.
  intros Hi. unfold GaussModel.owner.
  assert (G : forall k, k <= P -> let q := fold_left (fun acc r => if displ r <=? i then r else acc) (seq 0 k) 0 in
     (0 < k -> q < k) /\ displ q <= i /\ (i < displ k -> i < displ q + nth q cnts 0)).
  { induction k as [|k IH]; intros Hk; cbv zeta.
    - cbn [seq fold_left]. change (displ 0) with 0. split; [lia|]. split; lia.
    - rewrite seq_S, fold_left_app. cbn [fold_left]. destruct (IH ltac:(lia)) as (I1 & I2 & I3). cbn [plus].
      replace (displ (S k)) with (displ k + nth k cnts 0) by (rewrite <- displ_S by lia; f_equal; lia).
      destruct (Nat.leb_spec (displ k) i).
      + split; [lia|]. split; [lia|]. auto.
      + split; [intros _; destruct (Nat.eq_dec k 0) as [->|]; [change (displ 0) with 0 in *; lia|specialize (I1 ltac:(lia)); lia]|]. split; [auto|]. intros _. apply I3. lia. }
  destruct (G P (le_n _)) as (G1 & G2 & G3). assert (E : displ P = n) by (unfold GaussModel.displ, GaussModel.P; rewrite psum_all by lia; exact Sum).
  assert (0 < P). { unfold GaussModel.P. destruct (Nat.eq_dec (length cnts) 0) as [E0|]; [|lia]. apply length_zero_iff_nil in E0. rewrite E0 in Sum. change (list_sum []) with 0 in Sum. lia. }
  split; [auto|]. split; [auto|]. apply G3. lia.
Qed.
Lemma owner_unique i r a : r < P -> a < nth r cnts 0 -> displ r + a = i -> r = owner i /\ a = i - displ (owner i).
Proof.
  intros Hr Ha E. pose proof (displ_top r Hr). destruct (owner_spec i ltac:(lia)) as (H1 & H2 & H3).
  assert (r = owner i).
  { destruct (Nat.lt_trichotomy r (owner i)) as [H0|[H0|H0]]; auto.
    - assert (displ (r + 1) <= displ (owner i)) by (apply psum_mono; lia). rewrite displ_S in * by auto. lia.
    - assert (displ (owner i + 1) <= displ r) by (apply psum_mono; lia). rewrite displ_S in * by auto. lia. }
  split; [auto|]. subst r. lia.
Qed.
Lemma get_rel X M i j : Rel X M -> i < n -> j < n -> get X i j = M i j.
Proof.
  intros [L H] Hi Hj. unfold GaussModel.get. destruct rows.
  - destruct (owner_spec i Hi) as (O1 & O2). rewrite (H (owner i) _ _ O1) by lia. f_equal. lia.
  - destruct (owner_spec j Hj) as (O1 & O2). rewrite (H (owner j) _ _ O1) by lia. f_equal. lia.
Qed.
Lemma pivot_rel X M i : Rel X M -> i < n -> pivot f0 isclose rows n cnts X i = gpivot M i.
Proof. intros R Hi. unfold pivot, gpivot. apply find_ext_in. intros j Hj. apply in_seq in Hj. rewrite (get_rel X M) by (auto; lia). reflexivity. Qed.
Lemma loc_upd X r q f : r < length X -> loc (upd X r f) q = if Nat.eqb r q then f else loc X q.
Proof. intros H. unfold GaussModel.loc. destruct (Nat.eqb_spec r q) as [<-|]; [now apply nth_upd_same|now apply nth_upd_other]. Qed.
Lemma set_row_rel X M i v : rows = true -> Rel X M -> i < n ->
  Rel (set_row f0 cnts X i v) (fun a b => if Nat.eqb a i then v b else M a b).
Proof.
  intros Er [L H] Hi. destruct (owner_spec i Hi) as (O1 & O2). split; [unfold set_row; now rewrite upd_len|].
  intros r a b Hr. specialize (H r a b Hr). rewrite Er in *. intros Ha Hb. unfold set_row. rewrite loc_upd by lia.
  destruct (Nat.eqb_spec (owner i) r) as [E|E].
  - subst r. destruct (Nat.eqb_spec a (i - displ (owner i))) as [Ea|Ea].
    + destruct (Nat.eqb_spec (displ (owner i) + a) i); [reflexivity|lia].
    + destruct (Nat.eqb_spec (displ (owner i) + a) i); [lia|]. auto.
  - destruct (Nat.eqb_spec (displ r + a) i) as [Ei|]; [|auto]. exfalso. apply E. symmetry. eapply owner_unique; eauto.
Qed.
Lemma Rel_ext X M M' : Rel X M -> (forall a b, a < n -> b < n -> M a b = M' a b) -> Rel X M'.
Proof.
  intros [L H] E. split; [auto|]. intros r a b Hr. specialize (H r a b Hr). pose proof (displ_top r Hr). destruct rows; intros Ha Hb; rewrite H by auto; apply E; lia.
Qed.
Lemma loc_map (f : (nat -> nat -> F) -> nat -> nat -> F) X r : r < length X -> loc (map f X) r = f (loc X r).
Proof. intros H. unfold GaussModel.loc. rewrite (nth_indep _ _ (f (fun _ _ => f0))) by (now rewrite map_length). apply map_nth. Qed.
Lemma loc_map_seq (f : nat -> nat -> nat -> F) r : r < P -> loc (map f (seq 0 P)) r = f r.
Proof. intros H. unfold GaussModel.loc. now rewrite nth_map_seq. Qed.
Lemma swap_rel X M i j : Rel X M -> i < n -> j < n -> i <> j -> Rel (swap f0 rows cnts X i j) (gswap i j M).
Proof.
  intros R Hi Hj Hn. unfold swap. destruct rows eqn:Er.
  - apply (Rel_ext _ (fun a b => if Nat.eqb a j then M i b else if Nat.eqb a i then M j b else M a b)).
    + cbv zeta. rewrite <- Er.
      assert (R1 : Rel (set_row f0 cnts X i (get X j)) (fun a b => if Nat.eqb a i then M j b else M a b)).
      { eapply Rel_ext; [apply (set_row_rel X M i); auto|]. intros a b Ha Hb. cbn. destruct (Nat.eqb a i); [|reflexivity]. now rewrite (get_rel X M). }
      eapply Rel_ext; [exact (set_row_rel _ _ j (get X i) Er R1 Hj)|]. intros a b Ha Hb. cbn. destruct (Nat.eqb a j); [|reflexivity]. now rewrite (get_rel X M).
    + intros a b _ _. unfold gswap. destruct (Nat.eqb_spec a j) as [E1|E1]; destruct (Nat.eqb_spec a i) as [E2|E2]; try reflexivity. lia.
  - destruct R as [L H]. split; [now rewrite map_length|]. intros r a b Hr. rewrite Er in *. intros Ha Hb. rewrite loc_map by lia.
    specialize (H r (if Nat.eqb a i then j else if Nat.eqb a j then i else a) b Hr). unfold gswap. apply H; auto.
    destruct (Nat.eqb a i), (Nat.eqb a j); lia.
Qed.
Lemma sub_rel X M lo hi z zg i : Rel X M -> i < n ->
  (forall r a, r < P -> if rows then a < nth r cnts 0 -> z r a = zg (displ r + a) else a < n -> z r a = zg a) ->
  Rel (sub_rows f0 fadd fmul fopp rows cnts lo hi z i X) (gsub lo hi zg i M).
Proof.
  intros R Hi Hz. assert (R' := R). destruct R as [L H]. unfold sub_rows. split; [now rewrite map_length, seq_length|].
  intros r a b Hr. rewrite loc_map_seq by auto. specialize (H r). specialize (Hz r a Hr). pose proof (displ_top r Hr) as T.
  unfold gsub. destruct rows eqn:Er; intros Ha Hb.
  - rewrite (H a b Hr) by auto. destruct (in_slice lo hi _); [|reflexivity]. rewrite Hz by auto. rewrite <- Er.
    rewrite (get_rel X M) by auto. reflexivity.
  - rewrite (H a b Hr), (H i b Hr) by auto. destruct (in_slice lo hi _); [|reflexivity]. now rewrite Hz.
Qed.
Lemma column_rel X M i r a : Rel X M -> i < n -> r < P ->
  if rows then a < nth r cnts 0 -> column f0 rows cnts X i r a = M (displ r + a) i else a < n -> column f0 rows cnts X i r a = M a i.
Proof.
  intros R Hi Hr. unfold column. assert (R' := R). destruct R as [L H]. specialize (H r a i Hr). destruct rows eqn:Er; intros Ha; [auto|].
  rewrite <- Er. now apply get_rel.
Qed.
Lemma scale_rel X M i rank s : Rel X M -> i < n -> rank < P -> displ rank <= i < displ rank + nth rank cnts 0 ->
  exists X', scale_row f0 fdiv rows cnts X i rank s = Ok X' /\ Rel X' (gscale i s M).
Proof.
  intros R Hi Hk Hd. unfold scale_row. destruct rows eqn:Er.
  - destruct (Nat.ltb_spec (i - displ rank) (nth rank cnts 0)) as [_|]; [|lia]. eexists. split; [reflexivity|]. destruct R as [L H].
    split; [now rewrite upd_len|]. intros r a b Hr. rewrite loc_upd by lia. specialize (H r a b Hr). rewrite Er in *. intros Ha Hb.
    unfold gscale. rewrite <- (H Ha Hb). destruct (Nat.eqb_spec rank r) as [<-|Hne].
    + destruct (Nat.eqb_spec a (i - displ rank)), (Nat.eqb_spec (displ rank + a) i); try lia; reflexivity.
    + destruct (Nat.eqb_spec (displ r + a) i) as [E|]; [|reflexivity]. exfalso. apply Hne.
      destruct (owner_unique i r a Hr Ha E) as [-> _]. destruct (owner_unique i rank (i - displ rank) Hk) as [E2 _]; [lia|lia|auto].
  - eexists. split; [reflexivity|]. destruct R as [L H]. split; [now rewrite map_length|]. intros r a b Hr. rewrite loc_map by lia.
    specialize (H r a b Hr). rewrite Er in *. intros Ha Hb. unfold gscale. now rewrite (H Ha Hb).
Qed.
Lemma det_rel is : forall X M d m, Rel X M -> (forall i, In i is -> i < n) ->
  det_steps f0 fadd fmul fdiv fopp isclose rows n cnts is X d m = gdet_steps is M d m.
Proof.
  induction is as [|i is IH]; intros X M d m R Hin; [reflexivity|]. cbn [det_steps gdet_steps].
  assert (Hi : i < n) by (apply Hin; now left).
  replace (isclose (M i i)) with (isclose (get X i i)) by (now rewrite (get_rel X M) by auto). rewrite (pivot_rel X M) by auto.
  assert (K : forall X M m, Rel X M ->
    det_steps f0 fadd fmul fdiv fopp isclose rows n cnts is (sub_rows f0 fadd fmul fopp rows cnts (i + 1) n (fun r a => fdiv (column f0 rows cnts X i r a) (get X i i)) i X) (fmul d (get X i i)) m
    = gdet_steps is (gsub (i + 1) n (fun a => fdiv (M a i) (M i i)) i M) (fmul d (M i i)) m).
  { clear X M m R. intros X M m R. rewrite (get_rel X M) by auto. apply IH; [|intros k Hk; apply Hin; now right].
    apply sub_rel; auto. intros r a Hr. pose proof (column_rel X M i r a R Hi Hr) as C. destruct rows; intros Ha; now rewrite C. }
  destruct (isclose (get X i i)); [|now apply K]. destruct (gpivot M i) as [j|] eqn:Ej; [|reflexivity].
  apply gpivot_spec in Ej. apply K. apply swap_rel; auto; lia.
Qed.
Lemma det_one_rel X M : Rel X M -> det_one f0 f1 fadd fmul fdiv fopp isclose rows n cnts X =
  let '(d, m) := gdet_steps (seq 0 n) M f1 0 in if Nat.even m then d else fopp d.
Proof. intros R. unfold det_one. rewrite (det_rel _ X M) by (auto; intros i Hi; apply in_seq in Hi; lia). reflexivity. Qed.

(** the scaling process is the owner of the row, in the canonical layout *)
Hypothesis Canon : cnts = counts_of n P.
Lemma cursor i q : 0 < P -> i < n -> q < P ->
  (i = 0 /\ q = 0 \/ 0 < i /\ displ q <= i - 1 < displ q + nth q cnts 0) ->
  let q' := if (q <? P - 1) && (displ (q + 1) <=? i) then q + 1 else q in
  q' < P /\ displ q' <= i < displ q' + nth q' cnts 0.
Proof.
  intros HP Hi Hq H. cbv zeta.
  assert (CN : forall r, r < P -> nth r cnts 0 = clen n r P) by (intros r Hr; rewrite Canon at 1; now apply counts_of_nth).
  assert (top : q = P - 1 -> displ q + nth q cnts 0 = n).
  { intros ->. rewrite <- displ_S by lia. unfold GaussModel.displ. rewrite psum_all by (unfold GaussModel.P; lia). exact Sum. }
  destruct (Nat.ltb_spec q (P - 1)) as [Hlt|Hge]; cbn [andb].
  - rewrite displ_S by auto. destruct (Nat.leb_spec (displ q + nth q cnts 0) i) as [Hle|Hgt].
    + split; [lia|]. rewrite displ_S by auto. assert (E : i = displ q + nth q cnts 0).
      { destruct H as [[-> ->]|H]; [lia|lia]. }
      split; [lia|]. enough (0 < nth (q + 1) cnts 0) by lia. rewrite CN by lia.
      destruct (Nat.eq_dec (clen n (q + 1) P) 0) as [E0|]; [|lia]. exfalso.
      assert (Z : forall r, q + 1 <= r -> r <= P -> displ r = displ (q + 1)).
      { intros r Hr. induction Hr as [|r Hr IH]; intros HrP; [reflexivity|]. replace (S r) with (r + 1) by lia. rewrite displ_S by lia. rewrite IH by lia.
        rewrite CN by lia. pose proof (@clen_mono n (q + 1) r P ltac:(lia)). lia. }
      specialize (Z P ltac:(lia) (le_n _)). rewrite displ_S in Z by auto.
      assert (displ P = n) by (unfold GaussModel.displ; rewrite psum_all by (unfold GaussModel.P; lia); exact Sum). lia.
    + split; [auto|]. destruct H as [[-> ->]|H]; [change (displ 0) with 0 in *; lia|lia].
  - split; [auto|]. assert (q = P - 1) as E by lia. specialize (top E).
    destruct H as [[-> ->]|H]; [change (displ 0) with 0 in *; lia|lia].
Qed.
Definition both (X : res (lmat * lmat)) (M : res ((nat -> nat -> F) * (nat -> nat -> F))) : Prop :=
  match X, M with
  | Ok (A, X), Ok (GA, GX) => Rel A GA /\ Rel X GX
  | Err e, Err e' => e = e'
  | _, _ => False
  end.
Lemma inv_rel k : forall i q A X GA GX, i + k = n -> Rel A GA -> Rel X GX -> q < P ->
  (i = 0 /\ q = 0 \/ 0 < i /\ displ q <= i - 1 < displ q + nth q cnts 0) ->
  both (inv_steps f0 fadd fmul fdiv fopp isclose rows n cnts (seq i k) q A X) (ginv_steps (seq i k) GA GX).
Proof.
  induction k as [|k IH]; intros i q A X GA GX Hk RA RX Hq Hc; [split; auto|]. cbn [seq inv_steps ginv_steps].
  assert (Hi : i < n) by lia. replace (isclose (GA i i)) with (isclose (get A i i)) by (now rewrite (get_rel A GA) by auto). rewrite (pivot_rel A GA) by auto.
  pose proof (cursor i q ltac:(lia) Hi Hq Hc) as HC. cbv zeta in HC. set (q' := if (q <? P - 1) && (displ (q + 1) <=? i) then q + 1 else q) in *.
  destruct HC as (Hq' & Hd').
  assert (K : forall A X GA GX, Rel A GA -> Rel X GX ->
    both (do X <- scale_row f0 fdiv rows cnts X i q' (get A i i); do A <- scale_row f0 fdiv rows cnts A i q' (get A i i);
          inv_steps f0 fadd fmul fdiv fopp isclose rows n cnts (seq (S i) k) q' (sub_rows f0 fadd fmul fopp rows cnts (i + 1) n (column f0 rows cnts A i) i A)
             (sub_rows f0 fadd fmul fopp rows cnts (i + 1) n (column f0 rows cnts A i) i X))
         (ginv_steps (seq (S i) k) (gsub (i + 1) n (fun a => gscale i (GA i i) GA a i) i (gscale i (GA i i) GA))
             (gsub (i + 1) n (fun a => gscale i (GA i i) GA a i) i (gscale i (GA i i) GX)))).
  { clear A X GA GX RA RX. intros A X GA GX RA RX. rewrite (get_rel A GA) by auto.
    destruct (scale_rel X GX i q' (GA i i) RX Hi Hq' Hd') as (X' & -> & RX'). cbn [bind].
    destruct (scale_rel A GA i q' (GA i i) RA Hi Hq' Hd') as (A' & -> & RA'). cbn [bind].
    assert (C : forall r a, r < P -> if rows then a < nth r cnts 0 -> column f0 rows cnts A' i r a = gscale i (GA i i) GA (displ r + a) i
       else a < n -> column f0 rows cnts A' i r a = gscale i (GA i i) GA a i) by (intros r a Hr; now apply column_rel).
    apply IH; [lia| | |auto|right; split; [lia|]; replace (S i - 1) with i by lia; auto].
    - apply sub_rel; auto.
    - apply sub_rel; auto. }
  destruct (isclose (get A i i)); [|now apply K]. destruct (gpivot GA i) as [j|] eqn:Ej; [|reflexivity].
  apply gpivot_spec in Ej. apply K; apply swap_rel; auto; lia.
Qed.
Lemma back_rel is : forall A X GA GX, Rel A GA -> Rel X GX -> (forall i, In i is -> i < n) ->
  Rel (inv_back f0 fadd fmul fopp rows cnts is A X) (ginv_back is GA GX).
Proof.
  induction is as [|i is IH]; intros A X GA GX RA RX Hin; [exact RX|]. cbn [inv_back ginv_back].
  assert (Hi : i < n) by (apply Hin; now left).
  apply IH; [| |intros k Hk; apply Hin; now right]; apply sub_rel; auto; intros r a Hr; now apply column_rel.
Qed.
Lemma identity_rel : Rel (identity f0 f1 rows cnts) (fun i j => if Nat.eqb i j then f1 else f0).
Proof.
  unfold identity. split; [now rewrite map_length, seq_length|]. intros r a b Hr. rewrite loc_map_seq by auto. destruct rows; intros; reflexivity.
Qed.
Definition ginv (M : nat -> nat -> F) : res (nat -> nat -> F) :=
  do AX <- ginv_steps (seq 0 n) M (fun i j => if Nat.eqb i j then f1 else f0); Ok (ginv_back (rev (seq 1 (n - 1))) (fst AX) (snd AX)).
Lemma inv_one_rel X M : 0 < P -> Rel X M ->
  match inv_one f0 f1 fadd fmul fdiv fopp isclose rows n cnts X, ginv M with
  | Ok Y, Ok N => Rel Y N
  | Err e, Err e' => e = e'
  | _, _ => False
  end.
Proof.
  intros HP R. unfold inv_one, ginv.
  pose proof (inv_rel n 0 0 X (identity f0 f1 rows cnts) M _ eq_refl R identity_rel HP (or_introl (conj eq_refl eq_refl))) as B.
  unfold both in B.
  destruct (inv_steps f0 fadd fmul fdiv fopp isclose rows n cnts (seq 0 n) 0 X (identity f0 f1 rows cnts)) as [[A Y]|e],
    (ginv_steps (seq 0 n) M (fun i j => if Nat.eqb i j then f1 else f0)) as [[GA GY]|e']; cbn [bind fst snd]; try contradiction; [|auto].
  apply back_rel; try apply B. intros i Hi. apply in_rev, in_seq in Hi. lia.
Qed.
End Rel.
End Seq.
