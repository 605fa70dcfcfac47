(** C61: ht.matmul(a, b) is the matrix product, for every shape, number of processes and
    combination of splits; the split of the result is a's, or b's when a is not split.
    [add] is only assumed associative with a zero ([sums]), e.g. integers; [mul] is
    arbitrary.  One data type for both operands. *)
From Verif Require Import Base BaseLemmas LayoutModel TensorSpec NdSpec TensorLemmas NdLemmas ShapeSpec OpsModel OpsProofs2 OpsProofs4 ShapeModel ShapeProps BinModel BinProofs BinProofs2 ReshapeModel ReshapeProofs ConcatProofs3 FactoryModel FactoryProps MatmulSpec MatmulModel MatmulProofs MatmulProofs2 MatmulProofs3.
Open Scope Z_scope.

(** Matrices, and stacks of matrices (leading extents [bs]) not split along a stack axis.
    [ready] (MatmulProofs3.v) lists the layouts: balanced ones always; any layout of a for
    a.split = row axis with b not split, any layout of b for b.split = column axis with a
    not split, any layout of b when a is split along columns and b along rows. *)
Theorem C61_matmul_partial : forall (V : Type) (zero : V) (add mul : V -> V -> V) (bs : list Z) (m K q : Z) (P : nat) (a b : dnd V) (A B : list Z -> V) (ca cb : list Z),
  sums zero add -> (2 <= P)%nat -> length (d_locals a) = P -> length (d_locals b) = P ->
  d_gshape a = bs ++ [m; K] -> d_gshape b = bs ++ [K; q] -> rep a ca A -> rep b cb B ->
  ready P (length bs + 2) (d_split a) (d_split b) m K q ca cb ->
  exists y cy, matmul zero add mul a b false = Ok y /\ d_gshape y = bs ++ [m; q] /\
    d_split y = match d_split a with Some s => Some s | None => d_split b end /\
    length (d_locals y) = P /\ rep y cy (product zero add mul K A B).
Proof.
  intros V zero add mul bs m K q P a b A B ca cb SU HP LA LB GA GB RA RB RE.
  destruct (nd_ok zero add mul SU bs m K q P A B a b ca cb ltac:(lia) GA GB RA RB LA LB RE) as (o & E & HG).
  rewrite (matmul_same zero add mul bs m K q P A B a b ca ltac:(lia) GA GB LA LB HP).
  - rewrite E. cbn [bind]. destruct (finish_ok zero add mul bs m K q P A B a b ca cb ltac:(lia) GA GB RA RB LA LB _ _ HG) as (y & cy & H1 & H2 & H3 & H4 & H5).
    exists y, cy. do 2 (split; [assumption|]). split; [rewrite H3; unfold result_split; destruct (d_split a); reflexivity|]. split; assumption.
  - intros s Es. unfold ready in RE. rewrite Es in RE. destruct (d_split b); [|destruct RE as [->|[-> _]]; lia]. destruct RE as [(-> & _)|[(-> & _)|[(-> & _)|(-> & _)]]]; lia.
  - intros s Es. unfold ready in RE. rewrite Es in RE. destruct (d_split a); [|destruct RE as [->|[-> _]]; lia]. destruct RE as [(_ & -> & _)|[(_ & -> & _)|[(_ & -> & _)|(_ & -> & _)]]]; lia.
Qed.
Print Assumptions C61_matmul_partial.
(** every combination of splits is covered for balanced operands *)
Theorem C61_balanced_ready : forall (bs : list Z) (m K q : Z) (P : nat) (sa sb : option nat),
  (forall s, sa = Some s -> s = length bs \/ s = S (length bs)) -> (forall s, sb = Some s -> s = length bs \/ s = S (length bs)) ->
  ready P (length bs + 2) sa sb m K q (balanced_counts P (bs ++ [m; K]) sa) (balanced_counts P (bs ++ [K; q]) sb).
Proof.
  intros bs m K q P sa sb HA HB. unfold ready, balanced_counts. destruct sa as [s|], sb as [t|].
  - destruct (HA s eq_refl) as [->| ->], (HB t eq_refl) as [->| ->]; rewrite ?nth_r0, ?nth_r1; [left|right; left|right; right; right|right; right; left]; repeat split; lia.
  - destruct (HA s eq_refl) as [->| ->]; rewrite ?nth_r0, ?nth_r1; [left; lia|right; split; [lia|auto]].
  - destruct (HB t eq_refl) as [->| ->]; rewrite ?nth_r0, ?nth_r1; [right; split; [lia|auto]|left; lia].
  - auto.
Qed.
Print Assumptions C61_balanced_ready.

(** stacks split along the same stack axis, with equal layouts *)
Theorem C61_batch : forall (V : Type) (zero : V) (add mul : V -> V -> V) (bs : list Z) (m K q : Z) (P s : nat) (a b : dnd V) (A B : list Z -> V) (c : list Z),
  sums zero add -> (2 <= P)%nat -> length (d_locals a) = P -> length (d_locals b) = P ->
  d_gshape a = bs ++ [m; K] -> d_gshape b = bs ++ [K; q] -> rep a c A -> rep b c B ->
  (s < length bs)%nat -> d_split a = Some s -> d_split b = Some s ->
  exists y cy, matmul zero add mul a b false = Ok y /\ d_gshape y = bs ++ [m; q] /\ d_split y = Some s /\
    length (d_locals y) = P /\ rep y cy (product zero add mul K A B).
Proof.
  intros V zero add mul bs m K q P s a b A B c SU HP LA LB GA GB RA RB Hs EA EB.
  destruct (dims bs m K q P A B a b c c ltac:(lia) GA GB RA RB LA LB) as (Hbs & Hm & HK & Hq).
  destruct (case_batch zero add mul bs m K q P A B a b c c ltac:(lia) Hbs Hm HK Hq GA GB RA RB LA LB s Hs EA EB eq_refl) as (o & E & HG).
  rewrite (matmul_batch zero add mul bs m K q P A B a b c ltac:(lia) GA GB LA LB s HP Hs EA EB). unfold unfolded in E. rewrite E. cbn [bind].
  apply (finish_ok zero add mul bs m K q P A B a b c c ltac:(lia) GA GB RA RB LA LB _ _ HG).
Qed.
Print Assumptions C61_batch.

(** ** vectors *)
Lemma as_column {V} (b : dnd V) (B : list Z -> V) cb K : d_gshape b = [K] -> rep b cb B ->
  exists b2, expand_dims b (AxInt 1) = Ok b2 /\ d_gshape b2 = [K; 1] /\ d_split b2 = d_split b /\ rep b2 cb (col_of B) /\ length (d_locals b2) = length (d_locals b).
Proof.
  intros EG R. destruct (C44_expand_dims_partial V b B cb (AxInt 1) [1%nat] R) as (y & E & L & D & O & RY & SP).
  { rewrite EG. split; [unfold valid_axis; cbn; lia|reflexivity]. } { repeat constructor. }
  rewrite EG in *. cbn in L, D. destruct (d_gshape y) as [|u [|v [|]]] eqn:EY; cbn in L; try discriminate. cbn in D. injection D as ->. specialize (O 1%nat (or_introl eq_refl)). cbn in O. subst v.
  exists y. split; [auto|]. split; [auto|]. assert (EL : length (d_locals y) = length (d_locals b)) by (destruct RY as (L1 & _); destruct R as (L2 & _); congruence).
  split. { destruct (d_split b) as [s|] eqn:ES; [|auto]. unfold rep in R. rewrite ES, EG in R. destruct R as (_ & _ & Hs & _). cbn in Hs. assert (s = 0%nat) by lia. subst s. destruct SP as (s' & -> & H). cbn in H. congruence. }
  split; [|auto]. unfold rep in *. rewrite EY in *. eapply RollProofs2.represents_ext; [|exact RY]. intros idx Hi. unfold col_of. f_equal.
  inversion Hi as [|? ? ? ? _ H1]; subst. inversion H1 as [|? ? ? ? _ H2]; subst. inversion H2; subst. reflexivity.
Qed.
Lemma as_row {V} (a : dnd V) (A : list Z -> V) ca K : d_gshape a = [K] -> rep a ca A ->
  exists a2, expand_dims a (AxInt 0) = Ok a2 /\ d_gshape a2 = [1; K] /\ d_split a2 = match d_split a with Some _ => Some 1%nat | None => None end /\ rep a2 ca (row_of A) /\ length (d_locals a2) = length (d_locals a).
Proof.
  intros EG R. destruct (C44_expand_dims_partial V a A ca (AxInt 0) [0%nat] R) as (y & E & L & D & O & RY & SP).
  { rewrite EG. split; [unfold valid_axis; cbn; lia|reflexivity]. } { repeat constructor. }
  rewrite EG in *. cbn in L, D. destruct (d_gshape y) as [|u [|v [|]]] eqn:EY; cbn in L; try discriminate. cbn in D. injection D as ->. specialize (O 0%nat (or_introl eq_refl)). cbn in O. subst u.
  exists y. split; [auto|]. split; [auto|]. assert (EL : length (d_locals y) = length (d_locals a)) by (destruct RY as (L1 & _); destruct R as (L2 & _); congruence).
  split. { destruct (d_split a) as [s|] eqn:ES; [|auto]. unfold rep in R. rewrite ES, EG in R. destruct R as (_ & _ & Hs & _). cbn in Hs. assert (s = 0%nat) by lia. subst s. destruct SP as (s' & -> & H). cbn in H. congruence. }
  split; [|auto]. unfold rep in *. rewrite EY in *. eapply RollProofs2.represents_ext; [|exact RY]. intros idx Hi. unfold row_of. f_equal.
  inversion Hi as [|? ? ? ? _ H1]; subst. inversion H1 as [|? ? ? ? _ H2]; subst. inversion H2; subst. reflexivity.
Qed.

(** matrix times vector: entry i is the sum over k of A[i,k] * B[k].  The result is split
    along axis 0 unless neither operand is split. *)
Theorem C61_matrix_vector : forall (V : Type) (zero : V) (add mul : V -> V -> V) (m K : Z) (P : nat) (a b : dnd V) (A B : list Z -> V) (ca cb : list Z),
  sums zero add -> (2 <= P)%nat -> length (d_locals a) = P -> length (d_locals b) = P ->
  d_gshape a = [m; K] -> d_gshape b = [K] -> rep a ca A -> rep b cb B ->
  (d_split a = None -> d_split b = None \/ cb = zcounts K P) ->
  (d_split a = Some 0%nat -> d_split b = None \/ (ca = zcounts m P /\ cb = zcounts K P)) ->
  (d_split a = Some 1%nat -> ca = zcounts K P) ->
  exists y cy, matmul zero add mul a b false = Ok y /\ d_gshape y = [m] /\
    d_split y = (match d_split a, d_split b with None, None => None | _, _ => Some 0%nat end) /\
    length (d_locals y) = P /\
    rep y cy (fun idx => fold_right add zero (map (fun k => mul (A [nth 0 idx 0; k]) (B [k])) (zr K))).
Proof.
  intros V zero add mul m K P a b A B ca cb SU HP LA LB GA GB RA RB C0 C1 C2.
  destruct (as_column b B cb K GB RB) as (b2 & EX & G2 & S2 & R2 & L2).
  assert (SA : forall s, d_split a = Some s -> s = 0%nat \/ s = 1%nat). { intros s Es. unfold rep in RA. rewrite Es, GA in RA. destruct RA as (_ & _ & Hs & _). cbn in Hs. lia. }
  assert (SB : forall s, d_split b = Some s -> s = 0%nat). { intros s Es. unfold rep in RB. rewrite Es, GB in RB. destruct RB as (_ & _ & Hs & _). cbn in Hs. lia. }
  assert (RE : ready P (length (@nil Z) + 2) (d_split a) (d_split b2) m K 1 ca cb).
  { rewrite S2. unfold ready. cbn. destruct (d_split a) as [s|] eqn:Es, (d_split b) as [t|] eqn:Et; auto.
    - assert (t = 0%nat) by auto. subst t. destruct (SA s eq_refl) as [->| ->].
      + destruct (C1 eq_refl) as [|[H1 H2]]; [discriminate|]. auto.
      + right. right. right. auto.
    - destruct (SA s eq_refl) as [->| ->]; auto.
    - assert (t = 0%nat) by auto. subst t. destruct (C0 eq_refl) as [|H]; [discriminate|]. auto. }
  destruct (nd_ok zero add mul SU [] m K 1 P A (col_of B) a b2 ca cb ltac:(lia) GA G2 RA R2 LA ltac:(congruence) RE) as (o & E & HG).
  destruct (dims [] m K 1 P A (col_of B) a b2 ca cb ltac:(lia) GA G2 RA R2 LA ltac:(congruence)) as (_ & Hm & HK & _).
  unfold matmul. rewrite GA, GB, LA. cbn -[matmul_nd expand_dims finish_vector Z.eqb]. rewrite Z.eqb_refl. cbn -[matmul_nd expand_dims finish_vector]. rewrite EX. cbn [bind].
  replace (P =? 1)%nat with false by (symmetry; apply Nat.eqb_neq; lia). rewrite E. cbn [bind].
  destruct (finish_vec_ok zero add mul m K 1 m P A (col_of B) ltac:(lia) Hm ltac:(lia) (fun i => product zero add mul K A (col_of B) [i; 0]) ltac:(left; auto) _ _ HG) as (y & cy & H1 & H2 & H3 & H4 & H5).
  exists y, cy. split; [exact H1|]. split; [auto|]. split; [|auto]. rewrite H3, S2. unfold result_split. destruct (d_split a), (d_split b); auto.
Qed.
Print Assumptions C61_matrix_vector.

(** vector times matrix: entry j is the sum over k of A[k] * B[k,j] *)
Theorem C61_vector_matrix : forall (V : Type) (zero : V) (add mul : V -> V -> V) (K q : Z) (P : nat) (a b : dnd V) (A B : list Z -> V) (ca cb : list Z),
  sums zero add -> (2 <= P)%nat -> length (d_locals a) = P -> length (d_locals b) = P ->
  d_gshape a = [K] -> d_gshape b = [K; q] -> rep a ca A -> rep b cb B ->
  (d_split a <> None -> ca = zcounts K P) ->
  (d_split b = Some 0%nat -> d_split a = None -> cb = zcounts K P) ->
  (d_split b = Some 1%nat -> d_split a = None \/ cb = zcounts q P) ->
  exists y cy, matmul zero add mul a b false = Ok y /\ d_gshape y = [q] /\
    d_split y = (match d_split a, d_split b with None, None => None | _, _ => Some 0%nat end) /\
    length (d_locals y) = P /\
    rep y cy (fun idx => fold_right add zero (map (fun k => mul (A [k]) (B [k; nth 0 idx 0])) (zr K))).
Proof.
  intros V zero add mul K q P a b A B ca cb SU HP LA LB GA GB RA RB C0 C1 C2.
  destruct (as_row a A ca K GA RA) as (a2 & EX & G2 & S2 & R2 & L2).
  assert (SA : forall s, d_split a = Some s -> s = 0%nat). { intros s Es. unfold rep in RA. rewrite Es, GA in RA. destruct RA as (_ & _ & Hs & _). cbn in Hs. lia. }
  assert (SB : forall s, d_split b = Some s -> s = 0%nat \/ s = 1%nat). { intros s Es. unfold rep in RB. rewrite Es, GB in RB. destruct RB as (_ & _ & Hs & _). cbn in Hs. lia. }
  assert (RE : ready P (length (@nil Z) + 2) (d_split a2) (d_split b) 1 K q ca cb).
  { rewrite S2. unfold ready. cbn. destruct (d_split a) as [s|] eqn:Es, (d_split b) as [t|] eqn:Et; auto.
    - assert (EC : ca = zcounts K P) by (apply C0; discriminate). destruct (SB t eq_refl) as [->| ->].
      + right. right. right. auto.
      + right. right. left. destruct (C2 eq_refl) as [|H]; [discriminate|]. auto.
    - right. split; [auto|]. apply C0. discriminate.
    - destruct (SB t eq_refl) as [->| ->]; auto. }
  destruct (nd_ok zero add mul SU [] 1 K q P (row_of A) B a2 b ca cb ltac:(lia) G2 GB R2 RB ltac:(congruence) LB RE) as (o & E & HG).
  destruct (dims [] 1 K q P (row_of A) B a2 b ca cb ltac:(lia) G2 GB R2 RB ltac:(congruence) LB) as (_ & _ & HK & Hq).
  unfold matmul. rewrite GA, GB, LA. cbn -[matmul_nd expand_dims finish_vector Z.eqb]. rewrite Z.eqb_refl. cbn -[matmul_nd expand_dims finish_vector]. rewrite EX. cbn [bind].
  replace (P =? 1)%nat with false by (symmetry; apply Nat.eqb_neq; lia). rewrite E. cbn [bind].
  destruct (finish_vec_ok zero add mul 1 K q q P (row_of A) B ltac:(lia) ltac:(lia) Hq (fun j => product zero add mul K (row_of A) B [0; j]) ltac:(right; auto) _ _ HG) as (y & cy & H1 & H2 & H3 & H4 & H5).
  exists y, cy. split; [exact H1|]. split; [auto|]. split; [|auto]. rewrite H3, S2. unfold result_split. destruct (d_split a), (d_split b); auto.
Qed.
Print Assumptions C61_vector_matrix.
