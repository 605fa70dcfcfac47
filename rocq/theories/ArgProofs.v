From Verif Require Import Base BaseLemmas LayoutModel LayoutProofs ArgModel ArgSpec.
From Coq Require Import Permutation.
Open Scope Z_scope.

Lemma to_double_id z : Z.abs z <= 2 ^ 53 -> to_double z = z.
Proof.
  intros H. unfold to_double, fl64_abs. destruct (Z.ltb_spec z 0).
  - destruct (Z.ltb_spec (- z) (2 ^ 53)); [lia|]. replace z with (- 2 ^ 53) by lia. reflexivity.
  - destruct (Z.ltb_spec z (2 ^ 53)); [lia|]. replace z with (2 ^ 53) by lia. reflexivity.
Qed.

Section Order.
Variable gt : Z -> Z -> bool.
Variable key : Z -> Z.
Hypothesis Hgt : forall x y, gt x y = (key y <? key x).

(** (v, i) is preferred to (w, j) *)
Definition lexge (a b : Z * Z) : Prop := key (fst b) < key (fst a) \/ (key (fst a) = key (fst b) /\ snd a <= snd b).
Definition lexbest (E : Z * Z -> Prop) (s : Z * Z) : Prop := E s /\ forall e, E e -> lexge s e.

Lemma lexge_trans a b c : lexge a b -> lexge b c -> lexge a c.
Proof. unfold lexge. lia. Qed.

Lemma first_best_spec l : forall best i, let s := first_best gt best i l in
  (s = best \/ exists j, (j < length l)%nat /\ s = (nth j l 0, i + Z.of_nat j)) /\
  (key (fst best) < key (fst s) \/ s = best) /\
  (forall j, (j < length l)%nat -> key (nth j l 0) < key (fst s) \/ (key (nth j l 0) = key (fst s) /\ (s = best \/ snd s <= i + Z.of_nat j))).
Proof.
  induction l as [|v l IH]; intros best i; cbn [first_best].
  { cbv zeta. split; auto. split; auto. cbn. lia. }
  specialize (IH (if gt v (fst best) then (v, i) else best) (i + 1)). cbv zeta in IH |- *.
  set (s := first_best gt _ _ l) in *. rewrite Hgt in *. destruct (Z.ltb_spec (key (fst best)) (key v)) as [Hv|Hv].
  - destruct IH as (A & B & C). split; [|split].
    + right. destruct A as [A|(j & Hj & A)].
      * exists 0%nat. cbn. split; [lia|]. rewrite A. f_equal. lia.
      * exists (S j). cbn [length nth]. split; [lia|]. rewrite A. f_equal. lia.
    + left. destruct B as [B| ->]; cbn [fst] in *; lia.
    + intros [|j] Hj; cbn [length nth] in *.
      * destruct B as [B|B]; cbn [fst] in *; [lia|]. right. rewrite B. cbn. split; [auto|right; lia].
      * destruct (C j ltac:(lia)) as [K|(K & [K2|K2])]; [lia| |].
        -- right. split; [auto|]. right. rewrite K2. cbn. lia.
        -- right. split; [auto|]. right. lia.
  - destruct IH as (A & B & C). split; [|split]; auto.
    + destruct A as [A|(j & Hj & A)]; [auto|]. right. exists (S j). cbn [length nth]. split; [lia|]. rewrite A. f_equal. lia.
    + intros [|j] Hj; cbn [length nth] in *.
      * destruct B as [B|B]; [lia|]. destruct (Z.eq_dec (key v) (key (fst s))); [auto|]. rewrite B in *. left. lia.
      * destruct (C j ltac:(lia)) as [K|(K & [K2|K2])]; [lia| |]; right; split; auto. right. lia.
Qed.

Lemma torch_best_spec l : l <> [] -> let s := torch_best gt l in
  exists i, (i < length l)%nat /\ s = (nth i l 0, Z.of_nat i) /\ forall j, (j < length l)%nat -> lexge s (nth j l 0, Z.of_nat j).
Proof.
  destruct l as [|v l]; [easy|]. intros _. cbn [torch_best]. pose proof (first_best_spec l (v, 0) 1) as (A & B & C). cbv zeta in *.
  set (s := first_best gt (v, 0) 1 l) in *. destruct A as [A|(j & Hj & A)].
  - exists 0%nat. cbn [length nth]. split; [lia|]. split; [exact A|]. intros [|j] Hj; unfold lexge; cbn [nth fst snd].
    + rewrite A. cbn. lia.
    + destruct (C j ltac:(lia)) as [K|(K & _)]; [lia|]. rewrite A in *. cbn in *. lia.
  - exists (S j). cbn [length nth]. split; [lia|]. split; [rewrite A; f_equal; lia|]. intros [|k] Hk; unfold lexge; cbn [nth fst snd].
    + destruct B as [B|B]; cbn in B; [lia|]. exfalso. pose proof (f_equal snd A) as A1. rewrite B in A1. cbn [snd] in A1. lia.
    + destruct (C k ltac:(lia)) as [K|(K & [K2|K2])]; [lia| |].
      * exfalso. pose proof (f_equal snd A) as A1. rewrite K2 in A1. cbn [snd] in A1. lia.
      * lia.
Qed.

Lemma nth_map_combine {A B C} (f : A * B -> C) (a : list A) (b : list B) k x y z :
  length a = length b -> (k < length a)%nat -> nth k (map f (combine a b)) z = f (nth k a x, nth k b y).
Proof.
  revert b k. induction a as [|u a IH]; intros [|w b] k E Hk; cbn [length] in *; try lia.
  destruct k; cbn [combine map nth]; auto. apply IH; lia.
Qed.

Lemma mpi_arg_length a b : length a = length b -> length (mpi_arg gt a b) = length a.
Proof using gt. clear -gt. intros E. unfold mpi_arg. destruct (_ <? _); rewrite map_length, combine_length; lia. Qed.

(** one lane of the combination operator *)
Lemma mpi_arg_lane (a b : list (Z * Z)) k Ea Eb : length a = length b -> (k < length a)%nat ->
  lexbest Ea (nth k a (0, 0)) -> lexbest Eb (nth k b (0, 0)) ->
  (snd (nth 0 a (0, 0)) < snd (nth 0 b (0, 0)) -> snd (nth k a (0, 0)) <= snd (nth k b (0, 0))) ->
  (snd (nth 0 b (0, 0)) <= snd (nth 0 a (0, 0)) -> snd (nth k b (0, 0)) <= snd (nth k a (0, 0))) ->
  lexbest (fun e => Ea e \/ Eb e) (nth k (mpi_arg gt a b) (0, 0)).
Proof.
  intros E Hk [A1 A2] [B1 B2] O1 O2. unfold mpi_arg.
  assert (H0 : forall l : list (Z * Z), hd (0, 0) l = nth 0 l (0, 0)) by (intros [|? ?]; reflexivity). rewrite !H0.
  set (s := nth k a (0, 0)) in *. set (t := nth k b (0, 0)) in *.
  destruct (Z.ltb_spec (snd (nth 0 a (0, 0))) (snd (nth 0 b (0, 0)))) as [L|L].
  - specialize (O1 L). rewrite (nth_map_combine _ a b k (0, 0) (0, 0)) by auto. cbn [fst snd]. fold s t. rewrite Hgt.
    destruct (Z.ltb_spec (key (fst s)) (key (fst t))) as [Q|Q]; (split; [auto|]); intros e [He|He].
    + apply lexge_trans with s; auto. left. lia.
    + auto.
    + auto.
    + apply lexge_trans with t; auto. unfold lexge. lia.
  - specialize (O2 L). rewrite (nth_map_combine _ b a k (0, 0) (0, 0)) by (auto; lia). cbn [fst snd]. fold s t. rewrite Hgt.
    destruct (Z.ltb_spec (key (fst t)) (key (fst s))) as [Q|Q]; (split; [auto|]); intros e [He|He].
    + auto.
    + apply lexge_trans with t; auto. left. lia.
    + apply lexge_trans with s; auto. unfold lexge. lia.
    + auto.
Qed.
End Order.

Lemma covers_lt t : forall lo hi, covers t lo hi -> (lo < hi)%nat.
Proof.
  induction t as [r|a IHa b IHb]; cbn; intros lo hi; [lia|].
  intros (m & [[H1 H2]|[H1 H2]]); [apply IHa in H1; apply IHb in H2|apply IHb in H1; apply IHa in H2]; lia.
Qed.

Section Data.
Variable gt : Z -> Z -> bool.
Variable key : Z -> Z.
Hypothesis Hgt : forall x y, gt x y = (key y <? key x).
Variables (neutral : Z) (n L : nat) (data : list (list (list Z))).
Let P := length data.
Hypothesis HP : (0 < P)%nat.
Hypothesis HL : (0 < L)%nat.
Hypothesis Hrank : forall r, (r < P)%nat -> length (nth r data []) = L.
Hypothesis Hlane : forall r k, (r < P)%nat -> (k < L)%nat -> length (nth k (nth r data []) []) = clen n r P.
Hypothesis Hval : forall r k v, (r < P)%nat -> (k < L)%nat -> In v (nth k (nth r data []) []) -> Z.abs v <= 2 ^ 53 /\ key neutral <= key v.
Hypothesis Hneu : forall r, (r < P)%nat -> clen n r P = 0%nat -> Z.abs neutral <= 2 ^ 53.

Let lane r k := nth k (nth r data []) [].
Definition entry (r k : nat) (e : Z * Z) : Prop :=
  (exists j, (j < length (lane r k))%nat /\ e = (nth j (lane r k) 0, Z.of_nat (cstart n r P) + Z.of_nat j)) \/
  (lane r k = [] /\ e = (neutral, Z.of_nat (cstart n r P))).
Let state r := local_arg gt neutral (Z.of_nat n) r P (nth r data []).

Lemma state_length r : (r < P)%nat -> length (state r) = L.
Proof. intros Hr. unfold state, local_arg. rewrite map_length. auto. Qed.

Lemma state_best r k : (r < P)%nat -> (k < L)%nat -> lexbest key (entry r k) (nth k (state r) (0, 0)).
Proof.
  intros Hr Hk. unfold state, local_arg. rewrite Nat2Z.id. fold (cstart n r P).
  set (f := fun lane => _). rewrite nth_indep with (d' := f []) by (rewrite map_length, Hrank; auto). rewrite map_nth.
  unfold f. clear f. fold (lane r k). set (l := lane r k). pose proof (Hval r k) as V. fold (lane r k) in V. fold l in V.
  pose proof (Hlane r k Hr Hk) as LL. fold (lane r k) in LL. fold l in LL.
  destruct l as [|v l'] eqn:El.
  - cbn [torch_best first_best]. rewrite to_double_id by (apply (Hneu r); auto). split.
    + right. fold (lane r k). split; [exact El|f_equal; lia].
    + intros e [(j & Hj & _)|[_ ->]]; [unfold l in El; rewrite El in Hj; cbn in Hj; lia|]. unfold lexge. cbn. lia.
  - destruct (torch_best_spec gt key Hgt (v :: l') ltac:(congruence)) as (i & Hi & E & B). cbv zeta in E, B. rewrite E in *.
    rewrite to_double_id by (eapply V; eauto; apply nth_In; auto). unfold l in El. split.
    + left. exists i. rewrite El. split; [auto|]. f_equal. lia.
    + intros e [(j & Hj & ->)|[Z0 _]]; [|rewrite El in Z0; discriminate]. rewrite El in *. specialize (B j Hj).
      unfold lexge in *. cbn [fst snd] in *. lia.
Qed.

Lemma entry_index r k v i : (r < P)%nat -> (k < L)%nat -> entry r k (v, i) ->
  (Z.of_nat (cstart n r P) <= i < Z.of_nat (cstart n (S r) P)) \/
  (v = neutral /\ i = Z.of_nat (cstart n r P) /\ clen n r P = 0%nat).
Proof.
  intros Hr Hk. pose proof (Hlane r k Hr Hk) as LL. fold (lane r k) in LL. rewrite cstart_S by auto.
  intros [(j & Hj & E)|[Z0 E]]; injection E as -> ->.
  - left. lia.
  - right. rewrite Z0 in LL. cbn in LL. auto.
Qed.

Lemma empty_at_end r : (r < P)%nat -> clen n r P = 0%nat -> cstart n r P = n.
Proof.
  intros Hr E. assert (G : forall k, (r <= k <= P)%nat -> cstart n k P = cstart n r P).
  { induction k as [|k IH]; intros Hk; [replace r with 0%nat by lia; auto|].
    destruct (Nat.eq_dec r (S k)) as [->|Ne]; [auto|]. rewrite cstart_S, IH by (auto; lia).
    pose proof (@clen_mono n r k P ltac:(lia)). lia. }
  rewrite <- (G P) by lia. now apply cstart_P.
Qed.
Lemma cstart_mono' a b : (a <= b)%nat -> (cstart n a P <= cstart n b P)%nat.
Proof. induction b as [|b IH]; intros H; [replace a with 0%nat by lia; auto|]. destruct (Nat.eq_dec a (S b)) as [->|]; auto. rewrite cstart_S by auto. specialize (IH ltac:(lia)). lia. Qed.

Definition group (lo hi k : nat) (e : Z * Z) : Prop := exists r, (lo <= r < hi)%nat /\ entry r k e.
Lemma group_index lo hi k s : (lo < hi <= P)%nat -> (k < L)%nat -> lexbest key (group lo hi k) s ->
  if Nat.eqb (cstart n lo P) (cstart n hi P) then snd s = Z.of_nat n /\ cstart n lo P = n
  else Z.of_nat (cstart n lo P) <= snd s < Z.of_nat (cstart n hi P).
Proof.
  intros Hlo Hk [(r & Hr & E) B]. destruct s as [v i]. cbn [snd].
  pose proof (entry_index r k v i ltac:(lia) Hk E) as I.
  pose proof (cstart_mono' lo r ltac:(lia)). pose proof (cstart_mono' (S r) hi ltac:(lia)). pose proof (cstart_mono' r (S r) ltac:(lia)).
  destruct (Nat.eqb_spec (cstart n lo P) (cstart n hi P)) as [Q|Q].
  - destruct I as [I|(_ & I & Z0)]; [lia|]. apply empty_at_end in Z0; [|lia]. lia.
  - destruct I as [I|(Ev & I & Z0)]; [lia|]. exfalso. pose proof (empty_at_end r ltac:(lia) Z0) as En. subst v.
    (* some rank of the group has a real entry *)
    assert (C0 : clen n lo P <> 0%nat).
    { intros C. pose proof (empty_at_end lo ltac:(lia) C) as C1. pose proof (cstart_mono' hi P ltac:(lia)). rewrite (cstart_P n) in * by auto.
      pose proof (cstart_mono' lo hi ltac:(lia)). lia. }
    pose proof (Hlane lo k ltac:(lia) Hk) as LL. fold (lane lo k) in LL.
    assert (X : entry lo k (nth 0 (lane lo k) 0, Z.of_nat (cstart n lo P) + 0)) by (left; exists 0%nat; split; [lia|reflexivity]).
    specialize (B _ ltac:(exists lo; split; [lia|exact X])). unfold lexge in B. cbn [fst snd] in B.
    destruct (Hval lo k (nth 0 (lane lo k) 0) ltac:(lia) Hk ltac:(apply nth_In; fold (lane lo k); lia)) as [_ V].
    pose proof (cstart_S n lo HP). pose proof (cstart_mono' (S lo) P ltac:(lia)). rewrite (cstart_P n) in * by auto. lia.
Qed.

Lemma reduce_contig t : forall lo hi, covers t lo hi -> (hi <= P)%nat ->
  let v := reduce_tree (mpi_arg gt) state t in
  length v = L /\ forall k, (k < L)%nat -> lexbest key (group lo hi k) (nth k v (0, 0)).
Proof.
  induction t as [r|a IHa b IHb]; cbn [covers reduce_tree]; intros lo hi C Hhi.
  - destruct C as [-> ->]. split; [apply state_length; lia|]. intros k Hk. destruct (state_best r k ltac:(lia) Hk) as [A B]. split.
    + exists r. split; [lia|auto].
    + intros e (q & Hq & He). assert (q = r) by lia. subst. auto.
  - destruct C as (m & C).
    assert (G : forall x y X Y, covers x lo m -> covers y m hi -> 
       (length X = L /\ forall k, (k < L)%nat -> lexbest key (group lo m k) (nth k X (0, 0))) ->
       (length Y = L /\ forall k, (k < L)%nat -> lexbest key (group m hi k) (nth k Y (0, 0))) ->
       (length (mpi_arg gt X Y) = L /\ forall k, (k < L)%nat -> lexbest key (group lo hi k) (nth k (mpi_arg gt X Y) (0, 0))) /\
       (length (mpi_arg gt Y X) = L /\ forall k, (k < L)%nat -> lexbest key (group lo hi k) (nth k (mpi_arg gt Y X) (0, 0)))).
    { intros x y X Y Cx Cy [LX BX] [LY BY]. apply covers_lt in Cx. apply covers_lt in Cy.
      assert (W : forall k E, (forall e, E e <-> group lo m k e \/ group m hi k e) -> forall e, E e <-> group lo hi k e).
      { intros k E HE e. rewrite HE. unfold group. split.
        - intros [(r & H1 & H2)|(r & H1 & H2)]; exists r; split; auto; lia.
        - intros (r & H1 & H2). destruct (Nat.lt_ge_cases r m); [left|right]; exists r; split; auto; lia. }
      assert (O : forall k, (k < L)%nat -> 
         (snd (nth 0 X (0, 0)) < snd (nth 0 Y (0, 0)) /\ snd (nth k X (0, 0)) < snd (nth k Y (0, 0))) \/
         (snd (nth 0 X (0, 0)) = snd (nth 0 Y (0, 0)) /\ snd (nth k X (0, 0)) = snd (nth k Y (0, 0)))).
      { intros k Hk.
        pose proof (group_index lo m 0 _ ltac:(lia) HL (BX 0%nat HL)) as X0. pose proof (group_index lo m k _ ltac:(lia) Hk (BX k Hk)) as Xk.
        pose proof (group_index m hi 0 _ ltac:(lia) HL (BY 0%nat HL)) as Y0. pose proof (group_index m hi k _ ltac:(lia) Hk (BY k Hk)) as Yk.
        pose proof (cstart_mono' m hi ltac:(lia)). pose proof (cstart_mono' hi P ltac:(lia)). rewrite (cstart_P n) in * by auto.
        destruct (Nat.eqb_spec (cstart n lo P) (cstart n m P)), (Nat.eqb_spec (cstart n m P) (cstart n hi P)); lia. }
      split; (split; [rewrite mpi_arg_length; lia|]); intros k Hk; specialize (O k Hk).
      - destruct (mpi_arg_lane gt key Hgt X Y k (group lo m k) (group m hi k)) as [A B]; auto; try lia.
        split; [apply (W k (fun e => group lo m k e \/ group m hi k e)); auto; tauto|].
        intros e He. apply B. apply (W k (fun e => group lo m k e \/ group m hi k e)); auto. tauto.
      - destruct (mpi_arg_lane gt key Hgt Y X k (group m hi k) (group lo m k)) as [A B]; auto; try lia.
        split; [apply (W k (fun e => group m hi k e \/ group lo m k e)); auto; tauto|].
        intros e He. apply B. apply (W k (fun e => group m hi k e \/ group lo m k e)); auto. tauto. }
    destruct C as [[Ca Cb]|[Cb Ca]].
    + pose proof (covers_lt _ _ _ Cb). exact (proj1 (G a b _ _ Ca Cb (IHa lo m Ca ltac:(lia)) (IHb m hi Cb Hhi))).
    + pose proof (covers_lt _ _ _ Ca). exact (proj2 (G b a _ _ Cb Ca (IHb lo m Cb ltac:(lia)) (IHa m hi Ca Hhi))).
Qed.

(** one lane: any tree *)
Lemma reduce_any t : L = 1%nat -> (forall r, In r (leaves t) -> (r < P)%nat) ->
  let v := reduce_tree (mpi_arg gt) state t in
  length v = L /\ lexbest key (fun e => exists r, In r (leaves t) /\ entry r 0 e) (nth 0 v (0, 0)).
Proof.
  intros L1. induction t as [r|a IHa b IHb]; cbn [reduce_tree leaves]; intros H.
  - specialize (H r (or_introl eq_refl)). split; [now apply state_length|].
    destruct (state_best r 0 H HL) as [A B]. split; [exists r; cbn; auto|]. intros e (q & [<-|[]] & He). auto.
  - destruct IHa as [LA BA]; [intros; apply H; apply in_or_app; auto|]. destruct IHb as [LB BB]; [intros; apply H; apply in_or_app; auto|].
    split; [rewrite mpi_arg_length; lia|].
    destruct (mpi_arg_lane gt key Hgt _ _ 0 _ _ ltac:(rewrite LA, LB; auto) ltac:(lia) BA BB) as [A B]; try lia. split.
    + destruct A as [(r & I & E)|(r & I & E)]; exists r; (split; [apply in_or_app; auto|auto]).
    + intros e (r & I & E). apply B. apply in_app_or in I. destruct I; [left|right]; exists r; auto.
Qed.

(** the best entry of all ranks is the first extremum of the global lane *)
Lemma best_global k s : (0 < n)%nat -> (k < L)%nat -> lexbest key (group 0 P k) s ->
  let l := global_lane data k in
  length l = n /\ 0 <= snd s < Z.of_nat n /\ (forall j, (j < n)%nat -> key (nth j l 0) <= key (nth (Z.to_nat (snd s)) l 0)) /\
  (forall j, Z.of_nat j < snd s -> key (nth j l 0) < key (nth (Z.to_nat (snd s)) l 0)).
Proof.
  intros Hn Hk B0. pose proof (group_index 0 P k s ltac:(lia) Hk B0) as I. rewrite cstart_0, cstart_P in I by auto.
  destruct (Nat.eqb_spec 0 n) as [Q|Q]; [lia|]. destruct B0 as [(r & Hr & E) B]. destruct s as [v i]. cbn [snd] in *.
  assert (GL : global_lane data k = glob (map (fun lanes => nth k lanes []) data)) by reflexivity.
  assert (NL : forall r, nth r (map (fun lanes => nth k lanes []) data) [] = lane r k).
  { intros q. unfold lane. rewrite <- (map_nth (fun lanes => nth k lanes []) data []). now destruct k. }
  assert (LE : lens (map (fun lanes => nth k lanes []) data) = counts_of n P).
  { apply (nth_ext _ _ 0%nat 0%nat); [rewrite lens_length, map_length, counts_of_length; auto|].
    intros q Hq. rewrite lens_length, map_length in Hq. rewrite lens_nth, NL, counts_of_nth by auto. apply Hlane; auto. }
  assert (LN : length (global_lane data k) = n) by (rewrite GL, glob_length, LE; apply counts_of_sum; auto).
  assert (NT : forall q j, (q < P)%nat -> (j < length (lane q k))%nat -> nth (cstart n q P + j) (global_lane data k) 0 = nth j (lane q k) 0).
  { intros q j Hq Hj. rewrite GL, <- NL. rewrite <- glob_nth by (now rewrite NL). rewrite LE. now rewrite counts_of_psum by (auto; lia). }
  cbv zeta. split; [auto|]. split; [lia|].
  assert (VI : nth (Z.to_nat i) (global_lane data k) 0 = v).
  { destruct E as [(j & Hj & E)|[Z0 E]]; injection E as -> ->.
    - replace (Z.to_nat (Z.of_nat (cstart n r P) + Z.of_nat j)) with (cstart n r P + j)%nat by lia. apply NT; auto; lia.
    - exfalso. pose proof (Hlane r k ltac:(lia) Hk) as LL. fold (lane r k) in LL. rewrite Z0 in LL. cbn in LL.
      symmetry in LL. apply empty_at_end in LL; lia. }
  rewrite VI.
  assert (ALL : forall j, (j < n)%nat -> lexge key (v, i) (nth j (global_lane data k) 0, Z.of_nat j)).
  { intros j Hj. assert (X : exists q j', (q < P)%nat /\ (j' < length (lane q k))%nat /\ j = (cstart n q P + j')%nat).
    { assert (Y : forall m, (m <= P)%nat -> (j < cstart n m P)%nat -> exists q j', (q < m)%nat /\ (j' < length (lane q k))%nat /\ j = (cstart n q P + j')%nat).
      { induction m as [|m IH]; intros Hm H; [rewrite cstart_0 in H by auto; lia|].
        destruct (Nat.lt_ge_cases j (cstart n m P)) as [Lt|Ge].
        - destruct IH as (q & j' & H1 & H2 & H3); [lia|auto|]. exists q, j'. auto.
        - exists m, (j - cstart n m P)%nat. rewrite cstart_S in H by auto. unfold lane. rewrite Hlane by (auto; lia). lia. }
      apply (Y P); [lia|]. now rewrite cstart_P. }
    destruct X as (q & j' & Hq & Hj' & ->). rewrite NT by auto. apply B. exists q. split; [lia|]. left. exists j'. split; [auto|]. f_equal. lia. }
  split.
  - intros j Hj. specialize (ALL j Hj). unfold lexge in ALL. cbn in ALL. lia.
  - intros j Hj. specialize (ALL j ltac:(lia)). unfold lexge in ALL. cbn in ALL. lia.
Qed.
End Data.
