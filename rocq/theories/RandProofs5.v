(** random.permutation along split axis 0 (C31). *)
From Verif Require Import Base BaseLemmas LayoutModel LayoutProofs OpsModel HaloModel RandSpec RandModel.
From Coq Require Import Permutation.
Close Scope Z_scope. Open Scope nat_scope.

Lemma cstart_mono n i j P : 0 < P -> i <= j -> cstart n i P <= cstart n j P.
Proof. intros HP H. induction H; auto. rewrite cstart_S by auto. lia. Qed.
Lemma cstart_unique n P v q q' : 0 < P -> cstart n q P <= v < cstart n (S q) P -> cstart n q' P <= v < cstart n (S q') P -> q = q'.
Proof.
  intros HP A B. destruct (Nat.lt_trichotomy q q') as [H|[H|H]]; auto.
  - pose proof (cstart_mono n (S q) q' P HP H). lia.
  - pose proof (cstart_mono n (S q') q P HP H). lia.
Qed.

Lemma chunk_starts_nth n P r : 0 < P -> r <= P -> nth r (chunk_starts n P) 0 = cstart n r P.
Proof.
  intros HP Hr. unfold chunk_starts. destruct (Nat.eq_dec r P) as [->|].
  - rewrite app_nth2; rewrite map_length, seq_length; [|lia]. rewrite Nat.sub_diag. cbn. now rewrite cstart_P.
  - rewrite app_nth1 by (rewrite map_length, seq_length; lia). now rewrite (@nth_map_seq _ (fun i => fst (chunk_1d n i P))) by lia.
Qed.
Lemma chunk_starts_length n P : length (chunk_starts n P) = S P.
Proof. unfold chunk_starts. rewrite app_length, map_length, seq_length. cbn. lia. Qed.

Lemma index_of_first (f : nat -> bool) l d : existsb f l = true ->
  let j := index_of 1 (map (fun c => if f c then 1 else 0) l) in
  j < length l /\ f (nth j l d) = true /\ forall i, i < j -> f (nth i l d) = false.
Proof.
  induction l as [|x t IH]; cbn; [easy|]. destruct (f x) eqn:E; cbn.
  - intros _. split; [lia|]. split; [auto|]. lia.
  - intros H. destruct (IH H) as (A & B & C). split; [lia|]. split; [auto|].
    intros [|i] Hi; auto. apply C; lia.
Qed.

Lemma owner_ok n P v : 0 < P -> v < n ->
  owner (chunk_starts n P) v < P /\
  cstart n (owner (chunk_starts n P) v) P <= v < cstart n (S (owner (chunk_starts n P) v)) P.
Proof.
  intros HP Hv. unfold owner.
  assert (E : existsb (fun c => v <? c) (chunk_starts n P) = true).
  { apply existsb_exists. exists n. split; [unfold chunk_starts; apply in_or_app; right; now left|]. lia. }
  destruct (index_of_first (fun c => v <? c) _ 0 E) as (A & B & C).
  set (j := index_of 1 _) in *. rewrite chunk_starts_length in A.
  rewrite chunk_starts_nth in B by lia.
  assert (J : j <> 0). { intros J. rewrite J, cstart_0 in B by auto. lia. }
  assert (j - 1 < j) as D by lia. specialize (C _ D). rewrite chunk_starts_nth in C by lia.
  replace (S (j - 1)) with j by lia. lia.
Qed.

Lemma index_of_in k p : In k p -> index_of k p < length p /\ nth (index_of k p) p 0 = k.
Proof.
  induction p as [|x t IH]; cbn; [easy|]. intros H. destruct (Nat.eqb_spec x k); [split; auto; lia|].
  destruct H as [|H]; [easy|]. destruct (IH H). split; [lia|auto].
Qed.
Lemma perm_in n p k : is_permutation n p -> k < n -> In k p.
Proof.
  intros (L & N & B) Hk.
  assert (I : incl (seq 0 n) p).
  { apply (NoDup_length_incl N); [now rewrite seq_length, L|]. intros x Hx. apply in_seq. specialize (B x Hx). lia. }
  apply I, in_seq. lia.
Qed.
Lemma nth_argsort n p k : is_permutation n p -> k < n ->
  nth k (argsort p) 0 < n /\ nth (nth k (argsort p) 0) p 0 = k.
Proof.
  intros HP Hk. pose proof (perm_in n p k HP Hk) as I. destruct HP as (L & _ & _). unfold argsort.
  rewrite (@nth_map_seq _ (fun k => index_of k p)) by lia. destruct (index_of_in k p I). split; [lia|auto].
Qed.
Lemma argsort_nth n p g : is_permutation n p -> g < n -> nth (nth g p 0) (argsort p) 0 = g.
Proof.
  intros HP Hg. pose proof HP as (L & N & B).
  assert (Hv : nth g p 0 < n) by (apply B, nth_In; lia).
  destruct (nth_argsort n p (nth g p 0) HP Hv) as [A1 A2].
  rewrite NoDup_nth in N. apply N; try lia. exact A2.
Qed.

Lemma all_ok_map {A B} (f : A -> res B) (g : A -> B) l : (forall x, In x l -> f x = Ok (g x)) -> all_ok (map f l) = Ok (map g l).
Proof.
  induction l as [|x t IH]; cbn; intros H; auto. rewrite H by auto. cbn. rewrite IH by auto. reflexivity.
Qed.
Lemma filter_unique (f : nat -> bool) i0 n : i0 < n -> (forall i, i < n -> f i = true <-> i = i0) ->
  filter f (seq 0 n) = [i0].
Proof.
  intros H U. replace n with (i0 + S (n - S i0)) by lia. rewrite seq_app, filter_app. cbn.
  rewrite (proj2 (U i0 H) eq_refl).
  rewrite (proj2 (filter_nil_iff f (seq 0 i0))), (proj2 (filter_nil_iff f (seq (S i0) _))); auto.
  - intros x Hx. apply in_seq in Hx. destruct (f x) eqn:E; auto. apply U in E; lia.
  - intros x Hx. apply in_seq in Hx. destruct (f x) eqn:E; auto. apply U in E; lia.
Qed.

Section Perm.
Context {A : Type}.
Variables (d : dist A) (p : list nat) (dflt : A).
Let P := length d.
Let n := length p.
Hypothesis HP : 0 < P.
Hypothesis HL : lens d = counts_of n P.
Hypothesis Hp : is_permutation n p.
Let cs := chunk_starts n P.

Lemma loc_len r : r < P -> length (nth r d []) = clen n r P.
Proof. intros Hr. rewrite <- lens_nth, HL. now apply counts_of_nth. Qed.
Lemma glob_at r i : r < P -> i < clen n r P -> nth i (nth r d []) dflt = nth (cstart n r P + i) (glob d) dflt.
Proof.
  intros Hr Hi. rewrite <- glob_nth by (now rewrite loc_len). rewrite HL. f_equal. f_equal. now rewrite counts_of_psum by (auto; lia).
Qed.
Lemma glob_len : length (glob d) = n.
Proof. rewrite glob_length, HL. now apply counts_of_sum. Qed.
Lemma cend_le r : r < P -> cstart n r P + clen n r P <= n.
Proof. intros Hr. rewrite <- cstart_S by auto. pose proof (cstart_mono n (S r) P P HP Hr) as M. now rewrite (cstart_P n HP) in M. Qed.

Definition dest (k : nat) : nat := nth k (argsort p) 0.
Definition psend (r i : nat) : pmsg A :=
  PMsg (owner cs (dest (cstart n r P + i))) (dest (cstart n r P + i) - cstart n (owner cs (dest (cstart n r P + i))) P)
       (nth (cstart n r P + i) (glob d) dflt).
Lemma sends_ok r : r < P -> perm_sends d p r = Ok (map (psend r) (seq 0 (clen n r P))).
Proof.
  intros Hr. unfold perm_sends. fold P n cs. cbv zeta. rewrite loc_len by auto.
  destruct (Nat.eqb_spec (clen n r P) 0) as [E|E]; [now rewrite E|].
  unfold cs. rewrite !chunk_starts_nth by lia. rewrite cstart_S by auto.
  replace (cstart n r P + clen n r P - cstart n r P) with (clen n r P) by lia.
  apply all_ok_map. intros i Hi. apply in_seq in Hi.
  rewrite (nth_error_nth' _ dflt) by (rewrite loc_len by auto; lia).
  pose proof (cend_le r Hr). destruct (nth_argsort n p (cstart n r P + i) Hp ltac:(lia)) as [K _].
  destruct (owner_ok n P _ HP K) as [O _]. unfold psend, dest, cs. rewrite chunk_starts_nth by lia.
  rewrite glob_at by (auto; lia). reflexivity.
Qed.
Lemma recvs_ok r : r < P -> perm_recvs d p r = map (fun i => (owner cs (nth (cstart n r P + i) p 0), i)) (seq 0 (clen n r P)).
Proof.
  intros Hr. unfold perm_recvs. fold P n cs. cbv zeta. rewrite loc_len by auto.
  destruct (Nat.eqb_spec (clen n r P) 0) as [E|E]; [now rewrite E|].
  unfold cs. rewrite !chunk_starts_nth by lia. rewrite cstart_S by auto.
  now replace (cstart n r P + clen n r P - cstart n r P) with (clen n r P) by lia.
Qed.
Let sends := map (fun r => map (psend r) (seq 0 (clen n r P))) (seq 0 P).
Lemma match_ok r i : r < P -> i < clen n r P ->
  perm_match sends (owner cs (nth (cstart n r P + i) p 0)) r i = [nth (nth (cstart n r P + i) p 0) (glob d) dflt].
Proof.
  intros Hr Hi. set (g := cstart n r P + i). pose proof (cend_le r Hr) as HE.
  assert (Hg : g < n) by (unfold g; lia).
  assert (Hv : nth g p 0 < n) by (apply Hp, nth_In; fold n; lia).
  destruct (owner_ok n P (nth g p 0) HP Hv) as [O1 O2]. fold cs in O1, O2. set (q := owner cs (nth g p 0)) in *.
  unfold perm_match, sends. rewrite (@nth_map_seq _ (fun r => map (psend r) (seq 0 (clen n r P)))) by auto.
  rewrite cstart_S in O2 by auto. pose proof (cend_le q O1) as HQ.
  assert (FM : forall l, filter (fun m => (p_dst m =? r) && (p_tag m =? i)) (map (psend q) l) =
               map (psend q) (filter (fun k => (p_dst (psend q k) =? r) && (p_tag (psend q k) =? i)) l)).
  { induction l as [|x t IH]; [reflexivity|]. cbn [map filter]. destruct (_ && _); cbn [map]; now rewrite IH. }
  rewrite FM. rewrite (filter_unique _ (nth g p 0 - cstart n q P)); [|lia|].
  - cbn. do 2 f_equal. lia.
  - intros k Hk. cbn [p_dst p_tag psend]. 
    destruct (nth_argsort n p (cstart n q P + k) Hp ltac:(lia)) as [K1 K2]. fold (dest (cstart n q P + k)) in K1, K2.
    destruct (owner_ok n P _ HP K1) as [W1 W2]. fold cs in W1, W2. set (o := owner cs (dest (cstart n q P + k))) in *.
    rewrite andb_true_iff, !Nat.eqb_eq. split.
    + intros [-> E]. assert (ED : dest (cstart n q P + k) = g) by (unfold g; lia). rewrite ED in K2. lia.
    + intros ->. replace (cstart n q P + (nth g p 0 - cstart n q P)) with (nth g p 0) in * by lia.
      assert (ED : dest (nth g p 0) = g) by (unfold dest; apply (argsort_nth n); auto). rewrite ED in *.
      assert (o = r). { apply (cstart_unique n P g); auto. unfold g. rewrite cstart_S by auto. lia. }
      split; auto. rewrite H. unfold g. lia.
Qed.

Lemma permutation_ok :
  permutation0 d p = Some (Ok (map (fun r => map (fun i => nth (nth (cstart n r P + i) p 0) (glob d) dflt)
                                              (seq 0 (clen n r P))) (seq 0 P))).
Proof.
  unfold permutation0. fold P. rewrite (all_ok_map _ (fun r => map (psend r) (seq 0 (clen n r P)))).
  2:{ intros r Hr. apply in_seq in Hr. apply sends_ok. lia. }
  fold sends. cbv zeta.
  assert (K : forall r, r < P -> map (fun qt => hd_error (perm_match sends (fst qt) r (snd qt))) (perm_recvs d p r) =
              map (fun i => Some (nth (nth (cstart n r P + i) p 0) (glob d) dflt)) (seq 0 (clen n r P))).
  { intros r Hr. rewrite recvs_ok by auto. rewrite map_map. apply map_ext_in. intros i Hi. apply in_seq in Hi.
    cbn [fst snd]. rewrite match_ok by lia. reflexivity. }
  assert (FB : forallb (fun r => forallb (fun o : option A => match o with Some _ => true | None => false end)
     (map (fun qt => hd_error (perm_match sends (fst qt) r (snd qt))) (perm_recvs d p r))) (seq 0 P) = true).
  { apply forallb_forall. intros r Hr. apply in_seq in Hr. rewrite K by lia. apply forallb_forall. intros o Ho.
    apply in_map_iff in Ho as (x & <- & _). auto. }
  rewrite FB. do 2 f_equal. apply map_ext_in. intros r Hr. apply in_seq in Hr. rewrite K by lia.
  induction (seq 0 (clen n r P)); cbn; [auto|]. now rewrite IHl.
Qed.

Lemma permutation_glob :
  concat (map (fun r => map (fun i => nth (nth (cstart n r P + i) p 0) (glob d) dflt) (seq 0 (clen n r P))) (seq 0 P)) =
  map (fun k => nth k (glob d) dflt) p.
Proof.
  assert (K : forall k, k <= P -> concat (map (fun r => map (fun i => nth (nth (cstart n r P + i) p 0) (glob d) dflt) (seq 0 (clen n r P))) (seq 0 k)) =
     map (fun g => nth (nth g p 0) (glob d) dflt) (seq 0 (cstart n k P))).
  { induction k as [|k IH]; intros Hk; [now rewrite cstart_0|].
    rewrite seq_S, map_app, concat_app, IH by lia. cbn [map concat Nat.add]. rewrite app_nil_r, cstart_S by auto.
    rewrite seq_app, map_app. f_equal. cbn [Nat.add].
    rewrite <- (map_map (fun i => cstart n k P + i) (fun g => nth (nth g p 0) (glob d) dflt)). f_equal.
    generalize (clen n k P). intros m. generalize (cstart n k P). clear. induction m; intros s; [auto|].
    cbn. rewrite Nat.add_0_r. f_equal. rewrite <- (IHm (S s)), <- seq_shift, map_map. apply map_ext. intros; lia. }
  rewrite K by lia. rewrite cstart_P by auto. rewrite <- (map_map (fun g => nth g p 0) (fun k => nth k (glob d) dflt)).
  f_equal. apply map_nth_seq.
Qed.

(** every message sent is received *)
Lemma sends_received q m : q < P -> In m (map (psend q) (seq 0 (clen n q P))) ->
  p_dst m < P /\ In (q, p_tag m) (perm_recvs d p (p_dst m)).
Proof.
  intros Hq Hm. apply in_map_iff in Hm as (i & <- & Hi). apply in_seq in Hi. cbn [p_dst p_tag psend].
  pose proof (cend_le q Hq). destruct (nth_argsort n p (cstart n q P + i) Hp ltac:(lia)) as [K1 K2].
  fold (dest (cstart n q P + i)) in K1, K2.
  destruct (owner_ok n P _ HP K1) as [W1 W2]. fold cs in W1, W2. set (o := owner cs (dest (cstart n q P + i))) in *.
  split; auto. rewrite recvs_ok by auto. apply in_map_iff.
  exists (dest (cstart n q P + i) - cstart n o P). rewrite cstart_S in W2 by auto.
  replace (cstart n o P + (dest (cstart n q P + i) - cstart n o P)) with (dest (cstart n q P + i)) by lia.
  split; [|apply in_seq; lia]. f_equal. rewrite K2.
  destruct (owner_ok n P (cstart n q P + i) HP ltac:(lia)) as [V1 V2]. fold cs in V1, V2.
  apply (cstart_unique n P (cstart n q P + i)); auto. rewrite cstart_S by auto. lia.
Qed.
End Perm.
