(** C12: halos. Slabs along the split axis. *)
From Verif Require Import Base BaseLemmas HaloModel HaloProofs.
Set Implicit Arguments.

(** With at least two non-empty ranks, all of them at least [h] long, get_halo gives
    every non-empty rank the [h] slabs before and after its own part of the global
    array (nothing at the outer ends and on the sides not asked for), whatever empty
    ranks lie in between. *)
Theorem C12_get_halo : forall A (d : dist A) (h : Z) (prev next : bool) r s,
  (0 < h)%Z -> r < length d -> nth r d [] <> [] ->
  (exists q, q < length d /\ q <> r /\ nth q d [] <> []) ->
  (forall q, q < length d -> nth q d [] <> [] -> (h <= Z.of_nat (length (nth q d [])))%Z) ->
  exists hp hn, get_halo d h prev next r s = HDone (Halo hp hn true) /\
    ((prev = false \/ forall q, q < r -> nth q d [] = []) -> hp = None) /\
    (prev = true -> ~ (forall q, q < r -> nth q d [] = []) ->
       (h <= Z.of_nat (psum (lens d) r))%Z /\
       hp = Some (sub (glob d) (psum (lens d) r - Z.to_nat h) (Z.to_nat h))) /\
    ((next = false \/ forall q, r < q -> nth q d [] = []) -> hn = None) /\
    (next = true -> ~ (forall q, r < q -> nth q d [] = []) ->
       psum (lens d) (S r) + Z.to_nat h <= length (glob d) /\
       hn = Some (sub (glob d) (psum (lens d) (S r)) (Z.to_nat h))).
Proof. exact halo_lemma. Qed.
Print Assumptions C12_get_halo.

(** array_with_halos is then the contiguous window of the global array that starts
    [h] before and ends [h] after the rank's part, cut at the array's ends. *)
Theorem C12_array_with_halos : forall A (d : dist A) (h : Z) r s,
  (0 < h)%Z -> r < length d -> nth r d [] <> [] ->
  (exists q, q < length d /\ q <> r /\ nth q d [] <> []) ->
  (forall q, q < length d -> nth q d [] <> [] -> (h <= Z.of_nat (length (nth q d [])))%Z) ->
  exists s' a b, get_halo d h true true r s = HDone s' /\
    a = (psum (lens d) r - Z.to_nat h) /\ b = Nat.min (length (glob d)) (psum (lens d) (S r) + Z.to_nat h) /\
    array_with_halos d r s' = sub (glob d) a (b - a).
Proof. exact with_halos_lemma. Qed.
Print Assumptions C12_array_with_halos.

(** a halo larger than some non-empty chunk is refused on every non-empty rank *)
Theorem C12_halo_too_large : forall A (d : dist A) h prev next r s,
  1 < length d -> length (populated d) <> 1 -> r < length d -> nth r d [] <> [] ->
  (exists q, q < length d /\ nth q d [] <> [] /\ (Z.of_nat (length (nth q d [])) < h)%Z) ->
  get_halo d h prev next r s = HRaise ValueError.
Proof. exact halo_too_large. Qed.
Print Assumptions C12_halo_too_large.

(** empty ranks keep their state *)
Theorem C12_empty_rank : forall A (d : dist A) h prev next r s,
  (0 <= h)%Z -> nth r d [] = [] -> length (populated d) <> 1 -> get_halo d h prev next r s = HDone s.
Proof. exact halo_empty_rank. Qed.
Print Assumptions C12_empty_rank.

Example C12_instance :
  let d := [[1;2;3]; []; [4;5]; [6;7;8]] in
  (forall q, q < 4 -> nth q d [] <> [] -> (2 <= Z.of_nat (length (nth q d [])))%Z) /\
  get_halo d 2 true true 2 (Halo None None false) = HDone (Halo (Some [2;3]) (Some [6;7]) true) /\
  array_with_halos d 2 (Halo (Some [2;3]) (Some [6;7]) true) = [2;3;4;5;6;7].
Proof.
  cbv zeta. split; [|split; vm_compute; reflexivity].
  intros q Hq H. destruct q as [|[|[|[|]]]]; cbn in *; try congruence; lia.
Qed.

(** What C12 does not give.  (a) With one non-empty rank (a legal layout, e.g. after
    collect_) a halo of admissible size raises TypeError on every rank. *)
Theorem C12_single_populated_rank_refuted : exists (d : dist nat) h,
  1 < length d /\ (0 < h)%Z /\
  (forall q, q < length d -> nth q d [] <> [] -> (h <= Z.of_nat (length (nth q d [])))%Z) /\
  forall r s, get_halo d h true true r s = HRaise TypeError.
Proof.
  exists [[]; [1;2;3]; []], 2%Z. split; [cbn; lia|]. split; [lia|]. split.
  - intros q Hq H. destruct q as [|[|[|]]]; cbn in *; try congruence; lia.
  - intros r s. reflexivity.
Qed.
Print Assumptions C12_single_populated_rank_refuted.
(** (b) halos are not invalidated: after the array is redistributed (here by
    balance_), array_with_halos still prepends the old halo and is no longer a
    window of the array. *)
Theorem C12_stale_halo_refuted : exists (d d' : dist nat) h s r,
  glob d' = glob d /\ get_halo d h true true r (Halo None None false) = HDone s /\
  forall a n, array_with_halos d' r s <> sub (glob d') a n.
Proof.
  exists [[1;2;3]; [4]], [[1;2]; [3;4]], 1%Z, (Halo None (Some [4]) true), 0.
  split; [reflexivity|]. split; [reflexivity|]. intros a n. cbn.
  do 5 (destruct a as [|a]; [do 6 (destruct n as [|n]; cbn; try discriminate)|]).
  unfold sub. rewrite skipn_all2 by (cbn; lia). rewrite firstn_nil. discriminate.
Qed.
Print Assumptions C12_stale_halo_refuted.
