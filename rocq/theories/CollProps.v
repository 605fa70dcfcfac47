(** C50: with one process the collectives deliver what MPI would deliver. *)
From Verif Require Import Base BaseLemmas CollModel CollProofs.

(** [fits m t]: every element of the view lies in an allocated storage.
    [apart s r]: the buffers share no cell (MPI forbids overlapping buffers).
    [NoDup (positions r)]: no two elements of the receive buffer share a cell. *)

(** Reductions, scans, gathers, scatters and all-to-all exchanges of torch tensors of
    equal shape: whatever the strides, offsets and axes, afterwards the receive buffer
    reads as the send buffer did, and the send buffer still does. *)
Definition delivers (c : collective) : Prop :=
  match c with CExscan => False | CAlltoall None _ => False | _ => True end.
Theorem C50_delivers : forall (V : Type) (junk : V) c m s r,
  delivers c -> fits m s -> fits m r -> v_shape s = v_shape r -> NoDup (positions r) -> apart s r ->
  exists m' s' r', run junk c m (BTensor s) (BTensor r) = Ok (m', BTensor s', BTensor r') /\
    elems junk m' r' = elems junk m s /\ elems junk m' s' = elems junk m s /\
    v_shape r' = v_shape r /\ v_shape s' = v_shape s.
Proof.
  intros V junk c m s r Hc Fs Fr Hsh Hn Ha.
  assert (Plain : exists m', copyto junk m (BTensor s) (BTensor r) = Ok m' /\ elems junk m' r = elems junk m s /\ elems junk m' s = elems junk m s).
  { destruct (copy_same junk m s r Fs Fr Hsh Hn Ha) as (m' & E & A & B & _). exists m'. auto. }
  destruct Plain as (m' & E & A & B).
  destruct c as [| |axis|[sa|] ra|sa ra|sa ra]; try contradiction.
  - cbn [run reduce_like]. assert (Nn : numel s = numel r) by (unfold numel; now rewrite Hsh). rewrite Nn, Nat.eqb_refl. cbn [negb].
    destruct ((if list_eq_dec Nat.eq_dec (v_stride s) (v_stride r) then false else true) || negb (v_off s =? v_off r)) eqn:D.
    + pose proof (make_contiguous_spec junk m s Fs) as Hs. destruct (make_contiguous junk m s) as [ma sa].
      destruct Hs as (Es & Fsa & Shs & _ & Oth & New).
      destruct (Oth r Fr) as (Fr' & Er & _).
      assert (Ha' : apart sa r).
      { destruct New as [->|(Ns & _)]; [exact Ha|]. left. destruct Fr. lia. }
      pose proof (make_contiguous_spec junk ma r Fr') as Hr. destruct (make_contiguous junk ma r) as [mb rb].
      destruct Hr as (Er2 & Frb & Shr & Nd & Oth2 & _).
      destruct (Oth2 sa Fsa) as (Fsb & Esb & Hab).
      destruct (copy_same junk mb sa rb Fsb Frb) as (m2 & E2 & A2 & B2 & _); [congruence|auto|auto|].
      cbn [copyto]. rewrite E2. cbn [bind]. exists m2, sa, rb. split; [reflexivity|].
      rewrite A2, B2, Esb, Es. auto.
    + rewrite E. cbn [bind]. exists m', s, r. auto.
  - cbn [run]. unfold allgather_like. cbn [is_tensor negb orb andb]. rewrite E. exists m', s, r. auto.
  - cbn [run]. unfold alltoall_like. cbn [is_tensor negb orb andb]. rewrite Hsh.
    destruct (list_eq_dec Nat.eq_dec (v_shape r) (v_shape r)) as [_|N]; [|congruence]. rewrite E. exists m', s, r. auto.
  - cbn [run]. unfold gather_scatter_like. cbn [is_tensor is_in_place negb orb andb]. rewrite E. exists m', s, r. auto.
  - cbn [run]. unfold gather_scatter_like. cbn [is_tensor is_in_place negb orb andb]. rewrite E. exists m', s, r. auto.
Qed.
Print Assumptions C50_delivers.

(** ... and nothing else in memory changes; the buffers are the same objects, so the
    result is visible through every other view of the receive buffer.  For reductions
    this holds when the buffers have the same strides and offset or are contiguous. *)
Theorem C50_writes_in_place : forall (V : Type) (junk : V) c m s r,
  delivers c -> fits m s -> fits m r -> v_shape s = v_shape r -> NoDup (positions r) -> apart s r ->
  (c = CReduce -> (v_stride s = v_stride r /\ v_off s = v_off r) \/ (is_contiguous s = true /\ is_contiguous r = true)) ->
  exists m', run junk c m (BTensor s) (BTensor r) = Ok (m', BTensor s, BTensor r) /\
    forall sto p, sto <> v_sto r \/ ~ In p (positions r) -> cell junk m' sto p = cell junk m sto p.
Proof.
  intros V junk c m s r Hc Fs Fr Hsh Hn Ha Hcont.
  destruct (copy_same junk m s r Fs Fr Hsh Hn Ha) as (m' & E & _ & _ & Out & _).
  assert (E' : copyto junk m (BTensor s) (BTensor r) = Ok m') by exact E. exists m'.
  assert (G : run junk c m (BTensor s) (BTensor r) = Ok (m', BTensor s, BTensor r)); [|now split].
  destruct c as [| |axis|[sa|] ra|sa ra|sa ra]; try contradiction.
  - cbn [run reduce_like]. assert (Nn : numel s = numel r) by (unfold numel; now rewrite Hsh). rewrite Nn, Nat.eqb_refl. cbn [negb].
    destruct (Hcont eq_refl) as [[C1 C2]|[C1 C2]].
    + rewrite C1, C2, Nat.eqb_refl. destruct (list_eq_dec Nat.eq_dec (v_stride r) (v_stride r)); [|congruence].
      cbn [orb negb]. now rewrite E'.
    + unfold make_contiguous. rewrite C1, C2. destruct (_ || _); now rewrite E'.
  - cbn [run]. unfold allgather_like. cbn [is_tensor negb orb andb]. now rewrite E'.
  - cbn [run]. unfold alltoall_like. cbn [is_tensor negb orb andb]. rewrite Hsh.
    destruct (list_eq_dec Nat.eq_dec (v_shape r) (v_shape r)) as [_|N]; [|congruence]. now rewrite E'.
  - cbn [run]. unfold gather_scatter_like. cbn [is_tensor is_in_place negb orb andb]. now rewrite E'.
  - cbn [run]. unfold gather_scatter_like. cbn [is_tensor is_in_place negb orb andb]. now rewrite E'.
Qed.
Print Assumptions C50_writes_in_place.

(** Alltoall into a buffer with the two axes exchanged delivers the transposed data. *)
Theorem C50_alltoall_swapped : forall (V : Type) (junk : V) m s r sa ra,
  let s' := swapaxes sa ra s in
  fits m s' -> fits m r -> v_shape s <> v_shape r -> v_shape s' = v_shape r -> NoDup (positions r) -> apart s' r ->
  exists m', run junk (CAlltoall (Some sa) (Some ra)) m (BTensor s) (BTensor r) = Ok (m', BTensor s, BTensor r) /\
    elems junk m' r = elems junk m s'.
Proof.
  intros V junk m s r sa ra s' Fs Fr Hne Hsh Hn Ha.
  destruct (copy_same junk m s' r Fs Fr Hsh Hn Ha) as (m' & E & A & _). exists m'.
  cbn [run]. unfold alltoall_like. cbn [is_tensor negb orb andb].
  destruct (list_eq_dec Nat.eq_dec (v_shape s) (v_shape r)) as [N|_]; [contradiction|]. cbn [on_view copyto]. fold s'. rewrite E. auto.
Qed.
Print Assumptions C50_alltoall_swapped.

(** Bcast, Exscan and reductions from MPI.IN_PLACE leave every buffer as it is. *)
Theorem C50_unchanged : forall (V : Type) (junk : V) m s r b,
  broadcast_like m b = Ok (m, b, b) /\
  reduce_like junk false m BInPlace b = Ok (m, BInPlace, b) /\
  (fits m s -> fits m r -> numel s = numel r -> exists m' s' r',
     run junk CExscan m (BTensor s) (BTensor r) = Ok (m', BTensor s', BTensor r') /\
     elems junk m' r' = elems junk m r /\ elems junk m' s' = elems junk m s).
Proof.
  intros V junk m s r b. split; [reflexivity|]. split; [reflexivity|]. intros Fs Fr Nn. cbn [run reduce_like].
  rewrite Nn, Nat.eqb_refl. cbn [negb].
  destruct (_ || _); [|exists m, s, r; auto].
  pose proof (make_contiguous_spec junk m s Fs) as Hs. destruct (make_contiguous junk m s) as [ma sa].
  destruct Hs as (Es & Fsa & _ & _ & Oth & _). destruct (Oth r Fr) as (Fr' & Er & _).
  pose proof (make_contiguous_spec junk ma r Fr') as Hr. destruct (make_contiguous junk ma r) as [mb rb].
  destruct Hr as (Er2 & _ & _ & _ & Oth2 & _). destruct (Oth2 sa Fsa) as (_ & Esb & _).
  exists mb, sa, rb. split; [reflexivity|]. split; congruence.
Qed.
Print Assumptions C50_unchanged.

(** Buffers of different numbers of elements are rejected by reductions. *)
Theorem C50_reduce_size_checked : forall (V : Type) (junk : V) e m s r, numel s <> numel r ->
  reduce_like junk e m (BTensor s) (BTensor r) = Err ValueError.
Proof. intros V junk e m s r H. cbn [reduce_like]. destruct (Nat.eqb_spec (numel s) (numel r)); [contradiction|reflexivity]. Qed.
Print Assumptions C50_reduce_size_checked.

(** Finding: a NumPy receive buffer.  The arguments of np.copyto are exchanged, so
    Allgather, Gather, Scatter and Alltoall copy the (unset) receive buffer over the
    data to be sent. *)
Theorem C50_numpy_refuted : forall (V : Type) (junk : V) m s r c (sb : buf), fits m s -> fits m r -> v_shape s = v_shape r ->
  NoDup (positions s) -> apart r s -> In c [CAllgather 0; CGather 0 None; CScatter 0 None; CAlltoall (Some 0) None] ->
  (sb = BTensor s \/ sb = BNumpy s) ->
  exists m', run junk c m sb (BNumpy r) = Ok (m', sb, BNumpy r) /\
    elems junk m' r = elems junk m r /\ elems junk m' s = elems junk m r.
Proof.
  intros V junk m s r c sb Fs Fr Hsh Hn Ha Hc Hb.
  destruct (copy_same junk m r s Fr Fs (eq_sym Hsh) Hn Ha) as (m' & E & A & B & _). exists m'.
  assert (E' : copyto junk m sb (BNumpy r) = Ok m') by (destruct Hb; subst; exact E).
  destruct Hc as [<-|[<-|[<-|[<-|[]]]]]; cbn [run]; unfold allgather_like, gather_scatter_like, alltoall_like.
  - cbn [Nat.eqb negb]. rewrite andb_false_r, E'. auto.
  - cbn [Nat.eqb negb]. rewrite !andb_false_r. cbn [is_in_place negb]. rewrite orb_true_r, E'. auto.
  - cbn [Nat.eqb negb]. rewrite !andb_false_r. cbn [is_in_place negb]. rewrite orb_true_r, E'. auto.
  - cbn [Nat.eqb negb]. rewrite andb_false_r.
    destruct Hb; subst; rewrite Hsh; (destruct (list_eq_dec Nat.eq_dec (v_shape r) (v_shape r)) as [_|N2]; [|congruence]); rewrite E'; auto.
Qed.
Print Assumptions C50_numpy_refuted.

(** Finding: MPI.IN_PLACE as send buffer of Allgather or Gather (legal in MPI: the data
    is already in place) raises. *)
Theorem C50_in_place_refuted : forall (V : Type) (junk : V) m r,
  run junk (CAllgather 0) m BInPlace (BTensor r) = Err TypeError /\
  run junk (CGather 0 None) m BInPlace (BTensor r) = Err TypeError /\
  run junk (CScatter 0 None) m (BTensor r) BInPlace = Err NotImplementedErr.
Proof. intros. repeat split. Qed.
Print Assumptions C50_in_place_refuted.

(** Finding: a reduction into a non-contiguous view (here a column of a matrix) from a
    contiguous buffer.  The view object is re-pointed to a fresh storage, so the matrix
    it was taken from does not receive the result. *)
Theorem C50_view_refuted : exists m s r, fits m s /\ fits m r /\ v_shape s = v_shape r /\ NoDup (positions r) /\ apart s r /\
  exists m' s' r', run 0 CReduce m (BTensor s) (BTensor r) = Ok (m', BTensor s', BTensor r') /\
    elems 0 m' r' = elems 0 m s /\ elems 0 m' r <> elems 0 m s /\ elems 0 m' r = elems 0 m r.
Proof.
  exists [[7; 8]; [1; 2; 3; 4]], (View 0 0 [2] [1]), (View 1 1 [2] [2]).
  repeat split; try (cbn; lia); try (cbn; intuition lia).
  - cbn. repeat constructor; cbn; lia.
  - left; cbn; lia.
  - do 3 eexists. split; [vm_compute; reflexivity|]. vm_compute. repeat split; discriminate.
Qed.
Print Assumptions C50_view_refuted.

(** Finding: equal numbers of elements in different shapes (allowed by the check and by
    MPI) raise. *)
Theorem C50_reshaped_refuted : exists (m : list (list nat)) s r, fits m s /\ fits m r /\ numel s = numel r /\ NoDup (positions r) /\ apart s r /\
  run 0 CReduce m (BTensor s) (BTensor r) = Err RuntimeError.
Proof.
  exists [[1; 2; 3; 4; 5; 6]; [0; 0; 0; 0; 0; 0]], (View 0 0 [2; 3] [3; 1]), (View 1 0 [6] [1]).
  repeat split; try (cbn; lia); try (cbn; intuition lia).
  - cbn. repeat constructor; cbn; lia.
  - left; cbn; lia.
Qed.
Print Assumptions C50_reshaped_refuted.

(** Finding: the counts of Allgatherv/Gatherv are ignored, and the copy broadcasts: one
    element sent to a buffer of three (count 1) fills all of it. *)
Theorem C50_counts_refuted : exists (m : list (list nat)) s r, fits m s /\ fits m r /\
  exists m', run 0 (CAllgather 0) m (BTensor s) (BTensor r) = Ok (m', BTensor s, BTensor r) /\
   elems 0 m s = [5] /\ elems 0 m r = [1; 2; 3] /\ elems 0 m' r = [5; 5; 5].
Proof.
  exists [[5]; [1; 2; 3]], (View 0 0 [1] [1]), (View 1 0 [3] [1]).
  split; [|split].
  - repeat split; cbn; try lia. all: intuition lia.
  - repeat split; cbn; try lia. all: intuition lia.
  - eexists. repeat split.
Qed.
Print Assumptions C50_counts_refuted.

(** Non-vacuity: a strided send buffer, a transposed receive buffer. *)
Example C50_demo : let m := [[1; 2; 3; 4; 5; 6; 7]; [0; 0; 0; 0; 0; 0]] in
  let s := View 0 1 [2; 3] [3; 1] in let r := View 1 0 [2; 3] [1; 2] in
  fits m s /\ fits m r /\ v_shape s = v_shape r /\ NoDup (positions r) /\ apart s r /\
  (exists m' s' r', run 0 CReduce m (BTensor s) (BTensor r) = Ok (m', BTensor s', BTensor r') /\ elems 0 m' r' = [2; 3; 4; 5; 6; 7]) /\
  (exists m', run 0 (CAllgather 1) m (BTensor s) (BTensor r) = Ok (m', BTensor s, BTensor r) /\ nth 1 m' [] = [2; 5; 3; 6; 4; 7]).
Proof.
  cbv zeta. repeat split; try (cbn; lia); try (cbn; intuition lia).
  - cbn. repeat constructor; cbn; lia.
  - left; cbn; lia.
  - do 3 eexists. split; vm_compute; reflexivity.
  - eexists. split; vm_compute; reflexivity.
Qed.
