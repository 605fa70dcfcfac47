(** Properties C16-C21: resplit and MPI datatypes. *)
From Verif Require Import Base LayoutModel TensorSpec TensorLemmas DtypeModel DtypeSpec DtypeProofs DtypeProofs2 DtypeProofs3 DtypeProofs4.
From Coq Require Import Permutation.
Open Scope Z_scope.

(** C16: gathering an array split along axis [a] (any layout, any local strides)
    gives every rank the full global array, whatever order the messages arrive in.
    Hypothesis: at most 2^31-1 elements (C20 shows why it is needed). *)
Theorem C16_resplit_to_none {V} (G : list Z -> V) w gshape a counts locals :
  0 < w -> (a < length gshape)%nat -> Forall (fun n => 1 <= n) gshape -> zprod gshape <= 2147483647 ->
  distributed G w gshape a counts locals -> strides_below 2147483648 locals ->
  exists ws, resplit_none w gshape a locals = Ok ws /\ delivers w gshape G ws.
Proof. exact (resplit_none_ok G w gshape a counts locals). Qed.
Print Assumptions C16_resplit_to_none.

(** C16: a replicated array split along [a] leaves on every rank exactly its chunk. *)
Theorem C16_resplit_from_none {V} (G : list Z -> V) w gshape a r P t :
  (a < length gshape)%nat -> (r < P)%nat -> Forall (fun n => 0 <= n) gshape ->
  holds_slab G w gshape a 0 (nth a gshape 0) t ->
  holds_slab G w gshape a (Z.of_nat (fst (chunk_1d (Z.to_nat (nth a gshape 0)) r P)))
    (Z.of_nat (snd (chunk_1d (Z.to_nat (nth a gshape 0)) r P))) (resplit_from_none w gshape a r P t).
Proof. exact (from_none_ok G w gshape a r P t). Qed.
Print Assumptions C16_resplit_from_none.

(** C17: resplit_ from axis s1 to s2 leaves on every rank q exactly the block
    comm.chunk assigns it along s2, for every layout along s1 and any local strides.
    Partial: extents up to 2^24 (see C17_float32_tiles_refuted). *)
Theorem C17_resplit_inplace_partial {V} (G : list Z -> V) w gshape s1 s2 counts locals q :
  0 < w -> (s1 < length gshape)%nat -> (s2 < length gshape)%nat -> s1 <> s2 ->
  Forall (fun n => 0 <= n <= 2 ^ 24) gshape ->
  distributed G w gshape s1 counts locals -> strides_below 2147483647 locals -> (q < length locals)%nat ->
  let (start, len) := chunk_1d (Z.to_nat (nth s2 gshape 0)) q (length locals) in
  let (rshape, r) := resplit_axis_inplace w gshape s1 s2 locals q in
  rshape = upd gshape s2 (Z.of_nat len) /\
  exists ws, r = Ok ws /\ delivers w rshape (fun idx => G (shift_axis s2 (Z.of_nat start) idx)) ws.
Proof. exact (resplit_inplace_ok G w gshape s1 s2 counts locals q). Qed.
Print Assumptions C17_resplit_inplace_partial.

(** C17: out-of-place ht.resplit does so when the source is balanced. *)
Theorem C17_resplit_outofplace_partial {V} (G : list Z -> V) w gshape s1 s2 locals q :
  0 < w -> (s1 < length gshape)%nat -> (s2 < length gshape)%nat -> s1 <> s2 ->
  Forall (fun n => 0 <= n <= 2 ^ 24) gshape ->
  distributed G w gshape s1 (map Z.of_nat (counts_of (Z.to_nat (nth s1 gshape 0)) (length locals))) locals ->
  strides_below 2147483647 locals -> (q < length locals)%nat ->
  let (start, len) := chunk_1d (Z.to_nat (nth s2 gshape 0)) q (length locals) in
  let (rshape, r) := resplit_axis w gshape s1 s2 locals q in
  rshape = upd gshape s2 (Z.of_nat len) /\
  exists ws, r = Ok ws /\ delivers w rshape (fun idx => G (shift_axis s2 (Z.of_nat start) idx)) ws.
Proof. exact (resplit_outofplace_ok G w gshape s1 s2 locals q). Qed.
Print Assumptions C17_resplit_outofplace_partial.

(** A concrete 4x2 array over 2 ranks with layout (3,1), w = 1, value 10 i + j. *)
Definition exG (idx : list Z) : Z := 10 * nth 0 idx 0 + nth 1 idx 0.
Definition exT (off len : Z) : tensor Z :=
  MkT [len; 2] [2; 1] (fun addr => 10 * (off + addr / 2) + addr mod 2).
Example ex_distributed : distributed exG 1 [4; 2] 0 [3; 1] [exT 0 3; exT 3 1].
Proof.
  split; [reflexivity|]. split; [repeat constructor; lia|]. split; [reflexivity|].
  intros [|[|p]] t E; simpl in E; try congruence; [| |destruct p; discriminate]; injection E as <-;
    (split; [reflexivity|]; split; [reflexivity|]; intros idx H;
     inversion H as [|? i ? r Hi Hr]; subst; inversion Hr as [|? j ? r' Hj Hr']; subst; inversion Hr'; subst;
     unfold read, exG, exT, shift_axis; cbn [tmem tstride dot nth upd sumz firstn fold_right]; lia).
Qed.
Example ex_strides : strides_below 2147483647 [exT 0 3; exT 3 1].
Proof. intros t [<-|[<-|[]]]; repeat constructor; lia. Qed.
Example C16_C17_hypotheses_met :
  0 < 1 /\ Forall (fun n => 1 <= n) [4; 2] /\ zprod [4; 2] <= 2147483647 /\
  distributed exG 1 [4; 2] 0 [3; 1] [exT 0 3; exT 3 1] /\ strides_below 2147483647 [exT 0 3; exT 3 1] /\
  (exists ws, resplit_none 1 [4; 2] 0 [exT 0 3; exT 3 1] = Ok ws /\ length ws = 8%nat) /\
  (exists ws, snd (resplit_axis_inplace 1 [4; 2] 0 1 [exT 0 3; exT 3 1] 1) = Ok ws /\
     ws = [(0, 1); (1, 11); (2, 21); (3, 31)]).
Proof.
  split; [lia|]. split; [repeat constructor; lia|]. split; [simpl; lia|]. split; [exact ex_distributed|].
  split; [exact ex_strides|]. split; eexists; split; reflexivity.
Qed.

(** C17 refuted for out-of-place resplit of an unbalanced array: rank 0 sends rank 0
    a 3x1 block into a 2x1 receive type - an MPI error or data loss. *)
Theorem C17_resplit_unbalanced_refuted :
  distributed exG 1 [4; 2] 0 [3; 1] [exT 0 3; exT 3 1] /\
  snd (resplit_axis 1 [4; 2] 0 1 [exT 0 3; exT 3 1] 0) = Err RuntimeError.
Proof. split; [exact ex_distributed|vm_compute; reflexivity]. Qed.
Print Assumptions C17_resplit_unbalanced_refuted.

(** C17 refuted above 2^24: tile extents are stored in float32; resplit_ of a
    33554434 x 2 array from axis 1 to axis 0 over two ranks allocates receive buffers of
    16777216 rows on both ranks - two rows of the array are lost. *)
Theorem C17_float32_tiles_refuted (t0 t1 : tensor Z) :
  fst (resplit_axis_inplace 8 [33554434; 2] 1 0 [t0; t1] 0) = [16777216; 2] /\
  fst (resplit_axis_inplace 8 [33554434; 2] 1 0 [t0; t1] 1) = [16777216; 2] /\
  16777216 + 16777216 < 33554434.
Proof. split; [|split]; unfold resplit_axis_inplace; cbn [fst]; vm_compute; reflexivity. Qed.
Print Assumptions C17_float32_tiles_refuted.

(** C18: the buffer description of a tensor of any shape and strides addresses the
    tensor's elements, each index once, in row-major order. *)
Theorem C18_buffer_addresses w sh st b :
  Forall (fun n => 0 <= n) sh -> length st = length sh ->
  as_buffer w sh st None None = Ok b ->
  simple_positions b = map (fun idx => w * dot idx st) (row_major sh).
Proof. exact (as_buffer_spec w sh st b). Qed.
Print Assumptions C18_buffer_addresses.

(** it exists whenever the extents and strides fit MPI's int and the tensor has fewer
    than (2^31-1) * 2^31 elements *)
Theorem C18_buffer_exists w sh st :
  Forall (fun n => 0 <= n <= 2147483647) sh -> length st = length sh ->
  Forall (fun s => 0 <= s <= 2147483647) st -> zprod sh / 2147483647 <= 2147483647 ->
  exists b, as_buffer w sh st None None = Ok b.
Proof. exact (as_buffer_ok w sh st). Qed.
Print Assumptions C18_buffer_exists.

(** C18: two tensors of equal shape but different strides exchange corresponding
    elements; nothing else of the receiver's memory changes. *)
Theorem C18_transport {V} w sh st1 st2 (m1 m2 : mem V) b1 b2 :
  0 < w -> Forall (fun n => 0 <= n) sh -> length st1 = length sh -> length st2 = length sh ->
  (forall i j, in_bounds sh i -> in_bounds sh j -> dot i st2 = dot j st2 -> i = j) ->
  as_buffer w sh st1 None None = Ok b1 -> as_buffer w sh st2 None None = Ok b2 ->
  exists ws, pair_up (simple_positions b2) (simple_positions b1) m1 = Ok ws /\
  forall ws', Permutation ws ws' ->
    (forall idx, in_bounds sh idx -> read (writes m2 ws') w st2 idx = read m1 w st1 idx) /\
    (forall addr, (forall idx, in_bounds sh idx -> addr <> w * dot idx st2) -> writes m2 ws' addr = m2 addr).
Proof. exact (transport w sh st1 st2 m1 m2 b1 b2). Qed.
Print Assumptions C18_transport.
Example C18_instance : exists b, as_buffer 4 [2; 3] [1; 2] None None = Ok b /\
  simple_positions b = [0; 8; 16; 4; 12; 20] /\ com (fst b) = true.
Proof. eexists. split; [reflexivity|]. split; vm_compute; reflexivity. Qed.

(** C19: the large-count type has the typemap of n base elements; it is refused only
    with ValueError and only beyond LIMIT*(LIMIT+1) elements.
    Partial: when LIMIT divides n the returned type is not committed (next theorem). *)
Theorem C19_large_count_partial w n : 0 <= n ->
  match handle_large_count (base_type w) n with
  | Ok (t, c) => buf_positions c t = map (Z.mul w) (zr n) /\ com t = (0 <? n mod 2147483647)
  | Err e => e = ValueError /\ 2147483647 * 2147483648 <= n
  end.
Proof.
  intros Hn. destruct (handle_large_count (base_type w) n) as [[t c]|e] eqn:E.
  - split; [now apply large_count_spec|]. now apply (large_count_commit _ _ _ E).
  - apply large_count_err in E; auto. destruct E as [E H]. split; auto. rewrite CL_val in H.
    pose proof (Z.mul_div_le n 2147483647). lia.
Qed.
Print Assumptions C19_large_count_partial.
Example C19_instance : exists r, handle_large_count (base_type 4) 4294967297 = Ok r /\ snd r = 1.
Proof. destruct (large_count_ok (base_type 4) 4294967297) as [[t c] E]; [lia|rewrite CL_val; vm_compute; congruence|].
  exists (t, c). split; auto. unfold handle_large_count in E. Transparent COUNT_LIMIT.
  unfold create_vector, create_contiguous in E. cbn [bind int_ok] in E. Opaque COUNT_LIMIT.
  destruct (_ <? _) in E; [discriminate|]. destruct (_ && _) in E; [|discriminate]. cbn [bind] in E.
  destruct (0 <? _) in E; [destruct (int_ok _) in E; cbn [bind] in E; [|discriminate]|]; now inversion E.
Qed.

Theorem C19_uncommitted_refuted : exists t c, handle_large_count (base_type 4) 4294967294 = Ok (t, c) /\ com t = false.
Proof.
  destruct (large_count_ok (base_type 4) 4294967294) as [[t c] E]; [lia|rewrite CL_val; vm_compute; congruence|].
  exists t, c. split; auto. apply (large_count_commit _ _ _ E).
Qed.
Print Assumptions C19_uncommitted_refuted.

(** C20: below 2^31 the v-collective counts and displacements are slabs x slab size. *)
Theorem C20_counts_partial w n sh cs ds st :
  Forall (fun k => 1 <= k) sh -> zprod sh <= 2147483647 ->
  Forall (fun c => 0 <= c /\ zprod sh * c <= 2147483647) (cs ++ ds) ->
  mpi_type_and_elements_of w (n :: sh) st (Some (cs, ds)) (Some true)
  = Ok (base_type w, EVec (map (Z.mul (zprod sh)) cs) (map (Z.mul (zprod sh)) ds)).
Proof.
  intros Hs Hp Hc. unfold mpi_type_and_elements_of. cbn [tl]. rewrite prod32_spec by auto.
  assert (Hz := zprod_pos sh Hs).
  assert (E : forall l, (forall x, In x l -> In x (cs ++ ds)) -> map (fun e => wrap32 (zprod sh * e)) l = map (Z.mul (zprod sh)) l).
  { intros l Hl. apply map_ext_in. intros x Hx. apply wrap32_id. rewrite Forall_forall in Hc. specialize (Hc x (Hl x Hx)). nia. }
  rewrite !E; auto; intros; apply in_or_app; auto.
Qed.
Print Assumptions C20_counts_partial.
Example C20_instance : Forall (fun k => 1 <= k) [3; 5] /\ zprod [3; 5] <= 2147483647 /\
  Forall (fun c => 0 <= c /\ zprod [3; 5] * c <= 2147483647) ([4; 3] ++ [0; 4]).
Proof. split; [|split]; [repeat constructor; lia|simpl; lia|repeat constructor; simpl; lia]. Qed.

(** C20 refuted: the slab size is computed in int32. For slabs of 65536 x 65536
    elements it wraps to 0: every count and displacement is 0 and nothing is sent. *)
Theorem C20_counts_refuted : exists cs ds,
  mpi_type_and_elements_of 1 [2; 65536; 65536] [4294967296; 65536; 1] (Some ([1; 1], [0; 1])) None
    = Ok (base_type 1, EVec cs ds) /\ cs = [0; 0] /\ ds = [0; 0] /\ 65536 * 65536 * 1 <> 0.
Proof. eexists. eexists. split; [vm_compute; reflexivity|]. split; [|split]; [reflexivity|reflexivity|lia]. Qed.
Print Assumptions C20_counts_refuted.

(** C21: the Alltoallw type of one peer addresses exactly the sub-array's elements in
    row-major order. [lim_ok]: not (2-D, unit last stride, first stride >= 2^31-1). *)
Theorem C21_alltoallw_type_partial w st lshape sub starts cc t c :
  (2 <= length lshape)%nat -> length st = length lshape -> length sub = length lshape -> length starts = length lshape ->
  (forall idx, in_bounds sub idx -> in_bounds lshape (zadd starts idx)) ->
  (cc = true -> is_contiguous lshape st = true) ->
  ~ (length st = 2%nat /\ nth 1 st 0 = 1 /\ 2147483647 <= nth 0 st 0) ->
  a2aw_type w cc st (lshape, sub, starts) = Ok (t, c) ->
  buf_positions c t = map (fun idx => w * dot (zadd starts idx) st) (row_major sub).
Proof. exact (a2aw_spec w st lshape sub starts cc t c). Qed.
Print Assumptions C21_alltoallw_type_partial.
Example C21_instance : exists t c, a2aw_type 8 false [1; 6; 2] ([2; 2; 3], [2; 1; 2], [0; 1; 1]) = Ok (t, c) /\
  buf_positions c t = [64; 80; 72; 88].
Proof. eexists. eexists. split; [reflexivity|]. vm_compute. reflexivity. Qed.

(** C21 refuted: a contiguous 2 x 2^31 local array (lshape above the limit), sub-array
    of two rows and one column: only the first row is addressed. *)
Theorem C21_alltoallw_type_refuted : exists t c,
  a2aw_type 1 true [2147483648; 1] ([2; 2147483648], [2; 1], [0; 0]) = Ok (t, c) /\
  buf_positions c t = [0] /\
  map (fun idx => 1 * dot (zadd [0; 0] idx) [2147483648; 1]) (row_major [2; 1]) = [0; 2147483648].
Proof. eexists. eexists. split; [reflexivity|]. split; vm_compute; reflexivity. Qed.
Print Assumptions C21_alltoallw_type_refuted.
