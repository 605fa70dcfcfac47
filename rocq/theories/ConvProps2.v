(** C63, continued: refusals, exchange of the operands, concrete cases, findings. *)
From Verif Require Import Base BaseLemmas LayoutModel LayoutProofs NdSpec TensorSpec TensorLemmas NdLemmas OpsModel ShapeModel ShapeProps BinModel BinProofs ConcatProofs3 HaloModel SplitProps PadSpec PadModel PadProofs2 PadProps ConvSpec ConvModel ConvProofs ConvProofs2 ConvProofs3 ConvProps MatmulProofs2.
Open Scope nat_scope.

(** the operands may be given in either order: the longer one is the signal *)
Theorem C63_operand_order : forall (V : Type) (zero junk : V) (add mul : V -> V -> V) (a v : dnd V) (la lv : list V) (ca cv : list Z) (mode : option conv_mode) (stride : Z),
  vec zero a la ca -> vec zero v lv cv -> length la <> length lv ->
  convolve zero add mul junk a v mode stride = convolve zero add mul junk v a mode stride.
Proof.
  intros V zero junk add mul a v la lv ca cv mode stride Ha Hv HN. unfold convolve. rewrite (vec_extent zero a la ca Ha), (vec_extent zero v lv cv Hv).
  destruct (Nat.ltb_spec (length la) (length lv)); destruct (Nat.ltb_spec (length lv) (length la)); try lia; reflexivity.
Qed.
Print Assumptions C63_operand_order.
(** which agrees with the convolution being commutative *)
Lemma conv_at_sum (V : Type) (zero : V) (add mul : V -> V -> V) (a v : list V) i : conv_laws zero add mul ->
  conv_at zero add mul a v i = total zero add (map (fun j => mul (nth (i - j) a zero) (nth j v zero)) (seq 0 (S i))).
Proof.
  intros HL. pose proof HL as (_ & LC & LZ & LM1 & LM2). assert (LZ2 : forall x, add x zero = x) by (intros; now rewrite LC).
  assert (EX : forall (f : nat -> V) n k, (forall j, n <= j -> f j = zero) -> total zero add (map f (seq 0 (n + k))) = total zero add (map f (seq 0 n))).
  { intros f n k Hf. rewrite seq_app, map_app, (total_app zero add mul HL). rewrite (total_zeros zero add mul HL (map f (seq (0 + n) k))); [apply LZ2|].
    intros x Hx. apply in_map_iff in Hx as (j & <- & Hj). apply in_seq in Hj. apply Hf. lia. }
  unfold conv_at. set (f := fun j => mul (if j <=? i then nth (i - j) a zero else zero) (nth j v zero)).
  rewrite <- (EX f (length v) (S i)) by (intros j Hj; unfold f; rewrite (nth_overflow v) by lia; apply LM2).
  rewrite Nat.add_comm, (EX f (S i) (length v)) by (intros j Hj; unfold f; destruct (Nat.leb_spec j i); [lia|apply LM1]).
  f_equal. apply map_ext_in. intros j Hj. apply in_seq in Hj. unfold f. destruct (Nat.leb_spec j i); [auto|lia].
Qed.
Theorem C63_commutative : forall (V : Type) (zero : V) (add mul : V -> V -> V) (a v : list V) (stride : nat),
  conv_laws zero add mul -> (forall x y, mul x y = mul y x) ->
  convolution zero add mul Full stride a v = convolution zero add mul Full stride v a.
Proof.
  intros V zero add mul a v stride HL HC. unfold convolution. cbn [first_pos num_pos]. rewrite (Nat.add_comm (length v)). apply map_ext. intros k. set (i := 0 + k * stride).
  rewrite !conv_at_sum by auto. pose proof HL as (L1 & L2 & _). rewrite (total_rev zero add mul L1 L2). f_equal. apply map_ext_in. intros j Hj. apply in_seq in Hj. cbn beta.
  rewrite HC. f_equal; f_equal; lia.
Qed.
Print Assumptions C63_commutative.

(** refused arguments: unknown mode, stride below 1, mode "same" with an even kernel or with a
    stride above 1, a kernel that is not balanced *)
Theorem C63_rejects : forall (V : Type) (zero junk : V) (add mul : V -> V -> V) (a v : dnd V) (la lv : list V) (ca cv : list Z) (mode : option conv_mode) (stride : Z),
  vec zero a la ca -> vec zero v lv cv -> length lv <= length la ->
  match mode with None => True | Some m => ~ accepted m stride (length lv) end \/
  (exists s, d_split v = Some s /\ 0 < length cv /\ cv <> zcounts (Z.of_nat (length lv)) (length cv)) ->
  convolve zero add mul junk a v mode stride = Err ValueError.
Proof.
  intros V zero junk add mul a v la lv ca cv mode stride Ha Hv HN HR.
  assert (DEC : match mode with None => True | Some m => ~ accepted m stride (length lv) end \/ exists m, mode = Some m /\ accepted m stride (length lv)).
  { destruct mode as [m|]; [|auto]. unfold accepted. destruct (Z_le_dec 1 stride) as [S1|S1]; [|left; tauto]. destruct m; [right; exists Full; split; [auto|split; [auto|discriminate]]| |right; exists Valid; split; [auto|split; [auto|discriminate]]].
    destruct (Z.eq_dec stride 1) as [S2|S2]; [|left; intros [_ H]; destruct (H eq_refl); lia]. destruct (Nat.even (length lv)) eqn:E; [left; intros [_ H]; destruct (H eq_refl); congruence|right; exists Same; auto]. }
  destruct DEC as [D|(m & -> & D)].
  - unfold convolve. rewrite (vec_extent zero a la ca Ha), (vec_extent zero v lv cv Hv). destruct (Nat.ltb_spec (length la) (length lv)); [lia|]. rewrite (vec_extent zero v lv cv Hv). destruct mode as [m|]; [|auto].
    destruct (match m with Same => Nat.even (length lv) | _ => false end) eqn:E; [auto|]. destruct (Z.ltb_spec stride 1); [auto|].
    destruct m; try (exfalso; apply D; split; [lia|discriminate]). destruct (Z.ltb_spec 1 stride); [auto|]. exfalso. apply D. split; [auto|]. intros _. split; [lia|auto].
  - rewrite (enter zero junk add mul a v la lv ca cv m stride Ha Hv HN D). unfold convolve_checked. destruct HR as [HR|(s & Sv & HP & HR)]; [contradiction|].
    destruct (balanced_kernel v) eqn:B; [|reflexivity]. exfalso. apply HR. unfold balanced_kernel in B. rewrite Sv in B. rewrite forallb_forall in B. rewrite (vec_len zero v lv cv Hv), (vec_extent zero v lv cv Hv) in B.
    destruct (vec_split zero v lv cv s Hv Sv) as (_ & _ & _ & F & _). rewrite Forall_forall in F.
    apply (nth_ext _ _ 0%Z 0%Z). { unfold zcounts. now rewrite map_length, counts_of_length. } intros r Hr. specialize (B r ltac:(apply in_seq; lia)). apply Nat.eqb_eq in B. rewrite (vec_lmap zero v lv cv r Hv Hr), Sv in B.
    unfold zcounts. rewrite nth_of_nat, Nat2Z.id, <- B. specialize (F _ (nth_In cv 0%Z Hr)). lia.
Qed.
Print Assumptions C63_rejects.

(** concrete vectors of integers, one list per rank, or one list on all of [P] ranks *)
Definition local (l : list Z) : arr Z := mk_arr [Z.of_nat (length l)] (fun idx => nth (Z.to_nat (nth 0 idx 0%Z)) l 0%Z).
Definition cut (ls : list (list Z)) : dnd Z := mk_dnd (map local ls) [Z.of_nat (length (concat ls))] (Some 0).
Definition copies (P : nat) (l : list Z) : dnd Z := mk_dnd (repeat (local l) P) [Z.of_nat (length l)] None.
Lemma cut_vec ls : vec 0%Z (cut ls) (concat ls) (map (fun l => Z.of_nat (length l)) ls).
Proof.
  split; [reflexivity|]. unfold rep. cbn [cut d_gshape d_split d_locals]. split; [now rewrite !map_length|]. split; [repeat constructor; lia|]. split; [cbn; lia|]. split; [|split].
  - apply Forall_forall. intros z Hz. apply in_map_iff in Hz as (l & <- & _). lia.
  - cbn [nth]. induction ls as [|l ls IH]; [reflexivity|]. cbn [map concat]. rewrite app_length, Nat2Z.inj_add, <- IH. reflexivity.
  - intros r t Ht. rewrite nth_error_map in Ht. destruct (nth_error ls r) as [l|] eqn:El; [|discriminate]. injection Ht as <-.
    assert (EN : nth r (map (fun l => Z.of_nat (length l)) ls) 0%Z = Z.of_nat (length l)) by (apply nth_error_nth; now rewrite nth_error_map, El).
    cbn [upd]. rewrite EN. split; [reflexivity|]. intros idx Hidx. inversion Hidx as [|n0 i0 l0 l1 Hi Hnil]; subst. inversion Hnil; subst. unfold local, adat, move_axis_idx. cbn [nth upd].
    revert r El EN. induction ls as [|k ls IH]; intros [|r] El EN; try discriminate.
    + injection El as ->. cbn [firstn map zsum fold_right concat]. rewrite Z.add_0_r. rewrite app_nth1 by lia. auto.
    + cbn [map firstn concat]. change (zsum (Z.of_nat (length k) :: ?x)) with (Z.of_nat (length k) + zsum x)%Z. cbn [nth_error] in El. rewrite (IH r El) by (apply nth_error_nth; now rewrite nth_error_map, El).
      assert (NN : (0 <= zsum (firstn r (map (fun l => Z.of_nat (length l)) ls)))%Z).
      { clear. revert r. induction ls as [|x ls IH]; intros [|r]; cbn [map firstn]; try (cbn; lia). change (zsum (Z.of_nat (length x) :: ?y)) with (Z.of_nat (length x) + zsum y)%Z. specialize (IH r). lia. }
      rewrite app_nth2 by lia. f_equal. unfold zsum in *. cbn [fold_right]. lia.
Qed.
Lemma copies_vec P l : vec 0%Z (copies P l) l (repeat 0%Z P).
Proof.
  split; [reflexivity|]. unfold rep. cbn [copies d_gshape d_split d_locals]. split; [now rewrite !repeat_length|]. split; [repeat constructor; lia|].
  intros t Ht. apply repeat_spec in Ht. subst t. split; reflexivity.
Qed.
Lemma Z_laws : conv_laws 0%Z Z.add Z.mul.
Proof. repeat split; intros; lia. Qed.

(** a signal of 12 elements on three ranks, an even and an odd kernel *)
Example C63_instance :
  let a := cut [[1; 2; 3; 4]; [5; 6; 7; 8]; [9; 10; 11; 12]]%Z in
  let v := copies 3 [1; 2; 3]%Z in
  let w := copies 3 [1; 2; 3; 4]%Z in
  let vs := cut [[1]; [2]; [3]]%Z in
  vec 0%Z a [1; 2; 3; 4; 5; 6; 7; 8; 9; 10; 11; 12]%Z [4; 4; 4]%Z /\ vec 0%Z v [1; 2; 3]%Z [0; 0; 0]%Z /\ vec 0%Z vs [1; 2; 3]%Z [1; 1; 1]%Z /\
  convolve 0%Z Z.add Z.mul 77%Z a v (Some Full) 1 = Ok (Pieces [[1; 4; 10; 16; 22]; [28; 34; 40; 46; 52]; [58; 64; 57; 36]]%Z 14 (Some 0)) /\
  convolve 0%Z Z.add Z.mul 77%Z a w (Some Full) 1 = Ok (Pieces [[1; 4; 10; 20; 30]; [40; 50; 60; 70; 80; 90]; [100; 97; 80; 48]]%Z 15 (Some 0)) /\
  convolve 0%Z Z.add Z.mul 77%Z a w (Some Valid) 3 = Ok (Pieces [[20]; [50; 80]; []]%Z 3 (Some 0)) /\
  convolve 0%Z Z.add Z.mul 77%Z a vs (Some Full) 2 = Ok (Total [1; 10; 22; 34; 46; 58; 57]%Z) /\
  convolution 0%Z Z.add Z.mul Full 2 [1; 2; 3; 4; 5; 6; 7; 8; 9; 10; 11; 12]%Z [1; 2; 3]%Z = [1; 10; 22; 34; 46; 58; 57]%Z.
Proof.
  cbv zeta. split; [exact (cut_vec [[1; 2; 3; 4]; [5; 6; 7; 8]; [9; 10; 11; 12]]%Z)|]. split; [exact (copies_vec 3 [1; 2; 3]%Z)|]. split; [exact (cut_vec [[1]; [2]; [3]]%Z)|].
  repeat split; vm_compute; reflexivity.
Qed.

(** ---- findings ---- *)
(** Two replicated vectors on two ranks, an even kernel, stride 1: all ranks but the first drop
    the first element, so the copies of the result differ and are too short. *)
Theorem C63_replicated_even_kernel_refuted :
  exists (a v : dnd Z) (la lv : list Z), vec 0%Z a la [0; 0]%Z /\ vec 0%Z v lv [0; 0]%Z /\ d_split a = None /\ d_split v = None /\ length lv = 2 /\
    convolution 0%Z Z.add Z.mul Full 1 la lv = [1; 3; 5; 3]%Z /\
    convolve 0%Z Z.add Z.mul 77%Z a v (Some Full) 1 = Ok (Pieces [[1; 3; 5; 3]; [3; 5; 3]]%Z 4 None).
Proof.
  exists (copies 2 [1; 2; 3]%Z), (copies 2 [1; 1]%Z), [1; 2; 3]%Z, [1; 1]%Z. split; [exact (copies_vec 2 [1; 2; 3]%Z)|]. split; [exact (copies_vec 2 [1; 1]%Z)|]. repeat split; vm_compute; reflexivity.
Qed.
Print Assumptions C63_replicated_even_kernel_refuted.
(** An unbalanced signal whose first rank is empty loses the padding in front: the result claims
    nine elements but has eight. *)
Theorem C63_unbalanced_signal_refuted :
  exists (a v : dnd Z) (la lv : list Z), vec 0%Z a la [0; 4; 4]%Z /\ vec 0%Z v lv [0; 0; 0]%Z /\ d_split a = Some 0 /\ d_split v = None /\
    convolution 0%Z Z.add Z.mul Full 1 la lv = [1; 3; 5; 7; 9; 11; 13; 15; 8]%Z /\
    convolve 0%Z Z.add Z.mul 77%Z a v (Some Full) 1 = Ok (Pieces [[3; 5; 7]; [9; 11; 13]; [15; 8]]%Z 9 (Some 0)).
Proof.
  exists (cut [[]; [1; 2; 3; 4]; [5; 6; 7; 8]]%Z), (copies 3 [1; 1]%Z), [1; 2; 3; 4; 5; 6; 7; 8]%Z, [1; 1]%Z.
  split; [exact (cut_vec [[]; [1; 2; 3; 4]; [5; 6; 7; 8]]%Z)|]. split; [exact (copies_vec 3 [1; 1]%Z)|]. repeat split; vm_compute; reflexivity.
Qed.
Print Assumptions C63_unbalanced_signal_refuted.
(** A distributed kernel and a balanced signal with a rank without elements: RuntimeError. *)
Theorem C63_empty_signal_rank_refuted :
  exists (a v : dnd Z), vec 0%Z a [5]%Z [1; 0]%Z /\ vec 0%Z v [7]%Z [1; 0]%Z /\ d_split a = Some 0 /\ d_split v = Some 0 /\
    convolution 0%Z Z.add Z.mul Full 1 [5]%Z [7]%Z = [35]%Z /\
    convolve 0%Z Z.add Z.mul 77%Z a v (Some Full) 1 = Err RuntimeError.
Proof.
  exists (cut [[5]; []]%Z), (cut [[7]; []]%Z). split; [exact (cut_vec [[5]; []]%Z)|]. split; [exact (cut_vec [[7]; []]%Z)|]. repeat split; vm_compute; reflexivity.
Qed.
Print Assumptions C63_empty_signal_rank_refuted.
