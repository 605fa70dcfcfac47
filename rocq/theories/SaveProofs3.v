(** Proofs for C47, part 3: header and all processes together. *)
From Coq Require Import QArith Qminmax.
From Verif Require Import Base BaseLemmas LayoutModel NdSpec TensorSpec TensorLemmas OpsModel OpsProofs4 ShapeModel ShapeProps ShapeProofs4 CsvSpec SaveSpec SaveModel SaveProofs SaveProofs2.
Open Scope nat_scope.

Lemma in_combine_seq {A} (l : list A) : forall k r t, In (r, t) (combine (seq k (length l)) l) <-> k <= r /\ nth_error l (r - k) = Some t.
Proof.
  induction l as [|x l IH]; intros k r t; cbn [length seq combine].
  - split; [intros []|]. intros [_ H]. destruct (r - k); discriminate.
  - split.
    + intros [X|X]; [injection X as <- <-; split; [lia|]; now replace (k - k) with 0 by lia|].
      apply IH in X as [H1 H2]. split; [lia|]. replace (r - k) with (S (r - S k)) by lia. exact H2.
    + intros [H1 H2]. destruct (Nat.eq_dec r k) as [->|N]; [left|right].
      * replace (k - k) with 0 in H2 by lia. now injection H2 as ->.
      * apply IH. split; [lia|]. replace (r - k) with (S (r - S k)) in H2 by lia. exact H2.
Qed.

Section Header.
Variable enc : list nat -> list nat.
Definition head_bytes (h : list (list nat)) := concat (map (fun l => enc (with_newline l)) h).
Lemma ends_nl_with l : (if ends_nl l then l else l ++ [10]) = with_newline l.
Proof.
  unfold ends_nl, with_newline. destruct (rev l) as [|a q]; auto.
  destruct a as [|[|[|[|[|[|[|[|[|[|[|a]]]]]]]]]]]; reflexivity.
Qed.
Lemma header_len h : (forall l, length (enc l) = length l) ->
  list_sum (map (@length nat) h) + length (filter (fun l => negb (ends_nl l)) h) = length (head_bytes h).
Proof.
  intros HE. unfold head_bytes. induction h as [|l h IH]; [reflexivity|]. cbn [map concat filter]. rewrite app_length, HE, <- IH, <- ends_nl_with.
  change (list_sum (length l :: map (@length nat) h)) with (length l + list_sum (map (@length nat) h)).
  destruct (ends_nl l); cbn [negb length]; rewrite ?app_length; cbn [length]; lia.
Qed.
Lemma header_pieces E h : forall pre post, E = pre ++ head_bytes h ++ post ->
  forall x, In x (header_writes enc (length pre) h) -> (0 <= fst x)%Z /\ piece E (Z.to_nat (fst x), snd x).
Proof.
  induction h as [|l h IH]; intros pre post HE x Hx; [contradiction|]. cbn [header_writes] in Hx. rewrite ends_nl_with in Hx.
  unfold head_bytes in HE. cbn [map concat] in HE. fold (head_bytes h) in HE. destruct Hx as [<-|Hx].
  - cbn [fst snd]. split; [lia|]. rewrite Nat2Z.id. apply (piece_app E _ _ (head_bytes h ++ post)). rewrite HE. now rewrite <- app_assoc.
  - rewrite <- app_length in Hx. apply (IH (pre ++ enc (with_newline l)) post); [|exact Hx]. rewrite HE. now rewrite <- !app_assoc.
Qed.
Lemma header_covers h : forall pos p, pos <= p < pos + length (head_bytes h) ->
  exists x, In x (header_writes enc pos h) /\ covers (Z.to_nat (fst x), snd x) p.
Proof.
  induction h as [|l h IH]; intros pos p Hp; [cbn in Hp; lia|]. unfold head_bytes in Hp. cbn [map concat] in Hp. fold (head_bytes h) in Hp. rewrite app_length in Hp.
  cbn [header_writes]. rewrite ends_nl_with. destruct (lt_dec p (pos + length (enc (with_newline l)))) as [Y|N].
  - eexists. split; [left; reflexivity|]. unfold covers. cbn [fst snd]. rewrite Nat2Z.id. lia.
  - destruct (IH (pos + length (enc (with_newline l))) p ltac:(lia)) as (x & Hx & C). exists x. split; [now right|exact C].
Qed.
End Header.

Section All.
Variables (V : Type) (lg : Q -> Z) (enc : list nat -> list nat) (nt : numtype V) (x : dnd V) (hs : option (list (list nat))) (sep : nat) (lo hi : Q) (W n c : nat).
Definition hlines := match hs with Some h => h | None => [] end.
Definition twice := match hs with Some h => Some (h, h) | None => None end.
Hypothesis HEnc : forall l, length (enc l) = length l.
Hypothesis Hlo : extreme Qmin nt x = Ok lo.
Hypothesis Hhi : extreme Qmax nt x = Ok hi.
Let isz := item_size (nt_kind nt) (sign_width lo) (pre_point_digits lg lo hi).
Hypothesis HWi : isz = Z.of_nat W.
Lemma width_same : fmt_width (nt_kind nt) (sign_width lo) (pre_point_digits lg lo hi) = isz.
Proof. unfold isz, fmt_width, item_size, sign_width. destruct (nt_kind nt), (qneg lo); cbn [Z.eqb Pos.eqb]; ring. Qed.
Lemma fmt_justify t : fmt_pad (Z.of_nat W) t = justify W t.
Proof. unfold fmt_pad, justify. destruct (Z.ltb_spec (Z.of_nat W) 0); [lia|]. rewrite Z.abs_eq by lia. now rewrite Nat2Z.id. Qed.
Lemma displacement : hl_displacement twice = Z.of_nat (length (head_bytes enc hlines)).
Proof. unfold hl_displacement, twice, hlines. destruct hs as [h|]; [|reflexivity]. now rewrite (header_len enc h HEnc). Qed.

Definition fld (v : V) := justify W (nt_text nt v).
Variable A : nat -> nat -> V.
Hypothesis HF : forall i j, i < n -> j < c -> length (nt_text nt (A i j)) <= W.
Hypothesis HC : 0 < c.
Lemma fld_len i j : i < n -> j < c -> length (fld (A i j)) = W.
Proof. intros Hi Hj. unfold fld, justify. rewrite app_length, repeat_length. specialize (HF i j Hi Hj). lia. Qed.
Let EE := E V fld sep n c A (head_bytes enc hlines).

(** the two-dimensional view of the local arrays *)
Variable as2 : arr V -> arr V.
Variables (active : nat -> bool) (d m e w : nat -> nat).
Hypothesis Hloc : forall r t, nth_error (d_locals x) r = Some t -> active r = true ->
  ash (as2 t) = [Z.of_nat (m r); Z.of_nat (w r)] /\ d r + m r <= n /\ e r + w r <= c /\
  (forall i j, i < m r -> j < w r -> adat (as2 t) [Z.of_nat i; Z.of_nat j] = A (d r + i) (e r + j)).
Hypothesis Hcov : forall i j, i < n -> j < c -> exists r t, nth_error (d_locals x) r = Some t /\ active r = true /\ d r <= i < d r + m r /\ e r <= j < e r + w r.
Hypothesis HP : 0 < length (d_locals x).

Definition rank_writes (rt : nat * arr V) : list (Z * list nat) :=
  (if fst rt =? 0 then match twice with Some (_, h2) => header_writes enc 0 h2 | None => [] end else []) ++
  (if active (fst rt)
   then row_writes fld [sep] (e (fst rt) + w (fst rt) =? c) (Z.of_nat (c * (W + 1))) (as2 (snd rt))
          (Z.of_nat (length (head_bytes enc hlines) + d (fst rt) * (c * (W + 1)) + e (fst rt) * (W + 1))) else []).
Let ws := map rank_writes (combine (seq 0 (length (d_locals x))) (d_locals x)).

Lemma twice_writes y pos : In y (match twice with Some (_, h2) => header_writes enc pos h2 | None => [] end) <-> In y (header_writes enc pos hlines).
Proof. unfold twice, hlines. destruct hs; cbn; tauto. Qed.
Lemma ws_piece l y : In l ws -> In y l -> (0 <= fst y)%Z /\ piece EE (Z.to_nat (fst y), snd y).
Proof.
  intros Hl Hy. unfold ws in Hl. apply in_map_iff in Hl as ([r t] & <- & Hr). apply in_combine_seq in Hr as [_ Hr]. rewrite Nat.sub_0_r in Hr.
  unfold rank_writes in Hy. cbn [fst snd] in Hy. apply in_app_or in Hy as [Hy|Hy].
  - destruct (r =? 0); [|contradiction]. apply twice_writes in Hy. apply (header_pieces enc EE hlines [] (concat (map (line V fld sep c A) (seq 0 n)))); [reflexivity|exact Hy].
  - destruct (active r) eqn:Ar; [|contradiction]. destruct (Hloc r t Hr Ar) as (H1 & H2 & H3 & H4).
    eapply (tile_piece V fld W sep n c A (head_bytes enc hlines) fld_len HC); eauto.
Qed.
Lemma ws_covers p : p < length EE -> exists l y, In l ws /\ In y l /\ covers (Z.to_nat (fst y), snd y) p.
Proof.
  intros Hp. unfold EE in Hp. rewrite (E_len V fld W sep n c A (head_bytes enc hlines) fld_len HC) in Hp.
  set (H := length (head_bytes enc hlines)) in *. destruct (lt_dec p H) as [Y|N].
  - destruct (header_covers enc hlines 0 p) as (y & Hy & C); [fold H; lia|].
    destruct (nth_error (d_locals x) 0) as [t|] eqn:Et; [|apply nth_error_None in Et; lia].
    exists (rank_writes (0, t)), y. split; [|split; [|exact C]].
    + unfold ws. apply in_map, in_combine_seq. split; [lia|exact Et].
    + unfold rank_writes. cbn [fst snd Nat.eqb]. apply in_or_app. left. now apply twice_writes.
  - set (q := p - H). set (rw := c * (W + 1)) in *. assert (RW : 0 < rw) by (unfold rw; nia).
    assert (Q1 := Nat.div_mod q rw ltac:(lia)). assert (Q2 := Nat.mod_upper_bound q rw ltac:(lia)).
    assert (Q3 := Nat.div_mod (q mod rw) (W + 1) ltac:(lia)). assert (Q4 := Nat.mod_upper_bound (q mod rw) (W + 1) ltac:(lia)).
    set (i := q / rw) in *. set (j := q mod rw / (W + 1)) in *. set (k := (q mod rw) mod (W + 1)) in *.
    assert (Hi : i < n). { apply Nat.div_lt_upper_bound; [lia|]. rewrite Nat.mul_comm. unfold q. lia. }
    assert (Hj : j < c). { apply Nat.div_lt_upper_bound; [lia|]. rewrite Nat.mul_comm. exact Q2. }
    destruct (Hcov i j Hi Hj) as (r & t & Hr & Ar & Di & Ej). destruct (Hloc r t Hr Ar) as (H1 & H2 & H3 & H4).
    destruct (tile_covers V fld W sep n c A (head_bytes enc hlines) fld_len HC (as2 t) (d r) (m r) (e r) (w r) H1 H4 H2 H3 i j k Di Ej Q4) as (y & Hy & C).
    exists (rank_writes (r, t)), y. split; [|split].
    + unfold ws. apply in_map, in_combine_seq. split; [lia|]. now rewrite Nat.sub_0_r.
    + unfold rank_writes. cbn [fst snd]. apply in_or_app. right. rewrite Ar. exact Hy.
    + replace p with (length (head_bytes enc hlines) + i * (c * (W + 1)) + j * (W + 1) + k); [exact C|]. fold H rw. unfold q in *. nia.
Qed.
Hypothesis Hmodel : save_csv lg enc nt x twice [sep] =
  if forallb (forallb (fun w => (0 <=? fst w)%Z)) ws then Ok (map (map (fun w => (Z.to_nat (fst w), snd w))) ws) else Err RuntimeError.
Lemma save_all : exists out, save_csv lg enc nt x twice [sep] = Ok out /\ forall old f, outcome old out f -> f = EE ++ skipn (length EE) old.
Proof.
  rewrite Hmodel. assert (X : forallb (forallb (fun w => (0 <=? fst w)%Z)) ws = true).
  { apply forallb_forall. intros l Hl. apply forallb_forall. intros y Hy. apply Z.leb_le. exact (proj1 (ws_piece l y Hl Hy)). }
  rewrite X. eexists. split; [reflexivity|]. intros old f. apply outcome_all.
  - intros y Hy. apply in_concat in Hy as (l' & Hl' & Hy). apply in_map_iff in Hl' as (l & <- & Hl). apply in_map_iff in Hy as (y0 & <- & Hy). exact (proj2 (ws_piece l y0 Hl Hy)).
  - intros p Hp. destruct (ws_covers p Hp) as (l & y & Hl & Hy & C). eexists. split; [|exact C].
    apply in_concat. eexists. split; [apply in_map; exact Hl|]. apply in_map_iff. exists y. auto.
Qed.
End All.
