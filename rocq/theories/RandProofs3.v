(** Proofs about random arrays and layouts (C27). *)
From Verif Require Import Base BaseLemmas TensorSpec TensorLemmas NdSpec NdLemmas LayoutModel LayoutProofs DtypeModel DtypeProofs3 OpsModel RandSpec RandModel RandProofs RandProofs2 ShapeProofs6.
Open Scope Z_scope.

Lemma zprod_upd sh s v : (s < length sh)%nat -> zprod (upd sh s v) * nth s sh 0 = zprod sh * v.
Proof.
  revert s. induction sh as [|x t IH]; intros [|s] H; cbn [length nth upd zprod] in *; try lia.
  rewrite <- Z.mul_assoc, IH by lia. lia.
Qed.
Lemma zprod_div sh s : (s < length sh)%nat -> nth s sh 0 <> 0 ->
  zprod sh / nth s sh 0 = zprod (upd sh s 1) /\ zprod sh = nth s sh 0 * zprod (upd sh s 1).
Proof.
  intros H N. pose proof (zprod_upd sh s 1 H). assert (E : zprod sh = zprod (upd sh s 1) * nth s sh 0) by lia.
  split; [rewrite E; now apply Z.div_mul|lia].
Qed.
Lemma zprod_upd_val sh s v : (s < length sh)%nat -> nth s sh 0 <> 0 -> zprod (upd sh s v) = zprod (upd sh s 1) * v.
Proof.
  intros H N. pose proof (zprod_upd sh s v H). pose proof (zprod_upd sh s 1 H).
  apply (Z.mul_reg_r _ _ (nth s sh 0)); auto. rewrite H0. replace (zprod (upd sh s 1) * v * nth s sh 0) with (zprod (upd sh s 1) * nth s sh 0 * v) by lia.
  rewrite H1. lia.
Qed.

(** where rank r's part of the stream begins *)
Definition spos (shape : list Z) (split : option nat) (P r : nat) : Z :=
  match split with
  | None => 0
  | Some s => zprod (upd shape s 1) * zsum (firstn r (map Z.of_nat (counts_of (Z.to_nat (nth s shape 0)) P)))
  end.
Definition slen (shape : list Z) (split : option nat) (P r : nat) : Z :=
  match split with
  | None => zprod shape
  | Some s => zprod (upd shape s 1) * nth r (map Z.of_nat (counts_of (Z.to_nat (nth s shape 0)) P)) 0
  end.
Definition lshape_of (shape : list Z) (split : option nat) (P r : nat) : list Z :=
  match split with
  | None => shape
  | Some s => upd shape s (nth r (map Z.of_nat (counts_of (Z.to_nat (nth s shape 0)) P)) 0)
  end.

Lemma zsum_firstn_le l k : Forall (fun c => 0 <= c) l -> 0 <= zsum (firstn k l) <= zsum l.
Proof.
  intros F. revert k. induction F as [|x l Hx F IH]; intros k.
  - rewrite firstn_nil. cbn. lia.
  - change (zsum (x :: l)) with (x + zsum l). destruct k as [|k].
    + pose proof (IH 0%nat). cbn [firstn] in *. change (zsum []) with 0 in *. lia.
    + pose proof (IH k). cbn [firstn]. change (zsum (x :: firstn k l)) with (x + zsum (firstn k l)). lia.
Qed.
Lemma zsum_scale a l k : zsum (firstn k (map (Z.mul a) l)) = a * zsum (firstn k l).
Proof. revert k. induction l as [|x l IH]; intros [|k]; cbn; try lia. unfold zsum in IH. rewrite IH. lia. Qed.

Lemma fcum_exact l k : Forall (fun c => 0 <= c) l -> zsum l <= 16777216 -> fcum l k = zsum (firstn (S k) l).
Proof.
  intros F HS. unfold fcum.
  assert (E : map fl32 l = l).
  { rewrite <- (map_id l) at 2. apply map_ext_in. intros x Hx. apply fl32_id.
    rewrite Forall_forall in F. split; [now apply F|].
    assert (forall l, Forall (fun c => 0 <= c) l -> In x l -> x <= zsum l).
    { clear. intros l F. induction F; intros [].
      - subst. change (zsum (x :: l)) with (x + zsum l). pose proof (zsum_firstn_le l 0 F). lia.
      - specialize (IHF H0). change (zsum (x0 :: l)) with (x0 + zsum l). lia. }
    apply H in Hx; [lia|]. now rewrite Forall_forall. }
  rewrite E. apply fl32_id. pose proof (zsum_firstn_le l (S k) F). lia.
Qed.

Section Layout.
Variables (shape : list Z) (split : option nat) (P : nat).
Hypothesis Hsh : Forall (fun n => 0 < n) shape.
Hypothesis Hsp : match split with Some s => (s < length shape)%nat | None => True end.
Hypothesis HP : (0 < P)%nat.

Lemma upd_pos s : 1 <= zprod (upd shape s 1).
Proof.
  apply zprod_pos. apply Forall_forall. intros x Hx. apply (In_nth _ _ 0) in Hx as (k & Hk & <-).
  rewrite upd_length in Hk. destruct (Nat.eq_dec k s) as [->|].
  - rewrite upd_same; lia.
  - rewrite upd_other by auto. rewrite Forall_nth in Hsh. pose proof (Hsh k 0 Hk). lia.
Qed.
Lemma ext_pos s : split = Some s -> 0 < nth s shape 0.
Proof. intros E. rewrite E in Hsp. rewrite Forall_nth in Hsh. now apply Hsh. Qed.

Lemma cnts_nonneg n : Forall (fun c => 0 <= c) (map Z.of_nat (counts_of n P)).
Proof. apply Forall_forall. intros x Hx. apply in_map_iff in Hx as (y & <- & _). lia. Qed.

Lemma spos_S r : (r < P)%nat -> split <> None -> spos shape split P (S r) = spos shape split P r + slen shape split P r.
Proof.
  intros Hr HN. destruct split as [s|]; [|easy]. unfold spos, slen.
  set (l := map Z.of_nat (counts_of (Z.to_nat (nth s shape 0)) P)).
  assert (zsum (firstn (S r) l) = zsum (firstn r l) + nth r l 0); [|rewrite H; lia].
  assert (HL : (r < length l)%nat) by (unfold l; rewrite map_length, counts_of_length; auto).
  clearbody l. revert r Hr HL. clear. intros r _. revert r. induction l as [|x l IH]; intros [|r] H; cbn in *; try lia.
  unfold zsum in *. cbn in *. rewrite IH by lia. lia.
Qed.
Lemma spos_total : split <> None -> spos shape split P P = zprod shape.
Proof.
  intros HN. pose proof ext_pos as EP. destruct split as [s|] eqn:E; [|easy]. unfold spos.
  rewrite firstn_all2 by (rewrite map_length, counts_of_length; auto).
  destruct (counts_Z (Z.to_nat (nth s shape 0)) P HP) as [-> _].
  pose proof (EP s eq_refl). destruct (zprod_div shape s) as [_ ->]; auto; [lia|]. rewrite Z2Nat.id; lia.
Qed.
Lemma spos_nonneg r : 0 <= spos shape split P r.
Proof.
  destruct split as [s|]; cbn; [|lia]. pose proof (upd_pos s).
  pose proof (zsum_firstn_le _ r (cnts_nonneg (Z.to_nat (nth s shape 0)))). nia.
Qed.
Lemma slen_nonneg r : 0 <= slen shape split P r.
Proof.
  destruct split as [s|]; cbn.
  - pose proof (upd_pos s). rewrite (map_nth Z.of_nat _ 0%nat). nia.
  - apply zprod_nonneg. revert Hsh. apply Forall_impl. lia.
Qed.
Lemma spos_end r : (r < P)%nat -> spos shape split P r + slen shape split P r <= zprod shape.
Proof.
  intros Hr. pose proof (spos_S r Hr) as SS. pose proof spos_total as ST. destruct split as [s|] eqn:E.
  - rewrite <- SS by easy. rewrite <- ST by easy. unfold spos. pose proof (upd_pos s).
    set (l := map _ _). assert (zsum (firstn (S r) l) <= zsum (firstn P l)); [|nia].
    replace (firstn (S r) l) with (firstn (S r) (firstn P l)) by (rewrite firstn_firstn; f_equal; lia).
    apply zsum_firstn_le. rewrite firstn_all2; [apply cnts_nonneg|]. unfold l. rewrite map_length, counts_of_length. auto.
  - cbn. lia.
Qed.
Lemma lshape_prod r : zprod (lshape_of shape split P r) = slen shape split P r.
Proof.
  pose proof ext_pos as EP. destruct split as [s|] eqn:E; cbn; auto. apply zprod_upd_val; auto. pose proof (EP s eq_refl). lia.
Qed.

Lemma local_range_ok r c1 : (r < P)%nat -> zprod shape <= 16777216 ->
  let lo := spos shape split P r in let hi := lo + slen shape split P r in
  local_range shape split r P c1 =
  Ok (c1 + lo / 2, c1 + lo / 2 + ((hi + 1) / 2 - lo / 2), (negb (lo mod 2 =? 0), negb (hi mod 2 =? 0)), lshape_of shape split P r).
Proof.
  intros Hr HT lo hi. pose proof ext_pos as EP. pose proof (spos_nonneg r) as NL. pose proof (slen_nonneg r) as NE.
  unfold local_range. destruct split as [s|] eqn:E.
  - pose proof (EP s eq_refl) as HN. destruct (Z.eqb_spec (nth s shape 0) 0); [lia|].
    destruct (zprod_div shape s) as [-> HZ]; [auto|lia|].
    set (inner := zprod (upd shape s 1)) in *. set (cn := map Z.of_nat (counts_of (Z.to_nat (nth s shape 0)) P)) in *.
    pose proof (upd_pos s) as HI. fold inner in HI.
    assert (EL : lshape_of shape (Some s) P r = upd shape s (Z.of_nat (snd (chunk_1d (Z.to_nat (nth s shape 0)) r P)))).
    { cbn. f_equal. destruct (counts_Z (Z.to_nat (nth s shape 0)) P HP) as [_ K]. now apply K. }
    rewrite EL.
    assert (EC : match r with O => 0 | S k => fcum (map (fun c => inner * c) cn) k end = lo).
    { unfold lo, spos. fold cn inner. destruct r as [|k]; [cbn; lia|].
      rewrite fcum_exact.
      - apply zsum_scale.
      - apply Forall_map. eapply Forall_impl; [|apply cnts_nonneg]. cbn. intros; nia.
      - replace (zsum (map (fun c => inner * c) cn)) with (inner * zsum cn).
        + unfold cn. destruct (counts_Z (Z.to_nat (nth s shape 0)) P HP) as [-> _]. rewrite Z2Nat.id by lia. lia.
        + clear. induction cn; cbn; [lia|]. unfold zsum in *. cbn. rewrite <- IHcn. lia. }
    rewrite EC.
    assert (EE : nth r (map (fun c => inner * c) cn) 0 = slen shape (Some s) P r).
    { unfold slen. fold inner cn. replace 0 with (inner * 0) at 1 by lia. now rewrite (map_nth (fun c => inner * c)). }
    rewrite EE. set (e := slen shape (Some s) P r) in *.
    assert (E0 : match r with O => true | S _ => lo mod 2 =? 0 end = (lo mod 2 =? 0)).
    { destruct r; auto. unfold lo, spos. cbn. rewrite Z.mul_0_r. auto. }
    rewrite E0. fold lo in NL. fold e in NE.
    unfold hi in *. clearbody lo e. clear - NL NE.
    destruct (Z.eqb_spec (lo mod 2) 0); destruct (Z.eqb_spec (e mod 2) 0); cbn [negb];
      destruct (Z.eqb_spec ((lo + e) mod 2) 0); cbn [negb]; try lia; do 3 f_equal; f_equal; lia.
  - unfold lo, hi, spos, slen, lshape_of. cbn in NE.
    change (0 / 2) with 0. change (0 mod 2 =? 0) with true. cbn [negb]. rewrite !Z.add_0_r, Z.add_0_l, Z.sub_0_r.
    do 4 f_equal. lia.
Qed.
End Layout.
