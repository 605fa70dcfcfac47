(** Element-wise functions: proofs. *)
From Verif Require Import Base ShapeSpec BaseLemmas NdSpec TensorSpec TensorLemmas NdLemmas OpsModel OpsProofs2 OpsProofs3 OpsProofs4 OpsProofs5 ShapeModel BinSpec BinModel BinProofs LocalModel.
Open Scope Z_scope.

Lemma map_arr_agrees {A B} (f : A -> B) t sh F : agrees t sh F -> agrees (map_arr f t) sh (fun i => f (F i)).
Proof. intros [H1 H2]. split; [exact H1|]. intros i Hi. cbn. now rewrite H2. Qed.
Lemma map_arr_represents {A B} (f : A -> B) G gsh split cnts ls :
  represents G gsh split cnts ls -> represents (fun i => f (G i)) gsh split cnts (map (map_arr f) ls).
Proof.
  intros (L & N & H). split; [now rewrite map_length|]. split; [auto|]. destruct split as [a|].
  - destruct H as (Ha & Hc & Hz & H). split; [auto|]. split; [auto|]. split; [auto|]. intros r t E. rewrite nth_error_map in E.
    destruct (nth_error ls r) as [u|] eqn:Eu; [|discriminate]. injection E as <-.
    apply (map_arr_agrees f _ _ _ (H _ _ Eu)).
  - intros t Hin. apply in_map_iff in Hin as (u & <- & Hu). apply map_arr_agrees; auto.
Qed.

Definition stretches (p o : Z) : Prop := 0 < o /\ (p = o \/ p = 1).
Lemma bshape_stretch psh osh : Forall2 stretches psh osh -> bshape psh osh = Ok osh.
Proof.
  induction 1 as [|p o psh osh [H1 H2] F IH]; [reflexivity|]. cbn. rewrite IH. unfold bdim.
  destruct (Z.eqb_spec p o); [now subst|]. destruct (Z.eqb_spec p 1); [reflexivity|lia].
Qed.
Lemma zip_with_length {A B C} (f : A -> B -> C) l : forall l', length l = length l' -> length (zip_with f l l') = length l.
Proof. induction l as [|x l IH]; intros [|y l'] H; cbn in *; try reflexivity; try discriminate. rewrite IH; lia. Qed.
Lemma mult_stretch psh osh : Forall2 stretches psh osh -> zip_with Z.mul (zip_with multiple osh psh) psh = osh.
Proof.
  induction 1 as [|p o psh osh [H1 H2] F IH]; [reflexivity|]. cbn. rewrite IH. f_equal. unfold multiple.
  destruct H2 as [-> | ->].
  - destruct (Z.ltb_spec 0 o); [|lia]. rewrite Z.div_same by lia. lia.
  - cbn. rewrite Z.div_1_r. lia.
Qed.
Lemma mod_stretch psh osh : Forall2 stretches psh osh -> forall i, in_bounds osh i -> zip_with Z.modulo i psh = clamp psh i.
Proof.
  induction 1 as [|p o psh osh [H1 H2] F IH]; intros [|k i] Hb; inversion Hb; subst; cbn; auto. f_equal; [|auto].
  destruct (Z.eqb_spec p 1) as [-> |Hp]; [apply Z.mod_1_r|]. destruct H2 as [-> |]; [|lia]. apply Z.mod_small. lia.
Qed.
Lemma no_stretch psh osh : Forall2 stretches psh osh -> existsb (fun k => 1 <? k) (zip_with multiple osh psh) = false -> psh = osh.
Proof.
  induction 1 as [|p o psh osh [H1 H2] F IH]; cbn; auto. intros H. apply orb_false_iff in H as [Ha Hb]. rewrite IH by auto. f_equal.
  destruct H2 as [-> | ->]; auto. unfold multiple in Ha. cbn in Ha. rewrite Z.div_1_r in Ha. apply Z.ltb_ge in Ha. lia.
Qed.
Lemma clamp_skipn psh : forall i k, skipn k (clamp psh i) = clamp (skipn k psh) (skipn k i).
Proof.
  induction psh as [|p psh IH]; intros [|x i] [|k]; cbn; auto.
  - now destruct (skipn k psh).
Qed.
Lemma clamp_self psh : forall i, in_bounds psh i -> clamp psh i = i.
Proof.
  induction psh as [|p psh IH]; intros [|x i] H; inversion H; subst; cbn; auto. f_equal; auto.
  destruct (Z.eqb_spec p 1); lia.
Qed.
Lemma skipn_padded n sh : (length sh <= n)%nat -> skipn (n - length sh) (padded n sh) = sh.
Proof. intros H. unfold padded. rewrite skipn_app, repeat_length, Nat.sub_diag. rewrite skipn_all2 by (rewrite repeat_length; lia). reflexivity. Qed.
Lemma padded_length n sh : (length sh <= n)%nat -> length (padded n sh) = n.
Proof. intros H. unfold padded. rewrite app_length, repeat_length. lia. Qed.
Lemma zprod_padded n sh : zprod (padded n sh) = zprod sh.
Proof. unfold padded. induction (n - length sh)%nat as [|k IH]; [reflexivity|]. cbn [repeat app zprod]. rewrite IH. apply Z.mul_1_l. Qed.

Lemma write_out_spec {A B} (f : A -> B) t osh :
  (length (ash t) <= length osh)%nat -> Forall2 stretches (padded (length osh) (ash t)) osh ->
  length (ash t) = length osh \/ zprod (ash t) <> zprod osh ->
  exists u, write_out f t osh = Ok u /\ agrees u osh (fun i => f (adat t (bcast_idx (ash t) i))).
Proof.
  intros L F D. unfold write_out, bshape_any. rewrite (Nat.max_r _ _ L).
  assert (Ep : padded (length osh) osh = osh) by (unfold padded; now rewrite Nat.sub_diag).
  rewrite Ep, (bshape_stretch _ _ F). cbn [bind].
  destruct (existsb _ _) eqn:Ex.
  - eexists. split; [reflexivity|]. split.
    + cbn. rewrite zip_with_length by (rewrite padded_length; auto). now apply mult_stretch.
    + intros i Hi. cbn [adat map_arr torch_repeat].
      rewrite zip_with_length by (rewrite padded_length; auto). rewrite (mod_stretch _ _ F _ Hi).
      unfold bcast_idx. rewrite clamp_skipn, skipn_padded by auto. now rewrite (in_bounds_length _ _ Hi).
  - apply (no_stretch _ _ F) in Ex. eexists. split; [reflexivity|].
    assert (E : ash t = osh).
    { destruct D as [D|D].
      - rewrite <- Ex. unfold padded. now rewrite D, Nat.sub_diag.
      - exfalso. apply D. rewrite <- Ex. now rewrite zprod_padded. }
    split; [exact E|]. intros i Hi. cbn. rewrite E. unfold bcast_idx.
    rewrite (in_bounds_length _ _ Hi), Nat.sub_diag. cbn [skipn]. now rewrite clamp_self.
Qed.

Lemma write_out_same {A B} (f : A -> B) t : Forall (fun n => 0 <= n) (ash t) ->
  write_out f t (ash t) = Ok (map_arr f t).
Proof.
  intros N. unfold write_out, bshape_any. rewrite Nat.max_id.
  assert (Ep : padded (length (ash t)) (ash t) = ash t) by (unfold padded; now rewrite Nat.sub_diag).
  rewrite Ep. assert (E : bshape (ash t) (ash t) = Ok (ash t)).
  { clear. induction (ash t) as [|n l IH]; [reflexivity|]. cbn. rewrite IH. unfold bdim. now rewrite Z.eqb_refl. }
  rewrite E. cbn [bind]. rewrite Ep. replace (existsb _ _) with false; [reflexivity|].
  symmetry. clear E Ep. induction (ash t) as [|n l IH]; [reflexivity|]. inversion N; subst. cbn. rewrite IH by auto.
  rewrite orb_false_r. apply Z.ltb_ge. unfold multiple. destruct (Z.ltb_spec 0 n); [|lia]. rewrite Z.div_same; lia.
Qed.

Lemma all_ok_zip {A B C} (f : A -> B -> res C) (Q : nat -> C -> Prop) l : forall l' k, length l = length l' ->
  (forall r x y, nth_error l r = Some x -> nth_error l' r = Some y -> exists z, f x y = Ok z /\ Q (k + r)%nat z) ->
  exists zs, all_ok (zip_with f l l') = Ok zs /\ length zs = length l /\ forall r z, nth_error zs r = Some z -> Q (k + r)%nat z.
Proof.
  induction l as [|x l IH]; intros [|y l'] k L H; cbn in L; try discriminate.
  - exists []. split; [reflexivity|]. split; [reflexivity|]. intros [|r] z; discriminate.
  - destruct (H 0%nat x y eq_refl eq_refl) as (z & Ez & Hz).
    destruct (IH l' (S k) ltac:(lia)) as (zs & E & Lz & Hs).
    { intros r a b Ea Eb. destruct (H (S r) a b Ea Eb) as (w & Ew & Hw). exists w. split; [auto|]. now rewrite Nat.add_succ_comm. }
    exists (z :: zs). cbn. rewrite Ez. cbn. rewrite E. cbn. split; [reflexivity|]. split; [now rewrite Lz|].
    intros [|r] w Ew; cbn in Ew; [injection Ew as <-; exact Hz|]. rewrite <- Nat.add_succ_comm. now apply Hs.
Qed.
Lemma Forall2_nth_intro {A B} (R : A -> B -> Prop) d1 d2 l : forall l', length l = length l' ->
  (forall k, (k < length l)%nat -> R (nth k l d1) (nth k l' d2)) -> Forall2 R l l'.
Proof.
  induction l as [|x l IH]; intros [|y l'] L H; cbn in L; try discriminate; constructor.
  - apply (H 0%nat). cbn. lia.
  - apply IH; [lia|]. intros k Hk. apply (H (S k)). cbn. lia.
Qed.
