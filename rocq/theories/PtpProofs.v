(** ptp: proofs. *)
From Verif Require Import Base ShapeSpec BaseLemmas LayoutModel NdSpec TensorSpec TensorLemmas NdLemmas ShapeProofs3 OpsModel OpsProofs4 OpsProofs5 ShapeModel ShapeProofs4 ShapeProps VmapSpec VmapProofs PtpSpec PtpModel.
Open Scope Z_scope.

(** [m] is the extreme value of [l] with respect to [R], NaN if there is one *)
Definition ext (R : Z -> Z -> Prop) (l : list (option Z)) (m : option Z) : Prop :=
  (In None l /\ m = None) \/ (exists z, m = Some z /\ In (Some z) l /\ forall v, In v l -> exists w, v = Some w /\ R z w).
Definition picks (op : option Z -> option Z -> option Z) (R : Z -> Z -> Prop) : Prop :=
  (forall x y, R x y -> R y x -> x = y) /\ (forall x, R x x) /\ (forall x y z, R x y -> R y z -> R x z) /\
  (forall a, op None a = None /\ op a None = None) /\ (forall x y, exists z, op (Some x) (Some y) = Some z /\ (z = x \/ z = y) /\ R z x /\ R z y).
Lemma picks_min : picks omin Z.le.
Proof. repeat split; try (intros; lia); try (now destruct a). intros x y. exists (Z.min x y). repeat split; lia. Qed.
Lemma picks_max : picks omax Z.ge.
Proof. repeat split; try (intros; lia); try (now destruct a). intros x y. exists (Z.max x y). repeat split; lia. Qed.

Section O.
Context (op : option Z -> option Z -> option Z) (R : Z -> Z -> Prop) (HR : picks op R).
Lemma ext_merge l1 l2 m1 m2 : ext R l1 m1 -> ext R l2 m2 -> ext R (l1 ++ l2) (op m1 m2).
Proof.
  destruct HR as (_ & Rr & Rt & Hn & Hs). intros [[I ->]|(z1 & -> & I1 & A1)].
  - intros _. left. split; [apply in_or_app; auto|apply Hn].
  - intros [[I ->]|(z2 & -> & I2 & A2)]; [left; split; [apply in_or_app; auto|apply Hn]|].
    destruct (Hs z1 z2) as (z & E & Hz & R1 & R2). right. exists z. split; [auto|]. split.
    + destruct Hz as [->| ->]; apply in_or_app; auto.
    + intros v Hv. apply in_app_or in Hv as [Hv|Hv]; [destruct (A1 v Hv) as (w & -> & Hw)|destruct (A2 v Hv) as (w & -> & Hw)]; exists w; split; eauto.
Qed.
Lemma ext_one v : ext R [v] v.
Proof. destruct HR as (_ & Rr & _). destruct v as [z|]; [right|left; cbn; auto]. exists z. cbn. split; [auto|]. split; [auto|]. intros v [<-|[]]. exists z. auto. Qed.
Lemma ext_fold ls : forall ms l acc, Forall2 (ext R) ls ms -> ext R l acc -> ext R (l ++ concat ls) (fold_left op ms acc).
Proof.
  induction ls as [|l1 ls IH]; intros ms l acc HF HE; inversion HF as [|? m ? ms' H1 H2]; subst; cbn [concat fold_left].
  - now rewrite app_nil_r.
  - rewrite app_assoc. apply IH; auto. now apply ext_merge.
Qed.
Lemma ext_ranks ls ms : Forall2 (ext R) ls ms -> ms <> [] -> ext R (concat ls) (big1 op ms).
Proof. intros HF Hn. destruct HF as [|l m ls ms H1 H2]; [contradiction|]. cbn [concat big1]. now apply ext_fold. Qed.
Lemma ext_big l : l <> [] -> ext R l (big1 op l).
Proof.
  intros Hn. replace l with (concat (map (fun v => [v]) l)) at 1; [|clear; induction l; cbn; congruence].
  apply ext_ranks; auto. clear Hn. induction l; cbn [map]; constructor; auto. apply ext_one.
Qed.
Lemma ext_unique l l' m m' : ext R l m -> ext R l' m' -> (forall v, In v l <-> In v l') -> m = m'.
Proof.
  destruct HR as (Ra & _). intros [[I ->]|(z & -> & I & A)] [[I' ->]|(z' & -> & I' & A')] H; auto.
  - apply H in I. destruct (A' _ I) as (w & E & _). discriminate E.
  - apply H in I'. destruct (A _ I') as (w & E & _). discriminate E.
  - f_equal. apply H in I. apply H in I'. destruct (A _ I') as (w & [= <-] & R1). destruct (A' _ I) as (w' & [= <-] & R2). auto.
Qed.
End O.

Lemma ext_range l m M : ext Z.le l m -> ext Z.ge l M -> range_of l (osub M m).
Proof.
  intros [[I ->]|(z & -> & I & A)] HM.
  - left. split; [auto|]. destruct M; reflexivity.
  - destruct HM as [[I' ->]|(z' & -> & I' & A')]; [left; auto|]. right. exists z, z'. repeat split; auto.
    intros v Hv. destruct (A v Hv) as (w & -> & H1). destruct (A' _ Hv) as (w' & [= <-] & H2). exists w. split; [auto|lia].
Qed.
(** max - min of a list, as the code computes it on one process *)
Definition spread_of (l : list (option Z)) : option Z := osub (big1 omax l) (big1 omin l).
Lemma spread_range l : l <> [] -> range_of l (spread_of l).
Proof. intros H. apply ext_range; apply ext_big; auto using picks_min, picks_max. Qed.

Lemma halves_cat u v : (0 < length (ash u))%nat -> 0 <= nth 0 (ash u) 0 ->
  ash (halves (cat0 u v)) = ash u /\ forall idx, in_bounds (ash u) idx -> adat (halves (cat0 u v)) idx = osub (adat v idx) (adat u idx).
Proof.
  intros HL H0. unfold halves, cat0. cbn [ash adat]. set (h := nth 0 (ash u) 0) in *. rewrite upd_same by auto.
  replace (2 * h / 2) with h by (rewrite Z.mul_comm, Z.div_mul; lia). split; [rewrite upd_upd; apply upd_self|].
  intros idx Hi. pose proof (in_bounds_length _ _ Hi) as L. apply in_bounds_nth in Hi as [_ Hi]. specialize (Hi 0%nat HL). fold h in Hi.
  rewrite upd_same by lia. rewrite (proj2 (Z.ltb_ge _ _)) by lia. rewrite (proj2 (Z.ltb_lt _ _)) by lia. rewrite upd_upd.
  replace (nth 0 idx 0 + h - h) with (nth 0 idx 0) by lia. rewrite upd_self. reflexivity.
Qed.

Lemma upd_length_pos {A} (l : list A) k v : (0 < length l)%nat -> (0 < length (upd l k v))%nat.
Proof. now rewrite upd_length. Qed.
Lemma nonneg_nth l k : Forall (fun n => 0 <= n) l -> 0 <= nth k l 0.
Proof. intros H. destruct (Nat.lt_ge_cases k (length l)) as [L|L]; [rewrite Forall_forall in H; apply H, nth_In; auto|rewrite nth_overflow by auto; lia]. Qed.

(** without communication *)
Lemma local_ptp t a : Forall (fun n => 0 <= n) (ash t) -> (0 < length (ash t))%nat ->
  ash (halves (local_minmax t (Some a))) = upd (ash t) a 1 /\
  forall idx, in_bounds (upd (ash t) a 1) idx -> adat (halves (local_minmax t (Some a))) idx = spread_of (line (adat t) (ash t) a idx).
Proof.
  intros Hn HL. unfold local_minmax.
  assert (N : Forall (fun n => 0 <= n) (upd (ash t) a 1)) by (apply Forall_upd; [auto|lia]).
  destruct (halves_cat (red omin t a) (red omax t a)) as [S0 D0]; cbn [red ash]; [now apply upd_length_pos|now apply nonneg_nth|].
  split; [exact S0|]. intros idx Hi. rewrite D0 by exact Hi. reflexivity.
Qed.
Lemma local_ptp_all t : adat (halves (local_minmax t None)) [0] = spread_of (flat t) /\ ash (halves (local_minmax t None)) = [1].
Proof.
  unfold local_minmax. destruct (halves_cat (mk_arr [1] (fun _ => big1 omin (flat t))) (mk_arr [1] (fun _ => big1 omax (flat t)))) as [S0 D0]; cbn [ash]; [simpl; lia|simpl; lia|].
  split; [|exact S0]. rewrite D0; [reflexivity|]. repeat constructor; lia.
Qed.

(** with communication: every packed tensor has the shape (2h, ...), the first half minima, the second maxima *)
Lemma reduced_ok sh us vs : (0 < length sh)%nat -> 0 <= nth 0 sh 0 -> length us = length vs -> (forall u, In u us -> ash u = sh) ->
  forall y, In y (map halves (allreduce_minmax (map (fun p => cat0 (fst p) (snd p)) (combine us vs)))) ->
  ash y = sh /\ forall idx, in_bounds sh idx -> adat y idx = osub (big1 omax (map (fun v => adat v idx) vs)) (big1 omin (map (fun u => adat u idx) us)).
Proof.
  intros HL H0 LE HS y Hy. unfold allreduce_minmax in Hy. rewrite !map_map in Hy. apply in_map_iff in Hy as ([u v] & <- & Hp). cbn [fst snd].
  pose proof (HS u (in_combine_l _ _ _ _ Hp)) as Su. unfold halves. set (h := nth 0 sh 0) in *.
  assert (SC : ash (cat0 u v) = upd sh 0 (2 * h)) by (unfold cat0; cbn [ash]; rewrite Su; reflexivity).
  cbn [ash adat]. rewrite SC, upd_same by auto. replace (2 * h / 2) with h by (rewrite Z.mul_comm, Z.div_mul; lia).
  split; [rewrite upd_upd; apply upd_self|]. intros idx Hi. pose proof (in_bounds_length _ _ Hi) as L. apply in_bounds_nth in Hi as [_ Hi]. specialize (Hi 0%nat HL). fold h in Hi.
  rewrite upd_same by lia. rewrite (proj2 (Z.ltb_ge (nth 0 idx 0 + h) h)) by lia. rewrite (proj2 (Z.ltb_lt (nth 0 idx 0) h)) by lia.
  f_equal; f_equal; rewrite map_map.
  - transitivity (map (fun p : arr (option Z) * arr (option Z) => adat (snd p) idx) (combine us vs)).
    + apply map_ext_in. intros [u' v'] Hq. unfold cat0. cbn [fst snd adat]. rewrite (HS u' (in_combine_l _ _ _ _ Hq)). fold h. rewrite upd_same by lia.
      rewrite (proj2 (Z.ltb_ge (nth 0 idx 0 + h) h)) by lia. rewrite upd_upd. replace (nth 0 idx 0 + h - h) with (nth 0 idx 0) by lia. now rewrite upd_self.
    + clear - LE. revert vs LE. induction us as [|u us IH]; intros [|v vs] LE; try discriminate LE; [reflexivity|]. cbn. f_equal. apply IH. now injection LE.
  - transitivity (map (fun p : arr (option Z) * arr (option Z) => adat (fst p) idx) (combine us vs)).
    + apply map_ext_in. intros [u' v'] Hq. unfold cat0. cbn [fst snd adat]. rewrite (HS u' (in_combine_l _ _ _ _ Hq)). fold h.
      rewrite (proj2 (Z.ltb_lt (nth 0 idx 0) h)) by lia. reflexivity.
    + clear - LE. revert vs LE. induction us as [|u us IH]; intros [|v vs] LE; try discriminate LE; [reflexivity|]. cbn. f_equal. apply IH. now injection LE.
Qed.

Lemma ext_spread (ls : list (list (option Z))) l : ls <> [] -> (forall k, In k ls -> k <> []) -> (forall v, In v (concat ls) <-> In v l) ->
  osub (big1 omax (map (big1 omax) ls)) (big1 omin (map (big1 omin) ls)) = spread_of l.
Proof.
  intros HN HK HI. unfold spread_of.
  assert (LN : l <> []).
  { destruct ls as [|k ls]; [contradiction|]. destruct k as [|v k]; [exfalso; apply (HK []); cbn; auto|]. intros ->. apply (HI v). cbn. auto. }
  assert (F : forall op R, picks op R -> Forall2 (ext R) ls (map (big1 op) ls)).
  { intros op R HR. clear - HK HR. induction ls as [|k ls IH]; cbn [map]; constructor; [apply ext_big; auto; apply HK; cbn; auto|apply IH; intros; apply HK; cbn; auto]. }
  assert (NM : forall op, map (big1 op) ls <> []) by (intros op; destruct ls; [contradiction|discriminate]).
  f_equal.
  - eapply ext_unique; [exact picks_max|apply ext_ranks; [exact picks_max|apply F, picks_max|apply NM]|apply ext_big; [exact picks_max|auto]|auto].
  - eapply ext_unique; [exact picks_min|apply ext_ranks; [exact picks_min|apply F, picks_min|apply NM]|apply ext_big; [exact picks_min|auto]|auto].
Qed.

Lemma line_nonempty {A} (G : list Z -> A) sh a idx : 0 < nth a sh 0 -> line G sh a idx <> [].
Proof. intros H E. apply (f_equal (@length A)) in E. unfold line in E. rewrite map_length, length_zr in E. simpl in E. lia. Qed.
(** the lines of the pieces make up the line of the array *)
Lemma lines_of_pieces {A} (G : list Z -> A) gsh s cnts ls idx : represents G gsh (Some s) cnts ls -> in_bounds (upd gsh s 1) idx ->
  forall v, In v (concat (map (fun t => line (adat t) (ash t) s idx) ls)) <-> In v (line G gsh s idx).
Proof.
  intros (HL & Hn & Hs & Hc & Hsum & HR) Hi v. pose proof (in_bounds_length _ _ Hi) as L. rewrite upd_length in L.
  assert (B : forall c j, 0 <= j < c -> in_bounds (upd gsh s c) (upd idx s j)).
  { intros c j Hj. apply in_bounds_upd_shape; auto. rewrite upd_length. split; [auto|]. rewrite upd_same by lia. split; [auto|]. intros k Hk Hne. rewrite upd_other by auto.
    apply in_bounds_nth in Hi as [_ Hi]. specialize (Hi k). rewrite upd_length, upd_other in Hi by auto. auto. }
  rewrite in_concat. unfold line. split.
  - intros (l & Hl & Hv). apply in_map_iff in Hl as (t & <- & Ht). apply in_map_iff in Hv as (j & <- & Hj). apply in_zr in Hj. apply In_nth_error in Ht as [r Er].
    destruct (HR r t Er) as [S0 D0]. rewrite S0, upd_same in Hj by auto. rewrite D0 by (apply B; auto). apply in_map_iff.
    exists (j + zsum (firstn r cnts)). split; [unfold move_axis_idx; rewrite upd_same by lia; now rewrite upd_upd|]. apply in_zr.
    assert (Q : in_bounds gsh (move_axis_idx s (zsum (firstn r cnts)) (upd idx s j))).
    { apply (move_in_bounds gsh s cnts r); auto. assert (r < length ls)%nat by (apply nth_error_Some; congruence). lia. }
    apply in_bounds_nth in Q as [_ Q]. specialize (Q s Hs). unfold move_axis_idx in Q. rewrite !upd_same in Q by (rewrite ?upd_length; lia). exact Q.
  - intros Hv. apply in_map_iff in Hv as (z & <- & Hz). apply in_zr in Hz. rewrite <- Hsum in Hz.
    pose proof (owner_spec cnts z Hc Hz) as HO. destruct (owner cnts z) as [r y]. destruct HO as (Hr & Ey & Hy).
    destruct (nth_error ls r) as [t|] eqn:Et; [|apply nth_error_None in Et; lia]. destruct (HR r t Et) as [S0 D0].
    exists (map (fun j => adat t (upd idx s j)) (zr (nth s (ash t) 0))). split; [apply in_map_iff; exists t; split; [reflexivity|eapply nth_error_In; eauto]|].
    apply in_map_iff. exists y. split; [|apply in_zr; rewrite S0, upd_same by auto; auto]. rewrite D0 by (apply B; auto). unfold move_axis_idx. rewrite upd_same by lia. rewrite upd_upd. do 2 f_equal. lia.
Qed.

(** dropping an axis of length one *)
Definition down (a s : nat) : nat := if (a <? s)%nat then (s - 1)%nat else s.
Lemma down_S a s : a <> s -> down (S a) (S s) = S (down a s).
Proof. unfold down. intros H. change (S a <? S s)%nat with (a <? s)%nat. destruct (Nat.ltb_spec a s); lia. Qed.
Lemma down_0S s : down 0 (S s) = s.
Proof. unfold down. destruct (Nat.ltb_spec 0 (S s)); lia. Qed.
Lemma down_S0 a : down (S a) 0 = 0%nat.
Proof. reflexivity. Qed.
Lemma del_upd_other {A} (v : A) : forall sh a s, a <> s -> del a (upd sh s v) = upd (del a sh) (down a s) v.
Proof.
  induction sh as [|n sh IH]; intros a s H; [assert (N : forall k, upd (@nil A) k v = []) by (intros [|k]; reflexivity); unfold del; rewrite N, firstn_nil, skipn_nil, N; reflexivity|].
  destruct s as [|s], a as [|a]; try contradiction; [reflexivity|rewrite down_0S; reflexivity|].
  rewrite down_S by lia. change (n :: del a (upd sh s v) = n :: upd (del a sh) (down a s) v). f_equal. apply IH. lia.
Qed.
Lemma ins_upd_other {A} (v w : A) : forall idx a s, (a <= length idx)%nat -> a <> s -> ins a v (upd idx (down a s) w) = upd (ins a v idx) s w.
Proof.
  induction idx as [|n idx IH]; intros a s L H.
  - destruct a; [|cbn in L; lia]. destruct s as [|[|s]]; [contradiction|reflexivity|]. reflexivity.
  - destruct s as [|s], a as [|a]; try contradiction; [reflexivity|rewrite down_0S; reflexivity|].
    rewrite down_S by lia. change (n :: ins a v (upd idx (down a s) w) = n :: upd (ins a v idx) s w). f_equal. apply IH; [cbn in L; lia|lia].
Qed.
Lemma nth_ins_other (v : Z) : forall idx a s, (a <= length idx)%nat -> a <> s -> nth s (ins a v idx) 0 = nth (down a s) idx 0.
Proof.
  induction idx as [|n idx IH]; intros a s L H.
  - destruct a; [|cbn in L; lia]. destruct s as [|[|s]]; [contradiction|reflexivity|]. reflexivity.
  - destruct s as [|s], a as [|a]; try contradiction; [reflexivity|rewrite down_0S; reflexivity|].
    rewrite down_S by lia. change (nth s (ins a v idx) 0 = nth (down a s) idx 0). apply IH; [cbn in L; lia|lia].
Qed.
Lemma del_all (P : Z -> Prop) : forall sh a, Forall P sh -> Forall P (del a sh).
Proof. induction sh as [|n sh IH]; intros [|a] H; unfold del; cbn [firstn skipn app]; auto; inversion H; subst; auto. constructor; auto. apply (IH a). auto. Qed.
Lemma drop_agrees (y : arr (option Z)) sh a R : (a < length sh)%nat -> agrees y (upd sh a 1) R -> agrees (drop_dim y (Some a)) (del a sh) (fun idx => R (ins a 0 idx)).
Proof.
  intros L [S0 D0]. unfold agrees, drop_dim. cbn [ash adat]. rewrite S0. fold (del a (upd sh a 1)). rewrite del_upd. split; [reflexivity|].
  intros idx Hi. fold (ins a 0 idx). apply D0. apply ins_b; auto. lia.
Qed.

Lemma upd_comm' {A} (v w : A) : forall l a s, a <> s -> upd (upd l a v) s w = upd (upd l s w) a v.
Proof. induction l as [|n l IH]; intros [|a] [|s] H; cbn [upd]; try reflexivity; [contradiction|]. f_equal. apply IH. lia. Qed.
Lemma ins_in sh a idx : (a < length sh)%nat -> in_bounds (del a sh) idx -> in_bounds (upd sh a 1) (ins a 0 idx).
Proof. intros. apply ins_b; auto. lia. Qed.
Lemma drop_represents (R : list Z -> option Z) gsh a s cnts ys : (a < length gsh)%nat -> Forall (fun n => 0 <= n) gsh -> a <> s ->
  represents R (upd gsh a 1) (Some s) cnts ys -> represents (fun idx => R (ins a 0 idx)) (del a gsh) (Some (down a s)) cnts (map (fun y => drop_dim y (Some a)) ys).
Proof.
  intros La Hg Hne (HL & Hn & Hs & Hc & Hsum & HR). rewrite upd_length in Hs. rewrite upd_other in Hsum by auto.
  pose proof (del_length a gsh La) as LD.
  assert (Ld : (down a s < length (del a gsh))%nat) by (unfold down; destruct (Nat.ltb_spec a s); lia).
  split; [now rewrite map_length|]. split; [now apply del_all|]. split; [exact Ld|]. split; [exact Hc|]. split.
  { rewrite Hsum. clear - Hne Hs. revert a s Hne Hs. induction gsh as [|n gsh IH]; intros [|a] [|s] Hne Hs; cbn in Hs; try lia; try reflexivity; [now rewrite down_0S|].
    rewrite down_S by lia. apply (IH a s); lia. }
  intros r t Et. rewrite nth_error_map in Et. destruct (nth_error ys r) as [y|] eqn:Ey; [|discriminate Et]. injection Et as <-.
  specialize (HR r y Ey). rewrite (upd_comm' _ _ gsh a s) in HR by auto.
  destruct (drop_agrees y (upd gsh s (nth r cnts 0)) a (fun idx => R (move_axis_idx s (zsum (firstn r cnts)) idx))) as [S1 D1]; [rewrite upd_length; auto|exact HR|].
  split; [etransitivity; [exact S1|now apply del_upd_other]|]. intros idx Hi. rewrite <- del_upd_other in Hi by auto.
  etransitivity; [apply D1; exact Hi|]. f_equal. pose proof (in_bounds_length _ _ Hi) as LI. rewrite del_upd_other, upd_length in LI by auto.
  unfold move_axis_idx. rewrite ins_upd_other by lia. rewrite nth_ins_other by lia. reflexivity.
Qed.

Section Y.
Context (x : dnd (option Z)) (cnts : list Z) (G : list Z -> option Z) (a : nat).
Hypothesis HX : rep x cnts G.
Hypothesis H1 : Forall (fun n => 1 <= n) (d_gshape x).
Hypothesis Hc1 : d_split x <> None -> Forall (fun n => 1 <= n) cnts.
Hypothesis HP : cnts <> [].
Hypothesis La : (a < length (d_gshape x))%nat.
Notation gsh := (d_gshape x).
Notation P := (length (d_locals x)).
Lemma H0 : Forall (fun n => 0 <= n) gsh.
Proof. eapply Forall_impl; [|exact H1]. cbn. intros; lia. Qed.
Lemma local_pos t : In t (d_locals x) -> Forall (fun n => 1 <= n) (ash t) /\ length (ash t) = length gsh.
Proof.
  intros Ht. destruct HX as (HL & Hn & HS).  destruct (d_split x) as [s|] eqn:Es.
  - destruct HS as (Hs & Hc & Hsum & HR). apply In_nth_error in Ht as [r Er]. destruct (HR r t Er) as [E _]. rewrite E. split; [|apply upd_length].
    apply Forall_upd; [exact H1|]. assert (Hr : (r < length cnts)%nat) by (rewrite <- HL; apply nth_error_Some; congruence).
    assert (Q : Forall (fun n => 1 <= n) cnts) by (apply Hc1; discriminate). rewrite Forall_forall in Q. apply Q, nth_In, Hr.
  - destruct (HS t Ht) as [E _]. rewrite E. auto.
Qed.
Lemma start_id d t : In t (d_locals x) -> start gsh (d_split x) P d t = t.
Proof.
  intros Ht. destruct (local_pos t Ht) as [Hp _]. unfold start. destruct (d_split x); [|reflexivity].
  replace (existsb (Z.eqb 0) (ash t)) with false; [now rewrite andb_false_r|]. symmetry. apply not_true_is_false. intros E. apply existsb_exists in E as (m & Hn & E).
  rewrite Forall_forall in Hp. specialize (Hp m Hn). apply Z.eqb_eq in E. lia.
Qed.
Lemma starts d : map (start gsh (d_split x) P d) (d_locals x) = d_locals x.
Proof. transitivity (map (fun t => t) (d_locals x)); [apply map_ext_in; intros; now apply start_id|apply map_id]. Qed.
Lemma nonempty_ls : d_locals x <> [].
Proof. intros E. apply HP. destruct HX as (HL & _). rewrite E in HL. destruct cnts; [auto|discriminate HL]. Qed.

Definition packed_a := map (fun t => local_minmax t (Some a)) (d_locals x).
Definition reduced_a := match d_split x with Some s => if (1 <? P)%nat && Nat.eqb a s then allreduce_minmax packed_a else packed_a | None => packed_a end.
Definition RG (idx : list Z) : option Z := spread_of (line G gsh a idx).
Lemma local_line (t : arr (option Z)) F sh idx : agrees t sh F -> in_bounds (upd sh a 1) idx -> (a < length sh)%nat -> line (adat t) (ash t) a idx = line F sh a idx.
Proof.
  intros [E D] Hi L. unfold line. rewrite E. apply map_ext_in. intros j Hj. apply in_zr in Hj. apply D. apply in_bounds_upd_shape in Hi as (Li & _ & Hi); auto.
  apply in_bounds_nth. rewrite upd_length. split; [auto|]. intros k Hk. destruct (Nat.eq_dec k a) as [->|Hne]; [rewrite upd_same by lia; auto|rewrite upd_other by auto; auto].
Qed.
Lemma same_axis s : d_split x = Some s -> a = s -> forall y, In y (map halves reduced_a) -> agrees y (upd gsh a 1) RG.
Proof.
  intros Es <- y Hy. pose proof HX as HX'. unfold rep in HX'. rewrite Es in HX'. pose proof (lines_of_pieces G gsh a cnts (d_locals x)) as LP.
  set (us := map (fun t => red omin t a) (d_locals x)). set (vs := map (fun t => red omax t a) (d_locals x)).
  assert (SU : forall u, In u us -> ash u = upd gsh a 1).
  { intros u Hu. apply in_map_iff in Hu as (t & <- & Ht). cbn [red ash]. destruct HX' as (_ & _ & _ & _ & _ & HR). apply In_nth_error in Ht as [r Er]. destruct (HR r t Er) as [E _].
    rewrite E. apply upd_upd. }
  assert (EP : packed_a = map (fun p => cat0 (fst p) (snd p)) (combine us vs)).
  { unfold packed_a, us, vs. rewrite combine_map, map_map. reflexivity. }
  assert (SP : forall idx, in_bounds (upd gsh a 1) idx -> osub (big1 omax (map (big1 omax) (map (fun t => line (adat t) (ash t) a idx) (d_locals x)))) (big1 omin (map (big1 omin) (map (fun t => line (adat t) (ash t) a idx) (d_locals x)))) = RG idx).
  { intros idx Hi. apply ext_spread; [|intros k Hk|now apply LP].
    - intros E. apply map_eq_nil in E. now apply nonempty_ls.
    - apply in_map_iff in Hk as (t & <- & Ht). apply line_nonempty. destruct (local_pos t Ht) as [Hp El]. rewrite Forall_forall in Hp. assert (1 <= nth a (ash t) 0); [|lia]. apply Hp, nth_In. rewrite El. exact La. }
  unfold reduced_a in Hy. rewrite Es, Nat.eqb_refl, andb_true_r in Hy. destruct (1 <? P)%nat eqn:EP1.
  - rewrite EP in Hy. apply (reduced_ok (upd gsh a 1)) in Hy as [S1 D1]; auto.
    + split; [exact S1|]. intros idx Hi. rewrite D1 by exact Hi. rewrite <- SP by exact Hi. unfold us, vs. rewrite !map_map. reflexivity.
    + rewrite upd_length. lia.
    + apply nonneg_nth. apply Forall_upd; [exact H0|lia].
    + unfold us, vs. now rewrite !map_length.
  - apply Nat.ltb_ge in EP1. pose proof nonempty_ls as NE. unfold packed_a in Hy. destruct (d_locals x) as [|t [|? ?]] eqn:El; [contradiction| |cbn in EP1; lia].
    cbn [map] in Hy. destruct Hy as [<-|[]]. destruct (local_pos t ltac:(rewrite El; left; reflexivity)) as [Hp Ll].
    destruct (local_ptp t a) as [S1 D1]; [eapply Forall_impl; [|exact Hp]; cbn; intros; lia|rewrite Ll; lia|].
    assert (Et : upd (ash t) a 1 = upd gsh a 1) by (apply (SU (red omin t a)); left; reflexivity).
    split; [rewrite S1; exact Et|]. intros idx Hi. rewrite D1 by (rewrite Et; exact Hi). rewrite <- SP by exact Hi. reflexivity.
Qed.
Lemma other_axis s : d_split x = Some s -> a <> s -> represents RG (upd gsh a 1) (Some s) cnts (map halves reduced_a).
Proof.
  intros Es Hne. pose proof HX as HX'. unfold rep in HX'. rewrite Es in HX'. destruct HX' as (HL & Hn & Hs & Hc & Hsum & HR).
  assert (ER : reduced_a = packed_a) by (unfold reduced_a; rewrite Es; now rewrite (proj2 (Nat.eqb_neq a s) Hne), andb_false_r).
  rewrite ER. unfold packed_a. rewrite map_map. split; [now rewrite map_length|]. split; [apply Forall_upd; [exact Hn|lia]|]. rewrite upd_length. split; [exact Hs|]. split; [exact Hc|].
  rewrite upd_other by auto. split; [exact Hsum|]. intros r y Ey. rewrite nth_error_map in Ey. destruct (nth_error (d_locals x) r) as [t|] eqn:Et; [|discriminate Ey]. injection Ey as <-.
  destruct (local_pos t (nth_error_In _ _ Et)) as [Hp Ll]. destruct (local_ptp t a) as [S1 D1]; [eapply Forall_impl; [|exact Hp]; cbn; intros; lia|rewrite Ll; lia|].
  pose proof (HR r t Et) as A0. destruct A0 as [Sh _]. rewrite Sh in S1, D1. rewrite upd_comm' in S1, D1 by auto. split; [exact S1|].
  intros idx Hi. rewrite D1 by exact Hi. unfold RG. f_equal. rewrite <- upd_comm' in Hi by auto. 
  rewrite <- Sh. rewrite (local_line t _ _ idx (HR r t Et) ltac:(rewrite upd_comm' in Hi by auto; rewrite upd_comm' by auto; exact Hi) ltac:(rewrite upd_length; exact La)).
  pose proof (in_bounds_length _ _ Hi) as LI. rewrite !upd_length in LI.
  unfold line. rewrite upd_other by auto. apply map_ext. intros j. f_equal. unfold move_axis_idx. rewrite upd_other by auto. now apply upd_comm'.
Qed.
Lemma no_axis : d_split x = None -> represents RG (upd gsh a 1) None cnts (map halves reduced_a).
Proof.
  intros Es. pose proof HX as HX'. unfold rep in HX'. rewrite Es in HX'. destruct HX' as (HL & Hn & HR).
  assert (ER : reduced_a = packed_a) by (unfold reduced_a; now rewrite Es).
  rewrite ER. unfold packed_a. rewrite map_map. split; [now rewrite map_length|]. split; [apply Forall_upd; [exact Hn|lia]|].
  intros y Hy. apply in_map_iff in Hy as (t & <- & Ht). destruct (local_pos t Ht) as [Hp Ll]. destruct (local_ptp t a) as [S1 D1]; [eapply Forall_impl; [|exact Hp]; cbn; intros; lia|rewrite Ll; lia|].
  destruct (HR t Ht) as [Sh _]. rewrite Sh in S1, D1. split; [exact S1|]. intros idx Hi. rewrite D1 by exact Hi. unfold RG. f_equal. rewrite <- Sh at 1. apply (local_line t G gsh); auto.
Qed.
End Y.
