(** Proofs about reductions: __reduce_op as a whole. *)
From Verif Require Import Base BaseLemmas LayoutModel LayoutProofs NdSpec TensorSpec TensorLemmas NdLemmas OpsModel OpsProofs2 OpsProofs3 OpsProofs4.
From Coq Require Import Permutation.
Open Scope Z_scope.

(** all ranks' partial results satisfy [Q] *)
Lemma all_ok_Q {B C} (f : B -> res C) (Q : B -> C -> Prop) l :
  (forall x, In x l -> exists y, f x = Ok y /\ Q x y) ->
  exists ys, all_ok (map f l) = Ok ys /\ Forall2 Q l ys.
Proof.
  induction l as [|x l IH]; intros H; simpl.
  - exists []. split; auto.
  - destruct (H x (or_introl eq_refl)) as (y & Ey & Qy). rewrite Ey. simpl.
    destruct IH as (ys & E & F); [intros; apply H; right; auto|]. rewrite E. simpl. exists (y :: ys). auto.
Qed.
Lemma Forall2_nth_error {B C} (Q : B -> C -> Prop) l l' : Forall2 Q l l' ->
  forall r y, nth_error l' r = Some y -> exists x, nth_error l r = Some x /\ Q x y.
Proof.
  induction 1 as [|x y l l' H F IH]; intros [|r] z E; simpl in *; try discriminate.
  - injection E as <-. eauto.
  - apply IH; auto.
Qed.
Lemma Forall2_len {B C} (Q : B -> C -> Prop) l l' : Forall2 Q l l' -> length l = length l'.
Proof. induction 1; simpl; auto. Qed.
Lemma Forall2_In_r {B C} (Q : B -> C -> Prop) l l' : Forall2 Q l l' -> forall y, In y l' -> exists x, In x l /\ Q x y.
Proof.
  induction 1 as [|x y l l' H F IH]; intros z Hz; simpl in *; [tauto|].
  destruct Hz as [<-|Hz]; eauto. destruct (IH z Hz) as (x' & ? & ?). eauto.
Qed.

(** how the surviving axes are reported *)
Inductive mode := Drop | Keep.
Definition proj_idx (m : mode) (axes : list nat) (i : list Z) : list Z :=
  match m with Drop => drop_axes axes i | Keep => fill_axes axes 0 i end.
Definition proj_sh (m : mode) (axes : list nat) (sh : list Z) : list Z :=
  match m with Drop => drop_axes axes sh | Keep => fill_axes axes 1 sh end.
Definition proj_split (m : mode) (axes : list nat) (s : nat) : nat :=
  match m with Drop => (s - length (filter (fun d => (d <? s)%nat) axes))%nat | Keep => s end.

Definition mode_of (keepdims : bool) (ndim : nat) : mode :=
  if negb keepdims && negb (ndim =? 1)%nat then Drop else Keep.

Lemma fold_upd_fill axes (gsh : list Z) : fold_left (fun s d => upd s d 1) axes gsh = fill_axes axes 1 gsh.
Proof.
  induction axes as [|d axes IH] using rev_ind.
  - simpl. apply (@nth_ext2 _ _ _ 0); [now rewrite fill_axes_length|]. intros k Hk. now rewrite fill_axes_nth.
  - rewrite fold_left_app, fill_app_upd, IH. reflexivity.
Qed.
Lemma out_shape_proj gsh axes keepdims :
  out_shape gsh (Some axes) keepdims = proj_sh (mode_of keepdims (length gsh)) axes gsh.
Proof.
  unfold out_shape, mode_of. destruct (negb keepdims && negb (length gsh =? 1)%nat); simpl.
  - apply losedim_drop.
  - apply fold_upd_fill.
Qed.

Section Whole.
Variables (A : Type) (ok : A -> Prop) (op : A -> A -> A) (e : A).
Hypothesis M : comm_monoid ok op e.

Definition red (m : mode) (G : list Z -> A) (gsh : list Z) (axes : list nat) (idx' : list Z) : A :=
  match m with Drop => reduce_drop op e G gsh axes idx' | Keep => reduce_keep op e G gsh axes idx' end.
Lemma red_pr m G gsh axes idx' : red m G gsh axes idx' = reduce_pr A op e (proj_idx m axes) G gsh idx'.
Proof. destruct m; reflexivity. Qed.

Lemma local_reduce_mode strict axes lsh (t0 : arr A) F keepdims :
  NoDup axes -> (forall d, In d axes -> (d < length (ash t0))%nat) ->
  (strict = true -> Forall (fun n => 1 <= n) (ash t0)) ->
  agrees t0 (ash t0) F -> (forall i, in_bounds (ash t0) i -> ok (F i)) ->
  length lsh = length (ash t0) ->
  (mode_of keepdims (length lsh) = Drop -> exists d, (d < length lsh)%nat /\ ~ In d axes) ->
  (forall d, (d < length lsh)%nat -> ~ In d axes -> nth d lsh 0 = nth d (ash t0) 0) ->
  exists p, local_reduce op e strict lsh (Some axes) keepdims t0 = Ok p /\
    agrees p (proj_sh (mode_of keepdims (length lsh)) axes lsh) (red (mode_of keepdims (length lsh)) F (ash t0) axes).
Proof.
  intros ND Hax Hs HF Hok Ll Hex Hsame. unfold mode_of in *.
  destruct keepdims; cbn [negb andb] in *; [|destruct (Nat.eqb_spec (length lsh) 1) as [L1|L1]; cbn [negb] in *].
  - destruct (local_reduce_keep A ok op e M strict axes lsh t0 F true) as (p & E & Ag); auto. exists p. split; auto.
    simpl. replace (fill_axes axes 1 lsh) with (fill_axes axes 1 (ash t0)); auto.
    apply fill_axes_eq; auto. intros k Hk Hn. symmetry. apply Hsame; [lia|auto].
  - destruct (local_reduce_keep A ok op e M strict axes lsh t0 F false) as (p & E & Ag); auto; [right; lia|]. exists p. split; auto.
    simpl. replace (fill_axes axes 1 lsh) with (fill_axes axes 1 (ash t0)); auto.
    apply fill_axes_eq; auto. intros k Hk Hn. symmetry. apply Hsame; [lia|auto].
  - apply (local_reduce_drop A ok op e M); auto.
Qed.

Lemma agrees_self (t : arr A) sh F : agrees t sh F -> agrees t (ash t) F.
Proof. intros [H1 H2]. split; auto. intros; apply H2. now rewrite <- H1. Qed.

Lemma Forall_upd (l : list Z) k v (P : Z -> Prop) : Forall P l -> P v -> Forall P (upd l k v).
Proof. intros H Hv. revert k; induction H; intros [|k]; simpl; auto. Qed.

Lemma has_zero_in l : has_zero l = true <-> In 0 l.
Proof.
  unfold has_zero. rewrite existsb_exists. split.
  - intros (x & H & E). apply Z.eqb_eq in E. now subst.
  - intros H. exists 0. auto.
Qed.
Lemma proj_sh_nonneg m axes sh : Forall (fun n => 0 <= n) sh -> Forall (fun n => 0 <= n) (proj_sh m axes sh).
Proof.
  intros H. destruct m; simpl; unfold drop_axes, fill_axes; generalize 0%nat as i;
    induction H as [|x l Hx H IH]; intros i; simpl; auto; destruct (memb i axes); auto; constructor; auto; lia.
Qed.

(** which axes may be reduced: distinct, in range, and (unless dimensions are kept)
    not all of them *)
Definition good_axes (axes : list nat) (ndim : nat) (m : mode) : Prop :=
  NoDup axes /\ (forall d, In d axes -> (d < ndim)%nat) /\
  (m = Drop -> exists d, (d < ndim)%nat /\ ~ In d axes).

Lemma reduce_op_axes neutral strict gsh split cnts locals G axis axes keepdims :
  neutral = e ->
  represents G gsh split cnts locals ->
  (forall i, in_bounds gsh i -> ok (G i)) ->
  axes_of (length gsh) axis = Ok (Some axes) ->
  let m := mode_of keepdims (length gsh) in
  good_axes axes (length gsh) m ->
  (strict = true -> Forall (fun n => 1 <= n) gsh /\
     match split with Some s => In s axes \/ Forall (fun c => 1 <= c) cnts | None => True end) ->
  exists r, reduce_op op e neutral strict gsh split locals axis keepdims = Ok r /\
    r_gshape r = proj_sh m axes gsh /\
    (match split with
     | Some s => if memb s axes then r_split r = None
                 else if keepdims then r_split r = Some s else r_split r = Some (s - length (filter (fun d => (d <? s)%nat) axes))%nat
     | None => r_split r = None end) /\
    (match split with Some s => ~ In s axes -> m = Drop \/ keepdims = true | None => True end ->
     represents (red m G gsh axes) (proj_sh m axes gsh) (r_split r) cnts (r_locals r)).
Proof.
  intros -> (Hlen & Hgn & Hrep) Hok Hax m (ND & Hrange & Hex) Hstrict.
  unfold reduce_op. rewrite Hax. cbn [bind].
  assert (Hpn := proj_sh_nonneg m axes gsh Hgn).
  destruct split as [s|].
  - destruct Hrep as (Hs & Hc & Hsum & Hloc).
    set (F := fun r i => G (move_axis_idx s (zsum (firstn r cnts)) i)).
    set (lsh := fun r => upd gsh s (nth r cnts 0)).
    assert (HokF : forall r i, (r < length cnts)%nat -> in_bounds (lsh r) i -> ok (F r i)).
    { intros r i Hr Hi. apply Hok. apply in_bounds_upd_shape in Hi as (L & H0 & H); auto. apply in_bounds_nth.
      unfold move_axis_idx. rewrite upd_length. split; auto. intros k Hk. destruct (Nat.eq_dec k s) as [->|Hn].
      - rewrite upd_same by lia. pose proof (zsum_nonneg _ (Forall_firstn' _ r _ Hc)).
        pose proof (zsum_firstn_le cnts (S r) Hc) as Q. rewrite zsum_firstn_S in Q by auto. lia.
      - rewrite upd_other by auto. auto. }
    assert (Hlshn : forall r, Forall (fun n => 0 <= n) (lsh r)).
    { intros r. apply Forall_upd; auto. now apply Forall_nth0. }
    (* the partial result of every rank *)
    destruct (all_ok_Q (fun lt => local_reduce op e strict (ash lt) (Some axes) keepdims
                          (start_partial e gsh (Some s) (length locals) (Some axes) lt))
               (fun lt p => forall r, nth_error locals r = Some lt ->
                    agrees p (proj_sh m axes (lsh r)) (red m (F r) (lsh r) axes)) locals) as (ps & Eps & Fps).
    { intros lt Hin. apply In_nth_error in Hin as (r & Er).
      pose proof (Hloc r lt Er) as Ag. fold (F r) (lsh r) in Ag.
      assert (Hr : (r < length cnts)%nat) by (rewrite <- Hlen; apply nth_error_Some; congruence).
      assert (Esh : ash lt = lsh r) by (exact (proj1 Ag)).
      assert (Elen : length (ash lt) = length gsh) by (rewrite Esh; apply upd_length).
      (* agreement for the rank at hand extends to every rank with the same array *)
      assert (Guni : forall p r0, nth_error locals r0 = Some lt ->
         agrees p (proj_sh m axes (lsh r0)) (red m (F r0) (lsh r0) axes) ->
         forall r1, nth_error locals r1 = Some lt -> agrees p (proj_sh m axes (lsh r1)) (red m (F r1) (lsh r1) axes)).
      { intros p r0 E0 [S0 D0] r1 E1. pose proof (Hloc r0 lt E0) as [A0 B0]. pose proof (Hloc r1 lt E1) as [A1 B1].
        fold (lsh r0) in A0. fold (lsh r1) in A1. rewrite A0 in A1. split; [now rewrite <- A1|].
        intros idx Hidx. rewrite <- A1 in Hidx. rewrite D0 by auto. rewrite !red_pr, A1. unfold reduce_pr. f_equal.
        apply map_ext_in. intros i Hi. apply filter_In in Hi as [Hi _]. apply in_row_major in Hi.
        transitivity (adat lt i); [symmetry; apply B0|apply B1]; auto. fold (lsh r0). now rewrite A1. }
      unfold start_partial. destruct ((1 <? length locals)%nat && has_zero (ash lt) && mem_nat s axes) eqn:EN.
      - apply andb_true_iff in EN as [EN Es]. apply andb_true_iff in EN as [EP EZ].
        apply mem_nat_in in Es. apply has_zero_in in EZ.
        destruct (local_reduce_mode strict axes (ash lt) (full (upd gsh s 1) e) (fun _ => e) keepdims) as (p & E & Agp); auto.
        + intros d Hd. cbn [full ash]. rewrite upd_length. auto.
        + intros Hst. cbn [full ash]. apply Forall_upd; [apply Hstrict; auto|lia].
        + split; auto.
        + intros i _. exact (proj1 M).
        + cbn [full ash]. rewrite upd_length. auto.
        + rewrite Elen. auto.
        + intros d Hd Hn. cbn [full ash]. rewrite Esh. unfold lsh. assert (d <> s) by congruence.
          now rewrite !upd_other.
        + exists p. split; auto. apply (Guni p r Er). rewrite Elen in Agp. fold m in Agp. destruct Agp as [S0 D0].
          rewrite Esh in S0, D0. split; auto. intros idx Hidx. rewrite D0 by auto. rewrite !red_pr.
          rewrite (reduce_pr_neutral A ok op e M). symmetry. apply reduce_pr_empty; auto. now rewrite <- Esh.
      - destruct (local_reduce_mode strict axes (ash lt) lt (F r) keepdims) as (p & E & Agp); auto.
        + intros d Hd. rewrite Elen. auto.
        + intros Hst. destruct (Hstrict Hst) as [Hg1 Hcs]. rewrite Esh.
          apply Forall_upd; auto.
          destruct Hcs as [Hin|Hc1].
          * assert (nth r cnts 0 <> 0 \/ length locals = 1%nat) as [Hz|Hz].
            { destruct (Z.eq_dec (nth r cnts 0) 0) as [Hz|Hz]; auto. right.
              apply (proj2 (mem_nat_in s axes)) in Hin. rewrite Hin, andb_true_r in EN.
              assert (HZ : has_zero (ash lt) = true).
              { apply has_zero_in. rewrite Esh. unfold lsh. rewrite Hz. rewrite <- (upd_same gsh 0 0 (k:=s)) at 1 by auto.
                apply nth_In. now rewrite upd_length. }
              rewrite HZ, andb_true_r in EN. apply Nat.ltb_ge in EN.
              assert (r < length locals)%nat by (apply nth_error_Some; congruence). lia. }
            -- pose proof (Forall_nth0 cnts r Hc). lia.
            -- assert (Hc1 : cnts = [nth 0 cnts 0]).
               { rewrite Hlen in Hz. destruct cnts as [|c [|c' t]]; simpl in Hz; try lia. reflexivity. }
               rewrite Hc1 in Hsum. cbn in Hsum. assert (r = 0%nat) as -> by lia.
               assert (1 <= nth s gsh 0) by (apply (proj1 (Forall_nth _ _) Hg1); auto). lia.
          * apply (proj1 (Forall_nth _ _) Hc1); auto.
        + apply (agrees_self _ _ _ Ag).
        + intros i Hi. apply HokF; auto. now rewrite <- Esh.
        + rewrite Elen. auto.
        + exists p. split; auto. apply (Guni p r Er). rewrite Elen in Agp. fold m in Agp. now rewrite Esh in Agp. }
    change (fun lt : arr A => _) with (fun lt => local_reduce op e strict (ash lt) (Some axes) keepdims
                          (start_partial e gsh (Some s) (length locals) (Some axes) lt)).
    rewrite Eps. cbn [bind]. pose proof (Forall2_len _ _ _ Fps) as Lps.
    assert (Hps : forall r p, nth_error ps r = Some p -> agrees p (proj_sh m axes (lsh r)) (red m (F r) (lsh r) axes)).
    { intros r p Ep. assert (X : exists lt, nth_error locals r = Some lt /\ forall r, nth_error locals r = Some lt ->
                    agrees p (proj_sh m axes (lsh r)) (red m (F r) (lsh r) axes)) by (apply (Forall2_nth_error _ _ _ Fps r p Ep)).
      destruct X as (lt & El & Hlt). auto. }
    rewrite out_shape_proj. fold m. change (memb s axes) with (mem_nat s axes).
    destruct (mem_nat s axes) eqn:Es.
    + (* reduced across ranks *)
      apply mem_nat_in in Es. eexists; split; [reflexivity|]. cbn [r_gshape r_split r_locals].
      split; [auto|split; [auto|]]. intros _.
      assert (Hproj : forall r, proj_sh m axes (lsh r) = proj_sh m axes gsh).
      { intros r. unfold lsh, proj_sh. destruct m; [apply drop_from_upd_in; auto|now apply fill_axes_upd_in]. }
      assert (Hprm : forall i v, length i = length gsh -> proj_idx m axes (upd i s v) = proj_idx m axes i).
      { intros i v _. unfold proj_idx. destruct m; [apply drop_from_upd_in; auto|now apply fill_axes_upd_in]. }
      assert (Hred_ok : forall r idx, (r < length cnts)%nat -> ok (red m (F r) (lsh r) axes idx)).
      { intros r idx Hr. rewrite red_pr. apply (ok_big A ok op e M). rewrite Forall_map. apply Forall_forall.
        intros i Hi. apply filter_In in Hi as [Hi _]. apply HokF; auto. now apply in_row_major. }
      assert (Hcomb : forall idx, in_bounds (proj_sh m axes gsh) idx ->
         big op e (map (fun p => adat p idx) ps) = red m G gsh axes idx).
      { intros idx Hidx. rewrite red_pr, <- (reduce_pr_ranks A ok op e M (proj_idx m axes) G gsh s cnts); auto.
        f_equal. apply (@nth_ext2 _ _ _ e); [rewrite !map_length, seq_length; lia|].
        intros r Hr. rewrite map_length in Hr. rewrite nth_map_seq by lia.
        destruct (nth_error ps r) as [p|] eqn:Ep; [|apply nth_error_None in Ep; lia].
        rewrite nth_indep with (d' := adat p idx) by (now rewrite map_length).
        rewrite (map_nth (fun q => adat q idx)). rewrite (nth_error_nth _ _ _ Ep).
        destruct (Hps r p Ep) as [S0 D0]. rewrite D0 by (now rewrite Hproj). now rewrite red_pr. }
      assert (Hpok : forall idx, in_bounds (proj_sh m axes gsh) idx -> Forall ok (map (fun p => adat p idx) ps)).
      { intros idx Hidx. rewrite Forall_map. apply Forall_forall. intros p Hp. apply In_nth_error in Hp as (r & Ep).
        destruct (Hps r p Ep) as [S0 D0]. rewrite D0 by (now rewrite Hproj). apply Hred_ok.
        assert (r < length ps)%nat by (apply nth_error_Some; congruence). lia. }
      split; [|split; [auto|]].
      * destruct (1 <? length locals)%nat; [|lia]. unfold allreduce. destruct ps; [simpl in *; lia|]. rewrite map_length. lia.
      * intros t Ht. destruct (1 <? length locals)%nat eqn:EP.
        -- unfold allreduce in Ht. destruct ps as [|p0 rest]; [destruct Ht|].
           apply in_map_iff in Ht as (p & <- & Hp). apply In_nth_error in Hp as (r & Ep).
           destruct (Hps r p Ep) as [S0 D0]. split; [cbn [ash]; rewrite S0; apply Hproj|].
           intros idx Hidx. cbn [adat]. rewrite <- Hcomb by auto. specialize (Hpok idx Hidx).
           cbn [map] in Hpok |- *. inversion Hpok; subst. now apply (fold_left_big A ok op e M).
        -- apply Nat.ltb_ge in EP. destruct ps as [|p0 [|p1 rest]]; [destruct Ht| |simpl in *; lia].
           destruct Ht as [<-|[]]. destruct (Hps 0%nat p0 eq_refl) as [S0 D0]. split; [rewrite S0; apply Hproj|].
           intros idx Hidx. rewrite <- Hcomb by auto. specialize (Hpok idx Hidx). cbn in *. inversion Hpok; subst.
           symmetry. now apply (op_e_r A ok op e M).
    + (* the split axis survives *)
      apply mem_nat_nin in Es.
      exists (mk_reduced ps (proj_sh m axes gsh) (if keepdims then Some s else Some (s - length (filter (fun d => (d <? s)%nat) axes))%nat)).
      split; [now destruct keepdims|]. cbn [r_gshape r_split r_locals]. split; [auto|split; [now destruct keepdims|]].
      intros Hm. specialize (Hm Es).
      assert (Esp : (if keepdims then Some s else Some (s - length (filter (fun d => (d <? s)%nat) axes))%nat) = Some (proj_split m axes s)).
      { unfold m, mode_of in *. destruct keepdims; cbn [negb andb] in *; auto.
        destruct (length gsh =? 1)%nat; cbn [negb] in *; auto. destruct Hm; discriminate. }
      rewrite Esp.
      assert (P1 : forall i v, length i = length gsh -> proj_idx m axes (upd i s v) = upd (proj_idx m axes i) (proj_split m axes s) v).
      { intros i v L. unfold proj_idx, proj_split. destruct m; [|now apply fill_axes_upd].
        rewrite count_below by auto. apply drop_from_upd; [lia|auto]. }
      assert (P2 : forall i, length i = length gsh -> nth (proj_split m axes s) (proj_idx m axes i) 0 = nth s i 0).
      { intros i L. unfold proj_idx, proj_split. destruct m.
        - rewrite count_below by auto. apply drop_from_nth; [lia|auto].
        - rewrite fill_axes_nth by lia. now rewrite (proj2 (memb_nin s axes) Es). }
      assert (P3 : forall c, proj_sh m axes (upd gsh s c) = upd (proj_sh m axes gsh) (proj_split m axes s) c).
      { intros c. unfold proj_sh, proj_split. destruct m; [|now apply fill_axes_upd].
        rewrite count_below by auto. apply drop_from_upd; [lia|auto]. }
      assert (P4 : (proj_split m axes s < length (proj_sh m axes gsh))%nat).
      { unfold proj_sh, proj_split. destruct m; [|now rewrite fill_axes_length].
        rewrite count_below by auto. apply pos_lt; [lia|auto]. }
      assert (P5 : nth (proj_split m axes s) (proj_sh m axes gsh) 0 = nth s gsh 0).
      { unfold proj_sh, proj_split. destruct m.
        - rewrite count_below by auto. apply drop_from_nth; [lia|auto].
        - rewrite fill_axes_nth by lia. now rewrite (proj2 (memb_nin s axes) Es). }
      split; [lia|split; [auto|]]. split; [auto|split; [auto|split; [now rewrite P5|]]].
      intros r p Ep. destruct (Hps r p Ep) as [S0 D0]. unfold lsh in S0, D0. rewrite P3 in S0, D0. split; auto.
      assert (Hr : (r < length cnts)%nat).
      { rewrite <- Hlen, Lps. apply nth_error_Some. congruence. }
      intros idx Hidx. rewrite D0 by auto. rewrite !red_pr. unfold F.
      apply in_bounds_upd_shape in Hidx as (L & H0 & H); auto.
      apply (reduce_pr_shift A ok op e M); auto.
      * apply zsum_nonneg, Forall_firstn'; auto.
      * rewrite <- Hsum, <- zsum_firstn_S by auto. now apply zsum_firstn_le.
      * lia.
  - (* not split *)
    destruct (all_ok_Q (fun lt => local_reduce op e strict (ash lt) (Some axes) keepdims
                          (start_partial e gsh None (length locals) (Some axes) lt))
               (fun lt p => agrees p (proj_sh m axes gsh) (red m G gsh axes)) locals) as (ps & Eps & Fps).
    { intros lt Hin. pose proof (Hrep lt Hin) as Ag. pose proof (proj1 Ag) as Esh. cbn [start_partial].
      destruct (local_reduce_mode strict axes (ash lt) lt G keepdims) as (p & E & Agp); auto; rewrite ?Esh; auto.
      - intros Hst. apply Hstrict; auto.
      - exists p. rewrite Esh in *. auto. }
    change (fun lt : arr A => _) with (fun lt => local_reduce op e strict (ash lt) (Some axes) keepdims
                          (start_partial e gsh None (length locals) (Some axes) lt)).
    rewrite Eps. cbn [bind]. rewrite out_shape_proj. fold m.
    eexists; split; [reflexivity|]. cbn [r_gshape r_split r_locals]. split; [auto|split; [auto|]]. intros _.
    split; [rewrite <- (Forall2_len _ _ _ Fps); auto|split; [auto|]].
    intros t Ht. apply (Forall2_In_r _ _ _ Fps) in Ht as (lt & _ & Ag). exact Ag.
Qed.
End Whole.
