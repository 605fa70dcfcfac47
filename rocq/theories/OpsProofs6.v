(** Proofs about reductions over all axes (axis=None). *)
From Verif Require Import Base BaseLemmas LayoutModel LayoutProofs NdSpec TensorSpec TensorLemmas NdLemmas OpsModel OpsProofs2 OpsProofs3 OpsProofs4 OpsProofs5.
From Coq Require Import Permutation.
Open Scope Z_scope.

Section None_.
Variables (A : Type) (ok : A -> Prop) (op : A -> A -> A) (e : A).
Hypothesis M : comm_monoid ok op e.

Definition pr0 (_ : list Z) : list Z := [].
Lemma reduce_pr0 G sh : reduce_pr A op e pr0 G sh [] = big op e (map G (row_major sh)).
Proof.
  unfold reduce_pr. f_equal. f_equal. 
  induction (row_major sh) as [|x l IH]; simpl; auto. f_equal. apply IH.
Qed.

Lemma Forall_pos_prod l : Forall (fun n => 0 <= n) l -> has_zero l = false -> zprod l <> 0.
Proof.
  intros F H. enough (1 <= zprod l) by lia. apply zprod_pos. apply Forall_forall. intros x Hx.
  rewrite Forall_forall in F. specialize (F x Hx). enough (x <> 0) by lia. intros ->.
  apply has_zero_in in Hx. congruence.
Qed.

Lemma reduce_op_none neutral strict gsh split cnts locals G keepdims :
  neutral = e ->
  represents G gsh split cnts locals ->
  (forall i, in_bounds gsh i -> ok (G i)) ->
  (strict = true -> Forall (fun n => 1 <= n) gsh) ->
  exists r, reduce_op op e neutral strict gsh split locals AxNone keepdims = Ok r /\
    r_gshape r = [] /\ r_split r = None /\
    represents (fun _ => big op e (map G (row_major gsh))) [] None cnts (r_locals r).
Proof.
  intros -> (Hlen & Hgn & Hrep) Hok Hstrict.
  unfold reduce_op. replace (axes_of (length gsh) AxNone) with (@Ok (option (list nat)) None) by (unfold axes_of, sanitize_axis; now destruct (length gsh =? 0)%nat).
  cbn [bind out_shape].
  destruct split as [s|].
  - destruct Hrep as (Hs & Hc & Hsum & Hloc).
    set (F := fun r i => G (move_axis_idx s (zsum (firstn r cnts)) i)).
    set (lsh := fun r => upd gsh s (nth r cnts 0)).
    assert (Hlshn : forall r, Forall (fun n => 0 <= n) (lsh r)).
    { intros r. apply Forall_upd; auto. now apply Forall_nth0. }
    destruct (all_ok_Q (fun lt => local_reduce op e strict (ash lt) None keepdims
                          (start_partial e gsh (Some s) (length locals) None lt))
               (fun lt p => ash p = [] /\ forall r, nth_error locals r = Some lt ->
                    adat p [] = reduce_pr A op e pr0 (F r) (lsh r) []) locals) as (ps & Eps & Fps).
    { intros lt Hin. apply In_nth_error in Hin as (r & Er).
      unfold start_partial. rewrite andb_true_r.
      destruct ((1 <? length locals)%nat && has_zero (ash lt)) eqn:EN.
      - apply andb_true_iff in EN as [EP EZ].
        unfold local_reduce. cbn [full ash].
        destruct (strict && (zprod (upd gsh s 1) =? 0)) eqn:ES.
        { apply andb_true_iff in ES as [-> ES]. exfalso.
          assert (1 <= zprod (upd gsh s 1)) by (apply zprod_pos, Forall_upd; [auto|lia]). lia. }
        eexists; split; [reflexivity|]. split; [reflexivity|]. intros r' Er'.
        pose proof (Hloc r' lt Er') as [A1 _]. fold (lsh r') in A1.
        cbn [adat]. transitivity e.
        + apply (big_all_e A ok op e M). rewrite Forall_map. apply Forall_forall. auto.
        + symmetry. apply reduce_pr_empty; auto. rewrite <- A1. now apply has_zero_in.
      - unfold local_reduce.
        destruct (strict && (zprod (ash lt) =? 0)) eqn:ES.
        { apply andb_true_iff in ES as [-> ES]. exfalso. apply Z.eqb_eq in ES. revert ES.
          pose proof (Hloc r lt Er) as [A1 _]. fold (lsh r) in A1.
          apply Forall_pos_prod; [rewrite A1; auto|].
          apply andb_false_iff in EN as [EN|EN]; auto.
          apply Nat.ltb_ge in EN. assert (r < length locals)%nat by (apply nth_error_Some; congruence).
          assert (Hc1 : cnts = [nth 0 cnts 0]).
          { destruct cnts as [|c [|c' t]]; simpl in *; try lia. reflexivity. }
          assert (r = 0%nat) as -> by lia. rewrite Hc1 in Hsum. cbn in Hsum.
          replace (nth 0 cnts 0 + 0) with (nth 0 cnts 0) in Hsum by lia.
          destruct (has_zero (ash lt)) eqn:HZ; auto. apply has_zero_in in HZ. rewrite A1 in HZ.
          unfold lsh in HZ. rewrite Hsum, upd_self in HZ.
          rewrite Forall_forall in Hstrict. specialize (Hstrict eq_refl 0 HZ). lia. }
        eexists; split; [reflexivity|]. split; [reflexivity|]. intros r' Er'. cbn [adat].
        pose proof (Hloc r' lt Er') as [A1 B1]. fold (lsh r') in A1.
        rewrite reduce_pr0, A1. unfold big. f_equal. apply map_ext_in. intros i Hi. apply in_row_major in Hi. apply B1. exact Hi. }
    change (fun lt : arr A => _) with (fun lt => local_reduce op e strict (ash lt) None keepdims
                          (start_partial e gsh (Some s) (length locals) None lt)).
    rewrite Eps. cbn [bind]. pose proof (Forall2_len _ _ _ Fps) as Lps.
    assert (Hps : forall r p, nth_error ps r = Some p -> ash p = [] /\ adat p [] = reduce_pr A op e pr0 (F r) (lsh r) []).
    { intros r p Ep. assert (X := Forall2_nth_error _ _ _ Fps r p Ep). 
      destruct X as (lt & El & Hsh & Hlt). split; auto. }
    assert (HokF : forall r i, (r < length cnts)%nat -> in_bounds (lsh r) i -> ok (F r i)).
    { intros r i Hr Hi. apply Hok. apply in_bounds_upd_shape in Hi as (L & H0 & H); auto. apply in_bounds_nth.
      unfold move_axis_idx. rewrite upd_length. split; auto. intros k Hk. destruct (Nat.eq_dec k s) as [->|Hn].
      - rewrite upd_same by lia. pose proof (zsum_nonneg _ (Forall_firstn' _ r _ Hc)).
        pose proof (zsum_firstn_le cnts (S r) Hc) as Q. rewrite zsum_firstn_S in Q by auto. lia.
      - rewrite upd_other by auto. auto. }
    assert (Hcomb : big op e (map (fun p => adat p []) ps) = big op e (map G (row_major gsh))).
    { rewrite <- reduce_pr0. rewrite <- (reduce_pr_ranks A ok op e M pr0 G gsh s cnts); auto.
      f_equal. apply (@nth_ext2 _ _ _ e); [rewrite !map_length, seq_length; lia|].
      intros r Hr. rewrite map_length in Hr. rewrite nth_map_seq by lia.
      destruct (nth_error ps r) as [p|] eqn:Ep; [|apply nth_error_None in Ep; lia].
      rewrite nth_indep with (d' := adat p []) by (now rewrite map_length).
      rewrite (map_nth (fun q => adat q [])). rewrite (nth_error_nth _ _ _ Ep).
      apply (Hps r p Ep). }
    assert (Hpok : Forall ok (map (fun p => adat p []) ps)).
    { rewrite Forall_map. apply Forall_forall. intros p Hp. apply In_nth_error in Hp as (r & Ep).
      destruct (Hps r p Ep) as [S0 D0]. rewrite D0. apply (ok_big A ok op e M). rewrite Forall_map. apply Forall_forall.
      intros i Hi. apply filter_In in Hi as [Hi _]. apply HokF; [|now apply in_row_major].
      assert (r < length ps)%nat by (apply nth_error_Some; congruence). lia. }
    eexists; split; [reflexivity|]. cbn [r_gshape r_split r_locals]. split; [auto|split; [auto|]].
    split; [|split; [auto|]].
    + destruct (1 <? length locals)%nat; [|lia]. unfold allreduce. destruct ps; [simpl in *; lia|]. rewrite map_length. lia.
    + intros t Ht. destruct (1 <? length locals)%nat eqn:EP.
      * unfold allreduce in Ht. destruct ps as [|p0 rest]; [destruct Ht|].
        apply in_map_iff in Ht as (p & <- & Hp). apply In_nth_error in Hp as (r & Ep).
        destruct (Hps r p Ep) as [S0 D0]. split; [exact S0|].
        intros idx Hidx. inversion Hidx; subst idx. cbn [adat]. rewrite <- Hcomb.
        cbn [map] in Hpok |- *. inversion Hpok; subst. now apply (fold_left_big A ok op e M).
      * apply Nat.ltb_ge in EP. destruct ps as [|p0 [|p1 rest]]; [destruct Ht| |simpl in *; lia].
        destruct Ht as [<-|[]]. destruct (Hps 0%nat p0 eq_refl) as [S0 D0]. split; [exact S0|].
        intros idx Hidx. inversion Hidx; subst idx. rewrite <- Hcomb. cbn in *. inversion Hpok; subst.
        symmetry. now apply (op_e_r A ok op e M).
  - destruct (all_ok_Q (fun lt => local_reduce op e strict (ash lt) None keepdims
                          (start_partial e gsh None (length locals) None lt))
               (fun lt p => agrees p [] (fun _ => big op e (map G (row_major gsh)))) locals) as (ps & Eps & Fps).
    { intros lt Hin. pose proof (Hrep lt Hin) as [Esh Ed]. unfold start_partial, local_reduce.
      destruct (strict && (zprod (ash lt) =? 0)) eqn:ES.
      { apply andb_true_iff in ES as [-> ES]. exfalso. rewrite Esh in ES.
        pose proof (zprod_pos _ (Hstrict eq_refl)). lia. }
      eexists; split; [reflexivity|]. split; [reflexivity|]. intros idx _. cbn [adat]. rewrite Esh. unfold big. f_equal.
      apply map_ext_in. intros i Hi. apply Ed. now apply in_row_major. }
    change (fun lt : arr A => _) with (fun lt => local_reduce op e strict (ash lt) None keepdims
                          (start_partial e gsh None (length locals) None lt)).
    rewrite Eps. cbn [bind]. eexists; split; [reflexivity|]. cbn [r_gshape r_split r_locals]. split; [auto|split; [auto|]].
    split; [rewrite <- (Forall2_len _ _ _ Fps); auto|split; [auto|]].
    intros t Ht. apply (Forall2_In_r _ _ _ Fps) in Ht as (lt & _ & Ag). exact Ag.
Qed.
End None_.

Lemma surviving_axis axes n s : NoDup axes -> (s < n)%nat -> ~ In s axes ->
  nth_error (drop_axes axes (seq 0 n)) (s - length (filter (fun d => (d <? s)%nat) axes)) = Some s.
Proof.
  intros ND Hs Hn. rewrite count_below by auto.
  assert (L : (s < length (seq 0 n))%nat) by (now rewrite seq_length).
  pose proof (pos_lt 0 axes (seq 0 n) s L Hn) as Hp.
  unfold drop_axes. rewrite (nth_error_nth' _ 0%nat Hp). rewrite drop_from_nth by auto. now rewrite seq_nth.
Qed.

Section Statements.
Variables (A : Type) (ok : A -> Prop) (op : A -> A -> A) (e : A).
Hypothesis M : comm_monoid ok op e.

Lemma reduce_drop_statement strict gsh split cnts locals G axis axes :
  represents G gsh split cnts locals -> (forall i, in_bounds gsh i -> ok (G i)) ->
  axes_of (length gsh) axis = Ok (Some axes) -> NoDup axes ->
  length gsh <> 1%nat -> (exists d, (d < length gsh)%nat /\ ~ In d axes) ->
  (strict = true -> Forall (fun n => 1 <= n) gsh /\
     match split with Some s => In s axes \/ Forall (fun c => 1 <= c) cnts | None => True end) ->
  exists r, reduce_op op e e strict gsh split locals axis false = Ok r /\
    r_gshape r = drop_axes axes gsh /\
    represents (reduce_drop op e G gsh axes) (drop_axes axes gsh) (r_split r) cnts (r_locals r) /\
    match split with
    | None => r_split r = None
    | Some s => (In s axes -> r_split r = None) /\
                (~ In s axes -> exists s', r_split r = Some s' /\ nth_error (drop_axes axes (seq 0 (length gsh))) s' = Some s)
    end.
Proof.
  intros HR Hok Hax ND L1 Hex Hst.
  assert (Hrange : forall d, In d axes -> (d < length gsh)%nat).
  { revert Hax. unfold axes_of. destruct (sanitize_axis (length gsh) axis) as [ax|] eqn:E; [|discriminate]. cbn [bind].
    unfold sanitize_axis in E. destruct (Nat.eqb_spec (length gsh) 0) as [L0|L0].
    { injection E as <-. discriminate. }
    destruct axis; try discriminate.
    - injection E as <-. discriminate.
    - destruct ((0 <=? z) && (z <? Z.of_nat (length gsh))) eqn:E1.
      + injection E as <-. intros [= <-] d [<-|[]]. lia.
      + destruct (z <? 0) eqn:E2; destruct (((_ <? 0) || (_ <=? _))) eqn:E3 in E; try discriminate; injection E as <-;
        intros [= <-] d [<-|[]]; lia.
    - destruct (existsb _ _) eqn:E1 in E; [discriminate|]. injection E as <-. intros [= <-] d Hd.
      apply in_map_iff in Hd as (z & <- & Hz).
      assert (E2 : ((z <? 0) || (Z.of_nat (length gsh) <=? z)) = false).
      { destruct ((z <? 0) || (Z.of_nat (length gsh) <=? z)) eqn:E2; auto.
        rewrite <- E1. symmetry. apply existsb_exists. exists z. split; auto. }
      lia. }
  assert (Em : mode_of false (length gsh) = Drop).
  { unfold mode_of. apply Nat.eqb_neq in L1. now rewrite L1. }
  destruct (reduce_op_axes A ok op e M e strict gsh split cnts locals G axis axes false) as (r & Er & Eg & Es & Erep); auto.
  { split; [auto|split; [auto|auto]]. }
  exists r. rewrite Em in Eg, Erep. split; [auto|split; [auto|split]].
  - apply Erep. destruct split; auto.
  - destruct split as [s|]; auto. split.
    + intros Hin. apply memb_in in Hin. now rewrite Hin in Es.
    + intros Hn. rewrite (proj2 (memb_nin s axes) Hn) in Es. eexists; split; [exact Es|].
      apply surviving_axis; auto. destruct HR as (_ & _ & H & _). exact H.
Qed.

Lemma reduce_keep_statement strict gsh split cnts locals G axis axes :
  represents G gsh split cnts locals -> (forall i, in_bounds gsh i -> ok (G i)) ->
  axes_of (length gsh) axis = Ok (Some axes) -> NoDup axes ->
  (strict = true -> Forall (fun n => 1 <= n) gsh /\
     match split with Some s => In s axes \/ Forall (fun c => 1 <= c) cnts | None => True end) ->
  exists r, reduce_op op e e strict gsh split locals axis true = Ok r /\
    r_gshape r = fill_axes axes 1 gsh /\
    represents (reduce_keep op e G gsh axes) (fill_axes axes 1 gsh) (r_split r) cnts (r_locals r) /\
    match split with
    | None => r_split r = None
    | Some s => r_split r = if memb s axes then None else Some s
    end.
Proof.
  intros HR Hok Hax ND Hst.
  assert (Hrange : forall d, In d axes -> (d < length gsh)%nat).
  { revert Hax. unfold axes_of. destruct (sanitize_axis (length gsh) axis) as [ax|] eqn:E; [|discriminate]. cbn [bind].
    unfold sanitize_axis in E. destruct (Nat.eqb_spec (length gsh) 0) as [L0|L0].
    { injection E as <-. discriminate. }
    destruct axis; try discriminate.
    - injection E as <-. discriminate.
    - destruct ((0 <=? z) && (z <? Z.of_nat (length gsh))) eqn:E1.
      + injection E as <-. intros [= <-] d [<-|[]]. lia.
      + destruct (z <? 0) eqn:E2; destruct (((_ <? 0) || (_ <=? _))) eqn:E3 in E; try discriminate; injection E as <-;
        intros [= <-] d [<-|[]]; lia.
    - destruct (existsb _ _) eqn:E1 in E; [discriminate|]. injection E as <-. intros [= <-] d Hd.
      apply in_map_iff in Hd as (z & <- & Hz).
      assert (E2 : ((z <? 0) || (Z.of_nat (length gsh) <=? z)) = false).
      { destruct ((z <? 0) || (Z.of_nat (length gsh) <=? z)) eqn:E2; auto.
        rewrite <- E1. symmetry. apply existsb_exists. exists z. split; auto. }
      lia. }
  destruct (reduce_op_axes A ok op e M e strict gsh split cnts locals G axis axes true) as (r & Er & Eg & Es & Erep); auto.
  { split; [auto|split; [auto|discriminate]]. }
  exists r. split; [auto|split; [auto|split]].
  - apply Erep. destruct split; auto.
  - destruct split as [s|]; auto. now destruct (memb s axes).
Qed.
End Statements.

Lemma monoids :
  comm_monoid (fun _ => True) Z.add 0 /\ comm_monoid (fun _ => True) Z.mul 1 /\
  comm_monoid (fun _ => True) andb true /\ comm_monoid (fun _ => True) orb false /\
  (forall lo, comm_monoid (fun x => lo <= x) Z.max lo) /\ (forall hi, comm_monoid (fun x => x <= hi) Z.min hi) /\
  comm_monoid (fun x => 0 <= x < 2 ^ 64) (fun x y => (x + y) mod 2 ^ 64) 0.
Proof.
  unfold comm_monoid. repeat (split; [|split] || split); intros; try lia; auto with bool;
    try (destruct x; try destruct y; try destruct z; reflexivity).
Qed.

Ltac rep_tac := split; [reflexivity|split; [repeat constructor; lia|]];
  split; [simpl; lia|split; [repeat constructor; lia|split; [reflexivity|]]].

Lemma reduce_example :
  let G := fun i => nth 0 i 0 * 10 + nth 1 i 0 in
  let ls := [mk_arr [2; 2] G; mk_arr [0; 2] (fun _ => 0); mk_arr [1; 2] (fun i => G (move_axis_idx 0 2 i))] in
  represents G [3; 2] (Some 0%nat) [2; 0; 1] ls /\
  match reduce_op Z.add 0 0 false [3; 2] (Some 0%nat) ls (AxInt (-2)) false with
  | Ok r => r_split r = None /\ map (fun t => (ash t, adat t [0], adat t [1])) (r_locals r) = repeat ([2], 30, 33) 3
  | Err _ => False
  end.
Proof.
  cbv zeta. split; [|vm_compute; auto]. rep_tac. intros r t Ht.
  destruct r as [|[|[|r]]]; cbn in Ht; try (destruct r; discriminate); injection Ht as <-; split; try reflexivity; intros idx Hi; cbn in Hi.
  - cbn. unfold move_axis_idx. now rewrite Z.add_0_r, upd_self.
  - inversion Hi; subst. lia.
Qed.
Lemma max_neutral_refuted :
  let lo := - 2 ^ 31 in
  let neutral := - (2 ^ 31 - 1) in
  let G := fun _ : list Z => lo in
  exists ls, represents G [1] (Some 0%nat) [1; 0] ls /\
    match reduce_op Z.max lo neutral true [1] (Some 0%nat) ls AxNone false with
    | Ok r => map (fun t => adat t []) (r_locals r) = [neutral; neutral] /\ neutral <> lo
    | Err _ => False
    end.
Proof.
  cbv zeta. exists [mk_arr [1] (fun _ => - 2 ^ 31); mk_arr [0] (fun _ => - 2 ^ 31)]. split.
  - rep_tac. intros r t Ht. destruct r as [|[|[|r]]]; cbn in Ht; try discriminate; injection Ht as <-; split; reflexivity.
  - vm_compute. split; [reflexivity|discriminate].
Qed.
Lemma one_dim_refuted n split locals r :
  reduce_op Z.add 0 0 false [n] split locals (AxInt 0) false = Ok r -> r_gshape r = [1].
Proof.
  unfold reduce_op. cbn [length axes_of sanitize_axis Nat.eqb bind Z.leb Z.ltb Z.of_nat Z.compare andb Z.to_nat out_shape].
  change (Pos.of_succ_nat 0) with 1%positive. cbn [Z.compare andb bind].
  destruct (all_ok _) as [ps|]; [|discriminate]. cbn [bind].
  destruct split as [s|]; cbv zeta.
  - destruct (mem_nat s _); intros H; inversion H; reflexivity.
  - intros H; inversion H; reflexivity.
Qed.
Ltac rep2 := rep_tac; intros r t Ht; destruct r as [|[|[|r]]]; cbn in Ht; try discriminate; injection Ht as <-; split; reflexivity.
Lemma all_axes_refuted : exists ls r,
  represents (fun _ => 1) [2; 2] (Some 0%nat) [1; 1] ls /\
  reduce_op Z.add 0 0 false [2; 2] (Some 0%nat) ls (AxTuple [0; 1]) false = Ok r /\
  r_gshape r = [] /\ map ash (r_locals r) = [[1; 1]; [1; 1]].
Proof.
  exists [mk_arr [1; 2] (fun _ => 1); mk_arr [1; 2] (fun _ => 1)]. eexists. split; [rep2|]. split; [vm_compute; reflexivity|]. vm_compute. auto.
Qed.
Lemma repeated_axis_refuted : exists ls r,
  represents (fun _ => 1) [2; 2; 2] (Some 2%nat) [1; 1] ls /\
  reduce_op Z.add 0 0 false [2; 2; 2] (Some 2%nat) ls (AxTuple [0; 0]) false = Ok r /\
  r_gshape r = [2; 2] /\ r_split r = Some 0%nat /\ map ash (r_locals r) = [[2; 1]; [2; 1]].
Proof.
  exists [mk_arr [2; 2; 1] (fun _ => 1); mk_arr [2; 2; 1] (fun _ => 1)]. eexists. split; [rep2|]. split; [vm_compute; reflexivity|]. vm_compute. auto.
Qed.
Lemma max_empty_rank_refuted : exists ls r,
  represents (fun _ => 1) [4; 1] (Some 1%nat) [1; 0] ls /\
  reduce_op Z.max 0 0 true [4; 1] (Some 1%nat) ls (AxInt 0) false = Ok r /\
  r_gshape r = [1] /\ r_split r = Some 0%nat /\ map ash (r_locals r) = [[1]; [4; 0]].
Proof.
  exists [mk_arr [4; 1] (fun _ => 1); mk_arr [4; 0] (fun _ => 1)]. eexists. split; [rep2|]. split; [vm_compute; reflexivity|]. vm_compute. auto.
Qed.
