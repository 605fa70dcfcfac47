(** C82: repeat of the flattened array; rejections; findings. *)
From Verif Require Import Base BaseLemmas LayoutModel LayoutProofs NdSpec TensorSpec TensorLemmas NdLemmas OpsModel OpsProofs4 OpsProofs5 RedistModel ShapeModel ShapeProps ShapeProofs6 BinModel BinProofs BinProofs2 SlabLemmas RollModel RollProofs3 ReshapeModel ReshapeProofs ReshapeProps FactoryModel FactoryProps ConcatProofs3 RepeatSpec RepeatModel RepeatProofs RepeatProofs2 RepeatProofs3 RepeatProps.
Open Scope Z_scope.

Lemma flat_fun_indep {A} (d d' : A) G gsh l idx : Forall (fun k => 0 <= k) l -> Z.of_nat (length l) = zprod gsh -> Forall (fun n => 0 <= n) gsh -> in_bounds [zsum l] idx ->
  rep_fun 0 l (flat_fun d G gsh) idx = rep_fun 0 l (flat_fun d' G gsh) idx.
Proof.
  intros F L Hn Hi. inversion Hi as [|? k ? l0 H1 H2]; subst. unfold rep_fun, flat_fun. cbn [nth upd]. rewrite Nat2Z.id. assert (B := src_bound l k F H1).
  apply nth_indep. rewrite map_length. pose proof (row_major_length gsh Hn). lia.
Qed.
Lemma zsum_map_mul cnts z : zsum (map (fun c => c * z) cnts) = zsum cnts * z.
Proof. induction cnts as [|c cnts IH]; [reflexivity|]. cbn [map]. change (zsum (c * z :: map (fun c => c * z) cnts)) with (c * z + zsum (map (fun c => c * z) cnts)). change (zsum (c :: cnts)) with (c + zsum cnts). rewrite IH. lia. Qed.
Lemma zprod_nonneg' l : Forall (fun n => 0 <= n) l -> 0 <= zprod l.
Proof. induction 1; [cbn; lia|]. change (zprod (x :: l)) with (x * zprod l). nia. Qed.
Lemma zprod_pos' l : Forall (fun n => 0 < n) l -> 0 < zprod l.
Proof. induction 1; [cbn; lia|]. change (zprod (x :: l)) with (x * zprod l). nia. Qed.

(** the rows on which a flattened repetition works: split None, or split along axis 0 *)
Lemma rows_ok {A} (dflt : A) (a : dnd A) G cnts : rep a cnts G -> (0 < length cnts)%nat ->
  let b := to_split dflt a (match d_split a with None => None | Some _ => Some 0%nat end) in
  d_gshape b = d_gshape a /\ d_split b = match d_split a with None => None | Some _ => Some 0%nat end /\
  exists cnts1, represents G (d_gshape a) (d_split b) cnts1 (d_locals b) /\ length cnts1 = length cnts /\
    ((forall s, d_split a = Some s -> cnts = zcounts (nth s (d_gshape a) 0) (length cnts)) -> d_split a <> None -> cnts1 = zcounts (nth 0 (d_gshape a) 0) (length cnts)).
Proof.
  intros HR HP b. unfold b. destruct (to_split_ok dflt a G cnts (match d_split a with None => None | Some _ => Some 0%nat end) HR HP) as (T1 & T2 & T3 & c1 & T4 & T5 & T6 & T7).
  { destruct (d_split a) as [s|] eqn:ES; [|discriminate]. intros k Ek. injection Ek as <-. unfold rep in HR. rewrite ES in HR. destruct HR as (_ & _ & Hs & _). lia. }
  split; [auto|]. split; [auto|]. exists c1. rewrite T2. split; [auto|]. split; [auto|]. intros HB HN. destruct (d_split a) as [s|]; [|congruence].
  destruct (Nat.eq_dec s 0) as [->|N0]; [rewrite (proj1 (T6 eq_refl)); now apply HB|]. apply T7; [auto|congruence].
Qed.

Lemma number_flat {A} (dflt : A) (b : dnd A) G gsh cnts k cs :
  represents G gsh (d_split b) cnts (d_locals b) -> (d_split b = None \/ d_split b = Some 0%nat) -> (0 < length cnts)%nat -> 0 <= k -> length cs = length cnts -> (forall c, In c cs -> c = [k]) ->
  let l := repeat k (Z.to_nat (zprod gsh)) in
  exists y cnts', (do ls <- local_repeats dflt b cs None; assemble dflt (d_split b) ls) = Ok y /\
    d_gshape y = [zsum l] /\ d_split y = d_split b /\ rep y cnts' (rep_fun 0 l (flat_fun dflt G gsh)) /\
    forall s, d_split y = Some s -> cnts' = zcounts (nth s (d_gshape y) 0) (length cnts).
Proof.
  intros HR Hsp HP Hk HLc HC l. pose proof (proj1 HR) as HL. pose proof (proj1 (proj2 HR)) as Hn.
  assert (Fl : Forall (fun k => 0 <= k) l) by (apply Forall_repeat; auto).
  assert (X : exists ls' cnts1, local_repeats dflt b cs None = Ok ls' /\ represents (rep_fun 0 l (flat_fun dflt G gsh)) [zsum l] (d_split b) cnts1 ls' /\ length cnts1 = length cnts).
  { destruct Hsp as [ES|ES]; rewrite ES in *.
    - destruct (repeat_flat_none dflt G gsh cnts (d_locals b) [k] l cs HR) as (ls' & E & R & LL); auto; [left; eauto|lia|]. eauto.
    - pose proof HR as (_ & _ & Hs & Hc & Hsum & _). set (zp := zprod (tl gsh)).
      assert (Z0 : 0 <= zp) by (apply zprod_nonneg'; destruct gsh; [constructor|now inversion Hn]).
      set (lr := map (fun c => repeat k (Z.to_nat c)) (map (fun c => c * zp) cnts)).
      assert (EC : concat lr = l).
      { unfold lr, l. rewrite concat_repeats; [|apply Forall_forall; intros z Hz; apply in_map_iff in Hz as (c & <- & I); rewrite Forall_forall in Hc; specialize (Hc c I); nia].
        rewrite zsum_map_mul, Hsum. do 2 f_equal. destruct gsh; [cbn in Hs; lia|reflexivity]. }
      destruct (repeat_flat_split dflt G gsh cnts (d_locals b) cs lr HR) as (ls' & E & R & LL).
      + lia.
      + unfold lr. rewrite !map_length. lia.
      + intros r Hr. left. exists k. split; [apply nth_all_same; auto; lia|]. unfold lr. rewrite map_map. erewrite nth_error_nth; [|rewrite nth_error_map, (nth_error_nth' cnts 0) by lia; reflexivity].
        now rewrite (flat_len0 _ _ _ _ r _ HR) by auto.
      + now rewrite EC.
      + rewrite EC in R. exists ls', (map zsum lr). split; [exact E|]. split; [auto|]. unfold lr. now rewrite !map_length. }
  destruct X as (ls' & c1 & E & R & L1). rewrite E. cbn [bind].
  destruct (assemble_ok dflt _ _ _ _ _ R ltac:(lia)) as (y & c2 & E1 & E2 & E3 & E4 & E5 & E6).
  exists y, c2. split; [auto|]. split; [auto|]. split; [auto|]. split; [auto|]. intros s Hs. rewrite E2, <- L1. apply E6. congruence.
Qed.

(** ht.repeat(a, counts) without axis: the elements in row-major order, element number i
    repeated counts[i] times, as a vector that is distributed iff the array is (array in any
    layout for one count and split 0; balanced otherwise). *)
Theorem C82_repeat_flat_partial : forall (A : Type) (dflt : A) (a : dnd A) (G : list Z -> A) (cnts : list Z) (r : rep_arg) (vals : list Z),
  rep a cnts G -> (0 < length cnts)%nat -> Forall (fun n => 0 < n) (d_gshape a) ->
  let n := zprod (d_gshape a) in
  count_values (length cnts) r vals -> Forall (fun k => 0 <= k) vals -> (length vals = 1%nat \/ Z.of_nat (length vals) = n) ->
  (forall s, d_split a = Some s -> s <> 0%nat \/ length vals <> 1%nat -> cnts = zcounts (nth s (d_gshape a) 0) (length cnts)) ->
  let elements idx := nth (Z.to_nat (nth 0 idx 0)) (map G (row_major (d_gshape a))) dflt in
  exists y G' cnts', ht_repeat dflt a r None = Ok y /\
    d_gshape y = [zsum (all_counts vals n)] /\ d_split y = option_map (fun _ => 0%nat) (d_split a) /\ rep y cnts' G' /\
    repeated_along 0 (all_counts vals n) [n] elements G' /\
    forall s, d_split y = Some s -> cnts' = zcounts (nth s (d_gshape y) 0) (length cnts).
Proof.
  intros A dflt a G cnts r vals HR HP Hpos n HV Fv HLen HB elements.
  assert (Hn : 0 < n) by now apply zprod_pos'.
  pose proof HR as HR0. unfold rep in HR0. pose proof (proj1 HR0) as HL.
  assert (NE : vals <> []) by (intros ->; cbn in HLen; lia).
  unfold ht_repeat. rewrite HL. cbn [bind].
  assert (AA := as_array _ _ _ HV HP). set (b := to_split dflt a (match d_split a with None => None | Some _ => Some 0%nat end)).
  destruct (rows_ok dflt a G cnts HR HP) as (B1 & B2 & c1 & B3 & B4 & B5). fold b in B1, B2, B3, B4, B5.
  assert (Bs : d_split b = None \/ d_split b = Some 0%nat) by (rewrite B2; destruct (d_split a); auto).
  assert (Bo : d_split b = option_map (fun _ => 0%nat) (d_split a)) by (rewrite B2; destruct (d_split a); auto).
  assert (SP : forall l, Forall (fun k => 0 <= k) l -> Z.of_nat (length l) = n -> repeated_along 0 l [n] elements (rep_fun 0 l (flat_fun dflt G (d_gshape a)))).
  { intros l Fl Ll. apply rep_fun_spec; auto. }
  destruct (Nat.eq_dec (length vals) 1) as [E1|N1].
  - destruct vals as [|k [|]]; cbn in E1; try lia. inversion Fv; subst. unfold all_counts. cbn [length Nat.eqb nth].
    assert (NF : forall cs, length cs = length cnts -> (forall c, In c cs -> c = [k]) -> exists y G' cnts', (do ls <- local_repeats dflt b cs None; assemble dflt (d_split b) ls) = Ok y /\
       d_gshape y = [zsum (repeat k (Z.to_nat n))] /\ d_split y = option_map (fun _ => 0%nat) (d_split a) /\ rep y cnts' G' /\ repeated_along 0 (repeat k (Z.to_nat n)) [n] elements G' /\
       (forall s, d_split y = Some s -> cnts' = zcounts (nth s (d_gshape y) 0) (length cnts))).
    { intros cs LC HC. destruct (number_flat dflt b G (d_gshape a) c1 k cs B3 Bs ltac:(lia) H1 ltac:(lia) HC) as (y & c2 & F1 & F2 & F3 & F4 & F5).
      exists y, (rep_fun 0 (repeat k (Z.to_nat n)) (flat_fun dflt G (d_gshape a))), c2. split; [auto|]. split; [auto|]. split; [congruence|]. split; [auto|].
      split; [apply SP; [apply Forall_repeat; auto|rewrite repeat_length; lia]|]. rewrite <- B4. auto. }
    destruct r as [k0|l0|c0].
    + injection AA as <-. cbn [bind]. unfold repeat_core. rewrite no_empty by auto. fold b. rewrite HL. apply NF; [apply repeat_length|]. intros c I. now apply repeat_spec in I.
    + destruct (AA NE) as (c & cc & C & E & R & L & S1 & V & _). rewrite E. cbn [bind]. unfold repeat_core. rewrite no_empty by auto. rewrite S1. cbn [length]. change (zprod [Z.of_nat 1] =? 1) with true. cbv iota. fold b.
      destruct (to_split_ok 0 c C cc None R ltac:(lia) ltac:(discriminate)) as (T1 & T2 & T3 & c' & T4 & T5 & _).
      apply NF; [rewrite map_length; lia|]. rewrite S1 in T4. intros x I. rewrite (counts_none _ _ _ _ T4 x I). now rewrite <- S1.
    + destruct (AA NE) as (c & cc & C & E & R & L & S1 & V & _). rewrite E. cbn [bind]. unfold repeat_core. rewrite no_empty by auto. rewrite S1. cbn [length]. change (zprod [Z.of_nat 1] =? 1) with true. cbv iota. fold b.
      destruct (to_split_ok 0 c C cc None R ltac:(lia) ltac:(discriminate)) as (T1 & T2 & T3 & c' & T4 & T5 & _).
      apply NF; [rewrite map_length; lia|]. rewrite S1 in T4. intros x I. rewrite (counts_none _ _ _ _ T4 x I). now rewrite <- S1.
  - destruct HLen as [|HLen]; [lia|]. assert (EA : all_counts vals n = vals) by (unfold all_counts; replace (Nat.eqb (length vals) 1) with false; auto; symmetry; now apply Nat.eqb_neq). rewrite EA.
    specialize (SP vals Fv HLen).
    assert (XX : exists c cc C, match r with RInt k => Ok (inl k) | RSeq l => match l with [] => Err ValueError | _ => Ok (inr (replicated (length cnts) l)) end
                        | RArr c => if zprod (d_gshape c) =? 0 then Err ValueError else if negb (Nat.eqb (length (d_gshape c)) 1) then Err ValueError else Ok (inr c) end = Ok (@inr Z (dnd Z) c) /\
                      rep c cc C /\ length cc = length cnts /\ d_gshape c = [Z.of_nat (length vals)] /\ vals = map C (row_major (d_gshape c))).
    { destruct r as [k0|l0|c0]; [subst vals; cbn in N1; lia| |]; destruct (AA NE) as (c & cc & C & X1 & X2 & X3 & X4 & X5 & _); exists c, cc, C; auto. }
    destruct XX as (c & cc & C & E & R & L & S1 & V). rewrite E. cbn [bind]. unfold repeat_core. rewrite no_empty by auto. rewrite S1. fold b. clearbody b.
    assert (ZP : zprod [Z.of_nat (length vals)] = Z.of_nat (length vals)) by (unfold zprod; cbn; lia). rewrite ZP.
    replace (Z.of_nat (length vals) =? 1) with false by lia.
    assert (FIN : forall ls c2, represents (rep_fun 0 vals (flat_fun dflt G (d_gshape a))) [zsum vals] (d_split b) c2 ls -> length c2 = length cnts ->
       exists y G' cnts', assemble dflt (d_split b) ls = Ok y /\ d_gshape y = [zsum vals] /\ d_split y = option_map (fun _ => 0%nat) (d_split a) /\ rep y cnts' G' /\ repeated_along 0 vals [n] elements G' /\
          (forall s, d_split y = Some s -> cnts' = zcounts (nth s (d_gshape y) 0) (length cnts))).
    { intros ls c2 RR L1. destruct (assemble_ok dflt _ _ _ _ _ RR ltac:(lia)) as (y & c3 & F1 & F2 & F3 & F4 & F5 & F6).
      exists y, (rep_fun 0 vals (flat_fun dflt G (d_gshape a))), c3. split; [auto|]. split; [auto|]. split; [congruence|]. split; [auto|]. split; [auto|]. intros s Hs. rewrite F2, <- L1. apply F6. congruence. }
    destruct (d_split a) as [s|] eqn:ES.
    + replace (zprod (d_gshape a) =? Z.of_nat (length vals)) with true by (unfold n in *; lia). cbn [negb].
      assert (GN : d_gshape a <> []) by (destruct HR0 as (_ & _ & Hs & _); intros X; rewrite X in Hs; cbn in Hs; lia).
      assert (NP : np_shape (d_gshape c) (d_gshape a) = Ok (d_gshape a)).
      { apply (C36_shapes Z 0 c (d_gshape a) AxNone); [eapply Forall_impl; [|exact Hpos]; cbn; lia|]. rewrite S1, ZP. unfold n in *. lia. }
      destruct (C36_reshape_partial Z 0 c C cc (d_gshape a) (d_gshape a) AxNone R ltac:(lia) NP I ltac:(auto)) as (y & x' & cy & cx & C' & R1 & _ & _ & R2 & R3 & R4 & R5 & R6 & _).
      rewrite R1. cbn [bind fst].
      assert (RS : d_split y = None \/ d_split y = Some 0%nat).
      { rewrite R3. destruct (d_gshape a) as [|g gs]; [congruence|]. cbn [length Nat.eqb]. destruct (d_split c) as [sc|] eqn:ESc; [|now left]. rewrite S1. cbn [length].
        unfold rep in R. rewrite ESc, S1 in R. destruct R as (_ & _ & Hsc & _). cbn in Hsc. assert (sc = 0%nat) by lia. subst sc. right. destruct (length gs =? 0)%nat; reflexivity. }
      assert (Lcy : length cy = length cnts).
      { destruct RS as [Ey|Ey].
        - pose proof (proj1 R4) as Ly. assert (length (d_locals y) = length cnts). { 
            destruct (reshape_ok 0 c C cc (d_gshape a) (d_gshape a) AxNone R ltac:(lia) NP I ltac:(auto)) as (y2 & x2 & c2 & c3 & G2 & Q1 & Q2 & Q3 & Q4 & Q5 & _). rewrite Q1 in R1. injection R1 as -> _.
            pose proof (proj1 Q4). lia. }
          lia.
        - rewrite (R6 0%nat Ey). unfold counts_of. rewrite !map_length, seq_length. auto. }
      destruct (to_split_ok 0 y C' cy (Some 0%nat) R4 ltac:(lia)) as (U1 & U2 & U3 & c'' & U4 & U5 & U6 & U7).
      { intros k0 E0. injection E0 as <-. rewrite R2. destruct (d_gshape a); [congruence|cbn; lia]. }
      assert (Ec : c'' = zcounts (nth 0 (d_gshape a) 0) (length cnts)).
      { destruct RS as [Ey|Ey].
        - rewrite (U7 0%nat eq_refl) by congruence. rewrite R2, Lcy. auto.
        - rewrite (proj1 (U6 (eq_sym Ey))). rewrite (R6 0%nat Ey). now rewrite L. }
      assert (Ec1 : c1 = zcounts (nth 0 (d_gshape a) 0) (length cnts)).
      { apply B5; [|congruence]. intros s0 Es0. apply HB; auto. }
      subst c'' c1. rewrite R2 in U4. set (cl := map flat (d_locals (to_split 0 y (Some 0%nat)))).
      assert (EV : concat cl = vals) by (unfold cl; rewrite (flat_split0 _ _ _ _ U4), R5; auto).
      rewrite B2 in B3. pose proof (proj1 B3) as LB.
      destruct (repeat_flat_split dflt G (d_gshape a) _ (d_locals b) cl cl B3) as (ls' & F1 & F2 & F3).
      { unfold cl. rewrite map_length. lia. } { unfold cl. rewrite map_length. lia. }
      { intros q Hq. right. split; auto. unfold cl. set (d0 := mk_arr [] (fun _ : list Z => 0)). rewrite (nth_indep _ [] (flat d0)) by (rewrite map_length; lia). rewrite map_nth.
        rewrite (flat_len0 _ _ _ _ q d0 U4) by lia. now rewrite (flat_len0 _ _ _ _ q _ B3) by lia. }
      { now rewrite EV. }
      rewrite EV in F2. unfold local_repeats. rewrite F1. cbn [bind]. rewrite B2 in FIN. apply (FIN _ _ F2). pose proof (proj1 F2). lia.
    + destruct (to_split_ok 0 c C cc None R ltac:(lia) ltac:(discriminate)) as (T1 & T2 & T3 & c' & T4 & T5 & _).
      rewrite T1, S1, ZP. rewrite S1 in T4. assert (CN : forall x, In x (map flat (d_locals (to_split 0 c None))) -> x = vals) by (intros x I; rewrite (counts_none _ _ _ _ T4 x I); now rewrite <- S1).
      replace (zprod (d_gshape a) =? Z.of_nat (length vals)) with true by (unfold n in *; lia). cbn [negb].
      destruct (repeat_flat_none dflt G (d_gshape a) cnts (d_locals a) vals vals (map flat (d_locals (to_split 0 c None))) HR0) as (ls' & F1 & F2 & F3); auto; [right; split; [auto|unfold n in *; lia]|rewrite map_length; lia|].
      unfold local_repeats. rewrite F1. cbn [bind]. rewrite B2 in FIN. apply (FIN _ _ F2); auto.
Qed.
Print Assumptions C82_repeat_flat_partial.

(** What is rejected: a wrong axis, no counts, and (unless [axis] is the distributed one) a
    number of counts that is neither one nor the number of elements concerned. *)
Theorem C82_repeat_rejects : forall (A : Type) (dflt : A) (a : dnd A) (G : list Z -> A) (cnts : list Z) (r : rep_arg) (vals : list Z) (axis : option Z),
  rep a cnts G -> (0 < length cnts)%nat -> Forall (fun n => 0 < n) (d_gshape a) -> count_values (length cnts) r vals ->
  (match axis with None => True | Some k => 0 <= k < Z.of_nat (length (d_gshape a)) /\ d_split a <> Some (Z.to_nat k) end) ->
  length vals <> 1%nat -> Z.of_nat (length vals) <> match axis with None => zprod (d_gshape a) | Some k => nth (Z.to_nat k) (d_gshape a) 0 end ->
  ht_repeat dflt a r axis = Err ValueError.
Proof.
  intros A dflt a G cnts r vals axis HR HP Hpos HV HA N1 NL. pose proof HR as HR0. unfold rep in HR0. pose proof (proj1 HR0) as HL.
  unfold ht_repeat. rewrite HL.
  assert (EAX : match axis with None => Ok None | Some k => if (Z.of_nat (length (d_gshape a)) <=? k) || (k <? 0) then Err ValueError else Ok (Some (Z.to_nat k)) end = Ok (option_map Z.to_nat axis)).
  { destruct axis as [k|]; [|reflexivity]. replace ((Z.of_nat (length (d_gshape a)) <=? k) || (k <? 0)) with false by lia. reflexivity. }
  rewrite EAX. cbn [bind]. destruct vals as [|v0 vs].
  { destruct r as [k|l|c]; cbn [count_values] in HV; [discriminate|subst l; reflexivity|]. destruct HV as (cc & C & R & L & S1 & V). rewrite S1. reflexivity. }
  set (vals := v0 :: vs) in *. assert (NE : vals <> []) by discriminate. assert (AA := as_array _ _ _ HV HP).
  assert (XX : exists c cc C, match r with RInt k => Ok (inl k) | RSeq l => match l with [] => Err ValueError | _ => Ok (inr (replicated (length cnts) l)) end
                        | RArr c => if zprod (d_gshape c) =? 0 then Err ValueError else if negb (Nat.eqb (length (d_gshape c)) 1) then Err ValueError else Ok (inr c) end = Ok (@inr Z (dnd Z) c) /\
                      rep c cc C /\ length cc = length cnts /\ d_gshape c = [Z.of_nat (length vals)]).
  { destruct r as [k0|l0|c0]; [rewrite AA in N1; cbn in N1; lia| |]; destruct (AA NE) as (c & cc & C & X1 & X2 & X3 & X4 & X5 & _); exists c, cc, C; auto. }
  destruct XX as (c & cc & C & E & R & L & S1). rewrite E. cbn [bind]. unfold repeat_core. rewrite no_empty by auto. rewrite S1.
  assert (ZP : zprod [Z.of_nat (length vals)] = Z.of_nat (length vals)) by (unfold zprod; cbn; lia). rewrite ZP.
  replace (Z.of_nat (length vals) =? 1) with false by lia.
  destruct (to_split_ok 0 c C cc None R ltac:(lia) ltac:(discriminate)) as (T1 & _). rewrite T1, S1, ZP.
  destruct axis as [k|]; cbn [option_map].
  - destruct HA as [Hk Hs]. replace (nth (Z.to_nat k) (d_gshape a) 0 =? Z.of_nat (length vals)) with false by lia. cbn [negb].
    destruct (d_split a) as [s|]; [|reflexivity]. destruct (Nat.eqb_spec s (Z.to_nat k)); [congruence|reflexivity].
  - replace (zprod (d_gshape a) =? Z.of_nat (length vals)) with false by lia. cbn [negb]. destruct (d_split a); reflexivity.
Qed.
Print Assumptions C82_repeat_rejects.
Theorem C82_repeat_axis_rejects : forall (A : Type) (dflt : A) (a : dnd A) (r : rep_arg) (axis : Z),
  ~ 0 <= axis < Z.of_nat (length (d_gshape a)) -> ht_repeat dflt a r (Some axis) = Err ValueError.
Proof. intros A dflt a r axis H. unfold ht_repeat. replace ((Z.of_nat (length (d_gshape a)) <=? axis) || (axis <? 0)) with true by lia. reflexivity. Qed.
Print Assumptions C82_repeat_axis_rejects.

(** * Concrete cases *)
(** [[1,2],[3,4],[5,6]], rows on three processes as 1, 0, 2 *)
Definition row_f (o : Z) (i : list Z) : Z := o + 2 * nth 0 i 0 + nth 1 i 0.
Definition rows_ex : dnd Z := mk_dnd [mk_arr [1; 2] (row_f 1); mk_arr [0; 2] (row_f 0); mk_arr [2; 2] (row_f 3)] [3; 2] (Some 0%nat).
Lemma rows_ex_rep : rep rows_ex [1; 0; 2] (row_f 1).
Proof.
  split; [reflexivity|]. split; [repeat constructor; lia|]. split; [cbn; lia|]. split; [repeat constructor; lia|]. split; [reflexivity|].
  intros [|[|[|r]]] t Ht; cbn [nth_error rows_ex d_locals] in Ht; try (destruct r; discriminate); injection Ht as <-; (split; [reflexivity|]); intros idx Hi; cbn [upd rows_ex d_gshape nth] in Hi;
    inversion Hi as [|? k ? l0 H1 H2]; subst; inversion H2 as [|? k' ? l1 H3 H4]; subst; inversion H4; subst; unfold row_f; cbn [nth d_locals rows_ex adat move_axis_idx upd firstn] in *; change (zsum []) with 0; change (zsum [1]) with 1; change (zsum [1; 0]) with 1; lia.
Qed.
Definition show (m : res (dnd Z)) : list (list Z) := match m with Ok y => map flat (d_locals y) | Err _ => [[-1]] end.
Example repeat_ex1 : show (ht_repeat 0 rows_ex (RInt 2) (Some 0)) = [[1; 2; 1; 2]; [3; 4; 3; 4]; [5; 6; 5; 6]].
Proof. vm_compute. reflexivity. Qed.
Example repeat_ex2 : show (ht_repeat 0 rows_ex (RSeq [2; 1]) (Some 1)) = [[1; 1; 2]; [3; 3; 4]; [5; 5; 6]].
Proof. vm_compute. reflexivity. Qed.
(** counts as an array distributed like the rows *)
Definition counts_ex : dnd Z := mk_dnd [vector 0 [3]; vector 0 []; vector 0 [0; 1]] [3] (Some 0%nat).
Example repeat_ex3 : aligned (RArr counts_ex) [1; 0; 2] 3 /\ count_values 3 (RArr counts_ex) [3; 0; 1] /\
  show (ht_repeat 0 rows_ex (RArr counts_ex) (Some 0)) = [[1; 2; 1; 2]; [1; 2]; [5; 6]].
Proof.
  split; [reflexivity|]. split; [|vm_compute; reflexivity]. exists [1; 0; 2], (fun i => nth (Z.to_nat (nth 0 i 0)) [3; 0; 1] 0).
  split; [exact (vector_represents 0 [[3]; []; [0; 1]])|]. split; [reflexivity|]. split; [reflexivity|]. vm_compute. reflexivity.
Qed.
Definition vec4 : dnd Z := mk_dnd [vector 0 [0; 1]; vector 0 [2; 3]] [4] (Some 0%nat).
Example repeat_ex4 : show (ht_repeat 0 vec4 (RSeq [1; 0; 2; 1]) None) = [[0; 2]; [2; 3]].
Proof. vm_compute. reflexivity. Qed.

(** Two counts for four elements: NumPy raises ValueError; on two processes every process finds
    a single count and uses it for all its elements, and the call succeeds. *)
Theorem C82_count_mismatch_refuted :
  exists vals y, Forall (fun k => 0 <= k) vals /\ Z.of_nat (length vals) <> nth 0 (d_gshape vec4) 0 /\ length vals <> 1%nat /\
    ht_repeat 0 vec4 (RSeq vals) (Some 0) = Ok y /\ map flat (d_locals y) = [[0; 1; 2]; [2; 3; 3]].
Proof.
  exists [1; 2].
  assert (H : (match ht_repeat 0 vec4 (RSeq [1; 2]) (Some 0) with Ok y => forallb (fun p => eqb_idx (fst p) (snd p)) (combine (map flat (d_locals y)) [[0; 1; 2]; [2; 3; 3]]) && Nat.eqb (length (d_locals y)) 2 | Err _ => false end) = true) by (vm_compute; reflexivity).
  destruct (ht_repeat 0 vec4 (RSeq [1; 2]) (Some 0)) as [y|] eqn:E; [|discriminate]. exists y.
  split; [repeat constructor; lia|]. split; [cbn; lia|]. split; [cbn; lia|]. split; [reflexivity|].
  apply andb_true_iff in H as [H1 H2]. apply Nat.eqb_eq in H2. destruct (d_locals y) as [|t0 [|t1 [|]]]; cbn in H2; try discriminate H2.
  cbn [map combine forallb fst snd] in H1. rewrite !andb_true_iff in H1. destruct H1 as (H3 & H4 & _). apply eqb_idx_eq in H3, H4. cbn [map]. now rewrite H3, H4.
Qed.
Print Assumptions C82_count_mismatch_refuted.
(** An unbalanced array (three elements on the first of three processes) and three counts:
    the counts are distributed evenly, the first process uses its single count for its three
    elements: every element appears once instead of 1, 2, 3 times. *)
Definition packed3 : dnd Z := mk_dnd [vector 0 [10; 20; 30]; vector 0 []; vector 0 []] [3] (Some 0%nat).
Theorem C82_unbalanced_refuted :
  rep packed3 [3; 0; 0] (fun i => nth (Z.to_nat (nth 0 i 0)) [10; 20; 30] 0) /\
  exists y, ht_repeat 0 packed3 (RSeq [1; 2; 3]) (Some 0) = Ok y /\ map flat (d_locals y) = [[10]; [20]; [30]].
Proof.
  split; [exact (vector_represents 0 [[10; 20; 30]; []; []])|].
  assert (H : (match ht_repeat 0 packed3 (RSeq [1; 2; 3]) (Some 0) with Ok y => forallb (fun p => eqb_idx (fst p) (snd p)) (combine (map flat (d_locals y)) [[10]; [20]; [30]]) && Nat.eqb (length (d_locals y)) 3 | Err _ => false end) = true) by (vm_compute; reflexivity).
  destruct (ht_repeat 0 packed3 (RSeq [1; 2; 3]) (Some 0)) as [y|] eqn:E; [|discriminate]. exists y. split; [reflexivity|].
  apply andb_true_iff in H as [H1 H2]. apply Nat.eqb_eq in H2. destruct (d_locals y) as [|t0 [|t1 [|t2 [|]]]]; cbn in H2; try discriminate H2.
  cbn [map combine forallb fst snd] in H1. rewrite !andb_true_iff in H1. destruct H1 as (H3 & H4 & H5 & _). apply eqb_idx_eq in H3, H4, H5. cbn [map]. now rewrite H3, H4, H5.
Qed.
Print Assumptions C82_unbalanced_refuted.
(** An array without elements is returned as it is: without axis the result keeps its
    dimensions (NumPy: shape (0,)), and with an axis the extent is not multiplied. *)
Theorem C82_empty_refuted : forall (A : Type) (dflt : A) (a : dnd A) (k : Z),
  In 0 (d_gshape a) -> ht_repeat dflt a (RInt k) None = Ok a /\
  forall axis, 0 <= axis < Z.of_nat (length (d_gshape a)) -> ht_repeat dflt a (RInt k) (Some axis) = Ok a.
Proof.
  intros A dflt a k H. assert (E : existsb (Z.eqb 0) (d_gshape a) = true) by (apply existsb_exists; exists 0; split; auto).
  split; [|intros axis Hx]; unfold ht_repeat, repeat_core; rewrite E.
  - reflexivity.
  - replace ((Z.of_nat (length (d_gshape a)) <=? axis) || (axis <? 0)) with false by lia. reflexivity.
Qed.
Print Assumptions C82_empty_refuted.
