(** When every index occurs once and the dataset is fresh, the datasets of an element stay together. *)
From Verif Require Import Base BaseLemmas PdsModel PdsProofs PdsProofs2.
Open Scope nat_scope.

Fixpoint find_pos (i : nat) (l : list nat) : option nat := match l with [] => None | y :: t => if i =? y then Some 0 else option_map S (find_pos i t) end.
Lemma find_none i l : ~ In i l -> find_pos i l = None.
Proof. induction l as [|y l IH]; intros H; [auto|]. cbn. destruct (Nat.eqb_spec i y) as [->|]; [exfalso; apply H; left; auto|]. rewrite IH; [auto|]. intros Hi. apply H. right. auto. Qed.
Lemma find_lt i l p : find_pos i l = Some p -> p < length l.
Proof. revert p. induction l as [|y l IH]; intros p H; [discriminate|]. cbn in H. destruct (i =? y); [injection H as <-; cbn; lia|]. destruct (find_pos i l) as [q|]; [|discriminate]. injection H as <-. specialize (IH q eq_refl). cbn. lia. Qed.
Lemma put_rows_nth {A} (x0 : A) i : forall idx new d, NoDup idx -> length new = length idx -> i < length d ->
  nth i (put_rows d idx new) x0 = match find_pos i idx with Some p => nth p new x0 | None => nth i d x0 end.
Proof.
  induction idx as [|y idx IH]; intros new d ND HL Hi; [reflexivity|]. destruct new as [|v new]; [discriminate|]. inversion ND; subst.
  change (put_rows d (y :: idx) (v :: new)) with (put_rows (upd d y v) idx new). rewrite IH by (auto; rewrite ?upd_length; auto; cbn in HL; lia). cbn [find_pos]. destruct (Nat.eqb_spec i y) as [->|].
  - rewrite find_none by auto. cbn [nth]. now apply upd_same.
  - destruct (find_pos i idx); cbn [option_map]; [reflexivity|]. now apply upd_other.
Qed.

Lemma nodup_app_l {A} (l m : list A) : NoDup (l ++ m) -> NoDup l.
Proof. induction l as [|x l IH]; intros H; [constructor|]. cbn in H. inversion H; subst. constructor; [intros Hx; apply H2; apply in_or_app; auto|auto]. Qed.
Lemma nodup_app_r {A} (l m : list A) : NoDup (l ++ m) -> NoDup m.
Proof. induction l as [|x l IH]; intros H; [auto|]. cbn in H. inversion H; subst. auto. Qed.

Section Once.
Context {A : Type} (dflt : A).
Variables (file : list (list A)) (total size bs load_len needed M : nat).
Hypothesis HB : 0 < bs.
Hypothesis Hfile : forall j, j < length file -> length (nth j file []) = total.
Notation pst := (pstate (A := A)).
Notation pstep := (pstep dflt file total size bs load_len needed).
Definition cell (c : list (list A)) (j r : nat) : A := nth r (nth j c []) dflt.
Definition pend (c : conv_pc (A := A)) : list nat :=
  match c with CNext rest _ | CFull rest _ | CAcq rest _ | CNotify rest _ | CPut rest _ => rest | CRead i rest _ _ | CUsed i rest _ => i :: rest | CDone => [] end.
Definition paired (it : item (A := A)) : Prop := exists r, r < total /\ length (snd it) = length file /\ forall j, j < length file -> nth j (snd it) dflt = cell file j r.
(** the loader's rows: [n] rows of the file from row [a] on, for the datasets from [j0] on *)
Definition holds (h : list (list A)) (j0 a n : nat) : Prop :=
  n <= load_len /\ (forall p, p < n -> a + p < total) /\ forall j, j0 <= j < length file -> length (nth j h []) = n /\ forall p, p < n -> cell h j p = cell file j (a + p).
Definition waking (l : load_pc (A := A)) := match l with LWoken _ _ | LRepl _ _ _ => True | _ => False end.
Definition busy (l : load_pc (A := A)) := match l with LWoken _ _ | LRepl _ _ _ | LReset _ => True | _ => False end.
Definition newrow (a n : nat) (us : list nat) (ro : nat -> nat) (i : nat) : nat := match find_pos i (firstn n us) with Some p => a + p | None => ro i end.
Definition mem_is (s : pst) (row : nat -> nat -> nat) : Prop := forall i j, i < M -> j < length file -> cell (mem s) j i = cell file j (row j i).
Definition load_ok (s : pst) : Prop :=
  match lpc s with
  | LRepl k h j => exists a n ro, j <= length file /\ holds h j a n /\ (forall i, i < M -> ro i < total) /\ mem_is s (fun j' i => if j' <? j then newrow a n (used s) ro i else ro i)
  | LAcq _ h | LEnter _ h | LWait _ h | LWoken _ h => (exists a n, holds h 0 a n) /\ exists ro, (forall i, i < M -> ro i < total) /\ mem_is s (fun _ => ro)
  | _ => exists ro, (forall i, i < M -> ro i < total) /\ mem_is s (fun _ => ro)
  end.
Definition read_ok (s : pst) : Prop :=
  match cpc s with
  | CRead i rest got cv => exists r, r < total /\ (forall j, j < length got -> nth j got dflt = cell file j r) /\ forall j, j < length file -> cell (mem s) j i = cell file j r
  | _ => True
  end.
Definition count_ok (s : pst) : Prop :=
  match cpc s with
  | CAcq _ _ | CNotify _ _ => load_len <= length (used s) /\ ~ busy (lpc s)
  | CFull _ _ => busy (lpc s) -> load_len < length (used s)
  | _ => True
  end /\ (busy (lpc s) -> load_len <= length (used s)).
Definition once_ok (s : pst) : Prop :=
  NoDup (used s ++ pend (cpc s)) /\ load_end s = load_start s + load_len /\ count_ok s /\ load_ok s /\ read_ok s /\
  Forall paired (conv_items (cpc s)) /\ Forall (Forall paired) (ready s) /\ Forall (Forall paired) (taken s).

(** a row that is not in the used list keeps its file row *)
Lemma row_known s i : load_ok s -> i < M -> ~ In i (used s) -> exists r, r < total /\ forall j, j < length file -> cell (mem s) j i = cell file j r.
Proof.
  intros H Hi HN. unfold load_ok in H. destruct (lpc s) as [|k|k h|k h|k h|k h|k h j|k|k];
    try (destruct H as (ro & H1 & H2); exists (ro i); split; [auto|intros j Hj; apply H2; auto]);
    try (destruct H as (_ & ro & H1 & H2); exists (ro i); split; [auto|intros j Hj; apply H2; auto]).
  destruct H as (a & n & ro & H0 & HH & H1 & H2). exists (ro i). split; [auto|]. intros j2 Hj2. rewrite (H2 i j2 Hi Hj2). destruct (j2 <? j); [|reflexivity]. unfold newrow. rewrite find_none; [reflexivity|].
  intros H. apply HN. rewrite <- (firstn_skipn n (used s)). apply in_or_app. auto.
Qed.
Lemma holds_read a n : n <= load_len -> exists a' n', holds (map (fun col => sub col a n) file) 0 a' n'.
Proof.
  intros Hn. exists a, (min n (total - a)). split; [lia|]. split; [intros; lia|]. intros j [_ Hj].
  assert (E : nth j (map (fun col => sub col a n) file) [] = sub (nth j file []) a n). { rewrite (nth_indep _ [] (sub [] a n)) by (now rewrite map_length). apply (map_nth (fun col => sub col a n)). }
  split.
  - rewrite E. unfold sub. rewrite firstn_length, skipn_length, Hfile by auto. lia.
  - intros p Hp. unfold cell. rewrite E. apply sub_nth. lia.
Qed.

Lemma conv_once len s s' : values_ok dflt file M s -> once_ok s -> pstep len Converter s = Some s' -> once_ok s'.
Proof.
  intros HV (ND & LE & CO & LO & RO & F1 & F2 & F3) E. destruct HV as ((V1 & V2) & V3 & V4 & (V5 & V6) & V7 & V8 & V9 & V10).
  destruct s as [mm us lk cp lp qq ll ls le rd tk]. unfold once_ok, count_ok in *. cbn [PdsModel.pstep] in E. unfold conv_step in E. cbn [cpc lock used lpc loads_left mem ready taken load_start load_end] in *.
  destruct cp as [[|i rest] cv|i rest got cv|i rest cv|rest cv|rest cv|rest cv|rest cv|]; try discriminate; cbn [pend conv_items] in *.
  - injection E as <-. cbn [set_c cpc used lpc ready taken load_start load_end pend conv_items]. repeat (split; auto); try exact LO; apply CO.
  - injection E as <-. cbn [set_c cpc used lpc ready taken load_start load_end pend conv_items]. split; [auto|]. split; [auto|]. split; [split; [auto|apply CO]|]. split; [exact LO|]. split; [|auto].
    unfold read_ok. cbn [cpc set_c]. inversion V10; subst. destruct (row_known _ i LO) as (r & Hr & HR); [auto|cbn [used]; intros Hin; apply NoDup_remove_2 in ND; apply ND; apply in_or_app; auto|]. exists r. split; [auto|]. split; [cbn; intros; lia|exact HR].
  - destruct RO as (r & Hr & HG & HM). unfold ncols in E. destruct (Nat.ltb_spec (length got) (length file)) as [L|L]; injection E as <-; cbn [set_c cpc used lpc ready taken load_start load_end pend conv_items].
    + split; [auto|]. split; [auto|]. split; [split; [auto|apply CO]|]. split; [exact LO|]. split; [|auto]. exists r. split; [auto|]. split; [|exact HM]. intros j Hj. rewrite app_length in Hj. cbn in Hj. destruct (Nat.eq_dec j (length got)) as [->|].
      * rewrite app_nth2, Nat.sub_diag by lia. cbn [nth]. apply (HM _ L).
      * rewrite app_nth1 by lia. apply HG. lia.
    + split; [auto|]. split; [auto|]. split; [split; [auto|apply CO]|]. split; [exact LO|]. split; [exact I|]. split; [|auto]. apply Forall_app. split; [auto|]. constructor; [|constructor]. exists r. cbn [got_of] in V5. cbn [snd]. assert (length got = length file) by lia. split; [auto|]. split; [auto|]. intros j Hj. apply HG. lia.
  - injection E as <-. cbn [set_c set_used cpc used lpc ready taken load_start load_end]. destruct CO as [_ CO]. split; [|split; [auto|split; [|split; [|split]]]].
    + unfold after_append. destruct (_ =? _); cbn [pend]; rewrite <- app_assoc; exact ND.
    + unfold after_append. rewrite app_length. destruct (_ =? _); cbn [length]; (split; [|intros B; specialize (CO B); lia]); auto. intros B. specialize (CO B). lia.
    + unfold load_ok in *. cbn [set_c set_used lpc used] in *. destruct lp; auto. destruct LO as (a & n & ro & H0 & HH & H1 & H2). exists a, n, ro. split; [auto|]. split; [auto|]. split; [auto|].
      intros i2 j2 Hi2 Hj2. change (cell (mem (set_c (set_used (mk_p mm us lk (CUsed i rest cv) (LRepl k hold j) qq ll ls le rd tk) (us ++ [i])) (after_append bs rest cv))) j2 i2) with (cell mm j2 i2). specialize (H2 i2 j2 Hi2 Hj2). cbn [mem] in H2. rewrite H2. unfold newrow. rewrite firstn_app.
      replace (n - length us) with 0 by (destruct HH as [HH _]; specialize (CO I); lia). cbn [firstn]. rewrite app_nil_r. reflexivity.
    + unfold read_ok, after_append. cbn [set_c set_used cpc]. destruct (_ =? _); exact I.
    + unfold after_append. destruct (_ =? _); auto.
  - destruct CO as [C1 C2]. injection E as <-. cbn [set_c cpc used lpc ready taken load_start load_end].
    destruct (Nat.eqb_spec (length us) load_len) as [EL|EL]; [destruct (0 <? ll)|]; cbn [andb pend conv_items]; (split; [auto|split; [auto|split; [|split; [exact LO|split; [exact I|auto]]]]]); (split; [|auto]); auto.
    split; [lia|]. intros B. specialize (C1 B). lia.
  - destruct lk; try discriminate. injection E as <-. cbn [set_c set_lock cpc used lpc ready taken load_start load_end pend conv_items]. repeat (split; auto); try exact LO; apply CO; auto.
  - destruct CO as [(C1 & C1') C2]. injection E as <-. destruct lp; cbn [set_c set_lock set_l cpc used lpc ready taken load_start load_end pend conv_items] in *; (split; [auto|split; [auto|split; [|split; [exact LO|split; [exact I|auto]]]]]); (split; [auto|]); auto.
  - destruct CO as [C1 C2]. injection E as <-. cbn [cpc used lpc ready taken load_start load_end pend conv_items]. split; [auto|]. split; [auto|]. split; [auto|]. split; [exact LO|]. split; [exact I|]. split; [auto|]. split; [apply Forall_app; split; auto|auto].
Qed.

Lemma next_once len s s' : once_ok s -> pstep len Consumer s = Some s' -> once_ok s'.
Proof.
  intros (ND & LE & CO & LO & RO & F1 & F2 & F3) E. destruct s as [mm us lk cp lp qq ll ls le rd tk]. cbn [PdsModel.pstep] in E. unfold next_step in E. cbn [taken ready] in *. destruct (_ =? _); [discriminate|]. destruct rd as [|b rd]; [discriminate|]. injection E as <-.
  inversion F2; subst. split; [exact ND|]. split; [exact LE|]. split; [exact CO|]. split; [exact LO|]. split; [exact RO|]. split; [exact F1|]. cbn [ready taken]. split; [auto|]. apply Forall_app. auto.
Qed.
Lemma read_same s s' : cpc s' = cpc s -> mem s' = mem s -> read_ok s -> read_ok s'.
Proof. intros E1 E2 H. unfold read_ok in *. rewrite E1, E2. exact H. Qed.
Lemma load_once len s s' : values_ok dflt file M s -> once_ok s -> pstep len Loader s = Some s' -> once_ok s'.
Proof.
  intros HV (ND & LE & CO & LO & RO & F1 & F2 & F3) E. destruct HV as ((V1 & V2) & V3 & V4 & (V5 & V6) & V7 & V8 & V9 & V10).
  destruct s as [mm us lk cp lp qq ll ls le rd tk]. unfold once_ok. cbn [PdsModel.pstep] in E. unfold load_step in E. cbn [cpc lock used lpc loads_left mem ready taken load_start load_end queued] in *.
  destruct lp as [|[|k]|k h|k h|k h|k h|k h j|k|k]; try discriminate.
  - destruct qq; [discriminate|]. injection E as <-. cbn [cpc used lpc ready taken load_start load_end]. split; [auto|]. split; [auto|]. split; [exact CO|]. split; [exact LO|]. split; [exact RO|auto].
  - injection E as <-. cbn [set_l cpc used lpc ready taken load_start load_end]. split; [auto|]. split; [auto|]. split; [exact CO|]. split; [exact LO|]. split; [exact RO|auto].
  - injection E as <-. cbn [cpc used lpc ready taken load_start load_end]. split; [auto|]. split; [auto|]. split; [exact CO|]. split; [|split; [exact RO|auto]]. unfold load_ok. cbn [lpc]. split; [|exact LO]. apply holds_read. lia.
  - destruct lk; try discriminate. injection E as <-. cbn [set_l set_lock cpc used lpc ready taken load_start load_end]. split; [auto|]. split; [auto|]. split; [exact CO|]. split; [exact LO|]. split; [exact RO|auto].
  - injection E as <-. cbn [set_l set_lock cpc used lpc ready taken load_start load_end]. split; [auto|]. split; [auto|]. split; [exact CO|]. split; [exact LO|]. split; [exact RO|auto].
  - destruct lk; try discriminate. injection E as <-. cbn [set_l set_lock cpc used lpc ready taken load_start load_end]. split; [auto|]. split; [auto|]. split; [exact CO|]. split; [|split; [exact RO|auto]].
    unfold load_ok in *. cbn [lpc used set_l set_lock] in *. destruct LO as ((a & n & HH) & ro & H1 & H2). exists a, n, ro. split; [lia|]. split; [exact HH|]. split; [exact H1|]. intros i2 j2 Hi2 Hj2. apply (H2 i2 j2 Hi2 Hj2).
  - unfold ncols in E. unfold load_ok in LO. cbn [lpc used] in LO. destruct LO as (a & n & ro & H0 & HH & H1 & H2). assert (HU : n <= length us) by (destruct CO as [_ CO]; specialize (CO I); cbn [used] in CO; destruct HH; lia).
    destruct (Nat.ltb_spec j (length file)) as [L|L]; injection E as <-; cbn [set_l cpc used lpc ready taken load_start load_end].
    + destruct HH as (HH1 & HH2 & HH3). destruct (HH3 j ltac:(lia)) as [HLn HCn].
      assert (EF : firstn (length us) (nth j h []) = nth j h []) by (apply firstn_all2; lia). rewrite EF, HLn.
      assert (NDU : NoDup (firstn n us)). { apply nodup_app_l in ND. rewrite <- (firstn_skipn n us) in ND. apply nodup_app_l in ND. exact ND. }
      assert (NEW : forall i, i < M -> cell (upd mm j (put_rows (nth j mm []) (firstn n us) (nth j h []))) j i = cell file j (newrow a n us ro i)).
      { intros i Hi. unfold cell at 1. rewrite upd_same by lia. rewrite put_rows_nth; [|exact NDU|rewrite firstn_length; lia|rewrite V2; auto]. unfold newrow. destruct (find_pos i (firstn n us)) as [p|] eqn:FP.
        - apply find_lt in FP. rewrite firstn_length in FP. apply (HCn p). lia.
        - pose proof (H2 i j Hi L) as HH2'. cbn [mem] in HH2'. rewrite Nat.ltb_irrefl in HH2'. exact HH2'. }
      assert (OLD : forall i j2, j2 <> j -> cell (upd mm j (put_rows (nth j mm []) (firstn n us) (nth j h []))) j2 i = cell mm j2 i) by (intros; unfold cell; now rewrite upd_other).
      split; [auto|]. split; [auto|]. split; [exact CO|]. split; [|split; [|auto]].
      * unfold load_ok. cbn [lpc used]. exists a, n, ro. split; [lia|]. split; [|split; [auto|]].
        -- split; [auto|]. split; [auto|]. intros j2 Hj2. unfold cell at 1. rewrite upd_other by lia. apply HH3. lia.
        -- intros i j2 Hi Hj2. cbn [mem]. destruct (Nat.eq_dec j2 j) as [->|NE].
           ++ destruct (Nat.ltb_spec j (S j)); [|lia]. apply NEW. auto.
           ++ rewrite OLD by auto. pose proof (H2 i j2 Hi Hj2) as HO. cbn [mem] in HO. rewrite HO. destruct (Nat.ltb_spec j2 j), (Nat.ltb_spec j2 (S j)); try lia; reflexivity.
      * unfold read_ok in *. cbn [cpc mem] in *. destruct cp; auto. destruct RO as (r & Hr & HG & HM). exists r. split; [auto|]. split; [auto|]. intros j2 Hj2. apply Forall_inv in V10.
        assert (NI : ~ In ind us) by (cbn [pend] in ND; apply NoDup_remove_2 in ND; intros Hin; apply ND; apply in_or_app; auto).
        destruct (Nat.eq_dec j2 j) as [->|NE]; [|rewrite OLD by auto; apply HM; auto]. rewrite NEW by auto. unfold newrow. rewrite find_none by (intros Hin; apply NI; rewrite <- (firstn_skipn n us); apply in_or_app; auto).
        rewrite <- (HM j L). pose proof (H2 ind j ltac:(auto) L) as HO. cbn [mem] in HO. rewrite HO, Nat.ltb_irrefl. reflexivity.
    + split; [auto|]. split; [auto|]. split; [exact CO|]. split; [|split; [exact RO|auto]]. unfold load_ok. cbn [lpc set_l]. exists (newrow a n us ro). split.
      * intros i Hi. unfold newrow. destruct (find_pos i (firstn n us)) as [p|] eqn:FP; [|auto]. apply find_lt in FP. rewrite firstn_length in FP. destruct HH as (_ & HH2 & _). apply HH2. lia.
      * intros i j2 Hi Hj2. cbn [mem set_l]. pose proof (H2 i j2 Hi Hj2) as HO. cbn [mem] in HO. rewrite HO. destruct (Nat.ltb_spec j2 j); [reflexivity|lia].
  - injection E as <-. cbn [set_l set_used cpc used lpc ready taken load_start load_end]. split; [cbn [app]; apply nodup_app_r in ND; exact ND|]. split; [auto|]. split.
    { destruct CO as [C1 C2]. unfold count_ok. cbn [cpc lpc used set_l set_used] in *. split; [|cbn; tauto]. destruct cp; auto; cbn [busy] in *; try tauto. }
    split; [exact LO|]. split; [exact RO|auto].
  - injection E as <-. cbn [cpc used lpc ready taken load_start load_end]. split; [auto|]. split; [auto|]. split; [exact CO|]. split; [exact LO|]. split; [exact RO|auto].
Qed.
Lemma once_step len t s s' : values_ok dflt file M s /\ once_ok s -> pstep len t s = Some s' -> values_ok dflt file M s' /\ once_ok s'.
Proof. intros [HV HO] E. split; [eapply values_step; eauto|]. destruct t; [eapply next_once|eapply conv_once|eapply load_once]; eauto. Qed.
End Once.
