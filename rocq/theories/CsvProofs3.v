(** Proofs about load_csv: from lines to the table. *)
From Verif Require Import Base BaseLemmas LayoutModel LayoutProofs RedistModel RedistProofs NdSpec OpsModel OpsProofs2 OpsProofs4 ShapeModel BinModel BinProofs2 FactoryModel FactoryProps ShapeProps CsvSpec CsvModel CsvProofs CsvProofs2.
Open Scope nat_scope.

Lemma all_ok_app {A} (l1 l2 : list (res A)) : all_ok (l1 ++ l2) = do a <- all_ok l1; do b <- all_ok l2; Ok (a ++ b).
Proof.
  induction l1 as [|x l1 IH]; cbn [app all_ok bind]; [destruct (all_ok l2); reflexivity|]. destruct x as [a|e]; cbn [bind]; [|reflexivity].
  rewrite IH. destruct (all_ok l1); cbn [bind]; [|reflexivity]. destruct (all_ok l2); reflexivity.
Qed.
Lemma all_ok_inv {A} (l : list (res A)) v : all_ok l = Ok v -> l = map (@Ok A) v.
Proof.
  revert v. induction l as [|x l IH]; intros v; cbn [all_ok]; [intros [= <-]; reflexivity|]. destruct x as [a|e]; [|discriminate]. cbn [bind].
  destruct (all_ok l) as [w|] eqn:E; [|discriminate]. cbn [bind]. intros [= <-]. cbn. f_equal. now apply IH.
Qed.
Lemma all_ok_Ok {A} (v : list A) : all_ok (map (@Ok A) v) = Ok v.
Proof. induction v as [|x v IH]; cbn; [reflexivity|]. now rewrite IH. Qed.
Lemma all_ok_nested {A B R} (g : A -> res B) (F : R -> list A) rs out : all_ok (map g (concat (map F rs))) = Ok out ->
  exists d, all_ok (map (fun r => all_ok (map g (F r))) rs) = Ok d /\ concat d = out /\ length d = length rs.
Proof.
  revert out. induction rs as [|r rs IH]; intros out; cbn [map concat all_ok].
  - intros [= <-]. exists []. auto.
  - rewrite map_app, all_ok_app. destruct (all_ok (map g (F r))) as [a|] eqn:E1; [|discriminate]. cbn [bind].
    destruct (all_ok (map g (concat (map F rs)))) as [b|] eqn:E2; [|discriminate]. cbn [bind]. intros [= <-].
    destruct (IH b eq_refl) as (d & -> & C & Ld). exists (a :: d). cbn [bind concat length]. rewrite C, Ld. auto.
Qed.
Lemma all_ok_nested_inv {A B R} (g : A -> res B) (F : R -> list A) rs d : all_ok (map (fun r => all_ok (map g (F r))) rs) = Ok d ->
  all_ok (map g (concat (map F rs))) = Ok (concat d) /\ length d = length rs.
Proof.
  revert d. induction rs as [|r rs IH]; intros d; cbn [map concat all_ok].
  - intros [= <-]. auto.
  - rewrite map_app, all_ok_app. destruct (all_ok (map g (F r))) as [a|] eqn:E1; [|discriminate]. cbn [bind].
    destruct (all_ok (map (fun r0 => all_ok (map g (F r0))) rs)) as [b|] eqn:E2; [|discriminate]. cbn [bind]. intros [= <-].
    destruct (IH b eq_refl) as [-> Lb]. cbn [bind concat length]. rewrite Lb. auto.
Qed.
Lemma filter_concat {A B} (f : A -> bool) (F : B -> list A) l : filter f (concat (map F l)) = concat (map (fun r => filter f (F r)) l).
Proof. induction l as [|x l IH]; cbn; [reflexivity|]. now rewrite filter_app, IH. Qed.

(** the balanced, row-wise distributed result *)
Lemma finish_rep (V : Type) (dv : V) (P c : nat) (rows : dist (list V)) : 0 < P -> length rows = P ->
  exists y, finish P V dv c rows = Ok y /\ d_gshape y = [Z.of_nat (length (glob rows)); Z.of_nat c] /\ d_split y = Some 0 /\
    rep y (zcounts (Z.of_nat (length (glob rows))) P) (table dv (glob rows)).
Proof.
  intros HP HL. unfold finish. destruct (balance_lemma rows ltac:(lia)) as (d' & EB & EG & EL & _). rewrite HL in EB, EL. rewrite EB. cbn [bind].
  eexists. split; [reflexivity|]. split; [reflexivity|]. split; [reflexivity|]. unfold rep. cbn [d_gshape d_split d_locals].
  set (n := length (glob rows)) in *. destruct (zcounts_ok (Z.of_nat n) P HP ltac:(lia)) as (L1 & L2 & L3).
  assert (LD : length d' = P) by (rewrite <- (lens_length d'), EL; apply counts_of_length).
  assert (ZC : zcounts (Z.of_nat n) P = map Z.of_nat (lens d')) by (unfold zcounts; rewrite Nat2Z.id, EL; reflexivity).
  split; [rewrite map_length; lia|]. split; [repeat constructor; lia|]. split; [cbn; lia|]. split; [exact L2|]. split; [exact L3|].
  intros r t Ht. rewrite nth_error_map in Ht. destruct (nth_error d' r) as [loc|] eqn:El; [|discriminate]. cbn in Ht. injection Ht as <-.
  assert (Hr : r < P) by (rewrite <- LD; apply nth_error_Some; congruence).
  assert (EN : nth r d' [] = loc) by (now apply nth_error_nth).
  assert (EC : nth r (zcounts (Z.of_nat n) P) 0%Z = Z.of_nat (length loc)).
  { rewrite ZC. change 0%Z with (Z.of_nat 0). rewrite map_nth, lens_nth, EN. reflexivity. }
  split.
  - cbn [upd ash of_rows]. rewrite EC. reflexivity.
  - rewrite EC. cbn [upd]. intros idx Hi. cbn [adat of_rows]. unfold table.
    assert (IB : exists i j, idx = [i; j] /\ (0 <= i < Z.of_nat (length loc))%Z /\ (0 <= j < Z.of_nat c)%Z).
    { apply TensorLemmas.in_bounds_nth in Hi as [Hl Hi]. destruct idx as [|i [|j [|]]]; try discriminate Hl. exists i, j. split; [reflexivity|].
      split; [apply (Hi 0%nat); cbn; lia|apply (Hi 1%nat); cbn; lia]. }
    destruct IB as (i & j & -> & Hi' & Hj). unfold move_axis_idx. cbn [upd nth].
    f_equal. assert (OF : zsum (firstn r (zcounts (Z.of_nat n) P)) = Z.of_nat (psum (lens d') r)).
    { rewrite ZC, firstn_map. unfold psum. clear. induction (firstn r (lens d')) as [|x l IH]; [reflexivity|]. cbn [map]. rewrite list_sum_cons. change (zsum (Z.of_nat x :: map Z.of_nat l)) with (Z.of_nat x + zsum (map Z.of_nat l))%Z. lia. }
    rewrite OF. rewrite <- EG. replace (Z.to_nat (i + Z.of_nat (psum (lens d') r))) with (psum (lens d') r + Z.to_nat i) by lia.
    rewrite <- EN. symmetry. apply glob_nth. rewrite EN. lia.
Qed.
