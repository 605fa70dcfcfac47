(** ptp over all elements: proofs. *)
From Verif Require Import Base ShapeSpec BaseLemmas LayoutModel NdSpec TensorSpec TensorLemmas NdLemmas ShapeProofs3 OpsModel OpsProofs4 OpsProofs5 ShapeModel ShapeProofs4 ShapeProps VmapSpec VmapProofs CloseProofs PtpSpec PtpModel PtpProofs.
Open Scope Z_scope.

Definition odec : forall v w : option Z, {v = w} + {v <> w}.
Proof. decide equality. apply Z.eq_dec. Defined.
Lemma elements (G : list Z -> option Z) gsh sp c ls : represents G gsh sp c ls -> (0 < length ls)%nat ->
  forall v, In v (concat (map flat ls)) <-> In v (map G (row_major gsh)).
Proof.
  intros HR HP v. pose proof (every_element G gsh sp c ls (fun w => if odec v w then false else true) HR HP) as E.
  assert (EL : In v (concat (map flat ls)) <-> ~ (forall t, In t ls -> forall idx, in_bounds (ash t) idx -> (if odec v (adat t idx) then false else true) = true)).
  { split.
    - intros H Hn. apply in_concat in H as (l & Hl & Hv). apply in_map_iff in Hl as (t & <- & Ht). unfold flat in Hv. apply in_map_iff in Hv as (idx & <- & Hi). apply in_row_major in Hi.
      specialize (Hn t Ht idx Hi). destruct (odec _ _); [discriminate Hn|contradiction].
    - intros Hn. destruct (in_dec odec v (concat (map flat ls))) as [H|H]; [auto|]. exfalso. apply Hn. intros t Ht idx Hi. destruct (odec v (adat t idx)) as [->|]; [|reflexivity].
      exfalso. apply H. apply in_concat. exists (flat t). split; [now apply in_map|]. unfold flat. apply in_map. now apply in_row_major. }
  rewrite EL, E. split.
  - intros Hn. destruct (in_dec odec v (map G (row_major gsh))) as [H|H]; [auto|]. exfalso. apply Hn. intros idx Hi. destruct (odec v (G idx)) as [->|]; [|reflexivity].
    exfalso. apply H. apply in_map. now apply in_row_major.
  - intros H Hn. apply in_map_iff in H as (idx & <- & Hi). apply in_row_major in Hi. specialize (Hn idx Hi). destruct (odec _ _); [discriminate Hn|contradiction].
Qed.
Lemma flat_nonempty (t : arr (option Z)) : Forall (fun n => 1 <= n) (ash t) -> flat t <> [].
Proof.
  intros H E. apply (f_equal (@length _)) in E. unfold flat in E. rewrite map_length in E. pose proof (zprod_pos _ H).
  pose proof (row_major_length (ash t)) as L. rewrite E in L. cbn in L. rewrite <- L in H0; [lia|]. eapply Forall_impl; [|exact H]. cbn. intros; lia.
Qed.

Section Y.
Context (x : dnd (option Z)) (cnts : list Z) (G : list Z -> option Z).
Hypothesis HX : rep x cnts G.
Hypothesis H1 : Forall (fun n => 1 <= n) (d_gshape x).
Hypothesis Hc1 : d_split x <> None -> Forall (fun n => 1 <= n) cnts.
Hypothesis HP : cnts <> [].
Notation gsh := (d_gshape x).
Notation P := (length (d_locals x)).
Definition packed_all := map (fun t => local_minmax t None) (d_locals x).
Definition reduced_all := match d_split x with Some s => if (1 <? P)%nat && true then allreduce_minmax packed_all else packed_all | None => packed_all end.
Definition RA : option Z := spread_of (map G (row_major gsh)).
Lemma one_flat t : (forall v, In v (flat t) <-> In v (map G (row_major gsh))) -> flat t <> [] -> spread_of (flat t) = RA.
Proof.
  intros HI HN. unfold RA. rewrite <- (ext_spread [flat t] (map G (row_major gsh))); [reflexivity|discriminate| |].
  - intros k [<-|[]]. exact HN.
  - cbn [concat]. now rewrite app_nil_r.
Qed.
Lemma all_ok y : In y (map halves reduced_all) -> ash y = [1] /\ adat y [0] = RA.
Proof.
  intros Hy. assert (NE : d_locals x <> []) by (intros E0; apply HP; destruct HX as (HL0 & _); rewrite E0 in HL0; destruct cnts; [auto|discriminate HL0]).
  assert (LS : (0 < P)%nat) by (destruct (d_locals x); [contradiction|cbn; lia]).
  pose proof (elements G gsh (d_split x) cnts (d_locals x) HX LS) as EL.
  assert (LOC : (forall t, In t (d_locals x) -> forall v, In v (flat t) <-> In v (map G (row_major gsh))) -> In y (map halves packed_all) -> ash y = [1] /\ adat y [0] = RA).
  { intros HI Hq. unfold packed_all in Hq. rewrite map_map in Hq. apply in_map_iff in Hq as (t & <- & Ht). destruct (local_ptp_all t) as [D S]. split; [exact S|]. rewrite D. apply one_flat; [now apply HI|].
    apply flat_nonempty. apply (local_pos x cnts G HX H1 Hc1 t Ht). }
  unfold reduced_all in Hy. destruct (d_split x) as [s|] eqn:Es.
  - destruct (1 <? P)%nat eqn:E1; cbn [andb] in Hy.
    + set (us := map (fun t : arr (option Z) => mk_arr [1] (fun _ : list Z => big1 omin (flat t))) (d_locals x)). set (vs := map (fun t : arr (option Z) => mk_arr [1] (fun _ : list Z => big1 omax (flat t))) (d_locals x)).
      assert (EP : packed_all = map (fun p => cat0 (fst p) (snd p)) (combine us vs)) by (unfold packed_all, us, vs; rewrite combine_map, map_map; reflexivity).
      rewrite EP in Hy. apply (reduced_ok [1]) in Hy as [S D]; [|cbn; lia|cbn; lia|unfold us, vs; now rewrite !map_length|].
      * split; [exact S|]. rewrite D by (repeat constructor; lia). unfold RA. rewrite <- (ext_spread (map flat (d_locals x)) (map G (row_major gsh))); [| | |exact EL].
        -- unfold us, vs. rewrite !map_map. reflexivity.
        -- intros E. apply map_eq_nil in E. contradiction.
        -- intros k Hk. apply in_map_iff in Hk as (t & <- & Ht). apply flat_nonempty. assert (Hc1' : d_split x <> None -> Forall (fun n => 1 <= n) cnts) by (rewrite Es; exact Hc1).
           apply (local_pos x cnts G HX H1 Hc1' t Ht).
      * intros u Hu. apply in_map_iff in Hu as (t & <- & _). reflexivity.
    + apply Nat.ltb_ge in E1. apply LOC; [|exact Hy]. intros t Ht v. rewrite <- EL. destruct (d_locals x) as [|t0 [|? ?]]; [contradiction| |cbn in E1; lia]. destruct Ht as [<-|[]]. cbn [map concat]. now rewrite app_nil_r.
  - apply LOC; [|exact Hy]. intros t Ht v. pose proof HX as HX'. unfold rep in HX'. rewrite Es in HX'. destruct HX' as (_ & _ & HR). destruct (HR t Ht) as [S D]. unfold flat. rewrite S.
    rewrite (map_ext_in (adat t) G); [reflexivity|]. intros idx Hi. apply D. now apply in_row_major.
Qed.
Lemma no_refusal a : (forall k, a = Some k -> (k < length gsh)%nat) -> (0 < length gsh)%nat ->
  existsb (fun t => zprod (reduced_shape (ash t) a) =? 0) (d_locals x) = false /\ existsb (fun t => negb (can_reduce t a)) (d_locals x) = false.
Proof.
  intros Ha Hn. split; apply not_true_is_false; intros E; apply existsb_exists in E as (t & Ht & E); destruct (local_pos x cnts G HX H1 Hc1 t Ht) as [Hp Hl].
  - apply Z.eqb_eq in E. assert (1 <= zprod (reduced_shape (ash t) a)); [|lia]. apply zprod_pos. unfold reduced_shape. destruct a as [k|]; [apply Forall_upd; [exact Hp|lia]|].
    apply Forall_forall. intros m Hm. apply in_map_iff in Hm as (? & <- & _). lia.
  - unfold can_reduce in E. destruct a as [k|]; apply negb_true_iff, Z.ltb_ge in E.
    + specialize (Ha k eq_refl). rewrite Forall_forall in Hp. assert (1 <= nth k (ash t) 0) by (apply Hp, nth_In; lia). lia.
    + pose proof (zprod_pos _ Hp). lia.
Qed.
End Y.
