(** Proofs about load_csv, split=0: which process reads which line. *)
From Verif Require Import Base BaseLemmas LayoutModel LayoutProofs RedistModel NdSpec OpsModel OpsProofs2 SplitProps2 CsvSpec CsvModel CsvProofs.
Open Scope nat_scope.

Lemma lu_skipn file k e n : forall l, lu file k e (skipn n l) = skipn n (lu file k e l).
Proof.
  induction n as [|n IH]; intros l; [reflexivity|]. destruct l as [|g [|g' t]]; [reflexivity| |].
  - cbn. destruct n; reflexivity.
  - rewrite lu_cons. cbn [skipn]. apply IH.
Qed.
Lemma skipn_app_ge {A} (a b : list A) n : length a <= n -> skipn n (a ++ b) = skipn (n - length a) b.
Proof. intros H. rewrite skipn_app, skipn_all2 by lia. reflexivity. Qed.

Lemma skipn_groups {A} (f : nat -> list A) h st P : st < P ->
  psum (map (@length A) (map f (seq 0 P))) st <= h < psum (map (@length A) (map f (seq 0 P))) (S st) ->
  skipn h (concat (map f (seq 0 P))) =
  skipn (h - psum (map (@length A) (map f (seq 0 P))) st) (f st) ++ concat (map f (seq (S st) (P - S st))).
Proof.
  intros HS [H1 H2]. set (L := map (@length A) (map f (seq 0 P))) in *.
  assert (EP : seq 0 P = seq 0 st ++ st :: seq (S st) (P - S st)).
  { replace P with (st + S (P - S st)) at 1 by lia. rewrite <- (seq_glue 0 st). f_equal. }
  assert (L1 : length (concat (map f (seq 0 st))) = psum L st).
  { unfold psum, L. rewrite EP, !map_app, firstn_app. rewrite firstn_all2 by (rewrite !map_length, seq_length; lia).
    rewrite !map_length, seq_length, Nat.sub_diag. cbn [firstn]. rewrite app_nil_r. clear. induction (map f (seq 0 st)) as [|x l IH]; [reflexivity|].
    cbn [concat map]. rewrite app_length, list_sum_cons, IH. reflexivity. }
  assert (L2 : psum L (S st) = psum L st + length (f st)).
  { rewrite psum_S by (unfold L; rewrite !map_length, seq_length; lia). f_equal. unfold L. rewrite map_map. now rewrite (@nth_map_seq _ (fun r => length (f r))). }
  rewrite EP, map_app, concat_app. rewrite skipn_app_ge by lia. rewrite L1. cbn [map concat]. rewrite skipn_app.
  replace (h - psum L st - length (f st)) with 0 by lia. reflexivity.
Qed.

Lemma last_map_add (l : list nat) d : l <> [] -> last (map (fun s => d + s) l) 0 = d + last l 0.
Proof.
  induction l as [|a l IH]; intros H; [congruence|]. destruct l as [|b l]; [reflexivity|].
  change (last (map (fun s => d + s) (a :: b :: l)) 0) with (last (map (fun s => d + s) (b :: l)) 0). rewrite IH by discriminate. reflexivity.
Qed.

Lemma skipn_inv (l : list nat) i s t : s :: t = skipn i l -> nth i l 0 = s /\ t = skipn (S i) l /\ i < length l.
Proof.
  revert i. induction l as [|x l IH]; intros i H; [destruct i; discriminate|]. destruct i as [|i].
  - cbn in H. injection H as -> ->. cbn. auto with arith.
  - cbn [skipn] in H. destruct (IH i H) as (A & B & C). cbn [nth length]. split; [exact A|]. split; [exact B|lia].
Qed.

Lemma nth_skipn0 {A} (l : list A) n i x : nth i (skipn n l) x = nth (n + i) l x.
Proof. revert n. induction l as [|y l IH]; intros [|n]; cbn [skipn plus]; auto; [now destruct i|]. cbn [nth]. apply IH. Qed.
Lemma all_ok_in_err {A} (l : list (res A)) e : In (Err e) l -> exists e', all_ok l = Err e'.
Proof.
  induction l as [|x l IH]; intros H; [contradiction|]. cbn [all_ok]. destruct x as [a|e1]; [|exists e1; reflexivity]. destruct H as [H|H]; [discriminate|].
  destruct (IH H) as [e' E]. cbn [bind]. rewrite E. exists e'. reflexivity.
Qed.

Section Rows.
Variables (P k : nat) (pieces : list (list nat)).
Hypothesis HP : 0 < P.
Hypothesis HK : k = 1 \/ k = 2.
Hypothesis HN : pieces <> [].
Hypothesis HC : forall p, In p pieces -> clean p.
Let file := join (eol k) pieces.
Let fs := length file.
Let d r := cstart fs r P.
Let c r := clen fs r P.
Let share r := sub file (d r) (c r).
Hypothesis HW : forall r, r < P -> whole k (share r).

Let AS := begins k 0 (map (@length _) pieces).
Definition lstarts (r : nat) : list nat := (if r =? 0 then [0] else []) ++ map (fun q => q + k) (occ (e0 k) 0 (share r)).
Let gg r := map (fun s => d r + s) (lstarts r).

Lemma share_length r : r < P -> length (share r) = c r.
Proof.
  intros Hr. unfold share. apply sub_length. unfold d, c. rewrite <- cstart_S by lia.
  replace (length file) with (cstart fs P P) by (apply cstart_P; lia). 
  assert (M : forall j, S r + j <= P -> cstart fs (S r) P <= cstart fs (S r + j) P).
  { induction j as [|j IH]; intros Hj; [rewrite Nat.add_0_r; lia|]. replace (S r + S j) with (S (S r + j)) by lia. rewrite (cstart_S fs (S r + j)) by lia. specialize (IH ltac:(lia)). lia. }
  specialize (M (P - S r) ltac:(lia)). replace (S r + (P - S r)) with P in M by lia. exact M.
Qed.
Lemma dS r : d (S r) = d r + c r.
Proof. unfold d, c. apply cstart_S. lia. Qed.
Lemma d0 : d 0 = 0. Proof. unfold d. apply cstart_0. lia. Qed.
Lemma dP : d P = fs. Proof. unfold d. apply cstart_P. lia. Qed.
Lemma d_mono a b : a <= b -> d a <= d b.
Proof. intros H. induction H; [lia|]. rewrite dS. lia. Qed.

Lemma occ_shares n : n <= P -> concat (map (fun r => occ (e0 k) (d r) (share r)) (seq 0 n)) = occ (e0 k) 0 (sub file 0 (d n)).
Proof.
  induction n as [|n IH]; intros Hn; [rewrite d0, sub_0; reflexivity|].
  rewrite seq_S, map_app, concat_app, IH by lia. cbn [plus map concat]. rewrite app_nil_r. rewrite dS.
  rewrite <- sub_app_sub, occ_app. f_equal. cbn [plus]. rewrite sub_length; [reflexivity|]. cbn [plus]. change (length file) with fs. rewrite <- dP. apply d_mono. lia.
Qed.
Lemma gg_val r : gg r = (if r =? 0 then [0] else []) ++ map (fun q => q + k) (occ (e0 k) (d r) (share r)).
Proof.
  unfold gg, lstarts. rewrite map_app, map_map. f_equal.
  - destruct (Nat.eqb_spec r 0) as [->|]; [cbn; now rewrite d0|reflexivity].
  - change (occ (e0 k) (d r) (share r)) with (occ (e0 k) (0 + d r) (share r)). rewrite occ_shift, map_map. apply map_ext. intros; lia.
Qed.
Lemma gg_all : concat (map gg (seq 0 P)) = AS.
Proof.
  unfold AS. rewrite (@begins_occ k pieces HK HC 0 HN). change (join (eol k) pieces) with file.
  assert (E : occ (e0 k) 0 file = concat (map (fun r => occ (e0 k) (d r) (share r)) (seq 0 P))).
  { rewrite occ_shares, dP by lia. unfold fs. now rewrite sub_all. }
  rewrite E, concat_map, map_map. assert (EP : seq 0 P = 0 :: seq 1 (P - 1)) by (replace P with (S (P - 1)) at 1 by lia; reflexivity).
  rewrite EP. cbn [map concat]. rewrite gg_val. cbn [Nat.eqb app]. f_equal. f_equal. f_equal.
  apply map_ext_in. intros r Hr. apply in_seq in Hr. rewrite gg_val. destruct (Nat.eqb_spec r 0); [lia|reflexivity].
Qed.
(** every start but the first of the file follows a terminator *)
Lemma AS_term i : S i < length AS -> let x := nth (S i) AS 0 in k <= x <= fs /\ nth (x - k) file 0 = e0 k.
Proof.
  unfold AS. rewrite (@begins_occ k pieces HK HC 0 HN). change (join (eol k) pieces) with file. cbn [length nth]. rewrite map_length. intros Hi. cbn zeta.
  set (o := occ (e0 k) 0 file) in *.
  assert (E : nth i (map (fun q => q + k) o) 0 = nth i o 0 + k) by (rewrite (nth_indep _ 0 (0 + k)) by (rewrite map_length; lia); now rewrite (map_nth (fun q => q + k))).
  rewrite E. assert (Q : In (nth i o 0) o) by (apply nth_In; lia). apply occ_in in Q as [Q1 Q2]. rewrite Nat.sub_0_r in Q2. fold fs in Q1.
  replace (nth i o 0 + k - k) with (nth i o 0) by lia. split; [|exact Q2]. split; [lia|].
  destruct HK as [EK|EK]; [lia|].
  (* the \n behind the \r is in the file *)
  assert (LP : exists r, r < P /\ d r <= nth i o 0 < d (S r)).
  { assert (G : forall n, n <= P -> nth i o 0 < d n -> exists r, r < n /\ d r <= nth i o 0 < d (S r)).
    { induction n as [|n IH]; intros Hn Hd; [rewrite d0 in Hd; lia|]. destruct (le_lt_dec (d n) (nth i o 0)); [exists n; lia|].
      destruct (IH ltac:(lia) l) as (r & A & B). exists r. lia. }
    destruct (G P ltac:(lia) ltac:(rewrite dP; lia)) as (r & A & B). exists r. auto. }
  destruct LP as (r & Hr & Hd). assert (HWr := HW r Hr). unfold whole in HWr. rewrite EK in HWr. cbn [Nat.eqb] in HWr. destruct HWr as [H1 _]. rewrite dS in Hd.
  specialize (H1 (nth i o 0 - d r)). rewrite share_length in H1 by lia. specialize (H1 ltac:(lia)). unfold share in H1. rewrite sub_nth in H1 by lia.
  replace (d r + (nth i o 0 - d r)) with (nth i o 0) in H1 by lia. rewrite EK in Q2. specialize (H1 Q2) as [H1 _]. rewrite <- dP. assert (M := d_mono (S r) P ltac:(lia)). rewrite dS in M. lia.
Qed.
Lemma AS_sorted i : S i < length AS -> nth i AS 0 + k <= nth (S i) AS 0.
Proof. apply begins_sorted. Qed.

(** where rank r's starts lie *)
Lemma lstarts_bound r s : r < P -> In s (lstarts r) -> (s = 0 /\ r = 0) \/ (k <= s <= c r).
Proof.
  intros Hr. unfold lstarts. intros H. apply in_app_or in H as [H|H].
  - left. destruct (Nat.eqb_spec r 0); [|contradiction]. destruct H as [<-|[]]. auto.
  - right. apply in_map_iff in H as (q & <- & Hq). assert (Q := Hq). apply occ_in in Hq as [Q1 Q2]. rewrite share_length in Q1 by lia. rewrite Nat.sub_0_r in Q2.
    split; [lia|]. destruct HK as [EK|EK]; [lia|]. assert (HWr := HW r Hr). unfold whole in HWr. rewrite EK in HWr. cbn [Nat.eqb] in HWr. destruct HWr as [H1 _]. rewrite share_length in H1 by lia.
    rewrite EK in Q2. destruct (H1 q ltac:(lia) Q2) as [A _]. lia.
Qed.
Lemma lstarts_tail r i : r < P -> S i < length (lstarts r) -> k <= nth (S i) (lstarts r) 0 <= c r.
Proof.
  intros Hr Hi. unfold lstarts in *. destruct (Nat.eqb_spec r 0) as [->|N].
  - cbn [app length nth] in *. assert (In (nth i (map (fun q => q + k) (occ (e0 k) 0 (share 0))) 0) (map (fun q => q + k) (occ (e0 k) 0 (share 0)))) by (apply nth_In; lia).
    destruct (lstarts_bound 0 (nth i (map (fun q => q + k) (occ (e0 k) 0 (share 0))) 0) Hr) as [[A _]|A]; [unfold lstarts; apply in_or_app; now right| |exact A].
    apply in_map_iff in H as (q & E & _). lia.
  - cbn [app] in *. assert (In (nth (S i) (map (fun q => q + k) (occ (e0 k) 0 (share r))) 0) (map (fun q => q + k) (occ (e0 k) 0 (share r)))) by (apply nth_In; lia).
    destruct (lstarts_bound r (nth (S i) (map (fun q => q + k) (occ (e0 k) 0 (share r))) 0) Hr) as [[A B]|A]; [unfold lstarts; apply in_or_app; now right|lia|exact A].
Qed.

(** the lines a process reads are the cuts of the file at its starts *)
Lemma lines_lu r e rem : r < P -> (forall s, In s (lstarts r) -> d r + s <= e) ->
  lines_of file (share r) (d r) (lineter_len (share r)) e (skipn rem (lstarts r)) = lu file k e (map (fun s => d r + s) (skipn rem (lstarts r))).
Proof.
  intros Hr He.
  assert (G : forall l i, l = skipn i (lstarts r) -> lines_of file (share r) (d r) (lineter_len (share r)) e l = lu file k e (map (fun s => d r + s) l)).
  { induction l as [|s l IH]; intros i Hl; [reflexivity|].
    destruct (skipn_inv _ _ _ _ Hl) as (Ls & El & IL0). destruct l as [|s' l].
    - cbn [lines_of map lu]. f_equal. unfold read_at.
      specialize (He s ltac:(rewrite <- Ls; apply nth_In; lia)).
      destruct (Nat.ltb_spec e (d r + s)); [lia|]. reflexivity.
    - change (lines_of file (share r) (d r) (lineter_len (share r)) e (s :: s' :: l)) with (sub (share r) s (s' - lineter_len (share r) - s) :: lines_of file (share r) (d r) (lineter_len (share r)) e (s' :: l)).
      cbn [map]. rewrite lu_cons. rewrite (IH (S i) El). cbn [map]. f_equal.
      assert (IL : S i < length (lstarts r)) by (destruct (skipn_inv _ _ _ _ El) as (_ & _ & IL); exact IL).
      destruct (skipn_inv _ _ _ _ El) as (Ls' & _ & _).
      destruct (lstarts_tail r i Hr IL) as [B1 B2]. rewrite Ls' in *.
      rewrite (@lineter_k k); auto.
      + assert (B3 : s <= c r) by (destruct (lstarts_bound r s Hr) as [[-> _]|[_ B]]; [rewrite <- Ls; apply nth_In; exact IL0|apply Nat.le_0_l|exact B]).
        unfold share. rewrite (@sub_of_sub _ file (d r) (c r) s (s' - k - s)) by (clear - B1 B2 B3; lia). f_equal. clear - B1 B2 B3; lia.
      + intros E. unfold lstarts in IL. rewrite E in IL. cbn in IL. rewrite app_nil_r in IL. destruct (r =? 0); cbn in IL; lia. }
  now apply (G _ rem).
Qed.

(** * the whole call *)
Variables (V : Type) (dv : V) (fl : list nat -> res V) (sep h : nat).
Let L := map (@length _) (map lstarts (seq 0 P)).
Definition lsh (st r : nat) : list nat :=
  if r <? st then [] else if r =? st then skipn (h - psum L st) (lstarts r) else lstarts r.
Definition endv (st r : nat) : nat :=
  if (st <=? r) && (r + 1 <? P) then d (r + 1) + hd 0 (lsh st (r + 1)) - 1 else fs.
Definition cols (st : nat) : nat := fold_right Nat.max 0 (map (fun r => count_columns sep (share r) (lsh st r)) (seq 0 P)).
Definition LR (st r : nat) : list (list nat) := lines_of file (share r) (d r) (lineter_len (share r)) (endv st r) (lsh st r).
Definition holder : option nat := find (fun i => h <? psum L (S i)) (seq 0 P).
Definition enough (st : nat) : Prop := forall r, st < r < P -> lstarts r <> [] /\ int32_ok (d r + hd 0 (lstarts r) - 1) = true.
Definition finish (c : nat) (rows : dist (list V)) : res (ShapeModel.dnd V) :=
  do d <- balance P rows; Ok (ShapeModel.mk_dnd (map (of_rows dv c) d) [Z.of_nat (length (glob rows)); Z.of_nat c] (Some 0)).
Let ends st r := if (st <=? r) && (r + 1 <? P) then
        match lsh st (r + 1) with
        | [] => Err IndexError
        | s :: _ => if int32_ok (d (r + 1) + s - 1) then Ok (d (r + 1) + s - 1) else Err RuntimeError
        end
      else Ok fs.

Lemma load_rows_unfold : load_rows dv fl sep P h file =
  match holder with
  | None => Err StopIteration
  | Some st => do rows <- all_ok (map (fun r => do e <- ends st r; local_rows fl sep (cols st)
                    (lines_of file (share r) (d r) (lineter_len (share r)) e (lsh st r))) (seq 0 P)); finish (cols st) rows
  end.
Proof.
  unfold load_rows, counts_displs_shape. cbn [nth]. fold fs.
  assert (D : forall r, r < P -> nth r (displs_from 0 (counts_of fs P)) 0 = d r).
  { intros r Hr. rewrite displs_from_nth by (now rewrite counts_of_length). rewrite counts_of_psum by lia. reflexivity. }
  assert (C : forall r, r < P -> nth r (counts_of fs P) 0 = c r) by (intros; now rewrite counts_of_nth).
  assert (E0 : map (fun r => (if r =? 0 then [0] else []) ++ line_starts (sub file (nth r (displs_from 0 (counts_of fs P)) 0) (nth r (counts_of fs P) 0))) (seq 0 P)
    = map lstarts (seq 0 P)).
  { apply map_ext_in. intros r Hr. apply in_seq in Hr. rewrite D, C by lia. unfold lstarts. f_equal. apply line_starts_occ; auto. apply HW. lia. }
  rewrite E0. change (find (fun i => h <? psum (lens (map lstarts (seq 0 P))) (S i)) (seq 0 P)) with holder. destruct holder as [st|]; [|reflexivity].
  assert (EL : forall r, r < P -> (if r <? st then [] else if r =? st then skipn (h - match st with 0 => 0 | S q => psum (lens (map lstarts (seq 0 P))) (S q) end)
      (nth r (map lstarts (seq 0 P)) []) else nth r (map lstarts (seq 0 P)) []) = lsh st r).
  { intros r Hr. unfold lsh. rewrite (@nth_map_seq _ lstarts) by auto. destruct (r <? st); [reflexivity|]. destruct (r =? st); [|reflexivity]. f_equal. f_equal.
    destruct st; reflexivity. }
  assert (EC : fold_right Nat.max 0 (map (fun r => count_columns sep (sub file (nth r (displs_from 0 (counts_of fs P)) 0) (nth r (counts_of fs P) 0))
     (if r <? st then [] else if r =? st then skipn (h - match st with 0 => 0 | S q => psum (lens (map lstarts (seq 0 P))) (S q) end)
      (nth r (map lstarts (seq 0 P)) []) else nth r (map lstarts (seq 0 P)) [])) (seq 0 P)) = cols st).
  { unfold cols. f_equal. apply map_ext_in. intros r Hr. apply in_seq in Hr. rewrite EL, D, C by lia. reflexivity. }
  cbv zeta. rewrite EC. unfold finish. f_equal. f_equal. apply map_ext_in. intros r Hr. apply in_seq in Hr.
  rewrite (EL r), (D r), (C r) by lia. unfold ends. destruct (st <=? r) eqn:E1; cbn [andb]; [|reflexivity]. destruct (Nat.ltb_spec (r + 1) P); [|reflexivity].
  rewrite EL, D by lia. reflexivity.
Qed.

Lemma holder_spec st : holder = Some st -> st < P /\ psum L st <= h < psum L (S st).
Proof.
  unfold holder. intros E. assert (S0 : forall a n st, find (fun i => h <? psum L (S i)) (seq a n) = Some st -> a <= st < a + n /\ h < psum L (S st) /\ forall j, a <= j < st -> psum L (S j) <= h).
  { clear. intros a n. revert a. induction n as [|n IH]; intros a st; cbn [seq find]; [discriminate|]. destruct (Nat.ltb_spec h (psum L (S a))).
    - intros [= <-]. split; [lia|]. split; [auto|]. intros; lia.
    - intros E. apply IH in E as (A & B & C). split; [lia|]. split; [auto|]. intros j Hj. destruct (Nat.eq_dec j a) as [->|]; [auto|]. apply C. lia. }
  apply S0 in E as (A & B & C). split; [lia|]. split; [|auto]. destruct st as [|q]; [rewrite psum_0; lia|]. apply C. lia.
Qed.
Lemma lsh_holder st : holder = Some st -> lsh st st <> [].
Proof.
  intros E. apply holder_spec in E as (A & B). unfold lsh. rewrite Nat.ltb_irrefl, Nat.eqb_refl. rewrite psum_S in B by (unfold L; rewrite !map_length, seq_length; lia).
  assert (EN : nth st L 0 = length (lstarts st)) by (unfold L; rewrite map_map; now rewrite (@nth_map_seq _ (fun r => length (lstarts r))) by lia).
  rewrite EN in B. intros E. apply (f_equal (@length _)) in E. rewrite skipn_length in E. cbn in E. lia.
Qed.

Lemma ends_ok st : enough st -> holder = Some st -> forall r, r < P -> ends st r = Ok (endv st r).
Proof.
  intros HE HH r Hr. unfold ends, endv. destruct (Nat.leb_spec st r); cbn [andb]; [|reflexivity]. destruct (Nat.ltb_spec (r + 1) P); [|reflexivity].
  destruct (HE (r + 1) ltac:(lia)) as [N I]. unfold lsh in *. destruct (Nat.ltb_spec (r + 1) st); [lia|]. destruct (Nat.eqb_spec (r + 1) st); [lia|].
  destruct (lstarts (r + 1)); [congruence|]. cbn [hd] in *. now rewrite I.
Qed.
Lemma load_rows_bad st : holder = Some st -> (exists r, st < r < P /\ (lstarts r = [] \/ int32_ok (d r + hd 0 (lstarts r) - 1) = false)) ->
  exists e, load_rows dv fl sep P h file = Err e.
Proof.
  intros HH (r & Hr & HB). rewrite load_rows_unfold, HH.
  assert (B : exists e, ends st (r - 1) = Err e).
  { unfold ends. destruct (Nat.leb_spec st (r - 1)); [|lia]. replace (r - 1 + 1) with r by lia. destruct (Nat.ltb_spec r P); [|lia]. cbn [andb].
    unfold lsh. destruct (Nat.ltb_spec r st); [lia|]. destruct (Nat.eqb_spec r st); [lia|]. destruct (lstarts r); [eauto|]. destruct HB as [HB|HB]; [discriminate|].
    cbn [hd] in HB. rewrite HB. eauto. }
  destruct B as [e B].
  match goal with |- context[all_ok ?l] => destruct (@all_ok_in_err _ l e) as [e' E'] end.
  - apply in_map_iff. exists (r - 1). split; [rewrite B; reflexivity|apply in_seq; lia].
  - rewrite E'. cbn. eauto.
Qed.

Lemma LR_near st : (k = 2 -> forall i, h <= i -> S i < length pieces -> nth i pieces [] <> []) -> holder = Some st -> enough st -> Forall2 (nearly k) (concat (map (LR st) (seq 0 P))) (skipn h pieces).
Proof.
  intros HNB HH HE. assert (HS := HH). apply holder_spec in HS as (HS & HB).
  set (gs := map (fun r => map (fun s => d r + s) (lsh st r)) (seq st (P - st))).
  assert (GN : forall r, st <= r < P -> lsh st r <> []).
  { intros r Hr. destruct (Nat.eq_dec r st) as [->|]; [now apply lsh_holder|]. unfold lsh. destruct (Nat.ltb_spec r st); [lia|]. destruct (Nat.eqb_spec r st); [lia|]. apply HE. lia. }
  assert (CG : concat gs = skipn h AS).
  { rewrite <- gg_all. assert (LE : map (@length _) (map gg (seq 0 P)) = L) by (unfold L; rewrite !map_map; apply map_ext; intros; unfold gg; now rewrite map_length).
    rewrite (@skipn_groups _ gg h st P HS) by (rewrite LE; exact HB). rewrite LE. unfold gs. replace (P - st) with (S (P - S st)) by lia. cbn [seq map concat]. f_equal.
    - unfold lsh. rewrite Nat.ltb_irrefl, Nat.eqb_refl. unfold gg. now rewrite skipn_map.
    - f_equal. apply map_ext_in. intros r Hr. apply in_seq in Hr. unfold lsh, gg. destruct (Nat.ltb_spec r st); [lia|]. destruct (Nat.eqb_spec r st); [lia|]. reflexivity. }
  assert (CH : chain fs gs = map (endv st) (seq st (P - st))).
  { unfold gs. assert (G : forall n a, st <= a -> a + n = P -> chain fs (map (fun r => map (fun s => d r + s) (lsh st r)) (seq a n)) = map (endv st) (seq a n)).
    { induction n as [|n IH]; intros a Ha Hn; [reflexivity|]. cbn [seq map]. destruct n as [|n].
      - cbn. unfold endv. destruct (Nat.ltb_spec (a + 1) P); [lia|]. now rewrite andb_false_r.
      - specialize (IH (S a) ltac:(lia) ltac:(lia)). cbn [seq map] in IH |- *. rewrite <- IH. cbn [chain]. f_equal. unfold endv.
        destruct (Nat.leb_spec st a); [|lia]. destruct (Nat.ltb_spec (a + 1) P); [|lia]. cbn [andb]. replace (a + 1) with (S a) by lia.
        specialize (GN (S a) ltac:(lia)). destruct (lsh st (S a)); [congruence|]. reflexivity. }
    apply G; lia. }
  assert (EL : concat (map (LR st) (seq 0 P)) = concat (map (fun p => lu file k (snd p) (fst p)) (combine gs (chain (length file) gs)))).
  { replace (seq 0 P) with (seq 0 st ++ seq st (P - st)) by (rewrite <- (seq_glue 0 st (P - st)) || idtac; rewrite seq_glue; f_equal; lia).
    rewrite map_app, concat_app. replace (concat (map (LR st) (seq 0 st))) with (@nil (list nat)).
    2: { symmetry. assert (Z : forall l, (forall r, In r l -> LR st r = []) -> concat (map (LR st) l) = []).
         { induction l as [|x l IHl]; intros Hl; [reflexivity|]. cbn. rewrite Hl by (now left). apply IHl. intros; apply Hl; now right. }
         apply Z. intros r Hr. apply in_seq in Hr. unfold LR, lsh. destruct (Nat.ltb_spec r st); [reflexivity|lia]. }
    cbn [app]. change (length file) with fs. rewrite CH. unfold gs. f_equal.
    assert (CM : forall (f : nat -> list nat) (g : nat -> nat) l, combine (map f l) (map g l) = map (fun x => (f x, g x)) l) by (intros f g l; induction l; cbn; congruence).
    rewrite CM, map_map. cbn [fst snd]. apply map_ext_in. intros r Hr. apply in_seq in Hr. unfold LR.
    assert (LE : exists rem, lsh st r = skipn rem (lstarts r)).
    { unfold lsh. destruct (Nat.ltb_spec r st); [lia|]. destruct (r =? st); [eexists; reflexivity|]. exists 0. reflexivity. }
    destruct LE as [rem LE]. rewrite LE. apply lines_lu; [lia|]. intros s Hs.
    assert (B : s <= c r) by (destruct (lstarts_bound r s ltac:(lia) Hs) as [[-> _]|[_ B]]; lia).
    unfold endv. destruct (Nat.leb_spec st r); [|lia]. destruct (Nat.ltb_spec (r + 1) P) as [Hq|Hq]; cbn [andb].
    - assert (Q : In (hd 0 (lsh st (r + 1))) (lstarts (r + 1))).
      { unfold lsh. destruct (Nat.ltb_spec (r + 1) st); [lia|]. destruct (Nat.eqb_spec (r + 1) st); [lia|].
        specialize (GN (r + 1) ltac:(lia)). unfold lsh in GN. destruct (Nat.ltb_spec (r + 1) st); [lia|]. destruct (Nat.eqb_spec (r + 1) st); [lia|].
        destruct (lstarts (r + 1)); [congruence|]. now left. }
      apply lstarts_bound in Q; [|lia]. replace (r + 1) with (S r) in * by lia. rewrite dS. destruct Q as [[_ Q]|Q]; [lia|]. lia.
    - rewrite <- dP. replace P with (S r) by lia. rewrite dS. lia. }
  assert (PC : skipn h pieces = lu file k (length file) (concat gs)).
  { rewrite CG, lu_skipn. f_equal. symmetry. apply (@lu_pieces k pieces HK []). exact HN. }
  rewrite EL, PC. apply chain_lines; auto.
  - intros g Hg. unfold gs in Hg. apply in_map_iff in Hg as (r & <- & Hr). apply in_seq in Hr. specialize (GN r ltac:(lia)). destruct (lsh st r); [congruence|discriminate].
  - rewrite CG. intros i Hi. rewrite skipn_length in Hi. rewrite !nth_skipn0. replace (h + S i) with (S (h + i)) by lia. split; [apply AS_sorted; lia|].
    intros K2. unfold AS. rewrite begins_step by (unfold AS in Hi; lia).
    assert (LA : length AS = length pieces) by (unfold AS; now rewrite begins_length, map_length).
    specialize (HNB K2 (h + i) ltac:(lia) ltac:(lia)). rewrite (nth_indep (map (@length _) pieces) 0 (length (@nil nat))) by (rewrite map_length; lia). rewrite map_nth.
    destruct (nth (h + i) pieces []); [congruence|]. cbn [length]. clear. lia.
  - rewrite CG. intros i Hi. rewrite skipn_length in Hi. cbn zeta. rewrite !nth_skipn0. replace (h + S i) with (S (h + i)) by lia.
    destruct (AS_term (h + i) ltac:(lia)) as [[_ A] B]. split; [exact A|exact B].
Qed.

Lemma lstarts_sorted r i : r < P -> S i < length (lstarts r) -> nth i (lstarts r) 0 + k <= nth (S i) (lstarts r) 0.
Proof.
  intros Hr Hi.
  assert (E : exists X Y, AS = X ++ gg r ++ Y).
  { exists (concat (map gg (seq 0 r))), (concat (map gg (seq (S r) (P - S r)))). rewrite <- gg_all.
    replace (seq 0 P) with (seq 0 r ++ r :: seq (S r) (P - S r)). { now rewrite map_app, concat_app. }
    change (r :: seq (S r) (P - S r)) with (seq r (S (P - S r))). change (seq r) with (seq (0 + r)) at 1. rewrite seq_glue. f_equal. lia. }
  destruct E as (X & Y & E). assert (LG : length (gg r) = length (lstarts r)) by (unfold gg; apply map_length).
  assert (GV : forall j, j < length (lstarts r) -> nth (length X + j) AS 0 = d r + nth j (lstarts r) 0).
  { intros j Hj. rewrite E, app_nth2 by lia. replace (length X + j - length X) with j by lia. rewrite app_nth1 by lia.
    unfold gg. rewrite (nth_indep _ 0 (d r + 0)) by (rewrite map_length; lia). now rewrite (map_nth (fun s => d r + s)). }
  assert (LA : length AS = length X + (length (lstarts r) + length Y)) by (rewrite E, !app_length, LG; lia).
  assert (S0 := AS_sorted (length X + i) ltac:(lia)). replace (S (length X + i)) with (length X + S i) in S0 by lia. rewrite !GV in S0 by lia. lia.
Qed.

Lemma count_cols st r a b t : sep <> LF -> sep <> CR -> r < P -> lsh st r = a :: b :: t ->
  exists l rest, LR st r = l :: rest /\ rest <> [] /\ count_columns sep (share r) (lsh st r) = 1 + length (filter (Nat.eqb sep) l).
Proof.
  intros S1 S2 Hr EL. unfold LR. rewrite EL.
  assert (LE : exists rem, lsh st r = skipn rem (lstarts r)).
  { unfold lsh in *. destruct (r <? st); [discriminate|]. destruct (r =? st); [eexists; reflexivity|]. exists 0. reflexivity. }
  destruct LE as [rem LE]. rewrite EL in LE. destruct (skipn_inv _ _ _ _ LE) as (N1 & LE2 & B1). destruct (skipn_inv _ _ _ _ LE2) as (N2 & _ & B2).
  change (lines_of file (share r) (d r) (lineter_len (share r)) (endv st r) (a :: b :: t)) with
    (sub (share r) a (b - lineter_len (share r) - a) :: lines_of file (share r) (d r) (lineter_len (share r)) (endv st r) (b :: t)).
  eexists _, _. split; [reflexivity|]. split; [destruct t; discriminate|].
  assert (LK : lineter_len (share r) = k).
  { apply lineter_k; auto. intros E. unfold lstarts in B2. rewrite E in B2. cbn in B2. rewrite app_nil_r in B2. destruct (r =? 0); cbn in B2; clear - B2; lia. }
  rewrite LK. cbn [count_columns]. f_equal.
  assert (AB := lstarts_sorted r rem Hr B2). rewrite N1, N2 in AB. destruct (lstarts_tail r rem Hr B2) as [_ B3]. rewrite N2 in B3.
  replace (b - a) with ((b - k - a) + k) by (clear - AB; lia). rewrite <- sub_app_sub, filter_app, app_length.
  replace (filter (Nat.eqb sep) (sub (share r) (a + (b - k - a)) k)) with (@nil nat); [cbn [length]; clear; lia|]. symmetry. apply filter_nil_iff.
  intros x Hx. apply (In_nth _ _ 0) in Hx as (j & Hj & <-). replace (a + (b - k - a)) with (b - k) in * by (clear - AB; lia).
  rewrite sub_length in Hj by (rewrite share_length by auto; clear - AB B3; lia). rewrite sub_nth by auto.
  assert (IN : In b (map (fun q => q + k) (occ (e0 k) 0 (share r)))).
  { unfold lstarts in N2, B2. destruct (Nat.eqb_spec r 0).
    - cbn [app] in N2, B2. cbn [nth length] in N2, B2. rewrite <- N2. apply nth_In. clear - B2; lia.
    - cbn [app] in N2, B2. rewrite <- N2. apply nth_In. exact B2. }
  apply in_map_iff in IN as (q & Eq & Hq). apply occ_in in Hq as [Q1 Q2]. rewrite Nat.sub_0_r in Q2. replace (b - k) with q by (clear - Eq; lia).
  assert (HWr := HW r Hr). unfold whole in HWr. apply Nat.eqb_neq. destruct HK as [EK|EK]; rewrite EK in HWr, Hj, Q2; cbn [Nat.eqb e0] in HWr, Q2.
  - replace (q + j) with q by (clear - Hj; lia). rewrite Q2. exact S1.
  - destruct HWr as [H1 _]. destruct (H1 q ltac:(clear - Q1; lia) Q2) as [_ Q3]. destruct j as [|[|j]]; [|now rewrite Q3|clear - Hj; lia].
    rewrite Nat.add_0_r, Q2. exact S2.
Qed.

Lemma load_rows_good st : holder = Some st -> enough st -> load_rows dv fl sep P h file =
  do rows <- all_ok (map (fun r => local_rows fl sep (cols st) (LR st r)) (seq 0 P)); finish (cols st) rows.
Proof.
  intros HH HE. rewrite load_rows_unfold, HH. f_equal. f_equal. apply map_ext_in. intros r Hr. apply in_seq in Hr. rewrite (ends_ok st HE HH) by lia. reflexivity.
Qed.
Lemma load_rows_inv y : load_rows dv fl sep P h file = Ok y -> exists st, holder = Some st /\ enough st.
Proof.
  intros E. destruct holder as [st|] eqn:HH; [|rewrite load_rows_unfold, HH in E; discriminate]. exists st. split; [reflexivity|].
  intros r Hr. destruct (lstarts r) as [|s t] eqn:EL; [|destruct (int32_ok (d r + hd 0 (s :: t) - 1)) eqn:EI].
  - exfalso. destruct (load_rows_bad st HH) as [e E']; [|congruence]. exists r. split; [auto|]. now left.
  - split; [discriminate|reflexivity].
  - exfalso. destruct (load_rows_bad st HH) as [e E']; [|congruence]. exists r. split; [auto|]. right. now rewrite EL.
Qed.
Lemma holder_some : h < length pieces -> exists st, holder = Some st.
Proof.
  intros Hh. unfold holder. destruct (find (fun i => h <? psum L (S i)) (seq 0 P)) as [st|] eqn:E; [eauto|]. exfalso.
  assert (F := find_none _ _ E (P - 1) ltac:(apply in_seq; lia)). cbn beta in F. replace (S (P - 1)) with P in F by lia. apply Nat.ltb_ge in F.
  assert (T : psum L P = length pieces).
  { rewrite psum_all by (unfold L; now rewrite !map_length, seq_length). replace (length pieces) with (length AS) by (unfold AS; now rewrite begins_length, map_length).
    rewrite <- gg_all. unfold L. rewrite map_map. clear. induction (seq 0 P) as [|r l IH]; [reflexivity|]. cbn [map concat]. rewrite list_sum_cons, app_length, IH. unfold gg. now rewrite map_length. }
  lia.
Qed.
End Rows.
