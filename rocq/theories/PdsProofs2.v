(** What the batches hold: rows of the file. *)
From Verif Require Import Base BaseLemmas PdsModel PdsProofs.
Open Scope nat_scope.

Section Values.
Context {A : Type} (dflt : A).
Variables (file : list (list A)) (total size bs load_len needed M : nat).
Notation pst := (pstate (A := A)).
Notation pstep := (pstep dflt file total size bs load_len needed).

Lemma nth_upd {X} (l : list X) k j v d : k < length l -> nth j (upd l k v) d = if j =? k then v else nth j l d.
Proof. intros H. destruct (Nat.eqb_spec j k) as [->|]; [now apply upd_same|now apply upd_other]. Qed.
Definition cols_ok (c : list (list A)) : Prop := forall j x, In x (nth j c []) -> In x (nth j file []).
Definition vals_ok (v : list A) : Prop := forall j, j < length v -> In (nth j v dflt) (nth j file []).
Definition item_ok (it : item (A := A)) : Prop := length (snd it) = length file /\ vals_ok (snd it).
Definition conv_items (c : conv_pc (A := A)) : list (item (A := A)) :=
  match c with CNext _ cv | CRead _ _ _ cv | CUsed _ _ cv | CFull _ cv | CAcq _ cv | CNotify _ cv | CPut _ cv => cv | CDone => [] end.
Definition conv_idx (c : conv_pc (A := A)) : list nat :=
  match c with CNext rest _ | CUsed _ rest _ | CFull rest _ | CAcq rest _ | CNotify rest _ | CPut rest _ => rest | CRead i rest _ _ => i :: rest | CDone => [] end.
Definition got_of (c : conv_pc (A := A)) : list A := match c with CRead _ _ got _ => got | _ => [] end.
Definition held (l : load_pc (A := A)) : list (list A) := match l with LAcq _ h | LEnter _ h | LWait _ h | LWoken _ h | LRepl _ h _ => h | _ => [] end.
Definition values_ok (s : pst) : Prop :=
  (length (mem s) = length file /\ forall j, j < length file -> length (nth j (mem s) []) = M) /\ cols_ok (mem s) /\ cols_ok (held (lpc s)) /\
  (length (got_of (cpc s)) <= length file /\ vals_ok (got_of (cpc s))) /\
  Forall item_ok (conv_items (cpc s)) /\ Forall (Forall item_ok) (ready s) /\ Forall (Forall item_ok) (taken s) /\ Forall (fun i => i < M) (conv_idx (cpc s)).

Lemma put_rows_length (d : list A) idx new : length (put_rows d idx new) = length d.
Proof. unfold put_rows. revert d. induction (combine idx new) as [|p l IH]; intros d; [auto|]. cbn [fold_left]. rewrite IH. apply upd_length. Qed.
Lemma upd_In (d : list A) k v x : In x (upd d k v) -> x = v \/ In x d.
Proof. revert k. induction d as [|y d IH]; intros [|k]; cbn; auto; intros [<-|H]; auto. apply IH in H. tauto. Qed.
Lemma put_rows_In idx new : forall (d : list A) x, In x (put_rows d idx new) -> In x d \/ In x new.
Proof.
  unfold put_rows. intros d x. assert (G : forall (l : list (nat * A)) d, In x (fold_left (fun a p => upd a (fst p) (snd p)) l d) -> In x d \/ In x (map snd l)).
  { induction l as [|p l IH]; intros d0 H; [auto|]. cbn [fold_left] in H. apply IH in H as [H|H]; [|right; right; auto]. apply upd_In in H as [->|H]; [right; left; auto|auto]. }
  intros H. apply G in H as [H|H]; [auto|right]. apply in_map_iff in H as ((a & b) & <- & H). apply in_combine_r in H. exact H.
Qed.
Lemma cols_upd c j v : cols_ok c -> (forall x, In x v -> In x (nth j file [])) -> cols_ok (upd c j v).
Proof. intros H Hv k x Hx. destruct (Nat.lt_ge_cases j (length c)). - rewrite nth_upd in Hx by auto. destruct (Nat.eqb_spec k j) as [->|]; auto. - rewrite upd_oob in Hx by auto. auto. Qed.
Lemma sub_In (l : list A) a n x : In x (sub l a n) -> In x l.
Proof. unfold sub. intros H. assert (H2 : In x (skipn a l)) by (rewrite <- (firstn_skipn n (skipn a l)); apply in_or_app; auto). rewrite <- (firstn_skipn a l). apply in_or_app. auto. Qed.
Lemma cols_hold a n : cols_ok (map (fun col => sub col a n) file).
Proof. intros j x Hx. destruct (Nat.lt_ge_cases j (length file)); [|rewrite nth_overflow in Hx by (now rewrite map_length); destruct Hx]. rewrite (nth_indep _ [] (sub [] a n)) in Hx by (now rewrite map_length). rewrite (map_nth (fun col => sub col a n)) in Hx. eapply sub_In; eauto. Qed.
Lemma values_step len t s s' : values_ok s -> pstep len t s = Some s' -> values_ok s'.
Proof.
  intros ((V1 & V2) & V3 & V4 & (V5 & V6) & V7 & V8 & V9 & V10) E. destruct s as [mm us lk cp lp qq ll ls le rd tk]. cbn [mem lpc cpc ready taken] in *. unfold values_ok. destruct t; cbn [PdsModel.pstep] in E.
  - unfold next_step in E. cbn [taken ready] in E. destruct (_ =? _); [discriminate|]. destruct rd as [|b rd]; [discriminate|]. injection E as <-. cbn [mem lpc cpc ready taken]. inversion V8; subst. repeat (split; auto). apply Forall_app. auto.
  - unfold conv_step in E. cbn [cpc lock used lpc loads_left mem] in E. destruct cp as [[|i rest] cv|i rest got cv|i rest cv|rest cv|rest cv|rest cv|rest cv|]; try discriminate; cbn [conv_items conv_idx got_of] in *.
    + injection E as <-. cbn [mem lpc cpc ready taken set_c conv_items conv_idx got_of]. repeat (split; auto).
    + injection E as <-. cbn [mem lpc cpc ready taken set_c conv_items conv_idx got_of]. repeat (split; auto).
    + unfold ncols in E. destruct (Nat.ltb_spec (length got) (length file)) as [L|L]; injection E as <-; cbn [mem lpc cpc ready taken set_c conv_items conv_idx got_of].
      * split; [auto|]. split; [auto|]. split; [auto|]. split; [|auto]. rewrite app_length. cbn. split; [lia|]. intros j Hj. rewrite app_length in Hj. cbn in Hj. destruct (Nat.eq_dec j (length got)) as [->|].
        -- rewrite app_nth2, Nat.sub_diag by lia. cbn. inversion V10; subst. apply V3. apply nth_In. rewrite V2 by auto. auto.
        -- rewrite app_nth1 by lia. apply V6. lia.
      * split; [auto|]. split; [auto|]. split; [auto|]. split; [cbn; split; [lia|intros j Hj; cbn in Hj; lia]|]. inversion V10; subst. split; [|auto]. apply Forall_app. split; [auto|]. constructor; [|constructor]. split; cbn [snd]; [lia|auto].
    + injection E as <-. cbn [mem lpc cpc ready taken set_c set_used]. unfold after_append. destruct (_ =? _); cbn [conv_items conv_idx got_of]; repeat (split; auto).
    + injection E as <-. cbn [mem lpc cpc ready taken set_c]. destruct (_ && _); cbn [conv_items conv_idx got_of]; repeat (split; auto).
    + destruct lk; try discriminate. injection E as <-. cbn [mem lpc cpc ready taken set_c set_lock conv_items conv_idx got_of]. repeat (split; auto).
    + injection E as <-. destruct lp; cbn [mem lpc cpc ready taken set_c set_lock set_l conv_items conv_idx got_of held] in *; repeat (split; auto).
    + injection E as <-. cbn [mem lpc cpc ready taken conv_items conv_idx got_of]. repeat (split; auto). apply Forall_app. split; auto.
  - unfold load_step in E. cbn [lpc lock queued mem used load_start load_end] in E. destruct lp as [|[|k]|k h|k h|k h|k h|k h j|k|k]; try discriminate; cbn [held] in *.
    + destruct qq; [discriminate|]. injection E as <-. cbn [mem lpc cpc ready taken held]. repeat (split; auto).
    + injection E as <-. cbn [mem lpc cpc ready taken held set_l]. repeat (split; auto).
    + injection E as <-. cbn [mem lpc cpc ready taken held set_l]. split; [auto|]. split; [auto|]. split; [apply cols_hold|]. repeat (split; auto).
    + destruct lk; try discriminate. injection E as <-. cbn [mem lpc cpc ready taken held set_l set_lock]. repeat (split; auto).
    + injection E as <-. cbn [mem lpc cpc ready taken held set_l set_lock]. repeat (split; auto).
    + destruct lk; try discriminate. injection E as <-. cbn [mem lpc cpc ready taken held set_l set_lock]. repeat (split; auto).
    + unfold ncols in E. destruct (Nat.ltb_spec j (length file)) as [L|L]; injection E as <-; cbn [mem lpc cpc ready taken held set_l].
      * split; [split; [now rewrite upd_length|]|].
        -- intros j2 Hj2. rewrite nth_upd by lia. destruct (Nat.eqb_spec j2 j) as [->|]; [rewrite put_rows_length; auto|auto].
        -- split; [apply cols_upd; auto; intros x Hx; apply put_rows_In in Hx as [Hx|Hx]; [apply V3; auto|apply V4; rewrite <- (firstn_skipn (length us) (nth j h [])); apply in_or_app; auto]|].
           split; [apply cols_upd; auto; intros x Hx; apply V4; rewrite <- (firstn_skipn (length (firstn (length us) (nth j h []))) (nth j h [])); apply in_or_app; auto|]. repeat (split; auto).
      * repeat (split; auto). intros j2 x Hx. destruct j2; destruct Hx.
    + injection E as <-. cbn [mem lpc cpc ready taken held set_l set_used]. repeat (split; auto).
    + injection E as <-. cbn [mem lpc cpc ready taken held]. repeat (split; auto).
Qed.
End Values.
