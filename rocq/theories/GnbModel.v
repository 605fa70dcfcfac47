(** Model of GaussianNB.fit and partial_fit, heat/naive_bayes/gaussianNB.py L71-377, in exact
    rational arithmetic.  x is the list of its rows, y the list of labels (integers here);
    how means, variances, unique and masks are computed on distributed arrays is the subject
    of C25, C38 and C14.  Shape checks on x, y, sample_weight and empty batches are not modelled. *)
From Coq Require Import List ZArith QArith Bool.
From Verif Require Import Base GnbSpec.
Import ListNotations.
Open Scope Q_scope.

(** ht.mean(x, axis=0), ht.var(x, axis=0) of one column; ht.average with weights *)
Definition mean (l : list Q) : Q := qsum l / inject_Z (Z.of_nat (length l)).
Definition var (l : list Q) : Q := qsum (map (fun x => (x - mean l) * (x - mean l)) l) / inject_Z (Z.of_nat (length l)).
Definition average (ws l : list Q) : Q := qsum (map (fun p => fst p * snd p) (combine ws l)) / qsum ws.
Fixpoint qmaximum (l : list Q) : Q :=
  match l with [] => 0 | [x] => x | x :: t => let m := qmaximum t in if Qle_bool m x then x else m end.
(** ht.unique(y, sorted=True) *)
Fixpoint insert (x : Z) (l : list Z) : list Z :=
  match l with [] => [x] | y :: t => if Z.ltb x y then x :: l else if Z.eqb x y then l else y :: insert x t end.
Definition unique (l : list Z) : list Z := fold_right insert [] l.
(** ht.eq of two vectors, broadcast *)
Definition eq_vec (a b : list Z) : option (list bool) :=
  if Nat.eqb (length a) (length b) then Some (map (fun p => Z.eqb (fst p) (snd p)) (combine a b))
  else if Nat.eqb (length a) 1 then Some (map (Z.eqb (hd 0%Z a)) b)
  else if Nat.eqb (length b) 1 then Some (map (fun x => Z.eqb x (hd 0%Z b)) a)
  else None.
(** ht.equal of two vectors: same length and elements (relational.py L88-196) *)
Fixpoint list_eqb (a b : list Z) : bool :=
  match a, b with [], [] => true | x :: a, y :: b => Z.eqb x y && list_eqb a b | _, _ => false end.

(** attributes set by fitting; [None] before the first call *)
Record model := mk_model { m_classes : list Z; m_nf : nat; m_theta : nat -> nat -> Q; m_sigma : nat -> nat -> Q;
                           m_count : nat -> Q; m_prior : nat -> Q }.
(** __update_mean_variance, L112-185 *)
Definition update_mean_variance (n_past : Q) (mu v : Q) (ws : option (list Q)) (xs : list Q) : Q * Q :=
  match xs with
  | [] => (mu, v)                                                              (* L147-148 *)
  | _ =>
      let '(n_new, new_mu, new_var) :=
        match ws with
        | Some ws => let m := average ws xs in (qsum ws, m, average ws (map (fun x => (x - m) * (x - m)) xs))    (* L153-155 *)
        | None => (inject_Z (Z.of_nat (length xs)), mean xs, var xs)          (* L157-159 *)
        end in
      if Qeq_bool n_past 0 then (new_mu, new_var)                              (* L161-162 *)
      else
        let n_total := n_past + n_new in
        let total_mu := (n_new * new_mu + n_past * mu) / n_total in
        let total_ssd := n_past * v + n_new * new_var + (n_new * n_past / n_total) * ((mu - new_mu) * (mu - new_mu)) in
        (total_mu, total_ssd / n_total)
  end.

Section Fit.
(** var_smoothing, the priors argument, and the test of L296 *)
Variables (smoothing : Q) (priors : option (list Q)) (isclose1 : Q -> bool).
Definition column (f : nat) (b : batch) : list Q := map (fun s => s_feat s f) (b_samples b).
Definition epsilon (nf : nat) (b : batch) : Q := smoothing * qmaximum (map (fun f => var (column f b)) (seq 0 nf)).   (* L272 *)
(** L335-367 for one label *)
Definition step (b : batch) (y : Z) (m : model) : res model :=
  match filter (fun i => Z.eqb (nth i (m_classes m) 0%Z) y) (seq 0 (length (m_classes m))) with
  | [i] =>                                                                     (* L341: .item() *)
      let mine := filter (fun s => Z.eqb (s_label s) y) (b_samples b) in       (* L342-343 *)
      let ws := map s_weight mine in
      let n_i := if b_weighted b then qsum ws else inject_Z (Z.of_nat (length mine)) in      (* L345-354 *)
      let upd f := update_mean_variance (m_count m i) (m_theta m i f) (m_sigma m i f)
                     (if b_weighted b then Some ws else None) (map (fun s => s_feat s f) mine) in
      Ok (mk_model (m_classes m) (m_nf m)
            (fun a f => if Nat.eqb a i then fst (upd f) else m_theta m a f)
            (fun a f => if Nat.eqb a i then snd (upd f) else m_sigma m a f)
            (fun a => if Nat.eqb a i then m_count m a + n_i else m_count m a) (m_prior m))
  | _ => Err ValueError
  end.
Fixpoint steps (b : batch) (ys : list Z) (m : model) : res model :=
  match ys with [] => Ok m | y :: ys => do m <- step b y m; steps b ys m end.
Definition shift (e : Q) (m : model) : model :=
  mk_model (m_classes m) (m_nf m) (m_theta m) (fun i f => m_sigma m i f + e) (m_count m) (m_prior m).
(** L276-320: the arrays the update starts from, and the exception, if any *)
Definition priors_bad (n : nat) : bool :=
  match priors with
  | None => false
  | Some p => negb (Nat.eqb (length p) n) || negb (isclose1 (qsum p)) || existsb (fun q => negb (Qle_bool 0 q)) p    (* L293-301 *)
  end.
Definition fresh (classes : list Z) (nf : nat) : model :=
  mk_model classes nf (fun _ _ => 0) (fun _ _ => 0) (fun _ => 0)
    (match priors with Some p => fun i => nth i p 0 | None => fun _ => 0 end).
(** returns the state after the call and the exception, if any *)
Definition partial_fit_ (refit : bool) (nf : nat) (b : batch) (classes : option (list Z)) (st : option model) : option model * option exn :=
  let e := epsilon nf b in
  match classes, st with
  | None, None => (st, Some ValueError)                                        (* L100-101 *)
  | _, _ =>
      let differ := match classes, st with Some c, Some m => negb (list_eqb (m_classes m) c) | _, _ => false end in
      if differ then (st, Some ValueError)                                     (* L108-111 *)
      else
        let start :=
          match classes, st with
          | Some c, None => if priors_bad (length c) then (Some (fresh c nf), Some ValueError) else (Some (fresh c nf), None)
          | Some c, Some m => if refit then (if priors_bad (length c) then (Some (fresh c nf), Some ValueError) else (Some (fresh c nf), None))
                              else if negb (Nat.eqb nf (m_nf m)) then (st, Some ValueError)       (* L313-316 *)
                              else (Some (shift (- e) m), None)                (* L318 *)
          | None, Some m => if negb (Nat.eqb nf (m_nf m)) then (st, Some ValueError) else (Some (shift (- e) m), None)
          | None, None => (None, Some ValueError)
          end in
        match start with
        | (Some m, None) =>
            let ys := unique (map s_label (b_samples b)) in                    (* L322 *)
            match eq_vec ys (m_classes m) with
            | None => (Some m, Some ValueError)                                (* broadcasting fails, L323 *)
            | Some eqs =>
                if negb (forallb (fun v => v) eqs) then (Some m, Some ValueError)           (* L325-329 *)
                else
                  match steps b ys m with
                  | Err x => (Some m, Some x)                                  (* simplification: state at the start of the loop *)
                  | Ok m' =>
                      let m' := shift e m' in                                  (* L370 *)
                      let total := qsum (map (m_count m') (seq 0 (length (m_classes m')))) in
                      (Some (mk_model (m_classes m') (m_nf m') (m_theta m') (m_sigma m') (m_count m')
                               (match priors with None => fun i => m_count m' i / total | Some _ => m_prior m' end)), None)    (* L373-375 *)
                  end
            end
        | (s, x) => (s, x)
        end
  end.
Definition fit (nf : nat) (b : batch) (st : option model) : option model * option exn :=
  partial_fit_ true nf b (Some (unique (map s_label (b_samples b)))) st.        (* L94-96 *)
Definition partial_fit (nf : nat) (b : batch) (classes : option (list Z)) (st : option model) : option model * option exn :=
  partial_fit_ false nf b classes st.
(** a history of partial_fit calls on one estimator; stops at the first exception *)
Fixpoint run (nf : nat) (bs : list (batch * option (list Z))) (st : option model) : option model * option exn :=
  match bs with
  | [] => (st, None)
  | (b, c) :: bs => match partial_fit nf b c st with (st, None) => run nf bs st | r => r end
  end.
End Fit.
