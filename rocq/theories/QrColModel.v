(** Model of heat/core/linalg/qr.py L130-225: qr of a two-dimensional m x n array split along the columns on P processes,
    mode="reduced".  [As]: the local blocks of columns, in the canonical layout, which Q and R also get (L150-163).  The final balance() of Q (C09) is left out. *)
From Verif Require Import Base QrSpec QrModel OpsModel.
Open Scope nat_scope.
Section QrCol.
Context {V : Type} (zero : V) (add mul sub : V -> V -> V) (conj : V -> V) (qr : mat V -> option (mat V * mat V)).
Notation M := (mat V).
Definition ctrans (a : M) : M := Mat (mc a) (mr a) (fun i j => conj (me a j i)).
Definition msub (a b : M) : M := Mat (mr a) (mc a) (fun i j => sub (me a i j) (me b i j)).
Definition offs (As : list M) (i : nat) : nat := list_sum (map mc (firstn i As)).              (* R_shapes, lshapes_cum *)
(** R.larray[lo : hi, :] = src[:r_size, :] with slices cut at the number of rows (L206-207, L218-219) *)
Definition set_rows (R : M) (lo hi : nat) (src : M) : res M :=
  let r_size := Nat.min hi (mr R) - lo in
  if (mr src <? r_size) || negb (mc src =? mc R) then Err RuntimeError
  else Ok (Mat (mr R) (mc R) (fun i j => if (lo <=? i) && (i <? lo + r_size) then me src (i - lo) j else me R i j)).
Record qst := Qst { q_A : M; q_Q : M; q_R : M }.
Definition qst0 : qst := Qst (m0 zero) (m0 zero) (m0 zero).
(** L183-219, iteration i on rank r; [Qi], [Ri]: the factors of A_columns on rank i *)
Definition gs_rank (As : list M) (i : nat) (Qi Ri : M) (r : nat) (st : qst) : res qst :=
  if r =? i then do R <- set_rows (q_R st) (offs As i) (offs As (S i)) Ri; Ok (Qst (q_A st) Qi R)
  else if i <? r then
    let Rl := mmul zero add mul (ctrans Qi) (q_A st) in
    do R <- set_rows (q_R st) (offs As i) (offs As (S i)) Rl;
    Ok (Qst (msub (q_A st) (mmul zero add mul Qi Rl)) (q_Q st) R)
  else Ok st.
Definition gs_step (As : list M) (i : nat) (l : list qst) : res (list qst) :=
  if i <? length As then
    do f <- local_qr qr (q_A (nth i l qst0));
    all_ok (map (fun r => gs_rank As i (fst f) (snd f) r (nth r l qst0)) (seq 0 (length As)))
  else Ok l.
Fixpoint gs_loop (As : list M) (i cnt : nat) (l : list qst) : res (list qst) :=
  match cnt with
  | 0 => Ok l
  | S cnt => do l <- gs_step As i l; gs_loop As (S i) cnt l
  end.
(** L141-146: the number of iterations, last_row_reached + 1, and k *)
Definition iterations (m n : nat) (As : list M) : nat :=
  if n <=? m then length As + 1
  else S (hd 0 (filter (fun p => m <=? offs As (S p)) (seq 0 (length As)))).
(** L148-181: Q and R are zero at first; L221-225: the first k columns of Q *)
Definition qr_cols (m n : nat) (As : list M) : res (list M * list M) :=
  let k := Nat.min m n in
  do l <- gs_loop As 0 (iterations m n As) (map (fun a => Qst a (Mat m (mc a) (fun _ _ => zero)) (Mat k (mc a) (fun _ _ => zero))) As);
  Ok (map (fun p => let Q := q_Q (snd p) in Mat (mr Q) (Nat.min k (offs As (S (fst p))) - offs As (fst p)) (me Q)) (combine (seq 0 (length As)) l), map q_R l).
End QrCol.
