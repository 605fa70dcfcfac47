(** Model of heat/core/linalg/qr.py L227-266: qr of a two-dimensional array split along the rows whose largest local block has
    fewer rows than the matrix has columns.  [As]: the local blocks of rows, any layout.  The final balance() of R (C09) is
    left out: the result is the list of local blocks before it, cut to the first n rows. *)
From Verif Require Import Base QrSpec QrModel QrColModel OpsModel.
Open Scope nat_scope.
Section QrRow.
Context {V : Type} (zero : V) (add mul sub : V -> V -> V) (conj : V -> V) (qr : mat V -> option (mat V * mat V)).
Notation M := (mat V).
(** rows before rank k *)
Definition cum (cs : list nat) (k : nat) : nat := list_sum (firstn k cs).
(** L232-240 *)
Definition column_idx (cs : list nat) (n : nat) : list nat :=
  0 :: filter (fun x => x <? n) (map (fun k => cum cs (S k)) (seq 0 (length cs))) ++ [n].
(** a[:, lo:hi] *)
Definition cols (lo hi : nat) (a : M) : M := Mat (mr a) (hi - lo) (fun i j => me a i (lo + j)).
(** Qnew^H @ A_copy[:, hi:], summed over the ranks (L258-262) *)
Definition coeffs (w n hi : nat) (Qn A : list M) : M :=
  Mat w (n - hi) (fun a j => msum zero add (length A) (fun r => msum zero add (mr (nth r A (m0 zero))) (fun i => mul (conj (me (nth r Qn (m0 zero)) i a)) (me (nth r A (m0 zero)) i (hi + j))))).
(** L250-256 on rank r: R.larray[:w, lo:hi] = Rnew on rank k, R.larray[:, lo:hi] *= 0 on the later ranks *)
Definition put_diag (k lo hi : nat) (Rn : M) (r : nat) (R : M) : M :=
  Mat (mr R) (mc R) (fun i j => if (lo <=? j) && (j <? hi) then (if r =? k then if i <? hi - lo then me Rn i (j - lo) else me R i j else if k <? r then zero else me R i j) else me R i j).
(** L263-264: R.larray[:, hi:] = coeffs on rank k *)
Definition put_coeffs (k hi : nat) (co : M) (r : nat) (R : M) : M :=
  Mat (mr R) (mc R) (fun i j => if (r =? k) && (hi <=? j) then me co i (j - hi) else me R i j).
(** L265: A_copy.larray[:, hi:] -= Qnew.larray @ coeffs *)
Definition project (hi : nat) (Qr co A : M) : M :=
  Mat (mr A) (mc A) (fun i j => if hi <=? j then sub (me A i j) (msum zero add (mc Qr) (fun a => mul (me Qr i a) (me co a (j - hi)))) else me A i j).
(** L267: concatenate((Q, Qnew), axis=-1) of two arrays with the same row distribution *)
Definition hcat (a b : M) : M := Mat (mr a) (mc a + mc b) (fun i j => if j <? mc a then me a i j else me b i (j - mc a)).
Definition zipi {B} (f : nat -> M -> B) (l : list M) : list B := map (fun r => f r (nth r l (m0 zero))) (seq 0 (length l)).
(** L243-267, iteration k; the inner call of qr has mode="reduced"; its block has at most as many columns as rank k has rows, so
    TS-QR is used (the other outcomes are proved not to occur).  Assigning coeffs with another number of rows than the local
    block raises (a single row would be broadcast instead; it does not occur either). *)
Definition row_step (n : nat) (p : Z) (idx : list nat) (k : nat) (st : list M * list M * list M) : res (list M * list M * list M) :=
  let '(A, R, Q) := st in
  let lo := nth k idx 0 in let hi := nth (S k) idx 0 in let w := hi - lo in
  match qr_rows zero add mul qr true w p (map (cols lo hi) A) with
  | Some (Ok (Some Qn, Rn)) =>
      if mr (nth k R (m0 zero)) <? w then Err RuntimeError else
      let R1 := zipi (put_diag k lo hi Rn) R in
      let Q1 := zipi (fun r q => hcat q (nth r Qn (m0 zero))) Q in
      if k <? length idx - 2 then
        let co := coeffs w n hi Qn A in
        if negb (mr (nth k R (m0 zero)) =? w) then Err RuntimeError
        else Ok (zipi (fun r a => project hi (nth r Qn (m0 zero)) co a) A, zipi (put_coeffs k hi co) R1, Q1)
      else Ok (A, R1, Q1)
  | Some (Ok (None, _)) | None => Err OutOfFuel
  | Some (Err e) => Err e
  end.
Fixpoint row_loop (n : nat) (p : Z) (idx : list nat) (k cnt : nat) (st : list M * list M * list M) : res (list M * list M * list M) :=
  match cnt with 0 => Ok st | S cnt => do st <- row_step n p idx k st; row_loop n p idx (S k) cnt st end.
(** L241-276; m rows in all *)
Definition qr_rows_wide (reduced : bool) (n : nat) (p : Z) (As : list M) : res (option (list M) * list M) :=
  let cs := map mr As in let m := list_sum cs in
  let idx := column_idx cs n in
  let offset := if n <=? m then 1 else 2 in
  do st <- row_loop n p idx 0 (length idx - offset) (As, As, map (fun a => Mat (mr a) 0 (fun _ _ => zero)) As);
  let '(_, R, Q) := st in
  let R' := if n <? m then zipi (fun r a => rows_of a 0 (Nat.min n (cum cs (S r)) - cum cs r)) R else R in
  Ok (if reduced then Some Q else None, R').
(** L73-128, L227-240: the whole of qr for a row-split matrix on several processes *)
Definition qr_row_split (reduced : bool) (n : nat) (p : Z) (As : list M) : res (option (list M) * list M) :=
  match qr_rows zero add mul qr reduced n p As with
  | Some (Ok (Q, R)) => Ok (Q, repeat R (length As))                                    (* R is replicated *)
  | Some (Err e) => Err e
  | None => qr_rows_wide reduced n p As
  end.
End QrRow.
