(** Specification vocabulary taken from the Python language reference, not from
    heat: which positions of a sequence of length [n] a slice start:stop:step
    selects (CPython PySlice_AdjustIndices / range). *)
From Verif Require Import Base.
Local Open Scope Z_scope.

(** range(start, stop, step), step <> 0 *)
Definition py_range_len (start stop step : Z) : nat :=
  if 0 <? step then Z.to_nat ((stop - start + step - 1) / step)
  else Z.to_nat ((start - stop - step - 1) / (- step)).
Definition py_range (start stop step : Z) : list Z :=
  map (fun k => start + Z.of_nat k * step) (seq 0 (py_range_len start stop step)).

(** slice(start, stop, step).indices(n): [None] means the Python default. *)
Definition py_clamp (x n step : Z) : Z :=
  let lower := if step <? 0 then -1 else 0 in
  let upper := if step <? 0 then n - 1 else n in
  if x <? 0 then Z.max (x + n) lower else Z.min x upper.
Definition py_slice_start (start : option Z) (n step : Z) : Z :=
  match start with
  | None => if step <? 0 then n - 1 else 0
  | Some x => py_clamp x n step
  end.
Definition py_slice_stop (stop : option Z) (n step : Z) : Z :=
  match stop with
  | None => if step <? 0 then -1 else n
  | Some x => py_clamp x n step
  end.
Definition py_step (step : option Z) : Z := match step with None => 1 | Some s => s end.
(** positions selected by seq[start:stop:step] in a sequence of length n *)
Definition py_slice (start stop step : option Z) (n : Z) : list Z :=
  let s := py_step step in
  py_range (py_slice_start start n s) (py_slice_stop stop n s) s.
