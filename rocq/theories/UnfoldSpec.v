(** Sliding windows: element j of window w along [axis] is x[..., w*step + j, ...]; the
    windows are counted by [axis], the position inside a window is the new last axis. *)
From Verif Require Import Base TensorSpec.
Open Scope Z_scope.
Definition win (axis : nat) (step : Z) (idx : list Z) : list Z := upd (removelast idx) axis (nth axis idx 0 * step + last idx 0).
(** windows of length [size] starting at 0, step, 2 step, ... that fit into n elements *)
Definition n_windows (n size step : Z) : Z := Z.of_nat (length (filter (fun w => w * step + size <=? n) (zr n))).
