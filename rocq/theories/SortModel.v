(** Model of ht.sort along the split axis (heat/core/manipulations.py L2606-2900): sample
    sort.  A lane is what one index of the other axes selects: all pivots, counts,
    displacements and exchanges of the code are computed lane by lane (dim=0 operations
    and the np.ndindex loops L2775, L2799, L2854).  One list entry per rank. *)
From Verif Require Import Base LayoutModel NdSpec TensorSpec OpsModel BinModel.
Open Scope Z_scope.

(** next(i for i in l if f i) *)
Fixpoint next_idx (f : nat -> bool) (l : list nat) : res nat :=
  match l with [] => Err StopIteration | i :: l' => if f i then Ok i else next_idx f l' end.
(** np.cumsum *)
Fixpoint cumsum_from (s : Z) (l : list Z) : list Z :=
  match l with [] => [] | x :: l' => (s + x) :: cumsum_from (s + x) l' end.
Definition cumsum := cumsum_from 0.
(** matrix[p][i] = v, matrix[:, i].sum() *)
Definition set2 (m : list (list Z)) (p i : nat) (v : Z) : list (list Z) := upd m p (upd (nth p m []) i v).
Definition col_sum (m : list (list Z)) (i : nat) : Z := zsum (map (fun row => nth i row 0) m).

Section Rebalance.
Variables (pm counts : list Z).        (* partition_matrix[:, lane], counts *)
Definition tc : list Z := cumsum counts.                                              (* L2798 *)

(** L2806-2825: too many values, the surplus is sent to higher ranks *)
Definition surplus (proc : nat) (cc : list Z) (sv : list (list Z)) (cur : list Z) : res (list (list Z) * list Z) :=
  let P := length counts in
  do first <- next_idx (fun i => col_sum sv i <? nth i counts 0) (seq 0 P);           (* L2808 *)
  do last <- next_idx (fun i => Nat.eqb i P || (nth proc cc 0 <? nth i tc 0)) (seq 0 (S P));   (* L2809-2813 *)
  let '(sv, cur, sent) := fold_left (fun s c => let '(sv, cur, _) := s in             (* L2814-2820 *)
        let amount := nth c counts 0 - col_sum sv c in
        let sv' := set2 sv proc c amount in
        (sv', upd cur c (nth c cur 0 + amount), zsum (firstn (S c) (nth proc sv' []))))
      (seq first (last - first)) (sv, cur, 0) in
  if (last <? P)%nat                                                                  (* L2821-2825 *)
  then let rest := nth proc pm 0 - sent in Ok (set2 sv proc last rest, upd cur last (nth last cur 0 + rest))
  else Ok (sv, cur).

(** L2826-2842: too few values, taken from higher ranks *)
Definition deficit (proc : nat) (cc : list Z) (sv : list (list Z)) (cur : list Z) : res (list (list Z) * list Z) :=
  let P := length counts in
  do first <- (match proc with                                                        (* L2828-2834 *)
               | O => Ok 0%nat
               | S p => next_idx (fun i => nth p tc 0 <? nth i cc 0) (seq 0 P)
               end);
  do last <- next_idx (fun i => nth proc tc 0 <=? nth i cc 0) (seq 0 P);              (* L2835 *)
  let '(sv, cur) := fold_left (fun s i => let '(sv, cur) := s in                      (* L2836-2839 *)
        (set2 sv i proc (nth i pm 0 - zsum (nth i sv [])), upd cur i 0))
      (seq first (last - first)) (sv, cur) in
  let before := nth (match last with O => (P - 1)%nat | S l => l end) cc 0 in         (* current_cumsum[last - 1] *)
  let amount := nth proc tc 0 - before in
  Ok (set2 sv last proc amount, upd cur last (nth last cur 0 - amount)).              (* L2841-2842 *)

(** one turn of the loop L2805-2849 *)
Definition rebalance_step (proc : nat) (sv : list (list Z)) (cur : list Z) : res (list (list Z) * list Z) :=
  let cc := cumsum cur in                                                             (* L2804, L2849 *)
  do st <- (if nth proc tc 0 <? nth proc cc 0 then surplus proc cc sv cur
            else if nth proc cc 0 <? nth proc tc 0 then deficit proc cc sv cur
            else Ok (set2 sv proc proc (nth proc pm 0 - zsum (nth proc sv [])), cur));   (* L2843-2847 *)
  Ok (fst st, upd (snd st) proc (nth proc counts 0)).                                 (* L2848 *)
Fixpoint rebalance_loop (procs : list nat) (sv : list (list Z)) (cur : list Z) : res (list (list Z)) :=
  match procs with
  | [] => Ok sv
  | p :: ps => do st <- rebalance_step p sv cur; rebalance_loop ps (fst st) (snd st)
  end.
(** send_vec for one lane *)
Definition send_vec : res (list (list Z)) :=
  let P := length counts in
  rebalance_loop (seq 0 P) (repeat (repeat 0 P) P) pm.                                (* L2797, L2803 *)
End Rebalance.

(** Alltoallv: rank r's list cut into consecutive pieces of its send counts, rank q
    receives the pieces addressed to it in rank order *)
Definition alltoallv {B} (bufs : list (list B)) (sc : list (list Z)) : list (list B) :=
  map (fun q => concat (map (fun p => sub (snd p) (Z.to_nat (zsum (firstn q (fst p)))) (Z.to_nat (nth q (fst p) 0))) (combine sc bufs)))
      (seq 0 (length bufs)).

Section Lane.
Context {V : Type}.
Variables (dv : V) (lt : V -> V -> bool) (ts : bool -> list V -> list nat) (cast : Z -> Z).
(** [lt]: torch.lt; [ts desc l]: the indices torch.sort(l, descending=desc) returns;
    [cast]: an index stored in the element type of the array *)
Definition cmp (desc : bool) (a b : V) : bool := if desc then lt b a else lt a b.     (* L2736 *)
(** x, i = t.sort(); j[i] *)
Definition sort_pairs (desc : bool) (l : list (V * Z)) : list (V * Z) :=
  let vals := map fst l in map (fun i => (nth i vals dv, nth i (map snd l) 0)) (ts desc vals).
Definition b2z (b : bool) : Z := if b then 1 else 0.

(** L2700-2705 *)
Definition local_pivots (P : nat) (count : Z) (s : list V) : res (list V) :=
  if count =? 0 then Ok []
  else match s with
       | [] => Err IndexError
       | _ => Ok (map (fun x => nth (x * length s / (P + 1)) s dv) (seq 1 P))
       end.
(** L2727-2730 *)
Definition global_pivots (desc : bool) (P : nat) (piv : list V) : res (list V) :=
  let sorted := map (fun i => nth i piv dv) (ts desc piv) in
  match sorted with
  | [] => Err IndexError
  | _ => Ok (map (fun x => nth (x * length sorted / P) sorted dv) (seq 1 (P - 1)))
  end.
(** L2734-2748: local_partitions, how many local values go into which bucket *)
Definition partitions (desc : bool) (P : nat) (gp s : list V) : list Z :=
  let lt_sum := map (fun p => zsum (map (fun v => b2z (cmp desc v p)) s)) gp in
  map (fun i => (if Nat.eqb i (P - 1) then Z.of_nat (length s) else nth i lt_sum 0) -
                (match i with O => 0 | S j => nth j lt_sum 0 end)) (seq 0 P).

(** the whole pipeline for one lane; [n]: extent of the split axis *)
Definition sort_lane (desc : bool) (n : Z) (lane : list (list V)) : res (list (list (V * Z))) :=
  let P := length lane in
  let counts := zcounts n P in                                                        (* L2693 *)
  let ls := map (fun p => let ord := ts desc (snd p) in                               (* L2689-2695 *)
                 map (fun i => (nth i (snd p) dv, cast (cast (Z.of_nat i) + zsum (firstn (fst p) counts)))) ord)
                (combine (seq 0 P) lane) in
  do pivs <- all_ok (map (fun p => local_pivots P (fst p) (map fst (snd p))) (combine counts ls));
  do gp <- global_pivots desc P (concat pivs);                                        (* L2718-2732 *)
  let sc := map (fun l => partitions desc P gp (map fst l)) ls in
  let pm := map (fun q => zsum (map (fun row => nth q row 0) sc)) (seq 0 P) in        (* L2750-2751 *)
  let first := alltoallv ls sc in                                                     (* L2774-2794 *)
  do sv <- send_vec pm counts;
  let second := alltoallv (map (sort_pairs desc) first) sv in                         (* L2854-2876 *)
  Ok (map (sort_pairs desc) second).                                                  (* L2878-2885 *)
End Lane.
