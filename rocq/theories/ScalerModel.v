(** Model of heat/preprocessing/preprocessing.py MinMaxScaler (fit L215-241, transform L243-256, inverse_transform
    L263-276) and of transform / inverse_transform of StandardScaler (L118-151), copy=True, on arrays of shape (n, f).
    Elements are exact rationals (rounding is not modelled); [top] stands for the infinity with which min and max fill ranks
    without rows (statistics.py L854, L1215); [tol] is _tol_wrt_dtype.  The checks of type and dtype are not modelled. *)
From Coq Require Import QArith Qcanon.
From Verif Require Import Base LayoutModel NdSpec TensorSpec OpsModel RedistModel ShapeModel BinModel WhereProps.
Open Scope Z_scope.

Definition qle (a b : Qc) : bool := if Qclt_le_dec b a then false else true.
Definition qmin (a b : Qc) : Qc := if qle a b then a else b.
Definition qmax (a b : Qc) : Qc := if qle a b then b else a.
Definition qabs (a : Qc) : Qc := if qle (Q2Qc 0) a then a else Qcopp a.
Definition q0 : Qc := Q2Qc 0.
Definition q1 : Qc := Q2Qc 1.

(** _operations.py L446, L506-515, L537-545: the DNDarray made of a reduction and its balanced flag *)
Definition of_reduced {A} (x : bnd A) (r : reduced A) : bnd A :=
  mk_bnd (mk_dnd (r_locals r) (r_gshape r) (r_split r))
         (match d_split (b_arr x), r_split r with Some _, None => Some true | _, _ => b_flag x end).
(** ht.min(x, axis=0), ht.max(x, axis=0) *)
Definition col_reduce (op : Qc -> Qc -> Qc) (e : Qc) (x : bnd Qc) : res (bnd Qc) :=
  do r <- reduce_op op e e true (d_gshape (b_arr x)) (d_split (b_arr x)) (d_locals (b_arr x)) (AxInt 0) false;
  Ok (of_reduced x r).

Record scaler := mk_scaler { sc_shift : bnd Qc; sc_scale : bnd Qc }.
(** MinMaxScaler.fit, L224-241.  Every rank takes the branch of L232 on its own copy of the minimum: ranks that disagree
    would wait for each other *)
Definition minmax_fit (top tol lo hi : Qc) (x : bnd Qc) : res scaler :=
  do mn <- col_reduce qmin top x;
  do mx <- col_reduce qmax (Qcopp top) x;
  do rg <- binary_op q0 q0 Qcminus mx mn;                                                       (* L227 *)
  let s0 := map_bnd (fun r => Qcdiv r (Qcminus hi lo)) rg in                                    (* L231 *)
  let ab := map_bnd qabs rg in
  do g <- reduce_op qmin top top true (d_gshape (b_arr ab)) (d_split (b_arr ab)) (d_locals (b_arr ab)) AxNone false;
  let votes := map (fun t => negb (qle tol (adat t []))) (r_locals g) in                        (* L232: abs(range).min() < tol *)
  do s1 <- if forallb (fun b => b) votes
           then where_op q0 Qcmult Qcplus (fun c => if Qc_eq_bool c q0 then q1 else q0)
                  (map_bnd (fun r => if qle tol r then q1 else q0) ab) s0 (map_bnd (fun _ => q1) rg)   (* L233-235 *)
           else if existsb (fun b => b) votes then Err RuntimeError else Ok s0;
  Ok (mk_scaler mn (map_bnd Qcinv s1)).                                                         (* L239 *)
(** L255 *)
Definition minmax_transform (lo : Qc) (p : scaler) (x : bnd Qc) : res (bnd Qc) :=
  do a <- binary_op q0 q0 Qcminus x (sc_shift p);
  do b <- binary_op q0 q0 Qcmult a (sc_scale p);
  Ok (map_bnd (fun v => Qcplus v lo) b).
(** L275 *)
Definition minmax_inverse (lo : Qc) (p : scaler) (y : bnd Qc) : res (bnd Qc) :=
  do a <- binary_op q0 q0 Qcdiv (map_bnd (fun v => Qcminus v lo) y) (sc_scale p);
  binary_op q0 q0 Qcplus a (sc_shift p).
(** StandardScaler L131 and L151, for mean_ = sc_shift, scale_ = sc_scale *)
Definition std_transform (p : scaler) (x : bnd Qc) : res (bnd Qc) :=
  do a <- binary_op q0 q0 Qcminus x (sc_shift p);
  binary_op q0 q0 Qcmult a (sc_scale p).
Definition std_inverse (p : scaler) (y : bnd Qc) : res (bnd Qc) :=
  do a <- binary_op q0 q0 Qcdiv y (sc_scale p);
  binary_op q0 q0 Qcplus a (sc_shift p).
