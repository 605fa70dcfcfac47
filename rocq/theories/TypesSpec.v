(** What the data types mean: the numbers each type can hold.  Independent of the tables. *)
From Coq Require Import ZArith List.
From Verif Require Import TypesModel.
Import ListNotations.
Local Open Scope Z_scope.

(** A finite real number m * 2^e; complex numbers have a real and an imaginary part.
    Infinities and NaN are left out: every floating type has them. *)
Record dyadic := D { mant : Z; expo : Z }.
Definition same_number (x y : dyadic) : Prop :=
  let k := Z.min (expo x) (expo y) in mant x * 2 ^ (expo x - k) = mant y * 2 ^ (expo y - k).
Definition is_integer_in (lo hi : Z) (x : dyadic) : Prop := exists n, lo <= n <= hi /\ same_number x (D n 0).
(** IEEE 754 binary format with [p] bits of precision: significand below 2^p, exponent in [emin, emax] *)
Definition is_float (p emin emax : Z) (x : dyadic) : Prop :=
  exists m e, Z.abs m < 2 ^ p /\ emin <= e <= emax /\ same_number x (D m e).
Definition holds_real (t : ht) : option (dyadic -> Prop) :=
  match t with
  | HBool => Some (is_integer_in 0 1)
  | HUint8 => Some (is_integer_in 0 255)
  | HInt8 => Some (is_integer_in (-128) 127)
  | HInt16 => Some (is_integer_in (-32768) 32767)
  | HInt32 => Some (is_integer_in (- 2 ^ 31) (2 ^ 31 - 1))
  | HInt64 => Some (is_integer_in (- 2 ^ 63) (2 ^ 63 - 1))
  | HFloat16 => Some (is_float 11 (-24) 5)
  | HFloat32 | HComplex64 => Some (is_float 24 (-149) 104)
  | HFloat64 | HComplex128 => Some (is_float 53 (-1074) 971)
  | _ => None
  end.
Definition is_complex (t : ht) : Prop := t = HComplex64 \/ t = HComplex128.
(** type [t] holds the number re + i im exactly *)
Definition holds (t : ht) (re im : dyadic) : Prop :=
  exists R, holds_real t = Some R /\ R re /\ (if ht_eq_dec t HComplex64 then R im else if ht_eq_dec t HComplex128 then R im else mant im = 0).
Definition holds_all_of (big small : ht) : Prop := forall re im, holds small re im -> holds big re im.

(** the eleven types that describe data *)
Definition data_types : list ht := [HBool; HUint8; HInt8; HInt16; HInt32; HInt64; HFloat16; HFloat32; HFloat64; HComplex64; HComplex128].
Definition data (t : ht) : Prop := In t data_types.
(** bool < integer < floating < complex *)
Definition kind (t : ht) : nat :=
  match t with HBool => 0 | HUint8 | HInt8 | HInt16 | HInt32 | HInt64 => 1
             | HFloat16 | HFloat32 | HFloat64 => 2 | _ => 3 end.
(** storage size in bits *)
Definition bits (t : ht) : Z :=
  match t with HBool => 1 | HUint8 | HInt8 => 8 | HInt16 | HFloat16 => 16 | HInt32 | HFloat32 => 32
             | HInt64 | HFloat64 | HComplex64 => 64 | _ => 128 end.
