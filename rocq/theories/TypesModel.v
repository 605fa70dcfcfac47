(** Heat's data types: heat/core/types.py. *)
From Coq Require Import List ZArith Bool String Lia.
From Verif Require Import Base.
Import ListNotations.

(** types.py L71-618: the class hierarchy.  The eleven leaf classes that describe data,
    the leaf [flexible] (a placeholder) and the abstract classes. *)
Inductive ht := HBool | HUint8 | HInt8 | HInt16 | HInt32 | HInt64 | HFloat16 | HFloat32 | HFloat64
              | HComplex64 | HComplex128
              | HFlexible
              | HDatatype | HNumber | HInteger | HSigned | HUnsigned | HFloating | HComplex.

Definition ht_eq_dec (a b : ht) : {a = b} + {a <> b}. Proof. decide equality. Defined.
Definition ht_eqb (a b : ht) : bool := if ht_eq_dec a b then true else false.

(** the base class of each class (the class statements, L244-596) *)
Definition parent (t : ht) : option ht :=
  match t with
  | HDatatype => None
  | HBool | HNumber | HFlexible => Some HDatatype
  | HInteger | HFloating | HComplex => Some HNumber
  | HSigned | HUnsigned => Some HInteger
  | HInt8 | HInt16 | HInt32 | HInt64 => Some HSigned
  | HUint8 => Some HUnsigned
  | HFloat16 | HFloat32 | HFloat64 => Some HFloating
  | HComplex64 | HComplex128 => Some HComplex
  end.
(** Python's issubclass: reflexive, follows base classes (depth at most 4) *)
Fixpoint issubclass_fuel (n : nat) (a b : ht) : bool :=
  ht_eqb a b || match n, parent a with S k, Some p => issubclass_fuel k p b | _, _ => false end.
Definition issubclass := issubclass_fuel 4.

(** _can_be_cast_safely_to of each class *)
Definition safely (t : ht) : list ht :=
  match t with
  | HBool => [HBool; HUint8; HInt8; HInt16; HInt32; HInt64; HFloat16; HFloat32; HFloat64; HComplex64; HComplex128] (* L249-261 *)
  | HInt8 => [HInt8; HInt16; HInt32; HInt64; HFloat16; HFloat32; HFloat64; HComplex64; HComplex128]                (* L309-319 *)
  | HInt16 => [HInt16; HInt32; HInt64; HFloat32; HFloat64; HComplex64; HComplex128]                                (* L342-350 *)
  | HInt32 => [HInt32; HInt64; HFloat64; HComplex128]                                                              (* L374 *)
  | HInt64 => [HInt64; HFloat64; HComplex128]                                                                      (* L398 *)
  | HUint8 => [HUint8; HInt16; HInt32; HInt64; HFloat16; HFloat32; HFloat64; HComplex64; HComplex128]              (* L429-439 *)
  | HFloat16 => [HFloat16; HFloat32; HFloat64; HComplex64; HComplex128]                                            (* L470-476 *)
  | HFloat32 => [HFloat32; HFloat64; HComplex64; HComplex128]                                                      (* L499-504 *)
  | HFloat64 => [HFloat64; HComplex128]                                                                            (* L527-530 *)
  | HComplex64 => [HComplex64; HComplex128]                                                                        (* L567-570 *)
  | HComplex128 => [HComplex128]                                                                                   (* L593-595 *)
  | _ => []                                                                                                        (* L92 *)
  end.
(** _can_be_cast_intuitively_to: L351, L375, default L93 *)
Definition intuitively (t : ht) : list ht :=
  match t with HInt16 => [HFloat16] | HInt32 => [HFloat32; HComplex64] | _ => [] end.

(** mappings of each class: type strings, Python builtins, NumPy scalar types and torch
    dtypes (the last two one per leaf class) *)
Inductive builtin := PyBool | PyInt | PyFloat | PyComplex | PyStr.
Inductive key := KStr (s : string) | KPy (b : builtin) | KNp (t : ht) | KTorch (t : ht) | KHeat (t : ht).
Local Open Scope string_scope.
Definition mappings (t : ht) : list key :=
  match t with
  | HBool => [KStr "bool_"; KStr "?"; KNp HBool; KTorch HBool; KPy PyBool]
  | HInt8 => [KStr "b"; KStr "i1"; KNp HInt8; KTorch HInt8]
  | HInt16 => [KStr "h"; KStr "i2"; KNp HInt16; KTorch HInt16]
  | HInt32 => [KStr "i"; KStr "i4"; KNp HInt32; KTorch HInt32; KPy PyInt]
  | HInt64 => [KStr "l"; KStr "i8"; KNp HInt64; KTorch HInt64]
  | HUint8 => [KStr "B"; KStr "u"; KStr "u1"; KNp HUint8; KTorch HUint8]
  | HFloat16 => [KStr "f2"; KNp HFloat16; KTorch HFloat16]
  | HFloat32 => [KStr "f"; KStr "f4"; KNp HFloat32; KTorch HFloat32; KPy PyFloat]
  | HFloat64 => [KStr "d"; KStr "f8"; KNp HFloat64; KTorch HFloat64]
  | HComplex64 => [KStr "F"; KStr "c8"; KNp HComplex64; KTorch HComplex64; KPy PyComplex]
  | HComplex128 => [KStr "D"; KStr "c16"; KNp HComplex128; KTorch HComplex128]
  | _ => []
  end.
Local Close Scope string_scope.
Definition key_eq_dec (a b : key) : {a = b} + {a <> b}.
Proof. decide equality; (apply string_dec || apply ht_eq_dec || decide equality). Defined.

(** L631-640 __get_all_heat_types: the leaf classes, in the iteration order of a Python
    set, which is arbitrary: [all_types] is any list with exactly these members. *)
Definition leaves : list ht := [HBool; HUint8; HInt8; HInt16; HInt32; HInt64; HFloat16; HFloat32; HFloat64; HComplex64; HComplex128; HFlexible].

(** L643-679 canonical_heat_type *)
Definition canonical (all_types : list ht) (a : key) : res ht :=
  match a with
  | KHeat t => Ok t
  | _ => match find (fun t => if in_dec key_eq_dec a (mappings t) then true else false) all_types with
         | Some t => Ok t
         | None => Err TypeError
         end
  end.

(** L168-242 can_cast_to, for arguments that are Heat types *)
Inductive casting := CNo | CSafe | CSameKind | CUnsafe | CIntuitive.
Definition ht_in (t : ht) (l : list ht) : bool := if in_dec ht_eq_dec t l then true else false.
Definition can_cast (from to : ht) (c : casting) : bool :=
  match c with
  | CNo => ht_eqb to from
  | CUnsafe => true
  | CSameKind => existsb (fun base => issubclass to base && issubclass from base) [HFloating; HInteger; HComplex; HBool]
  | CIntuitive => ht_in to (safely from) || ht_in to (intuitively from)
  | CSafe => ht_in to (safely from)
  end.

(** the digits at the end of the class name, L953 *)
Definition name_size (t : ht) : Z :=
  match t with
  | HBool => 1 | HUint8 | HInt8 => 8 | HInt16 | HFloat16 => 16 | HInt32 | HFloat32 => 32
  | HInt64 | HFloat64 | HComplex64 => 64 | HComplex128 => 128 | _ => 0
  end.
(** np.argmin: the first smallest *)
Fixpoint argmin (l : list ht) : option ht :=
  match l with
  | [] => None
  | x :: t => match argmin t with
              | None => Some x
              | Some y => if (name_size y <? name_size x)%Z then Some y else Some x
              end
  end.
(** L915-956 promote_types (the final look-up by name finds the leaf class of that name) *)
Definition promote (t1 t2 : ht) : option ht :=
  let o1 := safely t1 ++ intuitively t1 in
  let o2 := safely t2 ++ intuitively t2 in
  argmin (filter (fun t => ht_in t o2) o1).            (* None: the bare Exception at L948 *)

(** L959-1050 result_type.  An argument is its canonical type with its precedence:
    0 array, 1 type, 2 zero-dimensional array, 3 Python scalar. *)
Definition prio (t : ht) : option nat :=               (* L1020-1034, index in [bool, integer, floating, complex] *)
  if issubclass t HBool then Some 0 else if issubclass t HInteger then Some 1
  else if issubclass t HFloating then Some 2 else if issubclass t HComplex then Some 3 else None.
Definition combine2 (a b : ht * nat) : option (ht * nat) :=
  let '(t1, p1) := a in let '(t2, p2) := b in
  if ht_eqb t1 t2 then Some (t1, Nat.min p1 p2)
  else if p1 =? p2 then match promote t1 t2 with Some t => Some (t, p1) | None => None end
  else if can_cast t1 t2 CSameKind then Some (if p1 <? p2 then t1 else t2, Nat.min p1 p2)
  else match prio t1, prio t2 with
       | None, _ => Some (t2, p2)
       | _, None => Some (t1, p1)
       | Some k1, Some k2 => Some (if k1 <? k2 then t2 else t1, Nat.min p1 p2)
       end.
Fixpoint result_rec (a : ht * nat) (rest : list (ht * nat)) : option (ht * nat) :=
  match rest with
  | [] => Some a
  | b :: t => match result_rec b t with Some r => combine2 a r | None => None end
  end.
Definition result_type (a : ht * nat) (rest : list (ht * nat)) : option ht := option_map fst (result_rec a rest).
