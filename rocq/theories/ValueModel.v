(** Model of rudy_db::Value, rudy-db/src/outputs.rs. *)
From Coq Require Import Ascii String List ZArith Lia Bool.
From Verif Require Import Base NumText OMap TypesModel.
Import ListNotations.
Open Scope Z_scope.

(** outputs.rs 59-64 (TypedPointer) and 68-90 (Value). The BTreeMap of struct fields is its
    key-ordered list of entries. *)
Inductive value : Type :=
| VScalar (ty v : str)
| VArray (ty : str) (items : list value)
| VStruct (ty : str) (fields : list (str * value))
| VTuple (ty : str) (entries : list value)
| VMap (ty : str) (entries : list (value * value))
| VPtr (address : Z) (t : tdef).

(** outputs.rs 93-123: map_type. *)
Definition map_type (f : str -> str) (v : value) : value :=
  match v with
  | VScalar ty x => VScalar (f ty) x
  | VArray ty x => VArray (f ty) x
  | VTuple ty x => VTuple (f ty) x
  | VStruct ty x => VStruct (f ty) x
  | VMap ty x => VMap (f ty) x
  | VPtr a t => VPtr a t
  end.
(** outputs.rs 126-130. *)
Definition prefix_type (p : str) : value -> value := map_type (fun ty => p ++ ty).
(** outputs.rs 131-135. *)
Definition wrap_type (n : str) : value -> value := map_type (fun ty => n ++ st "<" ++ ty ++ st ">").

(** outputs.rs 143-213: Ord for Value. Vec, tuple and BTreeMap orderings are the standard
    library's lexicographic ones. *)
Fixpoint vcmp (a b : value) {struct a} : comparison :=
  match a, b with
  | VScalar t1 v1, VScalar t2 v2 => then_with (cmp_str t1 t2) (cmp_str v1 v2)
  | VArray t1 l1, VArray t2 l2 =>
      then_with (cmp_str t1 t2)
        ((fix go (l m : list value) : comparison :=
            match l, m with
            | [], [] => Eq | [], _ :: _ => Lt | _ :: _, [] => Gt
            | x :: l', y :: m' => then_with (vcmp x y) (go l' m')
            end) l1 l2)
  | VStruct t1 l1, VStruct t2 l2 =>
      then_with (cmp_str t1 t2)
        ((fix go (l m : list (str * value)) : comparison :=
            match l, m with
            | [], [] => Eq | [], _ :: _ => Lt | _ :: _, [] => Gt
            | (k, x) :: l', (k', y) :: m' => then_with (then_with (cmp_str k k') (vcmp x y)) (go l' m')
            end) l1 l2)
  | VTuple t1 l1, VTuple t2 l2 =>
      then_with (cmp_str t1 t2)
        ((fix go (l m : list value) : comparison :=
            match l, m with
            | [], [] => Eq | [], _ :: _ => Lt | _ :: _, [] => Gt
            | x :: l', y :: m' => then_with (vcmp x y) (go l' m')
            end) l1 l2)
  | VMap t1 l1, VMap t2 l2 =>
      then_with (cmp_str t1 t2)
        ((fix go (l m : list (value * value)) : comparison :=
            match l, m with
            | [], [] => Eq | [], _ :: _ => Lt | _ :: _, [] => Gt
            | (k, x) :: l', (k', y) :: m' => then_with (then_with (vcmp k k') (vcmp x y)) (go l' m')
            end) l1 l2)
  | VPtr x _, VPtr y _ => x ?= y
  | VScalar _ _, _ => Lt
  | VArray _ _, VScalar _ _ => Gt
  | VArray _ _, _ => Lt
  | VStruct _ _, VScalar _ _ => Gt
  | VStruct _ _, VArray _ _ => Gt
  | VStruct _ _, _ => Lt
  | VTuple _ _, VPtr _ _ => Lt
  | VTuple _ _, VMap _ _ => Lt
  | VTuple _ _, _ => Gt
  | VMap _ _, VPtr _ _ => Lt
  | VMap _ _, _ => Gt
  | VPtr _ _, _ => Gt
  end.
