(** Model of the function address index (an augmented interval tree).
    crates/rudy-dwarf/src/address/mod.rs *)
From Coq Require Import Ascii String List ZArith Bool.
From Verif Require Import Base.
Import ListNotations.
Open Scope Z_scope.

(** crates/rudy-dwarf/src/address/mod.rs:10-22 [FunctionAddressInfo].
    [f_file] and [f_name] are opaque identities (DebugFile handle, SymbolName). *)
Record finfo := {
  absolute_start : Z; absolute_end : Z;
  relative_start : Z; relative_end : Z;
  f_file : Z; f_name : str
}.

(** address/mod.rs:52-59 [Node]; [Option<Box<Node>>] is [option node] flattened
    into the constructor [Leaf]. *)
Inductive node :=
| Leaf
| Node (info : finfo) (nstart nend max_end : Z) (left right : node).

(** address/mod.rs:62-70 key selection in [Node::new]. *)
Definition start_of (absolute : bool) (i : finfo) : Z :=
  if absolute then absolute_start i else relative_start i.
Definition end_of (absolute : bool) (i : finfo) : Z :=
  if absolute then absolute_end i else relative_end i.

(** address/mod.rs:88-98 [update_max_end]. *)
Definition update_max_end (e : Z) (left right : node) : Z :=
  let m := e in
  let m := match left with Leaf => m | Node _ _ _ me _ _ => Z.max m me end in
  match right with Leaf => m | Node _ _ _ me _ _ => Z.max m me end.

(** address/mod.rs:110-133 [build_recursive]. Rust recurses on the sub-slices
    [0..mid] and [mid+1..]; the fuel is the slice length, which bounds the
    recursion depth ([build_recursive] passes exactly that). *)
Fixpoint build_fuel (n : nat) (absolute : bool) (l : list finfo) : node :=
  match n with
  | O => Leaf
  | S n' =>
    match l with
    | [] => Leaf
    | i0 :: _ =>
      let mid := Nat.div (length l) 2 in
      let median := nth mid l i0 in
      let left := build_fuel n' absolute (firstn mid l) in
      let right := build_fuel n' absolute (skipn (mid + 1) l) in
      Node median (start_of absolute median) (end_of absolute median)
           (update_max_end (end_of absolute median) left right) left right
    end
  end.
Definition build_recursive (absolute : bool) (l : list finfo) : node :=
  build_fuel (length l) absolute l.

(** address/mod.rs:102-105 [AddressTree]. *)
Record address_tree := { absolute_root : node; relative_root : node }.

(** address/mod.rs:108-149 [AddressTree::new]. [sort] stands for
    [slice::sort_unstable_by_key], whose order among equal keys is unspecified:
    it is a parameter and the theorems hold for every sorting function. *)
Definition address_tree_new (sort : (finfo -> Z) -> list finfo -> list finfo)
    (info : list finfo) : address_tree :=
  match info with
  | [] => {| absolute_root := Leaf; relative_root := Leaf |}
  | _ =>
    let info := sort absolute_start info in
    let aroot := build_recursive true info in
    let info := sort relative_start info in
    let rroot := build_recursive false info in
    {| absolute_root := aroot; relative_root := rroot |}
  end.

(** address/mod.rs:79-81 [contains_address]. *)
Definition contains_address (s e address : Z) : bool := (address >=? s) && (address <? e).
(** address/mod.rs:83-86 [overlaps]. *)
Definition overlaps (s e qs qe : Z) : bool := (s <? qe) && (qs <? e).

(** address/mod.rs:169-230 [query_address_recursive]; pushes are in visiting
    order (node, left, right). The three nested conditions on the right child
    are kept as written. *)
Fixpoint query_address_recursive (t : node) (address : Z) : list finfo :=
  match t with
  | Leaf => []
  | Node i s e _ l r =>
    (if contains_address s e address then [i] else [])
    ++ match l with
       | Leaf => []
       | Node _ _ _ lmax _ _ =>
         if address <=? lmax then query_address_recursive l address else []
       end
    ++ match r with
       | Leaf => []
       | Node _ _ _ rmax _ _ =>
         if (address <=? rmax) && (address >=? s) then
           if (address >=? s) || (address <=? rmax) then
             if address <=? rmax then query_address_recursive r address else []
           else []
         else []
       end
  end.

(** address/mod.rs:152-167 [query_address]. *)
Definition query_address (t : address_tree) (address : Z) (absolute : bool) : list finfo :=
  if absolute then query_address_recursive (absolute_root t) address
  else query_address_recursive (relative_root t) address.

(** address/mod.rs:251-283 [query_interval_recursive]. *)
Fixpoint query_interval_recursive (t : node) (qs qe : Z) : list finfo :=
  match t with
  | Leaf => []
  | Node i s e _ l r =>
    (if overlaps s e qs qe then [i] else [])
    ++ match l with
       | Leaf => []
       | Node _ _ _ lmax _ _ =>
         if lmax >=? qs then query_interval_recursive l qs qe else []
       end
    ++ match r with
       | Leaf => []
       | Node _ _ _ rmax _ _ =>
         if (s <=? qe) && (rmax >=? qs) then query_interval_recursive r qs qe else []
       end
  end.

(** address/mod.rs:234-249 [query_address_range]. *)
Definition query_address_range (t : address_tree) (qs qe : Z) (absolute : bool) : list finfo :=
  if absolute then query_interval_recursive (absolute_root t) qs qe
  else query_interval_recursive (relative_root t) qs qe.

