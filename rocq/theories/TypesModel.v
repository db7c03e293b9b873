(** Model of rudy's type layouts: crates/rudy-types/src/lib.rs.

    The Rust nesting [Layout::Primitive(PrimitiveLayout::X(XLayout{..}))] is flattened into one
    constructor per leaf; [TypeDefinition<L>] (lib.rs 305-343) is [tdef]. A location is
    [option Z]: [None] is the unit location [()], which matches nothing (lib.rs 345-351);
    [Some d] is a DIE, which matches exactly an equal DIE
    (crates/rudy-dwarf/src/types/mod.rs 14-18). usize values are [Z]. *)
From Coq Require Import Ascii String List ZArith Lia Bool.
From Verif Require Import Base NumText.
Import ListNotations.
Open Scope Z_scope.

Definition loc := option Z.

(** lib.rs 305-320: TypeDefinition { layout, location }. The Arc is dropped. *)
Inductive tdefOf (L : Type) : Type := TD (lay : L) (l : loc).
Arguments TD {L} lay l.
Definition layOf {L} (t : tdefOf L) : L := match t with TD l _ => l end.
Definition locOf {L} (t : tdefOf L) : loc := match t with TD _ l => l end.

(** lib.rs 685-695: SmartPtrVariant. *)
Inductive spv := SBox | SRc | SArc | SRefCell | SMutex | SRwLock | SCell | SUnsafeCell.

(** lib.rs 733-764: BTreeRootLayout, BTreeNodeLayout, MapVariant. *)
Record bnode := BN { keys_off : Z; vals_off : Z; len_off : Z; edges_off : Z }.
Inductive mapv :=
| HashMap (bucket_mask_off ctrl_off items_off pair_size key_off value_off : Z)
| BTreeMap (length_off root_off node_off height_off : Z) (n : bnode)
| IndexMap.

(** lib.rs 827-852: Discriminant, DiscriminantType. *)
Inductive dty := DInt (size : Z) | DUInt (size : Z) | DImplicit.
Record disc := Disc { d_ty : dty; d_off : Z }.

(** lib.rs 354-412 (Layout, PrimitiveLayout), 614-625 (StdLayout), 502-612 and 676-900 (their fields). *)
Inductive layout : Type :=
| LArray (elem : tdefOf layout) (len : Z)
| LBool | LChar
| LFloat (size : Z)
| LFunction (ret : option (tdefOf layout)) (args : list (tdefOf layout))
| LInt (size : Z)
| LNever
| LPointer (mutable : bool) (p : tdefOf layout)
| LReference (mutable : bool) (p : tdefOf layout)
| LSlice (elem : tdefOf layout) (data_ptr_off length_off : Z)
| LStr
| LStrSlice (data_ptr_off length_off : Z)
| LTuple (elems : list (Z * tdefOf layout)) (size : Z)
| LUnit
| LUInt (size : Z)
| LSmartPtr (inner : tdefOf layout) (inner_ptr_off data_ptr_off : Z) (v : spv)
| LMap (key value : tdefOf layout) (v : mapv)
| LOption (name : str) (d : disc) (some_off : Z) (some : tdefOf layout) (size : Z)
| LResult (name : str) (d : disc) (ok : tdefOf layout) (ok_off : Z) (err : tdefOf layout) (err_off : Z) (size : Z)
| LString (length_off data_ptr_off capacity_off : Z) (inner : tdefOf layout)
| LVec (length_off data_ptr_off capacity_off : Z) (inner : tdefOf layout)
| LStruct (name : str) (size align : Z) (fields : list (str * Z * tdefOf layout))
| LEnum (name : str) (d : disc) (variants : list (str * option Z * tdefOf layout)) (size : Z)
| LCEnum (name : str) (d : dty) (variants : list (str * Z)) (size : Z)
| LAlias (name : str).

Definition tdef := tdefOf layout.

(** lib.rs 697-711 and the derived Debug used at lib.rs 56: variant names. *)
Definition spv_name (v : spv) : str :=
  match v with
  | SBox => st "Box" | SRc => st "Rc" | SArc => st "Arc" | SRefCell => st "RefCell"
  | SMutex => st "Mutex" | SRwLock => st "RwLock" | SCell => st "Cell" | SUnsafeCell => st "UnsafeCell"
  end.
(** lib.rs 766-774. *)
Definition mapv_name (v : mapv) : str :=
  match v with HashMap _ _ _ _ _ _ => st "HashMap" | BTreeMap _ _ _ _ _ => st "BTreeMap" | IndexMap => st "IndexMap" end.

(** usize Display: decimal. *)
Definition usz (z : Z) : str := dec z.

(** lib.rs 11-79 (with 524-541, 547-551, 608-612, 722-731): display_name.
    [size * 8] is not checked for overflow here. *)
Fixpoint display_name (l : layout) : str :=
  let dn t := match t with TD l' _ => display_name l' end in
  match l with
  | LArray e n => st "[" ++ dn e ++ st "; " ++ usz n ++ st "]"
  | LBool => st "bool"
  | LChar => st "char"
  | LFloat s => st "f" ++ usz (s * 8)
  | LFunction r args =>
      st "fn(" ++ join (st ", ") (map dn args) ++ st ")" ++
      match r with Some t => st " -> " ++ dn t | None => [] end
  | LInt s => st "i" ++ usz (s * 8)
  | LNever => st "!"
  | LPointer _ p => st "*" ++ dn p
  | LReference m p => st "&" ++ (if m then st "mut " else []) ++ dn p
  | LSlice e _ _ => st "&[" ++ dn e ++ st "]"
  | LStr => st "str"
  | LStrSlice _ _ => st "&str"
  | LTuple es _ => st "(" ++ join (st ", ") (map (fun p => match p with (_, t) => dn t end) es) ++ st ")"
  | LUnit => st "()"
  | LUInt s => st "u" ++ usz (s * 8)
  | LSmartPtr i _ _ v => spv_name v ++ st "<" ++ dn i ++ st ">"
  | LMap k v mv => mapv_name mv ++ st "<" ++ dn k ++ st ", " ++ dn v ++ st ">"
  | LOption _ _ _ t _ => st "Option<" ++ dn t ++ st ">"
  | LResult _ _ o _ e _ _ => st "Result<" ++ dn o ++ st ", " ++ dn e ++ st ">"
  | LString _ _ _ _ => st "String"
  | LVec _ _ _ i => st "Vec<" ++ dn i ++ st ">"
  | LStruct n _ _ _ => n
  | LEnum n _ _ _ => n
  | LCEnum n _ _ _ => n
  | LAlias n => n
  end.
Definition tname (t : tdef) : str := display_name (layOf t).

(** lib.rs 834-840: Discriminant::size. *)
Definition disc_size (d : disc) : Z :=
  match d_ty d with DInt s => s | DUInt s => s | DImplicit => 4 end.

(** lib.rs 81-90, 415-456, 628-651: size. The [size_of::<..>()] constants are those of 64-bit Linux:
    RefCell<()> 8, Mutex<()> 8, RwLock<()> 12, Cell<()> and UnsafeCell<()> 0, HashMap<(),()> 48,
    BTreeMap<(),()> 24, Vec<()> 24. [unimplemented!] and multiplication overflow are [Panic]. *)
Fixpoint size (l : layout) : res (option Z) :=
  match l with
  | LArray (TD e _) n =>
      s <- size e ;;
      match s with None => Ok None | Some s => m <- mul64 s n ;; Ok (Some m) end
  | LBool => Ok (Some 1)
  | LChar => Ok (Some 4)
  | LFloat s => Ok (Some s)
  | LFunction _ _ | LPointer _ _ | LReference _ _ => Ok (Some 8)
  | LInt s => Ok (Some s)
  | LNever => Ok (Some 0)
  | LSlice _ _ _ => Ok (Some 16)
  | LStr => Panic "not implemented"
  | LStrSlice _ _ => Ok (Some 16)
  | LTuple _ s => Ok (Some s)
  | LUnit => Ok (Some 0)
  | LUInt s => Ok (Some s)
  | LSmartPtr _ _ _ v =>
      Ok (Some match v with SBox | SRc | SArc => 8 | SRefCell => 8 | SMutex => 8 | SRwLock => 12 | SCell | SUnsafeCell => 0 end)
  | LMap _ _ (HashMap _ _ _ _ _ _) => Ok (Some 48)
  | LMap _ _ (BTreeMap _ _ _ _ _) => Ok (Some 24)
  | LMap _ _ IndexMap => Panic "not implemented"
  | LOption _ _ _ _ s => Ok (Some s)
  | LResult _ _ _ _ _ _ s => Ok (Some s)
  | LString _ _ _ _ | LVec _ _ _ _ => Ok (Some 24)
  | LStruct _ s _ _ => Ok (Some s)
  | LEnum _ _ _ s => Ok (Some s)
  | LCEnum _ _ _ s => Ok (Some s)
  | LAlias _ => Ok None
  end.
Definition tsize (t : tdef) : res (option Z) := size (layOf t).

(** crates/rudy-dwarf/src/types/mod.rs 14-18 and lib.rs 8, 347-351: Location::matches. *)
Definition loc_matches (a b : loc) : bool :=
  match a, b with Some x, Some y => Z.eqb x y | _, _ => false end.

Definition spv_eqb (a b : spv) : bool :=
  match a, b with
  | SBox, SBox | SRc, SRc | SArc, SArc | SRefCell, SRefCell | SMutex, SMutex
  | SRwLock, SRwLock | SCell, SCell | SUnsafeCell, SUnsafeCell => true
  | _, _ => false
  end.
Definition bn_eqb (a b : bnode) : bool :=
  (keys_off a =? keys_off b) && (vals_off a =? vals_off b) && (len_off a =? len_off b) && (edges_off a =? edges_off b).
Definition mapv_eqb (a b : mapv) : bool :=
  match a, b with
  | HashMap a1 a2 a3 a4 a5 a6, HashMap b1 b2 b3 b4 b5 b6 =>
      (a1 =? b1) && (a2 =? b2) && (a3 =? b3) && (a4 =? b4) && (a5 =? b5) && (a6 =? b6)
  | BTreeMap a1 a2 a3 a4 a5, BTreeMap b1 b2 b3 b4 b5 =>
      (a1 =? b1) && (a2 =? b2) && (a3 =? b3) && (a4 =? b4) && bn_eqb a5 b5
  | IndexMap, IndexMap => true
  | _, _ => false
  end.

(** lib.rs 92-104 (Layout), 458-499 (PrimitiveLayout), 653-671 (StdLayout), 340-342 (TypeDefinition):
    matching_type. [l.len() != r.len()] and [zip(..).all(..)] are the local [go]. *)
Fixpoint matching_type (a b : layout) {struct a} : bool :=
  let tm (x y : tdef) : bool :=
    match x with TD lx px => match y with TD ly py => loc_matches px py || matching_type lx ly end end in
  match a, b with
  | LPointer _ p, LPointer _ q => tm p q
  | LReference _ p, LReference _ q => tm p q
  | LSlice p _ _, LSlice q _ _ => tm p q
  | LArray p _, LArray q _ => tm p q
  | LTuple ps _, LTuple qs _ =>
      (fix go (ps qs : list (Z * tdef)) : bool :=
         match ps, qs with
         | [], [] => true
         | (_, p) :: ps', (_, q) :: qs' => tm p q && go ps' qs'
         | _, _ => false
         end) ps qs
  | LFunction r1 a1, LFunction r2 a2 =>
      match r1, r2 with
      | Some x, Some y => tm x y
      | None, None => true
      | _, _ => false
      end &&
      (fix go (ps qs : list tdef) : bool :=
         match ps, qs with
         | [], [] => true
         | p :: ps', q :: qs' => tm p q && go ps' qs'
         | _, _ => false
         end) a1 a2
  | LBool, LBool | LChar, LChar | LNever, LNever | LStr, LStr | LUnit, LUnit => true
  | LFloat x, LFloat y => x =? y
  | LInt x, LInt y => x =? y
  | LUInt x, LUInt y => x =? y
  | LStrSlice a1 a2, LStrSlice b1 b2 => (a1 =? b1) && (a2 =? b2)
  | LSmartPtr x _ _ v, LSmartPtr y _ _ w => spv_eqb v w && tm x y
  | LMap k1 v1 m1, LMap k2 v2 m2 => mapv_eqb m1 m2 && tm k1 k2 && tm v1 v2
  | LOption _ _ _ x _, LOption _ _ _ y _ => tm x y
  | LResult _ _ o1 _ e1 _ _, LResult _ _ o2 _ e2 _ _ => tm o1 o2 && tm e1 e2
  | LString _ _ _ _, LString _ _ _ _ => true
  | LVec _ _ _ x, LVec _ _ _ y => tm x y
  | LStruct n _ _ _, LStruct m _ _ _ => str_eqb n m
  | LStruct n _ _ _, LAlias m => str_eqb n m
  | LAlias n, LAlias m => str_eqb n m
  | LAlias n, x => str_eqb n (display_name x)
  | x, LAlias n => str_eqb n (display_name x)
  | LEnum n _ _ _, LEnum m _ _ _ => str_eqb n m
  | LCEnum n _ _ _, LCEnum m _ _ _ => str_eqb n m
  | _, _ => false
  end.
Definition tmatching (x y : tdef) : bool :=
  loc_matches (locOf x) (locOf y) || matching_type (layOf x) (layOf y).

(** lib.rs 106-114: as_reference. *)
Definition as_reference (l : layout) (p : loc) : layout := LReference false (TD l p).

(** lib.rs 116-129: dereferenced. *)
Fixpoint dereferenced (l : layout) : layout :=
  match l with
  | LPointer _ (TD l' _) => dereferenced l'
  | LReference _ (TD l' _) => dereferenced l'
  | _ => l
  end.
