(** Specification of type identity, independent of [matching_type]. *)
From Coq Require Import Ascii String List ZArith Lia Bool.
From Verif Require Import Base NumText TypesModel.
Import ListNotations.
Open Scope Z_scope.

(** Two layouts denote the same type, structurally: same constructor, same components;
    array lengths, mutability, tuple offsets, sizes and the placement of fields do not matter;
    user types are identified by name; a name-only type denotes whatever displays as that name. *)
Inductive same : layout -> layout -> Prop :=
| same_bool : same LBool LBool
| same_char : same LChar LChar
| same_never : same LNever LNever
| same_str : same LStr LStr
| same_unit : same LUnit LUnit
| same_float s : same (LFloat s) (LFloat s)
| same_int s : same (LInt s) (LInt s)
| same_uint s : same (LUInt s) (LUInt s)
| same_strslice a b : same (LStrSlice a b) (LStrSlice a b)
| same_string a b c i a' b' c' i' : same (LString a b c i) (LString a' b' c' i')
| same_ptr m m' p q : tsame p q -> same (LPointer m p) (LPointer m' q)
| same_ref m m' p q : tsame p q -> same (LReference m p) (LReference m' q)
| same_slice a b a' b' p q : tsame p q -> same (LSlice p a b) (LSlice q a' b')
| same_array n n' p q : tsame p q -> same (LArray p n) (LArray q n')
| same_tuple s s' ps qs : Forall2 (fun a b => tsame (snd a) (snd b)) ps qs -> same (LTuple ps s) (LTuple qs s')
| same_fn_unit ps qs : Forall2 tsame ps qs -> same (LFunction None ps) (LFunction None qs)
| same_fn r r' ps qs : tsame r r' -> Forall2 tsame ps qs -> same (LFunction (Some r) ps) (LFunction (Some r') qs)
| same_smart v p q a b a' b' : tsame p q -> same (LSmartPtr p a b v) (LSmartPtr q a' b' v)
| same_map v k k' x x' : tsame k k' -> tsame x x' -> same (LMap k x v) (LMap k' x' v)
| same_option n d o p s n' d' o' q s' : tsame p q -> same (LOption n d o p s) (LOption n' d' o' q s')
| same_result n d p a q b s n' d' p' a' q' b' s' :
    tsame p p' -> tsame q q' -> same (LResult n d p a q b s) (LResult n' d' p' a' q' b' s')
| same_vec a b c i a' b' c' i' : tsame i i' -> same (LVec a b c i) (LVec a' b' c' i')
| same_struct n s al f s' al' f' : same (LStruct n s al f) (LStruct n s' al' f')
| same_enum n d v s d' v' s' : same (LEnum n d v s) (LEnum n d' v' s')
| same_cenum n d v s d' v' s' : same (LCEnum n d v s) (LCEnum n d' v' s')
| same_alias_l x : same (LAlias (display_name x)) x
| same_alias_r x : same x (LAlias (display_name x))
with tsame : tdef -> tdef -> Prop :=
| tsame_loc d a b : tsame (TD a (Some d)) (TD b (Some d))
| tsame_lay a b p q : same a b -> tsame (TD a p) (TD b q).

(** Immediate component types that identify a type (struct fields and enum variants do not). *)
Definition parts (l : layout) : list tdef :=
  match l with
  | LArray e _ => [e]
  | LFunction r args => match r with Some t => t :: args | None => args end
  | LPointer _ p | LReference _ p => [p]
  | LSlice e _ _ => [e]
  | LTuple es _ => map snd es
  | LSmartPtr i _ _ _ => [i]
  | LMap k v _ => [k; v]
  | LOption _ _ _ t _ => [t]
  | LResult _ _ o _ e _ _ => [o; e]
  | LVec _ _ _ i => [i]
  | _ => []
  end.

(** A type fully known by structure: no name-only part, no DIE location in its parts. *)
Inductive plain : layout -> Prop :=
| plain_intro l : (forall n, l <> LAlias n) -> Forall (fun t => locOf t = None /\ plain (layOf t)) (parts l) -> plain l.

(** Number of pointer/reference layers peeled by [dereferenced]. *)
Inductive points_to : layout -> layout -> Prop :=
| pt_here l : points_to l l
| pt_ptr m l p r : points_to l r -> points_to (LPointer m (TD l p)) r
| pt_ref m l p r : points_to l r -> points_to (LReference m (TD l p)) r.

Definition is_pointer (l : layout) : bool := match l with LPointer _ _ | LReference _ _ => true | _ => false end.

(** Where rustc puts the components of a type, as recorded in its layout: (offset, component). *)
Definition components (l : layout) : list (Z * tdef) :=
  match l with
  | LStruct _ _ _ fs => map (fun f => (snd (fst f), snd f)) fs
  | LTuple es _ => es
  | LSmartPtr t o _ (SRefCell | SMutex | SRwLock | SCell | SUnsafeCell) => [(o, t)]
  | LOption _ _ o t _ => [(o, t)]
  | LResult _ _ a oa b ob _ => [(oa, a); (ob, b)]
  | LEnum _ _ vs _ => map (fun v => (0, snd v)) vs
  | _ => []
  end.

(** A reported size covers the type if every component ends within it. *)
Definition covers (l : layout) (s : Z) : Prop :=
  forall o t n, In (o, t) (components l) -> tsize t = Ok (Some n) -> o + n <= s.

(** Rust's sizes on a 64-bit target (Rust reference, "Type layout"; std types as of the toolchain): the size
    of a user type, tuple, Option or Result is the one the debug info declares. Interior-mutability cells
    are left out: their size depends on the content. *)
Inductive sized : layout -> Z -> Prop :=
| sz_bool : sized LBool 1
| sz_char : sized LChar 4
| sz_float s : sized (LFloat s) s
| sz_int s : sized (LInt s) s
| sz_uint s : sized (LUInt s) s
| sz_never : sized LNever 0
| sz_unit : sized LUnit 0
| sz_fn r a : sized (LFunction r a) 8
| sz_ptr m p : sized (LPointer m p) 8
| sz_ref m p : sized (LReference m p) 8
| sz_slice e a b : sized (LSlice e a b) 16
| sz_strslice a b : sized (LStrSlice a b) 16
| sz_array e p n s : sized e s -> in_u64 (s * n) -> sized (LArray (TD e p) n) (s * n)
| sz_tuple es s : sized (LTuple es s) s
| sz_smart i a b v : In v [SBox; SRc; SArc] -> sized (LSmartPtr i a b v) 8
| sz_hashmap k x a b c d e f : sized (LMap k x (HashMap a b c d e f)) 48
| sz_btreemap k x a b c d n : sized (LMap k x (BTreeMap a b c d n)) 24
| sz_option n d o t s : sized (LOption n d o t s) s
| sz_result n d a oa b ob s : sized (LResult n d a oa b ob s) s
| sz_string a b c i : sized (LString a b c i) 24
| sz_vec a b c i : sized (LVec a b c i) 24
| sz_struct n s al f : sized (LStruct n s al f) s
| sz_enum n d v s : sized (LEnum n d v s) s
| sz_cenum n d v s : sized (LCEnum n d v s) s.

(** The innermost element type of nested arrays. *)
Fixpoint array_base (l : layout) : layout := match l with LArray (TD e _) _ => array_base e | _ => l end.
Definition is_cell (l : layout) : bool :=
  match l with LSmartPtr _ _ _ (SRefCell | SMutex | SRwLock | SCell | SUnsafeCell) => true | _ => false end.
(** All array lengths in the nest of arrays. *)
Fixpoint array_dims (l : layout) : list Z := match l with LArray (TD e _) n => n :: array_dims e | _ => [] end.
