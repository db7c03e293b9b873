(** Vocabulary for the statements relating type names and layouts. *)
From Coq Require Import Ascii String List ZArith NArith Lia Bool.
From Verif Require Import Base NumText TypesModel TypeTextModel TypeTextSpec.
Import ListNotations.
Open Scope Z_scope.

(** The names with a meaning of their own. *)
Definition builtin_names : list str := map st
  ["u8"; "u16"; "u32"; "u64"; "u128"; "usize"; "i8"; "i16"; "i32"; "i64"; "i128"; "isize"; "f32"; "f64"; "bool"; "char"; "str";
   "String"; "Vec"; "Option"; "Result"; "HashMap"; "BTreeMap"; "Box"; "Rc"; "Arc"; "Cell"; "RefCell"; "UnsafeCell"; "Mutex"; "RwLock"]%string.
(** A legible type: printed and read back it is the same. *)
Definition legible (t : ty) : Prop := plain t /\ sound t /\ full t.

(** The names of user types: an identifier, possibly with type arguments, or a trait object. *)
Inductive user_name : str -> Prop :=
| un_ident id : ident id -> ~ keyword id -> ~ In id builtin_names -> user_name id
| un_generic id args : ident id -> ~ keyword id -> ~ In id builtin_names -> args <> [] -> Forall legible args ->
    user_name (id ++ st "<" ++ join (st ", ") (map show args) ++ st ">")
| un_dyn l : l <> [] -> Forall is_path l -> Forall legible l -> user_name (st "dyn " ++ join (st " + ") (map show l)).

(** What a name tells about a type: the shape, with every size and offset 0 and user types known by name only. *)
Fixpoint skeleton (l : layout) : layout :=
  let sk t := match t with TD l' _ => td0 (skeleton l') end in
  match l with
  | LArray e n => LArray (sk e) n
  | LFunction r args => LFunction (match r with Some t => Some (sk t) | None => None end) (map sk args)
  | LPointer m p => LPointer m (sk p)
  | LReference m p => LReference m (sk p)
  | LSlice e _ _ => LSlice (sk e) 0 0
  | LStrSlice _ _ => LStrSlice 0 0
  | LTuple es _ => LTuple (map (fun p => match p with (_, t) => (0, sk t) end) es) 0
  | LSmartPtr i _ _ v => LSmartPtr (sk i) 0 0 v
  | LMap k x (HashMap _ _ _ _ _ _) => LMap (sk k) (sk x) (HashMap 0 0 0 0 0 0)
  | LMap k x (BTreeMap _ _ _ _ _) => LMap (sk k) (sk x) (BTreeMap 0 0 0 0 (BN 0 0 0 0))
  | LMap k x IndexMap => LMap (sk k) (sk x) IndexMap
  | LOption _ _ _ t _ => LOption (st "Option") (Disc DImplicit 0) 0 (sk t) 0
  | LResult _ _ o _ e _ _ => LResult (st "Result") (Disc DImplicit 0) (sk o) 0 (sk e) 0 0
  | LString _ _ _ _ => LString 0 0 0 (td0 (LUInt 1))
  | LVec _ _ _ i => LVec 0 0 0 (sk i)
  | LStruct n _ _ _ | LEnum n _ _ _ | LCEnum n _ _ _ | LAlias n => LAlias n
  | LBool | LChar | LFloat _ | LInt _ | LNever | LStr | LUnit | LUInt _ => l
  end.

(** The layouts whose name says what they are. Not: raw pointers (their name has no [const] or [mut]), [fn()], one-tuples,
    [&T] with [T = str] (whose name is that of the string slice), [IndexMap], integers and floats of odd sizes. *)
Fixpoint nameable (l : layout) : Prop :=
  let nt t := match t with TD l' _ => nameable l' end in
  match l with
  | LArray e n => nt e /\ in_u64 n
  | LFunction r args => match r with Some t => nt t | None => True end /\ args <> [] /\
                        fold_right (fun t P => nt t /\ P) True args
  | LPointer _ _ => False
  | LReference m p => nt p /\ (m = true \/ layOf p <> LStr)
  | LSlice e _ _ => nt e
  | LTuple es _ => (2 <= length es)%nat /\ fold_right (fun p P => match p with (_, t) => nt t end /\ P) True es
  | LSmartPtr i _ _ _ => nt i
  | LMap k x v => nt k /\ nt x /\ v <> IndexMap
  | LOption _ _ _ t _ => nt t
  | LResult _ _ o _ e _ _ => nt o /\ nt e
  | LVec _ _ _ i => nt i
  | LStruct n _ _ _ | LEnum n _ _ _ | LCEnum n _ _ _ | LAlias n => user_name n
  | LInt s | LUInt s => In s [1; 2; 4; 8; 16]
  | LFloat s => In s [4; 8]
  | LBool | LChar | LNever | LStr | LStrSlice _ _ | LUnit | LString _ _ _ _ => True
  end.
