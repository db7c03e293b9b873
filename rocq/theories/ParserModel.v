(** Model of DIE access (crates/rudy-dwarf/src/die/mod.rs, die/utils.rs) and of the parser combinators
    (crates/rudy-dwarf/src/parser/{mod,combinators,children,primitives}.rs).

    A [Die] of the code is (file, unit, offset); everything here stays inside one unit of one file, so a handle is the
    DIE's section offset, and [AUnitRef] carries the section offset of its target (unit base plus the decoded value).
    Reading an offset at which no entry starts is an error (gimli may instead decode garbage). Error texts and
    tracing are dropped. *)
From Coq Require Import Ascii String List ZArith Lia Bool.
From Verif Require Import Base NumText DieModel ModuleModel TypesModel.
Import ListNotations.
Open Scope Z_scope.

(** What a parser can look at: the unit, the file's module ranges, and the type-name parser
    ([TypeName::parse(module_path, name)], giving the typedef; rudy-parser/src/types.rs). *)
Record env := Env { en_unit : die; en_ranges : list mrange; en_parse : list str -> str -> option layout }.

(** All nodes of a tree in file order. *)
Fixpoint subtrees (d : die) : list die :=
  d :: match d with
       | Die _ (Some l) => (fix go l := match l with [] => [] | x :: l' => subtrees x ++ go l' end) l
       | Die _ None => []
       end.
Definition h_of (d : die) : Z := e_off (d_entry d).
(** die/mod.rs 292-307: entry. *)
Definition lookup (v : env) (h : Z) : res die :=
  match find (fun d => h_of d =? h) (subtrees (en_unit v)) with Some d => Ok d | None => Err "Failed to get DIE entry" end.

(** parser/mod.rs 29-31: the Parser trait. *)
Definition parser (T : Type) := env -> Z -> res T.

(** die/mod.rs 115-142: children. *)
Definition children : parser (list Z) := fun v h => d <- lookup v h ;; Ok (map h_of (d_kids d)).
(** die/mod.rs 236-248: get_attr. *)
Definition attr_of (a : attr_name) : parser attr_value := fun v h =>
  d <- lookup v h ;; match get_attr (d_entry d) a with Some x => Ok x | None => Err "attribute not found" end.
(** die/mod.rs 188-191: tag; 0 is DW_TAG_null. *)
Definition tag_of (v : env) (h : Z) : tag := match lookup v h with Ok d => e_tag (d_entry d) | _ => Tother 0 end.
(** die/mod.rs 253-257 and die/utils.rs 72-83: string_attr. *)
Definition string_attr (a : attr_name) : parser str := fun v h =>
  x <- attr_of a v h ;; match x with AStr (Some s) => Ok s | _ => Err "not a string" end.
(** gimli: AttributeValue::udata_value and sdata_value. *)
Definition udata_value (x : attr_value) : option Z :=
  match x with AUdata n => Some n | ASdata n => if n <? 0 then None else Some n | _ => None end.
Definition sdata_value (x : attr_value) : option Z :=
  match x with ASdata n => Some n | AUdata n => if n <? 9223372036854775808 then Some n else None | _ => None end.
(** die/mod.rs 256-263: udata_attr; primitives.rs 49-53: attr::<usize>. *)
Definition udata_attr (a : attr_name) : parser Z := fun v h =>
  x <- attr_of a v h ;; match udata_value x with Some n => Ok n | None => Err "not a udata value" end.
(** primitives.rs 94-108: attr::<i128>. *)
Definition i128_attr (a : attr_name) : parser Z := fun v h =>
  x <- attr_of a v h ;;
  match udata_value x with
  | Some n => Ok n
  | None => match sdata_value x with Some n => Ok n | None => Err "not a data attribute" end
  end.
(** die/mod.rs 182-189 and die/utils.rs 57-70: get_referenced_entry (the target is not looked at). *)
Definition ref_attr (a : attr_name) : parser Z := fun v h =>
  x <- attr_of a v h ;; match x with AUnitRef o => Ok o | _ => Err "Expected UnitRef attribute" end.
Definition entry_type : parser Z := ref_attr At_type.
(** primitives.rs 13-15: data_offset. *)
Definition data_offset : parser Z := udata_attr At_member_location.
(** die/mod.rs 193-195: name. *)
Definition name_attr : parser str := string_attr At_name.
(** [r.is_ok_and(|n| n == name)]. *)
Definition ok_str_eqb (r : res str) (s : str) : bool := match r with Ok n => str_eqb n s | _ => false end.

(** die/mod.rs 199-205: get_member; primitives.rs 174-178: member. *)
Definition get_member (name : str) : parser Z := fun v h =>
  l <- children v h ;;
  match find (fun c => ok_str_eqb (name_attr v c) name) l with Some c => Ok c | None => Err "Failed to find member" end.

Definition tag_eqb (a b : tag) : bool :=
  match a, b with
  | Tcompile_unit, Tcompile_unit | Tnamespace, Tnamespace | Tsubprogram, Tsubprogram | Tstructure, Tstructure
  | Tenumeration, Tenumeration | Tvariable, Tvariable | Tparameter, Tparameter | Tbase, Tbase | Tpointer, Tpointer
  | Tarray, Tarray | Tblock, Tblock | Tunion, Tunion | Tsubroutine, Tsubroutine | Tmember, Tmember
  | Ttemplate, Ttemplate | Tvariant_part, Tvariant_part | Tvariant, Tvariant | Tsubrange, Tsubrange
  | Tenumerator, Tenumerator | Tinlined, Tinlined => true
  | Tother n, Tother m => n =? m
  | _, _ => false
  end.
Lemma tag_eqb_eq a b : tag_eqb a b = true <-> a = b.
Proof.
  destruct a, b; simpl; split; intros H; try reflexivity; try discriminate; try (injection H as ->; apply Z.eqb_refl).
  apply Z.eqb_eq in H. now subst.
Qed.

(** die/mod.rs 207-213: get_member_by_tag; primitives.rs 245-247: member_by_tag. *)
Definition get_member_by_tag (t : tag) : parser Z := fun v h =>
  l <- children v h ;;
  match find (fun c => tag_eqb (tag_of v c) t) l with Some c => Ok c | None => Err "Failed to find member" end.
(** die/mod.rs 215-222: get_udata_member_attribute. *)
Definition member_udata (name : str) (a : attr_name) : parser Z := fun v h =>
  c <- get_member name v h ;; udata_attr a v c.
(** die/mod.rs 224-234: get_generic_type_entry. *)
Definition generic_entry (name : str) : parser Z := fun v h =>
  l <- children v h ;;
  match find (fun c => tag_eqb (tag_of v c) Ttemplate && ok_str_eqb (name_attr v c) name) l with
  | Some c => ref_attr At_type v c
  | None => Err "Failed to find generic type entry"
  end.

(** combinators.rs 14-26: And. *)
Definition p_and {T U} (p : parser T) (q : parser U) : parser (T * U) := fun v h =>
  a <- p v h ;; b <- q v h ;; Ok (a, b).
(** combinators.rs 29-43: Map. *)
Definition p_map {T U} (f : T -> U) (p : parser T) : parser U := fun v h => a <- p v h ;; Ok (f a).
(** combinators.rs 78-93: MapRes. *)
Definition p_map_res {T U} (f : T -> res U) (p : parser T) : parser U := fun v h => a <- p v h ;; f a.
(** combinators.rs 96-111: Then. *)
Definition p_then {U} (p : parser Z) (q : parser U) : parser U := fun v h => m <- p v h ;; q v m.
(** combinators.rs 138-149: Filter, and primitives.rs 152-155: OptionalAttr ([.ok()]; a panic is not caught). *)
Definition p_filter {T} (p : parser T) : parser (option T) := fun v h =>
  match p v h with Ok a => Ok (Some a) | Err _ => Ok None | Panic m => Panic m | Fuel => Fuel end.
Definition identity : parser Z := fun _ h => Ok h.
(** primitives.rs 196-208: IsMember; 224-243: IsMemberOffset; 275-288: IsMemberTag. *)
Definition is_member (name : str) : parser Z := fun v h =>
  n <- name_attr v h ;; if str_eqb n name then Ok h else Err "Expected field".
Definition is_member_offset (name : str) : parser Z := fun v h =>
  n <- name_attr v h ;; if str_eqb n name then data_offset v h else Err "Expected field".
Definition is_member_tag (t : tag) : parser Z := fun v h =>
  if tag_eqb (tag_of v h) t then Ok h else Err "Expected entry to have tag".
(** primitives.rs 295-316: Generic. *)
Definition generic (name : str) : parser Z := fun v h =>
  if tag_eqb (tag_of v h) Ttemplate then
    n <- name_attr v h ;; if str_eqb n name then ref_attr At_type v h else Err "Expected generic"
  else Err "Expected generic type parameter".

(** children.rs 46-73: ForEachChild: failures are skipped. *)
Fixpoint each_ok {T} (p : parser T) (v : env) (l : list Z) : res (list T) :=
  match l with
  | [] => Ok []
  | c :: l' =>
      match p v c with
      | Ok a => r <- each_ok p v l' ;; Ok (a :: r)
      | Err _ => each_ok p v l'
      | Panic m => Panic m
      | Fuel => Fuel
      end
  end.
Definition for_each_child {T} (p : parser T) : parser (list T) := fun v h => l <- children v h ;; each_ok p v l.
(** children.rs 82-97: TryForEachChild: failures stop it. *)
Fixpoint each_try {T} (p : parser (option T)) (v : env) (l : list Z) : res (list T) :=
  match l with
  | [] => Ok []
  | c :: l' => o <- p v c ;; r <- each_try p v l' ;; Ok (match o with Some a => a :: r | None => r end)
  end.
Definition try_for_each_child {T} (p : parser (option T)) : parser (list T) := fun v h => l <- children v h ;; each_try p v l.

(** A tuple of parsers, giving a (right-nested) tuple of results. *)
Inductive parsers : Type -> Type :=
| PNil : parsers unit
| PCons {T U} (p : parser T) (ps : parsers U) : parsers (T * U).
(** children.rs 99-137: the [result] tuple of the loop. *)
Fixpoint slots {T} (ps : parsers T) : Type :=
  match ps with PNil => unit | @PCons T' _ _ ps' => (option T' * slots ps')%type end.
Fixpoint no_slots {T} (ps : parsers T) : slots ps :=
  match ps with PNil => tt | PCons _ ps' => (None, no_slots ps') end.
(** One child is offered to every parser that has no result yet. *)
Fixpoint offer {T} (ps : parsers T) (v : env) (c : Z) : slots ps -> res (slots ps) :=
  match ps with
  | PNil => fun s => Ok s
  | PCons p ps' => fun s =>
      o <- match fst s with
           | Some a => Ok (Some a)
           | None => match p v c with Ok a => Ok (Some a) | Err _ => Ok None | Panic m => Panic m | Fuel => Fuel end
           end ;;
      r <- offer ps' v c (snd s) ;; Ok (o, r)
  end.
Fixpoint offer_all {T} (ps : parsers T) (v : env) (l : list Z) (s : slots ps) : res (slots ps) :=
  match l with [] => Ok s | c :: l' => s' <- offer ps v c s ;; offer_all ps v l' s' end.
Fixpoint filled {T} (ps : parsers T) : slots ps -> res T :=
  match ps with
  | PNil => fun _ => Ok tt
  | PCons p ps' => fun s =>
      match fst s with
      | Some a => r <- filled ps' (snd s) ;; Ok (a, r)
      | None => Err "Failed to find required child for parser"
      end
  end.
Definition parse_children {T} (ps : parsers T) : parser T := fun v h =>
  l <- children v h ;; s <- offer_all ps v l (no_slots ps) ;; filled ps s.
(** children.rs 23-32: child. *)
Definition child {T} (p : parser T) : parser T := p_map fst (parse_children (PCons p PNil)).

(** primitives.rs 361-412: FieldPath; the loop over the remaining field names. *)
Fixpoint path_from (v : env) (h : Z) (total : Z) (path : list str) : res (Z * Z) :=
  match path with
  | [] => Ok (h, total)
  | f :: path' =>
      c <- get_member f v h ;;
      o <- data_offset v c ;;
      t <- add64 total o ;;
      h' <- entry_type v c ;;
      path_from v h' t path'
  end.
Definition field_path (path : list str) : parser (Z * Z) := fun v h =>
  match path with
  | [] => Ok (h, 0)
  | f :: path' =>
      n <- name_attr v h ;;
      if str_eqb n f then
        o <- data_offset v h ;; t <- add64 0 o ;; h' <- entry_type v h ;; path_from v h' t path'
      else Err "Expected entry name"
  end.
(** primitives.rs 414-417. *)
Definition field_path_offset (path : list str) : parser Z := p_map snd (field_path path).
