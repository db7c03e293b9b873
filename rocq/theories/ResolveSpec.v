(** What DWARF says about the types rustc emits, on the tree. *)
From Coq Require Import Ascii String List ZArith Bool.
From Verif Require Import Base DieModel ModuleModel TypesModel ParserModel ParserSpec ResolveModel.
Import ListNotations.
Open Scope Z_scope.

(** The type parameter [name] of the type [h] is the type [t]. *)
Definition type_param (v : env) (h : Z) (name : str) (t : Z) : Prop :=
  exists d c, node v h d /\ first_of (fun c => e_tag (d_entry c) = Ttemplate /\ named c name) (d_kids d) c /\ typed c t.
(** The type [h] has byte size [n]. *)
Definition has_size (v : env) (h n : Z) : Prop := exists d, node v h d /\ unsigned d At_byte_size n.
(** [h] is a pointer type to [t]. *)
Definition points_to (v : env) (h t : Z) : Prop := exists d, node v h d /\ e_tag (d_entry d) = Tpointer /\ typed d t.
(** The variant part of the enum type [h]. *)
Definition variant_part (v : env) (h p : Z) : Prop :=
  exists d c, node v h d /\ first_of (fun c => e_tag (d_entry c) = Tvariant_part) (d_kids d) c /\ e_off (d_entry c) = p.
(** In the variant part [p], the variant called [name] is described by the type [t] (at offset 0). *)
Definition variant_type (v : env) (p : Z) (name : str) (t : Z) : Prop :=
  exists d c m, node v p d /\
    first_of (fun c => e_tag (d_entry c) = Tvariant /\ exists m, In m (d_kids c) /\ named m name) (d_kids d) c /\
    first_of (fun m => named m name) (d_kids c) m /\ located m 0 /\ typed m t.
(** What resolving the type [t] (as a component of another type) gives, with any recursion budget. *)
Definition resolves (v : env) (t : Z) (ty : tdef) : Prop := exists n, shallow n v t = Ok ty.
(** What resolving the type [t] of a variable, field or argument completely gives. *)
Definition resolves_fully (v : env) (t : Z) (ty : tdef) : Prop := exists n, resolve_type n v t = Ok ty.
(** The name of the type [h], in its module, is that of a type of the kind of [def]. *)
Definition reads_as (v : env) (h : Z) (def : layout) : Prop := get_die_typename v h = Some def.
(** The name of the type [h] is not that of a type treated specially. *)
Definition user_type (v : env) (h : Z) : Prop :=
  match get_die_typename v h with
  | None | Some (LStruct _ _ _ _) | Some (LEnum _ _ _ _) | Some (LCEnum _ _ _ _) | Some (LAlias _) => True
  | Some _ => False
  end.
Definition members (d : die) : list die := filter (fun c => tag_eqb (e_tag (d_entry c)) Tmember) (d_kids d).
(** A DW_TAG_member says: this name, this offset, this type. *)
Definition member_says (v : env) (c : die) (f : str * Z * tdef) : Prop :=
  match f with (n, o, t) => named c n /\ located c o /\ exists h, typed c h /\ resolves v h t end.
(** A DW_TAG_variant with its discriminant value, if any, and the variant's name and type. *)
Definition variant_says (v : env) (c : die) (f : str * option Z * tdef) : Prop :=
  match f with (n, dv, t) =>
    e_tag (d_entry c) = Tvariant /\
    match dv with
    | Some x => has_attr c At_discr_value (AUdata x) \/ has_attr c At_discr_value (ASdata x)
    | None => forall x, ~ has_attr c At_discr_value (AUdata x) /\ ~ has_attr c At_discr_value (ASdata x)
    end /\
    exists m h, first_of (fun m => e_tag (d_entry m) = Tmember) (d_kids c) m /\ named m n /\ located m 0 /\ typed m h /\ resolves v h t
  end.
