(** Model of type resolution: crates/rudy-dwarf/src/types/resolution.rs, types/index.rs and the container parsers of
    crates/rudy-dwarf/src/parser/{vec,hashmap,pointers,btreemap,option,result,enums}.rs.

    The recursion resolve_type -> container parser -> shallow_resolve_type is by fuel ([Fuel]: the code would recurse
    deeper than the given number of nested types; on cyclic DWARF it overflows the stack). Salsa caching is dropped.
    debug_assert and usize overflow panic, as in a dev build. *)
From Coq Require Import Ascii String List ZArith Lia Bool.
From Verif Require Import Base NumText DieModel ModuleModel TypesModel ParserModel.
Import ListNotations.
Open Scope Z_scope.

(** DW_AT_alignment = 0x88. *)
Definition At_alignment : attr_name := At_other 136.

(** types/index.rs 13-38: get_die_typename, the typedef of the parsed name. *)
Definition get_die_typename (v : env) (h : Z) : option layout :=
  match find_by_offset (en_ranges v) h with
  | None => None
  | Some r => match name_attr v h with Ok n => en_parse v (mr_path r) n | _ => None end
  end.

Section Shallow.
(** The recursive call: shallow_resolve_type. *)
Variable sh : parser tdef.

(** resolution.rs 24-28: resolve_entry_type_shallow. *)
Definition entry_shallow : parser tdef := p_then entry_type sh.
(** primitives.rs 317-319: resolved_generic. *)
Definition resolved_generic (name : str) : parser tdef := p_then (generic name) sh.

(** parser/vec.rs 13-30: vec; the result is (length, data pointer, capacity offsets, element type). *)
Definition vec_fields : parser (Z * Z * Z * tdef) :=
  p_map (fun '(d, (l, (c, (t, _)))) => (l, d, c, t))
    (parse_children
      (PCons (field_path_offset [st "buf"; st "inner"; st "ptr"])
      (PCons (is_member_offset (st "len"))
      (PCons (field_path_offset [st "buf"; st "inner"; st "cap"; st "__0"])
      (PCons (resolved_generic (st "T")) PNil))))).
Definition vec : parser layout := p_map (fun '(l, d, c, t) => LVec l d c t) vec_fields.
(** resolution.rs 31-38: resolve_string_type. *)
Definition string_type : parser layout :=
  p_map (fun '(l, d, c, t) => LString l d c t) (p_then (get_member (st "vec")) (p_then entry_type vec_fields)).

(** parser/hashmap.rs 15-63: hashbrown_map. *)
Definition hashbrown_map : parser mapv := fun v h =>
  ' (table_off, inner_table) <- p_then (get_member (st "table")) (p_and data_offset entry_type) v h ;;
  ' ((pair_size, (key_off, (val_off, _))), ((inner_off, raw_table), _)) <-
     parse_children
      (PCons (p_then (generic (st "T"))
               (p_and (udata_attr At_byte_size)
                 (parse_children (PCons (is_member_offset (st "__0")) (PCons (is_member_offset (st "__1")) PNil)))))
      (PCons (p_then (is_member (st "table")) (p_and data_offset entry_type)) PNil)) v inner_table ;;
  table_off <- add64 table_off inner_off ;;
  ' (mask, (ctrl, (items, _))) <-
     parse_children (PCons (is_member_offset (st "bucket_mask"))
                    (PCons (is_member_offset (st "ctrl")) (PCons (is_member_offset (st "items")) PNil))) v raw_table ;;
  mask <- add64 table_off mask ;;
  ctrl <- add64 table_off ctrl ;;
  items <- add64 table_off items ;;
  Ok (HashMap mask ctrl items pair_size key_off val_off).

(** parser/pointers.rs 14-31: nonnull. *)
Definition nonnull : parser Z :=
  p_map_res (fun '(off, inner) => if off =? 0 then Ok inner else Err "NonNull pointer offset is not zero")
    (p_then (get_member (st "pointer"))
      (p_and data_offset (p_then entry_type (p_then (is_member_tag Tpointer) entry_type)))).

(** parser/enums.rs 26-68: enum_discriminant. *)
Definition int_disc (l : layout) : dty :=
  match l with LInt s => DInt s | LUInt s => DUInt s | _ => DImplicit end.
Definition enum_discriminant : parser disc := fun v h =>
  ' (discr, off) <- p_and (p_filter (ref_attr At_discr)) (p_filter (udata_attr At_member_location)) v h ;;
  match discr with
  | Some d => t <- entry_shallow v d ;; Ok (Disc (int_disc (layOf t)) (match off with Some o => o | None => 0 end))
  | None => Ok (Disc DImplicit 0)
  end.
(** parser/enums.rs 71-107: enum_variant. *)
Definition enum_variant : parser (str * option Z * tdef) :=
  p_map_res (fun '(d, (n, (off, (t, _)))) => if off =? 0 then Ok (n, d, t) else Panic "enum variants should not have offsets")
    (p_then (is_member_tag Tvariant)
      (p_and (p_filter (i128_attr At_discr_value))
        (p_then (get_member_by_tag Tmember) (fun v h =>
           n <- name_attr v h ;; off <- data_offset v h ;; t <- entry_shallow v h ;; Ok (n, (off, (t, tt))))))).
(** parser/enums.rs 153-165: named_enum_variant. *)
Definition named_enum_variant (name : str) : parser (option Z * (Z * Z)) :=
  p_then (is_member_tag Tvariant)
    (p_and (p_filter (udata_attr At_discr)) (p_then (get_member name) (p_and data_offset entry_type))).
(** parser/enums.rs 168-226: EnumNamedTupleVariant with one field. *)
Definition enum_named_tuple_variant1 {T} (name : str) (p : parser T) : parser (option Z * (Z * T)) := fun v h =>
  ' (d, (off, lay)) <- named_enum_variant name v h ;;
  if off =? 0 then
    r <- parse_children (PCons (p_then (is_member (st "__0")) (p_and data_offset (p_then entry_type p))) PNil) v lay ;;
    Ok (d, fst r)
  else Panic "enum variants should not have offsets".

(** parser/option.rs 26-49: parse_option_entry: name, size, discriminant, (offset, type DIE) of Some's payload. *)
Definition parse_option_entry : parser (str * (Z * (disc * (Z * Z)))) :=
  p_and name_attr (p_and (udata_attr At_byte_size)
    (p_then (get_member_by_tag Tvariant_part)
      (p_and enum_discriminant (p_map snd (child (enum_named_tuple_variant1 (st "Some") identity)))))).
(** parser/option.rs 51-67: option_def. *)
Definition option_def : parser layout := fun v h =>
  ' (name, (size, (d, (off, t)))) <- parse_option_entry v h ;;
  some <- sh v t ;; Ok (LOption name d off some size).
(** parser/result.rs 28-64: result_def. *)
Definition result_def : parser layout := fun v h =>
  ' (name, (size, (d, ((_, (ok_off, ok)), ((_, (err_off, err)), _))))) <-
     p_and name_attr (p_and (udata_attr At_byte_size)
       (p_then (get_member_by_tag Tvariant_part)
         (p_and enum_discriminant
           (parse_children (PCons (enum_named_tuple_variant1 (st "Ok") sh)
                           (PCons (enum_named_tuple_variant1 (st "Err") sh) PNil)))))) v h ;;
  Ok (LResult name d ok ok_off err err_off size).
(** parser/enums.rs 255-290: enum_def. *)
Definition enum_def : parser layout := fun v h =>
  ' (name, (size, vp)) <- p_and name_attr (p_and (udata_attr At_byte_size) (get_member_by_tag Tvariant_part)) v h ;;
  d <- enum_discriminant v vp ;;
  vs <- for_each_child enum_variant v vp ;;
  Ok (LEnum name d vs size).
(** parser/enums.rs 293-335: c_enum_variant, c_enum_def. *)
Definition c_enum_variant : parser (str * Z) := p_and name_attr (i128_attr At_const_value).
Definition c_enum_def : parser layout := fun v h =>
  ' (name, (size, ty)) <-
     p_and name_attr (p_and (udata_attr At_byte_size)
       (p_map_res (fun t => match layOf t with LInt s => Ok (DInt s) | LUInt s => Ok (DUInt s) | _ => Err "must be integer" end)
          (p_then entry_type sh))) v h ;;
  vs <- for_each_child c_enum_variant v h ;;
  Ok (LCEnum name ty vs size).

(** parser/btreemap.rs 46-134: btree_map. *)
Definition btree_map : parser layout := fun v h =>
  ' (k, (val, ((root_off, root_option), (length_off, _)))) <-
     parse_children (PCons (resolved_generic (st "K")) (PCons (resolved_generic (st "V"))
       (PCons (p_then (is_member (st "root")) (p_and data_offset entry_type))
       (PCons (p_then (is_member (st "length")) data_offset) PNil)))) v h ;;
  ' (_, (_, (_, (_, node_ref)))) <- parse_option_entry v root_option ;;
  ' (height_off, ((node_off, node_ptr), _)) <-
     parse_children (PCons (p_then (is_member (st "height")) data_offset)
       (PCons (p_then (is_member (st "node")) (p_and data_offset entry_type)) PNil)) v node_ref ;;
  leaf <- nonnull v node_ptr ;;
  ' (len_off, (keys_off, (vals_off, _))) <-
     parse_children (PCons (p_then (is_member (st "len")) data_offset)
       (PCons (p_then (is_member (st "keys")) data_offset)
       (PCons (p_then (is_member (st "vals")) data_offset) PNil))) v leaf ;;
  parent_option <- p_then (get_member (st "parent")) entry_type v leaf ;;
  ' (_, (_, (_, (_, parent_some)))) <- parse_option_entry v parent_option ;;
  internal <- nonnull v parent_some ;;
  edges_off <- p_then (get_member (st "edges")) data_offset v internal ;;
  Ok (LMap k val (BTreeMap length_off root_off node_off height_off (BN keys_off vals_off len_off edges_off))).

(** resolution.rs 41-76: resolve_map_type. *)
Definition map_type (mv : mapv) : parser layout := fun v h =>
  ' (k, (val, _)) <- parse_children (PCons (resolved_generic (st "K")) (PCons (resolved_generic (st "V")) PNil)) v h ;;
  match mv with
  | HashMap _ _ _ _ _ _ =>
      b <- match p_then (get_member (st "base")) entry_type v h with
           | Ok b => Ok b | Err _ => Ok h | Panic m => Panic m | Fuel => Fuel end ;;
      m <- hashbrown_map v b ;; Ok (LMap k val m)
  | BTreeMap _ _ _ _ _ => btree_map v h
  | IndexMap => Panic "not yet implemented"
  end.

(** resolution.rs 79-204: resolve_smart_ptr_type. *)
Definition smart_ptr_type (sv : spv) : parser layout := fun v h =>
  inner <- match sv with
           | SBox => entry_shallow v h
           | SArc | SRc | SMutex | SCell | SRefCell | SUnsafeCell => t <- generic_entry (st "T") v h ;; sh v t
           | SRwLock => Panic "not yet implemented"
           end ;;
  ' (inner_off, data_off) <-
    match sv with
    | SBox => Ok (0, 0)
    | SMutex | SRefCell | SCell =>
        data <- get_member (match sv with SMutex => st "data" | _ => st "value" end) v h ;;
        o <- data_offset v data ;;
        cell <- entry_type v data ;;
        o' <- member_udata (st "value") At_member_location v cell ;;
        s <- add64 o o' ;; Ok (s, 0)
    | SUnsafeCell => o <- member_udata (st "value") At_member_location v h ;; Ok (o, 0)
    | SRc | SArc =>
        ptr <- get_member (st "ptr") v h ;;
        o <- data_offset v ptr ;;
        nn <- entry_type v ptr ;;
        pointer <- get_member (st "pointer") v nn ;;
        o' <- data_offset v pointer ;;
        s <- add64 o o' ;;
        ip <- entry_type v pointer ;;
        arc_inner <- entry_type v ip ;;
        d <- member_udata (match sv with SArc => st "data" | _ => st "value" end) At_member_location v arc_inner ;;
        Ok (s, d)
    | SRwLock => Panic "not yet implemented"
    end ;;
  Ok (LSmartPtr inner inner_off data_off sv).

(** resolution.rs 206-221: resolve_tuple_type. *)
Definition tuple_type : parser layout := fun v h =>
  size <- udata_attr At_byte_size v h ;;
  l <- children v h ;;
  es <- mapM (fun c => o <- data_offset v c ;; t <- entry_shallow v c ;; Ok (o, t)) l ;;
  Ok (LTuple es size).

(** The parameters of a subroutine type (resolution.rs 297-303, 574-580). *)
Definition fn_args : parser (list tdef) := fun v h =>
  l <- children v h ;; mapM (entry_shallow v) (filter (fun c => tag_eqb (tag_of v c) Tparameter) l).

(** resolution.rs 223-335: resolve_primitive_type. *)
Definition primitive_type (def : layout) : parser layout := fun v h =>
  match def with
  | LInt s => Ok (LInt s) | LBool => Ok LBool | LChar => Ok LChar | LFloat s => Ok (LFloat s) | LNever => Ok LNever
  | LStr => Ok LStr | LUInt s => Ok (LUInt s) | LUnit => Ok LUnit
  | LStrSlice _ _ =>
      d <- member_udata (st "data_ptr") At_member_location v h ;;
      l <- member_udata (st "length") At_member_location v h ;; Ok (LStrSlice d l)
  | LSlice _ _ _ =>
      dp <- get_member (st "data_ptr") v h ;;
      d <- data_offset v dp ;;
      pt <- entry_type v dp ;;
      e <- entry_shallow v pt ;;
      l <- member_udata (st "length") At_member_location v h ;; Ok (LSlice e d l)
  | LArray _ n => e <- entry_shallow v h ;; Ok (LArray e n)
  | LFunction r _ =>
      t <- entry_shallow v h ;;
      args <- fn_args v h ;;
      Ok (LFunction (match r, layOf t with None, LUnit => None | _, _ => Some t end) args)
  | LPointer m _ => t <- entry_shallow v h ;; Ok (LPointer m t)
  | LReference m _ => t <- entry_shallow v h ;; Ok (LReference m t)
  | LTuple _ _ => tuple_type v h
  | _ => Err "not a primitive layout"
  end.

(** resolution.rs 340-425: resolve_as_builtin_type. *)
Definition as_builtin : parser (option tdef) := fun v h =>
  match get_die_typename v h with
  | None => Ok None
  | Some def =>
      o <- match def with
           | LOption _ _ _ _ _ => rmap Some (option_def v h)
           | LVec _ _ _ _ => rmap Some (vec v h)
           | LString _ _ _ _ => rmap Some (string_type v h)
           | LMap _ _ mv => rmap Some (map_type mv v h)
           | LResult _ _ _ _ _ _ _ => rmap Some (result_def v h)
           | LSmartPtr _ _ _ sv => rmap Some (smart_ptr_type sv v h)
           | LStruct _ _ _ _ | LEnum _ _ _ _ | LCEnum _ _ _ _ | LAlias _ => Ok None
           | prim => rmap Some (primitive_type prim v h)
           end ;;
      Ok (match o with Some l => Some (TD l (Some h)) | None => None end)
  end.
End Shallow.

(** resolution.rs 431-447: shallow_resolve_type. *)
Fixpoint shallow (n : nat) : parser tdef := fun v h =>
  match n with
  | O => Fuel
  | S n' =>
      o <- as_builtin (shallow n') v h ;;
      match o with
      | Some t => Ok t
      | None => Ok (TD (LAlias (match name_attr v h with Ok s => s | _ => st "unknown" end)) (Some h))
      end
  end.

(** resolution.rs 461-494: resolve_struct_type. *)
Definition struct_type (n : nat) : parser layout := fun v h =>
  name <- name_attr v h ;;
  size <- udata_attr At_byte_size v h ;;
  align <- udata_attr At_alignment v h ;;
  l <- children v h ;;
  fs <- mapM (fun c => fname <- name_attr v c ;; o <- data_offset v c ;; t <- entry_shallow (shallow n) v c ;; Ok (fname, o, t))
          (filter (fun c => tag_eqb (tag_of v c) Tmember) l) ;;
  Ok (LStruct name size align fs).

(** resolution.rs 504-600: resolve_type_offset. *)
Definition resolve_type (n : nat) : parser tdef := fun v h =>
  o <- as_builtin (shallow n) v h ;;
  match o with
  | Some t => Ok t
  | None =>
      lay <- match tag_of v h with
             | Tarray =>
                 e <- entry_shallow (shallow n) v h ;;
                 l <- children v h ;;
                 match find (fun c => tag_eqb (tag_of v c) Tsubrange) l with
                 | None => Err "array type missing subrange information"
                 | Some c => k <- udata_attr At_count v c ;; Ok (LArray e k)
                 end
             | Tstructure =>
                 l <- children v h ;;
                 if existsb (fun c => tag_eqb (tag_of v c) Tvariant_part) l then enum_def (shallow n) v h
                 else struct_type n v h
             | Tsubroutine =>
                 r <- match entry_type v h with
                      | Ok t => rmap Some (entry_shallow (shallow n) v t)
                      | Err _ => Ok None | Panic m => Panic m | Fuel => Fuel end ;;
                 args <- fn_args (shallow n) v h ;; Ok (LFunction r args)
             | Tenumeration => c_enum_def (shallow n) v h
             | Tbase => Err "Primitive type not handled"
             | _ => Err "unsupported type"
             end ;;
      Ok (TD lay (Some h))
  end.
