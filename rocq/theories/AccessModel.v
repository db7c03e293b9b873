(** Model of field access and indexing, rudy-db/src/debug_info.rs. *)
From Coq Require Import Ascii String List ZArith Lia Bool.
From Verif Require Import Base NumText OMap TypesModel ValueModel DataModel.
Import ListNotations.
Open Scope Z_scope.

(** TypedPointer (outputs.rs 56-66) as (address, type). *)
Definition tptr := (Z * tdef)%type.

Section Access.
Variable E : env.

(** debug_info.rs 501-541: get_struct_field. *)
Definition get_struct_field (a : Z) (t : tdef) (n : str) : res tptr :=
  match layOf t with
  | LStruct _ _ _ fs =>
      match find (fun f : str * Z * tdef => str_eqb (fst (fst f)) n) fs with
      | None => Err "Field not found"
      | Some f => fa <- add64 a (snd (fst f)) ;; Ok (fa, snd f)
      end
  | LEnum _ _ _ _ => Err "Enum field access not yet implemented"
  | _ => Err "Cannot access field"
  end.

(** debug_info.rs 1146-1161: extract_numeric_value; [strip_prefix("0x")] then from_str_radix(16). *)
Definition extract_numeric (v : value) : res Z :=
  match v with
  | VScalar _ x =>
      match parse_u64 x with
      | Some n => Ok n
      | None => if starts_with x (st "0x") then
                  match (match skipn 2 x with c :: r => if N.eqb c 43 then r else c :: r | [] => [] end) with
                  | [] => Err "Failed to parse hex value"
                  | h => if forallb is_hexdigit h then u64_from_digits 16 h else Err "Failed to parse hex value"
                  end
                else Err "Could not parse numeric value"
      end
  | _ => Err "Expected scalar value"
  end.

(** debug_info.rs 1119-1143: extract_slice_info. *)
Definition or_else {A} (x y : option A) : option A := match x with Some a => Some a | None => y end.
Definition extract_slice_info (v : value) : res (Z * Z) :=
  match v with
  | VStruct _ fs =>
      match or_else (oget cmp_str (st "data_ptr") fs) (oget cmp_str (st "ptr") fs) with
      | None => Err "Slice missing data pointer field"
      | Some p =>
          match or_else (oget cmp_str (st "len") fs) (oget cmp_str (st "length") fs) with
          | None => Err "Slice missing length field"
          | Some l => pv <- extract_numeric p ;; lv <- extract_numeric l ;; Ok (pv, lv)
          end
      end
  | _ => Err "Expected struct representation for slice"
  end.

(** debug_info.rs 596-602, 625-631, 649-654: [size().with_context(..)?] then base + index * size. *)
Definition element_at (base i : Z) (t : tdef) : res tptr :=
  s <- tsize t ;;
  match s with
  | None => Err "Failed to get size for element type"
  | Some s => o <- mul64 i s ;; ea <- add64 base o ;; Ok (ea, t)
  end.

(** debug_info.rs 570-667: index_array_or_slice. [fuel] is for reading the slice value. *)
Definition index_int (fuel : nat) (a : Z) (t : tdef) (i : Z) : res tptr :=
  match layOf t with
  | LArray et n => if n <=? i then Err "Index out of bounds" else element_at a i et
  | LSlice et _ _ =>
      v <- read E fuel a t ;;
      '(p, n) <- extract_slice_info v ;;
      if n <=? i then Err "Index out of bounds" else element_at p i et
  | LVec lo dpo _ it =>
      '(p, n) <- extract_vec_info E a lo dpo ;;
      if n <=? i then Err "Index out of bounds" else element_at p i it
  | _ => Err "Cannot index by integer"
  end.

(** str::trim_matches(char): strips the character from both ends as often as it occurs. *)
Fixpoint trim_start (c : char) (s : str) : str :=
  match s with [] => [] | d :: s' => if N.eqb d c then trim_start c s' else s end.
Definition trim_matches (c : char) (s : str) : str := rev (trim_start c (rev (trim_start c s))).

(** debug_info.rs 1164-1175: values_equal. *)
Definition values_equal (a b : value) : bool :=
  match a, b with
  | VScalar _ x, VScalar _ y => str_eqb (trim_matches (ch """") x) (trim_matches (ch """") y)
  | _, _ => false
  end.

(** debug_info.rs 709-727: the loop over the entries. *)
Fixpoint find_key (fuel : nat) (kt vt : tdef) (key : value) (es : list (Z * Z)) : res tptr :=
  match es with
  | [] => Err "Key not found in map"
  | (ka, va) :: es' =>
      k <- read E fuel ka kt ;;
      if values_equal key k then Ok (va, vt) else find_key fuel kt vt key es'
  end.
(** debug_info.rs 697-737: index_map. *)
Definition index_map (fuel : nat) (a : Z) (t : tdef) (key : value) : res tptr :=
  match layOf t with
  | LMap kt vt mv => es <- read_map_entries E a kt vt mv ;; find_key fuel kt vt key es
  | _ => Err "Value-based indexing not supported"
  end.
End Access.
