(** Model of rudy-db/src/data.rs: reading values out of the target's memory.

    Simplifications: tracing is dropped; allocation failure of [Vec::with_capacity] is not modelled;
    [String::from_utf8_lossy] and float formatting are parameters; recursion through pointers, smart pointers,
    options, enum variants and aliases uses fuel (the Rust code recurses without bound). *)
From Coq Require Import Ascii String List ZArith Lia Bool.
From Verif Require Import Base NumText OMap TypesModel ValueModel.
Import ListNotations.
Open Scope Z_scope.

(** What the debugger session provides: the DataResolver (data.rs 22-105), type resolution by DIE
    (rudy_dwarf::types::resolve_type_offset), and two library formatters. *)
Record env := Env {
  rd : Z -> Z -> res (list Z);          (* read_memory(address, size) *)
  resolve : loc -> res tdef;            (* resolve_type_offset *)
  lossy : list Z -> str;                (* String::from_utf8_lossy *)
  float_text : Z -> list Z -> str       (* f32/f64 from_le_bytes(..).to_string() *)
}.

(** from_le_bytes *)
Fixpoint le (bs : list Z) : Z := match bs with [] => 0 | b :: bs' => b + 256 * le bs' end.
(** two's complement of an [n]-byte word *)
Definition signed (n : Z) (u : Z) : Z := if u <? 2 ^ (8 * n - 1) then u else u - 2 ^ (8 * n).

(** [memory.try_into().unwrap()] to an [n]-byte array. *)
Definition le_unwrap (n : Z) (bs : list Z) : res Z :=
  if Z.of_nat (List.length bs) =? n then Ok (le bs) else Panic "called `Result::unwrap()` on an `Err` value".

Section Read.
Variable E : env.

(** data.rs 50-58: read_address. *)
Definition read_address (a : Z) : res Z :=
  d <- rd E a 8 ;;
  if Z.of_nat (List.length d) =? 8 then Ok (le d) else Err "Failed to read address".

(** usize/u64 read with [try_into().unwrap()]: data.rs 141-142, 154-155, 204-205, 218-219, 232-233, 590-591. *)
Definition read_u64 (a : Z) : res Z := d <- rd E a 8 ;; le_unwrap 8 d.

(** data.rs 927-971: the loop over [0..=len], without ([pairs_loop]) and with edges. *)
Fixpoint pairs_loop (kv : Z -> res (list (Z * Z))) (n : nat) (i : Z) : res (list (Z * Z)) :=
  match n with
  | O => Ok []
  | S n' => p <- kv i ;; r <- pairs_loop kv n' (i + 1) ;; Ok (p ++ r)
  end.
Fixpoint edges_loop (edge kv : Z -> res (list (Z * Z))) (n : nat) (i : Z) : res (list (Z * Z)) :=
  sub <- edge i ;;
  match n with
  | O => Ok sub
  | S n' => p <- kv i ;; r <- edges_loop edge kv n' (i + 1) ;; Ok (sub ++ p ++ r)
  end.

(** data.rs 888-974: read_btree_node_entries; [h] is the height; the entries vector is returned in order. *)
Fixpoint btree_node (h : nat) (ptr : Z) (key val : tdef) (nl : bnode) {struct h} : res (list (Z * Z)) :=
  len_addr <- add64 ptr (len_off nl) ;;
  lb <- rd E len_addr 2 ;;
  len <- le_unwrap 2 lb ;;
  ks <- tsize key ;;
  match ks with None => Err "Cannot determine key size for BTreeMap" | Some ks =>
  vs <- tsize val ;;
  match vs with None => Err "Cannot determine value size for BTreeMap" | Some vs =>
  keys <- add64 ptr (keys_off nl) ;;
  vals <- add64 ptr (vals_off nl) ;;
  let kv (i : Z) : res (list (Z * Z)) :=
    if (0 <? ks) && (0 <? vs) then
      ko <- mul64 i ks ;; ka <- add64 keys ko ;;
      vo <- mul64 i vs ;; va <- add64 vals vo ;;
      Ok [(ka, va)]
    else Ok [] in
  match h with
  | O =>
      pairs_loop kv (Z.to_nat len) 0
  | S h' =>
      edges <- add64 ptr (edges_off nl) ;;
      let edge (i : Z) : res (list (Z * Z)) :=
        ea <- add64 edges (i * 8) ;;
        e <- read_address ea ;;
        if e =? 0 then Ok [] else btree_node h' e key val nl in
      edges_loop edge kv (Z.to_nat len) 0
  end end end.

(** data.rs 168-194: the control-byte loop of a HashMap; [slot] is the current slot address, [n] the entries
    found so far. *)
Fixpoint hash_slots (ctrl : list Z) (slot psz ko vo items n : Z) : res (list (Z * Z)) :=
  match ctrl with
  | [] => Ok []
  | c :: ctrl' =>
      if c <? 128 then
        ka <- add64 slot ko ;;
        va <- add64 slot vo ;;
        if items <=? n + 1 then Ok [(ka, va)]
        else slot' <- sub64 slot psz ;; r <- hash_slots ctrl' slot' psz ko vo items (n + 1) ;; Ok ((ka, va) :: r)
      else slot' <- sub64 slot psz ;; hash_slots ctrl' slot' psz ko vo items n
  end.

(** data.rs 122-256: read_map_entries, as (key address, value address); the types are the map's. *)
Definition read_map_entries (a : Z) (key val : tdef) (v : mapv) : res (list (Z * Z)) :=
  match v with
  | HashMap mask_off ctrl_off items_off psz ko vo =>
      mask_a <- add64 a mask_off ;;
      ctrl_a <- add64 a ctrl_off ;;
      items_a <- add64 a items_off ;;
      items <- read_u64 items_a ;;
      if items =? 0 then Ok [] else
      mask <- read_u64 mask_a ;;
      cap <- add64 mask 1 ;;
      ctrl <- read_address ctrl_a ;;
      slot <- sub64 ctrl psz ;;
      bytes <- rd E ctrl cap ;;
      hash_slots bytes slot psz ko vo items 0
  | BTreeMap length_off root_off node_off height_off nl =>
      la <- add64 a length_off ;;
      len <- read_u64 la ;;
      if len =? 0 then Ok [] else
      ra <- add64 a root_off ;;
      d <- read_u64 ra ;;
      if d =? 0 then Ok [] else
      na <- add64 ra node_off ;;
      ha <- add64 ra height_off ;;
      node <- read_address na ;;
      h <- read_u64 ha ;;
      btree_node (Z.to_nat h) node key val nl
  | IndexMap => Panic "not implemented"
  end.

(** data.rs 728-735: resolve_alias. *)
Definition resolve_alias (t : tdef) : res tdef :=
  match layOf t with LAlias _ => resolve E (locOf t) | _ => Ok t end.

(** data.rs 557-567, 604-613, 808-817: one pointer per element, advancing by the element size. *)
Fixpoint element_ptrs (n : nat) (a es : Z) (t : tdef) : res (list value) :=
  match n with
  | O => Ok []
  | S n' => a' <- add64 a es ;; r <- element_ptrs n' a' es t ;; Ok (VPtr a t :: r)
  end.

(** data.rs 491-518: extract_vec_info. *)
Definition extract_vec_info (a lo dpo : Z) : res (Z * Z) :=
  la <- add64 a lo ;;
  lb <- rd E la 8 ;;
  len <- (if Z.of_nat (List.length lb) =? 8 then Ok (le lb) else Err "Failed to read length for Vec") ;;
  pa <- add64 a dpo ;;
  p <- read_address pa ;;
  Ok (p, len).

(** [with_context(|| "inner type has unknown size")?] *)
Definition known_size (t : tdef) : res Z :=
  s <- tsize t ;; match s with Some s => Ok s | None => Err "inner type has unknown size" end.

Definition valid_char (u : Z) : bool := ((0 <=? u) && (u <=? 55295)) || ((57344 <=? u) && (u <=? 1114111)).

Definition bool_text (b : bool) : str := if b then st "true" else st "false".

Definition int_sizes : list Z := [1; 2; 4; 8; 16].
Definition mem_z (x : Z) (l : list Z) : bool := existsb (Z.eqb x) l.

(** data.rs 520-726: read_primitive_from_memory. [rec] is read_from_memory. *)
Definition read_primitive (rec : Z -> tdef -> res value) (a : Z) (l : layout) : res value :=
  match l with
  | LBool =>
      m <- rd E a 1 ;;
      match m with
      | b :: _ => Ok (VScalar (st "bool") (bool_text (negb (b =? 0))))
      | [] => Panic "index out of bounds"
      end
  | LChar =>
      m <- rd E a 4 ;; u <- le_unwrap 4 m ;;
      if valid_char u then Ok (VScalar (st "char") (st "'" ++ [Z.to_N u] ++ st "'"))
      else Err "Invalid char value"
  | LFunction _ _ => Ok (VScalar (display_name l) (st "fn at " ++ hex a))
  | LArray et len =>
      t <- resolve_alias et ;;
      es <- known_size t ;;
      vs <- element_ptrs (Z.to_nat len) a es t ;;
      Ok (VArray (st "[" ++ tname t ++ st "; " ++ usz len ++ st "]") vs)
  | LPointer _ p => b <- read_address a ;; v <- rec b p ;; Ok (prefix_type (st "*") v)
  | LReference _ p => b <- read_address a ;; v <- rec b p ;; Ok (prefix_type (st "&") v)
  | LSlice et dpo lo =>
      la <- add64 a lo ;;
      len <- read_u64 la ;;
      t <- resolve_alias et ;;
      es <- known_size t ;;
      pa <- add64 a dpo ;;
      p <- read_address pa ;;
      vs <- element_ptrs (Z.to_nat len) p es t ;;
      Ok (VArray (st "&[" ++ tname t ++ st "]") vs)
  | LStrSlice dpo lo =>
      pa <- add64 a dpo ;;
      la <- add64 a lo ;;
      p <- read_address pa ;;
      len <- read_u64 la ;;
      m <- rd E p len ;;
      Ok (VScalar (st "str") (ch """" :: lossy E m ++ [ch """"]))
  | LUInt s =>
      m <- rd E a s ;;
      if mem_z s int_sizes then u <- le_unwrap s m ;; Ok (VScalar (display_name l) (dec u))
      else Err "unsupported UnsignedIntDef size"
  | LFloat s =>
      m <- rd E a s ;;
      if (s =? 4) || (s =? 8) then _ <- le_unwrap s m ;; Ok (VScalar (display_name l) (float_text E s m))
      else Err "unsupported FloatDef size"
  | LInt s =>
      m <- rd E a s ;;
      if mem_z s int_sizes then u <- le_unwrap s m ;; Ok (VScalar (display_name l) (dec (signed s u)))
      else Err "unsupported IntDef size"
  | LNever => Ok (VScalar (st "Never") (st "unreachable"))
  | LStr => Panic "not implemented"
  | LTuple _ _ => Panic "not implemented"
  | LUnit => Ok (VScalar (st "()") (st "()"))
  | _ => Panic "not a primitive"
  end.

(** data.rs 737-766: read_option_from_memory. *)
Definition read_option (rec : Z -> tdef -> res value) (a : Z) (d : disc) (so : Z) (t : tdef) : res value :=
  da <- add64 a (d_off d) ;;
  m <- rd E da (disc_size d) ;;
  match m with
  | [] => Panic "index out of bounds"
  | b :: _ =>
      v <- (if b =? 0 then Ok (VScalar (tname t) (st "None"))
            else sa <- add64 a so ;; rec sa t) ;;
      Ok (wrap_type (st "Option") v)
  end.

(** data.rs 768-884: read_std_from_memory. *)
Definition read_std (rec : Z -> tdef -> res value) (a : Z) (l : layout) : res value :=
  match l with
  | LOption _ d so t _ => read_option rec a d so t
  | LVec lo dpo _ it =>
      t <- resolve_alias it ;;
      es <- known_size t ;;
      '(p, len) <- extract_vec_info a lo dpo ;;
      vs <- element_ptrs (Z.to_nat len) p es t ;;
      Ok (VArray (st "Vec<" ++ tname t ++ st ">") vs)
  | LString lo dpo _ _ =>
      la <- add64 a lo ;;
      lb <- rd E la 8 ;;
      len <- (if Z.of_nat (List.length lb) =? 8 then Ok (le lb) else Err "Failed to read length for Vec") ;;
      pa <- add64 a dpo ;;
      p <- read_address pa ;;
      m <- rd E p len ;;
      Ok (VScalar (st "String") (ch """" :: lossy E m ++ [ch """"]))
  | LMap k v mv =>
      es <- read_map_entries a k v mv ;;
      Ok (VMap (display_name l) (map (fun p => (VPtr (fst p) k, VPtr (snd p) v)) es))
  | LSmartPtr t io dpo sv =>
      match sv with
      | SMutex | SRefCell => b <- add64 a io ;; v <- rec b t ;; Ok (wrap_type (spv_name sv) v)
      | SBox => b <- read_address a ;; v <- rec b t ;; Ok (wrap_type (spv_name sv) v)
      | SRc | SArc =>
          ia <- add64 a io ;; inner <- read_address ia ;; da <- add64 inner dpo ;;
          v <- rec da t ;; Ok (wrap_type (spv_name sv) v)
      | _ => Panic "not implemented"
      end
  | LResult _ _ _ _ _ _ _ => Panic "not implemented"
  | _ => Panic "not a std type"
  end.

(** data.rs 274-318, 399-428: reading an integer discriminant of the declared type (1, 2, 4 or 8 bytes). *)
Definition read_disc_int (sgn : bool) (s a : Z) : res Z :=
  m <- rd E a s ;;
  if mem_z s [1; 2; 4; 8] then u <- le_unwrap s m ;; Ok (if sgn then signed s u else u)
  else Err "unsupported discriminant size".

(** data.rs 274-318. For [Implicit] the offset is added a second time (line 315). *)
Definition read_disc (a : Z) (d : disc) : res Z :=
  da <- add64 a (d_off d) ;;
  match d_ty d with
  | DInt s => read_disc_int true s da
  | DUInt s => read_disc_int false s da
  | DImplicit => da2 <- add64 da (d_off d) ;; m <- rd E da2 4 ;; u <- le_unwrap 4 m ;; Ok (signed 4 u)
  end.

(** data.rs 322-349: choosing the variant. *)
Definition select_variant (explicit : bool) (v : Z) (vs : list (str * option Z * tdef)) : res (str * option Z * tdef) :=
  let indexed := combine (map Z.of_nat (seq 0 (List.length vs))) vs in
  match find (fun p => if explicit then match snd (fst (snd p)) with Some x => x =? v | None => false end
                       else fst p =? v) indexed with
  | Some p => Ok (snd p)
  | None =>
      if explicit then
        match find (fun w => match snd (fst w) with None => true | Some _ => false end) vs with
        | Some w => Ok w
        | None => Err "No matching variant found"
        end
      else Err "No matching variant found"
  end.

(** data.rs 352-382: re-formatting the variant's struct value. *)
Definition variant_value (name vname : str) (inner : value) : value :=
  let ty := name ++ st "::" ++ vname in
  match inner with
  | VStruct _ fields =>
      match fields with
      | [] => VScalar ty vname
      | _ => if forallb (fun f => starts_with (fst f) (st "__")) fields
             then VTuple ty (map snd fields)
             else VStruct ty fields
      end
  | v => v
  end.

(** data.rs 258-383: read_enum. *)
Definition read_enum (rec : Z -> tdef -> res value) (a : Z) (name : str) (d : disc)
    (vs : list (str * option Z * tdef)) : res value :=
  v <- read_disc a d ;;
  w <- select_variant (match d_ty d with DImplicit => false | _ => true end) v vs ;;
  inner <- rec a (snd w) ;;
  Ok (variant_value name (fst (fst w)) inner).

(** data.rs 385-447: read_c_enum. *)
Definition read_c_enum (a : Z) (name : str) (d : dty) (vs : list (str * Z)) : res value :=
  v <- match d with
       | DInt s => read_disc_int true s a
       | DUInt s => read_disc_int false s a
       | DImplicit => Err "Implicit discriminant type is not supported yet"
       end ;;
  match find (fun w => snd w =? v) vs with
  | Some w => Ok (VScalar (name ++ st "::" ++ fst w) (dec v))
  | None => Err "No matching variant found"
  end.

(** data.rs 460-477: a struct is a map from field name to pointer; later fields replace earlier ones of
    the same name. *)
Fixpoint struct_fields (a : Z) (fs : list (str * Z * tdef)) (m : list (str * value)) : res (list (str * value)) :=
  match fs with
  | [] => Ok m
  | (n, o, t) :: fs' =>
      fa <- add64 a o ;;
      struct_fields a fs' (oinsert cmp_str n (VPtr fa t) m)
  end.

(** data.rs 449-488: read_from_memory. *)
Fixpoint read (fuel : nat) (a : Z) (t : tdef) : res value :=
  match fuel with
  | O => Fuel
  | S fuel' =>
      match layOf t with
      | LStruct n _ _ fs => m <- struct_fields a fs [] ;; Ok (VStruct n m)
      | LEnum n d vs _ => read_enum (read fuel') a n d vs
      | LCEnum n d vs _ => read_c_enum a n d vs
      | LAlias _ => u <- resolve E (locOf t) ;; read fuel' a u
      | LSmartPtr _ _ _ _ | LMap _ _ _ | LOption _ _ _ _ _ | LResult _ _ _ _ _ _ _ | LString _ _ _ _ | LVec _ _ _ _ =>
          read_std (read fuel') a (layOf t)
      | _ => read_primitive (read fuel') a (layOf t)
      end
  end.
End Read.
