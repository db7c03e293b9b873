(** Reading values, indexing, synthetic methods, variable locations and argument creation as the server runs them: every
    memory or register access is an event answered by the client (evaluator.rs 23-118: RemoteDataAccess), and the client
    may answer differently each time. The functions follow DataModel, AccessModel, SynthModel, LocModel and CreateModel,
    which model the same code for a fixed memory; IoDataProofs relates the two. *)
From Coq Require Import Ascii String List ZArith Lia Bool.
From Verif Require Import Base NumText OMap TypesModel ValueModel DataModel AccessModel SynthModel LocModel Utf8 CreateModel MemExample DataSpec ProcModel.
Import ListNotations.
Open Scope Z_scope.

(** What the debug information and the standard library provide. *)
Record ienv := IEnv { i_resolve : loc -> res tdef; i_lossy : list Z -> str; i_float : Z -> list Z -> str }.

(** evaluator.rs 52-61: read_memory. *)
Definition memory_of (a : answer) : res (list Z) :=
  match a with
  | Replied (MemoryData d) => Ok d
  | Replied (ErrorReply _) => Err "memory read failed"
  | Replied _ => Err "Unexpected response type for ReadMemory"
  | Broken m => Err m
  end.
Definition rdm (a n : Z) : io (list Z) := pbind (ask (ReadMemory a n)) (fun x => Ret (memory_of x)).
(** evaluator.rs 67-81: get_register; 63-65: get_stack_pointer. *)
Definition register_of (a : answer) : res Z :=
  match a with
  | Replied (RegisterData v) => Ok v
  | Replied (ErrorReply _) => Err "Register read failed"
  | Replied _ => Err "Unexpected response type for ReadRegisterByIndex"
  | Broken m => Err m
  end.
Definition iregister (r : Z) : io Z := pbind (ask (ReadRegisterByIndex r)) (fun x => Ret (register_of x)).
Definition no_stack_pointer : res Z := Err "get_stack_pointer() not implemented".
(** evaluator.rs 83-89: read_address. *)
Definition iread_address (a : Z) : io Z :=
  let! d := rdm a 8 in
  lift (if Z.of_nat (List.length d) =? 8 then Ok (le d) else Err "Failed to read address").
(** data.rs 141-142 etc.: read with [try_into().unwrap()]. *)
Definition iread_u64 (a : Z) : io Z := let! d := rdm a 8 in lift (le_unwrap 8 d).

(** data.rs 927-971. *)
Fixpoint iedges_loop (edge : Z -> io (list (Z * Z))) (kv : Z -> res (list (Z * Z))) (n : nat) (i : Z) : io (list (Z * Z)) :=
  let! sub := edge i in
  match n with
  | O => ret sub
  | S n' => let! p := lift (kv i) in let! r := iedges_loop edge kv n' (i + 1) in ret (sub ++ p ++ r)
  end.
(** data.rs 888-974: read_btree_node_entries. *)
Fixpoint ibtree_node (h : nat) (ptr : Z) (key val : tdef) (nl : bnode) {struct h} : io (list (Z * Z)) :=
  let! len_addr := lift (add64 ptr (len_off nl)) in
  let! lb := rdm len_addr 2 in
  let! len := lift (le_unwrap 2 lb) in
  let! ks := lift (tsize key) in
  match ks with None => fail "Cannot determine key size for BTreeMap" | Some ks =>
  let! vs := lift (tsize val) in
  match vs with None => fail "Cannot determine value size for BTreeMap" | Some vs =>
  let! keys := lift (add64 ptr (keys_off nl)) in
  let! vals := lift (add64 ptr (vals_off nl)) in
  let kv (i : Z) : res (list (Z * Z)) :=
    if (0 <? ks) && (0 <? vs) then
      ko <- mul64 i ks ;; ka <- add64 keys ko ;;
      vo <- mul64 i vs ;; va <- add64 vals vo ;;
      Ok [(ka, va)]
    else Ok [] in
  match h with
  | O => lift (pairs_loop kv (Z.to_nat len) 0)
  | S h' =>
      let! edges := lift (add64 ptr (edges_off nl)) in
      let edge (i : Z) : io (list (Z * Z)) :=
        let! ea := lift (add64 edges (i * 8)) in
        let! e := iread_address ea in
        if e =? 0 then ret [] else ibtree_node h' e key val nl in
      iedges_loop edge kv (Z.to_nat len) 0
  end end end.
(** data.rs 122-256: read_map_entries. *)
Definition iread_map_entries (a : Z) (key val : tdef) (v : mapv) : io (list (Z * Z)) :=
  match v with
  | HashMap mask_off ctrl_off items_off psz ko vo =>
      let! mask_a := lift (add64 a mask_off) in
      let! ctrl_a := lift (add64 a ctrl_off) in
      let! items_a := lift (add64 a items_off) in
      let! items := iread_u64 items_a in
      if items =? 0 then ret [] else
      let! mask := iread_u64 mask_a in
      let! cap := lift (add64 mask 1) in
      let! ctrl := iread_address ctrl_a in
      let! slot := lift (sub64 ctrl psz) in
      let! bytes := rdm ctrl cap in
      lift (hash_slots bytes slot psz ko vo items 0)
  | BTreeMap length_off root_off node_off height_off nl =>
      let! la := lift (add64 a length_off) in
      let! len := iread_u64 la in
      if len =? 0 then ret [] else
      let! ra := lift (add64 a root_off) in
      let! d := iread_u64 ra in
      if d =? 0 then ret [] else
      let! na := lift (add64 ra node_off) in
      let! ha := lift (add64 ra height_off) in
      let! node := iread_address na in
      let! h := iread_u64 ha in
      ibtree_node (Z.to_nat h) node key val nl
  | IndexMap => lift (Panic "not implemented")
  end.
(** data.rs 491-518: extract_vec_info. *)
Definition iextract_vec_info (a lo dpo : Z) : io (Z * Z) :=
  let! la := lift (add64 a lo) in
  let! lb := rdm la 8 in
  let! len := lift (if Z.of_nat (List.length lb) =? 8 then Ok (le lb) else Err "Failed to read length for Vec") in
  let! pa := lift (add64 a dpo) in
  let! p := iread_address pa in
  ret (p, len).

Section Read.
Variable E : ienv.
(** data.rs 728-735: resolve_alias. *)
Definition iresolve_alias (t : tdef) : res tdef :=
  match layOf t with LAlias _ => i_resolve E (locOf t) | _ => Ok t end.
(** data.rs 520-726: read_primitive_from_memory. *)
Definition iread_primitive (rec : Z -> tdef -> io value) (a : Z) (l : layout) : io value :=
  match l with
  | LBool =>
      let! m := rdm a 1 in
      lift (match m with
            | b :: _ => Ok (VScalar (st "bool") (bool_text (negb (b =? 0))))
            | [] => Panic "index out of bounds"
            end)
  | LChar =>
      let! m := rdm a 4 in
      lift (u <- le_unwrap 4 m ;;
            if valid_char u then Ok (VScalar (st "char") (st "'" ++ [Z.to_N u] ++ st "'"))
            else Err "Invalid char value")
  | LFunction _ _ => ret (VScalar (display_name l) (st "fn at " ++ hex a))
  | LArray et len =>
      lift (t <- iresolve_alias et ;;
            es <- known_size t ;;
            vs <- element_ptrs (Z.to_nat len) a es t ;;
            Ok (VArray (st "[" ++ tname t ++ st "; " ++ usz len ++ st "]") vs))
  | LPointer _ p => let! b := iread_address a in let! v := rec b p in ret (prefix_type (st "*") v)
  | LReference _ p => let! b := iread_address a in let! v := rec b p in ret (prefix_type (st "&") v)
  | LSlice et dpo lo =>
      let! la := lift (add64 a lo) in
      let! len := iread_u64 la in
      let! t := lift (iresolve_alias et) in
      let! es := lift (known_size t) in
      let! pa := lift (add64 a dpo) in
      let! p := iread_address pa in
      lift (vs <- element_ptrs (Z.to_nat len) p es t ;; Ok (VArray (st "&[" ++ tname t ++ st "]") vs))
  | LStrSlice dpo lo =>
      let! pa := lift (add64 a dpo) in
      let! la := lift (add64 a lo) in
      let! p := iread_address pa in
      let! len := iread_u64 la in
      let! m := rdm p len in
      ret (VScalar (st "str") (ch """" :: i_lossy E m ++ [ch """"]))
  | LUInt s =>
      let! m := rdm a s in
      lift (if mem_z s int_sizes then u <- le_unwrap s m ;; Ok (VScalar (display_name l) (dec u))
            else Err "unsupported UnsignedIntDef size")
  | LFloat s =>
      let! m := rdm a s in
      lift (if (s =? 4) || (s =? 8) then _ <- le_unwrap s m ;; Ok (VScalar (display_name l) (i_float E s m))
            else Err "unsupported FloatDef size")
  | LInt s =>
      let! m := rdm a s in
      lift (if mem_z s int_sizes then u <- le_unwrap s m ;; Ok (VScalar (display_name l) (dec (signed s u)))
            else Err "unsupported IntDef size")
  | LNever => ret (VScalar (st "Never") (st "unreachable"))
  | LStr => lift (Panic "not implemented")
  | LTuple _ _ => lift (Panic "not implemented")
  | LUnit => ret (VScalar (st "()") (st "()"))
  | _ => lift (Panic "not a primitive")
  end.
(** data.rs 737-766: read_option_from_memory. *)
Definition iread_option (rec : Z -> tdef -> io value) (a : Z) (d : disc) (so : Z) (t : tdef) : io value :=
  let! da := lift (add64 a (d_off d)) in
  let! m := rdm da (disc_size d) in
  match m with
  | [] => lift (Panic "index out of bounds")
  | b :: _ =>
      let! v := (if b =? 0 then ret (VScalar (tname t) (st "None"))
                 else let! sa := lift (add64 a so) in rec sa t) in
      ret (wrap_type (st "Option") v)
  end.
(** data.rs 768-884: read_std_from_memory. *)
Definition iread_std (rec : Z -> tdef -> io value) (a : Z) (l : layout) : io value :=
  match l with
  | LOption _ d so t _ => iread_option rec a d so t
  | LVec lo dpo _ it =>
      let! t := lift (iresolve_alias it) in
      let! es := lift (known_size t) in
      let! ' (p, len) := iextract_vec_info a lo dpo in
      lift (vs <- element_ptrs (Z.to_nat len) p es t ;; Ok (VArray (st "Vec<" ++ tname t ++ st ">") vs))
  | LString lo dpo _ _ =>
      let! la := lift (add64 a lo) in
      let! lb := rdm la 8 in
      let! len := lift (if Z.of_nat (List.length lb) =? 8 then Ok (le lb) else Err "Failed to read length for Vec") in
      let! pa := lift (add64 a dpo) in
      let! p := iread_address pa in
      let! m := rdm p len in
      ret (VScalar (st "String") (ch """" :: i_lossy E m ++ [ch """"]))
  | LMap k v mv =>
      let! es := iread_map_entries a k v mv in
      ret (VMap (display_name l) (map (fun p => (VPtr (fst p) k, VPtr (snd p) v)) es))
  | LSmartPtr t io dpo sv =>
      match sv with
      | SMutex | SRefCell => let! b := lift (add64 a io) in let! v := rec b t in ret (wrap_type (spv_name sv) v)
      | SBox => let! b := iread_address a in let! v := rec b t in ret (wrap_type (spv_name sv) v)
      | SRc | SArc =>
          let! ia := lift (add64 a io) in let! inner := iread_address ia in let! da := lift (add64 inner dpo) in
          let! v := rec da t in ret (wrap_type (spv_name sv) v)
      | _ => lift (Panic "not implemented")
      end
  | LResult _ _ _ _ _ _ _ => lift (Panic "not implemented")
  | _ => lift (Panic "not a std type")
  end.
(** data.rs 274-318, 399-428. *)
Definition iread_disc_int (sgn : bool) (s a : Z) : io Z :=
  let! m := rdm a s in
  lift (if mem_z s [1; 2; 4; 8] then u <- le_unwrap s m ;; Ok (if sgn then signed s u else u)
        else Err "unsupported discriminant size").
Definition iread_disc (a : Z) (d : disc) : io Z :=
  let! da := lift (add64 a (d_off d)) in
  match d_ty d with
  | DInt s => iread_disc_int true s da
  | DUInt s => iread_disc_int false s da
  | DImplicit => let! da2 := lift (add64 da (d_off d)) in let! m := rdm da2 4 in lift (u <- le_unwrap 4 m ;; Ok (signed 4 u))
  end.
(** data.rs 258-383: read_enum. *)
Definition iread_enum (rec : Z -> tdef -> io value) (a : Z) (name : str) (d : disc)
    (vs : list (str * option Z * tdef)) : io value :=
  let! v := iread_disc a d in
  let! w := lift (select_variant (match d_ty d with DImplicit => false | _ => true end) v vs) in
  let! inner := rec a (snd w) in
  ret (variant_value name (fst (fst w)) inner).
(** data.rs 385-447: read_c_enum. *)
Definition iread_c_enum (a : Z) (name : str) (d : dty) (vs : list (str * Z)) : io value :=
  let! v := match d with
            | DInt s => iread_disc_int true s a
            | DUInt s => iread_disc_int false s a
            | DImplicit => fail "Implicit discriminant type is not supported yet"
            end in
  lift (match find (fun w => snd w =? v) vs with
        | Some w => Ok (VScalar (name ++ st "::" ++ fst w) (dec v))
        | None => Err "No matching variant found"
        end).
(** data.rs 449-488: read_from_memory (debug_info.rs 469-476: read_pointer). *)
Fixpoint iread (fuel : nat) (a : Z) (t : tdef) : io value :=
  match fuel with
  | O => lift Fuel
  | S fuel' =>
      match layOf t with
      | LStruct n _ _ fs => lift (m <- struct_fields a fs [] ;; Ok (VStruct n m))
      | LEnum n d vs _ => iread_enum (iread fuel') a n d vs
      | LCEnum n d vs _ => iread_c_enum a n d vs
      | LAlias _ => let! u := lift (i_resolve E (locOf t)) in iread fuel' a u
      | LSmartPtr _ _ _ _ | LMap _ _ _ | LOption _ _ _ _ _ | LResult _ _ _ _ _ _ _ | LString _ _ _ _ | LVec _ _ _ _ =>
          iread_std (iread fuel') a (layOf t)
      | _ => iread_primitive (iread fuel') a (layOf t)
      end
  end.

(** debug_info.rs 570-667: index_array_or_slice. *)
Definition iindex_int (fuel : nat) (a : Z) (t : tdef) (i : Z) : io tptr :=
  match layOf t with
  | LArray et n => lift (if n <=? i then Err "Index out of bounds" else element_at a i et)
  | LSlice et _ _ =>
      let! v := iread fuel a t in
      lift (' (p, n) <- extract_slice_info v ;; if n <=? i then Err "Index out of bounds" else element_at p i et)
  | LVec lo dpo _ it =>
      let! ' (p, n) := iextract_vec_info a lo dpo in
      lift (if n <=? i then Err "Index out of bounds" else element_at p i it)
  | _ => fail "Cannot index by integer"
  end.
(** debug_info.rs 697-737: index_map. *)
Fixpoint ifind_key (fuel : nat) (kt vt : tdef) (key : value) (es : list (Z * Z)) : io tptr :=
  match es with
  | [] => fail "Key not found in map"
  | (ka, va) :: es' =>
      let! k := iread fuel ka kt in
      if values_equal key k then ret (va, vt) else ifind_key fuel kt vt key es'
  end.
Definition iindex_map (fuel : nat) (a : Z) (t : tdef) (key : value) : io tptr :=
  match layOf t with
  | LMap kt vt mv => let! es := iread_map_entries a kt vt mv in ifind_key fuel kt vt key es
  | _ => fail "Value-based indexing not supported"
  end.
End Read.

(** synthetic_methods.rs 181-486. *)
Definition iusize_at (a off : Z) : io Z :=
  let! la := lift (add64 a off) in let! bs := rdm la 8 in lift (usize_from_bytes bs).
Definition ivec_method (a lo co : Z) (m : str) : io value :=
  if str_eqb m (st "len") then let! n := iusize_at a lo in ret (vusize n)
  else if str_eqb m (st "capacity") then let! n := iusize_at a co in ret (vusize n)
  else if str_eqb m (st "is_empty") then let! n := iusize_at a lo in ret (vbool (n =? 0))
  else fail "Unknown synthetic method".
Definition istring_method (a lo co : Z) (m : str) : io value :=
  if str_eqb m (st "len") then ivec_method a lo co (st "len")
  else if str_eqb m (st "is_empty") then ivec_method a lo co (st "is_empty")
  else if str_eqb m (st "capacity") then ivec_method a lo co (st "capacity")
  else fail "Unknown synthetic method".
Definition idisc_value (a : Z) (d : disc) : io (Z * Z) :=
  let! da := lift (add64 a (d_off d)) in
  let! bs := rdm da (disc_size d) in
  let n := Z.of_nat (List.length bs) in
  lift (if mem_z n [1; 2; 4; 8] then Ok (le bs, n) else Err "Unexpected discriminant size").
Definition ioption_method (a : Z) (d : disc) (m : str) : io value :=
  let! ' (v, _) := idisc_value a d in
  lift (if str_eqb m (st "is_some") then Ok (vbool (negb (v =? 0)))
        else if str_eqb m (st "is_none") then Ok (vbool (v =? 0))
        else Err "Unknown synthetic method").
Definition iresult_method (a : Z) (d : disc) (m : str) : io value :=
  let! ' (v, n) := idisc_value a d in
  let ok := if n =? 8 then negb (Z.testbit v 63) else if n =? 4 then negb (Z.testbit v 31) else v =? 0 in
  let er := if n =? 8 then Z.testbit v 63 else if n =? 4 then Z.testbit v 31 else negb (v =? 0) in
  lift (if str_eqb m (st "is_ok") then Ok (vbool ok)
        else if str_eqb m (st "is_err") then Ok (vbool er)
        else Err "Unknown synthetic method").
Definition islice_method (a : Z) (m : str) : io value :=
  if str_eqb m (st "len") then let! n := iusize_at a 8 in ret (vusize n)
  else if str_eqb m (st "is_empty") then let! n := iusize_at a 8 in ret (vbool (n =? 0))
  else fail "Unknown synthetic method".
Definition isynthetic (a : Z) (l : layout) (m : str) : io value :=
  match l with
  | LVec lo _ co _ => ivec_method a lo co m
  | LString lo _ co _ => istring_method a lo co m
  | LOption _ d _ _ _ => ioption_method a d m
  | LResult _ d _ _ _ _ _ => iresult_method a d m
  | LMap _ _ _ => lift (map_method m)
  | LSlice _ _ _ => islice_method a m
  | LStrSlice _ _ => islice_method a m
  | LArray _ n => lift (array_method n m)
  | _ => fail "No synthetic method"
  end.

(** expressions.rs 33-154: the address of a variable; the registers are the client's. *)
Fixpoint irun (answer : query -> io Z) (ops : list dop) (stack : list Z) (pieces : list location) : io (list location) :=
  match ops with
  | [] => lift (match pieces with
                | [] => match stack with a :: _ => Ok [LocAddress (wrap a)] | [] => Err "NotEnoughStackItems" end
                | _ => Ok (rev pieces)
                end)
  | o :: ops' =>
      let complete l :=
        match ops' with
        | [] => lift (match pieces with [] => Ok [l] | _ => Err "InvalidPiece" end)
        | OPiece _ :: ops'' => irun answer ops'' stack (l :: pieces)
        | _ => fail "InvalidExpressionTerminator"
        end in
      match o with
      | OFbreg off => let! b := answer QFrameBase in irun answer ops' (wrap (b + off) :: stack) pieces
      | OBreg r off => let! b := answer (QRegister r) in irun answer ops' (wrap (b + off) :: stack) pieces
      | OAddr a => let! b := answer (QRelocate a) in irun answer ops' (wrap b :: stack) pieces
      | OCallFrameCfa => let! b := answer QCfa in irun answer ops' (wrap b :: stack) pieces
      | OLit n => irun answer ops' (wrap n :: stack) pieces
      | OPlusUconst n => match stack with a :: s => irun answer ops' (wrap (a + n) :: s) pieces | [] => fail "NotEnoughStackItems" end
      | OReg r => complete (LocRegister r)
      | OStackValue => match stack with a :: _ => complete (LocValue a) | [] => fail "NotEnoughStackItems" end
      | OPiece _ => match stack with a :: s => irun answer ops' s (LocAddress (wrap a) :: pieces) | [] => irun answer ops' [] (LocEmpty :: pieces) end
      | OOther => let! b := answer QOther in irun answer ops' (wrap b :: stack) pieces
      end
  end.
(** expressions.rs 39-89: get_function_frame_base. *)
Definition iframe_base (expr : option (list dop)) : io Z :=
  match expr with
  | None => fail "Failed to get location expression for function"
  | Some ops =>
      let! l := irun (fun q => match q with QCfa => lift no_stack_pointer | _ => lift (Panic "handle incomplete evaluation") end) ops [] [] in
      match l with
      | [LocAddress a] => ret a
      | [LocRegister r] => iregister r
      | [_] => fail "Unexpected location type for frame base"
      | _ => lift (Panic "assertion failed")
      end
  end.
(** expressions.rs 92-155: resolve_data_location. *)
Definition iresolve_data_location (fb : option (list dop)) (base_address : Z) (expr : option (list dop)) : io (option Z) :=
  match expr with
  | None => ret None
  | Some ops =>
      let! l := irun (fun q => match q with
                         | QFrameBase => iframe_base fb
                         | QRegister r => iregister r
                         | QRelocate a => lift (add64 base_address a)
                         | _ => lift (Panic "handle incomplete evaluation")
                         end) ops [] [] in
      lift (match l with
            | [LocAddress a] => Ok (Some a)
            | [_] => Panic "handle location"
            | _ => Panic "support multiple pieces"
            end)
  end.

(** evaluator.rs 91-117: allocate_memory, write_memory. *)
Definition allocated_of (a : answer) : res Z :=
  match a with
  | Replied (MemoryAllocated x) => Ok x
  | Replied (ErrorReply _) => Err "Memory allocation failed"
  | Replied _ => Err "Unexpected response type for AllocateMemory"
  | Broken m => Err m
  end.
Definition ialloc (n : Z) : io Z := pbind (ask (AllocateMemory n)) (fun x => Ret (allocated_of x)).
Definition written_of (a : answer) : res unit :=
  match a with
  | Replied MemoryWritten => Ok tt
  | Replied (ErrorReply _) => Err "Memory write failed"
  | Replied _ => Err "Unexpected response type for WriteMemory"
  | Broken m => Err m
  end.
Definition iwrite (a : Z) (d : list Z) : io unit := pbind (ask (WriteMemory a d)) (fun x => Ret (written_of x)).
(** debug_info.rs 866-997: create_str_slice_with_layout. *)
Definition icreate_str_slice (v : str) (dpo lo : Z) : io Z :=
  let bytes := utf8 v in
  let data_size := Z.of_nat (List.length bytes) in
  if (16 <? dpo) || (16 <? lo) then fail "Invalid StrSliceLayout" else
  let! base := ialloc (data_size + 16) in
  let! _ := iwrite base bytes in
  let! fat := lift (add64 base data_size) in
  let! pa := lift (add64 fat dpo) in
  let! _ := iwrite pa (encode 8 base) in
  let! la := lift (add64 fat lo) in
  let! _ := iwrite la (encode 8 data_size) in
  let! pb := rdm pa 8 in
  let! lb := rdm la 8 in
  let! rp := lift (le_unwrap 8 pb) in
  let! rl := lift (le_unwrap 8 lb) in
  if negb (rp =? base) then fail "data pointer mismatch" else
  if negb (rl =? data_size) then fail "length mismatch" else
  if 1048576 <? rl then fail "suspiciously large" else
  let! sb := rdm rp rl in
  if negb (str_eqb (utf8_lossy sb) v) then fail "string data mismatch" else
  ret fat.
(** debug_info.rs 1000-1078: create_owned_string_with_layout. *)
Definition icreate_string (v : str) (lo dpo co : Z) (it : tdef) : io Z :=
  let bytes := utf8 v in
  let n := Z.of_nat (List.length bytes) in
  let! content := ialloc n in
  let! _ := iwrite content bytes in
  let! sz := lift (s <- size (LString lo dpo co it) ;;
               match s with Some s => Ok s | None => Err "Could not determine String struct size from layout" end) in
  let! sa := ialloc sz in
  let! _ := iwrite sa (repeat 0 (Z.to_nat sz)) in
  let! la := lift (add64 sa lo) in
  let! _ := iwrite la (encode 8 n) in
  let! pa := lift (add64 sa dpo) in
  let! _ := iwrite pa (encode 8 content) in
  let! ca := lift (add64 sa co) in
  let! _ := iwrite ca (encode 8 n) in
  ret sa.
(** debug_info.rs 842-863: create_typed_value. *)
Definition icreate_typed_value (v : str) (t : tdef) : io Z :=
  match layOf t with
  | LStrSlice dpo lo => icreate_str_slice v dpo lo
  | LString lo dpo co it => icreate_string v lo dpo co it
  | _ => fail "Cannot convert string literal"
  end.
