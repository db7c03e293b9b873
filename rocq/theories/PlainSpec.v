(** What a place shows, from the bytes of the target (for C110): integers, booleans, characters, floating point numbers, structs,
    enums, arrays, slices, vectors, strings, maps, options, references and smart pointers to them; user types nested in other
    types by the debug entry that declares them. *)
From Coq Require Import Ascii String List ZArith Lia Bool Sorted Permutation.
From Verif Require Import Base NumText OMap TypesModel ValueModel DataModel DataSpec FormatSpec ParserModel ResolveSpec FnProps WireProps.
From Verif Require Import DataSpec ParserModel Utf8.
Import ListNotations.
Open Scope Z_scope.

(** Fields of a struct: name, offset, type. *)
Definition f_name (f : str * Z * tdef) : str := fst (fst f).
Definition f_offset (f : str * Z * tdef) : Z := snd (fst f).
Definition f_type (f : str * Z * tdef) : tdef := snd f.
Definition by_name (f g : str * Z * tdef) : Prop := cmp_str (f_name f) (f_name g) = Lt.
(** The same value under another type name. *)
Definition retyped (g : str -> str) (w : value) : value :=
  match w with
  | VScalar ty x => VScalar (g ty) x
  | VArray ty l => VArray (g ty) l
  | VStruct ty l => VStruct (g ty) l
  | VTuple ty l => VTuple (g ty) l
  | VMap ty l => VMap (g ty) l
  | VPtr a t => VPtr a t
  end.
(** The value behind a reference, behind a raw pointer, and in a standard container. *)
Definition behind_ref : value -> value := retyped (fun ty => st "&" ++ ty).
Definition behind_ptr : value -> value := retyped (fun ty => st "*" ++ ty).
Definition inside (container : str) : value -> value := retyped (fun ty => container ++ st "<" ++ ty ++ st ">").
Definition quoted (x : str) : str := st """" ++ x ++ st """".
(** A field of a tuple, by its name. *)
Definition positional (n : str) : Prop := exists r, n = st "__" ++ r.
(** How a variant is shown, from its fields. *)
Inductive variant_shown (ty name : str) : list (str * value) -> value -> Prop :=
| vs_unit : variant_shown ty name [] (VScalar (ty ++ st "::" ++ name) name)
| vs_tuple ws : ws <> [] -> Forall (fun w => positional (fst w)) ws -> variant_shown ty name ws (VTuple (ty ++ st "::" ++ name) (map snd ws))
| vs_struct ws : Exists (fun w => ~ positional (fst w)) ws -> variant_shown ty name ws (VStruct (ty ++ st "::" ++ name) ws).

(** The entries of a map (DataSpec), as the addresses of keys and values, in the order the map is read. *)
Inductive entries (m : memory) (a : Z) (k vt : tdef) : mapv -> list (Z * Z) -> Prop :=
| en_hash mo co io psz ko vo cp ctrl : hash_stored m a mo co io psz ko vo (Z.of_nat (List.length (occupied ctrl))) cp ctrl ->
    entries m a k vt (HashMap mo co io psz ko vo) (map (bucket cp psz ko vo) (occupied ctrl))
| en_btree lo ro no ho nl ks vs len d h t : tsize k = Ok (Some ks) -> tsize vt = Ok (Some vs) -> 0 < ks -> 0 < vs -> u64 (a + lo) -> u64 (a + ro) -> u64 (a + ro + no) -> u64 (a + ro + ho) ->
    holds_uint m (a + lo) 8 len -> len <> 0 -> holds_uint m (a + ro) 8 d -> d <> 0 -> holds_uint m (a + ro + no) 8 (bt_ptr t) -> holds_uint m (a + ro + ho) 8 (Z.of_nat h) ->
    bt_stored m nl ks vs h t -> entries m a k vt (BTreeMap lo ro no ho nl) (inorder nl ks vs t)
| en_no_btree lo ro no ho nl : u64 (a + lo) -> holds_uint m (a + lo) 8 0 -> entries m a k vt (BTreeMap lo ro no ho nl) [].

(** [found v floats m j a ty w]: at address [a], seen as [ty], the memory [m] holds [w]; [j]: levels of nesting that are shown
    (every struct, array, map or variant with fields takes two). Struct fields are listed in the order of their names; [floats]
    shows the bytes of a floating point number. *)
Inductive found (v : env) (floats : Z -> list Z -> str) (m : memory) : nat -> Z -> tdef -> value -> Prop :=
| fo_unsigned j a ty w x : layOf ty = LUInt w -> In w [1; 2; 4; 8; 16] -> u64 a -> holds_uint m a w x -> found v floats m j a ty (VScalar (st "u" ++ dec (8 * w)) (dec x))
| fo_signed j a ty w x : layOf ty = LInt w -> In w [1; 2; 4; 8; 16] -> u64 a -> holds_int m a w x -> found v floats m j a ty (VScalar (st "i" ++ dec (8 * w)) (dec x))
| fo_bool j a ty b : layOf ty = LBool -> u64 a -> holds_uint m a 1 b -> found v floats m j a ty (VScalar (st "bool") (if b =? 0 then st "false" else st "true"))
| fo_char j a ty c : layOf ty = LChar -> u64 a -> scalar c -> holds_uint m a 4 (Z.of_N c) -> found v floats m j a ty (VScalar (st "char") (st "'" ++ [c] ++ st "'"))
| fo_float j a ty w bytes : layOf ty = LFloat w -> In w [4; 8] -> u64 a -> holds m a bytes -> Z.of_nat (List.length bytes) = w ->
    found v floats m j a ty (VScalar (st "f" ++ dec (8 * w)) (floats w bytes))
| fo_unit j a ty : layOf ty = LUnit -> found v floats m j a ty (VScalar (st "()") (st "()"))
| fo_struct j a ty n s al fs sorted ws : layOf ty = LStruct n s al fs -> Permutation fs sorted -> StronglySorted by_name sorted ->
    Forall2 (fun f w => fst w = f_name f /\ u64 (a + f_offset f) /\ found v floats m j (a + f_offset f) (f_type f) (snd w)) sorted ws ->
    found v floats m (S (S j)) a ty (VStruct n ws)
| fo_array j a ty et t len size ws : layOf ty = LArray et (Z.of_nat len) -> complete_type v et t -> tsize t = Ok (Some size) -> 0 <= size -> u64 a -> u64 (a + Z.of_nat len * size) ->
    Forall2 (fun i w => found v floats m j (a + Z.of_nat i * size) t w) (seq 0 len) ws ->
    found v floats m (S (S j)) a ty (VArray (st "[" ++ tname t ++ st "; " ++ dec (Z.of_nat len) ++ st "]") ws)
| fo_slice j a ty et dpo lo t base len size ws : layOf ty = LSlice et dpo lo -> u64 (a + lo) -> u64 (a + dpo) -> holds_uint m (a + lo) 8 (Z.of_nat len) -> holds_uint m (a + dpo) 8 base ->
    complete_type v et t -> tsize t = Ok (Some size) -> 0 <= size -> u64 (base + Z.of_nat len * size) ->
    Forall2 (fun i w => found v floats m j (base + Z.of_nat i * size) t w) (seq 0 len) ws ->
    found v floats m (S (S j)) a ty (VArray (st "&[" ++ tname t ++ st "]") ws)
| fo_vec j a ty lo dpo co et t base len size ws : layOf ty = LVec lo dpo co et -> u64 (a + lo) -> u64 (a + dpo) -> holds_uint m (a + lo) 8 (Z.of_nat len) -> holds_uint m (a + dpo) 8 base ->
    complete_type v et t -> tsize t = Ok (Some size) -> 0 <= size -> u64 (base + Z.of_nat len * size) ->
    Forall2 (fun i w => found v floats m j (base + Z.of_nat i * size) t w) (seq 0 len) ws ->
    found v floats m (S (S j)) a ty (VArray (st "Vec<" ++ tname t ++ st ">") ws)
| fo_str j a ty dpo lo base x : layOf ty = LStrSlice dpo lo -> u64 (a + lo) -> u64 (a + dpo) -> holds_uint m (a + lo) 8 (Z.of_nat (List.length (utf8 x))) -> holds_uint m (a + dpo) 8 base ->
    text x -> x <> [] -> holds m base (utf8 x) -> found v floats m j a ty (VScalar (st "str") (quoted x))
| fo_string j a ty lo dpo co et base x : layOf ty = LString lo dpo co et -> u64 (a + lo) -> u64 (a + dpo) -> holds_uint m (a + lo) 8 (Z.of_nat (List.length (utf8 x))) -> holds_uint m (a + dpo) 8 base ->
    text x -> x <> [] -> holds m base (utf8 x) -> found v floats m j a ty (VScalar (st "String") (quoted x))
| fo_declared j a ty n h t w : layOf ty = LAlias n -> locOf ty = Some h -> resolves_fully v h t -> found v floats m j a t w -> found v floats m j a ty w
| fo_reference j a ty mu t p w : layOf ty = LReference mu t -> u64 a -> holds_uint m a 8 p -> found v floats m j p t w -> found v floats m j a ty (behind_ref w)
| fo_pointer j a ty mu t p w : layOf ty = LPointer mu t -> u64 a -> holds_uint m a 8 p -> found v floats m j p t w -> found v floats m j a ty (behind_ptr w)
| fo_none j a ty n d so t s : layOf ty = LOption n d so t s -> u64 (a + d_off d) -> In (disc_size d) [1; 2; 4; 8] -> holds_uint m (a + d_off d) (disc_size d) 0 ->
    found v floats m j a ty (VScalar (st "Option<" ++ tname t ++ st ">") (st "None"))
| fo_some j a ty n d so t s x w : layOf ty = LOption n d so t s -> u64 (a + d_off d) -> In (disc_size d) [1; 2; 4; 8] -> holds_uint m (a + d_off d) (disc_size d) x -> x mod 256 <> 0 -> u64 (a + so) ->
    found v floats m j (a + so) t w -> found v floats m j a ty (inside (st "Option") w)
| fo_box j a ty t io dpo p w : layOf ty = LSmartPtr t io dpo SBox -> u64 a -> holds_uint m a 8 p -> found v floats m j p t w -> found v floats m j a ty (inside (st "Box") w)
| fo_rc j a ty t io dpo p w : layOf ty = LSmartPtr t io dpo SRc -> u64 (a + io) -> holds_uint m (a + io) 8 p -> u64 (p + dpo) -> found v floats m j (p + dpo) t w -> found v floats m j a ty (inside (st "Rc") w)
| fo_arc j a ty t io dpo p w : layOf ty = LSmartPtr t io dpo SArc -> u64 (a + io) -> holds_uint m (a + io) 8 p -> u64 (p + dpo) -> found v floats m j (p + dpo) t w -> found v floats m j a ty (inside (st "Arc") w)
| fo_mutex j a ty t io dpo w : layOf ty = LSmartPtr t io dpo SMutex -> u64 (a + io) -> found v floats m j (a + io) t w -> found v floats m j a ty (inside (st "Mutex") w)
| fo_refcell j a ty t io dpo w : layOf ty = LSmartPtr t io dpo SRefCell -> u64 (a + io) -> found v floats m j (a + io) t w -> found v floats m j a ty (inside (st "RefCell") w)
| fo_c_variant j a ty n d vs s x c : layOf ty = LCEnum n d vs s -> u64 a -> holds_disc m a d x -> is_first (fun y => snd y = x) vs c ->
    found v floats m j a ty (VScalar (n ++ st "::" ++ fst c) (dec x))
| fo_variant j a ty n d vs s x c t sn ss sal fs sorted ws w : layOf ty = LEnum n d vs s -> u64 (a + d_off d) -> holds_disc m (a + d_off d) (d_ty d) x -> active vs x c ->
    complete_type v (v_type c) t -> layOf t = LStruct sn ss sal fs -> Permutation fs sorted -> StronglySorted by_name sorted ->
    Forall2 (fun f w => fst w = f_name f /\ u64 (a + f_offset f) /\ found v floats m j (a + f_offset f) (f_type f) (snd w)) sorted ws ->
    variant_shown n (v_name c) ws w -> found v floats m (S (S j)) a ty w
| fo_map j a ty k vt mv es ws : layOf ty = LMap k vt mv -> entries m a k vt mv es ->
    Forall2 (fun e w => found v floats m j (fst e) k (fst w) /\ found v floats m j (snd e) vt (snd w)) es ws ->
    found v floats m (S (S j)) a ty (VMap (tname ty) ws).
(** The debugger reads what the memory holds (nothing is said of reads of no bytes). *)
Definition served (read : Z -> Z -> option (list Z)) (m : memory) : Prop := forall a bs, bs <> [] -> holds m a bs -> read a (Z.of_nat (List.length bs)) = Some bs.
