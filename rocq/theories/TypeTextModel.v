(** Model of the type-name parser of crates/rudy-parser/src/types.rs (8-327, 329-362, 440-831) and of
    TypeName::parse (crates/rudy-dwarf/src/symbols/names.rs 58-100).

    The parser is written with the unsynn 0.1 combinators over proc_macro2 token trees; their behaviour is modelled from
    their documentation: an enum tries its variants in order and keeps the first that parses, every attempt is rolled back
    on failure, [Optional] never fails, [DelimitedVec] reads values until one is not followed by the delimiter (zero values
    are allowed, and so is a trailing delimiter), a group must be consumed completely by its contents. What a parser error
    says is dropped. *)
From Coq Require Import Ascii String List ZArith NArith Lia Bool.
From Verif Require Import Base NumText TypesModel.
Import ListNotations.
Open Scope Z_scope.

(** ** proc_macro2 token trees. A punctuation mark knows whether another one follows it immediately. *)
Inductive delim := Par | Brack | Brace.
Inductive tree :=
| TId (s : str)
| TLit (s : str)
| TP (c : char) (joint : bool)
| TG (d : delim) (ts : list tree).
Inductive lexeme := LxId (s : str) | LxLit (s : str) | LxP (c : char) (joint : bool) | LxOpen (d : delim) | LxClose (d : delim).

(** Library behaviour (proc_macro2's lexer), restricted to ASCII identifiers, integer literals, punctuation, brackets
    and white space. Strings, characters, lifetimes, floats, comments, raw and non-ASCII identifiers are outside the
    model ([Panic]; in the code to_token_iter, types.rs 441, panics on text that has no tokens at all). *)
Definition is_upper (c : char) : bool := ((65 <=? c) && (c <=? 90))%N.
Definition is_lower (c : char) : bool := ((97 <=? c) && (c <=? 122))%N.
Definition is_word (c : char) : bool := is_upper c || is_lower c || is_digit c || N.eqb c 95.
Definition is_space (c : char) : bool := existsb (N.eqb c) [32; 10; 9; 13]%N.
Definition is_punct (c : char) : bool := existsb (N.eqb c) (st "~!@#$%^&*-=+|;:,<.>?").
Definition next_punct (s : str) : bool := match s with c :: _ => is_punct c | [] => false end.
Definition word_lexeme (w : str) : lexeme :=
  match w with c :: _ => if is_digit c then LxLit w else LxId w | [] => LxId w end.
Definition flush (w : str) : list lexeme := match w with [] => [] | _ => [word_lexeme w] end.
Definition open_of (c : char) : option delim :=
  if N.eqb c 40 then Some Par else if N.eqb c 91 then Some Brack else if N.eqb c 123 then Some Brace else None.
Definition close_of (c : char) : option delim :=
  if N.eqb c 41 then Some Par else if N.eqb c 93 then Some Brack else if N.eqb c 125 then Some Brace else None.
Fixpoint lx (s w : str) : res (list lexeme) :=
  match s with
  | [] => Ok (flush w)
  | c :: s' =>
    if is_word c then lx s' (w ++ [c])
    else if is_space c then rmap (app (flush w)) (lx s' [])
    else if is_punct c then rmap (app (flush w ++ [LxP c (next_punct s')])) (lx s' [])
    else match open_of c with
         | Some d => rmap (app (flush w ++ [LxOpen d])) (lx s' [])
         | None => match close_of c with
                   | Some d => rmap (app (flush w ++ [LxClose d])) (lx s' [])
                   | None => Panic "character outside the modelled alphabet"
                   end
         end
  end.

Definition delim_eqb (a b : delim) : bool :=
  match a, b with Par, Par | Brack, Brack | Brace, Brace => true | _, _ => false end.
(** Nesting of brackets: [acc] is the group being read, reversed; [stk] the groups around it. *)
Fixpoint build (ls : list lexeme) (acc : list tree) (stk : list (delim * list tree)) : res (list tree) :=
  match ls with
  | [] => match stk with [] => Ok (rev acc) | _ => Panic "lex error: unclosed bracket" end
  | LxId s :: ls' => build ls' (TId s :: acc) stk
  | LxLit s :: ls' => build ls' (TLit s :: acc) stk
  | LxP c j :: ls' => build ls' (TP c j :: acc) stk
  | LxOpen d :: ls' => build ls' [] ((d, acc) :: stk)
  | LxClose d :: ls' =>
    match stk with
    | (d', acc') :: stk' => if delim_eqb d d' then build ls' (TG d (rev acc) :: acc') stk' else Panic "lex error: bracket mismatch"
    | [] => Panic "lex error: unopened bracket"
    end
  end.
(** types.rs 441: to_token_iter. *)
Definition tokenize (s : str) : res (list tree) := ls <- lx s [] ;; build ls [] [].

(** ** Syntax trees (types.rs 24-181). Delimiters are not recorded; the three tuple forms are told apart by the number of
    elements. [GRaw] and [SQual] keep the tokens of an unparsed [<..>], brackets included. *)
Inductive gargsOf (T : Type) := GParsed (args : list T) | GRaw (ts : list tree).
Arguments GParsed {T} args.
Arguments GRaw {T} ts.
Inductive segOf (T : Type) := SSeg (id : str) (g : option (gargsOf T)) (shim : bool) | SQual (ts : list tree) | SVtable | SImpl (n : Z).
Arguments SSeg {T} id g shim.
Arguments SQual {T} ts.
Arguments SVtable {T}.
Arguments SImpl {T} n.
Inductive asizeOf (T : Type) := AFixed (n : Z) | ADyn (t : T).
Arguments AFixed {T} n.
Arguments ADyn {T} t.
Inductive ty :=
| YSlice (t : ty)
| YStr
| YRef (mutable : bool) (t : ty)
| YNever
| YArray (t : ty) (n : option (asizeOf ty))
| YFn (unsf : bool) (args : list ty) (ret : option ty)
| YDyn (traits : list ty)
| YTuple (elems : list ty)
| YPtr (mutable : bool) (t : ty)
| YPath (segs : list (segOf ty)).
Definition seg := segOf ty.
Definition gargs := gargsOf ty.

(** ** unsynn combinators (library behaviour). *)
Definition pars (A : Type) := list tree -> res (A * list tree).
Definition p_alt {A} (p q : pars A) : pars A := fun ts => match p ts with Err _ => q ts | r => r end.
Definition p_seq {A B} (p : pars A) (q : A -> pars B) : pars B := fun ts => ' (a, ts') <- p ts ;; q a ts'.
Definition p_opt {A} (p : pars A) : pars (option A) := fun ts =>
  match p ts with Ok (a, ts') => Ok (Some a, ts') | Err _ => Ok (None, ts) | Panic m => Panic m | Fuel => Fuel end.
Definition p_ret {A} (a : A) : pars A := fun ts => Ok (a, ts).
(** PunctAny<C>, and a one-character operator (Lt, Gt, Comma). *)
Definition p_punct (c : char) : pars unit := fun ts =>
  match ts with TP d _ :: r => if N.eqb c d then Ok (tt, r) else Err "punct" | _ => Err "punct" end.
(** PunctJoint<C>. *)
Definition p_joint (c : char) : pars unit := fun ts =>
  match ts with TP d true :: r => if N.eqb c d then Ok (tt, r) else Err "punct" | _ => Err "punct" end.
Definition p_kw (k : str) : pars unit := fun ts =>
  match ts with TId s :: r => if str_eqb k s then Ok (tt, r) else Err "keyword" | _ => Err "keyword" end.
Definition p_ident : pars str := fun ts => match ts with TId s :: r => Ok (s, r) | _ => Err "identifier" end.
Definition p_usize : pars Z := fun ts =>
  match ts with
  | TLit s :: r => match parse_u64 s with Some n => Ok (n, r) | None => Err "integer" end
  | _ => Err "integer"
  end.
(** GroupContaining<T>: the contents must be consumed completely. *)
Definition p_group {A} (d : delim) (p : pars A) : pars A := fun ts =>
  match ts with
  | TG d' inner :: r => if delim_eqb d d' then ' (a, rest) <- p inner ;; match rest with [] => Ok (a, r) | _ => Err "end of group" end
                        else Err "group"
  | _ => Err "group"
  end.
(** DelimitedVec<T, D>: [n] bounds the number of values, and is taken as large as the number of tokens. *)
Fixpoint p_delimited_n {A} (n : nat) (p : pars A) (d : pars unit) : pars (list A) := fun ts =>
  match n with
  | O => Fuel
  | S n' =>
    match p ts with
    | Err _ => Ok ([], ts)
    | Panic m => Panic m
    | Fuel => Fuel
    | Ok (a, ts1) =>
      match d ts1 with
      | Err _ => Ok ([a], ts1)
      | Panic m => Panic m
      | Fuel => Fuel
      | Ok (_, ts2) => ' (l, ts3) <- p_delimited_n n' p d ts2 ;; Ok (a :: l, ts3)
      end
    end
  end.
Definition p_delimited {A} (p : pars A) (d : pars unit) : pars (list A) := fun ts => p_delimited_n (S (length ts)) p d ts.
(** Vec<T> (and the loop of AtLeast<1, T>): as many values as parse. *)
Fixpoint p_many_n {A} (n : nat) (p : pars A) : pars (list A) := fun ts =>
  match n with
  | O => Fuel
  | S n' =>
    match p ts with
    | Err _ => Ok ([], ts)
    | Panic m => Panic m
    | Fuel => Fuel
    | Ok (a, ts1) => ' (l, ts2) <- p_many_n n' p ts1 ;; Ok (a :: l, ts2)
    end
  end.
Definition p_many {A} (p : pars A) : pars (list A) := fun ts => p_many_n (S (length ts)) p ts.

Definition c_lt : char := ch "<".
Definition c_gt : char := ch ">".
Definition c_comma : char := ch ",".
(** PathSep: [::]. *)
Definition p_pathsep : pars unit := p_seq (p_joint (ch ":")) (fun _ => p_punct (ch ":")).

(** types.rs 24-30: AngleTokenTree. Its own brackets are printed without joining (Operator's ToTokens). *)
Fixpoint p_angle (n : nat) : pars (list tree) := fun ts =>
  match n with
  | O => Fuel
  | S n' =>
    p_seq (p_punct c_lt) (fun _ =>
    p_seq (p_many (p_alt (fun us => match us with
                                    | TP d j :: r => if N.eqb d c_lt || N.eqb d c_gt then Err "except" else Ok ([TP d j], r)
                                    | t :: r => Ok ([t], r)
                                    | [] => Err "token"
                                    end)
                         (p_angle n'))) (fun inner =>
    p_seq (p_punct c_gt) (fun _ =>
    p_ret (TP c_lt false :: concat inner ++ [TP c_gt false])))) ts
  end.

Section Types.
(** The recursive call: Type::parse. [n] bounds the depth of [<..>] in unparsed arguments. *)
Variable pt : pars ty.
Variable n : nat.

(** types.rs 33-42: GenericArgs. *)
Definition p_gargs : pars gargs :=
  p_alt (p_seq (p_punct c_lt) (fun _ => p_seq (p_delimited pt (p_punct c_comma)) (fun l =>
         p_seq (p_punct c_gt) (fun _ => p_ret (GParsed l)))))
        (p_seq (p_angle n) (fun ts => p_ret (GRaw ts))).
(** types.rs 46-57: VTableShim, Segment. *)
Definition p_shim : pars unit :=
  p_group Brace (p_group Brace (p_seq (p_kw (st "vtable")) (fun _ => p_seq (p_punct (ch ".")) (fun _ => p_kw (st "shim"))))).
Definition p_segment : pars seg :=
  p_seq p_ident (fun id => p_seq (p_opt p_gargs) (fun g => p_seq (p_opt p_shim) (fun s =>
  p_ret (SSeg id g (match s with Some _ => true | None => false end))))).
(** types.rs 60-74: ImplNumber, PathSegment. *)
Definition p_path_segment : pars seg :=
  p_alt p_segment
  (p_alt (p_seq (p_angle n) (fun ts => p_ret (SQual ts)))
  (p_alt (p_seq (p_group Brace (p_kw (st "vtable_type"))) (fun _ => p_ret SVtable))
         (p_seq (p_group Brace (p_seq (p_kw (st "impl")) (fun _ => p_seq (p_punct (ch "#")) (fun _ => p_usize)))) (fun k => p_ret (SImpl k))))).
(** types.rs 176-178: Path. *)
Definition p_path : pars ty := p_seq (p_delimited p_path_segment p_pathsep) (fun l => p_ret (YPath l)).
(** types.rs 76-93: DynTrait, PtrType, RefType. *)
Definition p_dyn : pars ty :=
  p_seq (p_kw (st "dyn")) (fun _ => p_seq (p_delimited pt (p_punct (ch "+"))) (fun l => p_ret (YDyn l))).
Definition p_ptr : pars ty :=
  p_seq (p_punct (ch "*")) (fun _ =>
  p_seq (p_alt (p_seq (p_kw (st "const")) (fun _ => p_ret false)) (p_seq (p_kw (st "mut")) (fun _ => p_ret true))) (fun m =>
  p_seq pt (fun t => p_ret (YPtr m t)))).
Definition p_ref : pars ty :=
  p_seq (p_punct (ch "&")) (fun _ => p_seq (p_opt (p_kw (st "mut"))) (fun m =>
  p_seq pt (fun t => p_ret (YRef (match m with Some _ => true | None => false end) t)))).
(** types.rs 97-112: ArraySize, ArrayInner, Array. *)
Definition p_asize : pars (asizeOf ty) :=
  p_alt (p_seq p_usize (fun k => p_ret (AFixed k))) (p_seq pt (fun t => p_ret (ADyn t))).
Definition p_array : pars ty :=
  p_group Brack (p_seq pt (fun t => p_seq (p_opt (p_seq (p_punct (ch ";")) (fun _ => p_asize))) (fun k => p_ret (YArray t k)))).
(** types.rs 117-130: Tuple. *)
Definition p_type_comma : pars ty := p_seq pt (fun t => p_seq (p_punct c_comma) (fun _ => p_ret t)).
Definition p_type_opt_comma : pars ty := p_seq pt (fun t => p_seq (p_opt (p_punct c_comma)) (fun _ => p_ret t)).
Definition p_tuple : pars ty :=
  p_alt (p_group Par (p_ret (YTuple [])))
  (p_alt (p_group Par (p_seq p_type_opt_comma (fun t => p_ret (YTuple [t]))))
         (p_group Par (p_seq (fun ts => ' (l, r) <- p_many p_type_comma ts ;; match l with [] => Err "at least one" | _ => Ok (l, r) end)
                      (fun l => p_seq p_type_opt_comma (fun t => p_ret (YTuple (l ++ [t]))))))).
(** types.rs 134-147: FnResult, FnType. *)
Definition p_fn : pars ty :=
  p_seq (p_opt (p_kw (st "unsafe"))) (fun u => p_seq (p_kw (st "fn")) (fun _ =>
  p_seq (p_group Par (p_delimited pt (p_punct c_comma))) (fun args =>
  p_seq (p_opt (p_seq (p_joint (ch "-")) (fun _ => p_seq (p_punct c_gt) (fun _ => pt)))) (fun ret =>
  p_ret (YFn (match u with Some _ => true | None => false end) args ret))))).
(** types.rs 149-159: Slice, StrSlice. *)
Definition p_slice : pars ty :=
  p_seq (p_punct (ch "&")) (fun _ => p_seq (p_group Brack pt) (fun t => p_ret (YSlice t))).
Definition p_strslice : pars ty :=
  p_seq (p_punct (ch "&")) (fun _ => p_seq (p_kw (st "str")) (fun _ => p_ret YStr)).
(** types.rs 160-172: Type. *)
Definition p_type_step : pars ty :=
  p_alt p_slice (p_alt p_strslice (p_alt p_ref
  (p_alt (p_seq (p_punct (ch "!")) (fun _ => p_ret YNever))
  (p_alt p_array (p_alt p_fn (p_alt p_dyn (p_alt p_tuple (p_alt p_ptr p_path)))))))).
End Types.

(** Type::parse, by fuel. *)
Fixpoint p_type (n : nat) : pars ty := fun ts =>
  match n with O => Fuel | S n' => p_type_step (p_type n') n' ts end.

(** Number of tokens of a stream, groups included: no parse nests deeper. *)
Fixpoint tree_size (t : tree) : nat :=
  match t with TG _ ts => S (fold_right (fun t k => (tree_size t + k)%nat) O ts) | _ => 1%nat end.
Definition trees_size (ts : list tree) : nat := fold_right (fun t k => (tree_size t + k)%nat) O ts.

(** types.rs 450-454: parse_type. *)
Definition parse_type (s : str) : res ty :=
  ts <- tokenize s ;;
  ' (t, rest) <- p_type (S (S (trees_size ts))) ts ;;
  match rest with [] => Ok t | _ => Err "expected end of stream" end.

(** ** Display. *)

(** Library behaviour: proc_macro2's Display of a token stream, used by tokens_to_string. *)
Definition open_text (d : delim) : str := match d with Par => st "(" | Brack => st "[" | Brace => st "{ " end.
Definition close_text (d : delim) (empty : bool) : str :=
  match d with Par => st ")" | Brack => st "]" | Brace => if empty then st "}" else st " }" end.
Fixpoint tree_text (t : tree) : str :=
  match t with
  | TId s => s
  | TLit s => s
  | TP c _ => [c]
  | TG d ts =>
      open_text d ++
      (fix go (ts : list tree) (first joint : bool) : str :=
         match ts with
         | [] => []
         | t :: ts' => (if first || joint then [] else st " ") ++ tree_text t ++
                       go ts' false (match t with TP _ j => j | _ => false end)
         end) ts true false ++ close_text d (match ts with [] => true | _ => false end)
  end.
Fixpoint trees_text (ts : list tree) (first joint : bool) : str :=
  match ts with
  | [] => []
  | t :: ts' => (if first || joint then [] else st " ") ++ tree_text t ++
                trees_text ts' false (match t with TP _ j => j | _ => false end)
  end.
Definition tokens_to_string (ts : list tree) : str := trees_text ts true false.

(** types.rs 330-360: Path::segments, one segment. [show] is Type's Display. A [{{vtable.shim}}] suffix is not printed. *)
Definition seg_text (show : ty -> str) (s : seg) : str :=
  match s with
  | SSeg id g _ => id ++ match g with
                         | Some (GParsed args) => st "<" ++ join (st ", ") (map show args) ++ st ">"
                         | Some (GRaw ts) => tokens_to_string ts
                         | None => []
                         end
  | SQual ts => tokens_to_string ts
  | SVtable => tokens_to_string [TG Brace [TId (st "vtable_type")]]
  | SImpl k => tokens_to_string [TG Brace [TId (st "impl"); TP (ch "#") false; TLit (dec k)]]
  end.
(** types.rs 237-327: Display for Type, Array, DynTrait, Path, FnType. *)
Fixpoint show (t : ty) : str :=
  match t with
  | YRef m t => st "&" ++ (if m then st "mut " else []) ++ show t
  | YSlice t => st "&[" ++ show t ++ st "]"
  | YStr => st "&str"
  | YArray t k =>
      st "[" ++ show t ++ match k with
                          | Some (AFixed k) => st "; " ++ dec k
                          | Some (ADyn u) => st "; " ++ show u
                          | None => []
                          end ++ st "]"
  | YDyn l => st "dyn " ++ join (st " + ") (map show l)
  | YTuple [t] => st "(" ++ show t ++ st ",)"
  | YTuple l => st "(" ++ join (st ", ") (map show l) ++ st ")"
  | YPtr m t => tokens_to_string [TP (ch "*") false; TId (if m then st "mut" else st "const")] ++ show t
  | YPath segs => join (st "::") (map (seg_text show) segs)
  | YFn _ args ret =>
      st "fn(" ++ join (st ", ") (map show args) ++ st ")" ++
      match ret with Some r => st " -> " ++ show r | None => [] end
  | YNever => st "!"
  end.
(** types.rs 330-360: Path::segments. *)
Definition segments (segs : list seg) : list str := map (seg_text show) segs.

(** ** Layouts of names: types.rs 447-831. Offsets and sizes are unknown and set to 0. *)
Definition td0 (l : layout) : tdef := TD l None.
Definition unknown : tdef := td0 (LAlias (st "Unknown")).
Definition str_in (s : str) (l : list string) : bool := existsb (fun x => str_eqb s (st x)) l.

(** types.rs 561-602: the primitive names. *)
Definition primitive_named (s : str) : option layout :=
  if str_eqb s (st "u8") then Some (LUInt 1)
  else if str_eqb s (st "u16") then Some (LUInt 2)
  else if str_eqb s (st "u32") then Some (LUInt 4)
  else if str_eqb s (st "u64") then Some (LUInt 8)
  else if str_eqb s (st "u128") then Some (LUInt 16)
  else if str_eqb s (st "usize") then Some (LUInt 8)
  else if str_eqb s (st "i8") then Some (LInt 1)
  else if str_eqb s (st "i16") then Some (LInt 2)
  else if str_eqb s (st "i32") then Some (LInt 4)
  else if str_eqb s (st "i64") then Some (LInt 8)
  else if str_eqb s (st "i128") then Some (LInt 16)
  else if str_eqb s (st "isize") then Some (LInt 8)
  else if str_eqb s (st "f32") then Some (LFloat 4)
  else if str_eqb s (st "f64") then Some (LFloat 8)
  else if str_eqb s (st "bool") then Some LBool
  else if str_eqb s (st "char") then Some LChar
  else if str_eqb s (st "str") then Some LStr
  else if str_eqb s (st "()") then Some LUnit
  else None.
(** types.rs 776-797: the smart pointer names. *)
Definition smart_named (s : str) : option spv :=
  if str_eqb s (st "Box") then Some SBox
  else if str_eqb s (st "Rc") then Some SRc
  else if str_eqb s (st "Arc") then Some SArc
  else if str_eqb s (st "Cell") then Some SCell
  else if str_eqb s (st "RefCell") then Some SRefCell
  else if str_eqb s (st "UnsafeCell") then Some SUnsafeCell
  else if str_eqb s (st "Mutex") then Some SMutex
  else if str_eqb s (st "RwLock") then Some SRwLock
  else None.
Definition zero_hashmap : mapv := HashMap 0 0 0 0 0 0.
Definition zero_btreemap : mapv := BTreeMap 0 0 0 0 (BN 0 0 0 0).
Definition nth_def (l : list layout) (k : nat) : tdef := match nth_error l k with Some x => td0 x | None => unknown end.
(** types.rs 636-822: the standard library type called [id], given the layouts of its parsed generic arguments. *)
Definition std_named (id : str) (g : list layout) : option layout :=
  if str_eqb id (st "String") then Some (LString 0 0 0 (td0 (LUInt 1)))
  else if str_eqb id (st "Vec") then Some (LVec 0 0 0 (nth_def g 0))
  else if str_eqb id (st "Option") then Some (LOption (st "Option") (Disc DImplicit 0) 0 (nth_def g 0) 0)
  else if str_eqb id (st "Result") then Some (LResult (st "Result") (Disc DImplicit 0) (nth_def g 0) 0 (nth_def g 1) 0 0)
  else if str_eqb id (st "HashMap") then Some (LMap (nth_def g 0) (nth_def g 1) zero_hashmap)
  else if str_eqb id (st "BTreeMap") then Some (LMap (nth_def g 0) (nth_def g 1) zero_btreemap)
  else match smart_named id with Some v => Some (LSmartPtr (nth_def g 0) 0 0 v) | None => None end.

(** types.rs 620-632: get_generics; [lay] is as_layout. *)
Definition seg_generics (lay : ty -> layout) (s : seg) : list layout :=
  match s with SSeg _ (Some (GParsed args)) _ => map lay args | _ => [] end.
(** types.rs 551-830: Path::as_typedef; [gens] are the layouts of the generic arguments of each segment. *)
Definition path_layout (segs : list seg) (gens : list (list layout)) : layout :=
  let names := segments segs in
  match names with
  | [] => LAlias []
  | first :: _ =>
    let final := last names [] in
    match (if (length names =? 1)%nat then primitive_named final else None) with
    | Some l => l
    | None =>
      match (if str_in first ["std"; "core"; "alloc"]%string || str_eqb first (st "hashbrown") || (length names =? 1)%nat
             then match last segs SVtable with
                  | SSeg id _ _ => std_named id (last gens [])
                  | _ => None
                  end
             else None) with
      | Some l => l
      | None => LAlias final
      end
    end
  end.
(** types.rs 457-547: Type::as_layout. *)
Fixpoint as_layout (t : ty) : layout :=
  match t with
  | YPath segs => path_layout segs (map (seg_generics as_layout) segs)
  | YSlice t => LSlice (td0 (as_layout t)) 0 0
  | YStr => LStrSlice 0 0
  | YRef m t => LReference m (td0 (as_layout t))
  | YPtr m t => LPointer m (td0 (as_layout t))
  | YArray t k => LArray (td0 (as_layout t)) (match k with Some (AFixed k) => k | _ => 0 end)
  | YTuple l => match l with
                | [] => LUnit
                | _ => LTuple (map (fun t => (0, td0 (as_layout t))) l) 0
                end
  | YDyn _ => LAlias (show t)
  | YFn _ args ret => LFunction (match ret with Some r => Some (td0 (as_layout r)) | None => None end)
                                (map (fun t => td0 (as_layout t)) args)
  | YNever => LNever
  end.

(** names.rs 61-101: TypeName::parse: the text that is parsed, and the resulting name and layout. *)
Definition full_name (path : list str) (name : str) : str :=
  match path with [] => name | _ => join (st "::") path ++ st "::" ++ name end.
Definition typename_parse (path : list str) (name : str) : res layout :=
  match parse_type (full_name path name) with
  | Ok t => Ok (as_layout t)
  | Err _ => Err "Failed to parse type name"
  | Panic m => Panic m
  | Fuel => Fuel
  end.
