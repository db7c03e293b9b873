(** Model of rudy-db/src/function_discovery.rs and crates/rudy-dwarf/src/parser/functions.rs: finding functions by name
    and the methods of a type.

    A DIE is an environment (its unit, ParserModel) with an offset. Locations of types are compared by offset only
    (matching_type); DIEs of different files at the same offset are not told apart. The symbol index and demangling are
    SymModel's, the per-file function index is FnModel's. Tracing is dropped. [k]: recursion budget of type resolution. *)
From Coq Require Import Ascii String List ZArith NArith Lia Bool.
From Verif Require Import Base NumText OMap SymModel DieModel ModuleModel TypesModel ParserModel ResolveModel SynthModel FnModel.
Import ListNotations.
Open Scope Z_scope.

(** parser/functions.rs 11-25: FunctionInfo, ParameterInfo (name, type). *)
Record finfo := FInfo { fi_name : str; fi_linkage : option str; fi_die : Z; fi_params : list (option str * Z); fi_ret : option Z }.
Definition flatten {A} (l : list (option A)) : list A := flat_map (fun o => match o with Some a => [a] | None => [] end) l.
(** parser/functions.rs 70-84: parameter_parser. *)
Definition parameter_parser : parser (option (option str * Z)) := fun v h =>
  if tag_eqb (tag_of v h) Tparameter then
    n <- p_filter name_attr v h ;; t <- entry_type v h ;; Ok (Some (n, t))
  else Ok None.
(** parser/functions.rs 87-89: parameter_list_parser. *)
Definition parameter_list : parser (list (option str * Z)) := p_map flatten (for_each_child parameter_parser).
(** parser/functions.rs 27-51: function_parser. *)
Definition function_parser : parser finfo := fun v h =>
  name <- p_filter name_attr v h ;;
  linkage <- p_filter (string_attr At_linkage_name) v h ;;
  ret <- p_filter entry_type v h ;;
  ps <- parameter_list v h ;;
  Ok (FInfo (match name with Some n => n | None => st "<anonymous>" end) linkage h ps ret).
(** parser/functions.rs 54-67: opt_function_parser; 92-94: child_functions_parser. *)
Definition opt_function_parser : parser (option finfo) := fun v h =>
  if tag_eqb (tag_of v h) Tsubprogram then rmap Some (function_parser v h) else Ok None.
Definition child_functions : parser (list finfo) := p_map flatten (for_each_child opt_function_parser).
(** parser/functions.rs 96-159: impl_namespaces_in_module_parser, find_sibling_impl_namespaces. *)
Definition is_impl_name (n : str) : bool := starts_with n (st "{impl#") && ends_with n (st "}").
Definition impl_parser : parser Z := fun v h =>
  if tag_eqb (tag_of v h) Tnamespace then
    n <- name_attr v h ;; if is_impl_name n then Ok h else Err "Expected impl namespace DIE"
  else Err "Expected entry to have tag".
Definition impl_namespaces : parser (list Z) := fun v h =>
  match find_by_offset (en_ranges v) h with
  | None => Ok []
  | Some r => for_each_child impl_parser v (mr_die r)
  end.

(** lib.rs (rudy-db) DiscoveredMethod, DiscoveredFunction; parameters: name and type. *)
Record dmethod := DMethod {
  dm_name : str; dm_full : str; dm_sig : str; dm_addr : Z; dm_self : option self_type; dm_callable : bool;
  dm_synthetic : bool; dm_ret : option tdef; dm_params : list (option str * tdef) }.
Record dfunction := DFunction {
  df_name : str; df_full : str; df_sig : str; df_addr : Z; df_callable : bool; df_module : list str;
  df_ret : option tdef; df_params : list (option str * tdef) }.

(** function_discovery.rs 428-452: how the function takes its object. *)
Definition method_self (k : nat) (v : env) (target : layout) (ps : list (option str * Z)) : res (option self_type) :=
  match ps with
  | [] => Ok None
  | (n, t) :: _ =>
      if match n with Some s => negb (str_eqb s (st "self")) | None => false end then Ok None
      else
        ty <- resolve_type k v t ;;
        Ok (if matching_type (dereferenced (layOf ty)) target then Some (self_of_type (layOf ty)) else None)
  end.
(** function_discovery.rs 454-487: address, whether it can be called, full name. *)
Definition method_symbol (X : externals) (ix : symbol_index) (f : finfo) : Z * bool * str :=
  let direct := (0, false, fi_name f ++ st "::(direct)") in
  match fi_linkage f with
  | None => direct
  | Some l =>
      match demangle_symbol X (raw_of l) with
      | Ok n => match get_function ix n with Some y => (sym_addr y, true, sname_display (sym_name y)) | None => direct end
      | _ => direct
      end
  end.
(** function_discovery.rs 528-591: build_function_signature. *)
Definition self_text (s : self_type) : str := match s with Owned => st "self" | Borrowed => st "&self" | BorrowedMut => st "&mut self" end.
Definition type_text (k : nat) (v : env) (t : Z) : res str :=
  o <- p_filter (resolve_type k) v t ;; Ok (match o with Some ty => tname ty | None => st "?" end).
Definition param_text (k : nat) (v : env) (p : option str * Z) : res str :=
  t <- type_text k v (snd p) ;; Ok ((match fst p with Some n => n | None => st "_" end) ++ st ": " ++ t).
Definition others {A} (self : option self_type) (l : list A) : list A := match self with Some _ => tl l | None => l end.
Definition method_signature (k : nat) (v : env) (f : finfo) (self : option self_type) : res str :=
  ps <- mapM (param_text k v) (others self (fi_params f)) ;;
  ret <- match fi_ret f with
         | None => Ok []
         | Some t =>
             o <- p_filter (resolve_type k) v t ;;
             Ok (match o with
                 | Some ty => if str_eqb (tname ty) (st "()") then [] else st " -> " ++ tname ty
                 | None => st " -> ?"
                 end)
         end ;;
  Ok (st "fn " ++ fi_name f ++ st "(" ++
      join (st ", ") (match self with Some s => self_text s :: ps | None => ps end) ++ st ")" ++ ret).
(** function_discovery.rs 501-525: a parameter with its type, or the alias "unknown". *)
Definition param_def (k : nat) (v : env) (p : option str * Z) : res (option str * tdef) :=
  o <- p_filter (resolve_type k) v (snd p) ;;
  Ok (fst p, match o with Some ty => ty | None => TD (LAlias (st "unknown")) (Some (snd p)) end).
(** function_discovery.rs 418-525: convert_function_to_method (always Some). *)
Definition to_method (X : externals) (ix : symbol_index) (k : nat) (v : env) (target : layout) (f : finfo) : res dmethod :=
  self <- method_self k v target (fi_params f) ;;
  let '(addr, callable, full) := method_symbol X ix f in
  sig <- method_signature k v f self ;;
  ret <- match fi_ret f with Some t => p_filter (resolve_type k) v t | None => Ok None end ;;
  ps <- mapM (param_def k v) (others self (fi_params f)) ;;
  Ok (DMethod (fi_name f) full sig addr self callable false ret ps).

(** function_discovery.rs 270-342: find_matching_type_dies. A debug file: its modules and the unit of each offset. *)
Record dfile := DFile { fl_modules : module; fl_env : Z -> env }.
Definition matching_struct (k : nat) (target : layout) : parser Z := fun v h =>
  if tag_eqb (tag_of v h) Tstructure then
    t <- resolve_type k v h ;; if matching_type (layOf t) target then Ok h else Err "Type does not match target type"
  else Err "Expected entry to have tag".
Definition find_matching (k : nat) (files : list dfile) (v : env) (h : Z) (target : layout) : res (list (env * Z)) :=
  match get_containing_module (en_ranges v) h with
  | None => Ok [(v, h)]
  | Some path =>
      rmap (@concat _) (mapM (fun f =>
        match find_by_path (fl_modules f) path with
        | None => Ok []
        | Some m => rmap (@concat _) (mapM (fun d => rmap (map (pair (fl_env f d))) (for_each_child (matching_struct k target) (fl_env f d) d)) (entries_of m))
        end) files)
  end.
(** function_discovery.rs 347-415: discover_direct_methods (None when there are none: same effect). *)
Definition direct_methods (X : externals) (ix : symbol_index) (k : nat) (files : list dfile) (v : env) (h : Z) (target : layout) : res (list dmethod) :=
  dies <- find_matching k files v h target ;;
  rmap (@concat _) (mapM (fun '(u, d) => fs <- child_functions u d ;; mapM (to_method X ix k u target) fs) dies).
(** str::find: what precedes and what follows the first occurrence. *)
Fixpoint split_first (pat s : str) : option (str * str) :=
  if starts_with s pat then Some ([], skipn (length pat) s)
  else match s with
       | [] => None
       | c :: s' => match split_first pat s' with Some (a, b) => Some (c :: a, b) | None => None end
       end.
(** function_discovery.rs 664-710: enhance_method_with_trait_info, extract_trait_from_symbol. *)
Definition trait_note (full : str) : str :=
  match split_first (st " as ") full with
  | Some (_, after) => full ++ st " (from " ++ (match split_first (st "::") after with Some (t, _) => t | None => after end) ++ st ")"
  | None => full ++ st " (from trait impl)"
  end.
Definition enhance (m : dmethod) : dmethod :=
  DMethod (dm_name m) (trait_note (dm_full m)) (dm_sig m) (dm_addr m) (dm_self m) (dm_callable m) (dm_synthetic m) (dm_ret m) (dm_params m).
(** function_discovery.rs 596-674: discover_trait_impl_methods. *)
Definition has_self (m : dmethod) : bool := match dm_self m with Some _ => true | None => false end.
Definition trait_methods (X : externals) (ix : symbol_index) (k : nat) (v : env) (h : Z) (target : layout) : res (list dmethod) :=
  ns <- impl_namespaces v h ;;
  rmap (@concat _) (mapM (fun n => fs <- child_functions v n ;; ms <- mapM (to_method X ix k v target) fs ;; Ok (map enhance (filter has_self ms))) ns).
(** function_discovery.rs 218-267: discover_methods_for_type; [sig_of]: the texts of the synthetic methods. *)
Definition synthetic_entry (sig_of : str -> str) (l : layout) (n : str) : dmethod :=
  DMethod n (display_name l ++ st "::" ++ n) (sig_of n) 0 (Some Borrowed) false true None [].
Definition methods_for_type (X : externals) (ix : symbol_index) (k : nat) (files : list dfile) (sig_of : str -> str) (v : env) (h : Z) (target : layout)
  : res (list dmethod) :=
  d <- direct_methods X ix k files v h target ;;
  t <- trait_methods X ix k v h target ;;
  Ok (d ++ t ++ map (synthetic_entry sig_of target) (synthetic_methods target)).
(** debug_info.rs 747-760: discover_methods_for_pointer. *)
Definition methods_for_pointer X ix k files sig_of v h target : res (list dmethod) :=
  rmap (filter has_self) (methods_for_type X ix k files sig_of v h target).

(** symbol_index.functions.values().flat_map(|map| map.values()). *)
Definition all_symbols (ix : symbol_index) : list symbol := flat_map (fun m => map snd (snd m)) (ix_functions ix).
(** index.rs 31-59: get_function: the function's entry in the index of the file of its symbol; [fidx]: that index, with
    the unit of each entry. *)
Definition debug_entry (ix : symbol_index) (fidx : N -> omap sname (env * Z)) (n : sname) : option (env * Z) :=
  match get_function ix n with Some y => oget cmp_sname n (fidx (sym_file y)) | None => None end.
(** function_discovery.rs 907-943: build_function_signature_for_discovered. *)
Definition fn_param_text (p : nat * (option str * tdef)) : str :=
  (match fst (snd p) with Some n => n | None => st "_" ++ dec (Z.of_nat (fst p)) end) ++ st ": " ++ tname (snd (snd p)).
Definition number {A} (l : list A) : list (nat * A) := combine (seq 0 (length l)) l.
Definition fn_signature (n : sname) (ps : list (option str * tdef)) (ret : option tdef) : str :=
  st "fn " ++ lookup_name n ++ st "(" ++ join (st ", ") (map fn_param_text (number ps)) ++ st ")" ++
  match ret with
  | Some t => if str_eqb (tname t) (st "()") then [] else st " -> " ++ tname t
  | None => []
  end.
(** function_discovery.rs 860-904: create_discovered_function. *)
Definition create_function (k : nat) (y : symbol) (d : env * Z) : res dfunction :=
  let '(v, h) := d in
  f <- function_parser v h ;;
  ps <- mapM (fun p => t <- resolve_type k v (snd p) ;; Ok (fst p, t)) (fi_params f) ;;
  ret <- match fi_ret f with Some t => rmap Some (resolve_type k v t) | None => Ok None end ;;
  Ok (DFunction (lookup_name (sym_name y)) (sname_display (sym_name y)) (fn_signature (sym_name y) ps ret) (sym_addr y) true
        (module_path (sym_name y)) ret ps).
(** function_discovery.rs 748-757, 764-774: a function without (usable) debug information. *)
Definition bare_function (y : symbol) : dfunction :=
  DFunction (lookup_name (sym_name y)) (sname_display (sym_name y)) (st "fn " ++ sname_display (sym_name y) ++ st "(?)") (sym_addr y) false
    (module_path (sym_name y)) None [].
Definition discovered (k : nat) (ix : symbol_index) (fidx : N -> omap sname (env * Z)) (y : symbol) : res dfunction :=
  match debug_entry ix fidx (sym_name y) with
  | Some d => match create_function k y d with Err _ => Ok (bare_function y) | r => r end
  | None => Ok (bare_function y)
  end.
(** names.rs 134: the derived equality of SymbolName. *)
Definition sname_eqb (a b : sname) : bool :=
  str_eqb (lookup_name a) (lookup_name b) && str_eqb (s_hash a) (s_hash b) && list_str_eqb (module_path a) (module_path b) &&
  str_eqb (full_path a) (full_path b).
(** function_discovery.rs 782-796: function_matches_pattern. *)
Definition matches_pattern (n pat : sname) : bool :=
  sname_eqb n pat || (str_eqb (lookup_name n) (lookup_name pat) && ends_with_segments (module_path n) (module_path pat)).
(** function_discovery.rs 726-780: discover_functions; debug_info.rs 797-801: the pattern is parsed like a symbol. *)
Definition discover_functions (k : nat) (ix : symbol_index) (fidx : N -> omap sname (env * Z)) (pattern : str) : res (list dfunction) :=
  pat <- sname_parse pattern ;;
  mapM (discovered k ix fidx) (filter (fun y => matches_pattern (sym_name y) pat) (all_symbols ix)).
(** function_discovery.rs 801-857: discover_all_functions. *)
Definition discover_all_functions (k : nat) (ix : symbol_index) (fidx : N -> omap sname (env * Z)) : res (omap str dfunction) :=
  fs <- mapM (fun y => f <- discovered k ix fidx y ;; Ok (sname_display (sym_name y), f)) (all_symbols ix) ;;
  Ok (fold_left (fun m p => oinsert cmp_str (fst p) (snd p) m) fs []).

(** function_discovery.rs 123-210: discover_all_methods. [indexed]: the file belongs to the workspace; [files]: for a
    DIE of a file, the paths of its unit's line table. A file without symbols (no function index) is one without entries. *)
Definition group_push (m : omap str (list dmethod)) (p : str * dmethod) : omap str (list dmethod) :=
  oupdate cmp_str (fst p) [] (fun l => l ++ [snd p]) m.
Definition method_of (k : nat) (files : Z -> option LinesModel.path) (y : symbol) (d : env * Z) : res (option (str * dmethod)) :=
  match resolve_function_signature files k (fst d) (snd d) with
  | Ok s =>
      match sg_params s with
      | [] => Ok None
      | x :: rest =>
          let first := dereferenced (layOf (va_ty x)) in
          if match first with LAlias n => str_eqb n (st "unknown") | _ => false end then Ok None
          else Ok (Some (display_name first,
                 DMethod (sg_name s) (sname_display (sym_name y)) (print_sig s) (sym_addr y) (sg_self s) true false (sg_ret s)
                   (map (fun p => (va_name p, va_ty p)) rest)))
      end
  | Err _ => Ok None
  | Panic m => Panic m
  | Fuel => Fuel
  end.
Definition discover_all_methods (k : nat) (files : N -> Z -> Z -> option LinesModel.path) (indexed : N -> bool) (ix : symbol_index)
    (fidx : N -> omap sname (env * Z)) : res (omap str (list dmethod)) :=
  ms <- mapM (fun y =>
          if indexed (sym_file y) then
            match oget cmp_sname (sym_name y) (fidx (sym_file y)) with
            | Some d => method_of k (files (sym_file y) (snd d)) y d
            | None => Ok None
            end
          else Ok None) (all_symbols ix) ;;
  Ok (fold_left group_push (flatten ms) []).

(** function_discovery.rs 23-48: SymbolAnalysisResult, the cases that are ever produced. The name of an unindexed file and
    the text of an error are not kept: the file stands for its name. *)
Inductive analysis := DiscoveredFunction (s : signature) | AnalysisError | NoDebugInfo | UnindexedFile (file : N).
(** function_discovery.rs 54-120: discover_all_functions_debug (public as discover_all_methods_debug). [has]: the file has
    a function index. *)
Definition analyse (k : nat) (files : N -> Z -> Z -> option LinesModel.path) (indexed has : N -> bool)
    (fidx : N -> omap sname (env * Z)) (y : symbol) : res (option (str * analysis)) :=
  let is a := Some (sname_display (sym_name y), a) in
  if negb (indexed (sym_file y)) then Ok (is (UnindexedFile (sym_file y)))
  else if negb (has (sym_file y)) then Ok None
  else match oget cmp_sname (sym_name y) (fidx (sym_file y)) with
       | None => Ok (is NoDebugInfo)
       | Some (v, h) =>
           match resolve_function_signature (files (sym_file y) h) k v h with
           | Ok s => Ok (is (DiscoveredFunction s))
           | Err _ => Ok (is AnalysisError)
           | Panic m => Panic m
           | Fuel => Fuel
           end
       end.
Definition discover_all_functions_debug (k : nat) (files : N -> Z -> Z -> option LinesModel.path) (indexed has : N -> bool)
    (ix : symbol_index) (fidx : N -> omap sname (env * Z)) : res (omap str analysis) :=
  rs <- mapM (analyse k files indexed has fidx) (all_symbols ix) ;;
  Ok (fold_left (fun m p => oinsert cmp_str (fst p) (snd p) m) (flatten rs) []).
