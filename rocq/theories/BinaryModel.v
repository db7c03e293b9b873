(** Model of DebugInfo (rudy-db/src/debug_info.rs) over the files of a binary: every public query, from the stored files
    to the answer, by composing the models of the parts.

    A Die of the code is (file, unit, offset). Here DIEs are numbered across the whole binary: the offsets of different
    files do not overlap. The salsa database only caches. Overflow panics while a function index is built are FnModel's
    subject; here such an index is empty. [n], [k]: the model's budgets for walking and for resolving types. *)
From Coq Require Import Ascii String List ZArith NArith Lia Bool.
From Verif Require Import Base NumText OMap Utf8 AddrModel SymModel PathModel LinesModel DieModel ModuleModel TypesModel ParserModel ResolveModel
  LocModel FnModel SourceModel LoadModel TypeTextModel.
From Verif Require DiscoverModel LookupModel IoDataModel EvalModel.
Import ListNotations.
Open Scope Z_scope.

(** A debug file with the units read from it (none when it cannot be loaded: die/utils.rs 15-18). *)
Record bfile := BFile { bf_id : N; bf_reloc : bool; bf_units : list bunit }.
(** An open binary: the symbol index, every debug file made for it, and those in DebugFiles (its values, in order). *)
Record binary := Binary { bi_index : symbol_index; bi_made : list bfile; bi_files : list bfile }.
Definition bfile_of (smap : list (fpath * fpath)) (fs : fpath -> option stored) (d : debug_file) : bfile :=
  BFile (db_id d) (db_reloc d) (match LoadModel.load smap fs (db_file d) with Ok o => ob_units o | _ => [] end).
Fixpoint made_objects (smap : list (fpath * fpath)) (fs : fpath -> option stored) (i : nat) (l : list (list Z * option (list Z))) : list debug_file :=
  match l with
  | [] => []
  | o :: l' => match object_file smap fs o with Some f => [DebugFile (object_id i) f true] | None => [] end ++ made_objects smap fs (S i) l'
  end.
(** debug_info.rs 68-80 (new), database.rs 126-129 and index.rs 88-111: a file that cannot be opened is an error; one that
    cannot be read as an object file is an empty index. *)
Definition open_binary (smap : list (fpath * fpath)) (fs : fpath -> option stored) (order : list nat -> list nat) (X : externals) (p : fpath) : res binary :=
  match LoadModel.build smap fs p None with
  | None => Err "Failed to analyze binary file"
  | Some f =>
      match LoadModel.load smap fs f with
      | Ok o =>
          Ok (Binary (index_symbol_map X (symbol_tables smap fs order o))
                (map (bfile_of smap fs) (DebugFile 0 f false :: made_objects smap fs 0 (ob_objects o)))
                (map (fun e => bfile_of smap fs (snd e)) (files_of smap fs f o)))
      | _ => Ok (Binary empty_index [] [])
      end
  end.

(** debug_info.rs 138-179: ResolvedFunction; parameters: name and type. *)
Record rfunction := RFunction { rf_name : str; rf_addr : Z; rf_size : Z; rf_params : list (str * tdef) }.

Section Binary.
Variable sort : (AddrModel.finfo -> Z) -> list AddrModel.finfo -> list AddrModel.finfo.
Variable smap : list (fpath * fpath).
Variable workspace : option fpath.
Variables n k : nat.
Variable B : binary.
Definition ix : symbol_index := bi_index B.

(** ** The parts of a debug file *)
Definition utoks (u : bunit) : list tok := toks (bu_die u) ++ repeat Null (bu_pad u).
Definition root_length (us : list bunit) (e : entry) : Z :=
  match find (fun u => h_of (bu_die u) =? e_off e) us with Some u => bu_length u | None => 0 end.
(** modules.rs 237-254. *)
Definition file_modules (f : bfile) : list mrange * module :=
  match module_index (root_length (bf_units f)) n (map utoks (bf_units f)) with Some r => r | None => ([], empty_module) end.
Definition parse_name (p : list str) (s : str) : option layout := match typename_parse p s with Ok l => Some l | _ => None end.
Definition unit_env (f : bfile) (u : bunit) : env := Env (bu_die u) (fst (file_modules f)) parse_name.
Definition holds (h : Z) (u : bunit) : bool := existsb (fun d => h_of d =? h) (subtrees (bu_die u)).
(** die/mod.rs 284-290: the unit of a DIE. *)
Definition unit_at (f : bfile) (h : Z) : option bunit := find (holds h) (bf_units f).
Definition no_env : env := Env (Die (Entry 0 (Tother 0) [] (Ok [])) None) [] parse_name.
Definition file_env (f : bfile) (h : Z) : env := match unit_at f h with Some u => unit_env f u | None => no_env end.
Definition die_env (h : Z) : env := match find (fun f => existsb (holds h) (bf_units f)) (bi_made B) with Some f => file_env f h | None => no_env end.
(** symbols/mod.rs 161-171: function_index; without symbols there is none. *)
Definition symbols_in (f : bfile) : option (omap (list N) symbol) := oget N.compare (bf_id f) (ix_by_file ix).
Definition functions_in (f : bfile) : fstate :=
  match symbols_in f with
  | None => FState [] []
  | Some syms => match FnModel.function_index (bf_reloc f) syms n (map utoks (bf_units f)) with Ok s => s | _ => FState [] [] end
  end.
(** As the models of sources and lines see it: a function goes by its full path, which determines its name. *)
Fixpoint position_of (h : Z) (us : list bunit) (i : nat) : option nat :=
  match us with [] => None | u :: us' => if holds h u then Some i else position_of h us' (S i) end.
Definition sunit_of (u : bunit) : sunit :=
  SUnit true (is_rust_cu (d_entry (bu_die u))) (bu_comp u) (e_ranges (d_entry (bu_die u))) (bu_lines u).
Definition address_info (f : bfile) (a : ainfo) : AddrModel.finfo :=
  {| absolute_start := ai_astart a; absolute_end := ai_aend a; relative_start := ai_rstart a; relative_end := ai_rend a;
     f_file := Z.of_N (bf_id f); f_name := full_path (ai_name a) |}.
Definition sfile_of (f : bfile) : sfile :=
  SFile (map sunit_of (bf_units f)) (map (address_info f) (fs_addresses (functions_in f)))
    (flat_map (fun e => match position_of (fd_die (snd e)) (bf_units f) 0 with Some i => [(full_path (fst e), i)] | None => [] end) (fs_functions (functions_in f)))
    (match symbols_in f with Some _ => true | None => false end).
Definition file_by_id (i : N) : option bfile := find (fun f => N.eqb (bf_id f) i) (bi_made B).
Definition line_file (i : N) : option LinesModel.dfile := option_map (fun f => view_file smap (sfile_of f)) (file_by_id i).
(** index.rs 114-155: the workspace's own debug files; the sources. *)
Definition indexed_files : list bfile := match workspace with None => [] | Some w => filter (fun f => is_local smap w (sfile_of f)) (bi_files B) end.
Definition discovery_file (f : bfile) : DiscoverModel.dfile := DiscoverModel.DFile (snd (file_modules f)) (file_env f).
(** index.rs 31-59: get_function. *)
Definition function_entry (name : sname) : option (bfile * bunit * fdata) :=
  match get_function ix name with
  | None => None
  | Some y =>
      match file_by_id (sym_file y) with
      | None => None
      | Some f =>
          match oget cmp_sname name (fs_functions (functions_in f)) with
          | None => None
          | Some d => match unit_at f (fd_die d) with Some u => Some (f, u, d) | None => None end
          end
      end
  end.

(** ** Queries *)
(** query.rs 57-74 on this binary. *)
Definition lookup_address (a : Z) : option (sname * sloc) :=
  match LinesModel.lookup_address sort ix line_file a with
  | Some (full, l) => match sname_parse full with Ok name => Some (name, l) | _ => None end
  | None => None
  end.
(** debug_info.rs 101-113: address_to_location: function, file, line. *)
Definition address_to_location (a : Z) : option (str * path * Z) :=
  match lookup_address a with Some (name, (p, line, _)) => Some (sname_display name, p, line) | None => None end.
(** debug_info.rs 214-249: find_address_from_source_location. *)
Definition find_address (file : str) (line : Z) : res (option Z) := address_of_line smap sort (map sfile_of (bi_files B)) file line.
(** die/mod.rs 329-341: the file of an index in the unit's line program. *)
Definition unit_file (u : bunit) (i : Z) : option path :=
  match u_prog (view_unit smap (sunit_of u)) with
  | None => None
  | Some p => match row_file p (Row 0 i None 0 false) with Some (Some x) => Some x | _ => None end
  end.
Definition function_variables (f : bfile) (u : bunit) (d : fdata) : res (list var * list var) :=
  resolve_function_variables (unit_file u) n k (bu_pad u) (unit_env f u) (fd_die d).
(** debug_info.rs 138-179: find_function_by_name. *)
Definition find_function_by_name (s : str) : res (option rfunction) :=
  match find_closest_function ix s with
  | None => Ok None
  | Some (name, _) =>
      y <- match get_function ix name with Some y => Ok y | None => Err "Failed to get base address for function" end ;;
      '(f, u, d) <- match function_entry name with Some x => Ok x | None => Err "Function not found in index" end ;;
      vars <- function_variables f u d ;;
      size <- match fd_range d with None => Ok 0 | Some (lo, hi) => sub64 hi lo end ;;
      Ok (Some (RFunction (sname_display name) (sym_addr y) size (combine (param_names (fst vars)) (map va_ty (fst vars)))))
  end.
(** debug_info.rs 181-190: find_symbol_by_name. *)
Definition find_symbol_by_name (s : str) : option symbol :=
  match oget cmp_str s (ix_symbols ix) with Some ((_, y) :: _) => Some y | _ => None end.
(** debug_info.rs 279-305, 372-395: the function of an address, its variables and base address. *)
Definition frame_at (a : Z) : res (option (bfile * bunit * fdata * (list var * list var) * Z * sloc)) :=
  match lookup_address a with
  | None => Ok None
  | Some (name, l) =>
      match function_entry name with
      | None => Ok None
      | Some (f, u, d) =>
          vars <- function_variables f u d ;;
          y <- match get_function ix name with Some y => Ok y | None => Err "Failed to get base address for function" end ;;
          Ok (Some (f, u, d, vars, sym_addr y, l))
      end
  end.
(** debug_info.rs 279-339: get_variable_at_pc. *)
Definition get_variable_at_pc (c : regs) (a : Z) (name : str) : res (option vinfo) :=
  o <- frame_at a ;;
  match o with
  | None => Ok None
  | Some (f, u, d, vars, base, _) => variable_at k (unit_env f u) c (bu_frame u (fd_die d)) base (bu_loc u) vars name
  end.
(** debug_info.rs 372-425: get_all_variables_at_pc (there are never globals). *)
Definition get_all_variables_at_pc (c : regs) (a : Z) : res (list vinfo * list vinfo) :=
  o <- frame_at a ;;
  match o with
  | None => Ok ([], [])
  | Some (f, u, d, vars, base, (_, line, _)) => all_variables_at k (unit_env f u) c (bu_frame u (fd_die d)) base (bu_loc u) vars line
  end.
(** debug_info.rs 453-455: lookup_type_by_name. *)
Definition lookup_type_by_name (s : str) : res (option tdef) := LookupModel.lookup_type_by_name k (map discovery_file indexed_files) s.
(** debug_info.rs 707-810: discovery. *)
Variable X : externals.
Variable sig_of : str -> str.
Definition discover_methods (t : tdef) : res (list DiscoverModel.dmethod) :=
  match locOf t with
  | Some h => DiscoverModel.methods_for_type X ix k (map discovery_file (bi_files B)) sig_of (die_env h) h (layOf t)
  | None => Err "no location"
  end.
Definition function_dies (i : N) : omap sname (env * Z) :=
  match file_by_id i with
  | None => []
  | Some f => map (fun e => (fst e, (file_env f (fd_die (snd e)), fd_die (snd e)))) (fs_functions (functions_in f))
  end.
Definition discover_functions (pattern : str) : res (list DiscoverModel.dfunction) := DiscoverModel.discover_functions k ix function_dies pattern.
Definition discover_all_functions : res (omap str DiscoverModel.dfunction) := DiscoverModel.discover_all_functions k ix function_dies.
(** debug_info.rs 739-745: discover_all_methods, discover_all_methods_debug. *)
Definition die_files (i : N) (h : Z) : Z -> option path :=
  match file_by_id i with
  | None => fun _ => None
  | Some f => match unit_at f h with Some u => unit_file u | None => fun _ => None end
  end.
Definition is_indexed (i : N) : bool := existsb (fun f => N.eqb (bf_id f) i) indexed_files.
Definition has_functions (i : N) : bool := match oget N.compare i (ix_by_file ix) with Some _ => true | None => false end.
Definition discover_all_methods : res (omap str (list DiscoverModel.dmethod)) :=
  DiscoverModel.discover_all_methods k die_files is_indexed ix function_dies.
Definition discover_all_methods_debug : res (omap str DiscoverModel.analysis) :=
  DiscoverModel.discover_all_functions_debug k die_files is_indexed has_functions ix function_dies.

(** ** What the evaluator uses (EvalModel): the same queries, the registers being asked for later *)
Definition variable_plan (a : Z) (name : str) : res (option EvalModel.vplan) :=
  o <- frame_at a ;;
  match o with
  | None => Ok None
  | Some (f, u, d, vars, base, _) =>
      let plan (x : var) :=
        EvalModel.VPlan (bu_frame u (fd_die d)) base (bu_loc u (va_die x))
          (match layOf (va_ty x) with
           | LAlias _ => match locOf (va_ty x) with Some h => resolve_type k (unit_env f u) h | None => Err "no location" end
           | _ => Ok (va_ty x)
           end) in
      match find (named_var name) (fst vars ++ snd vars) with Some x => Ok (Some (plan x)) | None => Ok None end
  end.
Variables (lossy : list Z -> str) (show_float : Z -> list Z -> str) (is_float : str -> bool).
Definition debug_info : EvalModel.dbg :=
  EvalModel.Dbg
    (IoDataModel.IEnv (fun l => match l with Some h => resolve_type k (die_env h) h | None => Err "no location" end) lossy show_float)
    variable_plan discover_methods discover_functions discover_all_functions lookup_type_by_name is_float k.
End Binary.
