(** Model of the function index, of the variables of a function and of function signatures:
    crates/rudy-dwarf/src/function/{index,variables,mod}.rs and rudy-db/src/debug_info.rs (variable lookup).

    DIEs are identified by their section offset; the unit, module ranges and type-name parser come in an [env]
    (ParserModel). Tracing, the debug_location text and salsa caching are dropped. *)
From Coq Require Import Ascii String List ZArith NArith Lia Bool.
From Verif Require Import Base NumText OMap AddrModel SymModel LinesModel DieModel ModuleModel TypesModel ParserModel ResolveModel Utf8 LocModel.
Import ListNotations.
Open Scope Z_scope.

(** index.rs 22-36: FunctionData; specification_die is always None and alternate_locations always empty (index.rs
    145-151), so both are dropped. *)
Record fdata := FData { fd_die : Z; fd_range : option (Z * Z); fd_name : str }.
(** address/mod.rs 10-22: FunctionAddressInfo with its full name (the file is that being indexed). *)
Record ainfo := AInfo { ai_astart : Z; ai_aend : Z; ai_rstart : Z; ai_rend : Z; ai_name : sname }.
(** index.rs 79-83: FunctionIndexBuilder. *)
Record fstate := FState { fs_functions : omap sname fdata; fs_addresses : list ainfo }.

(** index.rs 113-198: visit_function. [reloc]: the file is relocatable; [syms]: the file's symbols by raw name. *)
Definition raw_of (s : str) : list N := map Z.to_N (utf8 s).
Definition symbol_of (reloc : bool) (syms : omap (list N) symbol) (linkage : str) : option symbol :=
  oget cmp_raw (raw_of (if reloc then ch "_" :: linkage else linkage)) syms.
Definition visit_function (reloc : bool) (syms : omap (list N) symbol) (s : fstate) (e : entry) : res fstate :=
  o <- get_string_attr e At_linkage_name ;;
  match o with
  | None => Ok s
  | Some linkage =>
      match symbol_of reloc syms linkage with
      | None => Ok s
      | Some y =>
          let range := match to_range (e_ranges e) with Ok r => r | _ => None end in
          addrs <- match range with
                   | Some (lo, hi) =>
                       a <- add64 (sym_addr y) hi ;;
                       b <- sub64 a lo ;;
                       Ok (fs_addresses s ++ [AInfo (sym_addr y) b lo hi (sym_name y)])
                   | None => Ok (fs_addresses s)
                   end ;;
          Ok (FState (oinsert cmp_sname (sym_name y) (FData (e_off e) range (lookup_name (sym_name y))) (fs_functions s)) addrs)
      end
  end.
(** index.rs 97-111: visit_die. The state carries a panic; an error leaves what was collected. *)
Definition fn_pre (reloc : bool) (syms : omap (list N) symbol) (r : res fstate) (e : entry) : res fstate * decision :=
  match r with
  | Ok s =>
      match e_tag e with
      | Tsubprogram =>
          match visit_function reloc syms s e with
          | Ok s' => (Ok s', Skip)
          | Err _ => (Ok s, Fail)
          | x => (x, Fail)
          end
      | Tnamespace | Tstructure => (r, Descend)
      | _ => (r, Skip)
      end
  | _ => (r, Fail)
  end.
Definition fn_visitor (reloc : bool) (syms : omap (list N) symbol) : visitor (res fstate) :=
  Visitor (fn_pre reloc syms) (fun r _ => inl r).
(** visitor.rs 298-303 with parser/primitives.rs 418-420: the default visit_cu; a unit without a language is an error. *)
Definition rust_cu_visitor {V} : cu_visitor V :=
  CuVisitor (fun s e => (s, match get_attr e At_language with Some (ALang n) => if n =? 28 then Descend else Skip | _ => Fail end))
    (fun s _ => s).
(** index.rs 203-233: function_index (the interval tree over the addresses is AddrModel's). *)
Definition function_index (reloc : bool) (syms : omap (list N) symbol) (n : nat) (units : list (list tok)) : res fstate :=
  match walk_file rust_cu_visitor (fn_visitor reloc syms) n units (Ok (FState [] [])) with
  | Some (r, _) => r
  | None => Fuel
  end.

(** file.rs / die/mod.rs 309-347: position; [files]: path of each file of the unit's line program. *)
Definition position (files : Z -> option path) : parser (option (path * Z)) := fun v h =>
  match attr_of At_decl_file v h with
  | Ok f =>
      match udata_attr At_decl_line v h with
      | Ok line =>
          match f with
          | AFile i => match files i with Some p => Ok (Some (p, line)) | None => Err "Failed to parse file index" end
          | _ => Err "Expected DW_AT_decl_file to be a FileIndex"
          end
      | Err _ => Ok None
      | Panic m => Panic m
      | Fuel => Fuel
      end
  | Err _ => Ok None
  | Panic m => Panic m
  | Fuel => Fuel
  end.
(** variables.rs 22-44: Variable. *)
Record var := Var { va_name : option str; va_ty : tdef; va_loc : option (path * Z); va_die : Z }.
(** variables.rs 126-133: variable. [k]: recursion budget of the type resolution. *)
Definition variable (files : Z -> option path) (k : nat) : parser var := fun v h =>
  n <- p_filter name_attr v h ;;
  t <- entry_shallow (shallow k) v h ;;
  p <- position files v h ;;
  Ok (Var n t p h).

(** variables.rs 46-93: VariableVisitor (params, locals). *)
Definition push_var (params : bool) (s : list var * list var) (x : var) : list var * list var :=
  if params then (fst s ++ [x], snd s) else (fst s, snd s ++ [x]).
Definition var_pre (files : Z -> option path) (k : nat) (v : env) (r : res (list var * list var)) (e : entry)
  : res (list var * list var) * decision :=
  match r with
  | Ok s =>
      let declare params :=
        match variable files k v (e_off e) with
        | Ok x => (Ok (push_var params s x), Skip)
        | Err _ => (r, Skip)
        | Panic m => (Panic m, Fail)
        | Fuel => (Fuel, Fail)
        end in
      match e_tag e with
      | Tvariable => declare false
      | Tparameter => declare true
      | Tnamespace | Tsubprogram | Tstructure | Tenumeration | Tbase | Tpointer | Tarray | Tblock | Tunion => (r, Descend)
      | _ => (r, Skip)
      end
  | _ => (r, Fail)
  end.
Definition var_visitor (files : Z -> option path) (k : nat) (v : env) : visitor (res (list var * list var)) :=
  Visitor (var_pre files k v) (fun r _ => inl r).
(** The entries of the unit from the DIE [h] on (die/mod.rs 292-307: entries_at_offset). *)
Fixpoint toks_from (h : Z) (l : list tok) : list tok :=
  match l with
  | [] => []
  | Ent e k :: l' => if e_off e =? h then l else toks_from h l'
  | Null :: l' => toks_from h l'
  end.
(** variables.rs 103-124: resolve_function_variables. *)
Definition resolve_function_variables (files : Z -> option path) (n k : nat) (pad : nat) (v : env) (h : Z) : res (list var * list var) :=
  _ <- lookup v h ;;
  match walk_die (var_visitor files k v) n (toks_from h (toks (en_unit v) ++ repeat Null pad)) (Ok ([], [])) with
  | Some (r, true) => r
  | Some (Ok _, false) => Err "walk failed"
  | Some (r, false) => r
  | None => Fuel
  end.

(** function/mod.rs 241-262: function_parameter and function_declaration: name, return type, parameters. *)
Definition function_parameter (files : Z -> option path) (k : nat) : parser var :=
  p_then (is_member_tag Tparameter) (variable files k).
(** combinators.rs 114-125: Then on an optional DIE. *)
Definition p_then_opt {U} (p : parser (option Z)) (q : parser U) : parser (option U) := fun v h =>
  o <- p v h ;; match o with Some m => rmap Some (q v m) | None => Ok None end.
Definition function_declaration (files : Z -> option path) (k : nat) : parser (str * option tdef * list var) := fun v h =>
  name <- name_attr v h ;;
  ret <- p_then_opt (p_filter (ref_attr At_type)) (shallow k) v h ;;
  ps <- try_for_each_child (p_then_opt (p_filter (is_member_tag Tparameter)) (function_parameter files k)) v h ;;
  Ok (name, ret, ps).
(** function/mod.rs 319-348: SelfType, from_param_type. *)
Inductive self_type := Owned | Borrowed | BorrowedMut.
Definition self_of_type (l : layout) : self_type :=
  match l with LReference true _ => BorrowedMut | LReference false _ => Borrowed | _ => Owned end.
(** function/mod.rs 171-193: FunctionSignature; [callable] is always true here. *)
Record signature := Sig { sg_name : str; sg_params : list var; sg_ret : option tdef; sg_self : option self_type }.
(** function/mod.rs 286-300. *)
Definition is_self_name (n : option str) : bool :=
  match n with
  | Some s => str_eqb s (st "self") || str_eqb s (st "&self") || str_eqb s (st "&mut self")
  | None => false
  end.
Definition self_of_params (ps : list var) : option self_type :=
  match ps with
  | x :: _ => if is_self_name (va_name x) then Some (self_of_type (layOf (va_ty x))) else None
  | [] => None
  end.
(** function/mod.rs 262-317: resolve_function_signature. *)
Definition resolve_function_signature (files : Z -> option path) (k : nat) : parser signature := fun v h =>
  ' (name, ret, ps) <- function_declaration files k v h ;;
  Ok (Sig name ps ret (self_of_params ps)).
(** function/mod.rs 216-233: print_sig. *)
Definition print_param (x : var) : str := (match va_name x with Some n => n | None => st "_" end) ++ st ": " ++ tname (va_ty x).
Definition print_sig (s : signature) : str :=
  st "fn(" ++ join (st ", ") (map print_param (sg_params s)) ++ st ")" ++
  match sg_ret s with Some t => st " -> " ++ tname t | None => [] end.

(** debug_info.rs 1081-1116: variable_info: name, address, type. [loc]: the operations of the DIE's DW_AT_location;
    [fb]: those of the function's DW_AT_frame_base. *)
Record vinfo := VInfo { vi_name : str; vi_addr : option Z; vi_ty : tdef }.
Section AtPc.
Variables (files : Z -> option path) (k : nat) (v : env) (c : regs) (fb : option (list dop)) (base : Z) (loc : Z -> option (list dop)).
Definition variable_info (x : var) : res vinfo :=
  a <- resolve_data_location c fb base (loc (va_die x)) ;;
  t <- match layOf (va_ty x) with
       | LAlias _ => match locOf (va_ty x) with Some h => resolve_type k v h | None => Err "no location" end
       | _ => Ok (va_ty x)
       end ;;
  Ok (VInfo (match va_name x with Some n => n | None => st "_" end) a t).
Definition named_var (name : str) (x : var) : bool := match va_name x with Some n => str_eqb n name | None => false end.
(** debug_info.rs 279-339: get_variable_at_pc, once the address has been attributed to a function whose variables
    are [vars]. *)
Definition variable_at (vars : list var * list var) (name : str) : res (option vinfo) :=
  match find (named_var name) (fst vars) with
  | Some x => rmap Some (variable_info x)
  | None => match find (named_var name) (snd vars) with Some x => rmap Some (variable_info x) | None => Ok None end
  end.
(** debug_info.rs 372-425: get_all_variables_at_pc, [line] being the line of the address. *)
Definition declared_before (line : Z) (x : var) : bool := match va_loc x with Some (_, l) => l <? line | None => false end.
Definition all_variables_at (vars : list var * list var) (line : Z) : res (list vinfo * list vinfo) :=
  ps <- mapM variable_info (fst vars) ;;
  ls <- mapM variable_info (filter (declared_before line) (snd vars)) ;;
  Ok (ps, ls).
End AtPc.
(** debug_info.rs 138-179: the parameter names of find_function_by_name. *)
Definition param_names (ps : list var) : list str :=
  map (fun p => match va_name (snd p) with Some n => n | None => st "__" ++ dec (Z.of_nat (fst p)) end) (combine (seq 0 (length ps)) ps).
