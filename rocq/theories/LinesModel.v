(** Model of the line tables: crates/rudy-dwarf/src/address/resolution.rs, die/utils.rs (to_range),
    die/navigation.rs (parse_roots), function/index.rs (FunctionIndex), rudy-db/src/query.rs and
    rudy-db/src/index.rs (find_all_by_address).

    Reading DWARF bytes is gimli's: a unit is given by its ranges, its file table and the rows its line program
    produces. Paths are compared by components, as PathBuf does: a path is a list of components (PathModel). *)
From Coq Require Import Ascii String List ZArith Lia Bool.
From Verif Require Import Base OMap AddrModel SymModel PathModel.
Import ListNotations.
Open Scope Z_scope.

Definition path := fpath.
Definition path_eqb (a b : path) : bool := fpath_eqb a b.

(** gimli::LineRow: address, file index, line (0 means unknown), column (0 is the left edge), end_sequence. *)
Record row := Row { r_addr : Z; r_file : Z; r_line : option Z; r_col : Z; r_end : bool }.
(** A line program: whether it is DWARF version 5; the paths of its file table in order ([None] when
    file_entry_to_path, die/utils.rs 85-131, yields nothing); gimli's entry for file index 0 before version 5;
    the rows it yields, up to the first error if there is one. *)
Record lprog := LProg { lp_v5 : bool; lp_files : list (option path); lp_comp : option (option path); lp_rows : list row }.
(** A compilation unit: its address ranges (or an error) and its line program. *)
Record cunit := CUnit { u_ranges : res (list (Z * Z)); u_prog : option lprog }.
(** A debug file: units, the functions of its function index, the unit of each function's declaration DIE by
    symbol name (by_symbol_name), and whether SymbolIndex::function_index knows it. *)
Record dfile := DFile { d_units : list cunit; d_funcs : list finfo; d_data : list (str * nat); d_indexed : bool }.

(** die/utils.rs 135-148: to_range. *)
Definition range_step (acc : option Z * option Z) (r : Z * Z) : option Z * option Z :=
  let '(lo, hi) := acc in
  ((match lo with None => Some (fst r) | Some l => if fst r <? l then Some (fst r) else lo end),
   (match hi with None => Some (snd r) | Some h => if h <? snd r then Some (snd r) else hi end)).
Definition to_range (rs : res (list (Z * Z))) : res (option (Z * Z)) :=
  l <- rs ;;
  match fold_left range_step l (None, None) with
  | (Some lo, Some hi) => Ok (Some (lo, hi))
  | _ => Ok None
  end.

(** gimli: the file entry of a row (LineProgramHeader::file). *)
Definition row_file (p : lprog) (r : row) : option (option path) :=
  if lp_v5 p then nth_error (lp_files p) (Z.to_nat (r_file r))
  else if r_file r =? 0 then lp_comp p else nth_error (lp_files p) (Z.to_nat (r_file r - 1)).

(** SourceLocation: file, line, column. *)
Definition sloc := (path * Z * option Z)%type.

(** resolution.rs 16-64: address_to_location, the row loop. *)
Fixpoint find_row (p : lprog) (a : Z) (rows : list row) : option sloc :=
  match rows with
  | [] => None
  | r :: rows' =>
      if r_end r then find_row p a rows'
      else if r_addr r =? a then
        match r_line r with
        | None => find_row p a rows'
        | Some line =>
            let column := if r_col r =? 0 then None else Some (r_col r) in
            match row_file p r with
            | Some (Some f) => Some (f, line, column)
            | Some None => None
            | None => find_row p a rows'
            end
        end
      else find_row p a rows'
  end.
Definition address_to_location (u : cunit) (a : Z) : option sloc :=
  match u_prog u with None => None | Some p => find_row p a (lp_rows p) end.

(** navigation.rs 58-114: parse_roots keeps the units that have an address range. *)
Definition has_range (u : cunit) : bool := match to_range (u_ranges u) with Ok (Some _) => true | _ => false end.
Definition roots (d : dfile) : list cunit := filter has_range (d_units d).
(** navigation.rs 97-110: the files of a root. *)
Definition root_files (u : cunit) : list path :=
  match u_prog u with
  | None => []
  | Some p => flat_map (fun f => match f with Some x => [x] | None => [] end) (lp_files p)
  end.

(** resolution.rs 112-132: the index of the first entry with the wanted path, plus one. *)
Fixpoint file_index (fs : list (option path)) (f : path) (i : Z) : option Z :=
  match fs with
  | [] => None
  | x :: fs' => if match x with Some y => path_eqb y f | None => false end then Some (i + 1) else file_index fs' f (i + 1)
  end.

Section Lines.
(** slice::sort_unstable_by_key, as in AddrModel. *)
Variable sort : (finfo -> Z) -> list finfo -> list finfo.

(** resolution.rs 147-217: the row loop; the result says whether an exact match ended the search. *)
Fixpoint scan_rows (funcs : list finfo) (idx target : Z) (rows : list row) (best : option (Z * Z)) : res (bool * option (Z * Z)) :=
  match rows with
  | [] => Ok (false, best)
  | r :: rows' =>
      if r_end r then scan_rows funcs idx target rows' best
      else if r_file r =? idx then
        match r_line r with
        | None => scan_rows funcs idx target rows' best
        | Some line =>
            if line <? target then scan_rows funcs idx target rows' best
            else
              let diff := line - target in
              if match best with None => true | Some (_, d) => diff <? d end then
                match query_address (address_tree_new sort funcs) (r_addr r) false with
                | [] => scan_rows funcs idx target rows' best
                | f :: _ =>
                    s <- add64 (absolute_start f) (r_addr r) ;;
                    a <- sub64 s (relative_start f) ;;
                    if diff =? 0 then Ok (true, Some (a, 0)) else scan_rows funcs idx target rows' (Some (a, diff))
                end
              else scan_rows funcs idx target rows' best
        end
      else scan_rows funcs idx target rows' best
  end.

(** resolution.rs 69-221: location_to_address, the loop over the roots. *)
Fixpoint scan_units (funcs : list finfo) (file : path) (target : Z) (us : list cunit) (best : option (Z * Z)) : res (option (Z * Z)) :=
  match us with
  | [] => Ok best
  | u :: us' =>
      if existsb (path_eqb file) (root_files u) then
        match u_prog u with
        | None => Ok None
        | Some p =>
            match file_index (lp_files p) file 0 with
            | None => scan_units funcs file target us' best
            | Some idx =>
                '(stop, best') <- scan_rows funcs idx target (lp_rows p) best ;;
                if stop then Ok best' else scan_units funcs file target us' best'
            end
        end
      else scan_units funcs file target us' best
  end.
Definition location_to_address (d : dfile) (file : path) (target : Z) : res (option (Z * Z)) :=
  scan_units (d_funcs d) file target (roots d) None.

(** query.rs 11-55: lookup_position over the debug files that mention the source file. *)
Fixpoint scan_files (file : path) (target : Z) (ds : list dfile) (best : option (Z * Z)) : res (option Z) :=
  match ds with
  | [] => Ok (option_map fst best)
  | d :: ds' =>
      if d_indexed d then
        o <- location_to_address d file target ;;
        match o with
        | None => scan_files file target ds' best
        | Some (a, dist) =>
            let closest := match best with Some (_, c) => c | None => 18446744073709551615 end in
            let best' := if dist <? closest then Some (a, dist) else best in
            if dist =? 0 then Ok (option_map fst best') else scan_files file target ds' best'
        end
      else scan_files file target ds' best
  end.
Definition lookup_position (sources : list (path * list dfile)) (file : path) (target : Z) : res (option Z) :=
  match find (fun e => path_eqb (fst e) file) sources with
  | None => Ok None
  | Some e => scan_files file target (snd e) None
  end.

(** function/index.rs 48-66: address_to_locations. *)
Definition unit_of (d : dfile) (name : str) : option cunit :=
  match find (fun e => str_eqb (fst e) name) (d_data d) with
  | Some (_, n) => nth_error (d_units d) n
  | None => None
  end.
Definition address_to_locations (d : dfile) (a : Z) : list (str * sloc) :=
  flat_map (fun f =>
    match unit_of d (f_name f) with
    | None => []
    | Some u => match address_to_location u (relative_start f + (a - absolute_start f)) with
                | None => [] | Some l => [(f_name f, l)] end
    end) (query_address (address_tree_new sort (d_funcs d)) a true).

(** Itertools::unique: first occurrences. *)
Fixpoint unique (seen : list N) (l : list N) : list N :=
  match l with
  | [] => []
  | x :: l' => if existsb (N.eqb x) seen then unique seen l' else x :: unique (x :: seen) l'
  end.
(** rudy-db/src/index.rs 195-235: find_all_by_address; [files] gives the debug file of each id. *)
Definition find_all_by_address (ix : symbol_index) (files : N -> option dfile) (a : Z) : list (str * sloc) :=
  match function_at_address ix a with
  | None => []
  | Some (_, syms) =>
      flat_map (fun n => match files n with
                         | Some d => if d_indexed d then address_to_locations d a else []
                         | None => [] end) (unique [] (map sym_file syms))
  end.
(** query.rs 57-74: lookup_address takes the last result. *)
Definition lookup_address (ix : symbol_index) (files : N -> option dfile) (a : Z) : option (str * sloc) :=
  match rev (find_all_by_address ix files a) with [] => None | x :: _ => Some x end.
End Lines.

(** Path::ends_with: the last components are those of the suffix. *)
Definition path_ends_with (p suffix : path) : bool :=
  (length suffix <=? length p)%nat && path_eqb (skipn (length p - length suffix) p) suffix.
(** rudy-db/src/debug_info.rs 214-249: find_address_from_source_location; [sources] in the order of the index
    (source_to_file, a BTreeMap). The requested name is given as its components. *)
Definition choose_source (sources : list (path * list dfile)) (file : path) : option path :=
  if existsb (fun e => path_eqb (fst e) file) sources then Some file
  else match find (fun e => path_ends_with (fst e) file) sources with Some e => Some (fst e) | None => None end.
Definition find_address_from_source_location (sort : (finfo -> Z) -> list finfo -> list finfo)
    (sources : list (path * list dfile)) (file : path) (line : Z) : res (option Z) :=
  match choose_source sources file with
  | None => Ok None
  | Some f => lookup_position sort sources f line
  end.
