(** Model of the source-file index: crates/rudy-dwarf/src/die/utils.rs (file_entry_to_path), file/index.rs
    (index_debug_file_sources), file/mod.rs (detect_cargo_root) and rudy-db/src/index.rs (debug_index).

    Reading DWARF bytes is gimli's: a unit is given by whether its root DIE can be read, whether its language attribute
    says Rust (die/cu.rs 29-51, is_rust_cu), its compilation directory, the entries of its file table and the data the
    line-table model needs. A debug file stands for its identity. *)
From Coq Require Import Ascii String List ZArith Lia Bool.
From Verif Require Import Base OMap AddrModel SymModel PathModel LinesModel.
Import ListNotations.
Open Scope Z_scope.

Definition slash : char := 47%N.
(** The pieces of a text between slashes. *)
Fixpoint pieces (s : str) : list str :=
  match s with
  | [] => [[]]
  | c :: s' => if N.eqb c slash then [] :: pieces s'
               else match pieces s' with p :: ps => (c :: p) :: ps | [] => [[c]] end
  end.
(** std::path::Components on Unix: empty pieces and "." vanish (except a leading "."). *)
Definition piece_comps (p : str) : list comp :=
  if str_eqb p [] || str_eqb p (st ".") then [] else if str_eqb p (st "..") then [CUp] else [CName p].
Definition components (s : str) : fpath :=
  match pieces s with
  | [] => []
  | p :: ps =>
      match s with
      | [] => []
      | c :: _ => if N.eqb c slash then CRoot :: flat_map piece_comps (p :: ps)
                  else if str_eqb p (st ".") then CCur :: flat_map piece_comps ps
                  else flat_map piece_comps (p :: ps)
      end
  end.
(** Path's Ord: components one by one, in the order RootDir, CurDir, ParentDir, Normal (derived on Component), names
    by their bytes (the order of UTF-8 is that of the characters). *)
Definition comp_rank (c : comp) : Z := match c with CRoot => 0 | CCur => 1 | CUp => 2 | CName _ => 3 end.
Definition comp_name (c : comp) : str := match c with CName s => s | _ => [] end.
Definition cmp_comp (a b : comp) : comparison := cmp_pair Z.compare cmp_str (comp_rank a, comp_name a) (comp_rank b, comp_name b).
Definition cmp_path : fpath -> fpath -> comparison := cmp_list cmp_comp.
(** Path::parent. *)
Definition parent (p : fpath) : option fpath :=
  match rev p with
  | [] => None
  | CRoot :: _ => None
  | _ :: r => Some (rev r)
  end.

(** A file-table entry: the text of its directory (gimli's FileEntry::directory, attr_string and to_string; [None] when
    any of them fails) and of its name. *)
Record fentry := FEntry { fe_dir : option str; fe_name : option str }.
(** A unit. [su_comp]: DW_AT_comp_dir; [Some None] is one that is not text. *)
Record sunit := SUnit {
  su_root : bool; su_rust : bool; su_comp : option (option str); su_ranges : res (list (Z * Z));
  su_table : option (bool * list fentry * option fentry * list row) }.
Record sfile := SFile { sf_units : list sunit; sf_funcs : list finfo; sf_data : list (str * nat); sf_indexed : bool }.

Section Map.
(** The source map of the database, as in PathModel. *)
Variable smap : list (fpath * fpath).

(** utils.rs 109-131: the text of the path. *)
Definition entry_text (cdir : option (option str)) (e : fentry) : option str :=
  match fe_name e with
  | None => None
  | Some name =>
      Some (match fe_dir e with
            | Some d =>
                if starts_with d (st "/") then d ++ st "/" ++ name
                else
                  let compilation_dir := match cdir with Some (Some c) => c | _ => st "/" end in
                  compilation_dir ++ st "/" ++ d ++ st "/" ++ name
            | None => name
            end)
  end.
(** utils.rs 84-133: file_entry_to_path. *)
Definition file_entry_to_path (cdir : option (option str)) (e : fentry) : option fpath :=
  match entry_text cdir e with None => None | Some t => Some (remap_path smap (components t)) end.

(** BTreeSet::extend over the entries. *)
Definition set_add (m : @omap fpath unit) (p : fpath) : @omap fpath unit := oinsert cmp_path p tt m.
(** file/index.rs 50-62: the files of a unit. *)
Definition unit_sources (u : sunit) : list fpath :=
  match su_table u with
  | None => []
  | Some (_, es, _, _) => flat_map (fun e => match file_entry_to_path (su_comp u) e with Some p => [p] | None => [] end) es
  end.
(** file/index.rs 16-67: index_debug_file_sources, the sources (the compile directories are not used by any caller). *)
Definition index_debug_file_sources (f : sfile) : list fpath :=
  map fst (fold_left (fun m u => if su_root u && su_rust u then fold_left set_add (unit_sources u) m else m) (sf_units f) []).

(** index.rs 128-131. *)
Definition add_sources (d : sfile) (m : @omap fpath (list sfile)) : @omap fpath (list sfile) :=
  fold_left (fun m p => oupdate cmp_path p [] (fun l => l ++ [d]) m) (index_debug_file_sources d) m.
(** Path::starts_with. *)
Definition path_starts_with (p pre : fpath) : bool := match strip_prefix p pre with Some _ => true | None => false end.
(** index.rs 132-141. *)
Definition is_local (workspace : fpath) (d : sfile) : bool :=
  existsb (fun p => path_starts_with p workspace || path_starts_with p [CCur]) (index_debug_file_sources d).
(** index.rs 124-155: debug_index, the indexed files and the source map; [files] are the values of DebugFiles. *)
Definition debug_index (workspace : option fpath) (files : list sfile) : list sfile * @omap fpath (list sfile) :=
  ((match workspace with None => [] | Some w => filter (is_local w) files end),
   fold_left (fun m d => add_sources d m) files []).

(** The view of the line-table model. *)
Definition view_unit (u : sunit) : cunit :=
  CUnit (su_ranges u)
    (match su_table u with
     | None => None
     | Some (v5, es, zero, rows) =>
         Some (LProg v5 (map (file_entry_to_path (su_comp u)) es) (option_map (file_entry_to_path (su_comp u)) zero) rows)
     end).
Definition view_file (f : sfile) : dfile := DFile (map view_unit (sf_units f)) (sf_funcs f) (sf_data f) (sf_indexed f).
(** The sources as query.rs and debug_info.rs see them. *)
Definition index_sources (files : list sfile) : list (path * list dfile) :=
  map (fun e => (fst e, map view_file (snd e))) (snd (debug_index None files)).
(** debug_info.rs 214-249: find_address_from_source_location on the index; PathBuf::from(file). *)
Definition address_of_line (sort : (finfo -> Z) -> list finfo -> list finfo) (files : list sfile) (file : str) (line : Z) : res (option Z) :=
  find_address_from_source_location sort (index_sources files) (components file) line.
End Map.

(** file/mod.rs 33-57: detect_cargo_root. [cargo]: what `cargo locate-project` prints, trimmed, when it could be run
    and printed UTF-8; [cwd]: the current directory; [present]: whether a file exists. The loop ends because parents
    get shorter: [n] is the number of components. *)
Fixpoint up_to_manifest (n : nat) (present : fpath -> bool) (p : fpath) : option fpath :=
  if present (join p [CName (st "Cargo.toml")]) then Some p
  else match n, parent p with S n', Some q => up_to_manifest n' present q | _, _ => None end.
Definition detect_cargo_root (cargo : option str) (cwd : option fpath) (present : fpath -> bool) : option fpath :=
  let by_cwd := match cwd with Some p => up_to_manifest (length p) present p | None => None end in
  match cargo with
  | Some t => match parent (components t) with Some p => Some p | None => by_cwd end
  | None => by_cwd
  end.
