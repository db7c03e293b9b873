(** Model of how the files of a binary are found and opened: crates/rudy-dwarf/src/file/mod.rs (File::build, load),
    rudy-db/src/database.rs (load_binary), crates/rudy-dwarf/src/symbols/mod.rs 31-114 (index_symbol_map).

    Parsing object files and archives is the `object` crate's and reading DWARF gimli's: a stored file says what they
    find in it. Modification times, sizes and memory mapping are dropped; a file does not change while it is used. *)
From Coq Require Import Ascii String List ZArith NArith Lia Bool.
From Verif Require Import Base OMap Utf8 SymModel PathModel LinesModel DieModel LocModel SourceModel.
Import ListNotations.
Open Scope Z_scope.

(** A unit of .debug_info with what gimli finds for it elsewhere: trailing padding of its entries, unit_length, the
    compilation directory, the line program (as in SourceModel), and per DIE the operations of DW_AT_location and
    DW_AT_frame_base ([None]: absent or not an expression). *)
Record bunit := BUnit {
  bu_die : die; bu_pad : nat; bu_length : Z; bu_comp : option (option str);
  bu_lines : option (bool * list fentry * option fentry * list row);
  bu_loc : Z -> option (list dop); bu_frame : Z -> option (list dop) }.
(** An object file: has_debug_symbols, the symbol table, the object map (path and member of each object, and each
    symbol's object index and entry), the units. *)
Record object := Object {
  ob_debug : bool; ob_symbols : list raw_entry;
  ob_objects : list (list Z * option (list Z)); ob_mapped : list (nat * raw_entry); ob_units : list bunit }.
(** A file: read as an object file, and read as an archive: its members with a readable header (name and contents). *)
Record stored := Stored { st_object : option object; st_archive : option (list (option (list Z * option object))) }.

(** Strict UTF-8 (String::from_utf8). *)
Definition utf8_text (bs : list Z) : option str :=
  let s := utf8_lossy bs in if list_eq_dec Z.eq_dec (utf8 s) bs then Some s else None.

(** file/mod.rs 60-67: File. *)
Definition file := (fpath * option str)%type.
Section Files.
Variable smap : list (fpath * fpath).
Variable fs : fpath -> option stored.
(** file/mod.rs 71-87: File::build. *)
Definition build (p : fpath) (member : option str) : option file :=
  let p' := remap_path smap p in match fs p' with Some _ => Some (p', member) | None => None end.
Definition member_named (m : str) (x : option (list Z * option object)) : bool :=
  match x with Some (n, _) => if list_eq_dec Z.eq_dec n (utf8 m) then true else false | None => false end.
(** file/mod.rs 151-202: load. *)
Definition load (f : file) : res object :=
  match fs (remap_path smap (fst f)) with
  | None => Err "IO Error"
  | Some s =>
      match snd f with
      | None => match st_object s with Some o => Ok o | None => Err "Object parse error" end
      | Some m =>
          match st_archive s with
          | None => Err "Object parse error"
          | Some ms =>
              match find (member_named m) ms with
              | Some (Some (_, Some o)) => Ok o
              | Some _ => Err "Object parse error"
              | None => Err "Member file not found"
              end
          end
      end
  end.

(** symbols/mod.rs 61-93: the debug file of an object of the object map, if there is one. *)
Definition object_file (o : list Z * option (list Z)) : option file :=
  match utf8_text (fst o) with
  | None => None
  | Some p =>
      match snd o with
      | None => build (components p) None
      | Some m => match utf8_text m with Some t => build (components p) (Some t) | None => None end
      end
  end.
(** DebugFile (file/mod.rs 103-111): its number stands for its salsa id, in the order of creation: the binary, then the
    objects. *)
Record debug_file := DebugFile { db_id : N; db_file : file; db_reloc : bool }.
Definition object_id (i : nat) : N := N.of_nat (S i).
Definition cmp_file : file -> file -> comparison := cmp_pair cmp_path (cmp_opt cmp_str).
Definition debug_files := @omap file debug_file.
Fixpoint add_objects (i : nat) (objects : list (list Z * option (list Z))) (m : debug_files) : debug_files :=
  match objects with
  | [] => m
  | o :: objects' =>
      add_objects (S i) objects'
        (match object_file o with Some f => oinsert cmp_file f (DebugFile (object_id i) f true) m | None => m end)
  end.
(** symbols/mod.rs 95-107: the groups of mapped symbols; [order]: the order in which the hash map gives the groups. *)
Variable order : list nat -> list nat.
Definition indices (l : list (nat * raw_entry)) : list nat := nodup Nat.eq_dec (map fst l).
Definition group (i : nat) (l : list (nat * raw_entry)) : list raw_entry := map snd (filter (fun s => Nat.eqb (fst s) i) l).
Definition object_symbols (o : object) : list (N * list raw_entry) :=
  flat_map (fun i => match option_map object_file (nth_error (ob_objects o) i) with
                     | Some (Some _) => [(object_id i, group i (ob_mapped o))]
                     | _ => []
                     end) (order (indices (ob_mapped o))).
(** The symbol tables in the order of indexing. *)
Definition symbol_tables (o : object) : list (N * list raw_entry) :=
  (if ob_debug o then [(0%N, ob_symbols o)] else []) ++ object_symbols o.
Definition files_of (f : file) (o : object) : debug_files :=
  add_objects 0 (ob_objects o) [((fst f, None), DebugFile 0 f false)].
(** symbols/mod.rs 31-114: index_symbol_map. (An object index beyond the objects would panic; the object crate makes
    none.) *)
Definition load_symbols (X : externals) (f : file) : res (debug_files * symbol_index) :=
  o <- load f ;; Ok (files_of f o, index_symbol_map X (symbol_tables o)).
End Files.
