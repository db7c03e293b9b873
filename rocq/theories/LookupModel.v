(** Model of lookup_type_by_name: rudy-db/src/index.rs 238-286 (resolve_type, public as debug_info.rs 453) and
    crates/rudy-dwarf/src/types/index.rs 40-103 (find_type_by_name).

    Tracing is dropped (also the [module.name(db).unwrap()] of types/index.rs 67, an argument of a trace message). [k]:
    recursion budget of type resolution. The indexed debug files come as a list, in the index's order. *)
From Coq Require Import Ascii String List ZArith NArith Lia Bool.
From Verif Require Import Base NumText SymModel DieModel ModuleModel TypesModel ParserModel ResolveModel DiscoverModel TypeTextModel.
Import ListNotations.
Open Scope Z_scope.

(** index.rs 243-259: the module path and the name of the type. (split gives at least one segment, so pop succeeds.) *)
Definition split_type_name (s : str) : list str * str :=
  match split_first (st "<") s with
  | Some (name, generics) =>
      let segs := split_colons name [] in (removelast segs, last segs [] ++ st "<" ++ generics)
  | None => let segs := split_colons s [] in (removelast segs, last segs [])
  end.

(** types/index.rs 72-82: the tags looked at. *)
Definition type_tag (t : tag) : bool :=
  tag_eqb t Tstructure || tag_eqb t Tenumeration || tag_eqb t Tarray || tag_eqb t Tpointer || tag_eqb t Tbase.
(** types/index.rs 71-98: the first child of a module's DIE that matches. *)
Fixpoint find_child (path : list str) (target : layout) (v : env) (l : list Z) : res (option Z) :=
  match l with
  | [] => Ok None
  | c :: l' =>
      if type_tag (tag_of v c) then
        match name_attr v c with
        | Ok n =>
            match typename_parse path n with
            | Ok p => if matching_type p target then Ok (Some c) else find_child path target v l'
            | Err _ => find_child path target v l'
            | Panic m => Panic m
            | Fuel => Fuel
            end
        | _ => find_child path target v l'
        end
      else find_child path target v l'
  end.
(** types/index.rs 64-100: the DIEs of the module, one after the other. *)
Fixpoint find_entry (path : list str) (target : layout) (f : dfile) (l : list Z) : res (option (env * Z)) :=
  match l with
  | [] => Ok None
  | d :: l' =>
      let v := fl_env f d in
      o <- find_child path target v (match children v d with Ok cs => cs | _ => [] end) ;;
      match o with Some c => Ok (Some (v, c)) | None => find_entry path target f l' end
  end.
(** types/index.rs 40-103: find_type_by_name. *)
Definition find_type_by_name (path : list str) (target : layout) (f : dfile) : res (option (env * Z)) :=
  match find_by_path (fl_modules f) path with
  | None => Ok None
  | Some m => find_entry path target f (entries_of m)
  end.
(** index.rs 276-284: the first file that has the type. *)
Fixpoint find_in_files (path : list str) (target : layout) (files : list dfile) : res (option (env * Z)) :=
  match files with
  | [] => Ok None
  | f :: files' =>
      o <- find_type_by_name path target f ;;
      match o with Some d => Ok (Some d) | None => find_in_files path target files' end
  end.
(** index.rs 238-286: resolve_type. *)
Definition lookup_type_by_name (k : nat) (files : list dfile) (s : str) : res (option tdef) :=
  let '(path, name) := split_type_name s in
  target <- typename_parse path name ;;
  o <- find_in_files path target files ;;
  match o with
  | Some (v, h) => rmap Some (resolve_type k v h)
  | None => Ok None
  end.
