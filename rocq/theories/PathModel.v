(** Model of DwarfDb::remap_path (crates/rudy-dwarf/src/lib.rs 37-55).

    A path is the sequence of its components (std::path::Path::components on Unix); PathBuf compares and hashes by
    components, so this is all that can be observed. *)
From Coq Require Import Ascii String List ZArith Lia Bool.
From Verif Require Import Base.
Import ListNotations.
Open Scope Z_scope.

(** std::path::Component: RootDir, CurDir, ParentDir, Normal. *)
Inductive comp := CRoot | CCur | CUp | CName (s : str).
Definition comp_eqb (a b : comp) : bool :=
  match a, b with CRoot, CRoot | CCur, CCur | CUp, CUp => true | CName s, CName t => str_eqb s t | _, _ => false end.
Definition fpath := list comp.
Fixpoint fpath_eqb (a b : fpath) : bool :=
  match a, b with [], [] => true | x :: a', y :: b' => comp_eqb x y && fpath_eqb a' b' | _, _ => false end.
(** Path::strip_prefix. *)
Fixpoint strip_prefix (p pre : fpath) {struct pre} : option fpath :=
  match pre, p with
  | [], _ => Some p
  | x :: pre', y :: p' => if comp_eqb x y then strip_prefix p' pre' else None
  | _ :: _, [] => None
  end.
(** Path::join: an absolute path replaces; a leading "." is a component only at the very beginning. *)
Definition join (t p : fpath) : fpath :=
  match p with
  | CRoot :: _ => p
  | CCur :: p' => match t with [] => p | _ => t ++ p' end
  | _ => t ++ p
  end.
(** lib.rs 38-55: remap_path, the loop over the source map. *)
Fixpoint remap_path (m : list (fpath * fpath)) (p : fpath) : fpath :=
  match m with
  | [] => p
  | (s, t) :: m' =>
      if fpath_eqb s t then remap_path m' p
      else match strip_prefix p s with Some r => remap_path m' (join t r) | None => remap_path m' p end
  end.
