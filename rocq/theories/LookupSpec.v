(** What types a file declares in a module, stated on DIE trees. *)
From Coq Require Import Ascii String List ZArith Bool.
From Verif Require Import Base DieModel DieSpec DieProofs DieProps ModuleModel ModuleSpec ModuleProofs TypesModel ParserModel ParserSpec DiscoverModel TypeTextModel.
Import ListNotations.
Open Scope Z_scope.

(** The namespaces of a tree with their paths ([p]: the path around the tree), in file order. *)
Fixpoint ns_dies (p : list str) (d : die) : list (list str * die) :=
  match d with
  | Die e kids =>
      (if is_namespace e then [(path_in p e, d)] else []) ++
      match kids with
      | Some l => (fix go l := match l with [] => [] | x :: l' => ns_dies (path_in p e) x ++ go l' end) l
      | None => []
      end
  end.
Definition is_type_die (d : die) : Prop :=
  In (e_tag (d_entry d)) [Tstructure; Tenumeration; Tarray; Tpointer; Tbase].
(** The children of the namespaces [path] of the Rust units of a file, in file order. *)
Definition module_members (path : list str) (units : list die) : list die :=
  flat_map (fun d => if is_rust_cu (d_entry d)
                     then flat_map (fun x => if list_eq_dec str_eq_dec (fst x) path then d_kids (snd x) else []) (ns_dies [] d)
                     else []) units.

(** A debug file holding the units [units]: its module index is the one computed from them, and a DIE is looked up in
    its unit. *)
Definition file_of (f : dfile) (units : list die) : Prop :=
  (exists ulen padded n ranges, map fst padded = units /\ good_file ulen units /\
     forall m, (n <= m)%nat -> module_index ulen m (file_toks padded) = Some (ranges, fl_modules f)) /\
  forall d, In d units -> en_unit (fl_env f (h_of d)) = d /\ good_env (fl_env f (h_of d)) /\
    forall x, in_tree d x -> fl_env f (h_of x) = fl_env f (h_of d).

(** A qualified type name: module path and name, the latter possibly with type arguments. *)
Definition no_sep (s : str) : Prop := ~ In (ch ":") s /\ ~ In (ch "<") s.
Definition type_path (path : list str) (name : str) : Prop :=
  Forall no_sep path /\ exists base args, name = base ++ args /\ no_sep base /\ (args = [] \/ exists r, args = ch "<" :: r).
