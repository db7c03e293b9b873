(** What DWARF and the symbol table say about functions and their variables, on trees. *)
From Coq Require Import Ascii String List ZArith NArith Bool.
From Verif Require Import Base OMap SymModel LinesModel DieModel DieSpec ModuleModel TypesModel ParserModel ParserSpec ResolveModel ResolveSpec FnModel.
Import ListNotations.
Open Scope Z_scope.

(** The DIEs of a tree not hidden below a DIE that is not descended into, in file order. *)
Fixpoint shown (descend : entry -> bool) (d : die) : list die :=
  d :: match d with
       | Die e (Some l) => if descend e then (fix go l := match l with [] => [] | x :: l' => shown descend x ++ go l' end) l else []
       | Die _ None => []
       end.

(** ** Functions *)
Definition in_modules (e : entry) : bool := match e_tag e with Tnamespace | Tstructure => true | _ => false end.
Definition language (u : die) : option Z := match get_attr (d_entry u) At_language with Some (ALang n) => Some n | _ => None end.
Definition is_rust (u : die) : bool := match language u with Some n => n =? 28 | None => false end.
(** The DIEs at module or type level in the Rust units. *)
Definition visible (units : list die) : list die :=
  flat_map (fun u => if is_rust u then flat_map (shown in_modules) (d_kids u) else []) units.
(** The symbol a function DIE is linked under: the one with its linkage name (preceded by '_' in a relocatable file). *)
Definition linked_symbol (reloc : bool) (syms : omap (list N) symbol) (d : die) : option symbol :=
  match e_tag (d_entry d), get_attr (d_entry d) At_linkage_name with
  | Tsubprogram, Some (AStr (Some s)) => oget cmp_raw (raw_of (if reloc then st "_" ++ s else s)) syms
  | _, _ => None
  end.
Definition linked_functions (reloc : bool) (syms : omap (list N) symbol) (units : list die) : list (die * symbol) :=
  flat_map (fun d => match linked_symbol reloc syms d with Some y => [(d, y)] | None => [] end) (visible units).
Definition range_of (d : die) : option (Z * Z) := match to_range (e_ranges (d_entry d)) with Ok r => r | _ => None end.
Definition same_name (n : sname) (p : die * symbol) : bool := match cmp_sname n (sym_name (snd p)) with Eq => true | _ => false end.
(** The last element with a property. *)
Definition last_with {A} (f : A -> bool) (l : list A) : option A := fold_left (fun r x => if f x then Some x else r) l None.
(** Units and linkage names are decodable, and the addresses fit. *)
Definition readable_units (reloc : bool) (syms : omap (list N) symbol) (units : list die) : Prop :=
  Forall (fun u => e_tag (d_entry u) = Tcompile_unit /\ exists n, language u = Some n) units /\
  Forall (fun d => e_tag (d_entry d) = Tsubprogram ->
    match get_attr (d_entry d) At_linkage_name with None | Some (AStr (Some _)) => True | _ => False end) (visible units) /\
  Forall (fun p => match range_of (fst p) with
                   | Some (lo, hi) => 0 <= sym_addr (snd p) + hi - lo < two64 /\ 0 <= sym_addr (snd p) + hi < two64
                   | None => True end) (linked_functions reloc syms units).

(** ** Variables *)
(** Declarations inside a function (in nested blocks too, but not in inlined calls) with the given tag. *)
Definition in_function (e : entry) : bool :=
  match e_tag e with
  | Tnamespace | Tsubprogram | Tstructure | Tenumeration | Tbase | Tpointer | Tarray | Tblock | Tunion => true
  | _ => false
  end.
Definition declared (t : tag) (d : die) : list die := filter (fun c => tag_eqb (e_tag (d_entry c)) t) (shown in_function d).

(** A variable or parameter DIE says: this name (or none), this type, this position (or none). *)
Definition var_says (v : env) (files : Z -> option path) (c : die) (x : var) : Prop :=
  match va_name x with Some s => named c s | None => forall s, ~ named c s end /\
  (exists t, typed c t /\ resolves v t (va_ty x)) /\
  match va_loc x with
  | Some (p, l) => exists i, has_attr c At_decl_file (AFile i) /\ files i = Some p /\ unsigned c At_decl_line l
  | None => (forall f, ~ has_attr c At_decl_file f) \/ (forall l, ~ unsigned c At_decl_line l)
  end /\
  va_die x = e_off (d_entry c).
(** What is reported for a declaration: nothing when it has no type, or one that cannot be resolved, or a position in
    a file the line table does not know. *)
Inductive reported (v : env) (files : Z -> option path) (c : die) : option var -> Prop :=
| rep_var x : var_says v files c x -> reported v files c (Some x)
| rep_untyped : (forall t, ~ typed c t) -> reported v files c None
| rep_unresolved t n m : typed c t -> shallow n v t = Err m -> reported v files c None
| rep_unplaced t ty f l : typed c t -> resolves v t ty -> has_attr c At_decl_file f -> unsigned c At_decl_line l ->
    (forall i p, f = AFile i -> files i <> Some p) -> reported v files c None.
Definition somes {A} (l : list (option A)) : list A := flat_map (fun o => match o with Some a => [a] | None => [] end) l.
