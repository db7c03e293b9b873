(** What a DIE tree and a symbol table say about functions and methods. *)
From Coq Require Import Ascii String List ZArith NArith Lia Bool.
From Verif Require Import Base NumText OMap SymModel SymSpec DieModel ModuleModel TypesModel ParserModel ParserSpec ResolveModel ResolveSpec FnModel FnSpec FnProps SynthModel DiscoverModel.
Import ListNotations.
Open Scope Z_scope.

(** Attributes, as functions of the DIE. *)
Definition text_of (a : attr_name) (d : die) : option str := match get_attr (d_entry d) a with Some (AStr (Some s)) => Some s | _ => None end.
Definition ref_of (a : attr_name) (d : die) : option Z := match get_attr (d_entry d) a with Some (AUnitRef t) => Some t | _ => None end.
(** The parameters a function DIE declares, in order: name (if any) and type; one without a type does not count. *)
Definition declared_params (d : die) : list (option str * Z) :=
  flat_map (fun c => match e_tag (d_entry c), ref_of At_type c with Tparameter, Some t => [(text_of At_name c, t)] | _, _ => [] end) (d_kids d).
(** The functions declared directly inside a DIE, in order. *)
Definition functions_in (d : die) : list die := filter (fun c => tag_eqb (e_tag (d_entry c)) Tsubprogram) (d_kids d).
Definition fn_name (d : die) : str := match text_of At_name d with Some n => n | None => st "<anonymous>" end.

(** A type that cannot be resolved. *)
Definition unresolvable (v : env) (t : Z) : Prop := exists k m, resolve_type k v t = Err m.
(** The type of a parameter or result: resolved, or marked as unknown. *)
Definition type_or_unknown (v : env) (t : Z) (ty : tdef) : Prop :=
  resolves_fully v t ty \/ unresolvable v t /\ ty = TD (LAlias (st "unknown")) (Some t).

(** The function takes an object of type [target] as its first parameter, named [self] or nameless. *)
Definition object_kind (ty : layout) (k : self_type) : Prop :=
  match k with
  | BorrowedMut => exists t, ty = LReference true t
  | Borrowed => exists t, ty = LReference false t
  | Owned => forall m t, ty <> LReference m t
  end.
Definition takes_object (v : env) (target : layout) (params : list (option str * Z)) (k : self_type) : Prop :=
  exists n t rest ty, params = (n, t) :: rest /\ (n = None \/ n = Some (st "self")) /\ resolves_fully v t ty /\
    matching_type (dereferenced (layOf ty)) target = true /\ object_kind (layOf ty) k.
(** The built-in methods of a type, in the order they are listed. *)
Definition built_in_names (l : layout) (names : list str) : Prop :=
  match l with
  | LVec _ _ _ _ => names = [st "len"; st "capacity"; st "is_empty"]
  | LString _ _ _ _ | LSlice _ _ _ | LStrSlice _ _ => names = [st "len"; st "is_empty"]
  | LOption _ _ _ _ _ => names = [st "is_some"; st "is_none"]
  | LResult _ _ _ _ _ _ _ => names = [st "is_ok"; st "is_err"]
  | LArray _ _ => names = [st "len"]
  | _ => names = []
  end.
(** A built-in method as listed: qualified by the type, taking the object by reference and nothing else, marked built-in, and with no
    code to call. *)
Definition built_in (sig_of : str -> str) (target : layout) (name : str) (m : dmethod) : Prop :=
  dm_name m = name /\ dm_full m = display_name target ++ st "::" ++ name /\ dm_sig m = sig_of name /\ dm_self m = Some Borrowed /\ dm_params m = [] /\
  dm_synthetic m = true /\ dm_callable m = false /\ dm_addr m = 0.
Definition built_ins (sig_of : str -> str) (target : layout) (l : list dmethod) : Prop :=
  exists names, built_in_names target names /\ Forall2 (built_in sig_of target) names l.
(** The symbol a linkage name stands for. *)
Definition linked (X : externals) (ix : symbol_index) (l : option str) (y : symbol) : Prop :=
  exists s n, l = Some s /\ demangle_symbol X (raw_of s) = Ok n /\ get_function ix n = Some y.
(** The text of one parameter, of the result. *)
Definition says_type (v : env) (t : Z) (s : str) : Prop :=
  (exists ty, resolves_fully v t ty /\ s = tname ty) \/ (unresolvable v t /\ s = st "?").
Definition says_param (v : env) (p : option str * Z) (s : str) : Prop :=
  exists t, says_type v (snd p) t /\ s = (match fst p with Some n => n | None => st "_" end) ++ st ": " ++ t.
Definition says_result (v : env) (r : option Z) (s : str) : Prop :=
  match r with
  | None => s = []
  | Some t => exists x, says_type v t x /\ (x = st "()" /\ s = [] \/ x <> st "()" /\ s = st " -> " ++ x)
  end.
(** [m] describes the function DIE [d] as seen from the type [target]. *)
Record describes (X : externals) (ix : symbol_index) (v : env) (target : layout) (d : die) (m : dmethod) : Prop := {
  ds_name : dm_name m = fn_name d;
  ds_self : forall k, dm_self m = Some k <-> takes_object v target (declared_params d) k;
  ds_params : Forall2 (fun p q => fst q = fst p /\ type_or_unknown v (snd p) (snd q))
                (match dm_self m with Some _ => tl (declared_params d) | None => declared_params d end) (dm_params m);
  ds_ret : match ref_of At_type d with
           | Some t => match dm_ret m with Some ty => resolves_fully v t ty | None => unresolvable v t end
           | None => dm_ret m = None
           end;
  ds_linked : forall y, linked X ix (text_of At_linkage_name d) y -> dm_addr m = sym_addr y /\ dm_callable m = true /\ dm_full m = sname_display (sym_name y);
  ds_unlinked : (forall y, ~ linked X ix (text_of At_linkage_name d) y) -> dm_addr m = 0 /\ dm_callable m = false /\ dm_full m = fn_name d ++ st "::(direct)";
  ds_synthetic : dm_synthetic m = false;
  ds_text : exists ps ret, Forall2 (says_param v) (match dm_self m with Some _ => tl (declared_params d) | None => declared_params d end) ps /\
              says_result v (ref_of At_type d) ret /\
              dm_sig m = st "fn " ++ fn_name d ++ st "(" ++
                 join (st ", ") (match dm_self m with
                                 | Some Owned => st "self" :: ps | Some Borrowed => st "&self" :: ps | Some BorrowedMut => st "&mut self" :: ps
                                 | None => ps end) ++ st ")" ++ ret
}.
(** Whether a method takes its object. *)
Definition on_object (m : dmethod) : Prop := exists k, dm_self m = Some k.

(** A struct DIE with the same type as [target]. *)
Definition same_type (v : env) (target : layout) (d : die) : Prop :=
  e_tag (d_entry d) = Tstructure /\ exists t, resolves_fully v (h_of d) t /\ matching_type (layOf t) target = true.
(** [xs] are the elements of [l] with property [P], in order. *)
Inductive selects {A} (P : A -> Prop) : list A -> list A -> Prop :=
| sel_nil : selects P [] []
| sel_take a l xs : P a -> selects P l xs -> selects P (a :: l) (a :: xs)
| sel_skip a l xs : ~ P a -> selects P l xs -> selects P (a :: l) xs.
(** The DIEs of a module with that path in a file. *)
Definition module_dies (f : dfile) (path : list str) : list Z :=
  match find_by_path (fl_modules f) path with Some m => entries_of m | None => [] end.
(** An `impl` block: a namespace named {impl#N}. *)
Definition impl_block (d : die) : Prop :=
  e_tag (d_entry d) = Tnamespace /\ exists n, named d (st "{impl#" ++ n ++ st "}").

(** ** Functions by name *)
(** The parameters and the result of a function DIE can all be resolved. *)
Definition types_resolve (v : env) (d : die) (ps : list (option str * tdef)) (ret : option tdef) : Prop :=
  Forall2 (fun p q => fst q = fst p /\ resolves_fully v (snd p) (snd q)) (declared_params d) ps /\
  match ref_of At_type d, ret with
  | Some t, Some ty => resolves_fully v t ty
  | None, None => True
  | _, _ => False
  end.
(** One of them cannot. *)
Definition some_type_unresolvable (v : env) (d : die) : Prop :=
  exists t, (In t (map snd (declared_params d)) \/ ref_of At_type d = Some t) /\ unresolvable v t.
(** The text of a function: `fn name(a: T, _1: U) -> R`. A nameless parameter is called after its position. *)
Inductive params_text : nat -> list (option str * tdef) -> list str -> Prop :=
| pt_nil i : params_text i [] []
| pt_named i n t ps ss : params_text (S i) ps ss -> params_text i ((Some n, t) :: ps) ((n ++ st ": " ++ tname t) :: ss)
| pt_nameless i t ps ss : params_text (S i) ps ss -> params_text i ((None, t) :: ps) ((st "_" ++ dec (Z.of_nat i) ++ st ": " ++ tname t) :: ss).
Definition result_text (ret : option tdef) (s : str) : Prop :=
  match ret with
  | None => s = []
  | Some t => tname t = st "()" /\ s = [] \/ tname t <> st "()" /\ s = st " -> " ++ tname t
  end.
(** How the symbol [y] is presented, given the function's DIE (if it has one). *)
Definition presents (debug : option (env * die)) (y : symbol) (f : dfunction) : Prop :=
  df_name f = lookup_name (sym_name y) /\ df_full f = sname_display (sym_name y) /\ df_addr f = sym_addr y /\ df_module f = module_path (sym_name y) /\
  (df_callable f = true ->
     exists v d ss ret, debug = Some (v, d) /\ types_resolve v d (df_params f) (df_ret f) /\ params_text 0 (df_params f) ss /\ result_text (df_ret f) ret /\
       df_sig f = st "fn " ++ df_name f ++ st "(" ++ join (st ", ") ss ++ st ")" ++ ret) /\
  (df_callable f = false ->
     (forall v d, debug = Some (v, d) -> some_type_unresolvable v d) /\
     df_sig f = st "fn " ++ df_full f ++ st "(?)" /\ df_ret f = None /\ df_params f = []).
(** The entry of the function index [fidx] of the symbol's file stands for this DIE. *)
Definition entry_die (fidx : N -> omap sname (env * Z)) (y : symbol) (debug : option (env * die)) : Prop :=
  match oget cmp_sname (sym_name y) (fidx (sym_file y)) with
  | None => debug = None
  | Some (v, h) => exists d, debug = Some (v, d) /\ node v h d
  end.
