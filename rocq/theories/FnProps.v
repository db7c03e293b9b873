(** C48, C50, C73, C74: the function index, variables and signatures. *)
From Coq Require Import Ascii String List ZArith NArith Lia Bool.
From Verif Require Import Base NumText OMap SymModel SymProofs LinesModel DieModel DieSpec DieProofs ModuleModel TypesModel ParserModel ParserSpec ParserProofs ResolveModel ResolveSpec ResolveProofs ResolveProofs2 ResolveProps LocModel FnModel FnSpec FnProofs.
Import ListNotations.
Open Scope Z_scope.

(** ** C73: the function index of a file *)
Definition address_of (p : die * symbol) : list ainfo :=
  match range_of (fst p) with
  | Some (lo, hi) => [AInfo (sym_addr (snd p)) (sym_addr (snd p) + hi - lo) lo hi (sym_name (snd p))]
  | None => []
  end.
Definition data_of (p : die * symbol) : fdata := FData (e_off (d_entry (fst p))) (range_of (fst p)) (lookup_name (sym_name (snd p))).
Definition add_function (s : fstate) (p : die * symbol) : fstate :=
  FState (oinsert cmp_sname (sym_name (snd p)) (data_of p) (fs_functions s)) (fs_addresses s ++ address_of p).
Definition add_die (reloc : bool) (syms : omap (list N) symbol) (s : fstate) (d : die) : fstate :=
  match linked_symbol reloc syms d with Some y => add_function s (d, y) | None => s end.
Definition fn_ok (reloc : bool) (syms : omap (list N) symbol) (d : die) : Prop :=
  (e_tag (d_entry d) = Tsubprogram -> match get_attr (d_entry d) At_linkage_name with None | Some (AStr (Some _)) => True | _ => False end) /\
  (forall y, linked_symbol reloc syms d = Some y -> match range_of d with
                   | Some (lo, hi) => 0 <= sym_addr y + hi - lo < two64 /\ 0 <= sym_addr y + hi < two64
                   | None => True end).
Lemma fn_pre_ok reloc syms s d : fn_ok reloc syms d ->
  fn_pre reloc syms (Ok s) (d_entry d) = (Ok (add_die reloc syms s d), if in_modules (d_entry d) then Descend else Skip).
Proof.
  intros [L A]. unfold fn_pre, add_die, in_modules. destruct (e_tag (d_entry d)) eqn:T; try (unfold linked_symbol; rewrite T; reflexivity).
  specialize (L eq_refl). unfold visit_function, get_string_attr. destruct (get_attr (d_entry d) At_linkage_name) as [x|] eqn:X.
  - destruct x as [[nm|]| | | | | |]; try destruct L. cbn [bind]. unfold linked_symbol in *. rewrite T, X in *. unfold symbol_of. change (ch "_" :: nm) with (st "_" ++ nm).
    destruct (oget cmp_raw (raw_of (if reloc then st "_" ++ nm else nm)) syms) as [y|]; [|reflexivity]. specialize (A y eq_refl).
    unfold add_function, data_of, address_of. cbn [fst snd]. unfold range_of in *. destruct (to_range (e_ranges (d_entry d))) as [[[lo hi]|]| | |]; cbn [bind]; try rewrite app_nil_r; try reflexivity.
    unfold add64, sub64, u64_ok. destruct (Z.leb_spec 0 (sym_addr y + hi)), (Z.ltb_spec (sym_addr y + hi) two64); try lia. cbn [andb bind].
    destruct (Z.leb_spec 0 (sym_addr y + hi - lo)), (Z.ltb_spec (sym_addr y + hi - lo) two64); try lia. reflexivity.
  - cbn [bind]. unfold linked_symbol. rewrite T, X. reflexivity.
Qed.
Lemma linked_entry reloc syms d d' : d_entry d = d_entry d' -> forall s, add_die reloc syms s d = add_die reloc syms s d'.
Proof. intros E s. unfold add_die, linked_symbol, add_function, data_of, address_of, range_of. cbn [fst snd]. rewrite E. reflexivity. Qed.
Lemma fn_list reloc syms l after s : Forall (fn_ok reloc syms) (flat_map (shown in_modules) l) ->
  list_walk (fn_visitor reloc syms) l after (Ok s) = (Ok (fold_left (add_die reloc syms) (flat_map (shown in_modules) l) s), true).
Proof.
  intros F. set (step := fun (r : res fstate) (e : entry) => match r with Ok s => Ok (add_die reloc syms s (Die e None)) | r => r end).
  destruct (fold_list (fn_visitor reloc syms) in_modules step (fun r => exists s, r = Ok s) (fn_ok reloc syms)) with (l := l) (after := after) (v := Ok s) as [E _]; eauto.
  - intros r d [s' ->] Q. cbn [fn_visitor v_pre step]. rewrite (fn_pre_ok reloc syms s' d Q). rewrite (linked_entry reloc syms (Die (d_entry d) None) d) by reflexivity. split; [reflexivity | eauto].
  - rewrite E. f_equal. clear. generalize (flat_map (shown in_modules) l) as m. intros m. revert s. induction m as [|x m IH]; intros s; [reflexivity|].
    unfold fold_entries in *. cbn [fold_left step]. rewrite (linked_entry reloc syms (Die (d_entry x) None) x) by reflexivity. apply IH.
Qed.
Lemma fold_add reloc syms l : forall s, fold_left (add_die reloc syms) l s =
  fold_left add_function (flat_map (fun d => match linked_symbol reloc syms d with Some y => [(d, y)] | None => [] end) l) s.
Proof. induction l as [|d l IH]; intros s; [reflexivity|]. cbn [fold_left flat_map]. rewrite IH. unfold add_die. destruct (linked_symbol reloc syms d); reflexivity. Qed.
Lemma fold_index l : forall s, osorted cmp_sname (fs_functions s) ->
  osorted cmp_sname (fs_functions (fold_left add_function l s)) /\
  (forall n, oget cmp_sname n (fs_functions (fold_left add_function l s)) =
     fold_left (fun r p => if same_name n p then Some (data_of p) else r) l (oget cmp_sname n (fs_functions s))) /\
  fs_addresses (fold_left add_function l s) = fs_addresses s ++ flat_map address_of l.
Proof.
  induction l as [|p l IH]; intros s S; [split; [exact S | split; [reflexivity | now rewrite app_nil_r]]|]. cbn [fold_left flat_map].
  assert (S' : osorted cmp_sname (fs_functions (add_function s p))) by (apply oinsert_sorted; [apply wo_sname | exact S]).
  destruct (IH _ S') as (A & B & C). split; [exact A|]. split.
  - intros n. rewrite B. f_equal. unfold add_function. cbn [fs_functions]. rewrite oget_insert; [|apply wo_sname | exact S]. unfold same_name. destruct (cmp_sname n (sym_name (snd p))); reflexivity.
  - rewrite C. cbn [add_function fs_addresses]. now rewrite <- app_assoc.
Qed.
Lemma fold_last {A B} (f : A -> bool) (g : A -> B) l : forall r, fold_left (fun r p => if f p then Some (g p) else r) l (option_map g r) =
  option_map g (fold_left (fun r x => if f x then Some x else r) l r).
Proof. induction l as [|x l IH]; intros r; [reflexivity|]. cbn [fold_left]. destruct (f x); [apply (IH (Some x)) | apply IH]. Qed.

Definition units_toks (us : list (die * nat)) : list (list tok) := map (fun u => unit_toks (fst u) (snd u)) us.
Lemma walk_rust_file reloc syms us : Forall (fun u => e_tag (d_entry (fst u)) = Tcompile_unit /\ exists n, language (fst u) = Some n) us ->
  Forall (fn_ok reloc syms) (visible (map fst us)) -> forall s, exists n0, forall n, (n0 <= n)%nat ->
  walk_file rust_cu_visitor (fn_visitor reloc syms) n (units_toks us) (Ok s) = Some (Ok (fold_left (add_die reloc syms) (visible (map fst us)) s), true).
Proof.
  induction us as [|[u pad] us IH]; intros H F s; [exists 0%nat; reflexivity|]. inversion H as [|? ? [HT [lang HL]] H']; subst. cbn [fst] in *.
  cbn [map fst visible flat_map] in F. apply Forall_app in F. destruct F as [F1 F2]. fold (visible (map fst us)) in F2.
  destruct (walk_unit_refines rust_cu_visitor (fn_visitor reloc syms) u pad (Ok s) HT) as (n1 & H1).
  set (s1 := fold_left (add_die reloc syms) (if is_rust u then flat_map (shown in_modules) (d_kids u) else []) s).
  assert (E : forall n, (n1 <= n)%nat -> walk_unit rust_cu_visitor (fn_visitor reloc syms) n (unit_toks u pad) (Ok s) = Some (Ok s1, true)).
  { intros n Hn. rewrite (H1 n Hn). cbn [rust_cu_visitor cu_pre cu_post]. unfold language in HL. unfold is_rust, language in F1, s1.
    destruct (get_attr (d_entry u) At_language) as [[| | | | ln| |]|]; try discriminate. destruct (ln =? 28); [|reflexivity]. rewrite fn_list by exact F1. reflexivity. }
  destruct (IH H' F2 s1) as (n2 & H2). exists (n1 + n2)%nat. intros n Hn. cbn [units_toks map walk_file fst snd]. rewrite E by lia. fold (units_toks us).
  rewrite H2 by lia. cbn [visible flat_map]. rewrite fold_left_app. reflexivity.
Qed.
(** Every linked function of the Rust units, and no other, is in the index: by name with its DIE and address range (the
    last one, should two DIEs carry the same name), and by address range translated to where it was linked. *)
Theorem function_index_exact_partial : forall reloc syms us, readable_units reloc syms (map fst us) ->
  exists n0 fs, forall n, (n0 <= n)%nat -> function_index reloc syms n (units_toks us) = Ok fs /\
    (forall name, oget cmp_sname name (fs_functions fs) = option_map data_of (last_with (same_name name) (linked_functions reloc syms (map fst us)))) /\
    fs_addresses fs = flat_map address_of (linked_functions reloc syms (map fst us)).
Proof.
  intros reloc syms us (R1 & R2 & R3). destruct (walk_rust_file reloc syms us) with (s := FState [] []) as (n0 & W).
  - apply Forall_map in R1. exact R1.
  - rewrite Forall_forall in *. intros d Hd. split; [exact (R2 d Hd)|]. intros y Hy. apply (R3 (d, y)). unfold linked_functions. apply in_flat_map. exists d. split; [exact Hd|]. rewrite Hy. left. reflexivity.
  - exists n0, (fold_left (add_die reloc syms) (visible (map fst us)) (FState [] [])). intros n Hn. unfold function_index. rewrite W by exact Hn. split; [reflexivity|].
    rewrite fold_add. fold (linked_functions reloc syms (map fst us)). destruct (fold_index (linked_functions reloc syms (map fst us)) (FState [] []) I) as (_ & B & C).
    split; [|rewrite C; reflexivity]. intros name. rewrite B. exact (fold_last _ data_of _ None).
Qed.
Print Assumptions function_index_exact_partial.

(** Example: a linked free function, an unlinked one and a method; and what is lost.
    rustc describes a method twice: a declaration inside the type, carrying the linkage name, and a definition elsewhere,
    carrying the address range and a reference (DW_AT_specification, 0x47) to the declaration. *)
Definition At_specification : attr_name := At_other 71.
Definition link (s : str) : attr_name * attr_value := (At_linkage_name, AStr (Some s)).
Definition rust_root (off : Z) (kids : list die) : die := Die (Entry off Tcompile_unit [(At_language, ALang 28)] (Ok [])) (Some kids).
Definition fn_die : die := Die (Entry 30 Tsubprogram [link (st "_ZN3foo1fE")] (Ok [(16, 48)])) (Some []).
Definition fn_unlinked : die := Die (Entry 40 Tsubprogram [link (st "_ZN3foo1gE")] (Ok [(64, 80)])) None.
Definition method_decl : die := Die (Entry 60 Tsubprogram [link (st "_ZN3foo1S1mE")] (Ok [])) None.
Definition method_def : die := Die (Entry 80 Tsubprogram [(At_specification, AUnitRef 60)] (Ok [(96, 128)])) None.
Definition fn_unit : die :=
  rust_root 11 [Die (Entry 20 Tnamespace [(At_name, AStr (Some (st "foo")))] (Ok [])) (Some
      [fn_die; fn_unlinked; Die (Entry 50 Tstructure [] (Ok [])) (Some [method_decl])]); method_def].
Definition sym_f : symbol := mk_symbol (mk_sname (st "f") [] [st "foo"] (st "foo::f")) 4096 0.
Definition sym_m : symbol := mk_symbol (mk_sname (st "m") [] [st "foo"; st "S"] (st "foo::S::m")) 8192 0.
Definition fn_syms : omap (list N) symbol :=
  oinsert cmp_raw (raw_of (st "_ZN3foo1fE")) sym_f (oinsert cmp_raw (raw_of (st "_ZN3foo1S1mE")) sym_m []).
Lemma fn_readable : readable_units false fn_syms [fn_unit].
Proof.
  split; [|split].
  - constructor; [|constructor]. split; [reflexivity | exists 28; reflexivity].
  - vm_compute. repeat constructor; discriminate.
  - apply Forall_forall. intros p Hp. vm_compute in Hp. destruct Hp as [<- | [<- | []]]; vm_compute; repeat split; discriminate.
Qed.
Example function_index_example :
  function_index false fn_syms 100 (units_toks [(fn_unit, 1%nat)]) =
    Ok (FState [(sym_name sym_f, FData 30 (Some (16, 48)) (st "f")); (sym_name sym_m, FData 60 None (st "m"))]
               [AInfo 4096 4128 16 48 (sym_name sym_f)]).
Proof. vm_compute. reflexivity. Qed.
(** C73 says every function; a method's code belongs to no indexed address range (finding). *)
Theorem method_address_indexed_refuted : ~ (forall reloc syms us n fs decl def y lo hi,
  readable_units reloc syms (map fst us) -> function_index reloc syms n (units_toks us) = Ok fs ->
  In (decl, y) (linked_functions reloc syms (map fst us)) -> In def (visible (map fst us)) ->
  refers def At_specification (e_off (d_entry decl)) -> range_of def = Some (lo, hi) ->
  exists a, In a (fs_addresses fs) /\ ai_name a = sym_name y).
Proof.
  intros H. destruct (H false fn_syms [(fn_unit, 1%nat)] 100%nat _ method_decl method_def sym_m 96 128 fn_readable function_index_example) as (a & I & E).
  - vm_compute. right. left. reflexivity.
  - vm_compute. do 5 right. left. reflexivity.
  - apply get_attr_spec. reflexivity.
  - reflexivity.
  - destruct I as [<- | []]. discriminate.
Qed.
Print Assumptions method_address_indexed_refuted.
(** A unit that does not state its language ends the indexing: the functions of the units after it are lost (finding). *)
Definition no_language : die := Die (Entry 5 Tcompile_unit [] (Ok [])) (Some []).
Theorem later_units_indexed_refuted : ~ (forall reloc syms us n fs p,
  function_index reloc syms n (units_toks us) = Ok fs -> In p (linked_functions reloc syms (map fst us)) ->
  exists d, oget cmp_sname (sym_name (snd p)) (fs_functions fs) = Some d).
Proof.
  intros H. destruct (H false fn_syms [(no_language, 0%nat); (fn_unit, 1%nat)] 100%nat (FState [] []) (fn_die, sym_f)) as (d & E).
  - vm_compute. reflexivity.
  - vm_compute. left. reflexivity.
  - discriminate.
Qed.
Print Assumptions later_units_indexed_refuted.

(** ** C74: the variables of a function *)
Section Vars.
Variables (v : env) (files : Z -> option path).
Hypothesis G : good_env v.
Lemma position_ok c x : node v (h_of c) c -> var_says v files c x -> position files v (h_of c) = Ok (va_loc x).
Proof.
  intros N (_ & _ & L & _). unfold position. destruct (va_loc x) as [[p l]|].
  - destruct L as (i & A & F & U). rewrite (proj2 (attr_at v _ c G N _ _) A), (proj2 (udata_at v _ c G N _ _) U), F. reflexivity.
  - destruct (attr_of At_decl_file v (h_of c)) as [f| | |] eqn:A; try reflexivity.
    + destruct L as [L|L]; [exfalso; apply (L f), (attr_at v _ c G N), A|].
      destruct (udata_attr At_decl_line v (h_of c)) as [l| | |] eqn:U; try reflexivity.
      * exfalso. apply (L l), (udata_at v _ c G N), U.
      * unfold udata_attr, attr_of in U. rewrite (proj2 (lookup_ok v _ c G) N) in U. cbn [bind] in U. destruct (get_attr _ _) as [y|]; [|discriminate]. cbn [bind] in U. destruct (udata_value y); discriminate.
      * unfold udata_attr, attr_of in U. rewrite (proj2 (lookup_ok v _ c G) N) in U. cbn [bind] in U. destruct (get_attr _ _) as [y|]; [|discriminate]. cbn [bind] in U. destruct (udata_value y); discriminate.
    + unfold attr_of in A. rewrite (proj2 (lookup_ok v _ c G) N) in A. cbn [bind] in A. destruct (get_attr _ _); discriminate.
    + unfold attr_of in A. rewrite (proj2 (lookup_ok v _ c G) N) in A. cbn [bind] in A. destruct (get_attr _ _); discriminate.
Qed.
Lemma name_shape c : node v (h_of c) c -> (exists s, name_attr v (h_of c) = Ok s /\ named c s) \/ (exists m, name_attr v (h_of c) = Err m /\ forall s, ~ named c s).
Proof.
  intros N. assert (S : (exists s, name_attr v (h_of c) = Ok s) \/ exists m, name_attr v (h_of c) = Err m).
  { unfold name_attr, string_attr, attr_of. rewrite (proj2 (lookup_ok v _ c G) N). cbn [bind]. destruct (get_attr _ _) as [[[]| | | | | |]|]; cbn [bind]; eauto. }
  destruct S as [[s E]|[m E]]; [left | right]; eexists; (split; [exact E|]).
  - apply (name_at v _ c G N), E.
  - intros s H. apply (name_at v _ c G N) in H. congruence.
Qed.
Lemma p_name c : node v (h_of c) c -> exists o, p_filter name_attr v (h_of c) = Ok o /\ match o with Some s => named c s | None => forall s, ~ named c s end.
Proof. intros N. unfold p_filter. destruct (name_shape c N) as [(s & E & H)|(m & E & H)]; rewrite E; eexists; (split; [reflexivity | exact H]). Qed.
Lemma type_shape c : node v (h_of c) c -> (exists t, entry_type v (h_of c) = Ok t /\ typed c t) \/ (exists m, entry_type v (h_of c) = Err m).
Proof.
  intros N. destruct (entry_type v (h_of c)) as [t| | |] eqn:E; [left; exists t; split; [reflexivity | now apply (ref_at v _ c G N)] | right; eauto | |];
  unfold entry_type, ref_attr, attr_of in E; rewrite (proj2 (lookup_ok v _ c G) N) in E; cbn [bind] in E; destruct (get_attr _ _) as [[]|]; discriminate.
Qed.
Definition answers (o : option var) (r : res var) : Prop := match o with Some x => r = Ok x | None => exists m, r = Err m end.
Lemma variable_reported c o : in_tree (en_unit v) c -> reported v files c o ->
  exists k0, forall k, (k0 <= k)%nat -> answers o (variable files k v (h_of c)).
Proof.
  intros I R. assert (N : node v (h_of c) c) by (split; [exact I | reflexivity]). destruct (p_name c N) as (on & En & Hn).
  unfold variable. destruct R as [x S | U | t n m T E | t ty f l T [n E] A U Fn].
  - pose proof S as S'. destruct S' as (Sn & (t & T & [n E]) & _ & Sd). exists n. intros k Hk. rewrite En. cbn [bind].
    unfold entry_shallow, p_then. rewrite (type_ok v G _ c t N T). cbn [bind]. rewrite (shallow_mono n k Hk v t) by congruence. rewrite E. cbn [bind].
    rewrite (position_ok c x N S). cbn [bind answers]. f_equal. destruct x as [xn xt xl xd]. cbn in *. subst xd. f_equal.
    destruct on as [s|], xn as [s'|]; [|exfalso; exact (Sn s Hn)|exfalso; exact (Hn s' Sn)|reflexivity].
    f_equal. unfold named in *. pose proof (has_attr_inj _ _ _ _ Hn Sn) as Q. congruence.
  - exists 0%nat. intros k _. rewrite En. cbn [bind]. unfold entry_shallow, p_then. destruct (type_shape c N) as [(t & E & H)|(m & E)]; [exfalso; exact (U t H)|]. rewrite E. cbn. eauto.
  - exists n. intros k Hk. rewrite En. cbn [bind]. unfold entry_shallow, p_then. rewrite (type_ok v G _ c t N T). cbn [bind]. rewrite (shallow_mono n k Hk v t) by congruence. rewrite E. cbn. eauto.
  - exists n. intros k Hk. rewrite En. cbn [bind]. unfold entry_shallow, p_then. rewrite (type_ok v G _ c t N T). cbn [bind]. rewrite (shallow_mono n k Hk v t) by congruence. rewrite E. cbn [bind].
    unfold position. rewrite (proj2 (attr_at v _ c G N _ _) A), (proj2 (udata_at v _ c G N _ _) U). destruct f as [| | | | |i|]; cbn [bind answers]; eauto.
    destruct (files i) as [p|] eqn:Fi; [exfalso; exact (Fn i p eq_refl Fi)|]. cbn. eauto.
Qed.
(** All the declarations of a list, with a common budget. *)
Lemma all_reported l os : (forall c, In c l -> in_tree (en_unit v) c) -> Forall2 (reported v files) l os ->
  exists k0, forall k, (k0 <= k)%nat -> Forall2 (fun c o => answers o (variable files k v (h_of c))) l os.
Proof.
  intros I F. induction F as [|c o l os R F IH]; [exists 0%nat; constructor|]. destruct (variable_reported c o (I c (or_introl eq_refl)) R) as (k1 & H1).
  destruct IH as (k2 & H2); [intros; apply I; right; assumption|]. exists (k1 + k2)%nat. intros k Hk. constructor; [apply H1; lia | apply H2; lia].
Qed.
End Vars.

Definition is_decl (c : die) : bool := tag_eqb (e_tag (d_entry c)) Tparameter || tag_eqb (e_tag (d_entry c)) Tvariable.
(** What one DIE adds to (params, locals), given the reading of its declaration. *)
Definition take (rd : die -> option var) (s : list var * list var) (c : die) : list var * list var :=
  match e_tag (d_entry c) with
  | Tparameter => match rd c with Some x => (fst s ++ [x], snd s) | None => s end
  | Tvariable => match rd c with Some x => (fst s, snd s ++ [x]) | None => s end
  | _ => s
  end.
Lemma fold_take rd l : forall s, fold_left (take rd) l s =
  (fst s ++ somes (map rd (filter (fun c => tag_eqb (e_tag (d_entry c)) Tparameter) l)), snd s ++ somes (map rd (filter (fun c => tag_eqb (e_tag (d_entry c)) Tvariable) l))).
Proof.
  induction l as [|c l IH]; intros [p q]; [cbn; now rewrite !app_nil_r|]. cbn [fold_left filter]. rewrite IH. unfold take.
  destruct (e_tag (d_entry c)); cbn [tag_eqb fst snd]; try reflexivity; cbn [map somes flat_map]; destruct (rd c); cbn [fst snd app]; now rewrite <- ?app_assoc.
Qed.
Definition read_with (files : Z -> option path) (k : nat) (v : env) (c : die) : option var :=
  match variable files k v (h_of c) with Ok x => Some x | _ => None end.
Lemma walk_variables v files k d after s :
  Forall (fun c => is_decl c = true -> exists o, answers o (variable files k v (h_of c))) (shown in_function d) ->
  tree_walk (var_visitor files k v) d after (Ok s) = (Ok (fold_left (take (read_with files k v)) (shown in_function d) s), true).
Proof.
  intros F. set (step := fun (r : res (list var * list var)) (e : entry) => match r with Ok s => Ok (take (read_with files k v) s (Die e None)) | r => r end).
  destruct (fold_tree (var_visitor files k v) in_function step (fun r => exists s, r = Ok s)
     (fun c => is_decl c = true -> exists o, answers o (variable files k v (h_of c)))) with (d := d) (after := after) (v := Ok s) as [E _]; eauto.
  - intros r c [s' ->] Q. split; [|exists (take (read_with files k v) s' (Die (d_entry c) None)); reflexivity].
    cbn [var_visitor v_pre step]. unfold var_pre, take, in_function, is_decl in *. cbn [d_entry]. unfold read_with, h_of in *. cbn [d_entry] in *.
    destruct (e_tag (d_entry c)); try reflexivity; cbn in Q; destruct (Q eq_refl) as ([x|] & A); cbn in A; [rewrite A; reflexivity | destruct A as [m A]; rewrite A; reflexivity | rewrite A; reflexivity | destruct A as [m A]; rewrite A; reflexivity].
  - rewrite E. f_equal. clear. generalize (shown in_function d) as m. intros m. revert s. induction m as [|x m IH]; intros s; [reflexivity|].
    unfold fold_entries in *. cbn [fold_left step]. rewrite IH. reflexivity.
Qed.
(** The parameters and the local variables declared in a function are reported, in order, each with the name, type and
    position its DIE states; a declaration that cannot be read is left out and hides no other. *)
Theorem function_variables_exact : forall v files h d pad ps ls, good_env v -> node v h d ->
  Forall2 (reported v files) (declared Tparameter d) ps -> Forall2 (reported v files) (declared Tvariable d) ls ->
  exists k0, forall k, (k0 <= k)%nat -> exists n0, forall n, (n0 <= n)%nat ->
    resolve_function_variables files n k pad v h = Ok (somes ps, somes ls).
Proof.
  intros v files h d pad ps ls G N Fp Fl.
  assert (I : forall t c, In c (declared t d) -> in_tree (en_unit v) c).
  { intros t c H. apply filter_In in H. destruct H as [H _]. apply shown_in in H. destruct N as [N _]. eapply in_tree_trans; eassumption. }
  destruct (all_reported v files G _ _ (I Tparameter) Fp) as (k1 & H1). destruct (all_reported v files G _ _ (I Tvariable) Fl) as (k2 & H2).
  exists (k1 + k2)%nat. intros k Hk. specialize (H1 k ltac:(lia)). specialize (H2 k ltac:(lia)).
  destruct (toks_from_node v h d pad G N) as (ls' & E). destruct (walk_die_refines (var_visitor files k v) d ls' pad (Ok ([], []))) as (n0 & W).
  exists n0. intros n Hn. unfold resolve_function_variables. rewrite (proj2 (lookup_ok v h d G) N). cbn [bind]. rewrite E, W by exact Hn.
  assert (R : forall l os, Forall2 (fun c o => answers o (variable files k v (h_of c))) l os -> map (read_with files k v) l = os /\ Forall (fun c => exists o, answers o (variable files k v (h_of c))) l).
  { induction 1 as [|c o l os A _ [IH1 IH2]]; [split; constructor|]. cbn [map]. rewrite IH1. split; [|constructor; eauto]. f_equal. unfold read_with. destruct o; cbn in A; [now rewrite A | destruct A as [m A]; now rewrite A]. }
  destruct (R _ _ H1) as [R1 Q1]. destruct (R _ _ H2) as [R2 Q2].
  rewrite walk_variables.
  - rewrite fold_take. cbn [fst snd app]. unfold declared in *. rewrite R1, R2. reflexivity.
  - rewrite Forall_forall in *. intros c Hc D. unfold is_decl in D. apply orb_true_iff in D. destruct D as [D|D]; [apply Q1 | apply Q2]; apply filter_In; auto.
Qed.
Print Assumptions function_variables_exact.

(** ** C48: a variable by name *)
Section Lookup.
Variables (k : nat) (v : env) (c : regs) (fb : option (list dop)) (base : Z) (loc : Z -> option (list dop)).
Lemma named_var_iff name x : named_var name x = true <-> va_name x = Some name.
Proof. unfold named_var. destruct (va_name x) as [n|]; [rewrite str_eqb_eq; split; congruence | split; discriminate]. Qed.
Lemma find_app {A} (f : A -> bool) l m : find f (l ++ m) = match find f l with Some x => Some x | None => find f m end.
Proof. induction l as [|a l IH]; [reflexivity|]. cbn [find app]. destruct (f a); [reflexivity | exact IH]. Qed.
(** The first declaration with the name is the one used, parameters before locals; partial: with shadowing the variable
    in scope is a later one. *)
Theorem variable_lookup_partial params locals name x :
  first_of (fun x => va_name x = Some name) (params ++ locals) x ->
  variable_at k v c fb base loc (params, locals) name = rmap Some (variable_info k v c fb base loc x).
Proof.
  intros F. apply (proj2 (find_first (named_var name) _ _ x (fun y _ => named_var_iff name y))) in F. rewrite find_app in F. unfold variable_at. cbn [fst snd].
  destruct (find (named_var name) params); [now injection F as -> | now rewrite F].
Qed.
(** ... in particular the only one with the name. *)
Theorem variable_lookup_unique params locals name l1 x l2 :
  params ++ locals = l1 ++ x :: l2 -> va_name x = Some name -> (forall y, In y (l1 ++ l2) -> va_name y <> Some name) ->
  variable_at k v c fb base loc (params, locals) name = rmap Some (variable_info k v c fb base loc x).
Proof.
  intros E N U. apply variable_lookup_partial. exists l1, l2. split; [exact E|]. split; [exact N|]. apply Forall_forall. intros y Hy. apply U. apply in_or_app. left. exact Hy.
Qed.
(** A name that is not declared is not found. *)
Theorem variable_lookup_absent params locals name :
  (forall y, In y (params ++ locals) -> va_name y <> Some name) -> variable_at k v c fb base loc (params, locals) name = Ok None.
Proof.
  intros U. unfold variable_at. cbn [fst snd]. destruct (find (named_var name) params) as [x|] eqn:E1.
  - apply find_some in E1. destruct E1 as [I N]. exfalso. apply (U x); [apply in_or_app; left; exact I | now apply named_var_iff].
  - destruct (find (named_var name) locals) as [x|] eqn:E2; [|reflexivity]. apply find_some in E2. destruct E2 as [I N]. exfalso. apply (U x); [apply in_or_app; right; exact I | now apply named_var_iff].
Qed.
(** Listing: every parameter, and every local declared on an earlier line, in order; nothing else. *)
Theorem all_variables_listed params locals line ps ls :
  all_variables_at k v c fb base loc (params, locals) line = Ok (ps, ls) <->
  Forall2 (fun x i => variable_info k v c fb base loc x = Ok i) params ps /\
  exists before, Forall2 (fun x i => variable_info k v c fb base loc x = Ok i) before ls /\
    before = filter (fun x => match va_loc x with Some (_, l) => l <? line | None => false end) locals.
Proof.
  unfold all_variables_at. cbn [fst snd]. rewrite bind_ok. split.
  - intros (a & E1 & E2). apply bind_ok in E2. destruct E2 as (b & E2 & E3). injection E3 as <- <-. apply mapM_ok in E1, E2. split; [exact E1|]. eexists. split; [exact E2 | reflexivity].
  - intros (F1 & b & F2 & ->). exists ps. split; [now apply mapM_ok|]. apply bind_ok. exists ls. split; [now apply mapM_ok | reflexivity].
Qed.
End Lookup.
Print Assumptions variable_lookup_partial.
Print Assumptions variable_lookup_unique.
Print Assumptions variable_lookup_absent.
Print Assumptions all_variables_listed.
(** C48 in full: the latest declaration in scope. False of the code: the earliest one wins (finding). *)
Definition shadowed (off : Z) (ty : layout) (line : Z) : var := Var (Some (st "x")) (TD ty (Some 7)) (Some ([PathModel.CName (st "main.rs")], line)) off.
Theorem shadowing_refuted : ~ (forall k v c fb base loc params locals name l1 x l2,
  params ++ locals = l1 ++ x :: l2 -> va_name x = Some name -> (forall y, In y l2 -> va_name y <> Some name) ->
  variable_at k v c fb base loc (params, locals) name = rmap Some (variable_info k v c fb base loc x)).
Proof.
  intros H. specialize (H 0%nat (Env no_language [] (fun _ _ => None)) (Regs (fun _ => Ok 0) (Ok 0)) None 0 (fun o => Some [OBreg 7 o]) []
    [shadowed 30 (LUInt 4) 3; shadowed 40 LBool 4] (st "x") [shadowed 30 (LUInt 4) 3] (shadowed 40 LBool 4) [] eq_refl eq_refl (fun _ F => match F with end)).
  vm_compute in H. discriminate.
Qed.
Print Assumptions shadowing_refuted.

(** From the DIE to the answer: a variable on the stack, found by its name, has the address its DIE states relative to
    the frame base, and the type its DIE states, the types of the program being resolved completely. *)
Definition complete_type (v : env) (t ty : tdef) : Prop :=
  match layOf t with
  | LAlias _ => exists h, locOf t = Some h /\ resolves_fully v h ty
  | _ => ty = t
  end.
Theorem stack_variable_found : forall v files h d pad ps ls x ty c fb r b off base loc,
  good_env v -> node v h d ->
  Forall2 (reported v files) (declared Tparameter d) ps -> Forall2 (reported v files) (declared Tvariable d) ls ->
  forall name, first_of (fun x => va_name x = Some name) (somes ps ++ somes ls) x ->
  fb = Some [OReg r] -> get_register c r = Ok b -> loc (va_die x) = Some [OFbreg off] -> complete_type v (va_ty x) ty ->
  exists k0, forall k, (k0 <= k)%nat -> exists n0, forall n, (n0 <= n)%nat ->
    (vars <- resolve_function_variables files n k pad v h ;; variable_at k v c fb base loc vars name) =
    Ok (Some (VInfo name (Some ((b + off) mod two64)) ty)).
Proof.
  intros v files h d pad ps ls x ty c fb r b off base loc G N Fp Fl name F -> R L NA. destruct (function_variables_exact v files h d pad ps ls G N Fp Fl) as (k0 & H).
  assert (T : exists k1, forall k, (k1 <= k)%nat -> match layOf (va_ty x) with
       | LAlias _ => match locOf (va_ty x) with Some h => resolve_type k v h | None => Err "no location" end
       | _ => Ok (va_ty x) end = Ok ty).
  { unfold complete_type in NA. destruct (layOf (va_ty x)); try (exists 0%nat; now subst). destruct NA as (h' & -> & [k1 E]). exists k1. intros k Hk. exact (resolve_mono k1 k v h' ty Hk E). }
  destruct T as (k1 & T). exists (k0 + k1)%nat. intros k Hk. destruct (H k ltac:(lia)) as (n0 & H'). exists n0. intros n Hn. rewrite (H' n Hn). cbn [bind]. rewrite (variable_lookup_partial k v c _ base loc _ _ name x F).
  unfold variable_info. rewrite L. unfold resolve_data_location. cbn [run]. unfold frame_base. cbn [run bind]. rewrite R. cbn [bind run].
  assert (W : wrap (wrap (b + off)) = (b + off) mod two64) by (unfold wrap; rewrite Z.mod_mod by (unfold two64; lia); reflexivity). rewrite W.
  rewrite (T k ltac:(lia)). destruct F as (l1 & l2 & _ & Nx & _). rewrite Nx. reflexivity.
Qed.
Print Assumptions stack_variable_found.

(** ** C50: signatures *)
(** How a function takes its object. *)
Definition self_name (n : option str) : Prop := n = Some (st "self") \/ n = Some (st "&self") \/ n = Some (st "&mut self").
Definition takes (params : list var) (k : self_type) : Prop :=
  exists x rest, params = x :: rest /\ self_name (va_name x) /\
  match k with
  | BorrowedMut => exists t, layOf (va_ty x) = LReference true t
  | Borrowed => exists t, layOf (va_ty x) = LReference false t
  | Owned => forall m t, layOf (va_ty x) <> LReference m t
  end.
Theorem self_kind_exact params k : self_of_params params = Some k <-> takes params k.
Proof.
  assert (NI : forall n, is_self_name n = true <-> self_name n).
  { intros [s|]; unfold is_self_name, self_name; [|split; [discriminate | intros [H|[H|H]]; discriminate]]. rewrite !orb_true_iff, !str_eqb_eq. split; [intros [[->| ->]| ->]; auto | intros [H|[H|H]]; injection H as ->; auto]. }
  unfold self_of_params, takes. destruct params as [|x rest]; [split; [discriminate | intros (x & r & E & _); discriminate]|].
  destruct (is_self_name (va_name x)) eqn:S.
  - apply NI in S. split.
    + intros E. injection E as E. exists x, rest. split; [reflexivity|]. split; [exact S|]. unfold self_of_type in E. destruct (layOf (va_ty x)) as [| | | | | | | |m t| | | | | | | | | | | | | | | |]; try destruct m; subst k; eauto; intros; discriminate.
    + intros (x' & r & E & _ & K). injection E as <- <-. f_equal. unfold self_of_type. destruct k.
      * destruct (layOf (va_ty x)) as [| | | | | | | |m t| | | | | | | | | | | | | | | |] eqn:Q; try reflexivity. exfalso. exact (K m t eq_refl).
      * destruct K as [t ->]. reflexivity.
      * destruct K as [t ->]. reflexivity.
  - split; [discriminate|]. intros (x' & r & E & K & _). injection E as <- <-. apply NI in K. congruence.
Qed.
Print Assumptions self_kind_exact.
(** A function DIE's signature: its name, the parameters its children declare, in order, and its return type. *)
Definition parameters (d : die) : list die := filter (fun c => tag_eqb (e_tag (d_entry c)) Tparameter) (d_kids d).
Theorem signature_exact : forall v files h d name ps ret, good_env v -> node v h d -> named d name ->
  match ret with Some t => exists ht, typed d ht /\ resolves v ht t | None => forall ht, ~ typed d ht end ->
  Forall2 (var_says v files) (parameters d) ps ->
  exists k0, forall k, (k0 <= k)%nat -> exists s, resolve_function_signature files k v h = Ok s /\
    sg_name s = name /\ sg_params s = ps /\ sg_ret s = ret /\ (forall kind, sg_self s = Some kind <-> takes ps kind).
Proof.
  intros v files h d name ps ret G N Nm R F.
  assert (B1 : exists k1, forall k, (k1 <= k)%nat -> p_then_opt (p_filter (ref_attr At_type)) (shallow k) v h = Ok ret).
  { unfold p_then_opt, p_filter. destruct ret as [t|].
    - destruct R as (ht & T & [k1 E]). exists k1. intros k Hk. rewrite (proj2 (ref_at v h d G N _ _) T). cbn [bind]. rewrite (shallow_mono k1 k Hk) by congruence. rewrite E. reflexivity.
    - exists 0%nat. intros k _. assert (X : exists m, ref_attr At_type v h = Err m).
      { destruct (ref_attr At_type v h) as [t| m | |] eqn:E; [exfalso; apply (R t); now apply (ref_at v h d G N) | eauto | |];
        unfold ref_attr, attr_of in E; rewrite (proj2 (lookup_ok v h d G) N) in E; cbn [bind] in E; destruct (get_attr _ _) as [[]|]; discriminate. }
      destruct X as [m X]. rewrite X. reflexivity. }
  assert (B2 : exists k2, forall k, (k2 <= k)%nat -> try_for_each_child (p_then_opt (p_filter (is_member_tag Tparameter)) (function_parameter files k)) v h = Ok ps).
  { unfold try_for_each_child. rewrite (children_at v h d G N). cbn [bind]. unfold parameters in F.
    assert (K : forall c, In c (d_kids d) -> node v (h_of c) c) by (intros; eapply kid_node; eassumption).
    revert ps F K. generalize (d_kids d) as l. induction l as [|a l IH]; intros ps F K; [inversion F; subst; exists 0%nat; reflexivity|].
    pose proof (K a (or_introl eq_refl)) as Na. cbn [filter] in F.
    assert (TG : is_member_tag Tparameter v (h_of a) = if tag_eqb (e_tag (d_entry a)) Tparameter then Ok (h_of a) else Err "Expected entry to have tag") by (unfold is_member_tag; rewrite (tag_at v _ a G Na); reflexivity).
    destruct (tag_eqb (e_tag (d_entry a)) Tparameter) eqn:T.
    - inversion F as [|? x ? ps' S F']; subst. destruct (IH ps' F' (fun c H => K c (or_intror H))) as (k2 & H2).
      destruct (variable_reported v files G a (Some x) (proj1 Na) (rep_var _ _ _ x S)) as (k3 & H3). exists (k2 + k3)%nat. intros k Hk. cbn [map each_try].
      unfold p_then_opt at 1, p_filter at 1, function_parameter at 1, p_then at 1. rewrite TG. cbn [bind]. rewrite TG. cbn [bind]. pose proof (H3 k ltac:(lia)) as E. cbn in E. rewrite E. cbn [rmap bind].
      specialize (H2 k ltac:(lia)). rewrite H2. reflexivity.
    - destruct (IH ps F (fun c H => K c (or_intror H))) as (k2 & H2). exists k2. intros k Hk. cbn [map each_try]. unfold p_then_opt at 1, p_filter at 1. rewrite TG. cbn [bind]. rewrite (H2 k Hk). reflexivity. }
  destruct B1 as (k1 & H1). destruct B2 as (k2 & H2). exists (k1 + k2)%nat. intros k Hk. exists (Sig name ps ret (self_of_params ps)).
  unfold resolve_function_signature, function_declaration. rewrite (name_ok v G h d name N Nm). cbn [bind]. rewrite H1 by lia. cbn [bind]. rewrite H2 by lia. cbn [bind].
  repeat split; try reflexivity; apply self_kind_exact.
Qed.
Print Assumptions signature_exact.

(** The text of a signature names every parameter in order. *)
Theorem signature_text : forall s, exists texts,
  Forall2 (fun p t => exists n, t = n ++ st ": " ++ tname (va_ty p) /\ (va_name p = Some n \/ va_name p = None /\ n = st "_")) (sg_params s) texts /\
  print_sig s = st "fn(" ++ join (st ", ") texts ++ st ")" ++ match sg_ret s with Some t => st " -> " ++ tname t | None => [] end.
Proof.
  intros s. exists (map print_param (sg_params s)). split; [|reflexivity]. induction (sg_params s) as [|p l IH]; constructor; [|exact IH].
  unfold print_param. destruct (va_name p) as [n|]; eexists; split; try reflexivity; auto.
Qed.
