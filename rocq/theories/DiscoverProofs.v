(** Lemmas on the parsers and loops of function discovery. *)
From Coq Require Import Ascii String List ZArith NArith Lia Bool.
From Verif Require Import Base NumText OMap SymModel SymSpec SymProofs DieModel ModuleModel TypesModel ParserModel ParserSpec ParserProofs ResolveModel ResolveSpec ResolveProofs ResolveProofs2 ResolveProps FnModel FnSpec FnProofs FnProps SynthModel DiscoverModel DiscoverSpec.
Import ListNotations.
Open Scope Z_scope.

(** ** Reading DIEs *)
Section At.
Context (v : env) (h : Z) (d : die) (G : good_env v) (N : node v h d).
Lemma text_at a : p_filter (string_attr a) v h = Ok (text_of a d).
Proof.
  unfold p_filter, string_attr, attr_of, text_of. rewrite (proj2 (lookup_ok v h d G) N). cbn [bind].
  destruct (get_attr (d_entry d) a) as [[[s|]| | | | | |]|]; reflexivity.
Qed.
Lemma type_at : match ref_of At_type d with Some t => entry_type v h = Ok t | None => exists m, entry_type v h = Err m end.
Proof.
  unfold entry_type, ref_attr, attr_of, ref_of. rewrite (proj2 (lookup_ok v h d G) N). cbn [bind].
  destruct (get_attr (d_entry d) At_type) as [[]|]; cbn [bind]; eauto.
Qed.
Lemma opt_type_at : p_filter entry_type v h = Ok (ref_of At_type d).
Proof. pose proof type_at as T. unfold p_filter. destruct (ref_of At_type d); [now rewrite T | destruct T as [m T]; now rewrite T]. Qed.
End At.
Section Parse.
Context (v : env) (G : good_env v).
Lemma each_ok_map {T} (p : parser T) (f : die -> list T) l :
  (forall c, In c l -> match f c with [a] => p v (h_of c) = Ok a | [] => exists m, p v (h_of c) = Err m | _ => False end) ->
  each_ok p v (map h_of l) = Ok (flat_map f l).
Proof.
  induction l as [|c l IH]; intros H; [reflexivity|]. cbn [map each_ok flat_map]. pose proof (H c (or_introl eq_refl)) as Hc.
  rewrite (IH (fun c' I => H c' (or_intror I))). destruct (f c) as [|a [|]]; [destruct Hc as [m ->]; reflexivity | rewrite Hc; reflexivity | destruct Hc].
Qed.
Lemma flatten_map {A B} (f : A -> list (option B)) l : flatten (flat_map f l) = flat_map (fun a => flatten (f a)) l.
Proof. unfold flatten. induction l as [|a l IH]; [reflexivity|]. cbn [flat_map]. now rewrite flat_map_app, IH. Qed.
Lemma params_at h d : node v h d -> parameter_list v h = Ok (declared_params d).
Proof.
  intros N. unfold parameter_list, p_map, for_each_child. rewrite (children_at v h d G N). cbn [bind].
  set (f := fun c => match e_tag (d_entry c) with
                     | Tparameter => match ref_of At_type c with Some t => [Some (text_of At_name c, t)] | None => [] end
                     | _ => [None] end).
  rewrite (each_ok_map parameter_parser f).
  - cbn [bind]. f_equal. rewrite flatten_map. unfold declared_params. apply flat_map_ext. intros c. unfold f. destruct (e_tag (d_entry c)); try reflexivity. destruct (ref_of At_type c); reflexivity.
  - intros c I. pose proof (kid_node v h d c N I) as Nc. unfold parameter_parser, f. rewrite (tag_at v _ c G Nc). pose proof (type_at v _ c G Nc) as T. change name_attr with (string_attr At_name). rewrite (text_at v _ c G Nc At_name).
    destruct (e_tag (d_entry c)); try reflexivity. cbn [tag_eqb bind]. destruct (ref_of At_type c); [rewrite T; reflexivity | destruct T as [m ->]; exists m; reflexivity].
Qed.
Definition info_of (d : die) : finfo := FInfo (fn_name d) (text_of At_linkage_name d) (h_of d) (declared_params d) (ref_of At_type d).
Lemma function_at h d : node v h d -> function_parser v h = Ok (info_of d).
Proof.
  intros N. unfold function_parser. change name_attr with (string_attr At_name). rewrite !(text_at v h d G N). cbn [bind]. rewrite (opt_type_at v h d G N). cbn [bind]. rewrite (params_at h d N). cbn [bind].
  unfold info_of, fn_name. destruct N as [_ <-]. reflexivity.
Qed.
Lemma functions_at h d : node v h d -> child_functions v h = Ok (map info_of (functions_in d)).
Proof.
  intros N. unfold child_functions, p_map, for_each_child. rewrite (children_at v h d G N). cbn [bind].
  rewrite (each_ok_map opt_function_parser (fun c => [if tag_eqb (e_tag (d_entry c)) Tsubprogram then Some (info_of c) else None])).
  - cbn [bind]. f_equal. rewrite flatten_map. unfold functions_in. induction (d_kids d) as [|c l IH]; [reflexivity|]. cbn [flat_map filter].
    destruct (tag_eqb _ _); cbn [flatten flat_map app map]; [f_equal|]; exact IH.
  - intros c I. pose proof (kid_node v h d c N I) as Nc. unfold opt_function_parser. rewrite (tag_at v _ c G Nc). destruct (tag_eqb _ _); [|reflexivity]. rewrite (function_at _ c Nc). reflexivity.
Qed.
Lemma impl_name n : is_impl_name n = true <-> exists x, n = st "{impl#" ++ x ++ st "}".
Proof.
  unfold is_impl_name. rewrite andb_true_iff, starts_with_spec, ends_with_spec. split.
  - intros [[r ->] [p E]]. destruct r as [|c r] using rev_ind.
    + rewrite app_nil_r in E. apply (f_equal (@rev _)) in E. rewrite rev_app_distr in E. discriminate.
    + clear IHr. rewrite !app_assoc in E. apply (app_inj_tail _ _ c (ch "}")) in E. destruct E as [_ ->]. exists r. reflexivity.
  - intros [x ->]. split; [eexists; reflexivity | exists (st "{impl#" ++ x); now rewrite app_assoc].
Qed.
(** Selecting the children accepted by a parser that returns the child. *)
Lemma each_ok_select (p : parser Z) (P : die -> Prop) l hs :
  (forall c a, In c l -> p v (h_of c) = Ok a -> a = h_of c /\ P c) -> (forall c m, In c l -> p v (h_of c) = Err m -> ~ P c) ->
  each_ok p v (map h_of l) = Ok hs -> exists xs, hs = map h_of xs /\ selects P l xs.
Proof.
  revert hs. induction l as [|c l IH]; intros hs Y No E; [injection E as <-; exists []; split; [reflexivity | constructor]|].
  cbn [map each_ok] in E. assert (IH' : forall hs, each_ok p v (map h_of l) = Ok hs -> exists xs, hs = map h_of xs /\ selects P l xs).
  { intros hs'. apply IH; [intros c' a I; apply Y; right; exact I | intros c' m I; apply No; right; exact I]. }
  destruct (p v (h_of c)) as [a|m| |] eqn:Q; try discriminate.
  - apply bind_ok in E. destruct E as (r & E & F). injection F as <-. destruct (IH' _ E) as (xs & -> & S). destruct (Y c a (or_introl eq_refl) Q) as [-> Pc].
    exists (c :: xs). split; [reflexivity | now constructor].
  - destruct (IH' _ E) as (xs & -> & S). exists xs. split; [reflexivity | constructor; [eapply No; [left; reflexivity | exact Q] | exact S]].
Qed.
Lemma impls_at h d hs : node v h d -> for_each_child impl_parser v h = Ok hs -> exists xs, hs = map h_of xs /\ selects impl_block (d_kids d) xs.
Proof.
  intros N. unfold for_each_child. rewrite (children_at v h d G N). cbn [bind]. apply each_ok_select.
  - intros c a I. pose proof (kid_node v h d c N I) as Nc. unfold impl_parser. rewrite (tag_at v _ c G Nc). destruct (tag_eqb _ _) eqn:T; [|discriminate]. apply tag_eqb_eq in T.
    intros E. apply bind_ok in E. destruct E as (n & E & F). destruct (is_impl_name n) eqn:Q; [|discriminate]. injection F as <-. split; [reflexivity|]. split; [exact T|].
    apply impl_name in Q. destruct Q as [x ->]. exists x. now apply (name_at v _ c G Nc).
  - intros c m I. pose proof (kid_node v h d c N I) as Nc. unfold impl_parser. rewrite (tag_at v _ c G Nc). intros E [T [n Nm]]. rewrite T in E. cbn [tag_eqb] in E.
    rewrite (proj2 (name_at v _ c G Nc _) Nm) in E. cbn [bind] in E. rewrite (proj2 (impl_name _) (ex_intro _ n eq_refl)) in E. discriminate.
Qed.
End Parse.

(** ** Types *)
Lemma resolved k v t ty : resolve_type k v t = Ok ty -> resolves_fully v t ty.
Proof. intros E. exists k. exact E. Qed.
Lemma resolves_no_err v t ty : resolves_fully v t ty -> ~ unresolvable v t.
Proof.
  intros [n E] (k & m & F). pose proof (resolve_ple n (n + k) ltac:(lia) v t) as A. pose proof (resolve_ple k (n + k) ltac:(lia) v t) as B.
  rewrite E in A. rewrite F in B. specialize (A ltac:(discriminate)). specialize (B ltac:(discriminate)). congruence.
Qed.
Lemma filter_type k v t o : p_filter (resolve_type k) v t = Ok o -> match o with Some ty => resolves_fully v t ty | None => unresolvable v t end.
Proof. unfold p_filter. destruct (resolve_type k v t) eqn:E; intros H; try discriminate; injection H as <-; [eapply resolved; exact E | exists k; eauto]. Qed.

(** ** The symbols listed *)
Lemma rows_nodup (m : omap str (omap sname symbol)) : osorted cmp_str m ->
  (forall k i, In (k, i) m -> osorted cmp_sname i /\ forall n s, In (n, s) i -> n = sym_name s /\ lookup_name n = k) ->
  NoDup (map sym_name (flat_map (fun r => map snd (snd r)) m)).
Proof.
  induction m as [|[k i] m IH]; intros S H; [constructor|]. cbn [flat_map snd]. rewrite map_app. destruct S as [S1 S2].
  assert (H' : forall k i, In (k, i) m -> osorted cmp_sname i /\ forall n s, In (n, s) i -> n = sym_name s /\ lookup_name n = k) by (intros; apply H; right; assumption).
  destruct (H k i (or_introl eq_refl)) as [Si Hi].
  assert (D : forall n, In n (map sym_name (map snd i)) -> lookup_name n = k).
  { intros n I. apply in_map_iff in I. destruct I as (s & <- & I). apply in_map_iff in I. destruct I as ((n & s') & E & I). cbn in E. subst s'. destruct (Hi n s I) as [<- ?]. assumption. }
  assert (D' : forall n, In n (map sym_name (flat_map (fun r => map snd (snd r)) m)) -> lookup_name n <> k).
  { intros n I F. apply in_map_iff in I. destruct I as (s & <- & I). apply in_flat_map in I. destruct I as ((k' & i') & I & I2). cbn in I2. apply in_map_iff in I2. destruct I2 as ((n & s') & E & I2). cbn in E. subst s'.
    destruct (H' k' i' I) as [_ Hi']. destruct (Hi' n s I2) as [-> E]. specialize (S1 k' i' I). rewrite <- F, <- E in S1. rewrite (wo_refl _ (wo_list _ wo_N)) in S1. discriminate. }
  assert (ND : NoDup (map sym_name (map snd i))).
  { clear - Si Hi. induction i as [|[n s] i IHi]; [constructor|]. destruct Si as [S1 S2]. cbn [map snd]. constructor.
    - intros I. apply in_map_iff in I. destruct I as (s' & E & I). apply in_map_iff in I. destruct I as ((n' & s'') & E' & I). cbn in E'. subst s''.
      pose proof (S1 n' s' I) as L. destruct (Hi n s (or_introl eq_refl)) as [-> _]. destruct (Hi n' s' (or_intror I)) as [-> _]. rewrite E, (wo_refl _ wo_sname) in L. discriminate.
    - apply IHi; [exact S2 | intros; apply Hi; right; assumption]. }
  specialize (IH S2 H'). revert D D' ND IH. generalize (map sym_name (map snd i)) as a, (map sym_name (flat_map (fun r => map snd (snd r)) m)) as b. intros a b D D' ND IH.
  induction a as [|x a IHa]; [exact IH|]. inversion ND; subst. cbn [app]. constructor.
  - intros I. apply in_app_or in I. destruct I as [I|I]; [contradiction|]. apply (D' x I). apply D. left. reflexivity.
  - apply IHa; [intros; apply D; right; assumption | assumption].
Qed.
Lemma all_symbols_spec X files : let fs := functions_of (history X files) in let ix := index_symbol_map X files in
  NoDup (map sym_name (all_symbols ix)) /\ forall y, In y (all_symbols ix) <-> is_last (fun s => sym_name s = sym_name y) fs y.
Proof.
  intros fs ix. pose proof (i_functions _ _ (indexed_all X files)) as Gr. fold fs ix in Gr.
  assert (R : forall k i, In (k, i) (ix_functions ix) -> oget cmp_str k (ix_functions ix) = Some i).
  { intros k i I. apply oget_in; [apply wo_list, wo_N | apply (g_sorted _ _ Gr) | exact I]. }
  split.
  - apply rows_nodup; [apply (g_sorted _ _ Gr)|]. intros k i I. destruct (g_inner _ _ Gr k i (R k i I)) as (S & _ & H). split; [exact S|]. intros n s J. destruct (H n s J) as (? & ? & _). auto.
  - intros y. unfold all_symbols. rewrite in_flat_map. split.
    + intros ((k & i) & I & J). cbn in J. apply in_map_iff in J. destruct J as ((n & s) & E & J). cbn in E. subst s.
      destruct (g_inner _ _ Gr k i (R k i I)) as (_ & _ & H). destruct (H n y J) as (-> & _ & _). pose proof (by_lookup_spec X files k) as B. cbn in B. fold fs ix in B.
      unfold get_functions_by_lookup_name in B. rewrite (R k i I) in B. destruct B as [_ B]. exact (proj2 (proj1 (B _ _) J)).
    + intros L. pose proof (by_lookup_spec X files (lookup_name (sym_name y))) as B. cbn in B. fold fs ix in B. unfold get_functions_by_lookup_name in B.
      destruct (oget cmp_str (lookup_name (sym_name y)) (ix_functions ix)) as [i|] eqn:Q.
      * destruct B as [_ B]. pose proof (proj2 (B (sym_name y) y) (conj eq_refl L)) as J.
        destruct (oget_some cmp_str _ _ _ Q) as (k' & E & I). exists (k', i). split; [exact I|]. apply in_map_iff. exists (sym_name y, y). auto.
      * exfalso. destruct (is_last_In _ _ _ L) as [I _]. exact (B y I eq_refl).
Qed.
