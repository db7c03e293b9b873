(** C49: finding functions by name. *)
From Coq Require Import Ascii String List ZArith NArith Lia Bool.
From Verif Require Import Base NumText OMap SymModel SymSpec SymProofs SymProps DieModel ModuleModel TypesModel ParserModel ParserSpec ParserProofs ResolveModel ResolveSpec ResolveProofs ResolveProofs2 ResolveProps FnModel FnSpec FnProofs FnProps SynthModel DiscoverModel DiscoverSpec DiscoverProofs DiscoverProps.
Import ListNotations.
Open Scope Z_scope.

Lemma mapM_err {A B} (f : A -> res B) l m : mapM f l = Err m -> exists a m', In a l /\ f a = Err m'.
Proof.
  induction l as [|a l IH]; cbn [mapM]; [discriminate|]. destruct (f a) as [b|m'| |] eqn:E; try discriminate.
  - cbn [bind]. destruct (mapM f l) as [|m2| |] eqn:F; try discriminate. intros Q. injection Q as <-. destruct (IH eq_refl) as (a' & m3 & I & Q). exists a', m3. split; [now right | exact Q].
  - intros _. exists a, m'. split; [now left | exact E].
Qed.
Lemma Forall2_imp_in {A B} (P Q : A -> B -> Prop) l r : (forall a b, In a l -> P a b -> Q a b) -> Forall2 P l r -> Forall2 Q l r.
Proof. intros H F. induction F; constructor; [apply H; [now left | assumption] | apply IHF; intros; apply H; [now right | assumption]]. Qed.
Lemma params_text_number ps : forall i, params_text i ps (map fn_param_text (combine (seq i (length ps)) ps)).
Proof.
  induction ps as [|(n, t) ps IH]; intros i; [constructor|]. cbn [length seq combine map]. unfold fn_param_text at 1. cbn [fst snd]. destruct n as [n|]; [apply pt_named, IH|].
  rewrite <- app_assoc. apply pt_nameless, IH.
Qed.
Lemma create_ok k y v h d f : good_env v -> node v h d -> create_function k y (v, h) = Ok f -> df_callable f = true /\ presents (Some (v, d)) y f.
Proof.
  intros G N E. unfold create_function in E. rewrite (function_at v G h d N) in E. cbn [bind info_of fi_params fi_ret] in E.
  apply bind_ok in E. destruct E as (ps & Ep & E). apply bind_ok in E. destruct E as (ret & Er & E). injection E as <-.
  split; [reflexivity|]. unfold presents. cbn [df_name df_full df_addr df_module df_callable df_sig df_ret df_params]. repeat (split; [reflexivity|]). split; [intros _|discriminate].
  exists v, d, (map fn_param_text (number ps)), (match ret with Some t => if str_eqb (tname t) (st "()") then [] else st " -> " ++ tname t | None => [] end).
  split; [reflexivity|]. split; [|split; [apply params_text_number|split; [|reflexivity]]].
  - split.
    + eapply mapM_rel; [|exact Ep]. intros p q Q. apply bind_ok in Q. destruct Q as (t & Q & F). injection F as <-. split; [reflexivity | eapply resolved; exact Q].
    + destruct (ref_of At_type d) as [t|]; [|now injection Er as <-]. apply rmap_ok in Er. destruct Er as (ty & Er & ->). eapply resolved; exact Er.
  - unfold result_text. destruct ret as [t|]; [|reflexivity]. destruct (str_eqb (tname t) (st "()")) eqn:W; [apply str_eqb_eq in W | apply str_eqb_neq in W]; auto.
Qed.
Lemma create_err k y v h d m : good_env v -> node v h d -> create_function k y (v, h) = Err m -> some_type_unresolvable v d.
Proof.
  intros G N E. unfold create_function in E. rewrite (function_at v G h d N) in E. cbn [bind info_of fi_params fi_ret] in E.
  destruct (mapM _ (declared_params d)) as [ps|m'| |] eqn:Ep; try discriminate.
  - cbn [bind] in E. destruct (ref_of At_type d) as [t|] eqn:R; [|discriminate]. exists t. split; [now right|]. unfold rmap in E. destruct (resolve_type k v t) as [|m'| |] eqn:Q; try discriminate. exists k, m'. exact Q.
  - apply mapM_err in Ep. destruct Ep as ((n, t) & m2 & I & Q). cbn [snd] in Q. exists t. split; [left; apply in_map_iff; exists (n, t); auto|]. destruct (resolve_type k v t) as [|m3| |] eqn:Q'; try discriminate. exists k, m3. exact Q'.
Qed.
Lemma listed_is_found X files y : let ix := index_symbol_map X files in In y (all_symbols ix) -> get_function ix (sym_name y) = Some y.
Proof.
  intros ix I. destruct (all_symbols_spec X files) as [_ S]. cbn zeta in S. apply (proj1 (S y)) in I. pose proof (exact_lookup_is_last_indexed X files (sym_name y)) as E. cbn zeta in E. fold ix in E.
  assert (P : parsed (sym_name y)).
  { destruct I as (b & a & E' & _). assert (J : In y (functions_of (history X files))) by (rewrite E'; apply in_or_app; right; now left).
    clear - J. unfold functions_of, history in J. apply in_map_iff in J. destruct J as (e & <- & J). apply filter_In in J. destruct J as [J _]. apply in_flat_map in J. destruct J as (fe & _ & J). apply in_flat_map in J. destruct J as (r & _ & J).
    unfold entry_event in J. destruct (raw_name r) as [raw|]; [|destruct J]. destruct (demangle_symbol X raw) as [n| | |] eqn:D; try destruct J as [J|J]; try destruct J. cbn [snd sym_name].
    unfold demangle_symbol in D. destruct (from_utf8 X raw); [|discriminate]. match type of D with match ?t with _ => _ end = _ => destruct t as [p|] end; [|discriminate]. exists p. exact D. }
  specialize (E P). destruct (get_function ix (sym_name y)) as [s|].
  - f_equal. destruct I as (b & a & Eb & _ & Ha). destruct E as (b' & a' & Eb' & Ps & Ha'). rewrite Eb in Eb'. clear - Eb' Ha Ha' Ps.
    revert b' Eb'. induction b as [|x b IH]; intros [|x' b'] E; cbn in E; injection E as E1 E2.
    + congruence.
    + subst x'. exfalso. apply (Ha s); [rewrite E2; apply in_or_app; right; now left | exact Ps].
    + subst s. exfalso. apply (Ha' y); [rewrite <- E2; apply in_or_app; right; now left | reflexivity].
    + eauto.
  - exfalso. destruct I as (b & a & Eb & _ & _). apply (E y); [rewrite Eb; apply in_or_app; right; now left | reflexivity].
Qed.
(** Every entry of the function indexes stands for a DIE of a well-formed unit. *)
Definition good_index (fidx : N -> omap sname (env * Z)) : Prop :=
  forall file n v h, oget cmp_sname n (fidx file) = Some (v, h) -> good_env v /\ exists d, node v h d.
Lemma discovered_presents X files k fidx y f : let ix := index_symbol_map X files in good_index fidx -> In y (all_symbols ix) ->
  discovered k ix fidx y = Ok f -> exists debug, entry_die fidx y debug /\ presents debug y f.
Proof.
  intros ix Gi I E. unfold discovered, debug_entry in E. pose proof (listed_is_found X files y I) as L. cbn zeta in L. fold ix in L. rewrite L in E. unfold entry_die. destruct (oget cmp_sname (sym_name y) (fidx (sym_file y))) as [[v h]|] eqn:Q.
  - destruct (Gi _ _ _ _ Q) as (G & d & N). exists (Some (v, d)). split; [eauto|]. destruct (create_function k y (v, h)) as [f'|m| |] eqn:C; try discriminate.
    + injection E as <-. exact (proj2 (create_ok k y v h d f' G N C)).
    + injection E as <-. pose proof (create_err k y v h d m G N C) as U. repeat split; try discriminate; try reflexivity. intros v' d' F. injection F as <- <-. exact U.
  - exists None. split; [reflexivity|]. injection E as <-. repeat split; try discriminate; try reflexivity.
Qed.
Lemma matches_plain n pat : matches_pattern n pat = true <-> names_function (module_path pat) (lookup_name pat) n.
Proof.
  unfold matches_pattern. rewrite orb_true_iff. change (str_eqb (lookup_name n) (lookup_name pat) && ends_with_segments (module_path n) (module_path pat)) with (matches_name_and_module n (lookup_name pat) (module_path pat)). rewrite matches_spec.
  split; [intros [H|H]; [|exact H] | auto]. unfold sname_eqb in H. rewrite !andb_true_iff, !str_eqb_eq, list_str_eqb_eq in H. destruct H as [[[H1 _] H2] _]. split; [exact H1 | exists []; exact H2].
Qed.
Lemma NoDup_map_filter {A B} (g : A -> B) f l : NoDup (map g l) -> NoDup (map g (filter f l)).
Proof.
  induction l as [|a l IH]; [auto|]. cbn [map filter]. intros N. inversion N as [|? ? N1 N2]; subst. destruct (f a); [|auto]. cbn [map]. constructor; [|auto].
  intros I. apply N1. apply in_map_iff in I. destruct I as (x & E & I). apply filter_In in I. apply in_map_iff. exists x. tauto.
Qed.
(** Looking for [m1::...::mn::f] lists every function called [f] in a module whose path ends with [m1::...::mn], each
    once, each with what its DIE says. *)
Theorem discover_functions_exact : forall X files k fidx ms f r, let fs := functions_of (history X files) in
  Forall wf_segment (ms ++ [f]) -> ~ hash_like f -> good_index fidx ->
  discover_functions k (index_symbol_map X files) fidx (join (st "::") (ms ++ [f])) = Ok r ->
  exists ys, NoDup (map sym_name ys) /\
    (forall y, In y ys <-> is_last (fun s => sym_name s = sym_name y) fs y /\ names_function ms f (sym_name y)) /\
    Forall2 (fun y d => exists debug, entry_die fidx y debug /\ presents debug y d) ys r.
Proof.
  intros X files k fidx ms f r fs W Hh Gi E. unfold discover_functions in E. apply bind_ok in E. destruct E as (pat & Ep & E).
  destruct (function_name_kept_partial ms f pat W Hh Ep) as (P1 & P2 & _). destruct (all_symbols_spec X files) as [Nd S]. cbn zeta in Nd, S. fold fs in S.
  exists (filter (fun y => matches_pattern (sym_name y) pat) (all_symbols (index_symbol_map X files))). split; [apply (NoDup_map_filter _ _ _ Nd)|]. split; [|].
  - intros y. rewrite filter_In, S, matches_plain, P1, P2. reflexivity.
  - apply mapM_ok in E. revert E. apply Forall2_imp_in. intros y d I Ed. apply filter_In in I. destruct I as [I _]. exact (discovered_presents X files k fidx y d Gi I Ed).
Qed.
Print Assumptions discover_functions_exact.

(** The search answers (with enough budget for type resolution) whenever the types of the functions either resolve or
    cannot be resolved, i.e. unless resolution panics. *)
Definition settled (v : env) (d : die) : Prop :=
  forall t, In t (map snd (declared_params d)) \/ ref_of At_type d = Some t -> (exists ty, resolves_fully v t ty) \/ unresolvable v t.
Lemma settles v t : (exists ty, resolves_fully v t ty) \/ unresolvable v t -> exists k0, forall k, (k0 <= k)%nat -> (exists ty, resolve_type k v t = Ok ty) \/ (exists m, resolve_type k v t = Err m).
Proof.
  intros [(ty & k0 & E)|(k0 & m & E)]; exists k0; intros k L; pose proof (resolve_ple k0 k L v t) as P; rewrite E in P; specialize (P ltac:(discriminate)); rewrite P; eauto.
Qed.
Lemma create_answers v h d : good_env v -> node v h d -> settled v d ->
  exists k0, forall k, (k0 <= k)%nat -> forall y, (exists f, create_function k y (v, h) = Ok f) \/ (exists m, create_function k y (v, h) = Err m).
Proof.
  intros G N S.
  assert (A : exists k1, forall k, (k1 <= k)%nat -> (exists ps, mapM (fun p : option str * Z => t <- resolve_type k v (snd p) ;; Ok (fst p, t)) (declared_params d) = Ok ps) \/
                                   (exists m, mapM (fun p : option str * Z => t <- resolve_type k v (snd p) ;; Ok (fst p, t)) (declared_params d) = Err m)).
  { assert (S' : forall p, In p (declared_params d) -> (exists ty, resolves_fully v (snd p) ty) \/ unresolvable v (snd p)) by (intros p I; apply S; left; now apply in_map).
    clear S. induction (declared_params d) as [|p l IH]; [exists 0%nat; intros; left; exists []; reflexivity|].
    destruct (settles v (snd p) (S' p (or_introl eq_refl))) as (k1 & H1). destruct (IH (fun p I => S' p (or_intror I))) as (k2 & H2). exists (k1 + k2)%nat. intros k L. cbn [mapM].
    destruct (H1 k ltac:(lia)) as [(ty & ->)|(m & ->)]; cbn [bind]; [|right; exists m; reflexivity]. destruct (H2 k ltac:(lia)) as [(ps & ->)|(m & ->)]; cbn [bind]; eauto. }
  assert (B : exists k2, forall k, (k2 <= k)%nat -> (exists r, match ref_of At_type d with Some t => rmap Some (resolve_type k v t) | None => Ok None end = Ok r) \/
                                   (exists m, match ref_of At_type d with Some t => rmap Some (resolve_type k v t) | None => Ok None end = Err m)).
  { destruct (ref_of At_type d) as [t|] eqn:R; [|exists 0%nat; intros; left; eauto]. destruct (settles v t (S t (or_intror R))) as (k2 & H). exists k2. intros k L. destruct (H k L) as [(ty & ->)|(m & ->)]; unfold rmap; cbn [bind]; eauto. }
  destruct A as (k1 & A). destruct B as (k2 & B). exists (k1 + k2)%nat. intros k L y. unfold create_function. rewrite (function_at v G h d N). cbn [bind info_of fi_params fi_ret].
  destruct (A k ltac:(lia)) as [(ps & ->)|(m & ->)]; cbn [bind]; [|right; exists m; reflexivity]. destruct (B k ltac:(lia)) as [(r & ->)|(m & ->)]; cbn [bind]; [left | right]; eauto.
Qed.
Theorem discover_functions_answers : forall X files fidx ms f, Forall wf_segment (ms ++ [f]) -> ~ hash_like f ->
  (forall file n v h, oget cmp_sname n (fidx file) = Some (v, h) -> good_env v /\ exists d, node v h d /\ settled v d) ->
  exists k0, forall k, (k0 <= k)%nat -> exists r, discover_functions k (index_symbol_map X files) fidx (join (st "::") (ms ++ [f])) = Ok r.
Proof.
  intros X files fidx ms f W Hh Gi. unfold discover_functions, sname_parse. rewrite (symbol_path_without_hash_partial ms f W Hh). cbn [bind].
  match goal with |- exists k0, forall k, _ -> exists r, mapM _ ?l = _ => generalize l as ys end.
  induction ys as [|y ys IH]; [exists 0%nat; intros; exists []; reflexivity|]. destruct IH as (k1 & IH).
  assert (D : exists k2, forall k, (k2 <= k)%nat -> exists g, discovered k (index_symbol_map X files) fidx y = Ok g).
  { unfold discovered. unfold debug_entry. destruct (get_function (index_symbol_map X files) (sym_name y)) as [z|]; [|exists 0%nat; intros; eexists; reflexivity]. destruct (oget cmp_sname (sym_name y) (fidx (sym_file z))) as [[v h]|] eqn:Q; [|exists 0%nat; intros; eexists; reflexivity].
    destruct (Gi _ _ _ _ Q) as (G & d & N & S). destruct (create_answers v h d G N S) as (k2 & H). exists k2. intros k L. destruct (H k L y) as [(g & ->)|(m & ->)]; eexists; reflexivity. }
  destruct D as (k2 & D). exists (k1 + k2)%nat. intros k L. cbn [mapM]. destruct (D k ltac:(lia)) as (g & ->). cbn [bind]. destruct (IH k ltac:(lia)) as (r & ->). eexists; reflexivity.
Qed.
Print Assumptions discover_functions_answers.

(** ** All functions *)
Lemma inserted_last {V} (l : list (str * V)) : forall m n, osorted cmp_str m ->
  oget cmp_str n (fold_left (fun m p => oinsert cmp_str (fst p) (snd p) m) l m) =
  match last_with (fun p => str_eqb (fst p) n) l with Some p => Some (snd p) | None => oget cmp_str n m end.
Proof.
  induction l as [|p l IH] using rev_ind; intros m n S; [reflexivity|]. unfold last_with in *. rewrite !fold_left_app. cbn [fold_left].
  assert (S' : osorted cmp_str (fold_left (fun m p => oinsert cmp_str (fst p) (snd p) m) l m)).
  { clear IH. revert m S. induction l as [|q l IH]; intros m S; [exact S|]. cbn [fold_left]. apply IH. apply oinsert_sorted; [apply wo_str | exact S]. }
  rewrite oget_insert by (exact wo_str || exact S'). rewrite IH by exact S. destruct (str_eqb (fst p) n) eqn:E.
  - apply str_eqb_eq in E. subst n. now rewrite cmp_str_refl.
  - apply str_eqb_neq in E. destruct (cmp_str n (fst p)) eqn:C; try reflexivity. apply cmp_str_eq in C. congruence.
Qed.
Lemma last_with_in {A} (f : A -> bool) l : match last_with f l with Some x => In x l /\ f x = true | None => forall x, In x l -> f x = false end.
Proof.
  unfold last_with. induction l as [|a l IH] using rev_ind; [intros ? []|]. rewrite fold_left_app. cbn [fold_left]. destruct (f a) eqn:E; [split; [apply in_or_app; right; now left | exact E]|].
  destruct (fold_left _ l None) as [x|]; [split; [apply in_or_app; left|]; apply IH|]. intros x I. apply in_app_or in I. destruct I as [I|[<-|[]]]; auto.
Qed.
Lemma Forall2_in_both {A B} (R : A -> B -> Prop) l m : Forall2 R l m -> (forall a, In a l -> exists b, In b m /\ R a b) /\ (forall b, In b m -> exists a, In a l /\ R a b).
Proof.
  induction 1 as [|a b l m H F [I1 I2]]; [split; intros ? []|]. split.
  - intros x [<-|I]; [exists b; split; [now left | exact H]|]. destruct (I1 x I) as (y & J & K). exists y. split; [now right | exact K].
  - intros y [<-|I]; [exists a; split; [now left | exact H]|]. destruct (I2 y I) as (x & J & K). exists x. split; [now right | exact K].
Qed.
(** Listing all functions: every function has an entry under its displayed name, and every entry describes a function
    displayed that way; the entry of a function is about that function when no other is displayed alike. *)
Theorem all_functions_partial : forall X files k fidx m, let fs := functions_of (history X files) in
  let listed y := is_last (fun s => sym_name s = sym_name y) fs y in
  good_index fidx -> discover_all_functions k (index_symbol_map X files) fidx = Ok m ->
  (forall n f, oget cmp_str n m = Some f -> exists y debug, listed y /\ sname_display (sym_name y) = n /\ entry_die fidx y debug /\ presents debug y f) /\
  (forall y, listed y -> exists f, oget cmp_str (sname_display (sym_name y)) m = Some f /\
     ((forall y', listed y' -> sname_display (sym_name y') = sname_display (sym_name y) -> y' = y) -> exists debug, entry_die fidx y debug /\ presents debug y f)).
Proof.
  intros X files k fidx m fs listed Gi E. unfold discover_all_functions in E. apply bind_ok in E. destruct E as (ps & E & Q). injection Q as <-.
  destruct (all_symbols_spec X files) as [_ S]. cbn zeta in S. fold fs in S.
  assert (F : Forall2 (fun y p => fst p = sname_display (sym_name y) /\ exists debug, entry_die fidx y debug /\ presents debug y (snd p)) (all_symbols (index_symbol_map X files)) ps).
  { apply mapM_ok in E. revert E. apply Forall2_imp_in. intros y p I Ed. apply bind_ok in Ed. destruct Ed as (f & Ed & Q). injection Q as <-. split; [reflexivity|]. exact (discovered_presents X files k fidx y f Gi I Ed). }
  apply Forall2_in_both in F. destruct F as [F1 F2].
  assert (P1 : forall n f, oget cmp_str n (fold_left (fun m p => oinsert cmp_str (fst p) (snd p) m) ps []) = Some f -> exists y debug, listed y /\ sname_display (sym_name y) = n /\ entry_die fidx y debug /\ presents debug y f).
  { intros n f. rewrite inserted_last by exact I. pose proof (last_with_in (fun p => str_eqb (fst p) n) ps) as L. destruct (last_with _ ps) as [p|]; [|discriminate]. intros Q. injection Q as <-. destruct L as [L1 L2]. apply str_eqb_eq in L2.
    destruct (F2 p L1) as (y & I & D & debug & K1 & K2). exists y, debug. split; [now apply S | split; [congruence | auto]]. }
  split; [exact P1|]. intros y L. destruct (F1 y (proj2 (S y) L)) as (p & I & D & _).
  destruct (oget cmp_str (sname_display (sym_name y)) (fold_left (fun m p => oinsert cmp_str (fst p) (snd p) m) ps [])) as [f|] eqn:O.
  - exists f. split; [reflexivity|]. intros U. destruct (P1 _ _ O) as (y' & debug & L' & D' & K). rewrite <- (U y' L' D'). eauto.
  - exfalso. rewrite inserted_last in O by exact Logic.I. pose proof (last_with_in (fun p => str_eqb (fst p) (sname_display (sym_name y))) ps) as W. destruct (last_with _ ps) as [q|]; [discriminate|]. specialize (W p I). apply str_eqb_neq in W. congruence.
Qed.
Print Assumptions all_functions_partial.
(** Two functions whose names differ in the hash only (instances of a generic function): one is not listed. *)
Theorem all_functions_refuted : exists files, let fs := functions_of (history plain_externals files) in
  length fs = 2%nat /\ NoDup (map sym_name fs) /\
  exists f, discover_all_functions 0 (index_symbol_map plain_externals files) (fun _ => []) = Ok [(st "m::f", f)].
Proof.
  exists [(0%N, [mk_raw (Some (st "m::f::h01")) 16 true; mk_raw (Some (st "m::f::h02")) 32 true])]. cbn zeta. split; [vm_compute; reflexivity|]. split.
  - vm_compute. repeat constructor; intros H; repeat destruct H as [H|H]; try discriminate; destruct H.
  - eexists. vm_compute. reflexivity.
Qed.

(** ** All methods *)
(** The signature (C50) of a function in an indexed file. *)
Definition signature_of (files : N -> Z -> Z -> option LinesModel.path) (k : nat) (indexed : N -> bool) (fidx : N -> omap sname (env * Z)) (y : symbol) (s : signature) : Prop :=
  indexed (sym_file y) = true /\ exists v h, oget cmp_sname (sym_name y) (fidx (sym_file y)) = Some (v, h) /\ resolve_function_signature (files (sym_file y) h) k v h = Ok s.
(** It belongs to the type displayed as [n]: its first parameter has that type, or is a reference to it. *)
Definition belongs (s : signature) (n : str) : Prop :=
  exists x rest, sg_params s = x :: rest /\ dereferenced (layOf (va_ty x)) <> LAlias (st "unknown") /\ display_name (dereferenced (layOf (va_ty x))) = n.
Definition shows_method (y : symbol) (s : signature) (m : dmethod) : Prop :=
  dm_name m = sg_name s /\ dm_full m = sname_display (sym_name y) /\ dm_sig m = print_sig s /\ dm_addr m = sym_addr y /\ dm_self m = sg_self s /\
  dm_callable m = true /\ dm_synthetic m = false /\ dm_ret m = sg_ret s /\ dm_params m = map (fun p => (va_name p, va_ty p)) (tl (sg_params s)).
Lemma grouped_by (l : list (str * dmethod)) : forall n,
  oget cmp_str n (fold_left group_push l []) = match map snd (filter (fun p => str_eqb (fst p) n) l) with [] => None | ms => Some ms end.
Proof.
  assert (A : osorted cmp_str (fold_left group_push l []) /\ forall n, oget cmp_str n (fold_left group_push l []) = match map snd (filter (fun p => str_eqb (fst p) n) l) with [] => None | ms => Some ms end); [|apply A].
  induction l as [|p l [S IH]] using rev_ind; [split; [exact I | reflexivity]|]. rewrite fold_left_app. cbn [fold_left]. set (m := fold_left group_push l []) in *. unfold group_push at 1 2. split; [apply oupdate_sorted; [apply wo_str | exact S]|].
  intros n. rewrite oget_update by (exact wo_str || exact S). rewrite filter_app, map_app. cbn [filter]. destruct (str_eqb (fst p) n) eqn:E.
  - apply str_eqb_eq in E. subst n. rewrite cmp_str_refl, (IH (fst p)). cbn [map]. destruct (map snd (filter _ l)); reflexivity.
  - apply str_eqb_neq in E. cbn [map]. rewrite app_nil_r. destruct (cmp_str n (fst p)) eqn:C; try apply IH. apply cmp_str_eq in C. congruence.
Qed.
(** Listing all methods: under each type name, exactly the functions of the indexed files whose first parameter has
    that type (or is a reference to it), in symbol order, with their signatures. *)
Theorem all_methods_grouped : forall k files indexed ix fidx m, discover_all_methods k files indexed ix fidx = Ok m -> forall n, exists ys l,
  selects (fun y => exists s, signature_of files k indexed fidx y s /\ belongs s n) (all_symbols ix) ys /\
  Forall2 (fun y d => exists s, signature_of files k indexed fidx y s /\ shows_method y s d) ys l /\
  oget cmp_str n m = match l with [] => None | _ => Some l end.
Proof.
  intros k files indexed ix fidx m E n. unfold discover_all_methods in E. apply bind_ok in E. destruct E as (os & E & Q). injection Q as <-.
  assert (A : exists ys, selects (fun y => exists s, signature_of files k indexed fidx y s /\ belongs s n) (all_symbols ix) ys /\
               Forall2 (fun y d => exists s, signature_of files k indexed fidx y s /\ shows_method y s d) ys (map snd (filter (fun p => str_eqb (fst p) n) (flatten os)))).
  { revert os E. induction (all_symbols ix) as [|y l IH]; intros os E.
    - injection E as <-. exists []. split; constructor.
    - cbn [mapM] in E. apply bind_ok in E. destruct E as (o & Eo & E). apply bind_ok in E. destruct E as (os' & E & Q). injection Q as <-. destruct (IH os' E) as (ys & S & F).
      assert (O : match o with
                  | Some (n', d) => exists s, signature_of files k indexed fidx y s /\ shows_method y s d /\ belongs s n'
                  | None => forall s n', signature_of files k indexed fidx y s -> ~ belongs s n' end).
      { destruct (indexed (sym_file y)) eqn:Ix; [|injection Eo as <-; intros s n' (H & _); congruence]. destruct (oget cmp_sname (sym_name y) (fidx (sym_file y))) as [[v h]|] eqn:Og; [|injection Eo as <-; intros s n' (_ & v & h & H & _); congruence].
        unfold method_of in Eo. cbn [fst snd] in Eo. destruct (resolve_function_signature (files (sym_file y) h) k v h) as [s|e| |] eqn:R; try discriminate.
        - assert (Sg : signature_of files k indexed fidx y s) by (split; [exact Ix | exists v, h; auto]).
          assert (Un : forall s', signature_of files k indexed fidx y s' -> s' = s) by (intros s' (_ & v' & h' & H1 & H2); congruence).
          destruct (sg_params s) as [|x rest] eqn:P; [injection Eo as <-; intros s' n' H (x & rest & B & _); rewrite (Un s' H) in B; congruence|].
          destruct (match dereferenced (layOf (va_ty x)) with LAlias a => str_eqb a (st "unknown") | _ => false end) eqn:U.
          + injection Eo as <-. intros s' n' H (x' & rest' & B & K & _). rewrite (Un s' H), P in B. injection B as <- <-. destruct (dereferenced (layOf (va_ty x))); try discriminate. apply str_eqb_eq in U. congruence.
          + injection Eo as <-. exists s. split; [exact Sg|]. split.
            * repeat split. cbn [dm_params]. rewrite P. reflexivity.
            * exists x, rest. split; [exact P|]. split; [|reflexivity]. intros K. rewrite K in U. discriminate.
        - injection Eo as <-. intros s n' (_ & v' & h' & H1 & H2). congruence. }
      destruct o as [[n' d]|]; cbn [flatten flat_map app].
      + change (flat_map _ os') with (flatten os'). cbn [filter fst]. destruct O as (s & Sg & Sh & B). destruct (str_eqb n' n) eqn:Q.
        * apply str_eqb_eq in Q. subst n'. exists (y :: ys). split; [apply sel_take; eauto | cbn [map]; constructor; eauto].
        * apply str_eqb_neq in Q. exists ys. split; [apply sel_skip; [|exact S] | exact F]. intros (s' & Sg' & x & rest & B1 & _ & B3). destruct B as (x' & rest' & C1 & _ & C3).
          assert (s' = s) by (destruct Sg as (_ & v & h & H1 & H2); destruct Sg' as (_ & v' & h' & H1' & H2'); congruence). subst s'. rewrite B1 in C1. injection C1 as <- <-. congruence.
      + change (flat_map _ os') with (flatten os'). exists ys. split; [apply sel_skip; [|exact S] | exact F]. intros (s & Sg & B). exact (O s n Sg B). }
  destruct A as (ys & S & F). exists ys, (map snd (filter (fun p => str_eqb (fst p) n) (flatten os))). split; [exact S|]. split; [exact F|]. rewrite grouped_by. destruct (map snd _); reflexivity.
Qed.
Print Assumptions all_methods_grouped.
(** A function whose name looks like a hash cannot be looked for. *)
Theorem discover_functions_refuted : exists files, let fs := functions_of (history plain_externals files) in
  (exists y, In y fs /\ lookup_name (sym_name y) = st "face" /\ sym_addr y = 16) /\ (exists y, In y fs /\ lookup_name (sym_name y) = st "hface" /\ sym_addr y = 32) /\
  (exists f, discover_functions 0 (index_symbol_map plain_externals files) (fun _ => []) (st "face") = Ok [f] /\ df_addr f = 16) /\
  exists e, discover_functions 0 (index_symbol_map plain_externals files) (fun _ => []) (st "hface") = Err e.
Proof.
  exists [(0%N, [mk_raw (Some (st "m::face::h01")) 16 true; mk_raw (Some (st "m::hface::h02")) 32 true])]. cbn zeta.
  split; [eexists; split; [left; reflexivity | split; reflexivity]|]. split; [eexists; split; [right; left; reflexivity | split; reflexivity]|].
  split; [eexists; split; [vm_compute; reflexivity | reflexivity] | eexists; vm_compute; reflexivity].
Qed.
