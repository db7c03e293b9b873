(** C49, C50, C75: finding functions by name and the methods of a type. *)
From Coq Require Import Ascii String List ZArith NArith Lia Bool.
From Verif Require Import Base NumText OMap SymModel SymSpec SymProofs SymProps DieModel ModuleModel TypesModel ParserModel ParserSpec ParserProofs ResolveModel ResolveSpec ResolveProofs ResolveProofs2 ResolveProps FnModel FnSpec FnProofs FnProps SynthModel DiscoverModel DiscoverSpec DiscoverProofs.
Import ListNotations.
Open Scope Z_scope.

(** ** C50: one method *)
Lemma kind_of_type l k : self_of_type l = k <-> object_kind l k.
Proof.
  unfold self_of_type, object_kind. split.
  - intros <-. destruct l as [| | | | | | | |m t| | | | | | | | | | | | | | | |]; try (intros; discriminate). destruct m; eauto.
  - destruct k.
    + intros H. destruct l as [| | | | | | | |m t| | | | | | | | | | | | | | | |]; try reflexivity. destruct (H m t eq_refl).
    + intros [t ->]. reflexivity.
    + intros [t ->]. reflexivity.
Qed.
Lemma self_of_method k v target ps o : method_self k v target ps = Ok o -> forall kind, o = Some kind <-> takes_object v target ps kind.
Proof.
  unfold method_self, takes_object. destruct ps as [|(n, t) rest].
  - intros E kind. injection E as <-. split; [discriminate | intros (? & ? & ? & ? & H & _); discriminate].
  - assert (NI : match n with Some s => negb (str_eqb s (st "self")) | None => false end = true <-> ~ (n = None \/ n = Some (st "self"))).
    { destruct n as [s|]; [|split; [discriminate | intros H; exfalso; apply H; now left]]. rewrite negb_true_iff, str_eqb_neq. split; [intros H [F|F]; congruence | intros H F; apply H; right; congruence]. }
    destruct (match n with Some s => _ | None => false end) eqn:Q.
    + intros E kind. injection E as <-. split; [discriminate|]. intros (n' & t' & r & ty & H & Nm & _). injection H as <- <- <-. exfalso. exact (proj1 NI eq_refl Nm).
    + assert (Nm : n = None \/ n = Some (st "self")).
      { destruct n as [s|]; [right | now left]. apply negb_false_iff, str_eqb_eq in Q. now subst. }
      intros E kind. apply bind_ok in E. destruct E as (ty & E & F). injection F as <-. pose proof (resolved _ _ _ _ E) as R. destruct (matching_type (dereferenced (layOf ty)) target) eqn:M.
      * split.
        -- intros H. injection H as H. exists n, t, rest, ty. repeat split; auto. now apply kind_of_type.
        -- intros (n' & t' & r & ty' & H & _ & R' & _ & K). injection H as <- <- <-. destruct (full_resolution_deterministic _ _ _ _ R R') as [<- _]. f_equal. now apply kind_of_type.
      * split; [discriminate|]. intros (n' & t' & r & ty' & H & _ & R' & M' & _). injection H as <- <- <-. destruct (full_resolution_deterministic _ _ _ _ R R') as [<- _]. congruence.
Qed.
Lemma mapM_rel {A B} (f : A -> res B) (R : A -> B -> Prop) l bs : (forall a b, f a = Ok b -> R a b) -> mapM f l = Ok bs -> Forall2 R l bs.
Proof. intros H E. apply mapM_ok in E. eapply Forall2_imp; [|exact E]. exact H. Qed.
Lemma type_text_says k v t s : type_text k v t = Ok s -> says_type v t s.
Proof.
  unfold type_text. intros E. apply bind_ok in E. destruct E as (o & E & F). apply filter_type in E. injection F as <-. destruct o as [ty|]; [left; exists ty; auto | right; auto].
Qed.
(** How a function is presented as a method of the type [target]: whether and how it takes its object, its other
    parameters, its result, its address and its text. *)
Theorem method_described : forall X ix k v target d m, to_method X ix k v target (info_of d) = Ok m -> describes X ix v target d m.
Proof.
  intros X ix k v target d m E. unfold to_method in E. apply bind_ok in E. destruct E as (self & Es & E). cbn [info_of fi_params] in Es.
  pose proof (self_of_method k v target _ _ Es) as S. destruct (method_symbol X ix (info_of d)) as [[addr callable] full] eqn:Y.
  apply bind_ok in E. destruct E as (sig & Eg & E). apply bind_ok in E. destruct E as (ret & Er & E). apply bind_ok in E. destruct E as (ps & Ep & E). injection E as <-.
  cbn [info_of fi_name fi_params fi_ret fi_linkage] in *.
  assert (O : forall A (l : list A), others self l = match self with Some _ => tl l | None => l end) by (intros; destruct self; reflexivity).
  constructor; cbn [dm_name dm_self dm_params dm_ret dm_addr dm_callable dm_full dm_synthetic dm_sig]; try reflexivity.
  - exact S.
  - rewrite <- O. eapply mapM_rel; [|exact Ep]. intros p q Q. unfold param_def in Q. apply bind_ok in Q. destruct Q as (o & Q & F). apply filter_type in Q. injection F as <-. cbn [fst snd].
    split; [reflexivity|]. destruct o as [ty|]; [left; exact Q | right; auto].
  - destruct (ref_of At_type d) as [t|]; [|now injection Er]. apply filter_type in Er. exact Er.
  - intros y (s & n & L & D & Gf). unfold method_symbol in Y. cbn [info_of fi_linkage fi_name] in Y. rewrite L, D, Gf in Y. injection Y as <- <- <-. auto.
  - intros U. unfold method_symbol in Y. cbn [info_of fi_linkage fi_name] in Y. destruct (text_of At_linkage_name d) as [s|] eqn:L; [|injection Y as <- <- <-; auto].
    destruct (demangle_symbol X (raw_of s)) as [n| | |] eqn:D; try (injection Y as <- <- <-; auto). destruct (get_function ix n) as [y|] eqn:Gf; [|injection Y as <- <- <-; auto].
    exfalso. apply (U y). exists s, n. auto.
  - unfold method_signature in Eg. cbn [info_of fi_name fi_params fi_ret] in Eg. apply bind_ok in Eg. destruct Eg as (ts & Et & Eg). apply bind_ok in Eg. destruct Eg as (rt & Ert & Eg). injection Eg as <-.
    exists ts, rt. split; [|split].
    + rewrite <- O. eapply mapM_rel; [|exact Et]. intros p s Q. unfold param_text in Q. apply bind_ok in Q. destruct Q as (x & Q & F). injection F as <-. exists x. split; [eapply type_text_says; exact Q | reflexivity].
    + unfold says_result. destruct (ref_of At_type d) as [t|]; [|now injection Ert]. apply bind_ok in Ert. destruct Ert as (o & Q & F). apply filter_type in Q. injection F as <-.
      destruct o as [ty|]; [|exists (st "?"); split; [right; auto | right; split; [discriminate | reflexivity]]].
      exists (tname ty). split; [left; exists ty; auto|]. destruct (str_eqb (tname ty) (st "()")) eqn:W; [apply str_eqb_eq in W | apply str_eqb_neq in W]; auto.
    + destruct self as [[]|]; reflexivity.
Qed.
Print Assumptions method_described.

(** ** C75: the methods of a type *)
Lemma mapM_map {A B C} (g : A -> B) (f : B -> res C) l : mapM f (map g l) = mapM (fun a => f (g a)) l.
Proof. induction l as [|a l IH]; [reflexivity|]. cbn [map mapM]. now rewrite IH. Qed.
Lemma rmap_ok {A B} (f : A -> B) r b : rmap f r = Ok b <-> exists a, r = Ok a /\ b = f a.
Proof. unfold rmap. rewrite bind_ok. split; intros (a & E & F); exists a; split; auto; [now injection F | now subst]. Qed.
Lemma functions_methods X ix k u target ts mss : good_env u -> (forall t, In t ts -> node u (h_of t) t) ->
  mapM (fun h => fs <- child_functions u h ;; mapM (to_method X ix k u target) fs) (map h_of ts) = Ok mss ->
  Forall2 (describes X ix u target) (flat_map functions_in ts) (concat mss).
Proof.
  intros G. revert mss. induction ts as [|t ts IH]; intros mss N E; [injection E as <-; constructor|]. cbn [map mapM flat_map] in *.
  rewrite (functions_at u G _ t (N t (or_introl eq_refl))) in E. cbn [bind] in E. apply bind_ok in E. destruct E as (ms & E & F). apply bind_ok in F. destruct F as (r & F & Q). injection Q as <-.
  cbn [concat]. apply Forall2_app; [|apply IH; [intros; apply N; right; assumption | exact F]]. rewrite mapM_map in E. eapply mapM_rel; [|exact E]. intros a b. apply method_described.
Qed.
Lemma selects_In {A} (P : A -> Prop) l xs : selects P l xs -> forall x, In x xs -> In x l.
Proof. induction 1 as [|a l xs H S IH|a l xs H S IH]; intros x I; [exact I | destruct I as [<-|I]; [now left | right; now apply IH] | right; now apply IH]. Qed.
Lemma structs_at k u (G : good_env u) target n scope hs : node u n scope -> for_each_child (matching_struct k target) u n = Ok hs ->
  exists ts, hs = map h_of ts /\ @selects die (same_type u target) (d_kids scope) ts.
Proof.
  intros N. unfold for_each_child. rewrite (children_at u n scope G N). cbn [bind]. intros E. apply (each_ok_select u _ (same_type u target)) in E.
  - destruct E as (xs & -> & S). eauto.
  - intros c a I Q. pose proof (kid_node u n scope c N I) as Nc. unfold matching_struct in Q. rewrite (tag_at u _ c G Nc) in Q. destruct (tag_eqb _ _) eqn:T; [|discriminate]. apply tag_eqb_eq in T.
    apply bind_ok in Q. destruct Q as (t & R & Q). destruct (matching_type (layOf t) target) eqn:M; [|discriminate]. injection Q as <-. split; [reflexivity|]. split; [exact T|]. exists t. split; [eapply resolved; exact R | exact M].
  - intros c m I Q [T (t & R & M)]. pose proof (kid_node u n scope c N I) as Nc. unfold matching_struct in Q. rewrite (tag_at u _ c G Nc), T in Q. cbn [tag_eqb] in Q.
    destruct (resolve_type k u (h_of c)) as [t'|m'| |] eqn:Er; try discriminate.
    + cbn [bind] in Q. destruct (full_resolution_deterministic _ _ _ _ R (resolved _ _ _ _ Er)) as [<- _]. rewrite M in Q. discriminate.
    + apply (resolves_no_err _ _ _ R). exists k, m'. exact Er.
Qed.
(** The functions declared inside the struct DIEs of the type, in one module DIE. *)
Definition declared_here (X : externals) (ix : symbol_index) (target : layout) (p : env * Z) (ms : list dmethod) : Prop :=
  exists scope ts, node (fst p) (snd p) scope /\ selects (same_type (fst p) target) (d_kids scope) ts /\
    Forall2 (describes X ix (fst p) target) (flat_map functions_in ts) ms.
(** The methods declared in the impl blocks of a module DIE that take an object of the type. *)
Definition implemented_here (X : externals) (ix : symbol_index) (target : layout) (v : env) (scope : die) (ms : list dmethod) : Prop :=
  exists blocks all kept, selects impl_block (d_kids scope) blocks /\ Forall2 (describes X ix v target) (flat_map functions_in blocks) all /\
    selects on_object all kept /\
    Forall2 (fun m m' => exists note, m' = DMethod (dm_name m) (dm_full m ++ st " (from " ++ note ++ st ")") (dm_sig m) (dm_addr m) (dm_self m) (dm_callable m) (dm_synthetic m) (dm_ret m) (dm_params m)) kept ms.
Lemma selects_filter (l : list dmethod) : selects on_object l (filter has_self l).
Proof.
  induction l as [|m l IH]; [constructor|]. cbn [filter]. unfold has_self at 1, on_object. destruct (dm_self m) eqn:E; constructor; auto; unfold on_object; rewrite E; [eauto | intros [k F]; discriminate].
Qed.
Lemma filter_concat {A} (f : A -> bool) ls : filter f (concat ls) = concat (map (filter f) ls).
Proof. induction ls as [|l ls IH]; [reflexivity|]. cbn [concat map]. now rewrite filter_app, IH. Qed.
Lemma trait_note_shape full : exists note, trait_note full = full ++ st " (from " ++ note ++ st ")".
Proof. unfold trait_note. destruct (split_first (st " as ") full) as [[a b]|]; [eexists; reflexivity | exists (st "trait impl"); reflexivity]. Qed.
Lemma Forall2_map_r {A B C} (R : A -> C -> Prop) (f : B -> C) l m : Forall2 (fun a b => R a (f b)) l m -> Forall2 R l (map f m).
Proof. induction 1; constructor; auto. Qed.
Lemma Forall2_same {A} (R : A -> A -> Prop) l : (forall a, R a a) -> Forall2 R l l.
Proof. intros H. induction l; constructor; auto. Qed.
Lemma built_ins_listed sig_of target : built_ins sig_of target (map (synthetic_entry sig_of target) (synthetic_methods target)).
Proof.
  exists (synthetic_methods target). split; [destruct target; reflexivity|]. apply Forall2_map_r, Forall2_same. intros n. repeat apply conj; reflexivity.
Qed.
(** The methods listed for a type: the functions declared with the type, in every module DIE of its module in every
    file; the methods taking such an object in the impl blocks of the type's own scope; and the synthetic methods. *)
Theorem methods_of_type_exact_partial : forall X ix k files sig_of v h target l r scope,
  good_env v -> find_by_offset (en_ranges v) h = Some r -> node v (mr_die r) scope ->
  (forall f n, In f files -> In n (module_dies f (mr_path r)) -> good_env (fl_env f n) /\ exists s, node (fl_env f n) n s) ->
  methods_for_type X ix k files sig_of v h target = Ok l ->
  exists direct traits built, l = concat direct ++ traits ++ built /\ built_ins sig_of target built /\
    Forall2 (declared_here X ix target) (flat_map (fun f => map (fun n => (fl_env f n, n)) (module_dies f (mr_path r))) files) direct /\
    implemented_here X ix target v scope traits.
Proof.
  intros X ix k files sig_of v h target l r scope G Fr Ns Gf E. unfold methods_for_type in E. apply bind_ok in E. destruct E as (ds & Ed & E). apply bind_ok in E. destruct E as (ts & Et & E). injection E as <-.
  assert (D : exists direct, ds = concat direct /\ Forall2 (declared_here X ix target) (flat_map (fun f => map (fun n => (fl_env f n, n)) (module_dies f (mr_path r))) files) direct).
  { unfold direct_methods in Ed. apply bind_ok in Ed. destruct Ed as (dies & Em & Ed). apply rmap_ok in Ed. destruct Ed as (mss & Ed & ->).
    unfold find_matching, get_containing_module in Em. rewrite Fr in Em. apply rmap_ok in Em. destruct Em as (per & Em & ->).
    clear Et ts Fr Ns. revert per mss Em Ed. induction files as [|f files IH]; intros per mss Em Ed.
    - injection Em as <-. injection Ed as <-. exists []. split; [reflexivity | constructor].
    - cbn [mapM] in Em. apply bind_ok in Em. destruct Em as (p & Ep & Em). apply bind_ok in Em. destruct Em as (per' & Em & Q). injection Q as <-.
      cbn [concat] in Ed.
      assert (A : exists m1 m2, mapM (fun '(u, d) => fs <- child_functions u d ;; mapM (to_method X ix k u target) fs) p = Ok m1 /\
                   mapM (fun '(u, d) => fs <- child_functions u d ;; mapM (to_method X ix k u target) fs) (concat per') = Ok m2 /\ mss = m1 ++ m2).
      { clear - Ed. revert mss Ed. induction p as [|x p IHp]; intros mss Ed; [exists [], mss; auto|]. cbn [app mapM] in *. apply bind_ok in Ed. destruct Ed as (y & E1 & Ed). apply bind_ok in Ed. destruct Ed as (ys & Ed & Q). injection Q as <-.
        destruct (IHp _ Ed) as (m1 & m2 & -> & -> & ->). exists (y :: m1), m2. rewrite E1. auto. }
      destruct A as (m1 & m2 & A1 & A2 & ->). destruct (IH (fun f' n I => Gf f' n (or_intror I)) per' m2 Em A2) as (dr & C & F). rewrite concat_app, C. cbn [flat_map].
      assert (B : exists d1, concat m1 = concat d1 /\ Forall2 (declared_here X ix target) (map (fun n => (fl_env f n, n)) (module_dies f (mr_path r))) d1).
      { clear - Gf Ep A1. pose proof (fun n => Gf f n (or_introl eq_refl)) as Gn. clear Gf. unfold module_dies in *. destruct (find_by_path (fl_modules f) (mr_path r)) as [mo|]; [|injection Ep as <-; injection A1 as <-; exists []; split; [reflexivity | constructor]].
        apply rmap_ok in Ep. destruct Ep as (pp & Ep & ->). revert pp m1 Ep A1. induction (entries_of mo) as [|n ns IHn]; intros pp m1 Ep A1.
        - injection Ep as <-. injection A1 as <-. exists []. split; [reflexivity | constructor].
        - cbn [mapM] in Ep. apply bind_ok in Ep. destruct Ep as (q & Eq & Ep). apply bind_ok in Ep. destruct Ep as (pp' & Ep & Q). injection Q as <-. apply rmap_ok in Eq. destruct Eq as (hs & Eq & ->).
          destruct (Gn n (or_introl eq_refl)) as (Gu & s & Nsc). destruct (structs_at k _ Gu target n s hs Nsc Eq) as (tys & -> & S). cbn [concat] in A1.
          assert (A : exists a1 a2, mapM (fun h => fs <- child_functions (fl_env f n) h ;; mapM (to_method X ix k (fl_env f n) target) fs) (map h_of tys) = Ok a1 /\
               mapM (fun '(u, d) => fs <- child_functions u d ;; mapM (to_method X ix k u target) fs) (concat pp') = Ok a2 /\ m1 = a1 ++ a2).
          { clear - A1. revert m1 A1. generalize (map h_of tys) as hs. induction hs as [|x p IHp]; intros mss Ed; [exists [], mss; auto|]. cbn [map app mapM] in *. apply bind_ok in Ed. destruct Ed as (y & E1 & Ed). apply bind_ok in Ed. destruct Ed as (ys & Ed & Q). injection Q as <-.
            destruct (IHp _ Ed) as (m1 & m2 & -> & -> & ->). exists (y :: m1), m2. rewrite E1. auto. }
          destruct A as (a1 & a2 & A & A' & ->). destruct (IHn (fun n' I => Gn n' (or_intror I)) pp' a2 Ep A') as (d1 & C1 & F1). exists (concat a1 :: d1). rewrite concat_app, C1. split; [reflexivity|]. cbn [map]. constructor; [|exact F1].
          exists s, tys. cbn [fst snd]. split; [exact Nsc|]. split; [exact S|]. apply (functions_methods X ix k); [exact Gu | | exact A]. intros t I. eapply kid_node; [exact Nsc | eapply selects_In; [exact S | exact I]]. }
      destruct B as (d1 & B1 & B2). exists (d1 ++ dr). rewrite concat_app, B1. split; [reflexivity | apply Forall2_app; assumption]. }
  destruct D as (direct & -> & D). exists direct, ts, (map (synthetic_entry sig_of target) (synthetic_methods target)). split; [reflexivity|]. split; [apply built_ins_listed|]. split; [exact D|].
  unfold trait_methods, impl_namespaces in Et. rewrite Fr in Et. apply bind_ok in Et. destruct Et as (ns & En & Et). destruct (impls_at v G _ scope ns Ns En) as (blocks & -> & S).
  apply rmap_ok in Et. destruct Et as (mss & Et & ->).
  assert (A : exists all, mapM (fun h => fs <- child_functions v h ;; mapM (to_method X ix k v target) fs) (map h_of blocks) = Ok all /\ mss = map (fun ms => map enhance (filter has_self ms)) all).
  { clear - Et. revert mss Et. generalize (map h_of blocks) as hs. induction hs as [|x p IHp]; intros mss Ed; [injection Ed as <-; exists []; auto|]. cbn [mapM] in *. apply bind_ok in Ed. destruct Ed as (y & E1 & Ed). apply bind_ok in Ed. destruct Ed as (ys & Ed & Q). injection Q as <-.
    apply bind_ok in E1. destruct E1 as (fs & E1 & E2). apply bind_ok in E2. destruct E2 as (ms & E2 & Q). injection Q as <-. destruct (IHp _ Ed) as (all & A & ->). exists (ms :: all). rewrite E1. cbn [bind]. rewrite E2. cbn [bind]. rewrite A. auto. }
  destruct A as (all & A & ->). exists blocks, (concat all), (filter has_self (concat all)). split; [exact S|]. split.
  - apply (functions_methods X ix k); [exact G | | exact A]. intros t I. eapply kid_node; [exact Ns | eapply selects_In; [exact S | exact I]].
  - split; [apply selects_filter|]. rewrite filter_concat.
    assert (Q : concat (map (fun ms => map enhance (filter has_self ms)) all) = map enhance (concat (map (filter has_self) all))).
    { clear. induction all as [|m all IH]; [reflexivity|]. cbn [map concat]. now rewrite map_app, IH. }
    rewrite Q. apply Forall2_map_r. apply Forall2_same. intros m. destruct (trait_note_shape (dm_full m)) as [note E]. exists note. unfold enhance. rewrite E. reflexivity.
Qed.
Print Assumptions methods_of_type_exact_partial.

(** The methods offered on a pointer: exactly those of its type that take the object, in the same order. *)
Theorem methods_of_pointer_exact : forall X ix k files sig_of v h target,
  (forall l, methods_for_pointer X ix k files sig_of v h target = Ok l <->
     exists all, methods_for_type X ix k files sig_of v h target = Ok all /\ selects on_object all l) /\
  (forall m, methods_for_pointer X ix k files sig_of v h target = Err m <-> methods_for_type X ix k files sig_of v h target = Err m).
Proof.
  intros. unfold methods_for_pointer. split.
  - intros l. rewrite rmap_ok. split; intros (all & E & S); exists all; (split; [exact E|]).
    + subst. apply selects_filter.
    + clear E. revert l S. induction all as [|m all IH]; intros l S; inversion S as [|a l' xs P S' Q1 Q2|a l' xs P S' Q1 Q2]; subst; [reflexivity| |]; cbn [filter]; unfold has_self at 1; unfold on_object in P; destruct (dm_self m) eqn:E.
      * f_equal. now apply IH.
      * destruct P; discriminate.
      * exfalso. apply P. eauto.
      * now apply IH.
  - intros m. unfold rmap. destruct (methods_for_type _ _ _ _ _ _ _ _); cbn [bind]; split; intros H; try discriminate; congruence.
Qed.
Print Assumptions methods_of_pointer_exact.
