(** C111, C112: every method of a binary grouped by type, and the report on every function, from the stored files. *)
From Coq Require Import Ascii String List ZArith NArith Lia Bool.
From Verif Require Import Base NumText OMap Utf8 AddrModel SymModel SymSpec SymProofs SymProps PathModel LinesModel LinesProps DieModel DieSpec ModuleModel ModuleSpec TypesModel
  ParserModel ParserSpec ParserProofs ResolveModel ResolveSpec ResolveProofs ResolveProps FnModel FnSpec FnProps SourceModel SourceProps DiscoverModel DiscoverSpec DiscoverProofs DiscoverProps DiscoverFns DiscoverReport LoadModel BinaryModel BinarySpec BinaryProofs BinaryProps BinaryTypes BinaryDiscover.
Import ListNotations.
Open Scope Z_scope.

(** The function of the symbol [y] in the binary: its file, unit, DIE and the environment of the unit. *)
Definition declared_at (h : list (bool * list N * symbol)) (B : binary) (y : symbol) (f : bfile) (u : bunit) (d : die) (v : env) : Prop :=
  file_by_id B (sym_file y) = Some f /\ (exists s, function_of h f (sym_name y) d s) /\ In u (bf_units f) /\ in_tree (bu_die u) d /\ unit_view f u v.
(** It is in a debug file of the workspace. *)
Definition of_workspace (smap : list (fpath * fpath)) (workspace : option fpath) (B : binary) (y : symbol) : Prop :=
  exists w f, workspace = Some w /\ In f (bi_files B) /\ bf_id f = sym_file y /\ workspace_file smap w f.
(** The signature it declares. *)
Definition signed_as (smap : list (fpath * fpath)) (h : list (bool * list N * symbol)) (B : binary) (y : symbol) (s : signature) : Prop :=
  exists f u d v, declared_at h B y f u d v /\ declares v (decl_path smap u) d s.
(** What is reported of a function. *)
Definition analysed (smap : list (fpath * fpath)) (workspace : option fpath) (h : list (bool * list N * symbol)) (B : binary) (y : symbol) (a : analysis) : Prop :=
  match a with
  | UnindexedFile i => i = sym_file y /\ ~ of_workspace smap workspace B y
  | NoDebugInfo => of_workspace smap workspace B y /\ forall f u d v, ~ declared_at h B y f u d v
  | DiscoveredFunction s => of_workspace smap workspace B y /\ signed_as smap h B y s
  | AnalysisError => of_workspace smap workspace B y /\ exists f u d v, declared_at h B y f u d v /\ undeclarable v (decl_path smap u) d
  end.

Lemma var_says_ext v f g c x : (forall i, f i = g i) -> var_says v f c x -> var_says v g c x.
Proof. intros E (A & C & D & F). split; [exact A|]. split; [exact C|]. split; [|exact F]. destruct (va_loc x) as [[p l]|]; [|exact D]. destruct D as (i & D1 & D2 & D3). exists i. rewrite <- E. auto. Qed.
Lemma declares_ext v f g d s : (forall i, f i = g i) -> declares v f d s -> declares v g d s.
Proof. intros E (A1 & A2 & A3 & A4). split; [exact A1|]. split; [exact A2|]. split; [|exact A4]. apply (Forall2_imp_in _ _ _ _) with (2 := A3). intros c x _. now apply var_says_ext. Qed.
Lemma undeclarable_ext v f g d : (forall i, f i = g i) -> undeclarable v f d -> undeclarable v g d.
Proof. intros E [H|[H|(c & Hc & R)]]; [left; exact H | right; left; exact H | right; right]. exists c. split; [exact Hc | exact (reported_ext v f g c None E R)]. Qed.
Lemma function_of_fun h f n d s d' s' : function_of h f n d s -> function_of h f n d' s' -> d = d'.
Proof.
  intros (b & a & E & L & N & A) (b' & a' & E' & L' & N' & A'). rewrite E in E'. clear E. revert b' E'. induction b as [|x b IH]; intros [|x' b'] E; cbn in E; injection E as E1 E2.
  - exact E1.
  - exfalso. subst x' a. apply (A d' s'); [apply in_or_app; right; left; reflexivity | exact L' | exact N'].
  - exfalso. subst x a'. apply (A' d s); [apply in_or_app; right; left; reflexivity | exact L | exact N].
  - eapply IH, E2.
Qed.
Lemma selects_iff {A} (P : A -> Prop) l xs : selects P l xs -> forall x, In x xs <-> In x l /\ P x.
Proof.
  induction 1 as [|a l xs H S IH|a l xs H S IH]; intros x; [cbn; tauto|..]; cbn [In]; rewrite IH; split.
  - intros [<- | Q]; tauto.
  - tauto.
  - tauto.
  - intros [[<- | Q] K]; [contradiction | auto].
Qed.
Lemma local_file smap w n B f : is_local smap w (sfile_of n B f) = true <-> workspace_file smap w f.
Proof.
  rewrite is_local_spec; unfold lists, workspace_file; split;
    [intros (p & (u & v5 & es & z & rows & e & Hu & _ & R & T & He & Ep) & Lo); cbn [sfile_of sf_units] in Hu; apply in_map_iff in Hu; destruct Hu as (b & <- & Hb); exists b, v5, es, z, rows, e, p; cbn in R, T, Ep; auto 10
    |intros (u & v5 & es & z & rows & e & p & Hu & R & T & He & Ep & Lo); exists p; split; [|exact Lo]; exists (sunit_of u), v5, es, z, rows, e; cbn [sfile_of sf_units sunit_of su_root su_rust su_table su_comp]; repeat split; auto; now apply in_map].
Qed.
Lemma is_indexed_spec smap workspace n B y : is_indexed smap workspace n B (sym_file y) = true <-> of_workspace smap workspace B y.
Proof.
  unfold is_indexed, of_workspace, indexed_files. rewrite existsb_exists. destruct workspace as [w|].
  - split.
    + intros (f & Hf & E). apply filter_In in Hf. destruct Hf as [Hf Hl]. apply N.eqb_eq in E. exists w, f. split; [reflexivity|]. split; [exact Hf|]. split; [exact E|]. now apply (local_file smap w n B f).
    + intros (w' & f & Q & Hf & E & Hw). injection Q as <-. exists f. split; [|now apply N.eqb_eq]. apply filter_In. split; [exact Hf | now apply local_file].
  - split; [intros (f & [] & _) | intros (w & f & Q & _); discriminate].
Qed.

Section Report.
Variables (smap : list (fpath * fpath)) (workspace : option fpath) (X : externals) (tables : list (N * list raw_entry)) (B : binary).
Hypothesis Hix : bi_index B = index_symbol_map X tables.
Let h := history X tables.
Hypothesis Hmade : forall f, In f (bi_made B) -> readable_file h f /\ well_formed f.

Lemma declared_fun y f u d v f' u' d' v' : declared_at h B y f u d v -> declared_at h B y f' u' d' v' -> f = f' /\ u = u' /\ d = d' /\ v = v'.
Proof.
  intros (F & (s & Fo) & Hu & T & V) (F' & (s' & Fo') & Hu' & T' & V'). assert (f = f') by congruence. subst f'. pose proof (function_of_fun _ _ _ _ _ _ _ Fo Fo') as Q. subst d'.
  assert (Hf : In f (bi_made B)) by (unfold file_by_id in F; apply find_some in F; apply F). destruct (Hmade f Hf) as [_ W]. destruct (well_parts f W) as (_ & D & A). destruct (D u u' d d Hu Hu' T T' eq_refl) as [-> _].
  repeat split; auto. exact (view_fun _ _ _ _ V V').
Qed.
(** What the function index answers for a function. *)
Lemma entry_known : exists n0, forall n, (n0 <= n)%nat -> forall y, In y (functions_of h) ->
  match oget cmp_sname (sym_name y) (function_dies n B (sym_file y)) with
  | Some (v, x) => exists f u d, declared_at h B y f u d v /\ x = e_off (d_entry d) /\ good_env v /\ node v x d /\ forall i, die_files smap B (sym_file y) x i = decl_path smap u i
  | None => forall f u d v, ~ declared_at h B y f u d v
  end.
Proof.
  destruct (dies_known X tables B Hix Hmade) as (n0 & K). exists n0. intros n Hn y Hy. destruct (K n Hn) as (Gi & Kd & _). fold h in Kd.
  assert (Kd' : forall debug, entry_die (function_dies n B) y debug -> function_die h B y debug) by (intros debug; exact (Kd y debug Hy)). unfold entry_die in Kd'.
  destruct (oget cmp_sname (sym_name y) (function_dies n B (sym_file y))) as [[v x]|] eqn:O.
  - destruct (Gi _ _ _ _ O) as (Ge & d & N). destruct (Kd' (Some (v, d)) ltac:(eauto)) as (f & u & s & F & Fo & Hu & T & V). exists f, u, d. split; [split; [exact F|]; split; [exists s; exact Fo | auto]|]. destruct N as [N1 N2]. split; [now symmetry|]. split; [exact Ge|]. split; [split; assumption|].
    intros i. unfold die_files. rewrite F, <- N2. assert (Hf : In f (bi_made B)) by (unfold file_by_id in F; apply find_some in F; apply F). destruct (Hmade f Hf) as [_ W]. destruct (well_parts f W) as (_ & D & _). rewrite (unit_at_spec f u d D Hu T). apply unit_file_spec.
  - pose proof (Kd' None eq_refl) as Nf. intros f u d v (F & (s & Fo) & _). exact (Nf f d s F Fo).
Qed.

(** ** C111 *)
(** Under each type name, exactly the functions of the workspace's debug files (each name once, the symbol indexed last)
    whose DIE declares a first parameter of that type or a reference to it; each with the signature its DIE declares. *)
Theorem all_methods_listed : exists n0, forall n k m, (n0 <= n)%nat -> BinaryModel.discover_all_methods smap workspace n k B = Ok m -> forall t, exists ys l,
  NoDup (map sym_name ys) /\
  (forall y, In y ys <-> is_last (fun s => sym_name s = sym_name y) (functions_of h) y /\ of_workspace smap workspace B y /\ exists s, signed_as smap h B y s /\ belongs s t) /\
  Forall2 (fun y d => exists s, signed_as smap h B y s /\ shows_method y s d) ys l /\
  oget cmp_str t m = match l with [] => None | _ => Some l end.
Proof.
  destruct entry_known as (n0 & K). exists n0. intros n k m Hn E t. specialize (K n Hn). unfold BinaryModel.discover_all_methods, ix in E. rewrite Hix in E.
  destruct (all_symbols_spec X tables) as [Nd S]. cbn zeta in Nd, S. fold h in S.
  destruct (all_methods_grouped k _ _ _ _ m E t) as (ys & l & Sel & Fl & O).
  assert (Q : forall y s, In y (all_symbols (index_symbol_map X tables)) -> signature_of (die_files smap B) k (is_indexed smap workspace n B) (function_dies n B) y s <-> of_workspace smap workspace B y /\ signed_as smap h B y s).
  { intros y s Hy. specialize (K y (proj1 (is_last_in _ _ _ (proj1 (S y) Hy)))). unfold signature_of. rewrite is_indexed_spec. split.
    - intros (W & v & x & Og & R). split; [exact W|]. rewrite Og in K. destruct K as (f & u & d & Da & -> & Ge & N & Fi). exists f, u, d, v. split; [exact Da|]. apply (declares_ext v _ _ d s Fi). exact (signature_ok v _ Ge k _ d s N R).
    - intros (W & f & u & d & v & Da & De). split; [exact W|]. destruct (oget cmp_sname (sym_name y) (function_dies n B (sym_file y))) as [[v' x]|] eqn:Og; [|exfalso; exact (K f u d v Da)].
      destruct K as (f' & u' & d' & Da' & -> & Ge & N & Fi). destruct (declared_fun _ _ _ _ _ _ _ _ _ Da Da') as (<- & <- & <- & <-). exists v, (e_off (d_entry d)). split; [reflexivity|].
      unfold DiscoverModel.discover_all_methods in E. apply bind_ok in E. destruct E as (os & E & _). apply mapM_ok in E.
      assert (Ey : exists o, (if is_indexed smap workspace n B (sym_file y) then match oget cmp_sname (sym_name y) (function_dies n B (sym_file y)) with Some d => method_of k (die_files smap B (sym_file y) (snd d)) y d | None => Ok None end else Ok None) = Ok o).
      { clear - E Hy. induction E as [|a b l r P _ IH]; [destruct Hy|]. destruct Hy as [-> | Hy]; [exists b; exact P | exact (IH Hy)]. }
      destruct Ey as (o & Ey). rewrite (proj2 (is_indexed_spec smap workspace n B y) W), Og in Ey. unfold method_of in Ey. cbn [fst snd] in Ey.
      assert (De' : declares v (die_files smap B (sym_file y) (e_off (d_entry d))) d s) by (apply (declares_ext v (decl_path smap u)); [intros i; symmetry; apply Fi | exact De]).
      destruct (resolve_function_signature _ k v (e_off (d_entry d))) as [s'|e| |] eqn:R; try discriminate.
      + f_equal. exact (declares_fun v _ Ge _ d s' s N (signature_ok v _ Ge k _ d s' N R) De').
      + exfalso. exact (declares_or v _ Ge _ d s N De' (signature_err v _ Ge k _ d e N R)). }
  assert (Sub : forall y, In y ys <-> In y (all_symbols (index_symbol_map X tables)) /\ exists s, signature_of (die_files smap B) k (is_indexed smap workspace n B) (function_dies n B) y s /\ belongs s t).
  { exact (selects_iff _ _ _ Sel). }
  exists ys, l. split; [|split; [|split; [|exact O]]].
  - clear - Sel Nd. induction Sel as [|y l ys P Sel IH|y l ys P Sel IH]; [constructor|..]; cbn [map] in Nd; inversion Nd as [|? ? N1 N2]; subst; [|auto]. cbn [map]. constructor; [|auto]. intros I. apply N1. apply in_map_iff in I. destruct I as (z & Ez & Hz). apply in_map_iff. exists z. split; [exact Ez|]. apply (selects_iff _ _ _ Sel) in Hz. apply Hz.
  - intros y. rewrite Sub, S. split.
    + intros (L & s & Sg & Bl). split; [exact L|]. apply S in L. apply (Q y s L) in Sg. split; [apply Sg|]. exists s. split; [apply Sg | exact Bl].
    + intros (L & W & s & Sg & Bl). split; [exact L|]. exists s. split; [|exact Bl]. apply Q; [now apply S | auto].
  - apply (Forall2_imp_in _ _ _ _) with (2 := Fl). intros y d Hy (s & Sg & Sh). exists s. split; [|exact Sh]. apply Sub in Hy. apply (Q y s (proj1 Hy)) in Sg. apply Sg.
Qed.

(** ** C112 *)
(** The report answers for every function by its displayed name; what it says there is true of a function so displayed,
    and of this one when no other is displayed the same. *)
Theorem all_functions_analysed_partial : exists n0, forall n k m, (n0 <= n)%nat -> BinaryModel.discover_all_methods_debug smap workspace n k B = Ok m ->
  let listed y := is_last (fun s => sym_name s = sym_name y) (functions_of h) y in
  (forall name a, oget cmp_str name m = Some a -> exists y, listed y /\ sname_display (sym_name y) = name /\ analysed smap workspace h B y a) /\
  (forall y, listed y -> exists a, oget cmp_str (sname_display (sym_name y)) m = Some a /\
     ((forall y', listed y' -> sname_display (sym_name y') = sname_display (sym_name y) -> y' = y) -> analysed smap workspace h B y a)).
Proof.
  destruct entry_known as (n0 & K). exists n0. intros n k m Hn E listed. specialize (K n Hn). unfold BinaryModel.discover_all_methods_debug, ix in E. rewrite Hix in E.
  destruct (all_symbols_spec X tables) as [_ S]. cbn zeta in S. fold h in S. unfold discover_all_functions_debug in E. apply bind_ok in E. destruct E as (rs & E & Q). injection Q as <-. apply mapM_ok in E.
  set (an := analyse k (die_files smap B) (is_indexed smap workspace n B) (has_functions B) (function_dies n B)) in E.
  assert (A : forall y r, In y (all_symbols (index_symbol_map X tables)) -> an y = Ok r -> exists a, r = Some (sname_display (sym_name y), a) /\ analysed smap workspace h B y a).
  { intros y r Hy Er. apply S in Hy. pose proof (is_last_in _ _ _ Hy) as [Hy' _]. specialize (K y Hy'). unfold an, analyse in Er. destruct (is_indexed smap workspace n B (sym_file y)) eqn:Ix; cbn [negb] in Er.
    - apply is_indexed_spec in Ix. assert (Hh : has_functions B (sym_file y) = true).
      { destruct Ix as (w & f & _ & _ & Ef & _). unfold functions_of in Hy'. apply in_map_iff in Hy'. destruct Hy' as (e & <- & He). apply filter_In in He. destruct (symbols_known X tables B Hix f e (proj1 He) ltac:(now symmetry)) as (syms & Sy & _).
        unfold has_functions. rewrite <- Ef. unfold symbols_in in Sy. now rewrite Sy. }
      rewrite Hh in Er. cbn [negb] in Er. destruct (oget cmp_sname (sym_name y) (function_dies n B (sym_file y))) as [[v x]|].
      + destruct K as (f & u & d & Da & -> & Ge & N & Fi). destruct (resolve_function_signature _ k v (e_off (d_entry d))) as [s|e| |] eqn:R; try discriminate.
        * injection Er as <-. eexists. split; [reflexivity|]. split; [exact Ix|]. exists f, u, d, v. split; [exact Da|]. apply (declares_ext v _ _ d s Fi). exact (signature_ok v _ Ge k _ d s N R).
        * injection Er as <-. eexists. split; [reflexivity|]. split; [exact Ix|]. exists f, u, d, v. split; [exact Da|]. apply (undeclarable_ext v _ _ d Fi). exact (signature_err v _ Ge k _ d e N R).
      + injection Er as <-. eexists. split; [reflexivity|]. split; [exact Ix | exact K].
    - injection Er as <-. eexists. split; [reflexivity|]. split; [reflexivity|]. intros W. apply (is_indexed_spec smap workspace n B y) in W. congruence. }
  assert (Fl : Forall2 (fun y p => fst p = sname_display (sym_name y) /\ analysed smap workspace h B y (snd p)) (all_symbols (index_symbol_map X tables)) (flatten rs)).
  { clear S. revert A. induction E as [|y r l rs' P E IH]; intros A; [constructor|]. destruct (A y r (or_introl eq_refl) P) as (a & -> & Q). unfold flatten. cbn [flat_map app]. constructor; [split; [reflexivity | exact Q]|]. apply IH. intros z q Hz. apply A. now right. }
  assert (O : forall name, oget cmp_str name (fold_left (fun m p => oinsert cmp_str (fst p) (snd p) m) (flatten rs) []) = option_map snd (last_with (fun p => str_eqb (fst p) name) (flatten rs))).
  { intros name. pose proof (inserted_last (flatten rs) [] name I) as Q. cbn [oget] in Q. etransitivity; [exact Q|]. destruct (last_with _ _); reflexivity. }
  assert (Left : forall p, In p (flatten rs) -> exists y, listed y /\ fst p = sname_display (sym_name y) /\ analysed smap workspace h B y (snd p)).
  { intros p Hp. clear - Fl Hp S. assert (G : exists y, In y (all_symbols (index_symbol_map X tables)) /\ fst p = sname_display (sym_name y) /\ analysed smap workspace h B y (snd p)) by (clear S; induction Fl as [|y q l r P _ IH]; [destruct Hp|]; destruct Hp as [-> | Hp]; [exists y; cbn; tauto | destruct (IH Hp) as (z & Hz & Q); exists z; cbn; tauto]).
    destruct G as (y & Hy & Q). exists y. split; [now apply S | exact Q]. }
  split.
  - intros name a H. rewrite O in H. pose proof (last_with_in (fun p : str * analysis => str_eqb (fst p) name) (flatten rs)) as W. destruct (last_with _ _) as [p|]; [|discriminate]. cbn [option_map] in H. injection H as <-. destruct W as [Hp Ep]. apply str_eqb_eq in Ep. destruct (Left p Hp) as (y & L & D & An). exists y. split; [exact L|]. split; [congruence | exact An].
  - intros y L. rewrite O. pose proof (last_with_in (fun p : str * analysis => str_eqb (fst p) (sname_display (sym_name y))) (flatten rs)) as W. destruct (last_with _ _) as [p|]; cbn [option_map].
    + exists (snd p). split; [reflexivity|]. intros U. destruct W as [Hp Ep]. apply str_eqb_eq in Ep. destruct (Left p Hp) as (y' & L' & D & An). rewrite (U y' L' ltac:(congruence)) in An. exact An.
    + exfalso. apply S in L. clear - Fl L W. assert (G : exists p, In p (flatten rs) /\ fst p = sname_display (sym_name y)) by (induction Fl as [|z q l r P _ IH]; [destruct L|]; destruct L as [-> | L]; [exists q; cbn; tauto | destruct IH as (p & Hp & Q); [exact L | intros x Hx; apply W; now right | exists p; cbn; tauto]]).
      destruct G as (p & Hp & Q). specialize (W p Hp). apply str_eqb_neq in W. contradiction.
Qed.
(** Both listings are answered unless resolving a parameter or result type of some function panics. *)
Theorem all_methods_answered :
  (forall g d s u v, In g (bi_made B) -> In d (visible (units_of g)) -> linked h g d s -> In u (bf_units g) -> in_tree (bu_die u) d -> unit_view g u v -> signature_settled v (decl_path smap u) d) ->
  exists n0, forall n, (n0 <= n)%nat -> exists k0, forall k, (k0 <= k)%nat ->
    (exists m, BinaryModel.discover_all_methods smap workspace n k B = Ok m) /\ exists m, BinaryModel.discover_all_methods_debug smap workspace n k B = Ok m.
Proof.
  intros St. destruct entry_known as (n0 & K). exists n0. intros n Hn. specialize (K n Hn). destruct (all_symbols_spec X tables) as [_ S]. cbn zeta in S. fold h in S.
  assert (Kk : forall y, In y (all_symbols (index_symbol_map X tables)) -> exists k0, forall k, (k0 <= k)%nat ->
    match oget cmp_sname (sym_name y) (function_dies n B (sym_file y)) with
    | Some (v, x) => (exists s, resolve_function_signature (die_files smap B (sym_file y) x) k v x = Ok s) \/ exists m, resolve_function_signature (die_files smap B (sym_file y) x) k v x = Err m
    | None => True end).
  { intros y Hy. specialize (K y (proj1 (is_last_in _ _ _ (proj1 (S y) Hy)))). destruct (oget cmp_sname (sym_name y) (function_dies n B (sym_file y))) as [[v x]|]; [|exists 0%nat; auto].
    destruct K as (f & u & d & (F & (s & Fo) & Hu & T & V) & -> & Ge & N & Fi). destruct (function_of_visible _ _ f _ d s Fo) as (Vd & Ln & _).
    assert (Hf : In f (bi_made B)) by (unfold file_by_id in F; apply find_some in F; apply F). destruct (St f d s u v Hf Vd Ln Hu T V) as [S1 S2].
    apply (signature_answers v (die_files smap B (sym_file y) (e_off (d_entry d))) Ge _ d N). split; [exact S1|]. intros c Hc. destruct (S2 c Hc) as (o & R). exists o. apply (reported_ext v (decl_path smap u)); [intros i; symmetry; apply Fi | exact R]. }
  assert (Ka : exists k0, forall k, (k0 <= k)%nat -> forall y, In y (all_symbols (index_symbol_map X tables)) ->
    match oget cmp_sname (sym_name y) (function_dies n B (sym_file y)) with
    | Some (v, x) => (exists s, resolve_function_signature (die_files smap B (sym_file y) x) k v x = Ok s) \/ exists m, resolve_function_signature (die_files smap B (sym_file y) x) k v x = Err m
    | None => True end).
  { clear - Kk. induction (all_symbols (index_symbol_map X tables)) as [|y l IH]; [exists 0%nat; intros k _ y []|]. destruct (IH (fun z Hz => Kk z (or_intror Hz))) as (k1 & H1). destruct (Kk y (or_introl eq_refl)) as (k2 & H2). exists (k1 + k2)%nat. intros k Hk z [<- | Hz]; [apply H2; lia | apply H1; [lia | exact Hz]]. }
  destruct Ka as (k0 & Ka). exists k0. intros k Hk. specialize (Ka k Hk).
  assert (M : forall (A C : Type) (g : A -> res C) l, (forall y, In y l -> exists o, g y = Ok o) -> exists os, mapM g l = Ok os).
  { clear. intros A C g l. induction l as [|y l IH]; intros H; [exists []; reflexivity|]. destruct (H y (or_introl eq_refl)) as (o & E). destruct (IH (fun z Hz => H z (or_intror Hz))) as (os & Es). cbn [mapM]. rewrite E. cbn [bind]. rewrite Es. eexists; reflexivity. }
  unfold BinaryModel.discover_all_methods, BinaryModel.discover_all_methods_debug, ix. rewrite Hix. unfold DiscoverModel.discover_all_methods, discover_all_functions_debug. split.
  - match goal with |- exists m, bind (mapM ?g ?l) _ = _ => destruct (M _ _ g l) as (os & Es); [|rewrite Es; cbn [bind]; eexists; reflexivity] end.
    intros y Hy. specialize (Ka y Hy). cbv beta. destruct (is_indexed smap workspace n B (sym_file y)); [|eauto]. destruct (oget cmp_sname (sym_name y) (function_dies n B (sym_file y))) as [[v x]|]; [|eauto].
    unfold method_of. cbn [fst snd]. destruct Ka as [(s & ->)|(m & ->)]; [|eauto]. destruct (sg_params s); [eauto|]. cbv zeta. match goal with |- context [if ?b then _ else _] => destruct b end; eauto.
  - match goal with |- exists m, bind (mapM ?g ?l) _ = _ => destruct (M _ _ g l) as (os & Es); [|rewrite Es; cbn [bind]; eexists; reflexivity] end.
    intros y Hy. specialize (Ka y Hy). unfold analyse. destruct (negb (is_indexed smap workspace n B (sym_file y))); [eauto|]. destruct (negb (has_functions B (sym_file y))); [eauto|]. destruct (oget cmp_sname (sym_name y) (function_dies n B (sym_file y))) as [[v x]|]; [|eauto].
    destruct Ka as [(s & ->)|(m & ->)]; eauto.
Qed.
End Report.
Print Assumptions all_methods_listed.
Print Assumptions all_functions_analysed_partial.
Print Assumptions all_methods_answered.
