(** C111, C112: what a function DIE declares; the report on every function, for the symbols and function indexes given. *)
From Coq Require Import Ascii String List ZArith NArith Lia Bool.
From Verif Require Import Base NumText OMap SymModel SymSpec SymProofs SymProps DieModel ModuleModel TypesModel ParserModel ParserSpec ParserProofs ResolveModel ResolveSpec ResolveProofs ResolveProofs2 ResolveProps FnModel FnSpec FnProofs FnProps SynthModel DiscoverModel DiscoverSpec DiscoverProofs DiscoverProps DiscoverFns.
Import ListNotations.
Open Scope Z_scope.

(** The DIE [d] declares a function with this signature: name, result type, the parameters its children are, and how it
    takes its object. *)
Definition declares (v : env) (files : Z -> option LinesModel.path) (d : die) (s : signature) : Prop :=
  named d (sg_name s) /\
  match sg_ret s with Some t => exists ht, typed d ht /\ resolves v ht t | None => forall ht, ~ typed d ht end /\
  Forall2 (var_says v files) (parameters d) (sg_params s) /\
  forall kind, sg_self s = Some kind <-> takes (sg_params s) kind.
(** It declares none: no name, a result type that cannot be resolved, or a parameter without a type, with one that cannot
    be resolved, or in a file the line table does not know. *)
Definition undeclarable (v : env) (files : Z -> option LinesModel.path) (d : die) : Prop :=
  (forall s, ~ named d s) \/ (exists ht n m, typed d ht /\ shallow n v ht = Err m) \/ exists c, In c (parameters d) /\ reported v files c None.

Section Sig.
Variables (v : env) (files : Z -> option LinesModel.path).
Hypothesis G : good_env v.
Lemma position_cases c : node v (h_of c) c ->
  (exists o, position files v (h_of c) = Ok o /\
    match o with Some (p, l) => exists i, has_attr c At_decl_file (AFile i) /\ files i = Some p /\ unsigned c At_decl_line l
               | None => (forall f, ~ has_attr c At_decl_file f) \/ (forall l, ~ unsigned c At_decl_line l) end) \/
  (exists m f l, position files v (h_of c) = Err m /\ has_attr c At_decl_file f /\ unsigned c At_decl_line l /\ forall i p, f = AFile i -> files i <> Some p).
Proof.
  intros N. unfold position. destruct (attr_of At_decl_file v (h_of c)) as [f|m|m|] eqn:A.
  - pose proof (proj1 (attr_at v _ c G N _ _) A) as A'. destruct (udata_attr At_decl_line v (h_of c)) as [l|m|m|] eqn:U.
    + pose proof (proj1 (udata_at v _ c G N _ _) U) as U'. destruct f as [| | | | |i|]; try (right; do 3 eexists; split; [reflexivity|]; split; [exact A'|]; split; [exact U'|]; intros ? ? Q; discriminate).
      destruct (files i) as [p|] eqn:Fi; [left; eexists; split; [reflexivity|]; cbn; eauto|]. right. do 3 eexists. split; [reflexivity|]. split; [exact A'|]. split; [exact U'|]. intros j q Q. injection Q as <-. congruence.
    + left. exists None. split; [reflexivity|]. right. intros l H. apply (udata_at v _ c G N) in H. congruence.
    + exfalso. unfold udata_attr, attr_of in U. rewrite (proj2 (lookup_ok v _ c G) N) in U. cbn [bind] in U. destruct (get_attr _ _) as [y|]; [|discriminate]. cbn [bind] in U. destruct (udata_value y); discriminate.
    + exfalso. unfold udata_attr, attr_of in U. rewrite (proj2 (lookup_ok v _ c G) N) in U. cbn [bind] in U. destruct (get_attr _ _) as [y|]; [|discriminate]. cbn [bind] in U. destruct (udata_value y); discriminate.
  - left. exists None. split; [reflexivity|]. left. intros f H. apply (attr_at v _ c G N) in H. congruence.
  - exfalso. unfold attr_of in A. rewrite (proj2 (lookup_ok v _ c G) N) in A. cbn [bind] in A. destruct (get_attr _ _); discriminate.
  - exfalso. unfold attr_of in A. rewrite (proj2 (lookup_ok v _ c G) N) in A. cbn [bind] in A. destruct (get_attr _ _); discriminate.
Qed.
Lemma untyped_err c m : node v (h_of c) c -> entry_type v (h_of c) = Err m -> forall t, ~ typed c t.
Proof. intros N E t T. rewrite (type_ok v G _ c t N T) in E. discriminate. Qed.
Lemma variable_ok c k x : node v (h_of c) c -> variable files k v (h_of c) = Ok x -> var_says v files c x.
Proof.
  intros N E. unfold variable in E. destruct (p_name v G c N) as (o & En & Hn). rewrite En in E. cbn [bind] in E. apply bind_ok in E. destruct E as (t & Et & E). apply bind_ok in E. destruct E as (p & Ep & E). injection E as <-.
  unfold entry_shallow, p_then in Et. apply bind_ok in Et. destruct Et as (ht & Eh & Et). unfold var_says. cbn [va_name va_ty va_loc va_die]. split; [exact Hn|]. split.
  - exists ht. split; [now apply (ref_at v _ c G N) | exists k; exact Et].
  - split; [|reflexivity]. destruct (position_cases c N) as [(o' & E' & H)|(m & f & l & E' & _)]; rewrite E' in Ep; [injection Ep as <-; exact H | discriminate].
Qed.
Lemma variable_err c k m : node v (h_of c) c -> variable files k v (h_of c) = Err m -> reported v files c None.
Proof.
  intros N E. unfold variable in E. destruct (p_name v G c N) as (o & En & Hn). rewrite En in E. cbn [bind] in E. unfold entry_shallow, p_then in E.
  destruct (type_shape v G c N) as [(t & Et & T)|(m' & Et)]; rewrite Et in E; cbn [bind] in E; [|apply rep_untyped; exact (untyped_err c m' N Et)].
  destruct (shallow k v t) as [ty|m2|m2|] eqn:Sh; cbn [bind] in E; try discriminate.
  - destruct (position_cases c N) as [(o' & E' & H)|(m3 & f & l & E' & A & U & F)]; rewrite E' in E; [discriminate|]. eapply rep_unplaced; [exact T | exists k; exact Sh | exact A | exact U | exact F].
  - eapply rep_unresolved; eassumption.
Qed.
Lemma parameters_ok k ps : forall l, (forall c, In c l -> node v (h_of c) c) ->
  each_try (p_then_opt (p_filter (is_member_tag Tparameter)) (function_parameter files k)) v (map h_of l) = Ok ps ->
  Forall2 (var_says v files) (filter (fun c => tag_eqb (e_tag (d_entry c)) Tparameter) l) ps.
Proof.
  intros l. revert ps. induction l as [|a l IH]; intros ps K E; [injection E as <-; constructor|]. cbn [map each_try] in E. apply bind_ok in E. destruct E as (o & Eo & E). apply bind_ok in E. destruct E as (r & Er & E). injection E as <-.
  pose proof (K a (or_introl eq_refl)) as Na. specialize (IH r (fun c H => K c (or_intror H)) Er). cbn [filter].
  assert (TG : is_member_tag Tparameter v (h_of a) = if tag_eqb (e_tag (d_entry a)) Tparameter then Ok (h_of a) else Err "Expected entry to have tag") by (unfold is_member_tag; rewrite (tag_at v _ a G Na); reflexivity).
  unfold p_then_opt, p_filter, function_parameter, p_then in Eo. destruct (tag_eqb (e_tag (d_entry a)) Tparameter) eqn:T; rewrite TG in Eo; cbn [bind] in Eo.
  - rewrite TG in Eo. cbn [bind] in Eo. apply rmap_ok in Eo. destruct Eo as (x & Ex & ->). constructor; [eapply variable_ok; eassumption | exact IH].
  - injection Eo as <-. exact IH.
Qed.
Lemma parameters_err k m : forall l, (forall c, In c l -> node v (h_of c) c) ->
  each_try (p_then_opt (p_filter (is_member_tag Tparameter)) (function_parameter files k)) v (map h_of l) = Err m ->
  exists c, In c (filter (fun c => tag_eqb (e_tag (d_entry c)) Tparameter) l) /\ reported v files c None.
Proof.
  induction l as [|a l IH]; intros K E; [discriminate|]. cbn [map each_try] in E. pose proof (K a (or_introl eq_refl)) as Na. cbn [filter].
  assert (TG : is_member_tag Tparameter v (h_of a) = if tag_eqb (e_tag (d_entry a)) Tparameter then Ok (h_of a) else Err "Expected entry to have tag") by (unfold is_member_tag; rewrite (tag_at v _ a G Na); reflexivity).
  unfold p_then_opt at 1, p_filter at 1, function_parameter at 1, p_then at 1 in E. destruct (tag_eqb (e_tag (d_entry a)) Tparameter) eqn:T; rewrite TG in E; cbn [bind] in E.
  - rewrite TG in E. cbn [bind] in E. unfold rmap at 1 in E. destruct (variable files k v (h_of a)) as [x|m'|m'|] eqn:V; cbn [bind] in E; try discriminate.
    + destruct (each_try _ v (map h_of l)) as [r|m'|m'|] eqn:Er; cbn [bind] in E; try discriminate. destruct (IH (fun c H => K c (or_intror H))) as (c & Hc & R); [congruence|]. exists c. split; [now right | exact R].
    + exists a. split; [now left | eapply variable_err; eassumption].
  - destruct (each_try _ v (map h_of l)) as [r|m'|m'|] eqn:Er; cbn [bind] in E; try discriminate. destruct (IH (fun c H => K c (or_intror H))) as (c & Hc & R); [congruence|]. exists c. split; [exact Hc | exact R].
Qed.
(** The signature found is the one declared. *)
Lemma signature_ok k h d s : node v h d -> resolve_function_signature files k v h = Ok s -> declares v files d s.
Proof.
  intros N E. unfold resolve_function_signature, function_declaration in E. apply bind_ok in E. destruct E as ([[name ret] ps] & E & Q). injection Q as <-.
  apply bind_ok in E. destruct E as (name' & En & E). apply bind_ok in E. destruct E as (ret' & Er & E). apply bind_ok in E. destruct E as (ps' & Ep & E). injection E as -> -> ->.
  unfold declares. cbn [sg_name sg_ret sg_params sg_self]. split; [now apply (name_at v _ d G N)|]. split; [|split; [|apply self_kind_exact]].
  - unfold p_then_opt, p_filter in Er. destruct (ref_attr At_type v h) as [ht|m|m|] eqn:R; cbn [bind] in Er; try discriminate.
    + apply rmap_ok in Er. destruct Er as (t & Et & ->). exists ht. split; [now apply (ref_at v _ d G N) | exists k; exact Et].
    + injection Er as <-. intros ht T. apply (ref_at v _ d G N) in T. congruence.
  - unfold try_for_each_child in Ep. rewrite (children_at v h d G N) in Ep. cbn [bind] in Ep. eapply parameters_ok; [|exact Ep]. intros c Hc. eapply kid_node; eassumption.
Qed.
Lemma signature_err k h d m : node v h d -> resolve_function_signature files k v h = Err m -> undeclarable v files d.
Proof.
  intros N E. unfold resolve_function_signature, function_declaration in E.
  destruct (name_attr v h) as [nm|m'|m'|] eqn:En; cbn [bind] in E; try discriminate; [|left; intros s H; apply (name_at v _ d G N) in H; congruence].
  right. unfold p_then_opt at 1, p_filter at 1 in E. destruct (ref_attr At_type v h) as [ht|m'|m'|] eqn:R; cbn [bind] in E; try discriminate.
  - unfold rmap at 1 in E. destruct (shallow k v ht) as [t|m'|m'|] eqn:Sh; cbn [bind] in E; try discriminate; [|left; exists ht, k, m'; split; [now apply (ref_at v _ d G N) | exact Sh]].
    right. unfold try_for_each_child in E. rewrite (children_at v h d G N) in E. cbn [bind] in E. destruct (each_try _ v (map h_of (d_kids d))) as [r|m'|m'|] eqn:Ee; cbn [bind] in E; try discriminate.
    eapply parameters_err; [|exact Ee]. intros c Hc. eapply kid_node; eassumption.
  - right. unfold try_for_each_child in E. rewrite (children_at v h d G N) in E. cbn [bind] in E. destruct (each_try _ v (map h_of (d_kids d))) as [r|m''|m''|] eqn:Ee; cbn [bind] in E; try discriminate.
    eapply parameters_err; [|exact Ee]. intros c Hc. eapply kid_node; eassumption.
Qed.
Lemma var_says_fun c x y : in_tree (en_unit v) c -> var_says v files c x -> var_says v files c y -> x = y.
Proof.
  intros T X Y. destruct (variable_reported v files G c (Some x) T (rep_var _ _ _ x X)) as (k1 & H1). destruct (variable_reported v files G c (Some y) T (rep_var _ _ _ y Y)) as (k2 & H2).
  specialize (H1 (k1 + k2)%nat ltac:(lia)). specialize (H2 (k1 + k2)%nat ltac:(lia)). cbn in H1, H2. congruence.
Qed.
(** A DIE declares at most one signature, and not if it declares none. *)
Lemma declares_fun h d s s' : node v h d -> declares v files d s -> declares v files d s' -> s = s'.
Proof.
  intros N (A1 & A2 & A3 & A4) (B1 & B2 & B3 & B4). destruct s as [n ps r sf], s' as [n' ps' r' sf']. cbn in *.
  assert (n = n') by (unfold named in *; pose proof (has_attr_inj _ _ _ _ A1 B1) as Q; congruence). subst n'.
  assert (ps = ps').
  { assert (K : forall c, In c (parameters d) -> in_tree (en_unit v) c) by (intros c Hc; apply filter_In in Hc; apply (proj1 (kid_node v h d c N (proj1 Hc)))).
    clear - A3 B3 G K. revert ps' B3. induction A3 as [|c x l xs S _ IH]; intros ps' B; inversion B as [|? y ? ys S' B']; subst; [reflexivity|]. f_equal; [exact (var_says_fun c x y (K c (or_introl eq_refl)) S S') | apply IH; auto; intros c' Hc; apply K; now right]. }
  subst ps'.
  assert (r = r').
  { destruct r as [t|], r' as [t'|]; [|exfalso..|reflexivity].
    - destruct A2 as (ht & T & k1 & E1), B2 as (ht' & T' & k2 & E2). assert (ht = ht') by (unfold typed, refers in *; pose proof (has_attr_inj _ _ _ _ T T') as Q; congruence). subst ht'.
      pose proof (shallow_mono k1 (k1 + k2) ltac:(lia) v ht ltac:(congruence)). pose proof (shallow_mono k2 (k1 + k2) ltac:(lia) v ht ltac:(congruence)). congruence.
    - destruct A2 as (ht & T & _). exact (B2 ht T).
    - destruct B2 as (ht & T & _). exact (A2 ht T). }
  subst r'. f_equal. destruct sf as [k|]; [symmetry; apply B4, A4; reflexivity|]. destruct sf' as [k'|]; [|reflexivity]. apply A4, B4. reflexivity.
Qed.
Lemma declares_or h d s : node v h d -> declares v files d s -> ~ undeclarable v files d.
Proof.
  intros N (A1 & A2 & A3 & A4) [U|[(ht & n & m & T & E)|(c & Hc & R)]].
  - exact (U _ A1).
  - destruct (sg_ret s) as [t|]; [|exact (A2 ht T)]. destruct A2 as (ht' & T' & k & E'). assert (ht = ht') by (unfold typed, refers in *; pose proof (has_attr_inj _ _ _ _ T T') as Q; congruence). subst ht'.
    pose proof (shallow_mono n (n + k) ltac:(lia) v ht ltac:(congruence)). pose proof (shallow_mono k (n + k) ltac:(lia) v ht ltac:(congruence)). congruence.
  - assert (Hx : exists x, var_says v files c x) by (clear - A3 Hc; induction A3 as [|a x l xs S _ IH]; [destruct Hc|]; destruct Hc as [<- | Hc]; eauto). destruct Hx as (x & X). assert (T : in_tree (en_unit v) c) by (apply filter_In in Hc; apply (proj1 (kid_node v h d c N (proj1 Hc)))).
    destruct (variable_reported v files G c (Some x) T (rep_var _ _ _ x X)) as (k1 & H1). destruct (variable_reported v files G c None T R) as (k2 & H2).
    specialize (H1 (k1 + k2)%nat ltac:(lia)). destruct (H2 (k1 + k2)%nat ltac:(lia)) as (m & H3). cbn in H1. congruence.
Qed.
(** Whether the types resolve is settled (resolution does not panic). *)
Definition signature_settled (d : die) : Prop :=
  (forall ht, typed d ht -> (exists t, resolves v ht t) \/ exists n m, shallow n v ht = Err m) /\
  forall c, In c (parameters d) -> exists o, reported v files c o.
Lemma parameters_settle : forall l, (forall c, In c l -> node v (h_of c) c) ->
  (forall c, In c (filter (fun c => tag_eqb (e_tag (d_entry c)) Tparameter) l) -> exists o, reported v files c o) ->
  exists k0, forall k, (k0 <= k)%nat -> let r := each_try (p_then_opt (p_filter (is_member_tag Tparameter)) (function_parameter files k)) v (map h_of l) in (exists ps, r = Ok ps) \/ exists m, r = Err m.
Proof.
  induction l as [|a l IH]; intros K R; [exists 0%nat; intros k _; left; exists []; reflexivity|].
  pose proof (K a (or_introl eq_refl)) as Na. cbn [filter] in R.
  assert (TG : is_member_tag Tparameter v (h_of a) = if tag_eqb (e_tag (d_entry a)) Tparameter then Ok (h_of a) else Err "Expected entry to have tag") by (unfold is_member_tag; rewrite (tag_at v _ a G Na); reflexivity).
  destruct (tag_eqb (e_tag (d_entry a)) Tparameter) eqn:T.
  - destruct (IH (fun c H => K c (or_intror H)) (fun c H => R c (or_intror H))) as (k1 & H1). destruct (R a (or_introl eq_refl)) as (o & Ro). destruct (variable_reported v files G a o (proj1 Na) Ro) as (k2 & H2).
    exists (k1 + k2)%nat. intros k Hk. cbn zeta. cbn [map each_try].
    assert (P : p_then_opt (p_filter (is_member_tag Tparameter)) (function_parameter files k) v (h_of a) = rmap Some (variable files k v (h_of a))) by (unfold p_then_opt, p_filter, function_parameter, p_then; rewrite TG; cbn [bind]; rewrite TG; reflexivity).
    rewrite P. pose proof (H2 k ltac:(lia)) as A. unfold answers in A. unfold rmap. destruct o as [x|]; [rewrite A | destruct A as (m & A); rewrite A]; cbn [bind]; [|right; eauto].
    destruct (H1 k ltac:(lia)) as [(ps & Q)|(m & Q)]; rewrite Q; cbn [bind]; [left | right]; eauto.
  - destruct (IH (fun c H => K c (or_intror H)) R) as (k1 & H1). exists k1. intros k Hk. cbn zeta. cbn [map each_try].
    assert (P : p_then_opt (p_filter (is_member_tag Tparameter)) (function_parameter files k) v (h_of a) = Ok None) by (unfold p_then_opt, p_filter; rewrite TG; reflexivity).
    rewrite P. cbn [bind].
    destruct (H1 k ltac:(lia)) as [(ps & Q)|(m & Q)]; rewrite Q; cbn [bind]; [left | right]; eauto.
Qed.
Lemma signature_answers h d : node v h d -> signature_settled d ->
  exists k0, forall k, (k0 <= k)%nat -> (exists s, resolve_function_signature files k v h = Ok s) \/ exists m, resolve_function_signature files k v h = Err m.
Proof.
  intros N [S1 S2]. unfold resolve_function_signature, function_declaration.
  assert (A1 : (exists s, name_attr v h = Ok s) \/ exists m, name_attr v h = Err m).
  { destruct N as [T <-]. destruct (name_shape v G d (conj T eq_refl)) as [(s & E & _)|(m & E & _)]; [left | right]; eauto. }
  assert (A2 : exists k1, forall k, (k1 <= k)%nat -> let r := p_then_opt (p_filter (ref_attr At_type)) (shallow k) v h in (exists o, r = Ok o) \/ exists m, r = Err m).
  { destruct N as [T <-]. unfold p_then_opt, p_filter. destruct (type_shape v G d (conj T eq_refl)) as [(t & E & Ty)|(m & E)]; unfold entry_type in E.
    - destruct (S1 t Ty) as [(ty & n & Sh)|(n & m & Sh)]; exists n; intros k Hk; cbn zeta; unfold h_of in E; rewrite E; cbn [bind]; rewrite (shallow_mono n k Hk v t) by congruence; rewrite Sh; unfold rmap; cbn [bind]; [left | right]; eauto.
    - exists 0%nat. intros k _. cbn zeta. unfold h_of in E. rewrite E. cbn [bind]. left. exists None. reflexivity. }
  destruct A2 as (k1 & A2). destruct (parameters_settle (d_kids d) (fun c Hc => kid_node v h d c N Hc) S2) as (k2 & A3). exists (k1 + k2)%nat. intros k Hk.
  destruct A1 as [(s & ->)|(m & ->)]; cbn [bind]; [|right; eauto]. destruct (A2 k ltac:(lia)) as [(o & ->)|(m & ->)]; cbn [bind]; [|right; eauto].
  unfold try_for_each_child. rewrite (children_at v h d G N). cbn [bind]. destruct (A3 k ltac:(lia)) as [(ps & ->)|(m & ->)]; cbn [bind]; [left | right]; eauto.
Qed.
End Sig.
