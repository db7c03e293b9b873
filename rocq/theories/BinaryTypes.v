(** C106: types of a binary looked up by name, and C107: source positions, from the stored files. *)
From Coq Require Import Ascii String List ZArith NArith Lia Bool.
From Verif Require Import Base NumText OMap Utf8 AddrModel SymModel SymSpec PathModel LinesModel LinesProps DieModel DieSpec DieProofs ModuleModel ModuleSpec ModuleProofs ModuleProps TypesModel
  ParserModel ParserSpec ParserProofs ResolveModel ResolveSpec ResolveProofs ResolveProps DiscoverModel DiscoverSpec TypeTextModel TypeTextSpec TypeNameSpec TypeNameProofs TypeNameProps
  LookupSpec LookupProps SourceModel SourceProps LoadModel BinaryModel BinarySpec BinaryProofs.
Import ListNotations.
Open Scope Z_scope.

(** A debug file of the workspace: a line table of one of its Rust units lists a file below the workspace. *)
Definition workspace_file (smap : list (fpath * fpath)) (w : fpath) (f : bfile) : Prop :=
  exists u v5 es zero rows e p, In u (bf_units f) /\ is_rust_cu (d_entry (bu_die u)) = true /\ bu_lines u = Some (v5, es, zero, rows) /\
    In e es /\ file_entry_to_path smap (bu_comp u) e = Some p /\ local_to w p.
(** Sensible debug files: units one after the other, sensible namespaces (ModuleSpec), each DIE with its own offset,
    readable attributes. *)
Definition well_formed (f : bfile) : Prop :=
  (exists len, (forall u, In u (bf_units f) -> len (d_entry (bu_die u)) = bu_length u) /\ good_file len (units_of f)) /\
  distinct_dies f /\ forall u, In u (bf_units f) -> readable_attrs u.
(** DIEs of different files are different. *)
Definition apart (files : list bfile) : Prop :=
  forall f1 f2 u1 u2 d1 d2, In f1 files -> In f2 files -> In u1 (bf_units f1) -> In u2 (bf_units f2) -> in_tree (bu_die u1) d1 -> in_tree (bu_die u2) d2 ->
    e_off (d_entry d1) = e_off (d_entry d2) -> f1 = f2.
(** The DIEs declared directly in the module [path], over the files. *)
Definition declared_in (path : list str) (files : list bfile) : list die := flat_map (fun f => module_members path (units_of f)) files.

Lemma good_file_ext len len' ds : (forall d, In d ds -> len (d_entry d) = len' (d_entry d)) -> good_file len ds -> good_file len' ds.
Proof.
  induction ds as [|d ds IH]; intros E G; [exact G|]. cbn [good_file] in *. destruct G as ((G1 & G2 & G3 & G4) & G5 & G6). pose proof (E d (or_introl eq_refl)) as E0. split; [|split].
  - repeat (split; [assumption|]). intros x Hx. rewrite <- E0. exact (G4 x Hx).
  - destruct ds; [exact G5|]. rewrite <- E0. exact G5.
  - apply IH; [intros; apply E; right; assumption | exact G6].
Qed.
Lemma root_length_is f u : distinct_dies f -> In u (bf_units f) -> root_length (bf_units f) (d_entry (bu_die u)) = bu_length u.
Proof.
  intros D Hu. unfold root_length. destruct (find _ (bf_units f)) as [w|] eqn:F.
  - apply find_some in F. destruct F as [Hw E]. apply Z.eqb_eq in E. destruct (D w u (bu_die w) (bu_die u) Hw Hu (in_here _) (in_here _) E) as [-> _]. reflexivity.
  - pose proof (find_none _ _ F u Hu) as N. cbn beta in N. apply Z.eqb_neq in N. contradiction N. reflexivity.
Qed.
Lemma well_parts f : well_formed f -> good_file (root_length (bf_units f)) (units_of f) /\ distinct_dies f /\ forall u, In u (bf_units f) -> readable_attrs u.
Proof.
  intros ((len & L & G) & D & A). split; [|split; assumption]. refine (good_file_ext len _ _ _ G). intros d Hd. apply in_map_iff in Hd. destruct Hd as (u & <- & Hu). rewrite (L u Hu). symmetry. apply root_length_is; assumption.
Qed.
Lemma file_known f : well_formed f -> exists n0, forall n, (n0 <= n)%nat -> file_of (discovery_file n f) (units_of f) /\
  forall u, In u (bf_units f) -> unit_view f u (fl_env (discovery_file n f) (h_of (bu_die u))).
Proof.
  intros W. destruct (well_parts f W) as (G & D & A). set (ds := map (fun u => (bu_die u, bu_pad u)) (bf_units f)).
  destruct (die_module_is_enclosing_namespace_partial (root_length (bf_units f)) ds) as (n0 & ranges & mods & M & _). { unfold ds. rewrite map_map. exact G. }
  assert (FM : forall n, (n0 <= n)%nat -> file_modules n f = (ranges, mods)).
  { intros n Hn. unfold file_modules. specialize (M n Hn). unfold ds, file_toks in M. rewrite map_map in M. change (map utoks (bf_units f)) with (map (fun x => unit_toks (fst (bu_die x, bu_pad x)) (snd (bu_die x, bu_pad x))) (bf_units f)). rewrite M. reflexivity. }
  assert (EV : forall n u x, In u (bf_units f) -> in_tree (bu_die u) x -> fl_env (discovery_file n f) (h_of x) = unit_env n f u).
  { intros n u x Hu Hx. cbn [discovery_file fl_env]. unfold file_env. change (h_of x) with (e_off (d_entry x)). rewrite (unit_at_spec f u x D Hu Hx). reflexivity. }
  assert (VW : forall n u, (n0 <= n)%nat -> In u (bf_units f) -> unit_view f u (unit_env n f u)).
  { intros n u Hn Hu. exists n0. intros m Hm. unfold unit_env. rewrite !FM by assumption. reflexivity. }
  exists n0. intros n Hn. split; [split|].
  - exists (root_length (bf_units f)), ds, n0, ranges. split; [unfold ds; rewrite map_map; reflexivity|]. split; [exact G|]. intros m Hm. cbn [discovery_file fl_modules]. rewrite (FM n Hn). exact (M m Hm).
  - intros d Hd. apply in_map_iff in Hd. destruct Hd as (u & <- & Hu). rewrite (EV n u (bu_die u) Hu (in_here _)).
    destruct (good_view f u _ D (A u Hu) Hu (VW n u Hn Hu)) as [Ge En]. split; [exact En|]. split; [exact Ge|]. intros x Hx. exact (EV n u x Hu Hx).
  - intros u Hu. rewrite (EV n u (bu_die u) Hu (in_here _)). now apply VW.
Qed.
Lemma files_known files : Forall well_formed files -> exists n0, forall n, (n0 <= n)%nat -> Forall2 file_of (map (discovery_file n) files) (map units_of files) /\
  forall f u, In f files -> In u (bf_units f) -> unit_view f u (fl_env (discovery_file n f) (h_of (bu_die u))).
Proof.
  induction 1 as [|f l W _ [n1 IH]]; [exists 0%nat; intros n _; split; [constructor | intros f u []]|]. destruct (file_known f W) as [n2 K]. exists (n1 + n2)%nat. intros n Hn.
  destruct (IH n ltac:(lia)) as [I1 I2]. destruct (K n ltac:(lia)) as [K1 K2]. split; [constructor; assumption|]. intros g u [<- | Hg] Hu; [exact (K2 u Hu) | exact (I2 g u Hg Hu)].
Qed.
Lemma view_fun f u v v' : unit_view f u v -> unit_view f u v' -> v = v'.
Proof. intros [n N] [m M]. rewrite <- (N (n + m)%nat) by lia. apply M. lia. Qed.
Lemma indexed_known smap w n B files : selects (workspace_file smap w) (bi_files B) files -> indexed_files smap (Some w) n B = files.
Proof.
  unfold indexed_files. induction 1 as [|f l xs P _ IH|f l xs P _ IH]; [reflexivity|..].
  all: assert (Q : is_local smap w (sfile_of n B f) = true <-> workspace_file smap w f).
  1, 3: rewrite is_local_spec; unfold lists, workspace_file; split;
    [intros (p & (u & v5 & es & z & rows & e & Hu & _ & R & T & He & Ep) & Lo); cbn [sfile_of sf_units] in Hu; apply in_map_iff in Hu; destruct Hu as (b & <- & Hb); exists b, v5, es, z, rows, e, p; cbn in R, T, Ep; auto 10
    |intros (u & v5 & es & z & rows & e & p & Hu & R & T & He & Ep & Lo); exists p; split; [|exact Lo]; exists (sunit_of u), v5, es, z, rows, e; cbn [sfile_of sf_units sunit_of su_root su_rust su_table su_comp]; repeat split; auto; now apply in_map].
  - cbn [filter]. rewrite (proj2 Q P). f_equal. exact IH.
  - cbn [filter]. destruct (is_local smap w (sfile_of n B f)); [destruct (P (proj1 Q eq_refl)) | exact IH].
Qed.
Lemma declared_units path files : flat_map (module_members path) (map units_of files) = declared_in path files.
Proof. unfold declared_in. induction files as [|f l IH]; [reflexivity|]. cbn [map flat_map]. now rewrite IH. Qed.
Lemma combined n files f us : In (f, us) (combine (map (discovery_file n) files) (map units_of files)) -> exists g, In g files /\ f = discovery_file n g /\ us = units_of g.
Proof. induction files as [|g l IH]; [intros []|]. cbn [map combine]. intros [E | H]; [injection E as <- <-; exists g; cbn; auto | destruct (IH H) as (x & Hx & E); exists x; cbn; auto]. Qed.

Section Types.
Variables (smap : list (fpath * fpath)) (w : fpath) (B : binary) (files : list bfile).
Hypothesis Hfiles : selects (workspace_file smap w) (bi_files B) files.
Hypothesis Hwell : Forall well_formed files.
Hypothesis Hapart : apart files.

(** From the dichotomy of LookupProps to the binary. *)
Lemma lookup_binary (s : str) (P : die -> Prop) (members : list die) :
  (forall k fs us, Forall2 file_of fs us -> us = map units_of files ->
     (Forall (fun d => ~ P d) members /\ LookupModel.lookup_type_by_name k fs s = Ok None) \/
     exists f us' u d, In (f, us') (combine fs us) /\ In u us' /\ in_tree u d /\ first_of P members d /\ LookupModel.lookup_type_by_name k fs s = rmap Some (resolve_type k (fl_env f (h_of u)) (h_of d))) ->
  (Forall (fun d => ~ P d) members -> exists n0, forall n k, (n0 <= n)%nat -> lookup_type_by_name smap (Some w) n k B s = Ok None) /\
  (forall f u d v ty, first_of P members d -> In f files -> In u (bf_units f) -> in_tree (bu_die u) d -> unit_view f u v -> resolves_fully v (h_of d) ty ->
     exists k0, forall k, (k0 <= k)%nat -> exists n0, forall n, (n0 <= n)%nat -> lookup_type_by_name smap (Some w) n k B s = Ok (Some ty)).
Proof.
  intros H. destruct (files_known files Hwell) as (n0 & K). split.
  - intros N. exists n0. intros n k Hn. destruct (K n Hn) as [F2 _]. unfold lookup_type_by_name. rewrite (indexed_known smap w n B files Hfiles).
    destruct (H k _ _ F2 eq_refl) as [[_ E] | (f & us & u & d & _ & _ & _ & Fd & _)]; [exact E|]. exfalso. apply first_of_In in Fd. destruct Fd as [I Q]. rewrite Forall_forall in N. exact (N d I Q).
  - intros f u d v ty Fd Hf Hu T V [k0 R]. exists k0. intros k Hk. exists n0. intros n Hn. destruct (K n Hn) as [F2 Vs]. unfold lookup_type_by_name. rewrite (indexed_known smap w n B files Hfiles).
    destruct (H k _ _ F2 eq_refl) as [[N _] | (f' & us & u' & d' & Hc & Hu' & T' & Fd' & E)]; [exfalso; apply first_of_In in Fd; destruct Fd as [I Q]; rewrite Forall_forall in N; exact (N d I Q)|].
    rewrite E. pose proof (first_of_inj _ _ _ _ Fd Fd') as <-. apply combined in Hc. destruct Hc as (g & Hg & -> & ->). apply in_map_iff in Hu'. destruct Hu' as (u2 & <- & Hu2).
    pose proof (Hapart f g u u2 d d Hf Hg Hu Hu2 T T' eq_refl) as <-. rewrite Forall_forall in Hwell. destruct (Hwell f Hf) as (_ & D & _). destruct (D u u2 d d Hu Hu2 T T' eq_refl) as [<- _].
    rewrite (view_fun f u _ v (Vs f u Hf Hu) V). rewrite (resolve_mono k0 k _ _ ty Hk R). reflexivity.
Qed.

(** ** C106 *)
(** A user type named by its full path: the first DIE of that very name declared in that module, over the files of the
    workspace; its description is what that DIE describes; nothing when there is none. *)
Theorem workspace_type_found : forall root path id args,
  ~ In root (map st ["std"; "core"; "alloc"; "hashbrown"]%string) -> Forall name_ok (root :: path) -> name_ok id -> Forall legible args ->
  Forall (ordinary_member (root :: path)) (declared_in (root :: path) files) ->
  let name := id ++ args_text args in
  let asked := fun d => is_type_die d /\ named d name in
  (Forall (fun d => ~ asked d) (declared_in (root :: path) files) -> exists n0, forall n k, (n0 <= n)%nat -> lookup_type_by_name smap (Some w) n k B (full_name (root :: path) name) = Ok None) /\
  (forall f u d v ty, first_of asked (declared_in (root :: path) files) d -> In f files -> In u (bf_units f) -> in_tree (bu_die u) d -> unit_view f u v -> resolves_fully v (h_of d) ty ->
     exists k0, forall k, (k0 <= k)%nat -> exists n0, forall n, (n0 <= n)%nat -> lookup_type_by_name smap (Some w) n k B (full_name (root :: path) name) = Ok (Some ty)).
Proof.
  intros root path id args R Hp Hi Ha OM name asked. apply lookup_binary. intros k fs us F2 ->. unfold asked. rewrite <- declared_units in *. now apply user_type_found_by_name.
Qed.
(** A standard type with its type arguments. *)
Theorem workspace_std_type_found : forall root path id args target,
  In root (map st ["std"; "core"; "alloc"; "hashbrown"]%string) -> Forall name_ok path -> name_ok id -> Forall legible args -> std_named id (map as_layout args) = Some target ->
  Forall (ordinary_member (root :: path)) (declared_in (root :: path) files) ->
  let name := id ++ args_text args in
  (Forall (fun d => ~ instance_of id target d) (declared_in (root :: path) files) -> exists n0, forall n k, (n0 <= n)%nat -> lookup_type_by_name smap (Some w) n k B (full_name (root :: path) name) = Ok None) /\
  (forall f u d v ty, first_of (instance_of id target) (declared_in (root :: path) files) d -> In f files -> In u (bf_units f) -> in_tree (bu_die u) d -> unit_view f u v -> resolves_fully v (h_of d) ty ->
     exists k0, forall k, (k0 <= k)%nat -> exists n0, forall n, (n0 <= n)%nat -> lookup_type_by_name smap (Some w) n k B (full_name (root :: path) name) = Ok (Some ty)).
Proof.
  intros root path id args target R Hp Hi Ha Sn OM name. apply lookup_binary. intros k fs us F2 ->. rewrite <- declared_units in *. now apply std_type_found_by_name_partial.
Qed.
(** A name without a path is never found. *)
Theorem plain_name_not_found : forall name target, type_path [] name -> typename_parse [] name = Ok target ->
  exists n0, forall n k, (n0 <= n)%nat -> lookup_type_by_name smap (Some w) n k B name = Ok None.
Proof.
  intros name target TP PT. destruct (files_known files Hwell) as (n0 & K). exists n0. intros n k Hn. destruct (K n Hn) as [F2 _]. unfold lookup_type_by_name. rewrite (indexed_known smap w n B files Hfiles).
  now apply (unqualified_name_not_found k _ _ name target F2).
Qed.
End Types.
Print Assumptions workspace_type_found.
Print Assumptions workspace_std_type_found.
Print Assumptions plain_name_not_found.
(** Without a workspace no type is found, whatever the binary declares. *)
Theorem no_workspace_no_types : forall smap n k B path name target, type_path path name -> typename_parse path name = Ok target ->
  lookup_type_by_name smap None n k B (full_name path name) = Ok None.
Proof.
  intros smap n k B path name target TP PT. unfold lookup_type_by_name, indexed_files, LookupModel.lookup_type_by_name. rewrite name_split by exact TP. rewrite PT. reflexivity.
Qed.
Print Assumptions no_workspace_no_types.
