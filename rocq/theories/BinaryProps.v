(** Queries over a whole binary (C101-C104). *)
From Coq Require Import Ascii String List ZArith NArith Lia Bool Arith Permutation.
From Verif Require Import Base NumText OMap Utf8 AddrModel AddrSpec SymModel SymSpec SymProofs SymProps PathModel PathProps LinesModel LinesProps DieModel DieSpec DieProofs ModuleModel ModuleSpec ModuleProps
  TypesModel ParserModel ParserSpec ParserProofs ResolveModel ResolveSpec LocModel FnModel FnSpec FnProofs FnProps SourceModel SourceProps LoadModel LoadProps BinaryModel BinarySpec BinaryProofs.
Import ListNotations.
Open Scope Z_scope.

(** ** C99: opening *)
Lemma made_objects_in smap fs l : forall i d, In d (made_objects smap fs i l) <-> exists j x g, nth_error l j = Some x /\ available smap fs x g /\ d = DebugFile (object_id (i + j)) g true.
Proof.
  induction l as [|x l IH]; intros i d; cbn [made_objects].
  - split; [intros [] | intros ([|j] & y & g & E & _); discriminate].
  - rewrite in_app_iff, IH. split.
    + intros [H | (j & y & g & E & A & ->)].
      * destruct (object_file smap fs x) as [g|] eqn:F; [|destruct H]. destruct H as [<-|[]]. apply object_file_exact in F. exists 0%nat, x, g. rewrite Nat.add_0_r. auto.
      * exists (S j), y, g. split; [exact E|]. split; [exact A|]. do 2 f_equal. lia.
    + intros ([|j] & y & g & E & A & ->).
      * left. cbn in E. injection E as <-. apply object_file_exact in A. rewrite A, Nat.add_0_r. left. reflexivity.
      * right. exists j, y, g. split; [exact E|]. split; [exact A|]. do 2 f_equal. lia.
Qed.
Lemma bf_units_of smap fs d o : load smap fs (db_file d) = Ok o -> bfile_of smap fs d = BFile (db_id d) (db_reloc d) (ob_units o).
Proof. intros E. unfold bfile_of. now rewrite E. Qed.
(** The units read from a debug file: those of the object file, none if it cannot be read. *)
Definition units_read (smap : list (fpath * fpath)) (fs : fpath -> option stored) (g : file) (us : list bunit) : Prop :=
  (exists o, load smap fs g = Ok o /\ us = ob_units o) \/ ((forall o, load smap fs g <> Ok o) /\ us = []).
Lemma units_read_of smap fs d : units_read smap fs (db_file d) (bf_units (bfile_of smap fs d)).
Proof. unfold units_read, bfile_of. cbn [bf_units]. destruct (load smap fs (db_file d)) as [o| | |]; [left; eauto | right; split; [discriminate | reflexivity]..]. Qed.
Lemma units_read_fun smap fs g us us' : units_read smap fs g us -> units_read smap fs g us' -> us = us'.
Proof. intros [(o & E & ->) | (N & ->)] [(o' & E' & ->) | (N' & ->)]; [congruence | destruct (N' o E) | destruct (N o' E') | reflexivity]. Qed.
Theorem binary_opened : forall smap fs order X p o, fs (remap_path smap p) <> None -> load smap fs (remap_path smap p, None) = Ok o ->
  exists B, open_binary smap fs order X p = Ok B /\ bi_index B = index_symbol_map X (symbol_tables smap fs order o) /\
    (forall id f, file_by_id B id = Some f <->
       bf_id f = id /\
       ((id = 0%N /\ bf_reloc f = false /\ bf_units f = ob_units o) \/
        (exists i x g, id = N.of_nat (S i) /\ nth_error (ob_objects o) i = Some x /\ available smap fs x g /\ bf_reloc f = true /\ units_read smap fs g (bf_units f)))) /\
    bi_files B = map (fun e => bfile_of smap fs (snd e)) (files_of smap fs (remap_path smap p, None) o).
Proof.
  intros smap fs order X p o F L. unfold open_binary. rewrite (proj2 (build_some smap fs p None (remap_path smap p, None))) by auto. rewrite L. eexists. split; [reflexivity|]. cbn [bi_index bi_files]. split; [reflexivity|]. split; [|reflexivity].
  set (ds := DebugFile 0 (remap_path smap p, None) false :: made_objects smap fs 0 (ob_objects o)).
  assert (Ids : NoDup (map db_id ds)).
  { unfold ds. cbn [map db_id]. constructor.
    - intros H. apply in_map_iff in H. destruct H as (d & E & H). apply made_objects_in in H. destruct H as (j & x & g & _ & _ & ->). cbn in E. unfold object_id in E. lia.
    - generalize 0%nat as i. induction (ob_objects o) as [|x l IH]; intros i; cbn [made_objects]; [constructor|]. destruct (object_file smap fs x) as [g|]; cbn [app]; [|apply IH]. cbn [map db_id]. constructor; [|apply IH].
      intros H. apply in_map_iff in H. destruct H as (d & E & H). apply made_objects_in in H. destruct H as (j & y & g' & _ & _ & ->). cbn in E. unfold object_id in E. lia. }
  intros id f. unfold file_by_id. cbn [bi_made].
  assert (Fd : find (fun g => N.eqb (bf_id g) id) (map (bfile_of smap fs) ds) = Some f <-> In f (map (bfile_of smap fs) ds) /\ bf_id f = id).
  { clear - Ids. split.
    - intros H. apply find_some in H. destruct H as [H E]. apply N.eqb_eq in E. auto.
    - intros [H E]. apply in_map_iff in H. destruct H as (d & <- & H). cbn [bfile_of bf_id] in E. subst id. induction ds as [|x l IH]; [destruct H|]. cbn [map] in Ids. inversion Ids as [|? ? N1 N2]; subst. cbn [map find]. unfold bfile_of at 1. cbn [bf_id].
      destruct (N.eqb_spec (db_id x) (db_id d)) as [Q|Q].
      + destruct H as [-> | H]; [reflexivity|]. exfalso. apply N1. rewrite Q. now apply in_map.
      + destruct H as [-> | H]; [contradiction | exact (IH N2 H)]. }
  rewrite Fd. rewrite in_map_iff. split.
  - intros [(d & <- & H) E]. split; [exact E|]. unfold ds in H. destruct H as [<- | H].
    + left. cbn [bfile_of bf_id db_id] in E. split; [now symmetry|]. rewrite (bf_units_of smap fs _ o) by exact L. auto.
    + right. apply made_objects_in in H. destruct H as (j & x & g & Ex & A & ->). cbn [bfile_of bf_id db_id Nat.add] in E. exists j, x, g. split; [now symmetry|]. split; [exact Ex|]. split; [exact A|]. split; [reflexivity|].
      apply (units_read_of smap fs (DebugFile (object_id (0 + j)) g true)).
  - intros [E [(-> & R & U) | (i & x & g & -> & Ex & A & R & U)]].
    + split; [|exact E]. exists (DebugFile 0 (remap_path smap p, None) false). split; [|left; reflexivity]. rewrite (bf_units_of smap fs _ o) by exact L. destruct f; cbn in *; subst; reflexivity.
    + split; [|exact E]. exists (DebugFile (object_id i) g true). split; [|right; apply made_objects_in; exists i, x, g; auto].
      pose proof (units_read_of smap fs (DebugFile (object_id i) g true)) as U'. cbn [db_file] in U'. pose proof (units_read_fun smap fs g _ _ U U') as Q. destruct f as [fi fr fu]. cbn [bf_units bf_id bf_reloc] in *. subst. reflexivity.
Qed.
Print Assumptions binary_opened.
(** A path without a file is an error; a file that is no object file is a binary without debug information. *)
Theorem binary_missing : forall smap fs order X p, fs (remap_path smap p) = None -> exists m, open_binary smap fs order X p = Err m.
Proof. intros smap fs order X p F. unfold open_binary, build. cbv zeta. rewrite F. eauto. Qed.
Theorem binary_unreadable : forall smap fs order X p, fs (remap_path smap p) <> None -> (forall o, load smap fs (remap_path smap p, None) <> Ok o) ->
  open_binary smap fs order X p = Ok (Binary empty_index [] []).
Proof.
  intros smap fs order X p F L. unfold open_binary. rewrite (proj2 (build_some smap fs p None (remap_path smap p, None))) by auto. destruct (load smap fs (remap_path smap p, None)) as [o| | |]; [destruct (L o eq_refl) | reflexivity..].
Qed.
Print Assumptions binary_missing.
Print Assumptions binary_unreadable.

(** ** C101: functions by name *)
Lemma cmp_sname_refl n : cmp_sname n n = Eq.
Proof. apply (wo_refl _ wo_sname). Qed.
Section Queries.
Variables (X : externals) (tables : list (N * list raw_entry)) (B : binary).
Hypothesis Hix : bi_index B = index_symbol_map X tables.
Let h := history X tables.
Variable smap : list (fpath * fpath).

Lemma functions_history s : In s (functions_of h) -> exists e, In e h /\ snd e = s.
Proof. unfold functions_of. intros H. apply in_map_iff in H. destruct H as (e & E & H). apply filter_In in H. exists e. tauto. Qed.
(** The function index entry of a symbol's name. *)
Lemma entry_known s f u d : is_last (fun y => sym_name y = sym_name s) (functions_of h) s -> file_by_id B (sym_file s) = Some f ->
  readable_file h f -> distinct_dies f -> In u (bf_units f) -> in_tree (bu_die u) d -> forall s', function_of h f (sym_name s) d s' ->
  exists n0, forall n, (n0 <= n)%nat -> function_entry n B (sym_name s) = Some (f, u, data_of (d, s')).
Proof.
  intros L F R D Hu Hd s' Fd. pose proof (is_last_in _ _ _ L) as [Is _]. destruct (functions_history s Is) as (e & He & Es).
  assert (Id : bf_id f = sym_file s) by (unfold file_by_id in F; apply find_some in F; destruct F as [_ F]; now apply N.eqb_eq in F).
  destruct (functions_known X tables B Hix f e He) as (n0 & fs & E1 & E2 & _); [rewrite Es; now symmetry | exact R|].
  exists n0. intros n Hn. unfold function_entry, ix. rewrite Hix.
  pose proof (exact_lookup_is_last_indexed X tables (sym_name s) (functions_parsed X tables s Is)) as G. cbv zeta in G. fold h in G. destruct (get_function (index_symbol_map X tables) (sym_name s)) as [y|]; [|destruct (G s Is eq_refl)].
  assert (y = s) by exact (is_last_fun _ _ _ _ G L). subst y. rewrite F, (E1 n Hn), (E2 _ _ _ Fd). unfold data_of. cbn [fd_die fst]. rewrite (unit_at_spec f u d D Hu Hd). reflexivity.
Qed.
Lemma base_known s : is_last (fun y => sym_name y = sym_name s) (functions_of h) s -> get_function (bi_index B) (sym_name s) = Some s.
Proof.
  intros L. rewrite Hix. pose proof (is_last_in _ _ _ L) as [Is _]. pose proof (exact_lookup_is_last_indexed X tables (sym_name s) (functions_parsed X tables s Is)) as G. cbv zeta in G. fold h in G.
  destruct (get_function (index_symbol_map X tables) (sym_name s)) as [y|]; [|destruct (G s Is eq_refl)]. f_equal. exact (is_last_fun _ _ _ _ G L).
Qed.
Lemma variables_known f u d v s ps ls : distinct_dies f -> In u (bf_units f) -> in_tree (bu_die u) d -> readable_attrs u -> unit_view f u v -> function_says smap v u d ps ls ->
  exists k0, forall k, (k0 <= k)%nat -> exists n0, forall n, (n0 <= n)%nat -> unit_env n f u = v /\ function_variables smap n k f u (data_of (d, s)) = Ok (somes ps, somes ls).
Proof.
  intros D Hu Hd A V [Pp Pl]. destruct (good_view f u v D A Hu V) as [G E].
  assert (Q : forall l os, Forall2 (reported v (decl_path smap u)) l os -> Forall2 (reported v (unit_file smap u)) l os).
  { induction 1; constructor; auto. apply (reported_ext v (decl_path smap u)); [intros i; symmetry; apply unit_file_spec | assumption]. }
  destruct (function_variables_exact v (unit_file smap u) (e_off (d_entry d)) d (bu_pad u) ps ls G) as (k0 & K); [split; [rewrite E; exact Hd | reflexivity] | now apply Q | now apply Q|].
  exists k0. intros k Hk. destruct (K k Hk) as (n1 & N). destruct V as (n2 & V). exists (n1 + n2)%nat. intros n Hn. split; [apply V; lia|]. unfold function_variables, data_of. cbn [fd_die fst]. rewrite (V n) by lia. apply N. lia.
Qed.
Lemma parameters_spec ps : combine (param_names ps) (map va_ty ps) = parameters 0 ps.
Proof.
  unfold param_names. change 0 with (Z.of_nat 0). generalize 0%nat as i. induction ps as [|x ps IH]; intros i; [reflexivity|]. cbn [length seq combine map parameters fst snd].
  rewrite IH. do 2 f_equal. lia.
Qed.
(** The whole answer: displayed name, address of its symbol, length of its code range and its parameters. *)
Theorem function_found : forall ms fname s f u d s' v ps ls size, Forall no_colon (ms ++ [fname]) ->
  meant h ms fname s -> file_by_id B (sym_file s) = Some f -> readable_file h f -> distinct_dies f ->
  In u (bf_units f) -> in_tree (bu_die u) d -> function_of h f (sym_name s) d s' ->
  readable_attrs u -> unit_view f u v -> function_says smap v u d ps ls ->
  match range_of d with Some (lo, hi) => size = hi - lo /\ 0 <= size < two64 | None => size = 0 end ->
  exists k0, forall k, (k0 <= k)%nat -> exists n0, forall n, (n0 <= n)%nat ->
    find_function_by_name smap n k B (Base.join (st "::") (ms ++ [fname])) =
    Ok (Some (RFunction (sname_display (sym_name s)) (sym_addr s) size (parameters 0 (somes ps)))).
Proof.
  intros ms fname s f u d s' v ps ls size NC (M1 & M2 & M3) F R D Hu Hd Fd A V Says Sz.
  destruct (entry_known s f u d M2 F R D Hu Hd s' Fd) as (n1 & E1). destruct (variables_known f u d v s' ps ls D Hu Hd A V Says) as (k0 & K).
  exists k0. intros k Hk. destruct (K k Hk) as (n2 & E2). exists (n1 + n2)%nat. intros n Hn.
  unfold find_function_by_name, ix. rewrite Hix. pose proof (path_lookup_sound_complete X tables ms fname NC) as P. cbv zeta in P. fold h in P. pose proof (is_last_in _ _ _ M2) as [Is _].
  destruct (find_closest_function (index_symbol_map X tables) (Base.join (st "::") (ms ++ [fname]))) as [[nm fid]|]; [|destruct (P s Is M1)].
  destruct P as (P1 & (y & P2 & P3) & P4). pose proof (is_last_in _ _ _ P2) as [Iy Ny].
  assert (Qn : nm = sym_name s).
  { pose proof (M3 y Iy) as C1. rewrite Ny in C1. specialize (C1 P1). pose proof (P4 s Is M1) as C2. apply parsed_inj; [rewrite <- Ny; exact (functions_parsed X tables y Iy) | exact (functions_parsed X tables s Is)|].
    rewrite (wo_opp _ wo_sname nm (sym_name s)) in C1. destruct (cmp_sname nm (sym_name s)); [reflexivity | now destruct C1 | now destruct C2]. }
  rewrite Qn. pose proof (base_known s M2) as Bs. rewrite Hix in Bs. cbv iota beta. rewrite Bs. cbn [bind]. rewrite (E1 n) by lia. cbn [bind]. destruct (E2 n ltac:(lia)) as [_ ->]. cbn [bind fst]. unfold data_of. cbn [fd_range fst].
  rewrite parameters_spec. destruct (range_of d) as [[lo hi]|].
  - destruct Sz as [-> Sz]. unfold sub64, u64_ok. destruct (Z.leb_spec 0 (hi - lo)), (Z.ltb_spec (hi - lo) two64); try lia. reflexivity.
  - subst size. reflexivity.
Qed.
(** No function symbol with that path ending: nothing is found; and only then. *)
Theorem function_not_found : forall ms fname n k, Forall no_colon (ms ++ [fname]) ->
  (find_function_by_name smap n k B (Base.join (st "::") (ms ++ [fname])) = Ok None <-> forall s, In s (functions_of h) -> ~ names_function ms fname (sym_name s)).
Proof.
  intros ms fname n k NC. unfold find_function_by_name, ix. rewrite Hix. pose proof (path_lookup_sound_complete X tables ms fname NC) as P. cbv zeta in P. fold h in P.
  destruct (find_closest_function (index_symbol_map X tables) (Base.join (st "::") (ms ++ [fname]))) as [[nm fid]|]; [|tauto].
  destruct P as (P1 & (y & P2 & P3) & P4). pose proof (is_last_in _ _ _ P2) as [Iy Ny]. split.
  - intros H. exfalso. destruct (get_function (index_symbol_map X tables) nm); cbn [bind] in H; [|discriminate]. destruct (function_entry n B nm) as [[[f u] d]|]; cbn [bind] in H; [|discriminate].
    destruct (function_variables smap n k f u d); cbn [bind] in H; try discriminate. destruct (match fd_range d with Some (lo, hi) => sub64 hi lo | None => Ok 0 end); cbn [bind] in H; discriminate.
  - intros N. exfalso. apply (N y Iy). now rewrite Ny.
Qed.

(** ** C102: other symbols by name *)
Theorem symbol_found : forall name, 
  let others := map snd (filter (fun e : bool * list N * symbol => negb (fst (fst e))) h) in
  match find_symbol_by_name B name with
  | Some s => lookup_name (sym_name s) = name /\ is_last (fun y => sym_name y = sym_name s) others s /\
      forall y, In y others -> lookup_name (sym_name y) = name -> cmp_sname (sym_name s) (sym_name y) <> Gt
  | None => forall y, In y others -> lookup_name (sym_name y) <> name
  end.
Proof.
  intros name others. unfold find_symbol_by_name, ix. rewrite Hix. pose proof (i_symbols _ _ (indexed_all X tables)) as G. fold h in G. change (others_of h) with others in G.
  destruct (oget cmp_str name (ix_symbols (index_symbol_map X tables))) as [i|] eqn:E; [|apply (grouped_none _ _ name G); exact E].
  destruct (g_inner _ _ G name i E) as (S & NE & Inn). destruct i as [|[n s] i]; [contradiction|]. destruct (Inn n s (or_introl eq_refl)) as (-> & Nm & _).
  pose proof (grouped_in _ _ name _ G E) as GI. destruct (proj1 (GI (sym_name s) s) (or_introl eq_refl)) as (_ & _ & L). split; [exact Nm|]. split; [exact L|].
  intros y Hy Ny C. pose proof (g_get _ _ G (sym_name y)) as Gy. unfold get2 in Gy. rewrite Ny, E in Gy.
  assert (K : exists s', In (sym_name y, s') ((sym_name s, s) :: i)).
  { destruct (oget cmp_sname (sym_name y) ((sym_name s, s) :: i)) as [s'|] eqn:O.
    - apply (oget_some cmp_sname) in O. destruct O as (k' & Ek & Hk). destruct (Inn k' s' Hk) as (-> & _ & P'). rewrite (parsed_inj (sym_name y) (sym_name s') (g_parsed _ _ G y Hy) P' Ek). eauto.
    - exfalso. symmetry in Gy. pose proof (last_such_spec (sname_is (sym_name y)) (fun x => sname_is (sym_name y) x = true) others ltac:(tauto)) as Q. rewrite Gy in Q. apply (Q y Hy). unfold sname_is. rewrite cmp_sname_refl. reflexivity. }
  destruct K as (s' & [K | K]).
  - injection K as K _. rewrite K, cmp_sname_refl in C. discriminate.
  - destruct S as [S _]. specialize (S (sym_name y) s' K). congruence.
Qed.

(** ** C103: addresses *)
Lemma function_of_exists f d s e : In e h -> sym_file (snd e) = bf_id f -> In d (visible (units_of f)) -> linked h f d s -> exists d2 s2, function_of h f (sym_name s) d2 s2.
Proof.
  intros He Hf Hd L. destruct (symbols_known X tables B Hix f e He Hf) as (syms & _ & S2). unfold function_of.
  assert (Dec : forall x, (exists y, linked h f x y /\ sym_name y = sym_name s) \/ (forall y, linked h f x y -> sym_name y <> sym_name s)).
  { intros x. destruct (linked_symbol (bf_reloc f) syms x) as [y|] eqn:Ly.
    - apply (linked_symbol_spec X tables f syms x y S2) in Ly.
      assert (Same : forall z, linked h f x z -> z = y).
      { intros z Lz. apply (linked_symbol_spec X tables f syms x z S2) in Lz. apply (linked_symbol_spec X tables f syms x y S2) in Ly. congruence. }
      destruct (cmp_sname (sym_name y) (sym_name s)) eqn:C.
      + left. exists y. split; [exact Ly|]. destruct Ly as (b1 & r1 & l1 & _ & _ & _ & I1). destruct L as (b2 & r2 & l2 & _ & _ & _ & I2). apply is_last_in in I1. apply is_last_in in I2.
        apply parsed_inj; [exact (history_parsed X tables _ (proj1 I1)) | exact (history_parsed X tables _ (proj1 I2)) | exact C].
      + right. intros z Lz Ez. rewrite (Same z Lz) in Ez. rewrite Ez, cmp_sname_refl in C. discriminate.
      + right. intros z Lz Ez. rewrite (Same z Lz) in Ez. rewrite Ez, cmp_sname_refl in C. discriminate.
    - right. intros y Lz. apply (linked_symbol_spec X tables f syms x y S2) in Lz. congruence. }
  assert (G : forall l, In d l -> exists d2 s2 before after, l = before ++ d2 :: after /\ linked h f d2 s2 /\ sym_name s2 = sym_name s /\ forall d' s', In d' after -> linked h f d' s' -> sym_name s' <> sym_name s).
  { induction l as [|x l IH] using rev_ind; intros H; [destruct H|]. destruct (Dec x) as [(y & Ly & Ny) | N].
    - exists x, y, l, []. split; [reflexivity|]. split; [exact Ly|]. split; [exact Ny|]. intros d' s' [].
    - apply in_app_or in H. destruct H as [H | [-> | []]]; [|destruct (N s L eq_refl)]. destruct (IH H) as (d2 & s2 & b & a & -> & L2 & N2 & U). exists d2, s2, b, (a ++ [x]). split; [now rewrite <- app_assoc|]. split; [exact L2|]. split; [exact N2|].
      intros d' s' H' L'. apply in_app_or in H'. destruct H' as [H' | [<- | []]]; [exact (U d' s' H' L') | exact (N s' L')]. }
  destruct (G (visible (units_of f)) Hd) as (d2 & s2 & b & a & E & L2 & N2 & U). exists d2, s2, b, a. auto.
Qed.
Lemma function_of_visible f name d s : function_of h f name d s -> In d (visible (units_of f)) /\ linked h f d s /\ sym_name s = name.
Proof. intros (b & a & -> & L & N & _). split; [apply in_or_app; right; left; reflexivity | auto]. Qed.
Lemma unit_lookup f e u d s name : In e h -> sym_file (snd e) = bf_id f -> readable_file h f -> distinct_dies f -> In u (bf_units f) -> in_tree (bu_die u) d -> function_of h f name d s ->
  exists n0, forall n, (n0 <= n)%nat -> unit_of (view_file smap (sfile_of n B f)) (full_path name) = Some (view_unit smap (sunit_of u)).
Proof.
  intros He Hf R D Hu Hd Fo. destruct (functions_known X tables B Hix f e He Hf R) as (n0 & fs & E1 & E2 & _ & _ & _ & Srt & Keys). exists n0. intros n Hn.
  destruct (position_of_spec f u d D Hu Hd) as (i & Pi & Ni). unfold unit_of, view_file, sfile_of. cbn [d_data sf_data d_units sf_units]. rewrite (E1 n Hn).
  destruct (function_of_visible f name d s Fo) as (_ & Lk & Nm). assert (Pn : parsed name) by (destruct Lk as (b1 & r1 & l1 & _ & _ & _ & I1); apply is_last_in in I1; rewrite <- Nm; exact (history_parsed X tables _ (proj1 I1))).
  assert (G : forall m, (forall k v, In (k, v) m -> In (k, v) (fs_functions fs)) -> (exists k v, In (k, v) m /\ full_path k = full_path name) ->
    find (fun e => str_eqb (fst e) (full_path name)) (flat_map (fun e => match position_of (fd_die (snd e)) (bf_units f) 0 with Some i => [(full_path (fst e), i)] | None => [] end) m) = Some (full_path name, i)).
  { induction m as [|[k v] m IH]; intros Sub (k' & v' & H & Fk); [destruct H|]. cbn [flat_map fst snd].
    assert (Val : full_path k = full_path name -> position_of (fd_die v) (bf_units f) 0 = Some i).
    { intros Q. pose proof (Sub k v (or_introl eq_refl)) as Hk. destruct (Keys k v Hk) as (dk & sk & Lks & Ck & _). apply (oget_in cmp_sname wo_sname _ _ _ Srt) in Hk.
      assert (sym_name sk = name). { destruct Lks as (b1 & r1 & l1 & _ & _ & _ & I1). apply is_last_in in I1. pose proof (parsed_full _ (history_parsed X tables _ (proj1 I1))) as P1. cbn [snd] in P1. pose proof (parsed_full _ Pn) as P2. apply cmp_sname_eq in Ck. destruct Ck as (_ & _ & Ck). rewrite <- Ck, Q in P1. congruence. }
      subst name. rewrite (oget_eq cmp_sname wo_sname _ _ _ Ck) in Hk. rewrite H0 in Hk. rewrite (E2 _ _ _ Fo) in Hk. injection Hk as <-. unfold data_of. cbn [fd_die fst]. exact Pi. }
    destruct (list_eq_dec N.eq_dec (full_path k) (full_path name)) as [Q|Q].
    - rewrite (Val Q). cbn [app find fst]. rewrite (proj2 (str_eqb_eq _ _) Q), Q. reflexivity.
    - assert (Rest : find (fun e => str_eqb (fst e) (full_path name)) (flat_map (fun e => match position_of (fd_die (snd e)) (bf_units f) 0 with Some i => [(full_path (fst e), i)] | None => [] end) m) = Some (full_path name, i)).
      { apply IH; [intros k0 v0 H0; apply Sub; now right|]. destruct H as [H|H]; [injection H as -> ->; contradiction | eauto]. }
      destruct (position_of (fd_die v) (bf_units f) 0) as [j|]; [|exact Rest]. cbn [app find fst]. destruct (str_eqb (full_path k) (full_path name)) eqn:Z; [apply str_eqb_eq in Z; contradiction | exact Rest]. }
  rewrite (G (fs_functions fs)); [|auto|].
  - rewrite nth_error_map, nth_error_map, Ni. reflexivity.
  - pose proof (E2 _ _ _ Fo) as O. apply (oget_some cmp_sname) in O. destruct O as (k' & Ck & Hk). exists k', (data_of (d, s)). split; [exact Hk|]. apply cmp_sname_eq in Ck. symmetry. apply Ck.
Qed.
Lemma address_infos f e : In e h -> sym_file (snd e) = bf_id f -> readable_file h f ->
  exists n0, forall n, (n0 <= n)%nat -> d_indexed (view_file smap (sfile_of n B f)) = true /\
    forall fi, In fi (d_funcs (view_file smap (sfile_of n B f))) <->
    exists d s lo hi, In d (visible (units_of f)) /\ linked h f d s /\ range_of d = Some (lo, hi) /\
      fi = {| absolute_start := sym_addr s; absolute_end := sym_addr s + hi - lo; relative_start := lo; relative_end := hi; f_file := Z.of_N (bf_id f); f_name := full_path (sym_name s) |}.
Proof.
  intros He Hf R. destruct (functions_known X tables B Hix f e He Hf R) as (n0 & fs & E1 & _ & _ & Ad & (syms & Sy) & _). exists n0. intros n Hn. unfold view_file, sfile_of. cbn [d_indexed sf_indexed d_funcs sf_funcs]. rewrite Sy, (E1 n Hn). split; [reflexivity|].
  intros fi. rewrite in_map_iff. split.
  - intros (a & <- & H). apply Ad in H. destruct H as (d & s & Hd & L & Ha). unfold address_of in Ha. cbn [fst snd] in Ha. destruct (range_of d) as [[lo hi]|] eqn:Q; [|destruct Ha]. destruct Ha as [<- | []]. exists d, s, lo, hi. auto.
  - intros (d & s & lo & hi & Hd & L & Q & ->). exists (AInfo (sym_addr s) (sym_addr s + hi - lo) lo hi (sym_name s)). split; [reflexivity|]. apply Ad. exists d, s. split; [exact Hd|]. split; [exact L|]. unfold address_of. cbn [fst snd]. rewrite Q. left. reflexivity.
Qed.

Variable sort : (AddrModel.finfo -> Z) -> list AddrModel.finfo -> list AddrModel.finfo.
Hypothesis Hsort : sorts sort.
Lemma linked_parsed f d s : linked h f d s -> parsed (sym_name s).
Proof. intros (b1 & r1 & l1 & _ & _ & _ & I1). apply is_last_in in I1. exact (history_parsed X tables _ (proj1 I1)). Qed.
(** What the files of the nearest symbols say about an address. *)
Lemma results_known f e a : In e h -> sym_file (snd e) = bf_id f -> readable_file h f -> distinct_dies f ->
  exists n0, forall n, (n0 <= n)%nat -> d_indexed (view_file smap (sfile_of n B f)) = true /\ forall name l,
    In (name, l) (address_to_locations sort (view_file smap (sfile_of n B f)) a) <->
    exists d s lo hi d2 s2 u, covers_address h f d s lo hi a /\ function_of h f (sym_name s) d2 s2 /\ In u (bf_units f) /\ in_tree (bu_die u) d2 /\
      name = full_path (sym_name s) /\ located smap u (lo + (a - sym_addr s)) l.
Proof.
  intros He Hf R D. destruct (address_infos f e He Hf R) as (n1 & A).
  (* one budget for the units of all functions *)
  assert (U : forall ds, (forall x, In x ds -> In x (visible (units_of f))) -> exists n2, forall n, (n2 <= n)%nat -> forall d s d2 s2 u, In d ds -> linked h f d s -> function_of h f (sym_name s) d2 s2 -> In u (bf_units f) -> in_tree (bu_die u) d2 ->
    unit_of (view_file smap (sfile_of n B f)) (full_path (sym_name s)) = Some (view_unit smap (sunit_of u))).
  { destruct (symbols_known X tables B Hix f e He Hf) as (syms & _ & S2).
    induction ds as [|d ds IH]; intros Sub; [exists 0%nat; intros n _ d s d2 s2 u []|]. destruct (IH (fun x H => Sub x (or_intror H))) as (n3 & I3).
    destruct (linked_symbol (bf_reloc f) syms d) as [s0|] eqn:Ls.
    - apply (linked_symbol_spec X tables f syms d s0 S2) in Ls. destruct (function_of_exists f d s0 e He Hf (Sub d (or_introl eq_refl)) Ls) as (d0 & y0 & F0). destruct (function_of_visible _ _ _ _ F0) as (V0 & _). destruct (visible_unit f d0 V0) as (u0 & Hu0 & Tu0).
      destruct (unit_lookup f e u0 d0 y0 _ He Hf R D Hu0 Tu0 F0) as (n4 & I4). exists (n3 + n4)%nat. intros n Hn d' s d2 s2 u [<- | H] L F Hu T; [|eapply I3; eauto; lia].
      assert (s = s0). { apply (linked_symbol_spec X tables f syms d s S2) in L. apply (linked_symbol_spec X tables f syms d s0 S2) in Ls. congruence. } subst s.
      destruct (unit_lookup f e u d2 s2 _ He Hf R D Hu T F) as (n5 & I5).
      (* the two units agree at a large budget, and neither depends on it *)
      assert (Q : view_unit smap (sunit_of u) = view_unit smap (sunit_of u0)) by (specialize (I5 (n4 + n5)%nat ltac:(lia)); specialize (I4 (n4 + n5)%nat ltac:(lia)); congruence).
      rewrite Q. apply I4. lia.
    - exists n3. intros n Hn d' s d2 s2 u [<- | H] L F Hu T; [|eapply I3; eauto]. apply (linked_symbol_spec X tables f syms d s S2) in L. congruence. }
  destruct (U (visible (units_of f)) (fun x H => H)) as (n2 & I2). exists (n1 + n2)%nat. intros n Hn. destruct (A n ltac:(lia)) as [Ai Af]. specialize (I2 n ltac:(lia)). split; [exact Ai|].
  intros name l. unfold address_to_locations. rewrite in_flat_map. split.
  - intros (fi & Hfi & H). apply query_abs_spec in Hfi; [|exact Hsort]. destruct Hfi as [Hfi C]. apply Af in Hfi. destruct Hfi as (d & s & lo & hi & Hd & L & Rg & ->). cbn [f_name relative_start absolute_start] in H.
    destruct (function_of_exists f d s e He Hf Hd L) as (d2 & s2 & F2). destruct (function_of_visible _ _ _ _ F2) as (V2 & _). destruct (visible_unit f d2 V2) as (u & Hu & T). rewrite (I2 d s d2 s2 u Hd L F2 Hu T) in H.
    destruct (LinesModel.address_to_location (view_unit smap (sunit_of u)) (lo + (a - sym_addr s))) as [l'|] eqn:Lo; [|destruct H]. destruct H as [H|[]]. injection H as <- <-. apply located_spec in Lo.
    exists d, s, lo, hi, d2, s2, u. split; [|repeat split; auto]. split; [exact Hd|]. split; [exact L|]. split; [exact Rg|]. unfold covers in C. cbn in C. lia.
  - intros (d & s & lo & hi & d2 & s2 & u & (Hd & L & Rg & C) & F2 & Hu & T & -> & Lo). eexists. split.
    + apply query_abs_spec; [exact Hsort|]. split; [apply Af; exists d, s, lo, hi; split; [exact Hd|]; split; [exact L|]; split; [exact Rg | reflexivity]|]. unfold covers. cbn. lia.
    + cbn [f_name relative_start absolute_start]. rewrite (I2 d s d2 s2 u Hd L F2 Hu T). apply located_spec in Lo. rewrite Lo. left. reflexivity.
Qed.
Lemma by_id f id : file_by_id B id = Some f -> bf_id f = id.
Proof. unfold file_by_id. intros F. apply find_some in F. destruct F as [_ F]. now apply N.eqb_eq in F. Qed.
(** An address is attributed to a function around it, in the file of a nearest symbol, and to the place its unit's line
    table states for the corresponding address in the file. *)
Theorem address_located_sound : (forall f, In f (bi_made B) -> readable_file h f /\ distinct_dies f) -> forall a,
  exists n0, forall n, (n0 <= n)%nat -> forall name p line, address_to_location sort smap n B a = Some (name, p, line) ->
  exists s0 f d s lo hi d2 s2 u col, nearest h a s0 /\ file_by_id B (sym_file s0) = Some f /\ covers_address h f d s lo hi a /\
    function_of h f (sym_name s) d2 s2 /\ In u (bf_units f) /\ in_tree (bu_die u) d2 /\
    name = sname_display (sym_name s) /\ located smap u (lo + (a - sym_addr s)) (p, line, col).
Proof.
  intros Files a.
  assert (U : forall ss, (forall y, In y ss -> In y (functions_of h)) -> exists n0, forall n, (n0 <= n)%nat -> forall y f, In y ss -> file_by_id B (sym_file y) = Some f -> forall name l,
    In (name, l) (address_to_locations sort (view_file smap (sfile_of n B f)) a) -> exists d s lo hi d2 s2 u, covers_address h f d s lo hi a /\ function_of h f (sym_name s) d2 s2 /\ In u (bf_units f) /\ in_tree (bu_die u) d2 /\
      name = full_path (sym_name s) /\ located smap u (lo + (a - sym_addr s)) l).
  { induction ss as [|y ss IH]; intros Sub; [exists 0%nat; intros n _ y f []|]. destruct (IH (fun x H => Sub x (or_intror H))) as (n1 & I1). destruct (file_by_id B (sym_file y)) as [f|] eqn:F.
    - destruct (functions_history y (Sub y (or_introl eq_refl))) as (e & He & Ee). assert (Hm : In f (bi_made B)) by (unfold file_by_id in F; apply find_some in F; apply F). destruct (Files f Hm) as [R D].
      destruct (results_known f e a He ltac:(rewrite Ee; symmetry; now apply by_id) R D) as (n2 & I2). exists (n1 + n2)%nat. intros n Hn y' f' [<- | H] F' name l Hl; [|exact (I1 n ltac:(lia) y' f' H F' name l Hl)]. rewrite F in F'. injection F' as <-. apply (proj2 (I2 n ltac:(lia))) in Hl. exact Hl.
    - exists n1. intros n Hn y' f' [<- | H] F' name l Hl; [congruence | exact (I1 n Hn y' f' H F' name l Hl)]. }
  pose proof (symbol_at_address_nearest X tables a) as Near. cbv zeta in Near. fold h in Near.
  destruct (function_at_address (index_symbol_map X tables) a) as [[b syms]|] eqn:FA.
  2: { exists 0%nat. intros n _ name p line H. unfold address_to_location, lookup_address, LinesModel.lookup_address, find_all_by_address, ix in H. rewrite Hix, FA in H. discriminate. }
  destruct Near as (Nb & (s1 & Hs1 & As1) & Es & Nn). destruct (U syms) as (n0 & I0). { intros y Hy. rewrite Es in Hy. apply filter_In in Hy. apply Hy. }
  exists n0. intros n Hn name p line H. unfold address_to_location, lookup_address, LinesModel.lookup_address, find_all_by_address, ix in H. rewrite Hix, FA in H.
  match type of H with context [rev ?l] => set (res := l) in * end. destruct (rev res) as [|[full l0] rest] eqn:Rv; [discriminate|]. assert (Hin : In (full, l0) res) by (apply in_rev; rewrite Rv; left; reflexivity).
  destruct (sname_parse full) as [nm| | |] eqn:Ps; try discriminate. destruct l0 as [[p0 line0] col]. injection H as <- <- <-.
  unfold res in Hin. apply in_flat_map in Hin. destruct Hin as (id & Hid & Hin).
  assert (Hid' : exists y, In y syms /\ sym_file y = id).
  { assert (Un : forall l seen, In id (unique seen l) -> In id l). { induction l as [|z l IH]; intros seen Hz; [destruct Hz|]. cbn [unique] in Hz. destruct (existsb (N.eqb z) seen); [right; eapply IH; exact Hz|]. destruct Hz as [<- | Hz]; [left; reflexivity | right; eapply IH; exact Hz]. }
    apply Un in Hid. apply in_map_iff in Hid. destruct Hid as (y & E & Hy). eauto. }
  destruct Hid' as (y & Hy & <-). unfold line_file in Hin. destruct (file_by_id B (sym_file y)) as [f|] eqn:F; [|destruct Hin]. cbn [option_map] in Hin. destruct (d_indexed (view_file smap (sfile_of n B f))); [|destruct Hin].
  destruct (I0 n Hn y f Hy F full (p0, line0, col) Hin) as (d & s & lo & hi & d2 & s2 & u & C & F2 & Hu & T & -> & Lo).
  pose proof (parsed_full _ (linked_parsed f d s (proj1 (proj2 C)))) as Pf. rewrite Pf in Ps. injection Ps as <-.
  exists y, f, d, s, lo, hi, d2, s2, u, col. split; [|auto 10]. rewrite Es in Hy. apply filter_In in Hy. destruct Hy as [Hy1 Hy2]. apply Z.eqb_eq in Hy2. split; [exact Hy1|]. split; [lia|]. intros z Hz Lz. rewrite Hy2. now apply Nn.
Qed.
(** ... and such a function is found, when the nearest symbols are in one file and only one function of that file is
    around the address. Missing: functions around the address whose file does not own a nearest symbol (see C52). *)
Theorem address_located_partial : forall a s0 f d s lo hi d2 s2 u p line col,
  nearest h a s0 -> (forall y, nearest h a y -> sym_file y = sym_file s0) -> file_by_id B (sym_file s0) = Some f -> readable_file h f -> distinct_dies f ->
  covers_address h f d s lo hi a -> (forall d' s' lo' hi', covers_address h f d' s' lo' hi' a -> d' = d /\ s' = s) ->
  function_of h f (sym_name s) d2 s2 -> In u (bf_units f) -> in_tree (bu_die u) d2 -> located smap u (lo + (a - sym_addr s)) (p, line, col) ->
  exists n0, forall n, (n0 <= n)%nat -> lookup_address sort smap n B a = Some (sym_name s, (p, line, col)) /\
    address_to_location sort smap n B a = Some (sname_display (sym_name s), p, line).
Proof.
  intros a s0 f d s lo hi d2 s2 u p line col Nr One F R D C Uq F2 Hu T Lo. destruct Nr as (Hs0 & Las & Nr). destruct (functions_history s0 Hs0) as (e & He & Ee).
  destruct (results_known f e a He ltac:(rewrite Ee; symmetry; now apply by_id) R D) as (n0 & K). exists n0. intros n Hn. destruct (K n Hn) as [Ki Kr].
  assert (LA : lookup_address sort smap n B a = Some (sym_name s, (p, line, col))); [|split; [exact LA|]; unfold address_to_location; rewrite LA; reflexivity].
  unfold lookup_address, LinesModel.lookup_address, find_all_by_address, ix. rewrite Hix. pose proof (symbol_at_address_nearest X tables a) as Near. cbv zeta in Near. fold h in Near.
  destruct (function_at_address (index_symbol_map X tables) a) as [[b syms]|]; [|specialize (Near s0 Hs0); lia]. destruct Near as (Nb & (s1 & Hs1 & As1) & Es & Nn).
  assert (Eb : b = sym_addr s0) by (specialize (Nn s0 Hs0 Las); specialize (Nr s1 Hs1); lia).
  assert (Ids : unique [] (map sym_file syms) = [sym_file s0]).
  { assert (All : forall y, In y syms -> sym_file y = sym_file s0).
    { intros y Hy. rewrite Es in Hy. apply filter_In in Hy. destruct Hy as [Hy Ay]. apply Z.eqb_eq in Ay. apply One. split; [exact Hy|]. split; [lia|]. intros z Hz Lz. rewrite Ay. now apply Nn. }
    assert (Ne : In s0 syms) by (rewrite Es; apply filter_In; split; [exact Hs0 | apply Z.eqb_eq; now symmetry]).
    assert (Un : forall l, (forall y, In y l -> sym_file y = sym_file s0) -> unique [sym_file s0] (map sym_file l) = []).
    { induction l as [|z l IH]; intros Hl; [reflexivity|]. cbn [map unique existsb]. rewrite (Hl z (or_introl eq_refl)), N.eqb_refl. cbn [orb]. apply IH. intros y Hy. apply Hl. now right. }
    destruct syms as [|z l]; [destruct Ne|]. cbn [map unique existsb]. rewrite (All z (or_introl eq_refl)). f_equal. apply Un. intros y Hy. apply All. now right. }
  rewrite Ids. cbn [flat_map]. unfold line_file. rewrite F. cbn [option_map]. rewrite Ki, app_nil_r.
  set (res := address_to_locations sort (view_file smap (sfile_of n B f)) a) in *.
  assert (Hin : In (full_path (sym_name s), (p, line, col)) res) by (apply Kr; exists d, s, lo, hi, d2, s2, u; auto 10).
  assert (Only : forall x, In x res -> x = (full_path (sym_name s), (p, line, col))).
  { intros [nm l] Hx. apply Kr in Hx. destruct Hx as (d' & s' & lo' & hi' & d3 & s3 & u' & C' & F3 & Hu' & T' & -> & Lo'). destruct (Uq d' s' lo' hi' C') as [-> ->]. assert (lo' = lo) by (destruct C as (_ & _ & Q & _), C' as (_ & _ & Q' & _); congruence). subst lo'.
    destruct (unit_lookup f e u d2 s2 _ He ltac:(rewrite Ee; symmetry; now apply by_id) R D Hu T F2) as (n5 & I5). destruct (unit_lookup f e u' d3 s3 _ He ltac:(rewrite Ee; symmetry; now apply by_id) R D Hu' T' F3) as (n6 & I6).
    specialize (I5 (n5 + n6)%nat ltac:(lia)). specialize (I6 (n5 + n6)%nat ltac:(lia)). apply located_spec in Lo. apply located_spec in Lo'.
    assert (V : view_unit smap (sunit_of u) = view_unit smap (sunit_of u')) by congruence. rewrite V, Lo' in Lo. injection Lo as ->. reflexivity. }
  destruct (rev res) as [|x rest] eqn:Rv; [apply (in_rev res) in Hin; rewrite Rv in Hin; destruct Hin|]. assert (Hx : In x res) by (apply in_rev; rewrite Rv; left; reflexivity). rewrite (Only x Hx).
  rewrite (parsed_full _ (linked_parsed f d s (proj1 (proj2 C)))). reflexivity.
Qed.
End Queries.
Print Assumptions function_found.
Print Assumptions function_not_found.
Print Assumptions symbol_found.
Print Assumptions address_located_sound.
Print Assumptions address_located_partial.
