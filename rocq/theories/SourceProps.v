(** Properties of the source-file index (C86, C87, C88). *)
From Coq Require Import Ascii String List ZArith Lia Bool Arith.
From Verif Require Import Base OMap AddrModel AddrSpec AddrProofs AddrProps SymModel SymSpec SymProofs PathModel PathProps LinesModel LinesProps DiscoverSpec SourceModel.
Import ListNotations.
Open Scope Z_scope.

(** ** Specification *)
(** Texts of paths: components separated by slashes. *)
Definition comp_text (c : comp) : str := match c with CRoot => [] | CCur => st "." | CUp => st ".." | CName s => s end.
Fixpoint slashed (l : list str) : str := match l with [] => [] | [x] => x | x :: l' => x ++ slash :: slashed l' end.
Definition path_text (p : fpath) : str :=
  match p with
  | [CRoot] => st "/"
  | _ => slashed (map comp_text p)
  end.
Definition file_name (s : str) : Prop := s <> [] /\ ~ In slash s /\ s <> st "." /\ s <> st "..".
Definition inner (c : comp) : Prop := match c with CUp => True | CName s => file_name s | _ => False end.
Definition regular (p : fpath) : Prop := match p with [] => True | (CRoot | CCur) :: r => Forall inner r | _ => Forall inner p end.
Definition absolute (s : str) : Prop := exists r, s = slash :: r.
(** DWARF (6.2.4.1): a file name is relative to its directory, the directory to the compilation directory; an absolute
    one stands for itself. *)
Definition designated (base : fpath) (dir name : str) : fpath := join (join base (components dir)) (components name).
Definition base_dir (cdir : option (option str)) (base : fpath) : Prop :=
  match cdir with Some (Some c) => c <> [] /\ base = components c | _ => base = [CRoot] end.
(** A Rust unit of the file lists the path in its line table. *)
Definition lists (smap : list (fpath * fpath)) (f : sfile) (p : fpath) : Prop :=
  exists u v5 es z rows e, In u (sf_units f) /\ su_root u = true /\ su_rust u = true /\ su_table u = Some (v5, es, z, rows) /\
    In e es /\ file_entry_to_path smap (su_comp u) e = Some p.
(** A source of the workspace: below its root, or given relative to ".". *)
Definition local_to (w p : fpath) : Prop := exists r, p = w ++ r \/ p = CCur :: r.
(** All units are Rust units. *)
Definition rust_only (f : sfile) : Prop := Forall (fun u => su_root u = true /\ su_rust u = true) (sf_units f).
(** The directories from [p] down to [q]. *)
Definition ancestor (p q : fpath) : Prop := exists r, q = p ++ r.

(** ** Paths as texts *)
Lemma pieces_none s : ~ In slash s -> pieces s = [s].
Proof.
  induction s as [|c s IH]; intros H; [reflexivity|]. cbn [pieces]. destruct (N.eqb_spec c slash) as [->|_]; [destruct H; now left|].
  rewrite IH; [reflexivity | intros X; apply H; now right].
Qed.
Lemma pieces_ne s : pieces s <> [].
Proof. destruct s as [|c s]; [discriminate|]. cbn [pieces]. destruct (N.eqb c slash); [discriminate|]. destruct (pieces s); discriminate. Qed.
Lemma pieces_app a b : pieces (a ++ slash :: b) = pieces a ++ pieces b.
Proof.
  induction a as [|c a IH]; [reflexivity|]. cbn [app pieces]. rewrite IH. destruct (N.eqb c slash); [reflexivity|].
  destruct (pieces a) as [|p ps] eqn:E; [destruct (pieces_ne a E) | reflexivity].
Qed.
Lemma pieces_clean s : Forall (fun p => ~ In slash p) (pieces s).
Proof.
  induction s as [|c s IH]; [repeat constructor; intros []|]. cbn [pieces]. destruct (N.eqb_spec c slash) as [->|N]; [constructor; [intros [] | exact IH]|].
  destruct (pieces s) as [|p ps]; [constructor; [intros [X|[]]; now apply N | constructor]|]. inversion IH; subst. constructor; [|assumption].
  intros [X|X]; [now apply N | contradiction].
Qed.
Lemma str_eqb_refl s : str_eqb s s = true.
Proof. now apply str_eqb_eq. Qed.
Lemma piece_name s : file_name s -> piece_comps s = [CName s].
Proof.
  intros (H1 & _ & H3 & H4). unfold piece_comps. destruct (str_eqb s []) eqn:E; [apply str_eqb_eq in E; contradiction|].
  destruct (str_eqb s (st ".")) eqn:E2; [apply str_eqb_eq in E2; contradiction|]. cbn [orb].
  destruct (str_eqb s (st "..")) eqn:E3; [apply str_eqb_eq in E3; contradiction | reflexivity].
Qed.
Lemma inner_piece c : inner c -> piece_comps (comp_text c) = [c] /\ ~ In slash (comp_text c) /\ comp_text c <> st "." /\ comp_text c <> [].
Proof.
  destruct c; cbn [inner comp_text]; try contradiction; intros H.
  - repeat split; try discriminate. intros [X|[X|[]]]; discriminate.
  - split; [now apply piece_name|]. destruct H as (H1 & H2 & H3 & H4). auto.
Qed.
Lemma piece_inner p : ~ In slash p -> Forall inner (piece_comps p).
Proof.
  intros H. unfold piece_comps. destruct (str_eqb p []) eqn:E; [constructor|]. destruct (str_eqb p (st ".")) eqn:E2; [constructor|]. cbn [orb].
  destruct (str_eqb p (st "..")) eqn:E3; [repeat constructor|]. constructor; [|constructor]. cbn [inner]. unfold file_name.
  repeat split; [| exact H | |]; intros ->; rewrite str_eqb_refl in *; discriminate.
Qed.
Lemma pieces_inner l : Forall (fun p => ~ In slash p) l -> Forall inner (flat_map piece_comps l).
Proof. induction 1; cbn; [constructor|]. apply Forall_app. split; [now apply piece_inner | assumption]. Qed.

(** The three kinds of texts. *)
Lemma components_cases s :
  (s = [] /\ components s = []) \/
  (exists r, s = slash :: r /\ components s = CRoot :: flat_map piece_comps (pieces r)) \/
  (exists c s', s = c :: s' /\ c <> slash /\ exists p ps, pieces s = p :: ps /\ p <> [] /\
     ((p = st "." /\ components s = CCur :: flat_map piece_comps ps) \/ (p <> st "." /\ components s = flat_map piece_comps (p :: ps)))).
Proof.
  destruct s as [|c s]; [left; auto|right]. destruct (N.eqb_spec c slash) as [->|N].
  - left. exists s. split; [reflexivity|]. unfold components. cbn [pieces]. rewrite N.eqb_refl. reflexivity.
  - right. exists c, s. split; [reflexivity|]. split; [exact N|]. unfold components. cbn [pieces].
    destruct (N.eqb_spec c slash) as [X|_]; [contradiction|]. destruct (pieces s) as [|q ps] eqn:E; [destruct (pieces_ne s E)|].
    exists (c :: q), ps. split; [reflexivity|]. split; [discriminate|].
    destruct (str_eqb (c :: q) (st ".")) eqn:D.
    + left. apply str_eqb_eq in D. auto.
    + right. split; [intros X; rewrite X, str_eqb_refl in D; discriminate | reflexivity].
Qed.
Theorem components_regular s : regular (components s).
Proof.
  destruct (components_cases s) as [[_ ->] | [(r & -> & ->) | (c & s' & -> & N & p & ps & E & NE & H)]]; [exact I | |].
  - cbn [regular]. apply pieces_inner, pieces_clean.
  - pose proof (pieces_clean (c :: s')) as C. rewrite E in C. inversion C; subst. destruct H as [[-> ->] | [ND ->]].
    + cbn [regular]. now apply pieces_inner.
    + assert (F : Forall inner (flat_map piece_comps (p :: ps))) by now apply pieces_inner.
      destruct (flat_map piece_comps (p :: ps)) as [|[| | |n] r] eqn:Q; [exact I | | | exact F | exact F]; inversion F; contradiction.
Qed.
Lemma slashed_pieces l : l <> [] -> Forall (fun p => ~ In slash p) l -> pieces (slashed l) = l.
Proof.
  induction l as [|x l IH]; [congruence|]. intros _ H. inversion H; subst. cbn [slashed]. destruct l as [|y l]; [now apply pieces_none|].
  rewrite pieces_app, pieces_none by assumption. cbn [app]. f_equal. apply IH; [discriminate | assumption].
Qed.
Lemma inner_pieces r : Forall inner r -> flat_map piece_comps (map comp_text r) = r.
Proof. induction 1 as [|c r H F IH]; [reflexivity|]. cbn [map flat_map]. rewrite (proj1 (inner_piece c H)), IH. reflexivity. Qed.
Lemma inner_clean r : Forall inner r -> Forall (fun p => ~ In slash p) (map comp_text r).
Proof. induction 1 as [|c r H F IH]; constructor; [|exact IH]. apply (inner_piece c H). Qed.
(** Every path is the reading of its text. *)
Theorem path_text_read p : regular p -> components (path_text p) = p.
Proof.
  destruct p as [|c p]; [reflexivity|]. intros R.
  assert (In0 : Forall inner (c :: p) -> components (slashed (map comp_text (c :: p))) = c :: p).
  { intros F. assert (Q : pieces (slashed (map comp_text (c :: p))) = map comp_text (c :: p)) by (apply slashed_pieces; [discriminate | now apply inner_clean]).
    inversion F as [|? ? Fc Fp]; subst. destruct (inner_piece c Fc) as (P1 & P2 & P3 & P4).
    destruct (components_cases (slashed (map comp_text (c :: p)))) as [[E _] | [(r & E & _) | (c' & s' & _ & _ & q & ps & E & _ & H)]].
    - rewrite E in Q. cbn [map] in Q. injection Q as Q _. congruence.
    - rewrite E in Q. cbn [pieces] in Q. rewrite N.eqb_refl in Q. cbn [map] in Q. injection Q as Q _. congruence.
    - rewrite Q in E. cbn [map] in E. injection E as <- <-. destruct H as [[H _] | [_ ->]]; [contradiction|].
      change (comp_text c :: map comp_text p) with (map comp_text (c :: p)). now apply inner_pieces. }
  destruct c as [| | |s].
  - destruct p as [|c p]; [reflexivity|]. cbn [path_text map]. cbn [regular] in R.
    change (slashed (comp_text CRoot :: comp_text c :: map comp_text p)) with (slash :: slashed (map comp_text (c :: p))).
    unfold components. cbn [pieces]. rewrite N.eqb_refl. rewrite slashed_pieces; [| discriminate | now apply inner_clean].
    cbn [flat_map]. change (piece_comps (comp_text c) ++ flat_map piece_comps (map comp_text p)) with (flat_map piece_comps (map comp_text (c :: p))).
    rewrite inner_pieces by exact R. reflexivity.
  - destruct p as [|c p]; [reflexivity|]. cbn [path_text map]. cbn [regular] in R.
    change (slashed (comp_text CCur :: comp_text c :: map comp_text p)) with (st "." ++ slash :: slashed (map comp_text (c :: p))).
    unfold components. rewrite pieces_app, slashed_pieces; [| discriminate | now apply inner_clean].
    change (pieces (st ".")) with [st "."]. cbn [app]. change (st "." ++ slash :: slashed (map comp_text (c :: p))) with (46%N :: slash :: slashed (map comp_text (c :: p))).
    cbv iota. change (N.eqb 46 slash) with false. cbv iota. rewrite str_eqb_refl. f_equal. now apply inner_pieces.
  - apply In0. exact R.
  - apply In0. exact R.
Qed.
Lemma components_ne s : s <> [] -> components s <> [].
Proof.
  intros H. destruct (components_cases s) as [[E _] | [(r & _ & ->) | (c & s' & -> & N & p & ps & E & NE & [[_ ->] | [ND ->]])]]; [contradiction | discriminate | discriminate |].
  cbn [flat_map]. unfold piece_comps at 1. destruct (str_eqb p []) eqn:E1; [apply str_eqb_eq in E1; contradiction|].
  destruct (str_eqb p (st ".")) eqn:E2; [apply str_eqb_eq in E2; contradiction|]. cbn [orb]. destruct (str_eqb p (st "..")); discriminate.
Qed.
Lemma relative_pieces b : ~ absolute b -> forall t, t <> [] -> join t (components b) = t ++ flat_map piece_comps (pieces b).
Proof.
  intros NA t NT. destruct (components_cases b) as [[-> ->] | [(r & -> & _) | (c & s' & -> & N & p & ps & E & NE & H)]].
  - cbn. reflexivity.
  - destruct NA. now exists r.
  - rewrite E. pose proof (pieces_clean (c :: s')) as C. rewrite E in C. inversion C; subst. destruct H as [[-> ->] | [ND ->]].
    + cbn [join flat_map]. destruct t; [contradiction | reflexivity].
    + assert (F : Forall inner (flat_map piece_comps (p :: ps))) by now apply pieces_inner.
      destruct (flat_map piece_comps (p :: ps)) as [|[| | |n] r]; try reflexivity; inversion F; contradiction.
Qed.
(** Appending a relative text with a slash is joining the paths. *)
Theorem components_join a b : a <> [] -> ~ absolute b -> components (a ++ slash :: b) = join (components a) (components b).
Proof.
  intros NA NB. rewrite (relative_pieces b NB (components a) (components_ne a NA)). unfold components at 1. rewrite pieces_app.
  destruct (components_cases a) as [[-> _] | [(r & -> & ->) | (c & s' & -> & N & p & ps & E & NE & H)]]; [contradiction | |].
  - cbn [pieces app]. rewrite N.eqb_refl. cbn [app]. f_equal. cbn [flat_map piece_comps]. rewrite flat_map_app. reflexivity.
  - rewrite E. cbn [app]. destruct (N.eqb_spec c slash) as [X|_]; [contradiction|]. destruct H as [[-> ->] | [ND ->]].
    + rewrite str_eqb_refl. cbn [app]. f_equal. apply flat_map_app.
    + destruct (str_eqb p (st ".")) eqn:D; [apply str_eqb_eq in D; contradiction|]. rewrite <- flat_map_app. reflexivity.
Qed.

(** ** C87: the path of a file entry *)
Lemma starts_slash s : starts_with s (st "/") = true <-> absolute s.
Proof. rewrite starts_with_spec. split; intros (r & ->); exists r; reflexivity. Qed.
Theorem file_path_designated_partial : forall smap cdir base d name,
  base_dir cdir base -> ~ absolute name ->
  file_entry_to_path smap cdir (FEntry (Some d) (Some name)) = Some (remap_path smap (designated base d name)).
Proof.
  intros smap cdir base d name HB NN. unfold file_entry_to_path, entry_text. cbn [fe_dir fe_name]. f_equal. f_equal. unfold designated.
  destruct (starts_with d (st "/")) eqn:S.
  - apply starts_slash in S. destruct S as (r & ->). cbn [st list_ascii_of_string map app]. change (N_of_ascii "/") with slash.
    change (slash :: r ++ slash :: name) with ((slash :: r) ++ slash :: name). rewrite components_join; [| discriminate | exact NN]. f_equal.
  - assert (ND : ~ absolute d) by (intros H; apply starts_slash in H; congruence).
    set (c := match cdir with Some (Some c) => c | _ => st "/" end).
    assert (HC : c <> [] /\ components c = base) by (subst c; destruct cdir as [[c|]|]; cbn in HB; [destruct HB as [? ->] | subst | subst]; split; try reflexivity; try discriminate; assumption).
    destruct HC as [HC <-]. change (st "/" ++ d ++ st "/" ++ name) with (slash :: d ++ slash :: name).
    replace (c ++ slash :: d ++ slash :: name) with ((c ++ slash :: d) ++ slash :: name) by (rewrite <- app_assoc; reflexivity).
    rewrite components_join; [| destruct c; discriminate | exact NN]. rewrite components_join by assumption. reflexivity.
Qed.
Theorem file_path_without_directory : forall smap cdir name,
  file_entry_to_path smap cdir (FEntry None (Some name)) = Some (remap_path smap (components name)).
Proof. reflexivity. Qed.
Theorem nameless_entry_skipped : forall smap cdir d, file_entry_to_path smap cdir (FEntry d None) = None.
Proof. reflexivity. Qed.
(** An absolute name is put below the directory all the same. *)
Theorem file_path_designated_refuted : exists cdir base d name, base_dir cdir base /\
  designated base d name = components name /\ file_entry_to_path [] cdir (FEntry (Some d) (Some name)) <> Some (designated base d name) /\
  file_entry_to_path [] cdir (FEntry (Some d) (Some name)) = Some (components (st "/home/u/app/rustc/library/core/src/lib.rs")).
Proof.
  exists (Some (Some (st "/home/u/app"))), (components (st "/home/u/app")), (st "/home/u/app"), (st "/rustc/library/core/src/lib.rs").
  split; [split; [discriminate | reflexivity]|]. split; [vm_compute; reflexivity|]. split; [vm_compute; discriminate | vm_compute; reflexivity].
Qed.
Example file_path_example :
  base_dir (Some (Some (st "/home/u/app"))) (components (st "/home/u/app")) /\ ~ absolute (st "main.rs") /\
  designated (components (st "/home/u/app")) (st "src/bin") (st "main.rs") = map CName [] ++ [CRoot; CName (st "home"); CName (st "u"); CName (st "app"); CName (st "src"); CName (st "bin"); CName (st "main.rs")].
Proof. split; [split; [discriminate | reflexivity]|]. split; [intros (r & H); discriminate | vm_compute; reflexivity]. Qed.
Print Assumptions file_path_designated_partial.

(** ** C86: the sources of a binary *)
Lemma wo_comp : wo cmp_comp.
Proof. exact (wo_on (fun c => (comp_rank c, comp_name c)) _ (wo_pair _ _ wo_Z wo_str)). Qed.
Lemma wo_path : wo cmp_path.
Proof. exact (wo_list _ wo_comp). Qed.
Lemma cmp_comp_eq a b : cmp_comp a b = Eq -> a = b.
Proof.
  unfold cmp_comp, cmp_pair. intros H. destruct a, b; cbn in H; try discriminate; try reflexivity. f_equal. apply cmp_str_eq. exact H.
Qed.
Lemma cmp_path_eq a b : cmp_path a b = Eq <-> a = b.
Proof. split; [apply cmp_list_eq, cmp_comp_eq | intros ->; apply (wo_refl _ wo_path)]. Qed.
Lemma path_dec (a b : fpath) : {a = b} + {a <> b}.
Proof. destruct (fpath_eqb a b) eqn:E; [left; now apply fpath_eqb_eq | right; intros H; apply fpath_eqb_eq in H; congruence]. Qed.

Lemma sorted_nodup {V} (m : @omap fpath V) : osorted cmp_path m -> NoDup (map fst m).
Proof.
  induction m as [|[k v] m IH]; cbn; intros H; [constructor|]. destruct H as [H1 H2]. constructor; [|now apply IH].
  intros X. apply in_map_iff in X. destruct X as ([k' v'] & Q & Hin). cbn in Q. subst k'. specialize (H1 _ _ Hin). rewrite (wo_refl _ wo_path) in H1. discriminate.
Qed.
Lemma oget_fst {V} (m : @omap fpath V) p : In p (map fst m) <-> oget cmp_path p m <> None.
Proof.
  split.
  - intros H E. apply in_map_iff in H. destruct H as ([k v] & Q & H). cbn in Q. subst k. pose proof (proj1 (oget_none cmp_path p m) E p v H) as X.
    rewrite (wo_refl _ wo_path) in X. contradiction.
  - intros H. destruct (oget cmp_path p m) as [v|] eqn:E; [|contradiction]. apply oget_some in E. destruct E as (k & Q & E).
    apply cmp_path_eq in Q. subst k. apply in_map_iff. now exists (p, v).
Qed.

Section Index.
Variable smap : list (fpath * fpath).

Lemma set_add_all l m : osorted cmp_path m ->
  osorted cmp_path (fold_left set_add l m) /\ forall p, oget cmp_path p (fold_left set_add l m) <> None <-> In p l \/ oget cmp_path p m <> None.
Proof.
  revert m. induction l as [|q l IH]; intros m H; cbn [fold_left]; [split; [exact H | intros p; split; [auto | intros [[]|X]; exact X]]|].
  destruct (IH (set_add m q)) as [S E]; [apply oinsert_sorted; [apply wo_path | exact H]|]. split; [exact S|]. intros p. rewrite E. unfold set_add.
  rewrite (oget_insert _ wo_path) by exact H. destruct (cmp_path p q) eqn:C.
  - apply cmp_path_eq in C. subst q. split; [intros _; left; now left | intros _; right; discriminate].
  - split; [intros [X|X]; auto; left; now right | intros [[X|X]|X]; auto; subst; rewrite (wo_refl _ wo_path) in C; discriminate].
  - split; [intros [X|X]; auto; left; now right | intros [[X|X]|X]; auto; subst; rewrite (wo_refl _ wo_path) in C; discriminate].
Qed.
Lemma unit_sources_in u p : In p (unit_sources smap u) <->
  exists v5 es z rows e, su_table u = Some (v5, es, z, rows) /\ In e es /\ file_entry_to_path smap (su_comp u) e = Some p.
Proof.
  unfold unit_sources. destruct (su_table u) as [[[[v5 es] z] rows]|].
  - rewrite in_flat_map. split.
    + intros (e & He & H). destruct (file_entry_to_path smap (su_comp u) e) as [q|] eqn:E; [|destruct H]. destruct H as [->|[]].
      exists v5, es, z, rows, e. auto.
    + intros (v5' & es' & z' & rows' & e & Q & He & E). injection Q as <- <- <- <-. exists e. split; [exact He|]. rewrite E. now left.
  - split; [intros [] | intros (v5' & es' & z' & rows' & e & Q & _); discriminate].
Qed.
Lemma sources_of_file f : NoDup (index_debug_file_sources smap f) /\ forall p, In p (index_debug_file_sources smap f) <-> lists smap f p.
Proof.
  unfold index_debug_file_sources, lists.
  assert (G : forall us m, osorted cmp_path m ->
    let m' := fold_left (fun m u => if su_root u && su_rust u then fold_left set_add (unit_sources smap u) m else m) us m in
    osorted cmp_path m' /\ forall p, oget cmp_path p m' <> None <->
      (exists u, In u us /\ su_root u = true /\ su_rust u = true /\ In p (unit_sources smap u)) \/ oget cmp_path p m <> None).
  { induction us as [|u us IH]; intros m H m'; subst m'; cbn [fold_left].
    - split; [exact H|]. intros p. split; [auto | intros [(u & [] & _)|X]; exact X].
    - assert (H' : osorted cmp_path (if su_root u && su_rust u then fold_left set_add (unit_sources smap u) m else m)).
      { destruct (su_root u && su_rust u); [now apply set_add_all | exact H]. }
      destruct (IH _ H') as [S E]. split; [exact S|]. intros p. rewrite E.
      destruct (su_root u && su_rust u) eqn:R.
      + apply andb_true_iff in R. destruct R as [R1 R2]. rewrite (proj2 (set_add_all _ _ H) p). split.
        * intros [(u' & Hu & X)|[X|X]]; [left; exists u'; split; [now right | exact X] | left; exists u; repeat split; auto; now left | now right].
        * intros [(u' & [<-|Hu] & X)|X]; [right; left; apply X | left; exists u'; auto | auto].
      + split.
        * intros [(u' & Hu & X)|X]; [left; exists u'; split; [now right | exact X] | now right].
        * intros [(u' & [<-|Hu] & X1 & X2 & X)|X]; [rewrite X1, X2 in R; discriminate | left; exists u'; auto | auto]. }
  destruct (G (sf_units f) [] I) as [S E]. split; [now apply sorted_nodup|]. intros p. rewrite oget_fst, E. split.
  - intros [(u & Hu & R1 & R2 & X)|X]; [|now destruct X]. apply unit_sources_in in X. destruct X as (v5 & es & z & rows & e & X).
    exists u, v5, es, z, rows, e. tauto.
  - intros (u & v5 & es & z & rows & e & Hu & R1 & R2 & X). left. exists u. repeat split; auto. apply unit_sources_in. exists v5, es, z, rows, e. exact X.
Qed.
Lemma lists_dec f p : {lists smap f p} + {~ lists smap f p}.
Proof. destruct (in_dec path_dec p (index_debug_file_sources smap f)) as [H|H]; [left | right; intros X; apply H]; now apply sources_of_file. Qed.
Definition listing (p : fpath) (f : sfile) : bool := if lists_dec f p then true else false.
Lemma add_sources_get d m : osorted cmp_path m ->
  osorted cmp_path (add_sources smap d m) /\
  forall p, oget cmp_path p (add_sources smap d m) =
    if lists_dec d p then Some ((match oget cmp_path p m with Some l => l | None => [] end) ++ [d]) else oget cmp_path p m.
Proof.
  destruct (sources_of_file d) as [ND IN]. unfold add_sources. intros H.
  assert (G : forall l m, NoDup l -> osorted cmp_path m -> let m' := fold_left (fun m p => oupdate cmp_path p [] (fun l => l ++ [d]) m) l m in
    osorted cmp_path m' /\ forall p, oget cmp_path p m' =
      if in_dec path_dec p l then Some ((match oget cmp_path p m with Some l => l | None => [] end) ++ [d]) else oget cmp_path p m).
  { clear. induction l as [|q l IH]; intros m ND H m'; subst m'; cbn [fold_left]; [split; [exact H | reflexivity]|]. inversion ND; subst.
    destruct (IH (oupdate cmp_path q [] (fun l => l ++ [d]) m)) as [S E]; [assumption | apply oupdate_sorted; [apply wo_path | exact H]|].
    split; [exact S|]. intros p. rewrite E, (oget_update _ wo_path) by exact H.
    destruct (in_dec path_dec p l) as [X|X], (in_dec path_dec p (q :: l)) as [Y|Y].
    - destruct (cmp_path p q) eqn:C; try reflexivity. apply cmp_path_eq in C. subst q. contradiction.
    - destruct Y. now right.
    - destruct Y as [<-|Y]; [|contradiction]. rewrite (wo_refl _ wo_path). reflexivity.
    - destruct (cmp_path p q) eqn:C; try reflexivity. apply cmp_path_eq in C. subst q. destruct Y. now left. }
  destruct (G _ m ND H) as [S E]. split; [exact S|]. intros p. rewrite E.
  destruct (in_dec path_dec p (index_debug_file_sources smap d)) as [X|X], (lists_dec d p) as [Y|Y]; try reflexivity; exfalso; [apply Y | apply X]; now apply IN.
Qed.
Lemma index_get files : osorted cmp_path (snd (debug_index smap None files)) /\
  forall p, oget cmp_path p (snd (debug_index smap None files)) = match filter (listing p) files with [] => None | l => Some l end.
Proof.
  unfold debug_index. cbn [snd].
  assert (G : forall files m pre, osorted cmp_path m -> (forall p, oget cmp_path p m = match filter (listing p) pre with [] => None | l => Some l end) ->
    let m' := fold_left (fun m d => add_sources smap d m) files m in
    osorted cmp_path m' /\ forall p, oget cmp_path p m' = match filter (listing p) (pre ++ files) with [] => None | l => Some l end).
  { clear. induction files as [|d files IH]; intros m pre H E m'; subst m'; cbn [fold_left]; [rewrite app_nil_r; auto|].
    destruct (add_sources_get d m H) as [S G]. replace (pre ++ d :: files) with ((pre ++ [d]) ++ files) by (rewrite <- app_assoc; reflexivity).
    apply IH; [exact S|]. intros p. rewrite G, E, filter_app. cbn [filter]. unfold listing at 4. destruct (lists_dec d p) as [Y|Y].
    - destruct (filter (listing p) pre); reflexivity.
    - rewrite app_nil_r. reflexivity. }
  exact (G files [] [] I (fun p => eq_refl)).
Qed.
Lemma selects_listing p files : selects (fun f => lists smap f p) files (filter (listing p) files).
Proof.
  induction files as [|f files IH]; cbn [filter]; [constructor|]. unfold listing at 1. destruct (lists_dec f p); constructor; assumption.
Qed.
Lemma selects_fun {A} (P : A -> Prop) l xs : selects P l xs -> forall ys, selects P l ys -> xs = ys.
Proof.
  induction 1 as [|a l xs Ha H IH|a l xs Ha H IH]; intros ys S; inversion S; subst; try reflexivity; try contradiction; [f_equal|]; now apply IH.
Qed.
(** A source path is indexed exactly when a Rust unit of some debug file lists it, and then with exactly the debug
    files listing it, in their order. The index is ordered by path. *)
Theorem source_index_exact : forall files w p ds,
  In (p, ds) (snd (debug_index smap w files)) <-> ds <> [] /\ selects (fun f => lists smap f p) files ds.
Proof.
  intros files w p ds. change (snd (debug_index smap w files)) with (snd (debug_index smap None files)).
  destruct (index_get files) as [S E]. split.
  - intros H. apply (oget_in _ wo_path _ _ _ S) in H. rewrite E in H. pose proof (selects_listing p files) as L.
    destruct (filter (listing p) files); [discriminate|]. injection H as <-. split; [discriminate | exact L].
  - intros [NE L]. pose proof (selects_fun _ _ _ L _ (selects_listing p files)) as Q. specialize (E p). rewrite <- Q in E.
    destruct ds as [|d ds]; [contradiction|]. apply oget_some in E. destruct E as (k & C & H). apply cmp_path_eq in C. now subst k.
Qed.
Theorem source_index_sorted : forall files w, osorted cmp_path (snd (debug_index smap w files)).
Proof. intros files w. exact (proj1 (index_get files)). Qed.

(** ** C88: the debug files searched for types *)
Lemma starts_with_path p q : path_starts_with p q = true <-> exists r, p = q ++ r.
Proof.
  unfold path_starts_with. destruct (strip_prefix p q) as [r|] eqn:E.
  - apply strip_prefix_some in E. split; [intros _; now exists r | reflexivity].
  - split; [discriminate|]. intros (r & H). apply strip_prefix_some in H. congruence.
Qed.
Lemma is_local_spec w f : is_local smap w f = true <-> exists p, lists smap f p /\ local_to w p.
Proof.
  unfold is_local, local_to. rewrite existsb_exists. split.
  - intros (p & Hp & H). exists p. split; [now apply sources_of_file|]. apply orb_true_iff in H. destruct H as [H|H]; apply starts_with_path in H; destruct H as (r & H); exists r; auto.
  - intros (p & Hp & r & H). exists p. split; [now apply sources_of_file|]. apply orb_true_iff. destruct H as [H|H]; [left | right]; apply starts_with_path; exists r; exact H.
Qed.
Theorem local_files_exact : forall files w,
  selects (fun f => exists p, lists smap f p /\ local_to w p) files (fst (debug_index smap (Some w) files)).
Proof.
  intros files w. unfold debug_index. cbn [fst]. induction files as [|f files IH]; cbn [filter]; [constructor|].
  destruct (is_local smap w f) eqn:E; constructor; try assumption; rewrite <- is_local_spec; congruence.
Qed.
Theorem no_workspace_no_files : forall files, fst (debug_index smap None files) = [].
Proof. reflexivity. Qed.

(** ** C86 with C36: lines looked up over the whole binary *)
Lemma view_lists f p l a : rust_only f -> ordinary_file (view_file smap f) -> code_at (view_file smap f) p l a -> lists smap f p.
Proof.
  intros R (O1 & _ & _) (u & q & r & g & Hu & _ & Q & Hr & _ & _ & RF & _). specialize (O1 u q Hu Q). destruct O1 as (V & R1 & _).
  cbn in Hu. apply in_map_iff in Hu. destruct Hu as (s & <- & Hs). unfold rust_only in R. rewrite Forall_forall in R. destruct (R s Hs) as [A B].
  cbn in Q. destruct (su_table s) as [[[[v5 es] z] rows]|] eqn:T; [|discriminate]. injection Q as <-. cbn in V, Hr. subst v5.
  unfold row_file in RF. cbn [lp_v5 lp_files] in RF. specialize (R1 r Hr). destruct (r_file r =? 0) eqn:Z0; [lia|].
  rewrite nth_error_map in RF. destruct (nth_error es (Z.to_nat (r_file r - 1))) as [e|] eqn:N; [|discriminate]. cbn in RF. injection RF as RF.
  exists s, false, es, z, rows, e. repeat split; auto. eapply nth_error_In. exact N.
Qed.
(** The source a request designates: the requested path if it is listed, else the first listed path, in the order of
    paths, that ends with it. *)
Definition designates (files : list sfile) (file : path) (p : path) : Prop :=
  (exists f, In f files /\ lists smap f p) /\ suffix_of file p /\ (p = file \/
   (forall f, In f files -> ~ lists smap f file) /\ forall f q, In f files -> lists smap f q -> suffix_of file q -> cmp_path p q <> Gt).
Lemma index_keys files p : In p (map fst (index_sources smap files)) <-> exists f, In f files /\ lists smap f p.
Proof.
  unfold index_sources. rewrite map_map. cbn [fst]. change (map (fun x => fst x) (snd (debug_index smap None files))) with (map fst (snd (debug_index smap None files))).
  rewrite oget_fst, (proj2 (index_get files) p). split.
  - intros H. destruct (filter (listing p) files) as [|f l] eqn:E; [contradiction|].
    assert (X : In f (filter (listing p) files)) by (rewrite E; now left). apply filter_In in X. destruct X as [X1 X2]. exists f. split; [exact X1|].
    unfold listing in X2. destruct (lists_dec f p); [assumption | discriminate].
  - intros (f & Hf & L) E. assert (X : In f (filter (listing p) files)).
    { apply filter_In. split; [exact Hf|]. unfold listing. destruct (lists_dec f p); [reflexivity | contradiction]. }
    destruct (filter (listing p) files); [destruct X | discriminate].
Qed.
Lemma find_sorted {V} (m : @omap fpath V) (P : fpath -> bool) e : osorted cmp_path m -> find (fun e => P (fst e)) m = Some e ->
  forall k v, In (k, v) m -> P k = true -> cmp_path (fst e) k <> Gt.
Proof.
  induction m as [|[k0 v0] m IH]; cbn [find osorted]; [discriminate|]. intros [H1 H2] F k v Hin Pk. cbn [fst] in F. destruct (P k0) eqn:E.
  - injection F as <-. cbn [fst]. destruct Hin as [Hin|Hin]; [injection Hin as <- <-; rewrite (wo_refl _ wo_path); discriminate|]. rewrite (H1 _ _ Hin). discriminate.
  - destruct Hin as [Hin|Hin]; [injection Hin as <- <-; congruence|]. eapply IH; eassumption.
Qed.
Lemma source_designated files file :
  match choose_source (index_sources smap files) file with
  | Some p => designates files file p
  | None => forall f p, In f files -> lists smap f p -> ~ suffix_of file p
  end.
Proof.
  pose proof (source_file_designated (index_sources smap files) file) as D. destruct (choose_source (index_sources smap files) file) as [p|] eqn:C.
  - destruct D as (D1 & D2 & D3 & _). split; [now apply index_keys|]. split; [exact D2|]. destruct (path_dec p file) as [->|NE]; [now left | right].
    assert (NI : ~ In file (map fst (index_sources smap files))) by (intros X; apply NE, D3, X). split.
    { intros f Hf L. apply NI. apply index_keys. eauto. }
    intros f q Hf L S. unfold choose_source in C. destruct (existsb _ _) eqn:E.
    { apply existsb_exists in E. destruct E as (e & He & E). apply fpath_eqb_eq in E. destruct NI. rewrite <- E. now apply in_map. }
    destruct (find _ _) as [e|] eqn:F; [|discriminate]. injection C as <-.
    assert (K : In q (map fst (index_sources smap files))) by (apply index_keys; eauto). apply in_map_iff in K. destruct K as ([k v] & Q & K). cbn in Q. subst k.
    refine (find_sorted (index_sources smap files) (fun p => path_ends_with p file) e _ F q v K _); [|now apply path_ends_with_spec].
    pose proof (source_index_sorted files None) as S0. unfold index_sources. clear - S0. induction (snd (debug_index smap None files)) as [|[k v] m IH]; [exact I|].
    cbn [map osorted fst snd] in *. destruct S0 as [S1 S2]. split; [|now apply IH]. intros k' v' H. apply in_map_iff in H. destruct H as ([k2 v2] & Q & H). injection Q as <- <-. eapply S1. exact H.
  - intros f p Hf L. apply D. apply index_keys. eauto.
Qed.
Lemma index_nodup files : NoDup (map fst (index_sources smap files)).
Proof.
  unfold index_sources. rewrite map_map. cbn [fst]. change (map (fun x => fst x) (snd (debug_index smap None files))) with (map fst (snd (debug_index smap None files))).
  apply sorted_nodup, source_index_sorted.
Qed.
Lemma find_key {V} (m : list (path * V)) p v : NoDup (map fst m) -> In (p, v) m -> find (fun e => path_eqb (fst e) p) m = Some (p, v).
Proof.
  induction m as [|[k w] m IH]; cbn [map fst find]; intros ND H; [destruct H|]. inversion ND; subst. unfold path_eqb at 1. destruct (fpath_eqb k p) eqn:E.
  - apply fpath_eqb_eq in E. subst k. destruct H as [H|H]; [exact (f_equal Some H)|]. destruct H2. apply in_map_iff. now exists (p, v).
  - destruct H as [H|H]; [|now apply IH]. injection H as -> ->. rewrite (proj2 (fpath_eqb_eq p p) eq_refl) in E. discriminate.
Qed.
(** A line of a source file is looked up in every debug file of the binary. *)
Theorem line_found_anywhere_partial : forall sort files file line, sorts sort -> 0 <= line ->
  Forall rust_only files -> Forall (fun f => ordinary_file (view_file smap f)) files ->
  exists o, address_of_line smap sort files file line = Ok o /\
  match o with
  | Some a => exists p l, designates files (components file) p /\ line <= l /\ code_anywhere (map (view_file smap) files) p l a /\
      forall l' b, code_anywhere (map (view_file smap) files) p l' b -> line <= l' -> l <= l'
  | None => (forall f p, In f files -> lists smap f p -> ~ suffix_of (components file) p) \/
      exists p, designates files (components file) p /\ forall l b, code_anywhere (map (view_file smap) files) p l b -> l < line
  end.
Proof.
  intros sort files file line HS HL HR HO. unfold address_of_line, find_address_from_source_location.
  pose proof (source_designated files (components file)) as D. destruct (choose_source (index_sources smap files) (components file)) as [p|].
  2: { exists None. split; [reflexivity|]. left. exact D. }
  assert (K : In p (map fst (index_sources smap files))) by (apply index_keys; apply D).
  apply in_map_iff in K. destruct K as ([k ds] & Q & K). cbn in Q. subst k.
  assert (K2 := K). unfold index_sources in K2. apply in_map_iff in K2. destruct K2 as ([k fs] & Q & K2). cbn [fst snd] in Q. injection Q as -> <-.
  apply source_index_exact in K2. destruct K2 as [_ S]. pose proof (selects_fun _ _ _ S _ (selects_listing p files)) as ->.
  assert (CA : forall l b, code_anywhere (map (view_file smap) (filter (listing p) files)) p l b <-> code_anywhere (map (view_file smap) files) p l b).
  { intros l b. unfold code_anywhere. split; intros (d & Hd & I1 & I2); apply in_map_iff in Hd; destruct Hd as (f & <- & Hf); exists (view_file smap f); (split; [|auto]); apply in_map_iff; exists f; (split; [reflexivity|]).
    - now apply filter_In in Hf.
    - apply filter_In. split; [exact Hf|]. unfold listing. destruct (lists_dec f p) as [_|X]; [reflexivity|]. destruct X.
      rewrite Forall_forall in HR, HO. eapply view_lists; [apply HR, Hf | apply HO, Hf | exact I2]. }
  destruct (position_lookup_nearest_partial sort (index_sources smap files) p line (map (view_file smap) (filter (listing p) files)) HS HL) as (o & E & P).
  { apply find_key; [apply index_nodup | exact K]. }
  { apply Forall_forall. intros d Hd. apply in_map_iff in Hd. destruct Hd as (f & <- & Hf). apply filter_In in Hf. rewrite Forall_forall in HO. apply HO, Hf. }
  exists o. split; [exact E|]. destruct o as [a|].
  - destruct P as (l & P1 & P2 & P3). exists p, l. split; [exact D|]. split; [exact P1|]. split; [now apply CA|]. intros l' b H. apply CA in H. eauto.
  - right. exists p. split; [exact D|]. intros l b H. apply CA in H. eauto.
Qed.
End Index.
Print Assumptions source_index_exact.
Print Assumptions local_files_exact.
Print Assumptions line_found_anywhere_partial.

(** ** The workspace *)
Lemma parent_snoc p c : parent (p ++ [c]) = match c with CRoot => None | _ => Some p end.
Proof. unfold parent. rewrite rev_app_distr. cbn. rewrite rev_involutive. destruct c; reflexivity. Qed.
(** What cargo prints names the manifest: the workspace is its directory. *)
Theorem workspace_from_cargo : forall t dir cwd present, components t = dir ++ [CName (st "Cargo.toml")] ->
  detect_cargo_root (Some t) cwd present = Some dir.
Proof. intros t dir cwd present H. unfold detect_cargo_root. rewrite H, parent_snoc. reflexivity. Qed.
(** Without cargo, or when it prints nothing (not in a package), the nearest directory with a manifest, from the current
    one upwards. *)
Definition manifest_in (present : fpath -> bool) (d : fpath) : Prop := present (d ++ [CName (st "Cargo.toml")]) = true.
Theorem workspace_from_directory : forall cargo cwd present, cargo = None \/ cargo = Some [] -> Forall inner cwd ->
  match detect_cargo_root cargo (Some (CRoot :: cwd)) present with
  | Some d => (exists r, d = CRoot :: r) /\ ancestor d (CRoot :: cwd) /\ manifest_in present d /\
      forall q, ancestor d q -> ancestor q (CRoot :: cwd) -> manifest_in present q -> q = d
  | None => forall d, d <> [] -> ancestor d (CRoot :: cwd) -> ~ manifest_in present d
  end.
Proof.
  intros cargo cwd present Hc F.
  assert (N : detect_cargo_root cargo (Some (CRoot :: cwd)) present = detect_cargo_root None (Some (CRoot :: cwd)) present) by (destruct Hc as [-> | ->]; reflexivity).
  rewrite N. clear N Hc. unfold detect_cargo_root. cbn [length].
  induction cwd as [|c cwd IH] using rev_ind.
  - cbn [up_to_manifest length]. unfold join. destruct (present ([CRoot] ++ [CName (st "Cargo.toml")])) eqn:E.
    + split; [now exists []|]. split; [now exists []|]. split; [exact E|]. intros q (r & ->) (r' & Q) _. destruct r; [reflexivity|].
      cbn in Q. destruct r; discriminate.
    + cbn. intros d ND (r & Q) M. destruct d as [|x d]; [contradiction|]. cbn in Q. injection Q as <- Q. symmetry in Q. apply app_eq_nil in Q. destruct Q as [-> ->].
      unfold manifest_in in M. congruence.
  - apply Forall_app in F. destruct F as [F Fc]. inversion Fc as [|? ? Fc1 _]; subst. specialize (IH F). rewrite app_length, Nat.add_comm. cbn [plus length].
    remember (S (length cwd)) as n eqn:N. rewrite app_comm_cons. cbn [up_to_manifest]. unfold join at 1.
    assert (Par : parent ((CRoot :: cwd) ++ [c]) = Some (CRoot :: cwd)) by (rewrite parent_snoc; destruct c; try contradiction; reflexivity).
    destruct (present (((CRoot :: cwd) ++ [c]) ++ [CName (st "Cargo.toml")])) eqn:E.
    + split; [now exists (cwd ++ [c])|]. split; [exists []; now rewrite app_nil_r|]. split; [exact E|].
      intros q (r & ->) (r' & Q) _. rewrite <- app_assoc in Q. rewrite <- (app_nil_r ((CRoot :: cwd) ++ [c])) in Q at 1. apply app_inv_head in Q.
      symmetry in Q. apply app_eq_nil in Q. destruct Q as [-> _]. now rewrite app_nil_r.
    + rewrite Par. 
      assert (Last : forall q, ancestor q ((CRoot :: cwd) ++ [c]) -> q = (CRoot :: cwd) ++ [c] \/ ancestor q (CRoot :: cwd)).
      { intros q (r & Q). destruct r as [|x r] using rev_ind; [left; now rewrite app_nil_r in Q|]. right. rewrite app_assoc in Q. apply app_inj_tail in Q. destruct Q as [Q _]. now exists r. }
      destruct (up_to_manifest n present (CRoot :: cwd)) as [d|] eqn:U.
      * destruct IH as (I0 & I1 & I2 & I3). split; [exact I0|]. split; [destruct I1 as (r & ->); exists (r ++ [c]); now rewrite app_assoc|]. split; [exact I2|].
        intros q Q1 Q2 M. destruct (Last q Q2) as [->|Q3]; [unfold manifest_in in M; congruence | now apply I3].
      * intros d ND A M. destruct (Last d A) as [->|Q3]; [unfold manifest_in in M; congruence | now apply (IH d)].
Qed.
Print Assumptions workspace_from_directory.
