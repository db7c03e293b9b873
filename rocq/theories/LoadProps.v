(** Properties of finding and opening the files of a binary (C99, C100). *)
From Coq Require Import Ascii String List ZArith NArith Lia Bool Arith Permutation.
From Verif Require Import Base OMap Utf8 AddrModel SymModel SymSpec SymProofs SymProps PathModel PathProps LinesModel DieModel LocModel SourceModel SourceProps LoadModel.
Import ListNotations.
Open Scope Z_scope.

(** ** Specification *)
(** What a stored file is read as: an object file or, with a member name, the first member of that name. *)
Inductive contents (s : stored) : option str -> object -> Prop :=
| contents_object o : st_object s = Some o -> contents s None o
| contents_member m ms before o after : st_archive s = Some ms -> ms = before ++ Some (utf8 m, Some o) :: after ->
    (forall x, ~ In (Some (utf8 m, x)) before) -> contents s (Some m) o.
(** No path below a mapped target is below a mapped source. *)
Definition separate (smap : list (fpath * fpath)) : Prop :=
  forall s t s' t' r r', In (s, t) smap -> In (s', t') smap -> s <> t -> s' <> t' -> relative r -> t ++ r <> s' ++ r'.
(** Every mapped prefix is an absolute path. *)
Definition absolute_sources (smap : list (fpath * fpath)) : Prop := forall s t, In (s, t) smap -> exists r, s = CRoot :: r.
(** The object of the object map is the one in this file: path and member are text, and the file is there. *)
Definition available (smap : list (fpath * fpath)) (fs : fpath -> option stored) (o : list Z * option (list Z)) (f : file) : Prop :=
  exists p, text p /\ fst o = utf8 p /\ fst f = remap_path smap (components p) /\ fs (fst f) <> None /\
  match snd o with
  | None => snd f = None
  | Some bs => exists m, text m /\ bs = utf8 m /\ snd f = Some m
  end.
(** The symbol entry [e] of the binary belongs to the debug file numbered [id]: the binary's own table when it has debug
    information, the object map for objects that are available. *)
Definition symbol_of (smap : list (fpath * fpath)) (fs : fpath -> option stored) (o : object) (id : N) (e : raw_entry) : Prop :=
  (id = 0%N /\ ob_debug o = true /\ In e (ob_symbols o)) \/
  exists i x f, id = N.of_nat (S i) /\ nth_error (ob_objects o) i = Some x /\ available smap fs x f /\ In (i, e) (ob_mapped o).

(** ** UTF-8 *)
Lemma lossy_text n : forall bs, text (lossy_fuel n bs).
Proof.
  induction n as [|n IH]; intros bs; [constructor|]. cbn [lossy_fuel]. destruct bs as [|a r]; [constructor|].
  assert (F : scalar fffd) by (unfold scalar, fffd; lia).
  destruct (a <? 128) eqn:E1; [apply Forall_cons; [unfold scalar; lia | apply IH]|].
  destruct ((194 <=? a) && (a <? 224)) eqn:E2.
  { destruct r as [|b r1]; [apply Forall_cons; [exact F | constructor]|]. destruct (cont b) eqn:Cb; apply Forall_cons; try exact F; try apply IH. unfold cont in Cb. unfold scalar. lia. }
  destruct ((224 <=? a) && (a <? 240)) eqn:E3.
  { destruct r as [|b r1]; [apply Forall_cons; [exact F | constructor]|]. destruct (second3 a b) eqn:Cb; [|apply Forall_cons; [exact F | apply IH]].
    destruct r1 as [|c r2]; [apply Forall_cons; [exact F | constructor]|]. destruct (cont c) eqn:Cc; apply Forall_cons; try exact F; try apply IH.
    unfold scalar. unfold second3, cont in *. destruct (a =? 224) eqn:?; [lia|]. destruct (a =? 237) eqn:?; lia. }
  destruct ((240 <=? a) && (a <? 245)) eqn:E4; [|apply Forall_cons; [exact F | apply IH]].
  destruct r as [|b r1]; [apply Forall_cons; [exact F | constructor]|]. destruct (second4 a b) eqn:Cb; [|apply Forall_cons; [exact F | apply IH]].
  destruct r1 as [|c r2]; [apply Forall_cons; [exact F | constructor]|]. destruct (cont c) eqn:Cc; [|apply Forall_cons; [exact F | apply IH]].
  destruct r2 as [|d r3]; [apply Forall_cons; [exact F | constructor]|]. destruct (cont d) eqn:Cd; apply Forall_cons; try exact F; try apply IH.
  unfold scalar. unfold second4, cont in *. destruct (a =? 240) eqn:?; [lia|]. destruct (a =? 244) eqn:?; lia.
Qed.
Lemma utf8_text_some bs s : utf8_text bs = Some s <-> text s /\ bs = utf8 s.
Proof.
  unfold utf8_text. split.
  - destruct (list_eq_dec Z.eq_dec (utf8 (utf8_lossy bs)) bs) as [E|E]; [|discriminate]. intros H. injection H as <-. split; [apply lossy_text | now symmetry].
  - intros [T ->]. rewrite (utf8_roundtrip s T). destruct (list_eq_dec Z.eq_dec (utf8 s) (utf8 s)) as [E|E]; [reflexivity | contradiction].
Qed.

(** ** Opening *)
Section Load.
Variable smap : list (fpath * fpath).
Variable fs : fpath -> option stored.
Lemma find_member m ms : match find (member_named m) ms with
  | Some x => exists before c after, ms = before ++ x :: after /\ x = Some (utf8 m, c) /\ forall y, ~ In (Some (utf8 m, y)) before
  | None => forall y, ~ In (Some (utf8 m, y)) ms end.
Proof.
  induction ms as [|x ms IH]; [intros y []|]. cbn [find]. destruct (member_named m x) eqn:E.
  - exists []. destruct x as [[n c]|]; [|discriminate]. cbn in E. destruct (list_eq_dec Z.eq_dec n (utf8 m)) as [->|]; [|discriminate]. exists c, ms. auto.
  - assert (X : forall y, x <> Some (utf8 m, y)) by (intros y ->; cbn in E; destruct (list_eq_dec Z.eq_dec (utf8 m) (utf8 m)); [discriminate | contradiction]).
    destruct (find (member_named m) ms) as [z|].
    + destruct IH as (b & c & a & -> & -> & N). exists (x :: b), c, a. split; [reflexivity|]. split; [reflexivity|]. intros y [H|H]; [exact (X y H) | exact (N y H)].
    + intros y [H|H]; [exact (X y H) | exact (IH y H)].
Qed.
Theorem load_exact : forall f o, load smap fs f = Ok o <-> exists s, fs (remap_path smap (fst f)) = Some s /\ contents s (snd f) o.
Proof.
  intros [p m] o. unfold load. cbn [fst snd]. destruct (fs (remap_path smap p)) as [s|]; [|split; [discriminate | intros (s & H & _); discriminate]].
  split.
  - intros H. exists s. split; [reflexivity|]. destruct m as [m|].
    + destruct (st_archive s) as [ms|] eqn:A; [|discriminate]. pose proof (find_member m ms) as F. destruct (find (member_named m) ms) as [x|]; [|discriminate].
      destruct F as (b & c & a & E & -> & N). destruct c as [o'|]; [|discriminate]. injection H as <-. econstructor; eassumption.
    + destruct (st_object s) as [o'|] eqn:E; [|discriminate]. injection H as <-. now constructor.
  - intros (s' & E & C). injection E as <-. destruct C as [o E | m ms b o a A E N].
    + rewrite E. reflexivity.
    + rewrite A. pose proof (find_member m ms) as F. destruct (find (member_named m) ms) as [x|].
      * destruct F as (b' & c & a' & E' & -> & N'). assert (Some (utf8 m, c) = Some (utf8 m, Some o)).
        { subst ms. clear A. revert b' N' E'. induction b as [|y b IH]; intros [|y' b'] N' E'; cbn in E'.
          - congruence.
          - injection E' as <- _. exfalso. exact (N' (Some o) (or_introl eq_refl)).
          - injection E' as -> _. exfalso. exact (N c (or_introl eq_refl)).
          - injection E' as -> E'. apply (IH (fun z H => N z (or_intror H)) b'); [intros z H; exact (N' z (or_intror H)) | exact E']. }
        injection H as ->. reflexivity.
      * exfalso. apply (F (Some o)). subst ms. apply in_or_app. right. left. reflexivity.
Qed.
Lemma build_some p m f : build smap fs p m = Some f <-> f = (remap_path smap p, m) /\ fs (remap_path smap p) <> None.
Proof.
  unfold build. cbv zeta. destruct (fs (remap_path smap p)) eqn:E; split.
  - intros H. injection H as <-. split; [reflexivity | discriminate].
  - intros [-> _]. reflexivity.
  - discriminate.
  - intros [_ H]. contradiction.
Qed.
(** Mapping twice is mapping once when targets and sources are separate. *)
Lemma remap_idempotent p : separate smap -> absolute_sources smap -> regular p -> remap_path smap (remap_path smap p) = remap_path smap p.
Proof.
  intros Sep Abs Reg.
  assert (U : forall s t r, In (s, t) smap -> s <> t -> relative r -> unmapped smap (t ++ r)).
  { intros s t r H N R. apply Forall_forall. intros [s' t'] H'. cbn [fst snd]. destruct (fpath_eqb s' t') eqn:E; [left; now apply fpath_eqb_eq|]. right. intros r' X. unfold under in X.
    apply (Sep s t s' t' r r'); auto. intros ->. rewrite (proj2 (fpath_eqb_eq t' t') eq_refl) in E. discriminate. }
  assert (G : forall m, (forall x, In x m -> In x smap) -> (remap_path m p = p /\ unmapped m p) \/ exists q, remap_path m p = q /\ unmapped smap q).
  { induction m as [|[s t] m IH]; intros Sub; [left; split; [reflexivity | constructor]|]. cbn [remap_path].
    assert (Sub' : forall x, In x m -> In x smap) by (intros x H; apply Sub; now right).
    destruct (fpath_eqb s t) eqn:E.
    { apply fpath_eqb_eq in E. destruct (IH Sub') as [[I1 I2] | I]; [left; split; [exact I1 | constructor; [left; exact E | exact I2]] | right; exact I]. }
    destruct (strip_prefix p s) as [r|] eqn:S.
    - right. apply strip_prefix_some in S. unfold under in S. assert (Hs : In (s, t) smap) by (apply Sub; left; reflexivity). destruct (Abs s t Hs) as [s0 Es].
      assert (R : relative r).
      { subst s. subst p. cbn [app regular] in Reg. apply Forall_app in Reg. destruct Reg as [_ Reg]. destruct r as [|[| | |] r]; cbn; auto; inversion Reg; auto. }
      rewrite (join_relative t r R). assert (N : s <> t) by (intros X; apply fpath_eqb_eq in X; congruence). exists (t ++ r). pose proof (U s t r Hs N R) as V. split; [|exact V].
      apply unmapped_path_unchanged. apply Forall_forall. intros x Hx. exact (proj1 (Forall_forall _ _) V x (Sub' x Hx)).
    - destruct (IH Sub') as [[I1 I2] | I]; [left; split; [exact I1 | constructor; [|exact I2]] | right; exact I].
      right. intros r X. apply strip_prefix_some in X. cbn [fst] in X. congruence. }
  destruct (G smap (fun x H => H)) as [[E _] | (q & E & V)]; [now rewrite !E|]. rewrite E. now apply unmapped_path_unchanged.
Qed.
(** C100: the file opened for a path is the one the path is mapped to. Missing: source maps with a target below a source
    (see the refutation). *)
Theorem opened_file_partial : forall t m f o, separate smap -> absolute_sources smap ->
  build smap fs (components t) m = Some f ->
  (load smap fs f = Ok o <-> exists s, fs (remap_path smap (components t)) = Some s /\ contents s m o).
Proof.
  intros t m f o Sep Abs H. apply build_some in H. destruct H as [-> _]. rewrite load_exact. cbn [fst snd]. rewrite remap_idempotent by (auto using components_regular). reflexivity.
Qed.

Theorem object_file_exact : forall o f, object_file smap fs o = Some f <-> available smap fs o f.
Proof.
  intros [p m] f. unfold object_file, available. cbn [fst snd]. destruct (utf8_text p) as [t|] eqn:P.
  - apply utf8_text_some in P. destruct P as [T ->]. split.
    + intros H. exists t. split; [exact T|]. split; [reflexivity|]. destruct m as [m|].
      * destruct (utf8_text m) as [n|] eqn:M; [|discriminate]. apply utf8_text_some in M. destruct M as [TM ->]. apply build_some in H. destruct H as [-> H]. cbn [fst snd]. split; [reflexivity|]. split; [exact H|]. exists n. auto.
      * apply build_some in H. destruct H as [-> H]. cbn [fst snd]. auto.
    + intros (t' & T' & E & F & N & M). assert (t' = t) by (rewrite <- (utf8_roundtrip t' T'), <- E, utf8_roundtrip; auto). subst t'. destruct f as [fp fm]. cbn [fst snd] in *. subst fp. destruct m as [m|].
      * destruct M as (n & TN & -> & ->). rewrite (proj2 (utf8_text_some (utf8 n) n)) by auto. now apply build_some.
      * subst fm. now apply build_some.
  - split; [discriminate|]. intros (t & T & -> & _). rewrite (proj2 (utf8_text_some (utf8 t) t)) in P by auto. discriminate.
Qed.

(** ** Symbols *)
Variable order : list nat -> list nat.
Hypothesis reorders : forall l, Permutation (order l) l.
Lemma symbol_tables_in o id e : (exists es, In (id, es) (symbol_tables smap fs order o) /\ In e es) <-> symbol_of smap fs o id e.
Proof.
  unfold symbol_of, symbol_tables, object_symbols, indices, group, object_id. split.
  - intros (es & H & He). apply in_app_or in H. destruct H as [H|H].
    + left. destruct (ob_debug o); [|destruct H]. destruct H as [H|[]]. injection H as <- <-. auto.
    + right. apply in_flat_map in H. destruct H as (i & Hi & H). destruct (nth_error (ob_objects o) i) as [x|] eqn:E; [|destruct H]. cbn [option_map] in H.
      destruct (object_file smap fs x) as [f|] eqn:F; [|destruct H]. destruct H as [H|[]]. injection H as <- <-. apply in_map_iff in He. destruct He as ([j e'] & <- & He). apply filter_In in He. destruct He as [He Q]. cbn [fst] in Q. apply Nat.eqb_eq in Q. subst j.
      exists i, x, f. split; [reflexivity|]. split; [exact E|]. split; [now apply object_file_exact | exact He].
  - intros [(-> & D & H) | (i & x & f & -> & E & A & H)].
    + exists (ob_symbols o). split; [|exact H]. apply in_or_app. left. rewrite D. left. reflexivity.
    + exists (map snd (filter (fun s => Nat.eqb (fst s) i) (ob_mapped o))). split.
      * apply in_or_app. right. apply in_flat_map. exists i. split.
        -- apply (Permutation_in _ (Permutation_sym (reorders _))). apply nodup_In. apply in_map_iff. exists (i, e). auto.
        -- rewrite E. cbn [option_map]. rewrite (proj2 (object_file_exact x f) A). left. reflexivity.
      * apply in_map_iff. exists (i, e). split; [reflexivity|]. apply filter_In. split; [exact H | apply Nat.eqb_refl].
Qed.
(** C99: the functions known for a binary are exactly those of its symbols. *)
Theorem symbols_exact : forall X o ev, In ev (history X (symbol_tables smap fs order o)) <->
  exists id e, symbol_of smap fs o id e /\ In ev (entry_event X id e).
Proof.
  intros X o ev. unfold history. rewrite in_flat_map. split.
  - intros ([id es] & H & Hev). cbn [fst snd] in Hev. apply in_flat_map in Hev. destruct Hev as (e & He & Hev). exists id, e. split; [|exact Hev]. apply symbol_tables_in. eauto.
  - intros (id & e & S & Hev). apply symbol_tables_in in S. destruct S as (es & H & He). exists (id, es). split; [exact H|]. apply in_flat_map. eauto.
Qed.
End Load.
Print Assumptions load_exact.
Print Assumptions opened_file_partial.
Print Assumptions object_file_exact.
Print Assumptions symbols_exact.

(** ** The debug files *)
Lemma wo_file : wo cmp_file.
Proof. apply wo_pair; [apply wo_path | apply wo_opt, wo_list, wo_N]. Qed.
Lemma cmp_file_eq a b : cmp_file a b = Eq <-> a = b.
Proof.
  split; [|intros ->; apply (wo_refl _ wo_file)]. destruct a as [p m], b as [q n]. unfold cmp_file, cmp_pair. cbn [fst snd].
  destruct (cmp_path p q) eqn:E; cbn [then_with]; try discriminate. apply cmp_path_eq in E. subst q. destruct m as [m|], n as [n|]; cbn [cmp_opt]; try discriminate; [|reflexivity]. intros H. apply cmp_str_eq in H. now subst.
Qed.
(** The object numbered [i] of the object map is in the file [g]. *)
Definition designates (smap : list (fpath * fpath)) (fs : fpath -> option stored) (objects : list (list Z * option (list Z))) (i : nat) (g : file) : Prop :=
  exists x, nth_error objects i = Some x /\ available smap fs x g.
Lemma add_objects_spec smap fs l : forall i m, osorted cmp_file m -> osorted cmp_file (add_objects smap fs i l m) /\ forall g,
  (exists j, designates smap fs l j g /\ (forall j', (j < j')%nat -> ~ designates smap fs l j' g) /\ oget cmp_file g (add_objects smap fs i l m) = Some (DebugFile (object_id (i + j)) g true)) \/
  ((forall j, ~ designates smap fs l j g) /\ oget cmp_file g (add_objects smap fs i l m) = oget cmp_file g m).
Proof.
  induction l as [|x l IH]; intros i m Sm.
  - split; [exact Sm|]. intros g. right. split; [|reflexivity]. intros [|j] (y & E & _); discriminate.
  - cbn [add_objects]. set (m' := match object_file smap fs x with Some f => oinsert cmp_file f (DebugFile (object_id i) f true) m | None => m end).
    assert (S' : osorted cmp_file m') by (unfold m'; destruct (object_file smap fs x); [apply oinsert_sorted; [apply wo_file | exact Sm] | exact Sm]).
    destruct (IH (S i) m' S') as [I1 I2]. split; [exact I1|]. intros g. change (match object_file smap fs x with Some f => _ | None => _ end) with m'. destruct (I2 g) as [(j & (y & E & A) & L & G) | [N G]].
    + left. exists (S j). split; [exists y; auto|]. split; [|rewrite G; do 3 f_equal; lia]. intros [|j'] H; [lia|]. intros D. apply (L j' ltac:(lia)). destruct D as (z & Ez & Az). exists z. auto.
    + destruct (object_file smap fs x) as [f|] eqn:F.
      * apply object_file_exact in F. rewrite (oget_insert cmp_file wo_file f (DebugFile (object_id i) f true) m g Sm : oget cmp_file g m' = _) in G. destruct (cmp_file g f) eqn:C.
        -- apply cmp_file_eq in C. subst g. left. exists 0%nat. split; [exists x; auto|]. split; [|rewrite G; do 3 f_equal; lia]. intros [|j'] H; [lia|]. intros (z & Ez & Az). apply (N j'). exists z. auto.
        -- right. split; [|exact G]. intros [|j] (y & E & A); [|apply (N j); exists y; auto]. cbn in E. injection E as <-.
           apply object_file_exact in F. apply object_file_exact in A. assert (g = f) by congruence. apply cmp_file_eq in H. congruence.
        -- right. split; [|exact G]. intros [|j] (y & E & A); [|apply (N j); exists y; auto]. cbn in E. injection E as <-.
           apply object_file_exact in F. apply object_file_exact in A. assert (g = f) by congruence. apply cmp_file_eq in H. congruence.
      * right. split; [|exact G]. intros [|j] (y & E & A); [|apply (N j); exists y; auto]. cbn in E. injection E as <-. apply object_file_exact in A. congruence.
Qed.
(** C99: the debug files are the binary and the files of its objects; of several objects in the same file and member, the
    last. They are listed in the order of paths and members. *)
Theorem debug_files_exact : forall smap fs p o, let files := files_of smap fs (p, None) o in
  osorted cmp_file files /\
  forall g d, In (g, d) files <->
    (exists i, designates smap fs (ob_objects o) i g /\ (forall j, (i < j)%nat -> ~ designates smap fs (ob_objects o) j g) /\ d = DebugFile (N.of_nat (S i)) g true) \/
    (g = (p, None) /\ (forall i, ~ designates smap fs (ob_objects o) i g) /\ d = DebugFile 0 g false).
Proof.
  intros smap fs p o. unfold files_of. cbn [fst]. set (m0 := [((p, None), DebugFile 0 (p, None) false)] : debug_files).
  assert (S0 : osorted cmp_file m0) by (split; [intros k v [] | exact I]).
  destruct (add_objects_spec smap fs (ob_objects o) 0 m0 S0) as [A B]. split; [exact A|]. intros g d.
  assert (In (g, d) (add_objects smap fs 0 (ob_objects o) m0) <-> oget cmp_file g (add_objects smap fs 0 (ob_objects o) m0) = Some d) as ->.
  { split; [intros H; now apply (oget_in cmp_file wo_file)|]. intros H. apply oget_some in H. destruct H as (k & E & H). apply cmp_file_eq in E. now subst k. }
  assert (M : oget cmp_file g m0 = Some d <-> g = (p, None) /\ d = DebugFile 0 g false).
  { unfold m0. cbn [oget]. destruct (cmp_file g (p, None)) eqn:C.
    - apply cmp_file_eq in C. subst g. split; [intros H; injection H as <-; auto | intros [_ ->]; reflexivity].
    - split; [discriminate|]. intros [H _]. apply cmp_file_eq in H. congruence.
    - split; [discriminate|]. intros [H _]. apply cmp_file_eq in H. congruence. }
  destruct (B g) as [(j & D & L & G) | [N G]]; rewrite G.
  - split.
    + intros H. injection H as <-. left. exists j. auto.
    + intros [(i & Di & Li & ->) | (_ & N & _)]; [|destruct (N j D)]. unfold object_id. assert (i = j) as ->; [|reflexivity].
      destruct (lt_eq_lt_dec i j) as [[H|H]|H]; [destruct (Li j H D) | exact H | destruct (L i H Di)].
  - rewrite M. split.
    + intros [-> ->]. right. auto.
    + intros [(i & D & _) | (-> & _ & ->)]; [destruct (N i D) | auto].
Qed.
Print Assumptions debug_files_exact.

(** ** Order of the objects *)
(** Functions whose name only one symbol has are found whatever the order of the hash map; missing for the others (see
    the refutation). *)
Theorem order_irrelevant_partial : forall smap fs X o order order' n,
  (forall l, Permutation (order l) l) -> (forall l, Permutation (order' l) l) -> parsed n ->
  (forall s s', In s (functions_of (history X (symbol_tables smap fs order o))) -> In s' (functions_of (history X (symbol_tables smap fs order o))) ->
     sym_name s = n -> sym_name s' = n -> s = s') ->
  get_function (index_symbol_map X (symbol_tables smap fs order o)) n = get_function (index_symbol_map X (symbol_tables smap fs order' o)) n.
Proof.
  intros smap fs X o order order' n P P' Pn U.
  assert (Same : forall s, In s (functions_of (history X (symbol_tables smap fs order o))) <-> In s (functions_of (history X (symbol_tables smap fs order' o)))).
  { intros s. unfold functions_of. rewrite !in_map_iff. split; intros (ev & E & H); exists ev; (split; [exact E|]); apply filter_In in H; destruct H as [H Q]; apply filter_In; (split; [|exact Q]); apply symbols_exact; auto; apply symbols_exact in H; auto. }
  pose proof (exact_lookup_is_last_indexed X (symbol_tables smap fs order o) n Pn) as A. pose proof (exact_lookup_is_last_indexed X (symbol_tables smap fs order' o) n Pn) as A'. cbv zeta in A, A'.
  assert (L : forall l s, is_last (fun s : symbol => sym_name s = n) l s -> In s l /\ sym_name s = n) by (intros l s (b & a & -> & H & _); split; [apply in_or_app; right; left; reflexivity | exact H]).
  destruct (get_function (index_symbol_map X (symbol_tables smap fs order o)) n) as [s|], (get_function (index_symbol_map X (symbol_tables smap fs order' o)) n) as [s'|].
  - f_equal. destruct (L _ _ A) as [I N], (L _ _ A') as [I' N']. apply U; auto. now apply Same.
  - exfalso. destruct (L _ _ A) as [I N]. apply (A' s); auto. now apply Same.
  - exfalso. destruct (L _ _ A') as [I N]. apply (A s'); auto. now apply Same.
  - reflexivity.
Qed.
Print Assumptions order_irrelevant_partial.

(** ** Examples and refutations *)
Definition pth (l : list string) : fpath := CRoot :: map (fun s => CName (st s)) l.
Definition ex_member : object := Object true [] [] [] [].
(** A binary without its own debug information, two objects of one archive, one missing object. *)
Definition ex_object : object :=
  Object false [mk_raw (Some (st "own::f")) 64 true]
    [(utf8 (st "/build/libx.a"), Some (utf8 (st "a.o"))); (utf8 (st "/gone/y.o"), None); (utf8 (st "/build/libx.a"), Some (utf8 (st "b.o")))]
    [(0%nat, mk_raw (Some (st "x::f")) 128 true); (1%nat, mk_raw (Some (st "y::g")) 256 true); (2%nat, mk_raw (Some (st "x::f")) 512 true)] [].
Definition ex_archive : stored := Stored None (Some [None; Some (utf8 (st "a.o"), Some ex_member); Some (utf8 (st "a.o"), None); Some (utf8 (st "b.o"), Some ex_object)]).
Definition ex_fs (p : fpath) : option stored :=
  if fpath_eqb p (pth ["bin"]%string) then Some (Stored (Some ex_object) None)
  else if fpath_eqb p (pth ["src"; "libx.a"]%string) then Some ex_archive else None.
Definition ex_smap : list (fpath * fpath) := [(pth ["build"]%string, pth ["src"]%string)].
Example ex_separate : separate ex_smap /\ absolute_sources ex_smap.
Proof.
  split.
  - intros s t s' t' r r' [H | []] [H' | []] _ _ _. injection H as <- <-. injection H' as <- <-. discriminate.
  - intros s t [H | []]. injection H as <- <-. now eexists.
Qed.
Example load_example :
  symbol_tables ex_smap ex_fs (fun l => l) ex_object = [(1%N, [mk_raw (Some (st "x::f")) 128 true]); (3%N, [mk_raw (Some (st "x::f")) 512 true])] /\
  map snd (files_of ex_smap ex_fs (pth ["bin"]%string, None) ex_object) =
    [DebugFile 0 (pth ["bin"]%string, None) false; DebugFile 1 (pth ["src"; "libx.a"]%string, Some (st "a.o")) true; DebugFile 3 (pth ["src"; "libx.a"]%string, Some (st "b.o")) true] /\
  load ex_smap ex_fs (pth ["src"; "libx.a"]%string, Some (st "a.o")) = Ok ex_member.
Proof. vm_compute. repeat split; reflexivity. Qed.
(** The target below the source: the file found for /a/x is /a/b/x, the file read is /a/b/b/x. *)
Definition nested_map : list (fpath * fpath) := [(pth ["a"]%string, pth ["a"; "b"]%string)].
Definition right_object : object := Object true [] [] [] [].
Definition wrong_object : object := Object false [] [] [] [].
Definition nested_fs (p : fpath) : option stored :=
  if fpath_eqb p (pth ["a"; "b"; "x"]%string) then Some (Stored (Some right_object) None)
  else if fpath_eqb p (pth ["a"; "b"; "b"; "x"]%string) then Some (Stored (Some wrong_object) None) else None.
Theorem opened_file_refuted : ~ (forall smap fs t m f o, build smap fs (components t) m = Some f ->
  (load smap fs f = Ok o <-> exists s, fs (remap_path smap (components t)) = Some s /\ contents s m o)).
Proof.
  intros H. specialize (H nested_map nested_fs (st "/a/x") None (pth ["a"; "b"; "x"]%string, None) right_object eq_refl).
  destruct H as [_ H]. assert (E : load nested_map nested_fs (pth ["a"; "b"; "x"]%string, None) = Ok wrong_object) by reflexivity. rewrite E in H.
  assert (C : exists s, nested_fs (remap_path nested_map (components (st "/a/x"))) = Some s /\ contents s None right_object).
  { exists (Stored (Some right_object) None). split; [reflexivity | now constructor]. }
  specialize (H C). discriminate.
Qed.
Print Assumptions opened_file_refuted.
(** Two objects with a function of the same name: the address depends on the order of the hash map. *)
Theorem order_irrelevant_refuted : ~ (forall smap fs X o order order' n,
  (forall l, Permutation (order l) l) -> (forall l, Permutation (order' l) l) -> parsed n ->
  get_function (index_symbol_map X (symbol_tables smap fs order o)) n = get_function (index_symbol_map X (symbol_tables smap fs order' o)) n).
Proof.
  intros H. specialize (H ex_smap ex_fs plain_externals ex_object (fun l => l) (@rev nat)). specialize (H (mk_sname (st "f") [] [st "x"] (st "x::f"))).
  assert (E : forall a b : Z, option_map sym_addr (get_function (index_symbol_map plain_externals (symbol_tables ex_smap ex_fs (fun l => l) ex_object)) (mk_sname (st "f") [] [st "x"] (st "x::f"))) = Some a ->
    option_map sym_addr (get_function (index_symbol_map plain_externals (symbol_tables ex_smap ex_fs (@rev nat) ex_object)) (mk_sname (st "f") [] [st "x"] (st "x::f"))) = Some b -> a = b).
  { intros a b A B. rewrite H in A; [congruence | reflexivity | intros l; apply Permutation_sym, Permutation_rev | exists (st "x::f"); reflexivity]. }
  specialize (E 512 128 eq_refl eq_refl). discriminate.
Qed.
Print Assumptions order_irrelevant_refuted.
