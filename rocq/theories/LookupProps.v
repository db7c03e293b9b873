(** C84: types looked up by name. *)
From Coq Require Import Ascii String List ZArith NArith Lia Bool.
From Verif Require Import Base NumText SymModel DieModel DieSpec ModuleModel ModuleSpec ModuleProps TypesModel TypesProps ParserModel ParserSpec ParserProofs
  SymSpec SymProofs ResolveModel ResolveSpec ResolveProps DiscoverModel TypeTextModel TypeTextSpec TypeNameSpec TypeNameProofs TypeNameProps LookupModel LookupSpec.
Import ListNotations.
Open Scope Z_scope.

(** ** The name is taken apart into module path and type name *)
Lemma split_first_none c s : ~ In c s -> split_first [c] s = None.
Proof.
  induction s as [|x s IH]; intros H; [reflexivity|]. cbn [split_first starts_with].
  destruct (N.eqb_spec c x) as [<- | D]; [exfalso; apply H; left; reflexivity|]. cbn [andb]. rewrite IH by (intros X; apply H; right; exact X). reflexivity.
Qed.
Lemma split_first_app c a r : ~ In c a -> split_first [c] (a ++ c :: r) = Some (a, r).
Proof.
  induction a as [|x a IH]; intros H; cbn [app split_first starts_with].
  - rewrite N.eqb_refl. cbn [andb]. destruct r; reflexivity.
  - destruct (N.eqb_spec c x) as [<- | D]; [exfalso; apply H; left; reflexivity|]. cbn [andb]. rewrite IH by (intros X; apply H; right; exact X). reflexivity.
Qed.
Lemma split_first_some c : forall s a b, split_first [c] s = Some (a, b) -> s = a ++ c :: b.
Proof.
  induction s as [|x s IH]; intros a b H; cbn [split_first starts_with] in H; [discriminate|]. destruct (N.eqb_spec c x) as [<- | D]; cbn [andb] in H.
  - destruct s; cbn in H; injection H as <- <-; reflexivity.
  - destruct (split_first [c] s) as [[p q]|] eqn:E; [|discriminate]. injection H as <- <-. cbn [app]. f_equal. apply IH. reflexivity.
Qed.
Lemma split_colons_nonempty s cur : split_colons s cur <> [].
Proof.
  revert cur. induction s as [|a s IH]; intros cur; [cbn; discriminate|]. destruct s as [|b r]; [cbn; discriminate|].
  cbn [split_colons]. destruct (N.eqb a 58 && N.eqb b 58); [discriminate | apply IH].
Qed.
Lemma join_split_colons : forall n s cur, (length s <= n)%nat -> join (st "::") (split_colons s cur) = cur ++ s.
Proof.
  induction n as [|n IH]; intros s cur L.
  - destruct s; [|cbn in L; lia]. cbn. rewrite app_nil_r. reflexivity.
  - destruct s as [|c [|d r]]; [cbn; rewrite app_nil_r; reflexivity | cbn; reflexivity |].
    change (split_colons (c :: d :: r) cur) with (if N.eqb c 58 && N.eqb d 58 then cur :: split_colons r [] else split_colons (d :: r) (cur ++ [c])).
    cbn [length] in L. destruct (N.eqb c 58 && N.eqb d 58) eqn:Q; [|rewrite IH by (cbn [length]; lia); rewrite <- app_assoc; reflexivity].
    apply andb_true_iff in Q. destruct Q as [Q1 Q2]. apply N.eqb_eq in Q1, Q2. subst c d.
    assert (R := IH r [] ltac:(lia)). destruct (split_colons r []) as [|x l] eqn:E.
    + exfalso. exact (split_colons_nonempty r [] E).
    + change (join (st "::") (cur :: x :: l)) with (cur ++ st "::" ++ join (st "::") (x :: l)). rewrite R. reflexivity.
Qed.
Lemma full_name_snoc path name : full_name path name = join (st "::") (path ++ [name]).
Proof. symmetry. unfold full_name. induction path as [|a path IH]; [reflexivity|]. cbn [app]. destruct path as [|b path]; [reflexivity|].
  cbn [app join] in *. rewrite IH, <- !app_assoc. reflexivity. Qed.
Lemma join_snoc_app path a r : join (st "::") (path ++ [a ++ r]) = join (st "::") (path ++ [a]) ++ r.
Proof.
  induction path as [|x [|y l] IH]; [reflexivity | cbn; rewrite <- !app_assoc; reflexivity |].
  change (join (st "::") ((x :: y :: l) ++ [a ++ r])) with (x ++ st "::" ++ join (st "::") ((y :: l) ++ [a ++ r])).
  change (join (st "::") ((x :: y :: l) ++ [a])) with (x ++ st "::" ++ join (st "::") ((y :: l) ++ [a])). rewrite IH, <- !app_assoc. reflexivity.
Qed.
(** Nothing of the name is lost: put together again, path and name are the text given. *)
Theorem name_split_lossless : forall s, full_name (fst (split_type_name s)) (snd (split_type_name s)) = s.
Proof.
  intros s. unfold split_type_name.
  assert (X : forall t rest, full_name (removelast (split_colons t [])) (last (split_colons t []) [] ++ rest) = t ++ rest).
  { intros t rest. rewrite full_name_snoc, join_snoc_app. f_equal. rewrite <- (join_split_colons (length t) t [] (le_n _)) at 3. apply f_equal. symmetry.
    apply app_removelast_last, split_colons_nonempty. }
  change (st "<") with [ch "<"]. destruct (split_first [ch "<"] s) as [[a b]|] eqn:E; cbn [fst snd].
  - apply split_first_some in E. rewrite X, E. reflexivity.
  - specialize (X s []). rewrite !app_nil_r in X. exact X.
Qed.
Print Assumptions name_split_lossless.
(** A qualified name is taken apart where its path ends, type arguments (which may contain [::]) staying with the name. *)
Theorem name_split : forall path name, type_path path name -> split_type_name (full_name path name) = (path, name).
Proof.
  intros path name (Hp & base & args & -> & Hb & Ha). rewrite full_name_snoc.
  assert (NC : forall s, no_sep s -> no_colon s) by (intros s [H _]; exact H).
  assert (SC : split_colons (join (st "::") (path ++ [base])) [] = path ++ [base]).
  { destruct path as [|x l]; cbn [app]; [rewrite split_colons_join; [reflexivity | apply NC; exact Hb | constructor]|]. inversion Hp as [|? ? H1 H2]; subst. rewrite split_colons_join; [reflexivity | apply NC; exact H1 |].
    apply Forall_app. split; [eapply Forall_impl; [exact NC | exact H2] | constructor; [apply NC; exact Hb | constructor]]. }
  assert (NL : ~ In (ch "<") (join (st "::") (path ++ [base]))).
  { clear - Hp Hb. assert (F : Forall no_sep (path ++ [base])) by (apply Forall_app; split; [exact Hp | constructor; [exact Hb | constructor]]).
    induction F as [|x l [_ H] F IH]; [intros []|]. destruct l as [|y l]; [exact H|]. change (join (st "::") (x :: y :: l)) with (x ++ st "::" ++ join (st "::") (y :: l)).
    intros C. apply in_app_or in C. destruct C as [C | C]; [exact (H C)|]. apply in_app_or in C. destruct C as [C | C]; [cbn in C; destruct C as [C | [C | []]]; discriminate | exact (IH C)]. }
  unfold split_type_name. change (st "<") with [ch "<"]. destruct Ha as [-> | [r ->]].
  - rewrite app_nil_r, split_first_none by exact NL. unfold str in *; rewrite SC, removelast_last, last_last; reflexivity.
  - rewrite join_snoc_app, split_first_app by exact NL. unfold str in *; rewrite SC, removelast_last, last_last; reflexivity.
Qed.
Print Assumptions name_split.

(** ** What is found *)
Lemma ns_dies_eq p d : ns_dies p d = (if is_namespace (d_entry d) then [(path_in p (d_entry d), d)] else []) ++ flat_map (ns_dies (path_in p (d_entry d))) (d_kids d).
Proof.
  destruct d as [e [l|]]; cbn [ns_dies d_entry d_kids]; [|cbn; reflexivity]. f_equal.
Qed.
Lemma paths_eq p d : paths p d = (d_entry d, path_in p (d_entry d)) :: flat_map (paths (path_in p (d_entry d))) (d_kids d).
Proof.
  destruct d as [e [l|]]; cbn [paths d_entry d_kids]; [|cbn; reflexivity]. f_equal.
Qed.
Lemma namespaces_app a b : namespaces (a ++ b) = namespaces a ++ namespaces b.
Proof. unfold namespaces. rewrite filter_app, map_app. reflexivity. Qed.
Lemma namespaces_flat {A} (g : A -> list (entry * list str)) l : namespaces (flat_map g l) = flat_map (fun x => namespaces (g x)) l.
Proof. induction l as [|x l IH]; [reflexivity|]. cbn [flat_map]. rewrite namespaces_app, IH. reflexivity. Qed.
Lemma ns_dies_namespaces d : forall p, namespaces (paths p d) = map (fun x => (fst x, h_of (snd x))) (ns_dies p d).
Proof.
  induction d as [e kids IH] using die_ind2. intros p. rewrite paths_eq, ns_dies_eq. cbn [d_entry].
  change (namespaces (?a :: ?l)) with (namespaces ([a] ++ l)). rewrite map_app.
  assert (K : namespaces (flat_map (paths (path_in p e)) (d_kids (Die e kids))) = map (fun x => (fst x, h_of (snd x))) (flat_map (ns_dies (path_in p e)) (d_kids (Die e kids)))).
  { destruct kids as [l|]; [|reflexivity]. cbn [d_kids]. specialize (IH l eq_refl). induction IH as [|x l H F IHF]; [reflexivity|]. cbn [flat_map]. rewrite namespaces_app, map_app, H, IHF. reflexivity. }
  rewrite namespaces_app, K. f_equal. unfold namespaces. cbn [filter fst]. destruct (is_namespace e); reflexivity.
Qed.
Lemma ns_dies_in d : forall p q x, In (q, x) (ns_dies p d) -> in_tree d x /\ q <> [].
Proof.
  induction d as [e kids IH] using die_ind2. intros p q x H. rewrite ns_dies_eq in H. apply in_app_or in H. destruct H as [H | H].
  - cbn [d_entry] in H. destruct (is_namespace e) eqn:N; [|destruct H]. destruct H as [H | []]. injection H as <- <-. split; [constructor|].
    unfold path_in. rewrite N. intros C. apply app_eq_nil in C. destruct C. discriminate.
  - destruct kids as [l|]; [|destruct H]. cbn [d_kids] in H. apply in_flat_map in H. destruct H as (c & Hc & H). specialize (IH l eq_refl). rewrite Forall_forall in IH.
    destruct (IH c Hc _ _ _ H) as [T N]. split; [|exact N]. econstructor; [|exact T]. exact Hc.
Qed.

(** A declared type as the search sees it: a type DIE whose name, read in its module, matches what is looked for. *)
Definition answers (path : list str) (target : layout) (d : die) : Prop :=
  is_type_die d /\ exists n l, named d n /\ typename_parse path n = Ok l /\ matching_type l target = true.
(** Names the type-name parser can digest: it may reject them, but does not panic. *)
Definition digestible (path : list str) (d : die) : Prop :=
  forall n, is_type_die d -> named d n -> (exists l, typename_parse path n = Ok l) \/ exists m, typename_parse path n = Err m.
Lemma type_tag_spec t : type_tag t = true <-> In t [Tstructure; Tenumeration; Tarray; Tpointer; Tbase].
Proof. split; [destruct t; cbn; intros H; try discriminate; tauto | cbn; intros H; repeat destruct H as [<- | H]; try reflexivity; destruct H]. Qed.

Lemma find_child_spec path target v l : good_env v -> (forall d, In d l -> in_tree (en_unit v) d) -> Forall (digestible path) l ->
  match find_child path target v (map h_of l) with
  | Ok (Some h) => exists d, h_of d = h /\ first_of (answers path target) l d
  | Ok None => Forall (fun d => ~ answers path target d) l
  | _ => False
  end.
Proof.
  intros G T D. induction l as [|d l IH]; cbn [map find_child]; [constructor|]. inversion D as [|? ? D1 D2]; subst. assert (ND : node v (h_of d) d) by (split; [apply T; left; reflexivity | reflexivity]).
  specialize (IH (fun x Hx => T x (or_intror Hx)) D2). rewrite (tag_at v (h_of d) d G ND).
  assert (SKIP : ~ answers path target d -> match find_child path target v (map h_of l) with
    | Ok (Some h) => exists x, h_of x = h /\ first_of (answers path target) (d :: l) x | Ok None => Forall (fun x => ~ answers path target x) (d :: l) | _ => False end).
  { intros N. destruct (find_child path target v (map h_of l)) as [[h|]| | |]; try exact IH; [|constructor; assumption].
    destruct IH as (x & E & l1 & l2 & -> & A & F). exists x. split; [exact E|]. exists (d :: l1), l2. split; [reflexivity|]. split; [exact A | constructor; assumption]. }
  destruct (type_tag (e_tag (d_entry d))) eqn:TT; [|apply SKIP; intros [A _]; unfold is_type_die in A; apply type_tag_spec in A; congruence].
  apply type_tag_spec in TT. fold (is_type_die d) in TT.
  destruct (name_attr v (h_of d)) as [n| | |] eqn:NA; try (apply SKIP; intros (_ & n & ? & N & _); apply (proj2 (name_at v (h_of d) d G ND n)) in N; congruence).
  pose proof (proj1 (name_at v (h_of d) d G ND n) NA) as N. destruct (D1 n TT N) as [[p P] | [m P]]; rewrite P.
  - destruct (matching_type p target) eqn:M.
    + exists d. split; [reflexivity|]. exists [], l. split; [reflexivity|]. split; [|constructor]. split; [exact TT|]. exists n, p. auto.
    + apply SKIP. intros (_ & n' & p' & N' & P' & M'). apply (proj2 (name_at v (h_of d) d G ND n')) in N'. assert (n' = n) by congruence. subst. congruence.
  - apply SKIP. intros (_ & n' & p' & N' & P' & M'). apply (proj2 (name_at v (h_of d) d G ND n')) in N'. assert (n' = n) by congruence. subst. congruence.
Qed.

Lemma first_of_app_l {A} (P : A -> Prop) l m x : first_of P l x -> first_of P (l ++ m) x.
Proof. intros (l1 & l2 & -> & H & F). exists l1, (l2 ++ m). rewrite <- app_assoc. auto. Qed.
Lemma first_of_app_r {A} (P : A -> Prop) l m x : Forall (fun y => ~ P y) l -> first_of P m x -> first_of P (l ++ m) x.
Proof. intros N (l1 & l2 & -> & H & F). exists (l ++ l1), l2. rewrite <- app_assoc. split; [reflexivity|]. split; [exact H | apply Forall_app; auto]. Qed.
(** The DIE found and the unit it is looked up in. *)
Definition found_in (f : dfile) (units : list die) (v : env) (h : Z) (d : die) : Prop :=
  h_of d = h /\ exists u, In u units /\ in_tree u d /\ v = fl_env f (h_of u).
Lemma find_entry_spec path target f units l : file_of f units -> (forall x, In x l -> exists u, In u units /\ in_tree u x) -> Forall (digestible path) (flat_map d_kids l) ->
  match find_entry path target f (map h_of l) with
  | Ok (Some (v, h)) => exists d, found_in f units v h d /\ first_of (answers path target) (flat_map d_kids l) d
  | Ok None => Forall (fun d => ~ answers path target d) (flat_map d_kids l)
  | _ => False
  end.
Proof.
  intros [_ FO] T D. induction l as [|x l IH]; cbn [map find_entry flat_map]; [constructor|]. cbn [flat_map] in D. apply Forall_app in D. destruct D as [D1 D2].
  specialize (IH (fun y Hy => T y (or_intror Hy)) D2). destruct (T x (or_introl eq_refl)) as (u & Hu & Tx). destruct (FO u Hu) as (EU & G & SAME). rewrite (SAME x Tx). set (v := fl_env f (h_of u)) in *.
  assert (ND : node v (h_of x) x) by (split; [rewrite EU; exact Tx | reflexivity]). rewrite (children_at v (h_of x) x G ND).
  assert (TK : forall c, In c (d_kids x) -> in_tree u c) by (intros c Hc; apply (in_tree_trans u x c Tx); econstructor; [exact Hc | constructor]).
  pose proof (find_child_spec path target v (d_kids x) G (fun c Hc => eq_ind_r (fun t => in_tree t c) (TK c Hc) EU) D1) as FC.
  destruct (find_child path target v (map h_of (d_kids x))) as [[h|]| | |]; cbn [bind]; [| | destruct FC ..].
  - destruct FC as (d & E & F). exists d. split; [|apply first_of_app_l; exact F]. split; [exact E|]. exists u. split; [exact Hu|]. split; [|reflexivity].
    apply TK. apply first_of_In in F. apply F.
  - destruct (find_entry path target f (map h_of l)) as [[[v' h]|]| | |]; try exact IH.
    + destruct IH as (d & FI & F). exists d. split; [exact FI | apply first_of_app_r; assumption].
    + apply Forall_app. split; assumption.
Qed.
Lemma members_eq path units : module_members path units = flat_map d_kids (map snd (filter (fun x => if list_eq_dec str_eq_dec (fst x) path then true else false)
  (flat_map (fun d => if is_rust_cu (d_entry d) then ns_dies [] d else []) units))).
Proof.
  unfold module_members. induction units as [|d units IH]; [reflexivity|]. cbn [flat_map]. rewrite filter_app, map_app, flat_map_app, <- IH. f_equal.
  destruct (is_rust_cu (d_entry d)); [|reflexivity]. induction (ns_dies [] d) as [|[q x] l IHl]; [reflexivity|]. cbn [flat_map filter fst snd].
  destruct (list_eq_dec str_eq_dec q path); cbn [map flat_map snd]; rewrite IHl; reflexivity.
Qed.
Lemma find_type_spec path target f units : file_of f units -> Forall (digestible path) (module_members path units) ->
  match find_type_by_name path target f with
  | Ok (Some (v, h)) => exists d, found_in f units v h d /\ first_of (answers path target) (module_members path units) d
  | Ok None => Forall (fun d => ~ answers path target d) (module_members path units)
  | _ => False
  end.
Proof.
  intros FO D. pose proof FO as [(ulen & ps & n & ranges & E & G & MI) _]. rewrite <- E in G. destruct (module_found_by_path_partial ulen ps G) as (n0 & r' & mods & MI' & MP).
  assert (mods = fl_modules f). { specialize (MI (max n n0) ltac:(lia)). specialize (MI' (max n n0) ltac:(lia)). congruence. } subst mods.
  specialize (MP path). cbv zeta in MP. rewrite E in MP.
  assert (NS : namespaces (flat_map (fun d => if is_rust_cu (d_entry d) then paths [] d else []) units) =
    map (fun x => (fst x, h_of (snd x))) (flat_map (fun d => if is_rust_cu (d_entry d) then ns_dies [] d else []) units)).
  { rewrite namespaces_flat. clear. induction units as [|d l IH]; [reflexivity|]. cbn [flat_map]. rewrite map_app, IH. f_equal. destruct (is_rust_cu (d_entry d)); [apply ns_dies_namespaces | reflexivity]. }
  rewrite NS in MP. destruct MP as [MP1 MP2]. rewrite members_eq in D |- *. unfold find_type_by_name.
  set (all := flat_map (fun d => if is_rust_cu (d_entry d) then ns_dies [] d else []) units) in *.
  set (sel := filter (fun x => if list_eq_dec str_eq_dec (fst x) path then true else false) all) in *.
  assert (FM : map snd (filter (fun x : list str * Z => if list_eq_dec str_eq_dec (fst x) path then true else false) (map (fun x => (fst x, h_of (snd x))) all)) = map h_of (map snd sel)).
  { unfold sel. clear. induction all as [|[q x] l IH]; [reflexivity|]. cbn [map filter fst snd]. destruct (list_eq_dec str_eq_dec q path); cbn [map snd]; rewrite IH; reflexivity. }
  destruct (find_by_path (fl_modules f) path) as [m|] eqn:FP.
  - rewrite (MP1 m eq_refl), FM. apply find_entry_spec; [exact FO | | exact D]. intros x Hx. apply in_map_iff in Hx. destruct Hx as ([q y] & EY & Hx). cbn [snd] in EY. subst y.
    apply filter_In in Hx. destruct Hx as [Hx _]. apply in_flat_map in Hx. destruct Hx as (u & Hu & Hx). exists u. split; [exact Hu|]. destruct (is_rust_cu (d_entry u)); [|destruct Hx].
    apply (ns_dies_in u [] q x Hx).
  - destruct (proj1 MP2 eq_refl) as [_ NO]. assert (sel = []) as ->; [|constructor].
    destruct sel as [|[q x] l] eqn:SE; [reflexivity|]. exfalso. assert (In (q, x) (filter (fun x => if list_eq_dec str_eq_dec (fst x) path then true else false) all)) as H by (unfold sel in SE; rewrite SE; left; reflexivity).
    apply filter_In in H. destruct H as [H1 H2]. cbn [fst] in H2. destruct (list_eq_dec str_eq_dec q path) as [-> |]; [|discriminate]. apply (NO path).
    + rewrite map_map. apply (in_map (fun x => fst (fst x, h_of (snd x))) all (path, x) H1).
    + exists []. rewrite app_nil_r. reflexivity.
Qed.
Lemma find_in_files_spec path target files units : Forall2 file_of files units -> Forall (digestible path) (flat_map (module_members path) units) ->
  match find_in_files path target files with
  | Ok (Some (v, h)) => exists f us d, In (f, us) (combine files units) /\ found_in f us v h d /\ first_of (answers path target) (flat_map (module_members path) units) d
  | Ok None => Forall (fun d => ~ answers path target d) (flat_map (module_members path) units)
  | _ => False
  end.
Proof.
  intros F2 D. induction F2 as [|f us files units FO F2 IH]; cbn [find_in_files flat_map combine]; [constructor|]. cbn [flat_map] in D. apply Forall_app in D. destruct D as [D1 D2].
  specialize (IH D2). pose proof (find_type_spec path target f us FO D1) as FT. destruct (find_type_by_name path target f) as [[[v h]|]| | |]; cbn [bind]; [| | destruct FT ..].
  - destruct FT as (d & FI & F). exists f, us, d. split; [left; reflexivity|]. split; [exact FI | apply first_of_app_l; exact F].
  - destruct (find_in_files path target files) as [[[v h]|]| | |]; try exact IH.
    + destruct IH as (f' & us' & d & HI & FI & F). exists f', us', d. split; [right; exact HI|]. split; [exact FI | apply first_of_app_r; assumption].
    + apply Forall_app. split; assumption.
Qed.
(** C84. Looking a type up by its qualified name: the first type DIE, over the files and in file order, that stands
    directly in a namespace of exactly that path and whose name, read in that module, matches the name asked for; its
    description is that DIE's. None, when there is no such DIE. *)
Theorem type_by_name : forall k files units path name target,
  Forall2 file_of files units -> type_path path name -> typename_parse path name = Ok target ->
  Forall (digestible path) (flat_map (module_members path) units) ->
  (Forall (fun d => ~ answers path target d) (flat_map (module_members path) units) /\ lookup_type_by_name k files (full_name path name) = Ok None) \/
  exists f us u d, In (f, us) (combine files units) /\ In u us /\ in_tree u d /\
    first_of (answers path target) (flat_map (module_members path) units) d /\
    lookup_type_by_name k files (full_name path name) = rmap Some (resolve_type k (fl_env f (h_of u)) (h_of d)).
Proof.
  intros k files units path name target F2 TP PT D. unfold lookup_type_by_name. rewrite name_split by exact TP. rewrite PT. cbn [bind].
  pose proof (find_in_files_spec path target files units F2 D) as FF. destruct (find_in_files path target files) as [[[v h]|]| | |]; cbn [bind]; [| | destruct FF ..].
  - destruct FF as (f & us & d & HI & (E & u & Hu & T & EV) & F). right. exists f, us, u, d. rewrite <- E, <- EV. auto.
  - left. auto.
Qed.
Print Assumptions type_by_name.

(** ** Consequences *)
(** A type declared in the module under the very name asked for is never missed (another that matches may come first). *)
Theorem declared_type_found : forall k files units path name target d,
  Forall2 file_of files units -> type_path path name -> typename_parse path name = Ok target ->
  Forall (digestible path) (flat_map (module_members path) units) ->
  In d (flat_map (module_members path) units) -> is_type_die d -> named d name ->
  exists f us u d', In (f, us) (combine files units) /\ In u us /\ in_tree u d' /\
    first_of (answers path target) (flat_map (module_members path) units) d' /\
    lookup_type_by_name k files (full_name path name) = rmap Some (resolve_type k (fl_env f (h_of u)) (h_of d')).
Proof.
  intros k files units path name target d F2 TP PT D Hd TD N. destruct (type_by_name k files units path name target F2 TP PT D) as [[NO _] | YES]; [|exact YES].
  exfalso. rewrite Forall_forall in NO. apply (NO d Hd). split; [exact TD|]. exists name, target. split; [exact N|]. split; [exact PT | apply type_matching_reflexive].
Qed.
Print Assumptions declared_type_found.
(** Names without a path are never found: no type is declared in a namespace of the empty path. *)
Lemma no_root_members units : module_members [] units = [].
Proof.
  unfold module_members. induction units as [|d units IH]; [reflexivity|]. cbn [flat_map]. rewrite IH, app_nil_r. destruct (is_rust_cu (d_entry d)); [|reflexivity].
  pose proof (fun q x => ns_dies_in d [] q x) as H. induction (ns_dies [] d) as [|[q x] l IHl]; [reflexivity|]. cbn [flat_map fst snd].
  destruct (list_eq_dec str_eq_dec q []) as [-> |]; [exfalso; apply (H [] x); [left; reflexivity | reflexivity]|]. apply IHl. intros q' x' H'. apply H. right. exact H'.
Qed.
Theorem unqualified_name_not_found : forall k files units name target, Forall2 file_of files units -> type_path [] name -> typename_parse [] name = Ok target ->
  lookup_type_by_name k files name = Ok None.
Proof.
  intros k files units name target F2 TP PT. assert (E : flat_map (module_members []) units = []) by (clear; induction units as [|u l IH]; [reflexivity|]; cbn [flat_map]; rewrite no_root_members, IH; reflexivity).
  destruct (type_by_name k files units [] name target F2 TP PT) as [[_ H] | (f & us & u & d & _ & _ & _ & F & _)]; [rewrite E; constructor | exact H |].
  rewrite E in F. apply first_of_In in F. destruct F as [[] _].
Qed.
Print Assumptions unqualified_name_not_found.

Lemma ident_no_sep id : ident id -> no_sep id.
Proof.
  intros (c0 & w & _ & _ & W0). rewrite forallb_forall in W0. assert (W : forall c, In c id -> is_word c = true) by exact W0.
  split; intros H; apply W in H; discriminate.
Qed.
Lemma user_type_path path id args : Forall name_ok path -> name_ok id -> type_path path (id ++ args_text args).
Proof.
  intros Hp [Hi _]. split; [eapply Forall_impl; [|exact Hp]; intros x [H _]; apply ident_no_sep; exact H|]. exists id, (args_text args).
  split; [reflexivity|]. split; [apply ident_no_sep; exact Hi|]. destruct args; [left; reflexivity | right; eexists; reflexivity].
Qed.
(** The names of the types of a user module: an identifier, possibly with type arguments, or something the type-name
    parser rejects, such as [{closure_env#0}]. *)
Definition ordinary_member (path : list str) (d : die) : Prop :=
  forall n, is_type_die d -> named d n -> (exists id args, n = id ++ args_text args /\ name_ok id /\ Forall legible args) \/ exists m, typename_parse path n = Err m.
(** In a module outside the standard library the type found is the one named exactly as asked, and it is always found. *)
Theorem user_type_found_by_name : forall k files units root path id args, Forall2 file_of files units ->
  ~ In root (map st ["std"; "core"; "alloc"; "hashbrown"]%string) -> Forall name_ok (root :: path) -> name_ok id -> Forall legible args ->
  Forall (ordinary_member (root :: path)) (flat_map (module_members (root :: path)) units) ->
  let name := id ++ args_text args in
  let members := flat_map (module_members (root :: path)) units in
  (Forall (fun d => ~ (is_type_die d /\ named d name)) members /\ lookup_type_by_name k files (full_name (root :: path) name) = Ok None) \/
  exists f us u d, In (f, us) (combine files units) /\ In u us /\ in_tree u d /\ first_of (fun d => is_type_die d /\ named d name) members d /\
    lookup_type_by_name k files (full_name (root :: path) name) = rmap Some (resolve_type k (fl_env f (h_of u)) (h_of d)).
Proof.
  intros k files units root path id args F2 R Hp Hi Ha OM name members.
  pose proof (user_type_by_path root path id args R Hp Hi Ha) as PT.
  assert (NI : forall d n n', named d n -> named d n' -> n = n') by (intros d n n' H H'; pose proof (has_attr_inj _ _ _ _ H H') as E; injection E as ->; reflexivity).
  assert (AN : forall d, In d members -> (answers (root :: path) (LAlias name) d <-> is_type_die d /\ named d name)).
  { intros d Hd. unfold members in Hd. rewrite Forall_forall in OM. specialize (OM d Hd). split.
    - intros (T & n & l & N & P & M). split; [exact T|]. destruct (OM n T N) as [(i & a & E & Hi' & Ha') | [m P']]; [|congruence]. subst n.
      rewrite (user_type_by_path root path i a R Hp Hi' Ha') in P. injection P as <-. cbn [matching_type] in M. apply str_eqb_eq in M. rewrite <- M. exact N.
    - intros [T N]. split; [exact T|]. exists name, (LAlias name). split; [exact N|]. split; [exact PT | apply str_eqb_refl]. }
  assert (DG : Forall (digestible (root :: path)) members).
  { apply Forall_forall. intros d Hd n T N. unfold members in Hd. rewrite Forall_forall in OM. destruct (OM d Hd n T N) as [(i & a & -> & Hi' & Ha') | E]; [left; eexists; apply user_type_by_path; assumption | right; exact E]. }
  destruct (type_by_name k files units (root :: path) name (LAlias name) F2 (user_type_path _ _ _ Hp Hi) PT DG) as [[NO E] | (f & us & u & d & H1 & H2 & H3 & (l1 & l2 & EQ & A & F) & E)].
  - left. split; [|exact E]. fold members in NO. apply Forall_forall. intros d Hd C. rewrite Forall_forall in NO. apply (NO d Hd). apply AN; assumption.
  - right. exists f, us, u, d. split; [exact H1|]. split; [exact H2|]. split; [exact H3|]. split; [|exact E]. fold members in EQ. exists l1, l2. split; [exact EQ|].
    split; [apply AN; [rewrite EQ; apply in_or_app; right; left; reflexivity | exact A]|]. apply Forall_forall. intros x Hx C. rewrite Forall_forall in F. apply (F x Hx). apply AN; [rewrite EQ; apply in_or_app; left; exact Hx | exact C].
Qed.
Print Assumptions user_type_found_by_name.
(** Standard containers and pointers: parameters beyond the element type (the allocator) do not matter. *)
Theorem allocator_not_needed : forall root path id a extra extra', In root (map st ["std"; "core"; "alloc"; "hashbrown"]%string) -> Forall name_ok path ->
  In id (map st ["Vec"; "Box"; "Rc"; "Arc"]%string) -> legible a -> Forall legible extra -> Forall legible extra' ->
  exists l, typename_parse (root :: path) (id ++ args_text (a :: extra)) = Ok l /\ typename_parse (root :: path) (id ++ args_text (a :: extra')) = Ok l.
Proof.
  intros root path id a e e' Hr Hp Hi Ha He He'. assert (NI : name_ok id) by (cbn in Hi; repeat destruct Hi as [<- | Hi]; try destruct Hi; (split; [lit_ident | lit_kw])).
  assert (S : exists l, forall e, std_named id (map as_layout (a :: e)) = Some l) by (cbn in Hi; repeat destruct Hi as [<- | Hi]; try destruct Hi; (eexists; intros e0; cbn [map]; unfold nth_def; cbn; reflexivity)).
  destruct S as [l S]. exists l. split; apply std_type_by_path; auto.
Qed.
Print Assumptions allocator_not_needed.

(** ** Standard types *)
Definition std_head (l : layout) : option str :=
  match l with
  | LString _ _ _ _ => Some (st "String") | LVec _ _ _ _ => Some (st "Vec") | LOption _ _ _ _ _ => Some (st "Option") | LResult _ _ _ _ _ _ _ => Some (st "Result")
  | LMap _ _ m => Some (mapv_name m) | LSmartPtr _ _ _ v => Some (spv_name v) | _ => None
  end.
Lemma std_named_head id g l : std_named id g = Some l -> std_head l = Some id.
Proof.
  unfold std_named, smart_named. intros H.
  repeat match type of H with
  | (if str_eqb ?a ?b then _ else _) = _ => let E := fresh in destruct (str_eqb a b) eqn:E; [apply str_eqb_eq in E; subst; injection H as <-; reflexivity|]
  end.
  repeat match type of H with
  | match (if str_eqb ?a ?b then _ else _) with _ => _ end = _ => let E := fresh in destruct (str_eqb a b) eqn:E; [apply str_eqb_eq in E; subst; injection H as <-; reflexivity|]
  end. discriminate.
Qed.
Lemma head_matching a b x y : std_head a = Some x -> std_head b = Some y -> matching_type a b = true -> x = y.
Proof.
  intros HA HB M. destruct a; cbn [std_head] in HA; try discriminate; destruct b; cbn [std_head] in HB; try discriminate; injection HA as <-; injection HB as <-; cbn [matching_type] in M; try discriminate; try reflexivity.
  - apply andb_true_iff in M. destruct M as [M _]. repeat match goal with v : spv |- _ => destruct v end; first [discriminate | reflexivity].
  - apply andb_true_iff in M. destruct M as [M _]. apply andb_true_iff in M. destruct M as [M _]. repeat match goal with v : mapv |- _ => destruct v end; first [discriminate | reflexivity].
Qed.
Lemma head_display l x : std_head l = Some x -> exists r, display_name l = x ++ r /\ (r = [] \/ exists r', r = ch "<" :: r').
Proof.
  intros H. destruct l; cbn [std_head] in H; try discriminate; injection H as <-; cbn [display_name].
  1-2: eexists; split; [reflexivity | right; eexists; reflexivity].
  all: first [exists []; split; [reflexivity | left; reflexivity] | match goal with |- exists r, st (String ?c ?s) ++ ?z = _ ++ r /\ _ => exists (ch "<" :: z) end; split; [reflexivity | right; eexists; reflexivity]].
Qed.
Lemma before_angle (a b r s : str) : ~ In (ch "<") a -> ~ In (ch "<") b -> (r = [] \/ exists r', r = ch "<" :: r') -> (s = [] \/ exists s', s = ch "<" :: s') ->
  a ++ r = b ++ s -> a = b.
Proof.
  revert b. induction a as [|x a IH]; intros [|y b] Ha Hb Hr Hs E; [reflexivity | | |].
  - cbn in E. destruct Hr as [-> | [r' ->]]; [discriminate|]. injection E as E _. exfalso. apply Hb. left. symmetry. exact E.
  - cbn in E. destruct Hs as [-> | [s' ->]]; [discriminate|]. injection E as E _. exfalso. apply Ha. left. exact E.
  - cbn in E. injection E as -> E. f_equal. apply IH; try assumption; intros H; [apply Ha | apply Hb]; right; exact H.
Qed.
(** A standard type is looked up by its name and its type arguments, the latter compared as [matching_type] does. *)
Definition instance_of (id : str) (target : layout) (d : die) : Prop :=
  is_type_die d /\ exists args l, named d (id ++ args_text args) /\ Forall legible args /\ std_named id (map as_layout args) = Some l /\ matching_type l target = true.
Theorem std_type_found_by_name_partial : forall k files units root path id args target, Forall2 file_of files units ->
  In root (map st ["std"; "core"; "alloc"; "hashbrown"]%string) -> Forall name_ok path -> name_ok id -> Forall legible args ->
  std_named id (map as_layout args) = Some target ->
  Forall (ordinary_member (root :: path)) (flat_map (module_members (root :: path)) units) ->
  let name := id ++ args_text args in
  let members := flat_map (module_members (root :: path)) units in
  (Forall (fun d => ~ instance_of id target d) members /\ lookup_type_by_name k files (full_name (root :: path) name) = Ok None) \/
  exists f us u d, In (f, us) (combine files units) /\ In u us /\ in_tree u d /\ first_of (instance_of id target) members d /\
    lookup_type_by_name k files (full_name (root :: path) name) = rmap Some (resolve_type k (fl_env f (h_of u)) (h_of d)).
Proof.
  intros k files units root path id args target F2 R Hp Hi Ha SN OM name members.
  assert (HR : name_ok root) by (cbn in R; repeat destruct R as [<- | R]; try destruct R; (split; [lit_ident | lit_kw])).
  assert (Hrp : Forall name_ok (root :: path)) by (constructor; assumption).
  pose proof (std_type_by_path root path id args target R Hp Hi Ha SN) as PT.
  assert (AL : forall i a, name_ok i -> Forall legible a -> std_named i (map as_layout a) = None -> typename_parse (root :: path) (i ++ args_text a) = Ok (LAlias (i ++ args_text a))).
  { intros i a Ni La E. rewrite qualified_parses by assumption. rewrite E. destruct (_ || _); reflexivity. }
  assert (AN : forall d, In d members -> (answers (root :: path) target d <-> instance_of id target d)).
  { intros d Hd. unfold members in Hd. rewrite Forall_forall in OM. specialize (OM d Hd). split.
    - intros (T & n & l & N & P & M). split; [exact T|]. destruct (OM n T N) as [(i & a & E & Hi' & Ha') | [m P']]; [|congruence]. subst n.
      destruct (std_named i (map as_layout a)) as [l'|] eqn:SN'.
      + rewrite (std_type_by_path root path i a l' R Hp Hi' Ha' SN') in P. injection P as <-.
        assert (i = id) as -> by (eapply head_matching; [eapply std_named_head; exact SN' | eapply std_named_head; exact SN | exact M]).
        exists a, l'. auto.
      + exfalso. rewrite (AL i a Hi' Ha' SN') in P. injection P as <-. destruct (head_display target id (std_named_head _ _ _ SN)) as (r & DE & Hr).
        assert (E : i ++ args_text a = id ++ r). { rewrite <- DE. pose proof (std_named_head _ _ _ SN) as SH. destruct target; cbn [std_head] in SH; try discriminate; cbn [matching_type] in M; apply str_eqb_eq in M; exact M. }
        assert (i = id) as ->.
        { apply (before_angle i id (args_text a) r); [apply (proj2 (ident_no_sep i (proj1 Hi'))) | apply (proj2 (ident_no_sep id (proj1 Hi))) | destruct a; [left; reflexivity | right; eexists; reflexivity] | exact Hr | exact E]. }
        clear - SN SN'. unfold std_named in *. repeat match type of SN' with (if ?c then _ else _) = None => destruct c; [discriminate|] end. destruct (smart_named id); discriminate.
    - intros (T & a & l & N & La & S & M). split; [exact T|]. exists (id ++ args_text a), l. split; [exact N|]. split; [apply std_type_by_path; assumption | exact M]. }
  assert (DG : Forall (digestible (root :: path)) members).
  { apply Forall_forall. intros d Hd n T N. unfold members in Hd. rewrite Forall_forall in OM. destruct (OM d Hd n T N) as [(i & a & -> & Hi' & Ha') | E]; [|right; exact E]. left.
    destruct (std_named i (map as_layout a)) as [l'|] eqn:SN'; eexists; [eapply std_type_by_path; eassumption | apply AL; assumption]. }
  destruct (type_by_name k files units (root :: path) name target F2 (user_type_path _ _ _ Hrp Hi) PT DG) as [[NO E] | (f & us & u & d & H1 & H2 & H3 & (l1 & l2 & EQ & A & F) & E)].
  - left. split; [|exact E]. fold members in NO. apply Forall_forall. intros d Hd C. rewrite Forall_forall in NO. apply (NO d Hd). apply AN; assumption.
  - right. exists f, us, u, d. split; [exact H1|]. split; [exact H2|]. split; [exact H3|]. split; [|exact E]. fold members in EQ. exists l1, l2. split; [exact EQ|].
    split; [apply AN; [rewrite EQ; apply in_or_app; right; left; reflexivity | exact A]|]. apply Forall_forall. intros x Hx C. rewrite Forall_forall in F. apply (F x Hx). apply AN; [rewrite EQ; apply in_or_app; left; exact Hx | exact C].
Qed.
Print Assumptions std_type_found_by_name_partial.
