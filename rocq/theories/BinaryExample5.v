(** The binary of BinaryExample meets the hypotheses of C111 and C112; a binary whose report is wrong for a function. *)
From Coq Require Import Ascii String List ZArith NArith Lia Bool.
From Verif Require Import Base NumText OMap SymModel SymSpec SymProofs SymProps PathModel LinesModel DieModel DieSpec ModuleModel
  TypesModel ParserModel ParserSpec ParserProofs ResolveModel ResolveSpec ResolveProps ResolveExample FnModel FnSpec FnProps SourceModel LoadModel LoadProps
  DiscoverModel DiscoverSpec DiscoverFns DiscoverReport BinaryModel BinarySpec BinaryProofs BinaryProps BinaryTypes BinaryDiscover BinaryReport BinaryExample BinaryExample2.
Import ListNotations.
Open Scope Z_scope.

Definition n_var : var := Var (Some (st "n")) u32t (here 3) 51.
Definition total_sig : signature := Sig (st "app::total") [n_var] None None.
Lemma no_attr d a : get_attr (d_entry d) a = None -> forall x, ~ has_attr d a x.
Proof. intros E x H. apply get_attr_spec in H. congruence. Qed.
Example total_declares : declares app_env (decl_path app_map app_unit) total total_sig.
Proof.
  split; [apply ex_attr; reflexivity|]. split; [intros ht; apply no_attr; reflexivity|]. split; [apply Forall2_cons; [apply app_var | apply Forall2_nil]|].
  intros kind. split; [discriminate|]. intros (x & r & E & [H|[H|H]] & _); injection E as <- <-; discriminate H.
Qed.
Example total_at : declared_at app_history app_binary s_total app_file app_unit total app_env.
Proof. split; [reflexivity|]. split; [exists s_total; exact fn_total|]. split; [left; reflexivity|]. split; [apply subtrees_in; vm_compute; tauto | exact app_view]. Qed.
Example total_of_workspace : of_workspace app_map (Some workspace0) app_binary s_total.
Proof. exists workspace0, app_file. split; [reflexivity|]. split; [left; reflexivity|]. split; [reflexivity | exact app_local]. Qed.
Example app_settled : forall g d s u v, In g (bi_made app_binary) -> In d (visible (units_of g)) -> linked (history plain_externals app_tables) g d s -> In u (bf_units g) -> in_tree (bu_die u) d -> unit_view g u v -> signature_settled v (decl_path app_map u) d.
Proof.
  intros g d s u v [<- | []] Hd L [<- | []] _ V. rewrite (view_fun _ _ _ _ V app_view). destruct (linked_only d s Hd L) as [[-> _] | [-> _]]; (split; [intros ht H; exfalso; revert H; apply no_attr; reflexivity|]).
  - intros c Hc. destruct Hc as [<- | []]. exists (Some n_var). apply rep_var, app_var.
  - intros c [].
Qed.
(** The listings exist, and [total] is under u32 (any function is listed under the type of its first parameter). *)
Example app_all_methods : exists n0, forall n, (n0 <= n)%nat -> exists k0, forall k, (k0 <= k)%nat -> exists m l, BinaryModel.discover_all_methods app_map (Some workspace0) n k app_binary = Ok m /\
  oget cmp_str (st "u32") m = Some l /\ exists d, In d l /\ shows_method s_total total_sig d.
Proof.
  destruct (all_methods_answered app_map (Some workspace0) plain_externals app_tables app_binary app_index app_made app_settled) as (n1 & A). destruct (all_methods_listed app_map (Some workspace0) plain_externals app_tables app_binary app_index app_made) as (n2 & Ls).
  exists (n1 + n2)%nat. intros n Hn. destruct (A n ltac:(lia)) as (k0 & Ak). exists k0. intros k Hk. destruct (Ak k Hk) as [(m & E) _]. exists m. destruct (Ls n k m ltac:(lia) E (st "u32")) as (ys & l & _ & Iff & F & O).
  assert (H : In s_total ys).
  { apply Iff. split; [exists [], [s_main]; split; [reflexivity|]; split; [reflexivity|]; intros y [<- | []]; discriminate|]. split; [exact total_of_workspace|]. exists total_sig. split; [exists app_file, app_unit, total, app_env; split; [exact total_at | exact total_declares]|].
    exists n_var, []. split; [reflexivity|]. split; [discriminate | reflexivity]. }
  exists l. split; [exact E|]. assert (G : exists d, In d l /\ exists s, signed_as app_map app_history app_binary s_total s /\ shows_method s_total s d).
  { clear - F H. induction F as [|y d ys l P _ IH]; [destruct H|]. destruct H as [-> | H]; [exists d; split; [left; reflexivity | exact P] | destruct (IH H) as (x & Hx & Q); exists x; split; [right; exact Hx | exact Q]]. }
  destruct G as (d & Hd & s & (f' & u' & d' & v' & Da & De) & Sh). destruct (declared_fun plain_externals app_tables app_binary app_made _ _ _ _ _ _ _ _ _ Da total_at) as (-> & -> & -> & ->).
  assert (Ge : good_env app_env) by (apply (good_view app_file app_unit app_env app_distinct app_attrs (or_introl eq_refl) app_view)).
  rewrite (declares_fun app_env _ Ge 50 total s total_sig ltac:(split; [apply subtrees_in; vm_compute; tauto | reflexivity]) De total_declares) in Sh.
  split; [destruct l; [destruct Hd | exact O] | exists d; auto].
Qed.
Example app_report : exists n0, forall n, (n0 <= n)%nat -> exists k0, forall k, (k0 <= k)%nat -> exists m, BinaryModel.discover_all_methods_debug app_map (Some workspace0) n k app_binary = Ok m /\
  oget cmp_str (st "app::total") m = Some (DiscoveredFunction total_sig).
Proof.
  exists 40%nat. intros n Hn. exists 5%nat. intros k Hk. replace n with (40 + (n - 40))%nat by lia. replace k with (5 + (k - 5))%nat by lia. generalize (n - 40)%nat as m, (k - 5)%nat as j. intros m j.
  eexists. split; vm_compute; reflexivity.
Qed.
(** ** Two functions with one displayed name *)
(** The same program with one more symbol, a function without debug information that differs in the hash only. *)
Definition two_tables : list (N * list raw_entry) := [(0%N, ob_symbols app_object ++ [mk_raw (Some (st "app::total::h02")) 4200 true])].
Definition two_binary : binary := Binary (index_symbol_map plain_externals two_tables) [app_file] [app_file].
Definition s_hashed : symbol := mk_symbol (mk_sname (st "total") (st "h02") [st "app"] (st "app::total")) 4200 0.
Theorem all_functions_analysed_refuted : exists X tables B y s m n k,
  bi_index B = index_symbol_map X tables /\ is_last (fun z => sym_name z = sym_name y) (functions_of (history X tables)) y /\
  of_workspace app_map (Some workspace0) B y /\ signed_as app_map (history X tables) B y s /\
  BinaryModel.discover_all_methods_debug app_map (Some workspace0) n k B = Ok m /\ oget cmp_str (sname_display (sym_name y)) m = Some NoDebugInfo.
Proof.
  assert (Eh : exists e, history plain_externals two_tables = app_history ++ [e] /\ sym_name (snd e) <> sym_name s_total /\ snd (fst e) = st "app::total::h02" /\ fst (fst e) = true) by (eexists; split; [vm_compute; reflexivity|]; split; [vm_compute; discriminate | split; reflexivity]).
  destruct Eh as (e & Eh & Ne & Nr & Nb).
  eexists plain_externals, two_tables, two_binary, s_total, total_sig, _, 40%nat, 5%nat. split; [reflexivity|]. split; [|split; [|split; [|split; [vm_compute; reflexivity | vm_compute; reflexivity]]]].
  - rewrite Eh. destruct e as [[b r] z]. cbn in Nb, Ne. subst b. exists [], [s_main; z]. split; [reflexivity|]. split; [reflexivity|]. intros y [<- | [<- | []]]; [discriminate | exact Ne].
  - exists workspace0, app_file. split; [reflexivity|]. split; [left; reflexivity|]. split; [reflexivity | exact app_local].
  - exists app_file, app_unit, total, app_env. split; [|exact total_declares]. split; [reflexivity|]. split; [|split; [left; reflexivity|]; split; [apply subtrees_in; vm_compute; tauto | exact app_view]].
    exists s_total, (firstn 2 (visible (units_of app_file))), [main; order; mem 91 "id" 0 10]. split; [rewrite app_visible; reflexivity|]. split; [|split; [reflexivity|]].
    + exists true, (st "app::total"), (st "app::total"). split; [reflexivity|]. split; [reflexivity|]. split; [reflexivity|]. rewrite Eh. exists [], (tl app_history ++ [e]). split; [reflexivity|]. split; [split; reflexivity|].
      intros x [<- | [<- | [<- | []]]] [_ Q]; try discriminate Q. rewrite Nr in Q. discriminate Q.
    + intros d s Hd (b & raw & link & Tg & Ln & Rw & La) Q. apply is_last_in in La. destruct La as [He [_ Er]]. cbn [fst snd] in Er. rewrite Eh in He. apply in_app_or in He.
      destruct Hd as [<- | [<- | [<- | []]]]; try discriminate Tg. injection Ln as <-. subst raw.
      destruct He as [[He | [He | [He | []]]] | [He | []]]; try (pose proof (f_equal (fun z => snd (fst z)) He) as Er'; vm_compute in Er'; discriminate Er').
      * pose proof (f_equal snd He) as Es. cbn [snd] in Es. subst s. discriminate Q.
      * subst e. cbn [fst snd] in Nr. discriminate Nr.
Qed.
Print Assumptions all_functions_analysed_refuted.
