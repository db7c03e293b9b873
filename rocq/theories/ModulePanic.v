(** When indexing the modules of a debug file panics (C124). *)
From Coq Require Import Ascii String List ZArith Lia Bool Sorted.
From Verif Require Import Base DieModel DieSpec DieProofs DieProps ModuleModel ModuleSpec ModuleProofs ModuleProps.
Import ListNotations.
Open Scope Z_scope.

(** modules.rs 142-149: the two unwraps on the name of a namespace. Inside a compilation unit nothing but a name that
    cannot be unwrapped ends the walk of module_index (modules.rs 235-252; ns_pre), so an ended walk is a panic there;
    a root that is not a compilation unit (visitor.rs 239-246) is an error module_index only logs.
    [None]: the model's fuel ran out; [Some true]: the thread panics. *)
Fixpoint module_index_panics (ulen : entry -> Z) (n : nat) (units : list (list tok)) (b : builder) : option bool :=
  match units with
  | [] => Some false
  | u :: us =>
      match walk_unit (module_cu ulen) module_visitor n u b with
      | None => None
      | Some (b', true) => module_index_panics ulen n us b'
      | Some (_, false) => Some (match w_take (new_walker u) with (_, Some root) => match e_tag root with Tcompile_unit => true | _ => false end | _ => false end)
      end
  end.

(** Specification: a namespace in which namespaces alone lead, and whose name is missing or not readable text. *)
Definition nameless_in (d : die) : Prop := exists k x, In k (d_kids d) /\ reaches is_namespace k x /\ is_namespace x = true /\ name_of x = None.
Definition is_unit (d : die) : Prop := e_tag (d_entry d) = Tcompile_unit.
(** One of the units read before any foreign one is a Rust unit with such a namespace. *)
Definition offending (ds : list die) : Prop := exists before d after, ds = before ++ d :: after /\ Forall is_unit before /\ is_unit d /\
  is_rust_cu (d_entry d) = true /\ nameless_in d.

Lemma pre_cases b e : (is_namespace e = true /\ name_of e = None /\ snd (ns_pre b e) = Fail) \/
  (is_namespace e = true /\ name_of e <> None /\ snd (ns_pre b e) = Descend) \/ (is_namespace e = false /\ snd (ns_pre b e) = Skip).
Proof.
  unfold is_namespace, ns_pre, name_of, get_string_attr. destruct (e_tag e); auto.
  destruct (get_attr e At_name) as [[[s|]| | | | | |]|]; cbn; auto. right. left. repeat split. discriminate.
Qed.
Definition nameless (x : entry) : Prop := is_namespace x = true /\ name_of x = None.
Definition bad (d : die) : Prop := exists x, reaches is_namespace d x /\ nameless x.
Lemma tree_fails d : forall after b, snd (tree_walk module_visitor d after b) = false <-> bad d.
Proof.
  induction d as [e kids IH] using die_ind2. intros after b. rewrite tree_walk_eq. cbn [module_visitor v_pre].
  assert (IHl : Forall (fun d => forall after b, snd (tree_walk module_visitor d after b) = false <-> bad d) (match kids with Some l => l | None => [] end)) by (destruct kids as [l|]; [apply IH; reflexivity | constructor]).
  assert (LW : forall b, snd (list_walk module_visitor (match kids with Some l => l | None => [] end) after b) = false <-> exists k, In k (match kids with Some l => l | None => [] end) /\ bad k).
  { clear - IHl. induction IHl as [|k l Hk Hl IH]; intros b; cbn [list_walk].
    - split; [discriminate | intros (k & [] & _)].
    - specialize (Hk (next_of l after) b). destruct (tree_walk module_visitor k (next_of l after) b) as [b' [|]]; cbn [snd] in Hk.
      + rewrite IH. split; [intros (x & H1 & H2); exists x; split; [right; exact H1 | exact H2]|]. intros (x & [<- | H1] & H2); [apply Hk in H2; discriminate | exists x; auto].
      + split; [intros _|reflexivity]. exists k. split; [left; reflexivity|]. apply Hk. reflexivity. }
  pose proof (pre_cases b e) as C. destruct (ns_pre b e) as [b1 dec] eqn:P. cbn [snd] in C.
  destruct C as [(C1 & C2 & ->) | [(C1 & C2 & ->) | (C1 & ->)]].
  - split; [intros _|reflexivity]. exists e. split; [apply (reaches_here is_namespace (Die e kids)) | split; assumption].
  - assert (R : bad (Die e kids) <-> exists k, In k (match kids with Some l => l | None => [] end) /\ bad k).
    { split.
      - intros (x & H1 & H2). inversion H1 as [d E | d c y D I R E]; subst; cbn [d_entry] in *.
        + destruct H2 as [_ H2]. contradiction.
        + exists c. split; [destruct kids; exact I | exists x; auto].
      - intros (k & I & x & R & N). exists x. split; [|exact N]. apply (reaches_child is_namespace (Die e kids) k x); [exact C1 | destruct kids; exact I | exact R]. }
    rewrite R, <- (LW b1). destruct (list_walk _ _ _ _) as [b2 [|]]; cbn [snd]; tauto.
  - cbn [snd]. split; [discriminate|]. intros (x & H1 & H2). inversion H1 as [d E | d c y D I R E]; subst; cbn [d_entry] in *; [destruct H2; congruence | congruence].
Qed.
Lemma list_fails l : forall after b, snd (list_walk module_visitor l after b) = false <-> exists k, In k l /\ bad k.
Proof.
  induction l as [|k l IH]; intros after b; cbn [list_walk].
  - split; [discriminate | intros (k & [] & _)].
  - pose proof (tree_fails k (next_of l after) b) as Hk. destruct (tree_walk module_visitor k (next_of l after) b) as [b' [|]]; cbn [snd] in Hk.
    + rewrite IH. split; [intros (x & H1 & H2); exists x; split; [right; exact H1 | exact H2]|]. intros (x & [<- | H1] & H2); [apply Hk in H2; discriminate | exists x; auto].
    + split; [intros _|reflexivity]. exists k. split; [left; reflexivity|]. apply Hk. reflexivity.
Qed.
Lemma nameless_bad d : nameless_in d <-> exists k, In k (d_kids d) /\ bad k.
Proof.
  split.
  - intros (k & x & H1 & H2 & H3 & H4). exists k. split; [exact H1|]. exists x. split; [exact H2 | split; assumption].
  - intros (k & H1 & x & H2 & H3 & H4). exists k, x. auto.
Qed.

(** Indexing ends, and it panics exactly when a Rust unit has a nameless namespace. *)
Theorem module_index_panics_exactly : forall ulen (ds : list (die * nat)), exists n0 (panics : bool),
  (forall n, (n0 <= n)%nat -> module_index_panics ulen n (file_toks ds) new_builder = Some panics) /\
  (panics = true <-> offending (map fst ds)).
Proof.
  intros ulen ds. generalize new_builder. induction ds as [|[d pad] ds IH]; intros b.
  - exists 0%nat, false. split; [reflexivity|]. split; [discriminate|]. intros (l & d & a & E & _). destruct l; discriminate.
  - cbn [map fst]. destruct (match e_tag (d_entry d) with Tcompile_unit => true | _ => false end) eqn:T.
    + assert (T' : e_tag (d_entry d) = Tcompile_unit) by (destruct (e_tag (d_entry d)); congruence).
      destruct (walk_unit_refines (module_cu ulen) module_visitor d pad b T') as (n1 & W).
      assert (TAKE : exists w, w_take (new_walker (unit_toks d pad)) = (w, Some (d_entry d))) by (destruct (take_start d [] pad) as (w & E & _); exists w; exact E).
      destruct TAKE as (w & TAKE).
      assert (CONS : forall P : Prop, (P <-> is_rust_cu (d_entry d) = true /\ nameless_in d) -> (P \/ offending (map fst ds) <-> offending (d :: map fst ds))).
      { intros P HP. rewrite HP. split.
        - intros [[H1 H2] | (l & x & a & E & F & H)]; [exists [], d, (map fst ds); repeat split; auto|].
          exists (d :: l), x, a. rewrite E. split; [reflexivity|]. split; [constructor; [exact T' | exact F] | exact H].
        - intros (l & x & a & E & F & H1 & H2 & H3). destruct l as [|y l]; cbn [app] in E; injection E as -> E.
          + left. split; assumption.
          + right. inversion F; subst. exists l, x, a. repeat split; assumption. }
      cbn [module_cu cu_pre cu_post] in W. destruct (is_rust_cu (d_entry d)) eqn:RC.
      * set (b1 := Builder (b_ranges b) (b_modules b) (e_off (d_entry d)) [([], e_off (d_entry d))]) in W.
        pose proof (list_fails (d_kids d) None b1) as LF. rewrite <- nameless_bad in LF.
        destruct (list_walk module_visitor (d_kids d) None b1) as [b2 [|]]; cbn [snd] in LF.
        -- destruct (IH (Builder (b_ranges b2 ++ [MRange (stack_path (b_stack b2)) (e_off (d_entry d)) (b_last b2) (e_off (d_entry d) + ulen (d_entry d))]) (b_modules b2) (b_last b2) (b_stack b2))) as (n2 & p & H1 & H2).
           exists (n1 + n2)%nat, p. split.
           ++ intros n Hn. cbn [file_toks map module_index_panics fst snd]. rewrite W by lia. apply H1. lia.
           ++ rewrite H2, <- (CONS (true = false)); [intuition congruence|]. split; [discriminate|]. intros [_ H]. apply LF in H. discriminate.
        -- exists n1, true. split.
           ++ intros n Hn. cbn [file_toks map module_index_panics fst snd]. rewrite W by lia. rewrite TAKE, T'. reflexivity.
           ++ rewrite <- (CONS True); [tauto|]. split; [intros _; split; [reflexivity | apply LF; reflexivity] | tauto].
      * destruct (IH b) as (n2 & p & H1 & H2). exists (n1 + n2)%nat, p. split.
        -- intros n Hn. cbn [file_toks map module_index_panics fst snd]. rewrite W by lia. apply H1. lia.
        -- rewrite H2, <- (CONS False); [tauto|]. split; [tauto | intros [H _]; discriminate].
    + assert (T' : e_tag (d_entry d) <> Tcompile_unit) by (intros E; rewrite E in T; discriminate).
      exists 0%nat, false. split.
      * intros n _. cbn [file_toks map module_index_panics fst snd]. unfold walk_unit.
        assert (TAKE : exists w, w_take (new_walker (unit_toks d pad)) = (w, Some (d_entry d))) by (destruct (take_start d [] pad) as (w & E & _); exists w; exact E).
        destruct TAKE as (w & TAKE). rewrite TAKE. destruct (e_tag (d_entry d)); try congruence; rewrite ?T; reflexivity.
      * split; [discriminate|]. intros (l & x & a & E & F & H1 & _). destruct l as [|y l]; cbn [app] in E; injection E as -> E; [contradiction|]. inversion F; subst. contradiction.
Qed.
Print Assumptions module_index_panics_exactly.

(** Files as rustc writes them (C38) are indexed without a panic. *)
Lemma named_tree d : ns_tree d -> ~ bad d.
Proof.
  induction d as [e kids IH] using die_ind2. intros H (x & R & N). inversion H as [e' k' A B C | e' k' A B]; subst.
  - inversion R as [d E | d c y D I RR E]; subst; cbn [d_entry] in *; [destruct N; contradiction|].
    destruct kids as [l|]; cbn [d_kids] in I; [|destruct I]. specialize (IH l eq_refl). rewrite Forall_forall in IH, C. apply (IH c I (C c I)). exists x. auto.
  - inversion R as [d E | d c y D I RR E]; subst; cbn [d_entry] in *; [destruct N; congruence | congruence].
Qed.
Theorem modules_indexed_partial : forall ulen (ds : list (die * nat)), good_file ulen (map fst ds) ->
  exists n0, forall n, (n0 <= n)%nat -> module_index_panics ulen n (file_toks ds) new_builder = Some false.
Proof.
  intros ulen ds G. destruct (module_index_panics_exactly ulen ds) as (n0 & [|] & H1 & H2); [|exists n0; exact H1]. exfalso.
  destruct (proj1 H2 eq_refl) as (l & d & a & E & _ & _ & _ & N).
  assert (GU : good_unit ulen d).
  { clear - G E. rewrite E in G. clear E. induction l as [|x l IH]; cbn [app good_file] in G; [tauto | apply IH; tauto]. }
  apply nameless_bad in N. destruct N as (k & I & B). destruct GU as (_ & F & _). rewrite Forall_forall in F. exact (named_tree k (F k I) B).
Qed.
Print Assumptions modules_indexed_partial.
Example example_indexed : exists n0, forall n, (n0 <= n)%nat -> module_index_panics (fun _ => 80) n (file_toks mod_example) new_builder = Some false.
Proof. exact (modules_indexed_partial _ _ mod_example_good). Qed.

(** But one namespace without a name, as other compilers and linkers may leave in a Rust unit, and nothing of the file is indexed: the thread panics. *)
Theorem nameless_namespace_refuted : exists ulen ds, Forall is_unit (map fst ds) /\ (forall x, In x (flat_map entries (map fst ds)) -> e_ranges x = Ok []) /\
  exists n0, forall n, (n0 <= n)%nat -> module_index_panics ulen n (file_toks ds) new_builder = Some true.
Proof.
  set (u := cu 11 28 [nsd 20 (st "a") [Die (ent 30 Tnamespace) (Some [leaf 35])]; leaf 40]).
  exists (fun _ => 80), [(u, 0%nat)]. split; [repeat constructor|]. split; [cbn; intros x H; repeat (destruct H as [<- | H]; [reflexivity|]); destruct H|].
  destruct (module_index_panics_exactly (fun _ => 80) [(u, 0%nat)]) as (n0 & p & H1 & H2). replace true with p; [exists n0; exact H1|].
  apply H2. exists [], u, []. split; [reflexivity|]. split; [constructor|]. split; [reflexivity|]. split; [reflexivity|].
  exists (nsd 20 (st "a") [Die (ent 30 Tnamespace) (Some [leaf 35])]), (ent 30 Tnamespace). split; [left; reflexivity|]. split; [|split; reflexivity].
  eapply (reaches_child is_namespace); [reflexivity | left; reflexivity|]. apply (reaches_here is_namespace (Die (ent 30 Tnamespace) (Some [leaf 35]))).
Qed.
Print Assumptions nameless_namespace_refuted.
