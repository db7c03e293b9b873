(** A binary that meets the hypotheses of C109: a type with its own methods, followed by an impl block. *)
From Coq Require Import Ascii String List ZArith NArith Lia Bool Sorted.
From Verif Require Import Base NumText OMap AddrModel SymModel SymSpec SymProofs SymProps PathModel LinesModel DieModel DieSpec ModuleModel ModuleSpec ModulePlaces
  TypesModel ParserModel ParserSpec ParserProofs ResolveModel ResolveSpec ResolveProofs ResolveProps ResolveExample FnModel FnSpec FnProps SourceModel LoadModel LoadProps
  SynthModel DiscoverModel DiscoverSpec DiscoverProps DiscoverFns DiscoverExample LookupSpec BinaryModel BinarySpec BinaryProofs BinaryTypes BinaryMethods BinaryExample.
Import ListNotations.
Open Scope Z_scope.

Definition point_bunit : bunit := BUnit u1 0 100 (Some (Some (st "/build/app"))) None (fun h => None) (fun h => None).
Definition point_file : bfile := BFile 0 false [point_bunit].
Definition point_binary : binary := Binary point_ix [point_file] [point_file].
Definition point_ranges : list mrange := Eval vm_compute in fst (file_modules 60 point_file).
Definition point_env : env := Env u1 point_ranges parse_name.
Example point_view : unit_view point_file point_bunit point_env.
Proof. exists 60%nat. intros n Hn. replace n with (60 + (n - 60))%nat by lia. generalize (n - 60)%nat as m. intros m. unfold unit_env, point_env. f_equal. Qed.
Example point_distinct : distinct_dies point_file.
Proof.
  intros x1 x2 d1 d2 [<- | []] [<- | []] T1 T2 E. split; [reflexivity|]. apply subtrees_in in T1, T2. exact (distinct_inj h_of (subtrees u1) d1 d2 eq_refl T1 T2 E).
Qed.
Example point_attrs : readable_attrs point_bunit.
Proof.
  intros d a x T H. apply subtrees_in in T. assert (G : forallb (fun d => forallb (fun p => attr_okb (snd p)) (e_attrs (d_entry d))) (subtrees u1) = true) by (vm_compute; reflexivity).
  rewrite forallb_forall in G. specialize (G d T). rewrite forallb_forall in G. specialize (G (a, x) H). cbn [snd] in G.
  destruct x; cbn in G |- *; auto; apply andb_true_iff in G; destruct G as [A1 A2]; apply Z.leb_le in A1; apply Z.ltb_lt in A2; unfold in_u64; lia.
Qed.
Example point_well : well_formed point_file.
Proof.
  split; [|split; [exact point_distinct | intros u [<- | []]; exact point_attrs]].
  exists (fun _ => bu_length point_bunit). split; [intros u [<- | []]; reflexivity|]. split; [|split; exact Logic.I]. split; [reflexivity|]. split; [|split].
  - assert (O : forall e k, is_namespace e = false -> forallb (fun x => negb (is_namespace x)) (entries_list (match k with Some l => l | None => [] end)) = true -> ns_tree (Die e k)).
    { intros e k N F. apply ns_tree_other; [exact N|]. rewrite forallb_forall in F. apply Forall_forall. intros x Hx. apply F in Hx. destruct (is_namespace x); [discriminate | reflexivity]. }
    cbn [point_bunit bu_die]. unfold u1, point_unit, nd. cbn [d_kids app].
    repeat (apply Forall_cons; [first [apply O; reflexivity | apply ns_tree_ns; [reflexivity | discriminate|]; repeat (apply Forall_cons; [first [apply O; reflexivity | apply ns_tree_ns; [reflexivity | discriminate|]; repeat (apply Forall_cons; [apply O; reflexivity|]); apply Forall_nil]|]); apply Forall_nil]|]). apply Forall_nil.
  - cbn. repeat (apply SSorted_cons || apply SSorted_nil || apply Forall_cons || apply Forall_nil); unfold by_offset; cbn; lia.
  - intros x Hx. cbn in Hx. repeat destruct Hx as [<- | Hx]; cbn; lia.
Qed.
Lemma point_apart : apart [point_file].
Proof. intros f1 f2 w1 w2 d1 d2 [<- | []] [<- | []] _ _ _ _ _. reflexivity. Qed.
(** The type and the module m. *)
Definition none_die : die := nd 0 Tbase [] [].
Definition pick (o : Z) : die := match find (fun d => h_of d =? o) (subtrees u1) with Some d => d | None => none_die end.
Definition point_die : die := Eval vm_compute in pick 11.
Definition m_die : die := Eval vm_compute in pick 10.
Example point_enclosed : enclosed point_bunit point_die m_die [st "m"].
Proof. split; [apply subtrees_in; vm_compute; tauto | vm_compute; tauto]. Qed.
Example point_followed : followed point_bunit point_die m_die [st "m"].
Proof. exists (d_entry (nd 30 Tnamespace [nm "z"] [])), ([st "z"], 30). split; [vm_compute; tauto|]. split; [cbn; lia | discriminate]. Qed.
Example point_scopes : flat_map (scopes [st "m"]) (bi_files point_binary) = [(point_file, point_bunit, m_die)].
Proof. vm_compute. reflexivity. Qed.
Example point_methods : exists l, (forall n, (60 <= n)%nat -> BinaryModel.discover_methods n 5 point_binary plain_externals (fun _ => []) (TD point (Some 11)) = Ok l) /\ map brief l =
  [ (st "new", st "m::Point::new", st "fn new() -> Point", 100, None, true)
  ; (st "area", st "m::Point::area", st "fn area(&self, n: u32) -> u64", 200, Some Borrowed, true)
  ; (st "grow", st "grow::(direct)", st "fn grow(&mut self)", 0, Some BorrowedMut, false)
  ; (st "fmt", st "<m::Point as T>::fmt (from T>)", st "fn fmt(&self)", 400, Some Borrowed, true) ].
Proof.
  eexists. split.
  - intros n Hn. replace n with (60 + (n - 60))%nat by lia. generalize (n - 60)%nat. intros m. vm_compute. reflexivity.
  - vm_compute. reflexivity.
Qed.
Example point_listed : exists l direct traits,
  (exists n0, forall n, (n0 <= n)%nat -> BinaryModel.discover_methods n 5 point_binary plain_externals (fun _ => []) (TD point (Some 11)) = Ok l) /\
  l = concat direct ++ traits ++ [] /\
  Forall2 (declared_methods plain_externals point_ix point) [(point_file, point_bunit, m_die)] direct /\ implemented_here plain_externals point_ix point point_env m_die traits.
Proof.
  destruct point_methods as (l & E & _).
  destruct (methods_listed_partial plain_externals point_binary (fun _ => []) ltac:(apply Forall_cons; [exact point_well | apply Forall_nil]) ltac:(apply Forall_cons; [exact point_well | apply Forall_nil]) point_apart
    point_file point_bunit point_die m_die [st "m"] point_env point (or_introl eq_refl) (or_introl eq_refl) eq_refl ltac:(apply subtrees_in; vm_compute; tauto) point_enclosed point_view) as (n0 & H).
  destruct (H (n0 + 60)%nat 5%nat l ltac:(lia) (E (n0 + 60)%nat ltac:(lia))) as (direct & traits & built & El & Bu & D & T). rewrite point_scopes in D. exists l, direct, traits.
  split; [exists 60%nat; exact E|]. split; [destruct Bu as (names & -> & F); assert (Hb : built = []) by (inversion F; reflexivity); rewrite Hb in El; exact El|]. split; [exact D|]. destruct T as [T | [NF _]]; [exact T | contradiction (NF point_followed)].
Qed.
Print Assumptions point_listed.
