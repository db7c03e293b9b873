(** Concrete files in which the theorems of LookupProps apply, and a case where looking a type up goes wrong. *)
From Coq Require Import Ascii String List ZArith NArith Lia Bool Sorted.
From Verif Require Import Base NumText SymModel DieModel DieSpec DieProofs ModuleModel ModuleSpec ModuleProofs ModuleProps TypesModel ParserModel ParserSpec ParserProofs
  ResolveModel ResolveSpec ResolveProps ResolveExample DiscoverModel DiscoverExample TypeTextModel TypeTextSpec TypeNameSpec TypeNameProofs TypeNameProps LookupModel LookupSpec LookupProps.
Import ListNotations.
Open Scope Z_scope.

(** More fuel does not change a finished walk. *)
Lemma walk_more {V} (vis : visitor V) n :
  (forall w v r, walk_children vis n w v = Some r -> walk_children vis (S n) w v = Some r) /\
  (forall w v r, walk_siblings vis n w v = Some r -> walk_siblings vis (S n) w v = Some r) /\
  (forall w v e r, visit vis n w v e = Some r -> visit vis (S n) w v e = Some r).
Proof.
  induction n as [|n (IC & IS & IV)]; [repeat split; intros; discriminate|]. split; [|split].
  - intros w v r H. cbn [walk_children] in H. change (walk_children vis (S (S n)) w v) with
      (let (w, h) := has_children w in if h then match walk_siblings vis (S n) (Walker (w_cur w) (w_level w + 1) (w_next w) (w_depth w)) v with
        | Some (w', v', true) => Some (Walker (w_cur w') (w_level w' - 1) (w_next w') (w_depth w'), v', true) | r => r end else Some (w, v, true)).
    destruct (has_children w) as [w1 h]. destruct h; [|exact H]. destruct (walk_siblings vis n _ v) as [x|] eqn:E; [|discriminate]. rewrite (IS _ _ _ E). exact H.
  - intros w v r H. cbn [walk_siblings] in H. change (walk_siblings vis (S (S n)) w v) with
      (match w_next_sibling w with (w, None) => Some (w, v, true) | (w, Some e) => match visit vis (S n) w v e with Some (w', v', true) => walk_siblings vis (S n) w' v' | r => r end end).
    destruct (w_next_sibling w) as [w1 [e|]]; [|exact H]. destruct (visit vis n w1 v e) as [[[w' v'] b]|] eqn:E; [|discriminate]. rewrite (IV _ _ _ _ E).
    destruct b; [apply IS; exact H | exact H].
  - intros w v e r H. cbn [visit] in H. change (visit vis (S (S n)) w v e) with
      (match v_pre vis v e with | (v1, Fail) => Some (w, v1, false) | (v1, Skip) => let (w', v2) := finish vis w v1 e in Some (w', v2, true)
       | (v1, Descend) => match walk_children vis (S n) w v1 with | Some (w', v2, true) => let (w'', v3) := finish vis w' v2 e in Some (w'', v3, true) | r => r end end).
    destruct (v_pre vis v e) as [v1 d]. destruct d; try exact H. destruct (walk_children vis n w v1) as [x|] eqn:E; [|discriminate]. rewrite (IC _ _ _ E). exact H.
Qed.
Lemma walk_file_more {V} cv (vis : visitor V) n units : forall v r, walk_file cv vis n units v = Some r -> walk_file cv vis (S n) units v = Some r.
Proof.
  induction units as [|u us IH]; intros v r H; [exact H|]. cbn [walk_file] in *.
  assert (U : forall x, walk_unit cv vis n u v = Some x -> walk_unit cv vis (S n) u v = Some x).
  { intros x E. unfold walk_unit in *. destruct (w_take (new_walker u)) as [w [root|]]; [|exact E]. destruct (e_tag root); try exact E. destruct (cu_pre cv v root) as [v1 d]. destruct d; try exact E.
    destruct (walk_children vis n w v1) as [y|] eqn:W; [|discriminate]. rewrite (proj1 (walk_more vis n) _ _ _ W). exact E. }
  destruct (walk_unit cv vis n u v) as [[v' b]|]; [|discriminate]. rewrite (U _ eq_refl). destruct b; [apply IH; exact H | exact H].
Qed.
Lemma module_index_more ulen n m units r : (n <= m)%nat -> module_index ulen n units = Some r -> module_index ulen m units = Some r.
Proof.
  intros L H. induction L as [|m L IH]; [exact H|]. unfold module_index in *. destruct (walk_file _ _ m _ _) as [x|] eqn:E; [|discriminate]. rewrite (walk_file_more _ _ _ _ _ _ E). exact IH.
Qed.

(** mod a { struct Foo { x: u32 } struct Wrap<T> (two instances) }, mod b { struct Foo { y: u64 } }, and in alloc::vec the
    types Vec<b::Foo, Global> and Vec<a::Foo, Global>, in this order. *)
Definition names_parse (p : list str) (s : str) : option layout := match typename_parse p s with Ok l => Some l | _ => None end.
Definition vec_of (o : Z) (s : string) (t : Z) : die := struct_ o s 32 [tpar (o + 1) "T" t; mem (o + 2) "buf" 0 30; mem (o + 3) "len" 24 11].
Definition names_unit : die := nd 1 Tcompile_unit [(At_language, ALang 28)]
  [ base 10 "u32" 4; base 11 "u64" 8; base 12 "u8" 1; ptr 13 "*const u8" 12
  ; nd 20 Tnamespace [nm "alloc"]
      [ nd 21 Tnamespace [nm "raw_vec"]
          [ struct_ 30 "RawVec" 24 [mem 31 "inner" 8 35]; struct_ 35 "RawVecInner" 16 [mem 36 "ptr" 0 13; mem 37 "cap" 8 38]; struct_ 38 "Cap" 8 [mem 39 "__0" 0 11] ]
      ; nd 40 Tnamespace [nm "vec"] [ vec_of 41 "Vec<b::Foo, alloc::alloc::Global>" 71; vec_of 51 "Vec<a::Foo, alloc::alloc::Global>" 61 ] ]
  ; nd 60 Tnamespace [nm "a"]
      [ struct_ 61 "Foo" 4 [mem 62 "x" 0 10]; struct_ 63 "Wrap<u32>" 4 [mem 64 "w" 0 10]; struct_ 65 "Wrap<b::Foo>" 8 [mem 66 "w" 0 71]; nd 67 Tstructure [nm "{closure_env#0}"] [] ]
  ; nd 70 Tnamespace [nm "b"] [ struct_ 71 "Foo" 8 [mem 72 "y" 0 11] ] ].
Definition names_ranges : list mrange :=
  [MRange [] 1 1 20; MRange [st "alloc"] 20 20 21; MRange [st "alloc"; st "raw_vec"] 21 21 40; MRange [st "alloc"; st "vec"] 40 40 60;
   MRange [st "a"] 60 60 70; MRange [st "b"] 1 70 101].
Definition names_mods : module :=
  Module [(st "alloc", Module [(st "raw_vec", Module [] [21]); (st "vec", Module [] [40])] [20]); (st "a", Module [] [60]); (st "b", Module [] [70])] [].
Example names_indexed : module_index (fun _ => 100) 200 (file_toks [(names_unit, 0%nat)]) = Some (names_ranges, names_mods).
Proof. vm_compute. reflexivity. Qed.
Definition names_env : env := Env names_unit names_ranges names_parse.
Definition names_file : dfile := DFile names_mods (fun _ => names_env).
Lemma names_file_of : file_of names_file [names_unit].
Proof.
  split.
  - exists (fun _ => 100), [(names_unit, 0%nat)], 200%nat, names_ranges. split; [reflexivity|]. split; [|intros m L; apply (module_index_more _ 200 m _ _ L), names_indexed].
    split; [|split; [exact Logic.I | exact Logic.I]]. split; [reflexivity|]. split; [|split].
    + assert (O : forall e k, is_namespace e = false -> forallb (fun x => negb (is_namespace x)) (entries_list (match k with Some l => l | None => [] end)) = true -> ns_tree (Die e k)).
      { intros e k N F. apply ns_tree_other; [exact N|]. rewrite forallb_forall in F. apply Forall_forall. intros x Hx. apply F in Hx. destruct (is_namespace x); [discriminate | reflexivity]. }
      cbn [names_unit nd d_kids]. repeat (apply Forall_cons || apply Forall_nil);
      repeat first [ apply O; [reflexivity | reflexivity] | apply ns_tree_ns; [reflexivity | discriminate | cbn [nd]; repeat (apply Forall_cons || apply Forall_nil)]].
    + cbn. repeat (apply SSorted_cons || apply SSorted_nil || apply Forall_cons || apply Forall_nil); unfold by_offset; cbn; lia.
    + intros x Hx. cbn in Hx. repeat destruct Hx as [<- | Hx]; cbn; lia.
  - intros d [<- | []]. split; [reflexivity|]. split; [|reflexivity]. apply good_by_computation. vm_compute. reflexivity.
Qed.
Lemma names_good : good_env names_env.
Proof. apply good_by_computation. vm_compute. reflexivity. Qed.
(** Found: by exact name among the instances of a generic type, in the module asked for, and without naming the allocator. *)
Example names_found :
  lookup_type_by_name 5 [names_file] (st "a::Foo") = Ok (Some (TD (LStruct (st "Foo") 4 8 [(st "x", 0, TD (LUInt 4) (Some 10))]) (Some 61))) /\
  lookup_type_by_name 5 [names_file] (st "b::Foo") = Ok (Some (TD (LStruct (st "Foo") 8 8 [(st "y", 0, TD (LUInt 8) (Some 11))]) (Some 71))) /\
  lookup_type_by_name 5 [names_file] (st "a::Wrap<b::Foo>") = Ok (Some (TD (LStruct (st "Wrap<b::Foo>") 8 8 [(st "w", 0, TD (LAlias (st "Foo")) (Some 71))]) (Some 65))) /\
  lookup_type_by_name 5 [names_file] (st "alloc::vec::Vec<b::Foo>") = Ok (Some (TD (LVec 24 8 16 (TD (LAlias (st "Foo")) (Some 71))) (Some 41))) /\
  lookup_type_by_name 5 [names_file] (st "a::Wrap<u8>") = Ok None /\ lookup_type_by_name 5 [names_file] (st "c::Foo") = Ok None /\
  lookup_type_by_name 5 [names_file] (st "u32") = Ok None.
Proof. repeat apply conj; vm_compute; reflexivity. Qed.
(** Type arguments of standard types are compared by their last path segment only: asked for a vector of [a::Foo], the
    vector of [b::Foo] is given. *)
Theorem type_argument_modules_confused_refuted : exists t,
  (exists d, in_tree names_unit d /\ is_type_die d /\ named d (st "Vec<a::Foo, alloc::alloc::Global>") /\ h_of d <> 41) /\
  (exists d, in_tree names_unit d /\ named d (st "Vec<b::Foo, alloc::alloc::Global>") /\ h_of d = 41) /\
  lookup_type_by_name 5 [names_file] (st "alloc::vec::Vec<a::Foo, alloc::alloc::Global>") = Ok (Some t) /\ locOf t = Some 41.
Proof.
  exists (TD (LVec 24 8 16 (TD (LAlias (st "Foo")) (Some 71))) (Some 41)). split; [|split; [|split; [vm_compute; reflexivity | reflexivity]]].
  - exists (vec_of 51 "Vec<a::Foo, alloc::alloc::Global>" 61). split; [|split; [cbn; tauto | split; [apply ex_attr; reflexivity | discriminate]]].
    apply (proj1 (lookup_ok names_env 51 _ names_good)). reflexivity.
  - exists (vec_of 41 "Vec<b::Foo, alloc::alloc::Global>" 71). split; [|split; [apply ex_attr; reflexivity | reflexivity]].
    apply (proj1 (lookup_ok names_env 41 _ names_good)). reflexivity.
Qed.
Print Assumptions type_argument_modules_confused_refuted.
(** The hypotheses of [user_type_found_by_name] for the module [a]. *)
Example names_ordinary : Forall2 file_of [names_file] [[names_unit]] /\ ~ In (st "a") (map st ["std"; "core"; "alloc"; "hashbrown"]%string) /\
  Forall name_ok [st "a"] /\ name_ok (st "Wrap") /\ Forall legible [YPath [seg_of (st "b"); seg_of (st "Foo")]] /\
  full_name [st "a"] (st "Wrap" ++ args_text [YPath [seg_of (st "b"); seg_of (st "Foo")]]) = st "a::Wrap<b::Foo>" /\
  map h_of (module_members [st "a"] [names_unit]) = [61; 63; 65; 67] /\
  Forall (ordinary_member [st "a"]) (module_members [st "a"] [names_unit]).
Proof.
  assert (NF : name_ok (st "Foo")) by (split; [lit_ident | lit_kw]). assert (NW : name_ok (st "Wrap")) by (split; [lit_ident | lit_kw]).
  assert (NB : name_ok (st "b")) by (split; [lit_ident | lit_kw]). assert (NU : name_ok (st "u32")) by (split; [lit_ident | lit_kw]).
  assert (L : legible (YPath [seg_of (st "b"); seg_of (st "Foo")])) by (apply (qualified_legible [st "b"] (st "Foo") []); [constructor; [exact NB | constructor] | exact NF | constructor]).
  assert (LU : legible (YPath [seg_of (st "u32")])) by (apply (qualified_legible [] (st "u32") []); [constructor | exact NU | constructor]).
  split; [constructor; [apply names_file_of | constructor]|]. split; [cbn; intuition discriminate|].
  split; [constructor; [split; [lit_ident | lit_kw] | constructor]|]. split; [exact NW|]. split; [constructor; [exact L | constructor]|].
  split; [reflexivity|]. split; [vm_compute; reflexivity|].
  assert (M : module_members [st "a"] [names_unit] = [struct_ 61 "Foo" 4 [mem 62 "x" 0 10]; struct_ 63 "Wrap<u32>" 4 [mem 64 "w" 0 10]; struct_ 65 "Wrap<b::Foo>" 8 [mem 66 "w" 0 71]; nd 67 Tstructure [nm "{closure_env#0}"] []]) by (vm_compute; reflexivity).
  rewrite M. clear M. assert (NI : forall d s n, get_attr (d_entry d) At_name = Some (AStr (Some s)) -> named d n -> n = s).
  { intros d s n E N. apply ex_attr in E. pose proof (has_attr_inj _ _ _ _ E N) as X. injection X as <-. reflexivity. }
  constructor; [|constructor; [|constructor; [|constructor; [|constructor]]]]; intros n _ N.
  - left. exists (st "Foo"), []. split; [eapply NI; [|exact N]; reflexivity|]. split; [exact NF | constructor].
  - left. exists (st "Wrap"), [YPath [seg_of (st "u32")]]. split; [eapply NI; [|exact N]; reflexivity|]. split; [exact NW | constructor; [exact LU | constructor]].
  - left. exists (st "Wrap"), [YPath [seg_of (st "b"); seg_of (st "Foo")]]. split; [eapply NI; [|exact N]; reflexivity|]. split; [exact NW | constructor; [exact L | constructor]].
  - right. assert (n = st "{closure_env#0}") as -> by (eapply NI; [|exact N]; reflexivity). eexists. vm_compute. reflexivity.
Qed.
