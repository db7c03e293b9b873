(** C53: type names. *)
From Coq Require Import Ascii String List ZArith NArith Lia Bool.
From Verif Require Import Base NumText TypesModel TypesSpec TypesProofs TypeTextModel TypeTextSpec TypeTextProofs TypeTextParse TypeTextLex TypeTextSound
  TypeNameSpec TypeNameProofs.
Import ListNotations.
Open Scope Z_scope.

(** Reading any text ends, and never panics on a text whose characters and brackets are those of a token stream. *)
Theorem type_text_total : forall s, parse_type s <> Fuel.
Proof. exact parse_type_terminates. Qed.
Print Assumptions type_text_total.
Theorem type_text_no_panic : forall s ts, tokenize s = Ok ts -> (exists t, parse_type s = Ok t) \/ exists m, parse_type s = Err m.
Proof. exact parse_type_no_panic. Qed.
Print Assumptions type_text_no_panic.

(** Whatever was read, is read again from its printed form. *)
Theorem type_text_roundtrip_partial : forall s t, parse_type s = Ok t -> TypeTextSpec.plain t -> full t -> parse_type (show t) = Ok t.
Proof. intros s t H P F. apply parse_show; [split; [exact P | exact (parse_type_sound s t H)] | exact F]. Qed.
Print Assumptions type_text_roundtrip_partial.
(** Every type built from lexically correct parts is read back from its printed form ... *)
Theorem type_show_parses : forall t, legible t -> parse_type (show t) = Ok t.
Proof. intros t H. apply legible_wf in H. destruct H. apply parse_show; assumption. Qed.
Print Assumptions type_show_parses.
(** ... so distinct types print differently. *)
Theorem type_show_injective : forall t u, legible t -> legible u -> show t = show u -> t = u.
Proof. intros t u Ht Hu E. apply type_show_parses in Ht, Hu. congruence. Qed.
Print Assumptions type_show_injective.

(** The displayed name of a layout, read as a type name, gives the layout's shape. *)
Theorem display_name_parses_partial : forall l, nameable l -> typename_parse [] (display_name l) = Ok (skeleton l).
Proof.
  intros l N. destruct (nameable_written l N) as (t & W & F & S & L & _). unfold typename_parse. cbn [full_name].
  rewrite <- S, parse_show, L by assumption. reflexivity.
Qed.
Print Assumptions display_name_parses_partial.
(** Equal names, equal shapes. *)
Theorem display_name_determines : forall a b, nameable a -> nameable b -> display_name a = display_name b -> skeleton a = skeleton b.
Proof. intros a b Ha Hb E. apply display_name_parses_partial in Ha, Hb. congruence. Qed.
Print Assumptions display_name_determines.
(** Distinct primitive types have distinct names. *)
Definition primitives : list layout :=
  [LUInt 1; LUInt 2; LUInt 4; LUInt 8; LUInt 16; LInt 1; LInt 2; LInt 4; LInt 8; LInt 16; LFloat 4; LFloat 8; LBool; LChar; LStr; LUnit; LNever].
Theorem primitive_names_distinct : forall a b, In a primitives -> In b primitives -> display_name a = display_name b -> a = b.
Proof.
  assert (P : forall a, In a primitives -> nameable a /\ skeleton a = a).
  { intros a Ha. unfold primitives in Ha. cbn [In] in Ha.
    repeat (destruct Ha as [<- | Ha]; [split; [cbn [nameable In]; auto 8 | reflexivity]|]). destruct Ha. }
  intros a b Ha Hb E. destruct (P a Ha) as [Na Ea], (P b Hb) as [Nb Eb]. rewrite <- Ea, <- Eb. apply display_name_determines; assumption.
Qed.
Print Assumptions primitive_names_distinct.

(** A type is matched by its own name, except where string slices or maps occur: their field offsets take part in the comparison. *)
Fixpoint no_placed (l : layout) : Prop :=
  match l with
  | LStrSlice _ _ | LMap _ _ _ => False
  | LArray (TD e _) _ | LReference _ (TD e _) | LPointer _ (TD e _) | LSlice (TD e _) _ _ | LSmartPtr (TD e _) _ _ _ | LOption _ _ _ (TD e _) _
  | LVec _ _ _ (TD e _) => no_placed e
  | LResult _ _ (TD o _) _ (TD e _) _ _ => no_placed o /\ no_placed e
  | LTuple es _ => fold_right (fun p P => match p with (_, TD e _) => no_placed e end /\ P) True es
  | LFunction r args => match r with Some (TD e _) => no_placed e | None => True end /\
                        fold_right (fun t P => match t with TD e _ => no_placed e end /\ P) True args
  | _ => True
  end.
Lemma skeleton_same : forall l, no_placed l -> same (skeleton l) l.
Proof.
  intros l. induction l as [l IH] using layout_ind'. intros N.
  destruct l as [[e p] n| | |s|r args|s| |m [e p]|m [e p]|[e p] a b| |a b|es z| |s|[i p] a b v|k x v|nm d o [i p] z
                |nm d [o po] a [e pe] b z|a b c i|a b c [i p]|nm z al fs|nm d vs z|nm d vs z|nm]; cbn [no_placed] in N; cbn [TypesProofs.kids layOf In] in IH; cbn [skeleton];
    try (constructor; try (apply tsame_lay, IH; [tauto | exact N]); fail); try contradiction.
  - destruct N as [Nr Na]. rewrite fold_all in Na.
    assert (G : Forall2 tsame (map (fun t : tdefOf layout => match t with TD l' _ => td0 (skeleton l') end) args) args).
    { assert (Q : forall t, In t args -> same (skeleton (layOf t)) (layOf t)).
      { intros t Ht. apply IH; [destruct r as [[? ?]|]; [right|]; apply in_map, Ht|]. specialize (Na t Ht). destruct t; exact Na. }
      clear - Q. induction args as [|[e p] args IHa]; constructor; [apply tsame_lay, (Q _ (or_introl eq_refl))|].
      apply IHa. intros; apply Q; right; assumption. }
    destruct r as [[q pq]|]; constructor; try exact G. apply tsame_lay, IH; [left; reflexivity | exact Nr].
  - rewrite fold_all in N. constructor.
    assert (Q : forall t, In t es -> same (skeleton (layOf (snd t))) (layOf (snd t))).
    { intros t Ht. apply IH; [apply (in_map (fun p => layOf (snd p))), Ht|]. specialize (N t Ht). destruct t as [o [e p]]; exact N. }
    clear - Q. induction es as [|[o [e p]] es IHa]; constructor; [apply tsame_lay, (Q _ (or_introl eq_refl))|].
    apply IHa. intros; apply Q; right; assumption.
  - destruct N as [No Ne]. constructor; apply tsame_lay, IH; tauto.
  - exact (same_alias_l (LStruct nm z al fs)).
  - exact (same_alias_l (LEnum nm d vs z)).
  - exact (same_alias_l (LCEnum nm d vs z)).
Qed.
Theorem type_matched_by_its_name_partial : forall l, nameable l -> no_placed l ->
  exists l', typename_parse [] (display_name l) = Ok l' /\ matching_type l' l = true.
Proof.
  intros l N P. exists (skeleton l). split; [apply display_name_parses_partial, N|]. apply matching_same, skeleton_same, P.
Qed.
Print Assumptions type_matched_by_its_name_partial.
Theorem type_matched_by_its_name_refuted : exists l l', nameable l /\
  typename_parse [] (display_name l) = Ok l' /\ matching_type l' l = false.
Proof. exists (LStrSlice 0 8), (LStrSlice 0 0). repeat split. Qed.
Print Assumptions type_matched_by_its_name_refuted.

(** ** Qualified names. *)
Definition seg_of (id : str) : seg := SSeg id None false.
Definition segA (id : str) (args : list ty) : seg := SSeg id (match args with [] => None | _ => Some (GParsed args) end) false.
Definition args_text (args : list ty) : str := match args with [] => [] | _ => st "<" ++ join (st ", ") (map show args) ++ st ">" end.
Definition name_ok (id : str) : Prop := ident id /\ ~ keyword id.
Lemma segA_text id args : seg_text show (segA id args) = id ++ args_text args.
Proof. destruct args; reflexivity. Qed.
Lemma qualified_legible path id args : Forall name_ok path -> name_ok id -> Forall legible args -> legible (YPath (map seg_of path ++ [segA id args])).
Proof.
  intros Hp [Hi Hk] Ha. apply legible_wf. split; [|intros E; injection E; destruct (map seg_of path); discriminate].
  apply wf_mk.
  - cbn [plain1]. apply Forall_app. split.
    + apply Forall_forall. intros s Hs. apply in_map_iff in Hs. destruct Hs as (x & <- & Hx). rewrite Forall_forall in Hp.
      destruct (Hp x Hx). repeat split. assumption.
    + constructor; [|constructor]. split; [exact Hk|]. split; [reflexivity|]. destruct args; [exact Logic.I|]. split; [discriminate|].
      eapply Forall_impl; [|exact Ha]. intros u (_ & _ & F). exact F.
  - cbn [sound1]. apply Forall_app. split; [|constructor; [exact Hi | constructor]].
    apply Forall_forall. intros s Hs. apply in_map_iff in Hs. destruct Hs as (x & <- & Hx). rewrite Forall_forall in Hp. apply (Hp x Hx).
  - cbn [TypeTextSpec.kids]. intros u Hu. apply in_flat_map in Hu. destruct Hu as (s & Hs & Hu). apply in_app_or in Hs. destruct Hs as [Hs|[<- | []]].
    + apply in_map_iff in Hs. destruct Hs as (x & <- & Hx). destruct Hu.
    + destruct args; [destruct Hu|]. cbn [seg_kids segA] in Hu. rewrite Forall_forall in Ha. apply legible_wf, Ha, Hu.
Qed.
Lemma qualified_show path id args : show (YPath (map seg_of path ++ [segA id args])) = full_name path (id ++ args_text args).
Proof.
  cbn [show]. rewrite map_app. cbn [map]. rewrite segA_text, map_map.
  replace (map (fun x => seg_text show (seg_of x)) path) with path by (symmetry; rewrite <- (map_id path) at 2; apply map_ext; intros a; cbn; rewrite ?app_nil_r; reflexivity).
  unfold full_name. destruct path as [|a path]; [reflexivity|].
  revert a. induction path as [|b path IH]; intros a; [reflexivity|].
  cbn [app]. change (join (st "::") (a :: b :: path ++ [id ++ args_text args])) with (a ++ st "::" ++ join (st "::") (b :: path ++ [id ++ args_text args])).
  transitivity (a ++ st "::" ++ (join (st "::") (b :: path) ++ st "::" ++ id ++ args_text args)); [do 2 apply f_equal; exact (IH b)|]. change (join (st "::") (a :: b :: path)) with (a ++ st "::" ++ join (st "::") (b :: path)). rewrite <- ?app_assoc. reflexivity.
Qed.
Lemma last_snoc {A} (l : list A) a d : last (l ++ [a]) d = a.
Proof. induction l as [|x l IH]; [reflexivity|]. cbn [app]. destruct (l ++ [a]) eqn:E; [destruct l; discriminate|]. cbn [last]. exact IH. Qed.
Lemma qualified_parses root path id args : Forall name_ok (root :: path) -> name_ok id -> Forall legible args ->
  typename_parse (root :: path) (id ++ args_text args) =
  Ok (match (if str_in root ["std"; "core"; "alloc"]%string || str_eqb root (st "hashbrown") then std_named id (map as_layout args) else None) with
      | Some l => l | None => LAlias (id ++ args_text args) end).
Proof.
  intros Hp Hi Ha. unfold typename_parse. rewrite <- qualified_show, (type_show_parses _ (qualified_legible _ _ _ Hp Hi Ha)).
  f_equal. cbn [as_layout map app]. unfold path_layout, segments. cbn [map]. rewrite !map_app. cbn [map length]. rewrite segA_text.
  match goal with |- context [(S (length ?x) =? 1)%nat] => replace (S (length x) =? 1)%nat with false by (symmetry; apply Nat.eqb_neq; rewrite app_length; cbn; lia) end.
  rewrite orb_false_r. cbn [seg_text seg_of]. rewrite app_nil_r.
  change (root :: map (seg_text show) (map seg_of path) ++ [id ++ args_text args]) with ((root :: map (seg_text show) (map seg_of path)) ++ [id ++ args_text args]).
  rewrite last_snoc. change (seg_of root :: map seg_of path ++ [segA id args]) with ((seg_of root :: map seg_of path) ++ [segA id args]). rewrite last_snoc.
  match goal with |- context [last (?x :: ?l ++ [?a]) []] => change (x :: l ++ [a]) with ((x :: l) ++ [a]) end. rewrite last_snoc.
  unfold segA at 1. cbn [seg_generics segA]. replace (match match args with [] => None | _ => Some (GParsed args) end with Some (GParsed args0) => map as_layout args0 | _ => [] end) with (map as_layout args) by (destruct args; reflexivity).
  destruct (str_in root _ || _); reflexivity.
Qed.

(** Names below [std], [core], [alloc] and [hashbrown] mean the standard types, whatever the path ... *)
Theorem std_type_by_path : forall root path id args l, In root (map st ["std"; "core"; "alloc"; "hashbrown"]%string) ->
  Forall name_ok path -> name_ok id -> Forall legible args -> std_named id (map as_layout args) = Some l ->
  typename_parse (root :: path) (id ++ args_text args) = Ok l.
Proof.
  intros root path id args l Hr Hp Hi Ha Hs. assert (Hro : name_ok root).
  { cbn in Hr. repeat destruct Hr as [<- | Hr]; try destruct Hr; (split; [lit_ident | lit_kw]). }
  rewrite qualified_parses; [| constructor; assumption | exact Hi | exact Ha].
  replace (str_in root ["std"; "core"; "alloc"]%string || str_eqb root (st "hashbrown")) with true; [rewrite Hs; reflexivity|].
  cbn in Hr. repeat destruct Hr as [<- | Hr]; try destruct Hr; reflexivity.
Qed.
Print Assumptions std_type_by_path.
(** ... and below any other root a name stands for itself, even if the standard library has a type of that name. *)
Theorem user_type_by_path : forall root path id args, ~ In root (map st ["std"; "core"; "alloc"; "hashbrown"]%string) ->
  Forall name_ok (root :: path) -> name_ok id -> Forall legible args ->
  typename_parse (root :: path) (id ++ args_text args) = Ok (LAlias (id ++ args_text args)).
Proof.
  intros root path id args Hr Hp Hi Ha. rewrite qualified_parses by assumption.
  replace (str_in root ["std"; "core"; "alloc"]%string || str_eqb root (st "hashbrown")) with false; [reflexivity|].
  cbn in Hr. unfold str_in. cbn [existsb]. rewrite !str_eqb_ne; [reflexivity | ..]; intros E; apply Hr; rewrite E; tauto.
Qed.
Print Assumptions user_type_by_path.
(** What the standard names mean. *)
Theorem std_names_meaning : forall k v t,
  std_named (st "Vec") [t] = Some (LVec 0 0 0 (td0 t)) /\
  std_named (st "Option") [t] = Some (LOption (st "Option") (Disc DImplicit 0) 0 (td0 t) 0) /\
  std_named (st "Result") [k; v] = Some (LResult (st "Result") (Disc DImplicit 0) (td0 k) 0 (td0 v) 0 0) /\
  std_named (st "HashMap") [k; v] = Some (LMap (td0 k) (td0 v) (HashMap 0 0 0 0 0 0)) /\
  std_named (st "BTreeMap") [k; v] = Some (LMap (td0 k) (td0 v) (BTreeMap 0 0 0 0 (BN 0 0 0 0))) /\
  std_named (st "String") [] = Some (LString 0 0 0 (td0 (LUInt 1))) /\
  (forall p, std_named (spv_name p) [t] = Some (LSmartPtr (td0 t) 0 0 p)).
Proof. intros. repeat apply conj; try reflexivity. intros []; reflexivity. Qed.
Print Assumptions std_names_meaning.
(** Any path below one of these roots to e.g. a [Vec] of a nameable type gives the vector of that type's shape. *)
Theorem qualified_vec : forall root path l, In root (map st ["std"; "core"; "alloc"; "hashbrown"]%string) -> Forall name_ok path -> nameable l ->
  typename_parse (root :: path) (st "Vec<" ++ display_name l ++ st ">") = Ok (LVec 0 0 0 (td0 (skeleton l))).
Proof.
  intros root path l Hr Hp N. destruct (nameable_written l N) as (t & W & F & S & L & _).
  assert (E := std_type_by_path root path (st "Vec") [t] (LVec 0 0 0 (td0 (as_layout t))) Hr Hp).
  rewrite L in E. cbn [args_text map join] in E. rewrite S in E. apply E; [split; [lit_ident | lit_kw] | | cbn [map]; rewrite L; reflexivity].
  constructor; [apply legible_wf; split; assumption | constructor].
Qed.
Print Assumptions qualified_vec.

(** ** What is not read back. *)
Theorem type_text_roundtrip_refuted :
  (* raw pointers *)
  (exists t, parse_type (st "*const i32") = Ok t /\ show t = st "* consti32" /\ parse_type (show t) <> Ok t) /\
  (* a vtable shim *)
  (exists t, parse_type (st "f{{vtable.shim}}") = Ok t /\ parse_type (show t) <> Ok t) /\
  (* unsafe function pointers *)
  (exists t, parse_type (st "unsafe fn(u8)") = Ok t /\ parse_type (show t) <> Ok t).
Proof.
  repeat apply conj; eexists; (split; [vm_compute; reflexivity|]); try (split; [vm_compute; reflexivity|]); vm_compute; discriminate.
Qed.
Print Assumptions type_text_roundtrip_refuted.
Theorem display_name_parses_refuted :
  (* a pointer's name is not a type name *)
  (forall m, exists e, typename_parse [] (display_name (LPointer m (td0 (LInt 4)))) = Err e) /\
  (* functions without arguments are read with one nameless argument *)
  typename_parse [] (display_name (LFunction None [])) = Ok (LFunction None [td0 (LAlias [])]) /\
  (* a reference to str is read as the string slice *)
  typename_parse [] (display_name (LReference false (td0 LStr))) = Ok (LStrSlice 0 0) /\
  (* a user type called like a standard one is read as the standard one *)
  typename_parse [] (display_name (LStruct (st "Cell") 8 8 [])) = Ok (LSmartPtr unknown 0 0 SCell).
Proof. repeat apply conj; try (vm_compute; reflexivity). intros m. eexists. destruct m; vm_compute; reflexivity. Qed.
Print Assumptions display_name_parses_refuted.
(** The lexer panics on characters and brackets that form no token. *)
Theorem type_text_no_panic_refuted : exists m m', parse_type (st "Vec<u8") = Err m /\ parse_type (st "(u8") = Panic m'.
Proof. eexists _, _. vm_compute. split; reflexivity. Qed.
Print Assumptions type_text_no_panic_refuted.

Example type_name_example :
  let l := LMap (td0 (LString 16 8 0 (td0 (LUInt 1)))) (TD (LVec 16 8 0 (TD (LOption (st "Option<&[Point]>") (Disc (DUInt 8) 0) 8
             (TD (LSlice (TD (LStruct (st "Point") 8 4 []) (Some 7)) 0 8) None) 24) None)) None) (HashMap 1 2 3 4 5 6) in
  nameable l /\ display_name l = st "HashMap<String, Vec<Option<&[Point]>>>" /\
  typename_parse [] (display_name l) = Ok (skeleton l).
Proof.
  cbv zeta. assert (U : user_name (st "Point")).
  { apply un_ident; [lit_ident | lit_kw|]. vm_compute. intuition discriminate. }
  repeat apply conj; try exact Logic.I; try exact U; try discriminate; vm_compute; reflexivity.
Qed.
Example legible_example : legible (YPath [SSeg (st "alloc") None false; SSeg (st "Vec") (Some (GParsed [YTuple [YStr; YRef true (YPath [seg_of (st "T")])]])) false]).
Proof.
  apply legible_wf. split; [|discriminate]. 
  assert (W : wf (YPath [seg_of (st "T")])) by (apply (seg1_wf (st "T") []); [lit_ident | lit_kw | constructor]).
  assert (W2 : wf (YRef true (YPath [seg_of (st "T")]))) by (apply wf_mk; [discriminate | left; reflexivity | intros u [<- | []]; exact W]).
  assert (W1 : wf YStr) by (apply wf_mk; [exact Logic.I | exact Logic.I | intros u []]).
  assert (W3 : wf (YTuple [YStr; YRef true (YPath [seg_of (st "T")])])).
  { apply wf_mk; [repeat constructor; discriminate | exact Logic.I | intros u [<- | [<- | []]]; assumption]. }
  apply wf_mk; [repeat constructor; try lit_kw; discriminate | repeat constructor; lit_ident | intros u [<- | []]; exact W3].
Qed.
Example roundtrip_example : exists t, parse_type (st "alloc::vec::Vec<(&str,&mut [u8 ; 4 ])>") = Ok t /\ full t /\
  show t = st "alloc::vec::Vec<(&str, &mut [u8; 4])>" /\ parse_type (show t) = Ok t.
Proof. eexists. split; [vm_compute; reflexivity|]. split; [discriminate|]. vm_compute. split; reflexivity. Qed.

(** The primitive names and the types they stand for, pointer-sized integers being those of a 64-bit target. *)
Theorem primitive_names_meaning : forall n l,
  In (n, l) [("u8", LUInt 1); ("u16", LUInt 2); ("u32", LUInt 4); ("u64", LUInt 8); ("u128", LUInt 16); ("usize", LUInt 8);
             ("i8", LInt 1); ("i16", LInt 2); ("i32", LInt 4); ("i64", LInt 8); ("i128", LInt 16); ("isize", LInt 8);
             ("f32", LFloat 4); ("f64", LFloat 8); ("bool", LBool); ("char", LChar); ("()", LUnit); ("!", LNever); ("&str", LStrSlice 0 0)]%string ->
  typename_parse [] (st n) = Ok l /\
  (forall root path, Forall name_ok (root :: path) -> In root (map st ["std"; "core"; "alloc"; "hashbrown"]%string) ->
     typename_parse (root :: path) (st "Vec<" ++ st n ++ st ">") = Ok (LVec 0 0 0 (td0 l))).
Proof.
  intros n l H. 
  assert (A : exists t, legible t /\ show t = st n /\ as_layout t = l).
  { assert (P : forall id, name_ok id -> legible (YPath [seg_of id])) by (intros id N; apply (qualified_legible [] id []); [constructor | exact N | constructor]).
    cbn [In] in H. repeat destruct H as [H | H]; try (injection H as <- <-); try (match goal with |- exists t, legible t /\ show t = st ?s /\ _ => exists (YPath [seg_of (st s)]) end; split; [apply P; split; [lit_ident | lit_kw] | split; reflexivity]); try destruct H.
    - exists (YTuple []). split; [apply legible_wf; split; [apply wf_mk; [constructor | exact Logic.I | intros u []] | discriminate] | split; reflexivity].
    - exists YNever. split; [apply legible_wf; split; [apply wf_mk; [exact Logic.I | exact Logic.I | intros u []] | discriminate] | split; reflexivity].
    - exists YStr. split; [apply legible_wf; split; [apply wf_mk; [exact Logic.I | exact Logic.I | intros u []] | discriminate] | split; reflexivity]. }
  destruct A as (t & L & S & E). split.
  - unfold typename_parse. cbn [full_name]. rewrite <- S, (type_show_parses t L), E. reflexivity.
  - intros root path Hp Hr. rewrite <- S. inversion Hp; subst.
    replace (st "Vec<" ++ show t ++ st ">") with (st "Vec" ++ args_text [t]) by reflexivity.
    apply std_type_by_path; [exact Hr | assumption | split; [lit_ident | lit_kw] | constructor; [exact L | constructor] | reflexivity].
Qed.
Print Assumptions primitive_names_meaning.
