(** A concrete unit in which the hypotheses of the theorems of ParserProps and ResolveProps hold: the types
    [u32], [u64], [Vec<u32>], [String], [HashMap<u32,u64>], [BTreeMap<u32,u64>], [Option<u32>], [Result<u32,u64>],
    [Rc<u32>], [RefCell<u32>], a user struct, a user enum, a function type, a tuple and a slice. *)
From Coq Require Import Ascii String List ZArith Lia Bool.
From Verif Require Import Base NumText DieModel ModuleModel TypesModel ParserModel ParserSpec ParserProofs ParserProps
  ResolveModel ResolveSpec ResolveProofs ResolveProofs2 ResolveProps.
Import ListNotations.
Open Scope Z_scope.

Definition nd (o : Z) (t : tag) (a : list (attr_name * attr_value)) (k : list die) : die := Die (Entry o t a (Ok [])) (Some k).
Definition nm (s : string) := (At_name, AStr (Some (st s))).
Definition mem (o : Z) (s : string) (off ty : Z) : die :=
  nd o Tmember [nm s; (At_type, AUnitRef ty); (At_member_location, AUdata off)] [].
Definition tpar (o : Z) (s : string) (ty : Z) : die := nd o Ttemplate [nm s; (At_type, AUnitRef ty)] [].
Definition struct_ (o : Z) (s : string) (size : Z) (k : list die) : die :=
  nd o Tstructure [nm s; (At_byte_size, AUdata size); (At_alignment, AUdata 8)] k.
Definition base (o : Z) (s : string) (size : Z) : die := nd o Tbase [nm s; (At_byte_size, AUdata size)] [].
Definition ptr (o : Z) (s : string) (ty : Z) : die := nd o Tpointer [nm s; (At_type, AUnitRef ty)] [].
Definition variant (o : Z) (dv : Z) (s : string) (ty : Z) : die := nd o Tvariant [(At_discr_value, AUdata dv)] [mem (o + 1) s 0 ty].
Definition vpart (o disc : Z) (l : list die) : die := nd o Tvariant_part [(At_discr, AUnitRef disc)] l.

Definition ex_unit : die := nd 1 Tcompile_unit []
  [ base 10 "u32" 4; base 11 "u64" 8; base 12 "u8" 1; ptr 13 "*const u8" 12
  (* Vec<u32>: buf at 0 (inner at 8: ptr at 0, cap at 8), len at 24 *)
  ; struct_ 20 "Vec<u32>" 32 [tpar 21 "T" 10; mem 22 "buf" 0 30; mem 23 "len" 24 11]
  ; struct_ 30 "RawVec" 24 [mem 31 "inner" 8 35]
  ; struct_ 35 "RawVecInner" 16 [mem 36 "ptr" 0 13; mem 37 "cap" 8 38]
  ; struct_ 38 "Cap" 8 [mem 39 "__0" 0 11]
  ; struct_ 40 "Vec<u8>" 32 [tpar 41 "T" 12; mem 42 "buf" 0 30; mem 43 "len" 24 11]
  ; struct_ 45 "String" 32 [mem 46 "vec" 0 40]
  (* HashMap *)
  ; struct_ 50 "HashMap<u32,u64>" 48 [tpar 51 "K" 10; tpar 52 "V" 11; mem 53 "base" 0 55]
  ; struct_ 55 "hashbrown" 48 [mem 56 "table" 0 60; mem 57 "hash_builder" 32 11]
  ; struct_ 60 "RawTable" 32 [tpar 61 "T" 70; mem 62 "table" 0 65]
  ; struct_ 65 "RawTableInner" 32 [mem 66 "ctrl" 0 13; mem 67 "bucket_mask" 8 11; mem 68 "items" 24 11]
  ; struct_ 70 "(u32, u64)" 16 [mem 71 "__0" 8 10; mem 72 "__1" 0 11]
  (* BTreeMap *)
  ; struct_ 80 "BTreeMap<u32,u64>" 24 [tpar 81 "K" 10; tpar 82 "V" 11; mem 83 "root" 0 90; mem 84 "length" 16 11]
  ; struct_ 90 "Option<NodeRef>" 16 [vpart 91 92 [mem 92 "" 0 11; variant 93 0 "None" 96; variant 98 1 "Some" 97]]
  ; struct_ 96 "None" 16 []
  ; struct_ 97 "Some" 16 [mem 105 "__0" 0 106]
  ; struct_ 106 "NodeRef" 16 [mem 107 "height" 8 11; mem 108 "node" 0 110]
  ; struct_ 110 "NonNull<Leaf>" 8 [mem 111 "pointer" 0 112]
  ; ptr 112 "*const Leaf" 115
  ; struct_ 115 "Leaf" 200 [mem 116 "parent" 0 120; mem 117 "keys" 96 10; mem 118 "vals" 8 11; mem 119 "len" 142 11]
  ; struct_ 120 "Option<NonNull>" 8 [vpart 121 122 [mem 122 "" 0 11; variant 123 0 "None" 96; variant 125 1 "Some" 127]]
  ; struct_ 127 "Some" 8 [mem 128 "__0" 0 130]
  ; struct_ 130 "NonNull<Internal>" 8 [mem 131 "pointer" 0 132]
  ; ptr 132 "*const Internal" 135
  ; struct_ 135 "Internal" 296 [mem 136 "data" 0 115; mem 137 "edges" 200 13]
  (* Option<u32>, Result<u32,u64> *)
  ; struct_ 140 "Option<u32>" 8 [vpart 141 142 [mem 142 "" 0 10; variant 143 0 "None" 96; variant 145 1 "Some" 147]]
  ; struct_ 147 "Some" 8 [mem 148 "__0" 4 10]
  ; struct_ 150 "Result<u32,u64>" 16 [vpart 151 152 [mem 152 "" 0 10; variant 153 0 "Ok" 157; variant 155 1 "Err" 158]]
  ; struct_ 157 "Ok" 16 [mem 160 "__0" 4 10]
  ; struct_ 158 "Err" 16 [mem 161 "__0" 8 11]
  (* Rc<u32>, RefCell<u32> *)
  ; struct_ 170 "Rc<u32>" 8 [tpar 171 "T" 10; mem 172 "ptr" 0 173]
  ; struct_ 173 "NonNull<RcBox>" 8 [mem 174 "pointer" 0 175]
  ; ptr 175 "*const RcBox" 176
  ; struct_ 176 "RcBox" 24 [mem 177 "strong" 0 11; mem 178 "weak" 8 11; mem 179 "value" 16 10]
  ; struct_ 180 "RefCell<u32>" 16 [tpar 181 "T" 10; mem 182 "borrow" 0 11; mem 183 "value" 8 184]
  ; struct_ 184 "UnsafeCell<u32>" 4 [tpar 185 "T" 10; mem 186 "value" 0 10]
  (* struct Point { x: u32, inner: Vec<u32>, other: Point } *)
  ; struct_ 200 "Point" 48 [mem 201 "x" 40 10; mem 202 "inner" 0 20; mem 203 "other" 32 200]
  (* enum Shape, whose tag is not at offset 0 *)
  ; struct_ 210 "Shape" 16 [vpart 211 212 [mem 212 "" 8 10; variant 213 0 "Dot" 217; variant 215 1 "Line" 218]]
  ; struct_ 217 "Dot" 16 []
  ; struct_ 218 "Line" 16 [mem 219 "len" 0 11]
  (* fn(u32) -> u64, without a name *)
  ; nd 230 Tsubroutine [(At_type, AUnitRef 11)] [nd 231 Tparameter [(At_type, AUnitRef 10)] []]
  ; nd 232 Tsubroutine [] [nd 233 Tparameter [(At_type, AUnitRef 10)] []]
  ; nd 235 Tpointer [(At_name, AStr (Some (st "fn(u32) -> u64"))); (At_type, AUnitRef 230)] []
  (* (u32, u64) and [u32] *)
  ; struct_ 240 "(u32,u64)" 16 [mem 241 "__0" 8 10; mem 242 "__1" 0 11]
  ; struct_ 250 "&[u32]" 16 [mem 251 "data_ptr" 0 252; mem 253 "length" 8 11]
  ; ptr 252 "*const u32" 10
  ; struct_ 255 "&str" 16 [mem 256 "data_ptr" 0 13; mem 257 "length" 8 11]
  ; ptr 258 "&Point" 200
  (* enum Flag { Off, On } *)
  ; nd 260 Tenumeration [nm "Flag"; (At_byte_size, AUdata 1); (At_type, AUnitRef 12)]
      [nd 261 Tenumerator [nm "Off"; (At_const_value, AUdata 0)] []; nd 262 Tenumerator [nm "On"; (At_const_value, AUdata 1)] []]
  ; struct_ 270 "RwLock<u32>" 16 []
  ; struct_ 280 "HashMap<u32,u64,B>" 56 [tpar 281 "K" 10; tpar 282 "V" 11; mem 283 "base" 8 55] ].
(** The type-name parser, on these names. *)
Definition any : tdef := TD LUnit None.
Definition ex_parse (_ : list str) (s : str) : option layout :=
  let is x := str_eqb s (st x) in
  if is "u32"%string then Some (LUInt 4) else if is "u64"%string then Some (LUInt 8) else if is "u8"%string then Some (LUInt 1)
  else if is "Vec<u32>"%string || is "Vec<u8>"%string then Some (LVec 0 0 0 any)
  else if is "String"%string then Some (LString 0 0 0 any)
  else if is "HashMap<u32,u64>"%string || is "HashMap<u32,u64,B>"%string then Some (LMap any any (HashMap 0 0 0 0 0 0))
  else if is "BTreeMap<u32,u64>"%string then Some (LMap any any (BTreeMap 0 0 0 0 (BN 0 0 0 0)))
  else if is "Option<u32>"%string then Some (LOption [] (Disc DImplicit 0) 0 any 0)
  else if is "Result<u32,u64>"%string then Some (LResult [] (Disc DImplicit 0) any 0 any 0 0)
  else if is "Rc<u32>"%string then Some (LSmartPtr any 0 0 SRc)
  else if is "RefCell<u32>"%string then Some (LSmartPtr any 0 0 SRefCell)
  else if is "RwLock<u32>"%string then Some (LSmartPtr any 0 0 SRwLock)
  else if is "(u32,u64)"%string then Some (LTuple [] 0)
  else if is "&[u32]"%string then Some (LSlice any 0 0)
  else if is "&str"%string then Some (LStrSlice 0 0)
  else if is "&Point"%string then Some (LReference false any)
  else if is "*const u8"%string then Some (LPointer false any)
  else if is "fn(u32) -> u64"%string then Some (LFunction (Some any) [any])
  else None.
Definition ex_env : env := Env ex_unit [MRange [] 1 1 1000] ex_parse.

(** Distinct offsets and decodable numbers can be computed. *)
Definition attr_okb (x : attr_value) : bool :=
  match x with
  | AUdata n => (0 <=? n) && (n <? two64)
  | ASdata n => (-9223372036854775808 <=? n) && (n <? 9223372036854775808)
  | _ => true
  end.
Fixpoint distinct (l : list Z) : bool :=
  match l with [] => true | x :: l' => negb (existsb (Z.eqb x) l') && distinct l' end.
Lemma distinct_inj {A} (f : A -> Z) l a b : distinct (map f l) = true -> In a l -> In b l -> f a = f b -> a = b.
Proof.
  induction l as [|x l IH]; [contradiction|]. cbn [map distinct]. intros D Ha Hb E. apply andb_true_iff in D. destruct D as [N D]. apply negb_true_iff in N.
  assert (Q : forall y, In y l -> f x <> f y).
  { intros y I F. apply not_true_iff_false in N. apply N. apply existsb_exists. exists (f y). split; [now apply in_map | apply Z.eqb_eq; exact F]. }
  destruct Ha as [<-|Ha], Hb as [<-|Hb]; [reflexivity | destruct (Q b Hb E) | destruct (Q a Ha); congruence | now apply IH].
Qed.
Lemma good_by_computation v :
  distinct (map h_of (subtrees (en_unit v))) && forallb (fun d => forallb (fun p => attr_okb (snd p)) (e_attrs (d_entry d))) (subtrees (en_unit v)) = true ->
  good_env v.
Proof.
  intros H. apply andb_true_iff in H. destruct H as [D A]. split.
  - intros d1 d2 I1 I2 E. apply subtrees_in in I1. apply subtrees_in in I2. exact (distinct_inj h_of _ d1 d2 D I1 I2 E).
  - intros d a x I J. apply subtrees_in in I. rewrite forallb_forall in A. specialize (A d I). rewrite forallb_forall in A. specialize (A (a, x) J). cbn [snd] in A.
    destruct x; cbn in A |- *; auto; apply andb_true_iff in A; destruct A as [A1 A2]; apply Z.leb_le in A1; apply Z.ltb_lt in A2; unfold in_u64; lia.
Qed.
Example ex_good : good_env ex_env.
Proof. apply good_by_computation. vm_compute. reflexivity. Qed.

(** Facts about this unit follow from running the access functions, by the equivalences of ParserProofs. *)
Lemma ex_node h d : lookup ex_env h = Ok d -> node ex_env h d.
Proof. exact (proj1 (lookup_ok ex_env h d ex_good)). Qed.
Lemma ex_follows h path n h' : path_from ex_env h 0 path = Ok (h', n) -> follows ex_env h path n h'.
Proof.
  intros E. apply (proj1 (path_from_ok ex_env path ex_good h 0 h' n ltac:(unfold in_u64, two64; lia))) in E.
  destruct E as (k & F & -> & _). exact F.
Qed.
Lemma ex_param h f t : generic_entry f ex_env h = Ok t -> type_param ex_env h f t.
Proof.
  unfold generic_entry. intros E. apply bind_ok in E. destruct E as (l & K & E). destruct (children_node ex_env h l ex_good K) as (d & N & ->).
  destruct (find _ _) as [x|] eqn:F; [|discriminate].
  assert (S : forall c, In c (d_kids d) -> tag_eqb (tag_of ex_env (h_of c)) Ttemplate && ok_str_eqb (name_attr ex_env (h_of c)) f = true <->
                 (e_tag (d_entry c) = Ttemplate /\ named c f)).
  { intros c I. pose proof (kid_node _ h d c N I) as N'. rewrite (tag_at _ _ c ex_good N'), andb_true_iff, tag_eqb_eq, (name_at_bool _ _ c _ ex_good N'). reflexivity. }
  apply (find_kid ex_env h d (fun c => tag_eqb (tag_of ex_env c) Ttemplate && ok_str_eqb (name_attr ex_env c) f)
       (fun c => e_tag (d_entry c) = Ttemplate /\ named c f) x ex_good N S) in F.
  destruct F as (c & F & <-). exists d, c. split; [exact N|]. split; [exact F|].
  exact (proj1 (ref_at _ _ c ex_good (kid_node _ h d c N (proj1 (first_of_In _ _ _ F))) _ _) E).
Qed.
Lemma ex_attr d a x : get_attr (d_entry d) a = Some x -> has_attr d a x.
Proof. exact (proj1 (get_attr_spec d a x)). Qed.
Lemma ex_resolves h t : shallow 5 ex_env h = Ok t -> resolves ex_env h t.
Proof. intros E. exists 5%nat. exact E. Qed.
(** Compute the (closed) left side, then compare. *)
Ltac run := try unfold reads_as; match goal with |- ?l = ?r => let x := eval vm_compute in l in transitivity x; [vm_cast_no_check (eq_refl x) | reflexivity] end.
Ltac here := first [ apply ex_node | apply ex_follows | apply ex_param | apply ex_attr | apply ex_resolves ]; run.
Ltac here64 := vm_compute; split; [discriminate | reflexivity].
Lemma ex_first h d t c : lookup ex_env h = Ok d -> find (fun c => tag_eqb (e_tag (d_entry c)) t) (d_kids d) = Some c ->
  first_of (fun c => e_tag (d_entry c) = t) (d_kids d) c.
Proof. intros _ F. apply (find_first (fun c => tag_eqb (e_tag (d_entry c)) t)); [intros; apply tag_eqb_eq | exact F]. Qed.
(** A variant part, and the type of a variant, when it is the second or third child. *)
Ltac vpart_at := unfold variant_part; do 2 eexists; split; [here|]; split; [exists [], []; split; [reflexivity | split; [reflexivity | constructor]] | reflexivity].
Ltac skip := let H := fresh in intros H; first [destruct H as [H _]; discriminate H
   | destruct H as [_ (m & I & N)]; simpl in I; destruct I as [<-|[]]; apply (proj2 (get_attr_spec _ _ _)) in N; discriminate N
   | apply (proj2 (get_attr_spec _ _ _)) in H; discriminate H].

(** C41, C63 *)
Example ex_vec : resolves_fully ex_env 20 (TD (LVec 24 8 16 (TD (LUInt 4) (Some 10))) (Some 20)).
Proof. eapply (vec_layout ex_env 20); [exact ex_good | run | here | here | here | here64 | here64 | here | here]. Qed.
Example ex_string : resolves_fully ex_env 45 (TD (LString 24 8 16 (TD (LUInt 1) (Some 12))) (Some 45)).
Proof. eapply (string_layout ex_env 45); [exact ex_good | run | here | here | here | here | here64 | here64 | here | here]. Qed.
Example ex_path : field_path_offset [st "buf"; st "inner"; st "cap"; st "__0"] ex_env 22 = Ok 16.
Proof.
  apply (field_path_offset_sums ex_env _ _ _ ex_good). exists 11. split; [|here64].
  unfold follows_member. do 4 eexists. split; [here|]. split; [here|]. split; [left; here|]. split; [here|]. split; [here | reflexivity].
Qed.
(** C42 *)
Example ex_children : parse_children (PCons (is_member_offset (st "len")) (PCons (generic (st "T")) PNil)) ex_env 20 = Ok (24, (10, tt)).
Proof.
  eapply parse_children_first; [exact ex_good | here |]. cbn [each_first fst snd]. split; [|split; [|exact I]].
  - exists [21; 22], 23, []. split; [reflexivity|]. split; [run|]. repeat constructor; eexists; run.
  - exists [], 21, [22; 23]. split; [reflexivity|]. split; [run | constructor].
Qed.
(** C64 *)
Example ex_hashmap : resolves_fully ex_env 50
  (TD (LMap (TD (LUInt 4) (Some 10)) (TD (LUInt 8) (Some 11)) (HashMap 8 0 24 16 8 0)) (Some 50)).
Proof.
  eapply (hashmap_layout_partial ex_env 50 55 8 0 24 16 8 0 60 70);
    [exact ex_good | run | here | here | here | here | here64 | here64 | here64 | here | here | | here | here | here | here | here | here].
  exists (struct_ 70 "(u32, u64)" 16 [mem 71 "__0" 8 10; mem 72 "__1" 0 11]). split; [here | left; here].
Qed.
(** The offset of [base] is not added: the control bytes of this map are at offset 8, but 0 is reported. *)
Theorem hashmap_layout_refuted :
  good_env ex_env /\ reads_as ex_env 280 (LMap any any (HashMap 0 0 0 0 0 0)) /\
  (exists x, follows ex_env 280 [st "base"; st "table"; st "table"; st "ctrl"] 8 x) /\
  exists k w, resolves_fully ex_env 280 (TD (LMap k w (HashMap 8 0 24 16 8 0)) (Some 280)).
Proof.
  split; [exact ex_good|]. split; [run|]. split; [eexists; here|]. do 2 eexists. exists 5%nat. run.
Qed.
(** C65 *)
(** The type of a variant; [pre] gives the children before and after it. *)
Ltac vtype pre := do 3 eexists; split; [here|]; split;
  [pre; split; [reflexivity|]; split; [split; [reflexivity | eexists; split; [left; reflexivity | here]]|]; repeat (constructor; [skip|]); constructor|];
  split; [exists [], []; split; [reflexivity | split; [here | constructor]]|]; split; [left; here | here].
Ltac ptr_to := eexists; split; [here | split; [reflexivity | here]].
Lemma ex_some_root : some_type ex_env 90 106.
Proof.
  do 5 eexists. exists 97. eexists. split; [here|]. split; [here|]. split; [left; here|]. split; [vpart_at|]. split; [exists 5%nat; run|].
  split; [|here]. vtype ltac:(eexists [_; _], []).
Qed.
Lemma ex_some_parent : some_type ex_env 120 130.
Proof.
  do 5 eexists. exists 127. eexists. split; [here|]. split; [here|]. split; [left; here|]. split; [vpart_at|]. split; [exists 5%nat; run|].
  split; [|here]. vtype ltac:(eexists [_; _], []).
Qed.
Example ex_btreemap : resolves_fully ex_env 80
  (TD (LMap (TD (LUInt 4) (Some 10)) (TD (LUInt 8) (Some 11)) (BTreeMap 16 0 0 8 (BN 96 8 142 200))) (Some 80)).
Proof.
  eapply (btreemap_layout ex_env 80 0 90 16 106 8 0 110 115 112 142 96 8 120 130 135 132 200); 
   [exact ex_good | run | here | here | exact ex_some_root | here | here | here | ptr_to | here | here | here | here | exact ex_some_parent | here | ptr_to | here | here | here | here | here].
Qed.
(** C70 *)
Example ex_option : resolves_fully ex_env 140 (TD (LOption (st "Option<u32>") (Disc (DUInt 4) 0) 4 (TD (LUInt 4) (Some 10)) 8) (Some 140)).
Proof.
  eapply (option_layout ex_env 140 _ _ _ _ _ 147); [exact ex_good | run | here | here | left; here | vpart_at | exists 5%nat; run | | here | here].
  vtype ltac:(eexists [_; _], []).
Qed.
Example ex_result : resolves_fully ex_env 150
  (TD (LResult (st "Result<u32,u64>") (Disc (DUInt 4) 0) (TD (LUInt 4) (Some 10)) 4 (TD (LUInt 8) (Some 11)) 8 16) (Some 150)).
Proof.
  eapply (result_layout ex_env 150 _ _ _ _ _ 157 _ _ _ 158); [exact ex_good | run | here | here | left; here | vpart_at | exists 5%nat; run | | here | here | | here | here].
  - vtype ltac:(eexists [_], [_]).
  - vtype ltac:(eexists [_; _], []).
Qed.
(** C68 *)
Example ex_rc : resolves_fully ex_env 170 (TD (LSmartPtr (TD (LUInt 4) (Some 10)) 0 16 SRc) (Some 170)).
Proof.
  destruct (smart_pointer_layout_partial ex_env 170 SRc any 0 0 ex_good ltac:(run)) as (_ & H & _).
  eapply (H (or_introl eq_refl)); [here | here64 | here | here | here | here | here].
Qed.
Example ex_refcell : resolves_fully ex_env 180 (TD (LSmartPtr (TD (LUInt 4) (Some 10)) 8 0 SRefCell) (Some 180)).
Proof.
  destruct (smart_pointer_layout_partial ex_env 180 SRefCell any 0 0 ex_good ltac:(run)) as (_ & _ & H & _).
  eapply (H (or_intror (or_introl eq_refl))); [here | here64 | here | here].
Qed.
Example ex_rwlock : reads_as ex_env 270 (LSmartPtr any 0 0 SRwLock).
Proof. run. Qed.
(** C66 *)
Example ex_struct : resolves_fully ex_env 200
  (TD (LStruct (st "Point") 48 8 [(st "x", 40, TD (LUInt 4) (Some 10)); (st "inner", 0, TD (LVec 24 8 16 (TD (LUInt 4) (Some 10))) (Some 20));
     (st "other", 32, TD (LAlias (st "Point")) (Some 200))]) (Some 200)).
Proof.
  eapply struct_fields; [exact ex_good | exact I | here | reflexivity | |].
  - intros c Hc. simpl in Hc. destruct Hc as [<-|[<-|[<-|[]]]]; discriminate.
  - do 4 eexists. split; [reflexivity|]. split; [here|]. split; [left; here|]. split; [left; here|].
    repeat constructor; try (left; here); try here; (eexists; split; [here | here]).
Qed.
Example ex_alias : resolves ex_env 200 (TD (LAlias (st "Point")) (Some 200)).
Proof. eapply user_type_is_alias; [exact ex_good | exact I | here | here]. Qed.
(** C67: the reported place of the discriminant is not that of the member DW_AT_discr refers to. *)
Example ex_enum : resolves_fully ex_env 210
  (TD (LEnum (st "Shape") (Disc (DUInt 4) 0)
     [(st "Dot", Some 0, TD (LAlias (st "Dot")) (Some 217)); (st "Line", Some 1, TD (LAlias (st "Line")) (Some 218))] 16) (Some 210)).
Proof.
  eapply (enum_variants ex_env 210); [exact ex_good | exact I | here | reflexivity | here | left; here | vpart_at | here | exists 5%nat; run |].
  constructor; [|constructor; [|constructor]];
  (split; [reflexivity|]; split; [left; here|]; do 2 eexists; split; [exists [], []; split; [reflexivity | split; [reflexivity | constructor]]|]; split; [here|]; split; [left; here|]; split; [here | here]).
Qed.
Theorem discriminant_offset_refuted :
  exists p d m o, good_env ex_env /\ variant_part ex_env 210 p /\ node ex_env p d /\ refers d At_discr m /\
    (exists dm, node ex_env m dm /\ located dm o) /\ exists k, discriminant_of ex_env p (Disc k 0) /\ o <> 0.
Proof.
  exists 211. do 2 eexists. exists 8. split; [exact ex_good|]. split; [vpart_at|]. split; [here|]. split; [here|]. split; [eexists; split; [here | left; here]|].
  eexists. split; [exists 5%nat; run | discriminate].
Qed.
(** A C-like enum. *)
Example ex_c_enum : resolves_fully ex_env 260 (TD (LCEnum (st "Flag") (DUInt 1) [(st "Off", 0); (st "On", 1)] 1) (Some 260)).
Proof.
  eapply (c_enum_values ex_env 260); [exact ex_good | exact I | here | reflexivity | here | left; here | here | here | right; split; reflexivity |].
  constructor; [|constructor; [|constructor]]; (split; [here | left; here]).
Qed.
(** C71 *)
Example ex_function : forall ty, ~ resolves_fully ex_env 230 ty.
Proof.
  eapply function_type_unresolvable; [exact ex_good | exact I | here | reflexivity | here | here |].
  intros t H. apply (proj2 (get_attr_spec _ _ _)) in H. discriminate.
Qed.
Theorem function_type_refuted :
  ~ (forall v h d ty, good_env v -> user_type v h -> node v h d -> e_tag (d_entry d) = Tsubroutine -> (resolves_fully v h ty <-> function_type_says v h d ty)).
Proof.
  intros H. assert (N : exists d, node ex_env 230 d /\ e_tag (d_entry d) = Tsubroutine /\ function_type_says ex_env 230 d (TD (LFunction (Some (TD (LUInt 8) (Some 11))) [TD (LUInt 4) (Some 10)]) (Some 230))).
  { eexists. split; [here|]. split; [reflexivity|]. do 2 eexists. split; [reflexivity|]. split; [eexists; split; [here | here]|]. constructor; [|constructor]. eexists. split; [here | here]. }
  destruct N as (d & N & T & S). apply (proj2 (H ex_env 230 d _ ex_good I N T)) in S. exact (ex_function _ S).
Qed.
(** A function type without result, and a function pointer to the one with a result. *)
Example ex_procedure : resolves_fully ex_env 232 (TD (LFunction None [TD (LUInt 4) (Some 10)]) (Some 232)).
Proof.
  eapply function_type_partial; [exact ex_good | exact I | here | reflexivity | intros t H; apply (proj2 (get_attr_spec _ _ _)) in H; discriminate |].
  do 2 eexists. split; [reflexivity|]. split; [intros t H; apply (proj2 (get_attr_spec _ _ _)) in H; discriminate|]. constructor; [|constructor]. eexists. split; [here | here].
Qed.
Example ex_function_pointer : resolves_fully ex_env 235 (TD (LFunction (Some (TD (LAlias (st "unknown")) (Some 230))) []) (Some 235)).
Proof.
  eapply (function_pointer_unknown ex_env 235); [exact ex_good | run | here | reflexivity | here | here | | exact I].
  intros n H. apply (proj2 (get_attr_spec _ _ _)) in H. discriminate.
Qed.
(** C72 *)
Example ex_tuple : resolves ex_env 240 (TD (LTuple [(8, TD (LUInt 4) (Some 10)); (0, TD (LUInt 8) (Some 11))] 16) (Some 240)).
Proof.
  eapply tuple_layout; [exact ex_good | run | here |]. do 2 eexists. split; [reflexivity|]. split; [left; here|].
  constructor; [|constructor; [|constructor]]; (split; [left; here | eexists; split; [here | here]]).
Qed.
Example ex_slice : resolves_fully ex_env 250 (TD (LSlice (TD (LUInt 4) (Some 10)) 0 8) (Some 250)).
Proof. eapply (slice_layout ex_env 250); [exact ex_good | run | here | here | here | here | here | reflexivity]. Qed.
Example ex_str : resolves_fully ex_env 255 (TD (LStrSlice 0 8) (Some 255)).
Proof. eapply (str_slice_layout ex_env 255); [exact ex_good | run | here | here]. Qed.
Example ex_ref : resolves_fully ex_env 258 (TD (LReference false (TD (LAlias (st "Point")) (Some 200))) (Some 258)).
Proof.
  eapply (proj1 (proj2 (pointer_like_layout ex_env 258 _ 200 _ ex_good ltac:(here) ltac:(here) ex_alias))). run.
Qed.
