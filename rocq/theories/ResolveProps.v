(** C63-C71: type layouts recovered from DWARF. *)
From Coq Require Import Ascii String List ZArith Lia Bool.
From Verif Require Import Base NumText DieModel DieSpec ModuleModel TypesModel ParserModel ParserSpec ParserProofs ParserProps ResolveModel ResolveSpec ResolveProofs ResolveProofs2.
Import ListNotations.
Open Scope Z_scope.

(** ** C69: one answer, located at the type's DIE *)
(** Resolving a type gives one answer whatever the recursion budget, and its location is the DIE asked for. *)
Theorem resolution_deterministic v h t t' : resolves v h t -> resolves v h t' -> t = t' /\ locOf t = Some h.
Proof. intros [n E] [m E']. split; [eapply shallow_agree; eauto | eapply shallow_loc; eauto]. Qed.
Lemma resolve_ple n m : (n <= m)%nat -> ple (resolve_type n) (resolve_type m).
Proof.
  intros L. pose proof (shallow_mono n m L) as S. intros v' h'. unfold resolve_type. apply rle_bind; [apply ple_builtin; exact S|]. intros [x|]; [apply rle_refl|].
    apply rle_bind; [|intros; apply rle_refl]. destruct (tag_of v' h'); try apply rle_refl.
    - apply rle_bind; [apply rle_refl|]. intros l. destruct (existsb _ _).
      + unfold enum_def. apply rle_bind; [apply rle_refl|]. intros (a & b & c). apply rle_bind; [apply ple_disc; exact S|]. intros.
        apply rle_bind; [apply ple_each, ple_enum_variant; exact S|]. intros; apply rle_refl.
      + unfold struct_type. apply rle_bind; [apply rle_refl|]. intros. apply rle_bind; [apply rle_refl|]. intros. apply rle_bind; [apply rle_refl|]. intros.
        apply rle_bind; [apply rle_refl|]. intros. apply rle_bind; [|intros; apply rle_refl]. apply rle_mapM. intros c.
        apply rle_bind; [apply rle_refl|]. intros. apply rle_bind; [apply rle_refl|]. intros. apply rle_bind; [apply ple_entry; exact S|]. intros; apply rle_refl.
    - unfold c_enum_def. apply rle_bind; [|intros; apply rle_refl]. apply ple_and; [apply ple_refl|]. apply ple_and; [apply ple_refl|]. apply ple_map_res. apply ple_entry. exact S.
    - apply rle_bind; [apply ple_entry; exact S|]. intros; apply rle_refl.
    - apply rle_bind; [|intros; apply rle_bind; [apply ple_args; exact S | intros; apply rle_refl]]. destruct (entry_type v' h'); try apply rle_refl. apply rle_some, ple_entry. exact S.
Qed.
Lemma resolve_mono n m v h t : (n <= m)%nat -> resolve_type n v h = Ok t -> resolve_type m v h = Ok t.
Proof. intros L E. rewrite (resolve_ple n m L v h); [exact E | congruence]. Qed.
Theorem full_resolution_deterministic v h t t' : resolves_fully v h t -> resolves_fully v h t' -> t = t' /\ locOf t = Some h.
Proof.
  intros [n E] [m E']. split.
  - apply (resolve_mono n (max n m)) in E; [|lia]. apply (resolve_mono m (max n m)) in E'; [|lia]. congruence.
  - unfold resolve_type in E. apply bind_ok in E. destruct E as (o & B & E). destruct o as [t0|].
    + injection E as <-. apply (shallow_loc (S n) v h). cbn [shallow]. rewrite B. reflexivity.
    + apply bind_ok in E. destruct E as (l & _ & E). injection E as <-. reflexivity.
Qed.

(** A type treated specially resolves the same way as a component and completely. *)
Lemma builtin_resolves v h n t : as_builtin (shallow n) v h = Ok (Some t) -> resolves v h t /\ resolves_fully v h t.
Proof. intros B. split; [exists (S n) | exists n]; [cbn [shallow] | unfold resolve_type]; rewrite B; reflexivity. Qed.
Ltac builtin n R := apply (builtin_resolves _ _ n); unfold as_builtin; rewrite R; cbn [bind].

(** ** C63: Vec and String *)
Theorem vec_layout v h l d c p q r t e a0 a1 a2 a3 :
  good_env v -> reads_as v h (LVec a0 a1 a2 a3) ->
  follows v h [st "buf"; st "inner"; st "ptr"] d p -> follows v h [st "len"] l q ->
  follows v h [st "buf"; st "inner"; st "cap"; st "__0"] c r -> in_u64 d -> in_u64 c ->
  type_param v h (st "T") t -> resolves v t e ->
  resolves v h (TD (LVec l d c e) (Some h)) /\ resolves_fully v h (TD (LVec l d c e) (Some h)).
Proof.
  intros G R F1 F2 F3 U1 U2 T [n E]. builtin n R. unfold vec, p_map. rewrite (vec_fields_ok v G _ h l d c p q r t e); auto.
Qed.
Theorem string_layout v h o hv l d c p q r t e a0 a1 a2 a3 :
  good_env v -> reads_as v h (LString a0 a1 a2 a3) -> follows v h [st "vec"] o hv ->
  follows v hv [st "buf"; st "inner"; st "ptr"] d p -> follows v hv [st "len"] l q ->
  follows v hv [st "buf"; st "inner"; st "cap"; st "__0"] c r -> in_u64 d -> in_u64 c ->
  type_param v hv (st "T") t -> resolves v t e ->
  resolves v h (TD (LString l d c e) (Some h)) /\ resolves_fully v h (TD (LString l d c e) (Some h)).
Proof.
  intros G R F0 F1 F2 F3 U1 U2 T [n E]. builtin n R. unfold string_type, p_map. destruct (member_ok v G _ _ _ _ F0) as (m & M & Nm & L & Ty).
  unfold p_then. rewrite M. cbn [bind]. rewrite (type_ok v G _ m hv Nm Ty). cbn [bind]. rewrite (vec_fields_ok v G _ hv l d c p q r t e); auto.
Qed.
(** Conversely a Vec layout is only reported when the members are there and the offsets are theirs. *)
Theorem vec_layout_sound v h ty a0 a1 a2 a3 :
  good_env v -> reads_as v h (LVec a0 a1 a2 a3) -> resolves v h ty ->
  exists l d c e dh m1 m2 m3 p r, ty = TD (LVec l d c e) (Some h) /\ node v h dh /\ In m1 (d_kids dh) /\ In m2 (d_kids dh) /\ In m3 (d_kids dh) /\
    follows_member v (h_of m1) [st "buf"; st "inner"; st "ptr"] d p /\ named m2 (st "len") /\ located m2 l /\
    follows_member v (h_of m3) [st "buf"; st "inner"; st "cap"; st "__0"] c r /\ exists m4 t, In m4 (d_kids dh) /\
    e_tag (d_entry m4) = Ttemplate /\ named m4 (st "T") /\ typed m4 t /\ resolves v t e.
Proof.
  intros G R [n E]. destruct n as [|n]; [discriminate|]. cbn [shallow] in E. apply bind_ok in E. destruct E as (o & B & E). unfold as_builtin in B.
  unfold reads_as in R. rewrite R in B. apply bind_ok in B. destruct B as (lay & V & B). unfold vec in V. unfold rmap, p_map in V.
  apply bind_ok in V. destruct V as (x & V & X). injection X as <-. injection B as <-. injection E as <-.
  apply bind_ok in V. destruct V as ([[[l d] c] e] & V & X). injection X as <-. unfold vec_fields, p_map in V. apply bind_ok in V.
  destruct V as ((d' & l' & c' & e' & u) & V & X). injection X as -> -> -> ->.
  destruct (children v h) as [ch| | |] eqn:C; try (unfold parse_children in V; rewrite C in V; discriminate).
  destruct (children_node v h ch G C) as (dh & N & ->). apply (parse_children_list _ v h _ _ C) in V. cbn [each_first fst snd] in V. destruct V as (V1 & V2 & V3 & V4 & _).
  assert (W : forall T (p : parser T) a, first_accepts p v (map h_of (d_kids dh)) a -> exists m, In m (d_kids dh) /\ node v (h_of m) m /\ p v (h_of m) = Ok a).
  { intros T p a (l1 & k & l2 & Q & A & _). assert (In k (map h_of (d_kids dh))) as I by (rewrite Q; apply in_or_app; right; left; reflexivity).
    apply in_map_iff in I. destruct I as (m & <- & I). exists m. repeat split; auto. destruct (kid_node v h dh m N I); assumption. }
  apply W in V1, V2, V3, V4. destruct V1 as (m1 & I1 & N1 & P1), V2 as (m2 & I2 & N2 & P2), V3 as (m3 & I3 & N3 & P3), V4 as (m4 & I4 & N4 & P4).
  apply (field_path_offset_sums v _ _ _ G) in P1, P3. destruct P1 as (p1 & P1 & _), P3 as (p3 & P3 & _).
  unfold is_member_offset in P2. apply bind_ok in P2. destruct P2 as (s & Nm & P2). destruct (str_eqb s (st "len")) eqn:S; [|discriminate]. apply str_eqb_eq in S. subst s.
  unfold resolved_generic, p_then in P4. apply bind_ok in P4. destruct P4 as (t & P4 & P5). unfold generic in P4.
  rewrite (tag_at v _ m4 G N4) in P4. destruct (tag_eqb (e_tag (d_entry m4)) Ttemplate) eqn:Tg; [|discriminate]. apply tag_eqb_eq in Tg.
  apply bind_ok in P4. destruct P4 as (s & Nm4 & P4). destruct (str_eqb s (st "T")) eqn:S; [|discriminate]. apply str_eqb_eq in S. subst s.
  exists l, d, c, e, dh, m1, m2, m3, p1, p3. split; [reflexivity|]. split; [exact N|]. split; [exact I1|]. split; [exact I2|]. split; [exact I3|]. split; [exact P1|].
  split; [exact (proj1 (name_at v _ m2 G N2 _) Nm)|]. split; [exact (proj1 (udata_at v _ m2 G N2 _ _) P2)|]. split; [exact P3|].
  exists m4, t. split; [exact I4|]. split; [exact Tg|]. split; [exact (proj1 (name_at v _ m4 G N4 _) Nm4)|]. split; [exact (proj1 (ref_at v _ m4 G N4 _ _) P4)|]. exists n. exact P5.
Qed.

(** ** C64: hash maps *)
Lemma generics2 v h sh f g tk tv ek ev : good_env v -> type_param v h f tk -> type_param v h g tv -> sh v tk = Ok ek -> sh v tv = Ok ev ->
  parse_children (PCons (resolved_generic sh f) (PCons (resolved_generic sh g) PNil)) v h = Ok (ek, (ev, tt)).
Proof.
  intros G TK TV E1 E2. assert (exists d, node v h d) as [d N] by (destruct TK as (d & ? & N & _); eauto).
  apply (parse_children_complete _ v h (map h_of (d_kids d)) _ (children_at v h d G N)). cbn [each_first fst snd].
  repeat apply conj; [eapply slot_generic; eauto | eapply slot_generic; eauto | exact I].
Qed.
Lemma resolves2 v t1 t2 e1 e2 : resolves v t1 e1 -> resolves v t2 e2 -> exists n, shallow n v t1 = Ok e1 /\ shallow n v t2 = Ok e2.
Proof.
  intros [n1 E1] [n2 E2]. exists (max n1 n2). split; [rewrite (shallow_mono n1 (max n1 n2)) | rewrite (shallow_mono n2 (max n1 n2))]; try assumption; try lia; congruence.
Qed.
(** The standard HashMap wraps a hashbrown map in a member [base] (at offset 0): its fields are at the offsets found by
    following base.table.table.*, keys and values where the pair type (K, V) has them. *)
Theorem hashmap_layout_partial v h hb m c i ps k w tt0 pair x1 x2 x3 x4 x5 o tk tv ek ev a0 a1 b0 b1 b2 b3 b4 b5 :
  good_env v -> reads_as v h (LMap a0 a1 (HashMap b0 b1 b2 b3 b4 b5)) -> follows v h [st "base"] 0 hb ->
  follows v h [st "base"; st "table"; st "table"; st "bucket_mask"] m x1 ->
  follows v h [st "base"; st "table"; st "table"; st "ctrl"] c x2 ->
  follows v h [st "base"; st "table"; st "table"; st "items"] i x3 -> in_u64 m -> in_u64 c -> in_u64 i ->
  follows v hb [st "table"] o tt0 -> type_param v tt0 (st "T") pair -> has_size v pair ps ->
  follows v pair [st "__0"] k x4 -> follows v pair [st "__1"] w x5 ->
  type_param v h (st "K") tk -> type_param v h (st "V") tv -> resolves v tk ek -> resolves v tv ev ->
  let ty := TD (LMap ek ev (HashMap m c i ps k w)) (Some h) in resolves v h ty /\ resolves_fully v h ty.
Proof.
  intros G R B F1 F2 F3 U1 U2 U3 F0 T Sz K W TK TV E1 E2 ty. destruct (resolves2 _ _ _ _ _ E1 E2) as (n & E1' & E2').
  assert (Hm : forall f g j z x, follows v h [st "base"; f; g; j] z x -> follows v hb [f; g; j] z x).
  { intros f g j z x F. destruct (follows_split v _ _ _ _ _ _ F) as (n1 & t1 & n2 & A1 & A2 & ->).
    pose proof (member_both v G _ _ _ _ A1) as M1. rewrite (member_both v G _ _ _ _ B) in M1. injection M1 as <- <-. exact A2. }
  builtin n R. unfold map_type. rewrite (generics2 v h _ _ _ tk tv ek ev) by auto. cbn [bind]. rewrite (member_type v G _ _ _ _ B). cbn [bind].
  rewrite (hashbrown_ok v G hb m c i ps k w tt0 pair x1 x2 x3 x4 x5 o); auto.
Qed.
(** A hashbrown map used directly has no [base]. *)
Theorem hashbrown_layout v h d m c i ps k w tt0 pair x1 x2 x3 x4 x5 o tk tv ek ev a0 a1 b0 b1 b2 b3 b4 b5 :
  good_env v -> reads_as v h (LMap a0 a1 (HashMap b0 b1 b2 b3 b4 b5)) -> node v h d -> (forall x, In x (d_kids d) -> ~ named x (st "base")) ->
  follows v h [st "table"; st "table"; st "bucket_mask"] m x1 -> follows v h [st "table"; st "table"; st "ctrl"] c x2 ->
  follows v h [st "table"; st "table"; st "items"] i x3 -> in_u64 m -> in_u64 c -> in_u64 i ->
  follows v h [st "table"] o tt0 -> type_param v tt0 (st "T") pair -> has_size v pair ps ->
  follows v pair [st "__0"] k x4 -> follows v pair [st "__1"] w x5 ->
  type_param v h (st "K") tk -> type_param v h (st "V") tv -> resolves v tk ek -> resolves v tv ev ->
  let ty := TD (LMap ek ev (HashMap m c i ps k w)) (Some h) in resolves v h ty /\ resolves_fully v h ty.
Proof.
  intros G R N B F1 F2 F3 U1 U2 U3 F0 T Sz K W TK TV E1 E2 ty. destruct (resolves2 _ _ _ _ _ E1 E2) as (n & E1' & E2').
  builtin n R. unfold map_type. rewrite (generics2 v h _ _ _ tk tv ek ev) by auto. cbn [bind].
  assert (M : exists e, get_member (st "base") v h = Err e).
  { destruct (get_member_err (st "base") v h) as [[r Mr]|M]; [|exact M]. apply (member_at v h d _ _ G N) in Mr. destruct Mr as (x & Fx & _).
    apply first_of_In in Fx. destruct Fx. exfalso. eapply B; eauto. }
  destruct M as [e M]. unfold p_then at 1. rewrite M. cbn [bind]. rewrite (hashbrown_ok v G h m c i ps k w tt0 pair x1 x2 x3 x4 x5 o); auto.
Qed.

(** ** C65: BTreeMap *)
(** How the variants of the variant part [p] are told apart, as reported. *)
Definition discriminant_of (v : env) (p : Z) (dc : disc) : Prop := exists n, enum_discriminant (shallow n) v p = Ok dc.
(** All offsets the reader uses are those of the members: length and root of the map, height and node of the root
    reference, len, keys, vals of a leaf, edges of an internal node. The types are reached through Option's Some and
    NonNull's pointer. *)
Definition some_type (v : env) (opt x : Z) : Prop :=
  exists d name n p dc t off, node v opt d /\ named d name /\ unsigned d At_byte_size n /\ variant_part v opt p /\
    discriminant_of v p dc /\ variant_type v p (st "Some") t /\ follows v t [st "__0"] off x.
Theorem btreemap_layout v h ro ropt lo nref ho no nptr leaf leafp len keys vals popt pp inner innerp edges x1 x2 x3 x4 x5 x6 x7 tk tv ek ev a0 a1 b0 b1 b2 b3 b4 :
  good_env v -> reads_as v h (LMap a0 a1 (BTreeMap b0 b1 b2 b3 b4)) ->
  follows v h [st "root"] ro ropt -> follows v h [st "length"] lo x1 ->
  some_type v ropt nref -> follows v nref [st "height"] ho x2 -> follows v nref [st "node"] no nptr ->
  follows v nptr [st "pointer"] 0 leafp -> points_to v leafp leaf ->
  follows v leaf [st "len"] len x3 -> follows v leaf [st "keys"] keys x4 -> follows v leaf [st "vals"] vals x5 ->
  follows v leaf [st "parent"] x7 popt -> some_type v popt pp ->
  follows v pp [st "pointer"] 0 innerp -> points_to v innerp inner -> follows v inner [st "edges"] edges x6 ->
  type_param v h (st "K") tk -> type_param v h (st "V") tv -> resolves v tk ek -> resolves v tv ev ->
  let ty := TD (LMap ek ev (BTreeMap lo ro no ho (BN keys vals len edges))) (Some h) in resolves v h ty /\ resolves_fully v h ty.
Proof.
  intros G R F1 F2 S1 F3 F4 F5 P1 F6 F7 F8 F9 S2 F10 P2 F11 TK TV [n1 E1] [n2 E2] ty.
  destruct S1 as (d1 & nm1 & sz1 & p1 & dc1 & t1 & off1 & A1 & A2 & A3 & A4 & [k1 A5] & A6 & A7).
  destruct S2 as (d2 & nm2 & sz2 & p2 & dc2 & t2 & off2 & B1 & B2 & B3 & B4 & [k2 B5] & B6 & B7).
  set (n := max (max k1 k2) (max n1 n2)).
  assert (E1' : shallow n v tk = Ok ek) by (rewrite (shallow_mono n1 n); [exact E1 | unfold n; lia | congruence]).
  assert (E2' : shallow n v tv = Ok ev) by (rewrite (shallow_mono n2 n); [exact E2 | unfold n; lia | congruence]).
  assert (A5' : enum_discriminant (shallow n) v p1 = Ok dc1) by (rewrite (ple_disc (shallow k1) (shallow n)); [exact A5 | apply shallow_mono; unfold n; lia | congruence]).
  assert (B5' : enum_discriminant (shallow n) v p2 = Ok dc2) by (rewrite (ple_disc (shallow k2) (shallow n)); [exact B5 | apply shallow_mono; unfold n; lia | congruence]).
  pose proof (option_entry_ok v G (shallow n) ropt d1 nm1 sz1 p1 dc1 t1 off1 nref A1 A2 A3 A4 A5' A6 A7) as O1.
  pose proof (option_entry_ok v G (shallow n) popt d2 nm2 sz2 p2 dc2 t2 off2 pp B1 B2 B3 B4 B5' B6 B7) as O2.
  builtin n R. unfold map_type. rewrite (generics2 v h _ _ _ tk tv ek ev) by auto. cbn [bind]. unfold btree_map.
  destruct (follows_node v _ _ _ _ _ F1) as [d N]. destruct (follows_node v _ _ _ _ _ F3) as [dn Nn]. destruct (follows_node v _ _ _ _ _ F6) as [dl Nl].
  rewrite (parse_children_complete _ v h (map h_of (d_kids d)) (ek, (ev, ((ro, ropt), (lo, tt)))) (children_at v h d G N)).
  2: { cbn [each_first fst snd]. split; [eapply slot_generic; eauto|]. split; [eapply slot_generic; eauto|].
       split; [eapply slot_field; eauto; intros; now apply both_ok|]. split; [|exact I]. eapply slot_field; eauto. intros; eapply offset_ok; eauto. }
  cbn [bind]. rewrite O1. cbn [bind].
  rewrite (parse_children_complete _ v nref (map h_of (d_kids dn)) (ho, ((no, nptr), tt)) (children_at v nref dn G Nn)).
  2: { cbn [each_first fst snd]. split; [eapply slot_field; eauto; intros; eapply offset_ok; eauto|]. split; [eapply slot_field; eauto; intros; now apply both_ok | exact I]. }
  cbn [bind]. rewrite (nonnull_ok v G _ _ _ F5 P1). cbn [bind].
  rewrite (parse_children_complete _ v leaf (map h_of (d_kids dl)) (len, (keys, (vals, tt))) (children_at v leaf dl G Nl)).
  2: { cbn [each_first fst snd]. repeat apply conj; try exact I; eapply slot_field; eauto; intros; eapply offset_ok; eauto. }
  cbn [bind]. rewrite (member_type v G _ _ _ _ F9). cbn [bind]. rewrite O2. cbn [bind].
  rewrite (nonnull_ok v G _ _ _ F10 P2). cbn [bind]. rewrite (member_off v G _ _ _ _ F11). reflexivity.
Qed.

(** ** C70: Option and Result *)
Theorem option_layout v h d name n p dc t off x e a0 a1 a2 a3 a4 :
  good_env v -> reads_as v h (LOption a0 a1 a2 a3 a4) -> node v h d -> named d name -> unsigned d At_byte_size n ->
  variant_part v h p -> discriminant_of v p dc -> variant_type v p (st "Some") t -> follows v t [st "__0"] off x ->
  resolves v x e ->
  let ty := TD (LOption name dc off e n) (Some h) in resolves v h ty /\ resolves_fully v h ty.
Proof.
  intros G R N Nm Sz VP [k D] V F [n1 E] ty. set (m := max k n1).
  assert (E' : shallow m v x = Ok e) by (rewrite (shallow_mono n1 m); [exact E | unfold m; lia | congruence]).
  assert (D' : enum_discriminant (shallow m) v p = Ok dc) by (rewrite (ple_disc (shallow k) (shallow m)); [exact D | apply shallow_mono; unfold m; lia | congruence]).
  builtin m R. unfold option_def. rewrite (option_entry_ok v G (shallow m) h d name n p dc t off x) by assumption. cbn [bind]. rewrite E'. reflexivity.
Qed.
Theorem result_layout v h d name n p dc t1 o1 x1 e1 t2 o2 x2 e2 a0 a1 a2 a3 a4 a5 a6 :
  good_env v -> reads_as v h (LResult a0 a1 a2 a3 a4 a5 a6) -> node v h d -> named d name -> unsigned d At_byte_size n ->
  variant_part v h p -> discriminant_of v p dc ->
  variant_type v p (st "Ok") t1 -> follows v t1 [st "__0"] o1 x1 -> resolves v x1 e1 ->
  variant_type v p (st "Err") t2 -> follows v t2 [st "__0"] o2 x2 -> resolves v x2 e2 ->
  let ty := TD (LResult name dc e1 o1 e2 o2 n) (Some h) in resolves v h ty /\ resolves_fully v h ty.
Proof.
  intros G R N Nm Sz VP [k D] V1 F1 [n1 E1] V2 F2 [n2 E2] ty. set (m := max k (max n1 n2)).
  assert (E1' : shallow m v x1 = Ok e1) by (rewrite (shallow_mono n1 m); [exact E1 | unfold m; lia | congruence]).
  assert (E2' : shallow m v x2 = Ok e2) by (rewrite (shallow_mono n2 m); [exact E2 | unfold m; lia | congruence]).
  assert (D' : enum_discriminant (shallow m) v p = Ok dc) by (rewrite (ple_disc (shallow k) (shallow m)); [exact D | apply shallow_mono; unfold m; lia | congruence]).
  builtin m R. unfold result_def. unfold p_and at 1. rewrite (name_ok v G h d name N Nm). cbn [bind]. unfold p_and at 1.
  rewrite (proj2 (udata_at v h d G N _ _) Sz). cbn [bind]. destruct (variant_part_ok v G h p VP) as [M [dp Np]]. unfold p_then at 1. rewrite M. cbn [bind].
  unfold p_and at 1. rewrite D'. cbn [bind].
  destruct (slot_variant v G p (st "Ok") t1 (shallow m) o1 x1 e1 dp Np V1 F1 E1') as [w1 W1]. destruct (slot_variant v G p (st "Err") t2 (shallow m) o2 x2 e2 dp Np V2 F2 E2') as [w2 W2].
  rewrite (parse_children_complete _ v p (map h_of (d_kids dp)) ((w1, (o1, e1)), ((w2, (o2, e2)), tt)) (children_at v p dp G Np)); [reflexivity|].
  cbn [each_first fst snd]. auto.
Qed.

(** ** C68: smart pointers and cells *)
(** Box: a pointer type. Rc and Arc: the pointer is at ptr.pointer, the value at [value] (Rc) or [data] (Arc) of the
    counted allocation. Mutex, RefCell, Cell: data.value or value.value. UnsafeCell: value. *)
Theorem smart_pointer_layout_partial v h sv a0 a1 a2 :
  good_env v -> reads_as v h (LSmartPtr a0 a1 a2 sv) ->
  (sv = SBox -> forall t e d, node v h d -> typed d t -> resolves v t e ->
     let ty := TD (LSmartPtr e 0 0 sv) (Some h) in resolves v h ty /\ resolves_fully v h ty) /\
  (sv = SRc \/ sv = SArc -> forall o ip dp inner doff x t e,
     follows v h [st "ptr"; st "pointer"] o ip -> in_u64 o -> node v ip dp -> typed dp inner ->
     follows v inner [match sv with SArc => st "data" | _ => st "value" end] doff x -> type_param v h (st "T") t -> resolves v t e ->
     let ty := TD (LSmartPtr e o doff sv) (Some h) in resolves v h ty /\ resolves_fully v h ty) /\
  (sv = SMutex \/ sv = SRefCell \/ sv = SCell -> forall o x t e,
     follows v h [match sv with SMutex => st "data" | _ => st "value" end; st "value"] o x -> in_u64 o -> type_param v h (st "T") t -> resolves v t e ->
     let ty := TD (LSmartPtr e o 0 sv) (Some h) in resolves v h ty /\ resolves_fully v h ty) /\
  (sv = SUnsafeCell -> forall o x t e, follows v h [st "value"] o x -> type_param v h (st "T") t -> resolves v t e ->
     let ty := TD (LSmartPtr e o 0 sv) (Some h) in resolves v h ty /\ resolves_fully v h ty).
Proof.
  intros G R.
  assert (GE : forall t, type_param v h (st "T") t -> generic_entry (st "T") v h = Ok t).
  { intros t (d & c & N & F & Ty). unfold generic_entry. rewrite (children_at v h d G N). cbn [bind].
    assert (Nc : node v (h_of c) c) by (eapply kid_node; [exact N | apply (first_of_In _ _ _ F)]).
    assert (S : forall c', In c' (d_kids d) -> tag_eqb (tag_of v (h_of c')) Ttemplate && ok_str_eqb (name_attr v (h_of c')) (st "T") = true <->
                 (e_tag (d_entry c') = Ttemplate /\ named c' (st "T"))).
    { intros c' I. pose proof (kid_node v h d c' N I) as N'. rewrite (tag_at v _ c' G N'), andb_true_iff, tag_eqb_eq, (name_at_bool v _ c' _ G N'). reflexivity. }
    rewrite (proj2 (find_kid v h d (fun c => tag_eqb (tag_of v c) Ttemplate && ok_str_eqb (name_attr v c) (st "T"))
       (fun c => e_tag (d_entry c) = Ttemplate /\ named c (st "T")) (h_of c) G N S)); [apply (type_ok v G _ c t Nc Ty) | exists c; auto]. }
  split; [|split; [|split]].
  - intros -> t e d N Ty [n E]. builtin n R. unfold smart_ptr_type, entry_shallow, p_then. rewrite (type_ok v G h d t N Ty). cbn [bind]. rewrite E. reflexivity.
  - intros Q o ip dp inner doff x t e F U Np Tp Fi T [n E].
    destruct (follows_split v _ _ _ _ _ _ F) as (o1 & nn & o2 & F1 & F2 & ->). destruct (member_ok v G _ _ _ _ F1) as (m1 & M1 & N1 & L1 & T1).
    destruct (member_ok v G _ _ _ _ F2) as (m2 & M2 & N2 & L2 & T2).
    destruct Q as [-> | ->]; builtin n R; unfold smart_ptr_type; rewrite (GE t T); cbn [bind]; rewrite E; cbn [bind]; rewrite M1; cbn [bind];
      rewrite (offset_ok v G _ m1 o1 N1 L1); cbn [bind]; rewrite (type_ok v G _ m1 nn N1 T1); cbn [bind]; rewrite M2; cbn [bind];
      rewrite (offset_ok v G _ m2 o2 N2 L2); cbn [bind]; rewrite (proj2 (add64_ok o1 o2 (o1 + o2)) (conj eq_refl U)); cbn [bind];
      rewrite (type_ok v G _ m2 ip N2 T2); cbn [bind]; rewrite (type_ok v G _ dp inner Np Tp); cbn [bind];
      rewrite (member_udata_ok v G _ _ _ _ Fi); reflexivity.
  - intros Q o x t e F U T [n E]. destruct (follows_split v _ _ _ _ _ _ F) as (o1 & cell & o2 & F1 & F2 & ->). destruct (member_ok v G _ _ _ _ F1) as (m1 & M1 & N1 & L1 & T1).
    destruct Q as [-> |[-> | ->]]; builtin n R; unfold smart_ptr_type; rewrite (GE t T); cbn [bind]; rewrite E; cbn [bind]; rewrite M1; cbn [bind];
      rewrite (offset_ok v G _ m1 o1 N1 L1); cbn [bind]; rewrite (type_ok v G _ m1 cell N1 T1); cbn [bind];
      rewrite (member_udata_ok v G _ _ _ _ F2); cbn [bind]; rewrite (proj2 (add64_ok o1 o2 (o1 + o2)) (conj eq_refl U)); reflexivity.
  - intros -> o x t e F T [n E]. builtin n R. unfold smart_ptr_type. rewrite (GE t T). cbn [bind]. rewrite E. cbn [bind]. rewrite (member_udata_ok v G _ _ _ _ F). reflexivity.
Qed.
(** RwLock is not implemented: the code panics. *)
Theorem rwlock_panics v h n a0 a1 a2 : reads_as v h (LSmartPtr a0 a1 a2 SRwLock) -> resolve_type n v h = Panic "not yet implemented".
Proof. intros R. unfold resolve_type, as_builtin. rewrite R. reflexivity. Qed.

(** ** C66: user structs *)
Lemma user_none v h sh : user_type v h -> as_builtin sh v h = Ok None.
Proof. unfold user_type, as_builtin. destruct (get_die_typename v h) as [[]|]; try contradiction; reflexivity. Qed.
(** As a component of another type, a user type is reported by name and location only. *)
Theorem user_type_is_alias v h d name :
  good_env v -> user_type v h -> node v h d -> named d name -> resolves v h (TD (LAlias name) (Some h)).
Proof. intros G U N Nm. exists 1%nat. cbn [shallow]. rewrite user_none by exact U. cbn [bind]. rewrite (name_ok v G h d name N Nm). reflexivity. Qed.
Lemma member_filter v h d t : good_env v -> node v h d ->
  filter (fun c => tag_eqb (tag_of v c) t) (map h_of (d_kids d)) = map h_of (filter (fun c => tag_eqb (e_tag (d_entry c)) t) (d_kids d)).
Proof.
  intros G N. assert (H : forall c, In c (d_kids d) -> tag_of v (h_of c) = e_tag (d_entry c)) by (intros c I; apply (tag_at v _ c G), (kid_node v h d c N I)).
  induction (d_kids d) as [|c l IH]; [reflexivity|]. simpl. rewrite H by (left; reflexivity). rewrite IH by (intros; apply H; right; assumption). destruct (tag_eqb _ _); reflexivity.
Qed.
Lemma mapM_ok {A B} (f : A -> res B) l r : mapM f l = Ok r <-> Forall2 (fun a b => f a = Ok b) l r.
Proof.
  revert r. induction l as [|a l IH]; intros r; cbn [mapM].
  - split; [intros E; injection E as <-; constructor | inversion 1; reflexivity].
  - split.
    + intros E. apply bind_ok in E. destruct E as (b & E1 & E). apply bind_ok in E. destruct E as (bs & E2 & E). injection E as <-. constructor; [exact E1 | now apply IH].
    + inversion 1 as [|? b ? bs E1 E2]; subst. rewrite E1. cbn [bind]. rewrite (proj2 (IH bs) E2). reflexivity.
Qed.
Lemma Forall2_map_l {A B C} (g : A -> B) (R : B -> C -> Prop) l r : Forall2 R (map g l) r <-> Forall2 (fun a c => R (g a) c) l r.
Proof. revert r. induction l as [|a l IH]; intros r; simpl; split; inversion 1; subst; constructor; auto; now apply IH. Qed.
Lemma Forall2_imp {A B} (P Q : A -> B -> Prop) l r : (forall a b, P a b -> Q a b) -> Forall2 P l r -> Forall2 Q l r.
Proof. intros H F. induction F; constructor; auto. Qed.
(** Finitely many answers share a budget. *)
Lemma common_budget {A B} (P : nat -> A -> B -> Prop) l r :
  (forall n m a b, (n <= m)%nat -> P n a b -> P m a b) -> Forall2 (fun a b => exists n, P n a b) l r -> exists n, Forall2 (P n) l r.
Proof.
  intros M F. induction F as [|a b l r [n H] _ [m IH]]; [exists O; constructor|]. exists (max n m). constructor; [apply (M n); [lia | exact H]|].
  eapply Forall2_imp; [|exact IH]. intros x y. apply M. lia.
Qed.
Lemma Forall2_in_l {A B} (P Q : A -> B -> Prop) l r : (forall a b, In a l -> P a b -> Q a b) -> Forall2 P l r -> Forall2 Q l r.
Proof. intros H F. induction F as [|a b l r E F IH]; constructor; [apply H; [left; reflexivity | exact E]|]. apply IH. intros; apply H; [right|]; assumption. Qed.

(** A struct that is not a library type resolves, completely, to exactly its DW_TAG_member children in order, each with
    its name, offset and type; it fails when the struct or a member lacks one of these. *)
Theorem struct_fields v h d ty :
  good_env v -> user_type v h -> node v h d -> e_tag (d_entry d) = Tstructure ->
  (forall c, In c (d_kids d) -> e_tag (d_entry c) <> Tvariant_part) ->
  (resolves_fully v h ty <->
   exists name size align fields, ty = TD (LStruct name size align fields) (Some h) /\
     named d name /\ unsigned d At_byte_size size /\ unsigned d At_alignment align /\ Forall2 (member_says v) (members d) fields).
Proof.
  intros G U N Tg NV.
  assert (X : existsb (fun c => tag_eqb (tag_of v c) Tvariant_part) (map h_of (d_kids d)) = false).
  { apply not_true_is_false. intros E. apply existsb_exists in E. destruct E as (x & I & E). apply in_map_iff in I. destruct I as (c & <- & I).
    rewrite (tag_at v _ c G (kid_node v h d c N I)) in E. apply tag_eqb_eq in E. exact (NV c I E). }
  assert (Q : forall n, resolve_type n v h = (lay <- struct_type n v h ;; Ok (TD lay (Some h)))).
  { intros n. unfold resolve_type. rewrite user_none by exact U. cbn [bind]. rewrite (tag_at v h d G N), Tg, (children_at v h d G N). cbn [bind]. rewrite X. reflexivity. }
  assert (KM : forall c, In c (members d) -> node v (h_of c) c) by (intros c I; apply filter_In in I; apply (kid_node v h d c N), I).
  split.
  - intros [n E]. rewrite Q in E. apply bind_ok in E. destruct E as (lay & E & X0). injection X0 as <-. unfold struct_type in E.
    apply bind_ok in E. destruct E as (name & E1 & E). apply bind_ok in E. destruct E as (size & E2 & E). apply bind_ok in E. destruct E as (align & E3 & E).
    rewrite (children_at v h d G N) in E. cbn [bind] in E. apply bind_ok in E. destruct E as (fs & E4 & E). injection E as <-.
    exists name, size, align, fs. split; [reflexivity|]. split; [exact (proj1 (name_at v h d G N _) E1)|]. split; [exact (proj1 (udata_at v h d G N _ _) E2)|].
    split; [exact (proj1 (udata_at v h d G N _ _) E3)|]. rewrite (member_filter v h d Tmember G N) in E4. apply mapM_ok in E4. apply Forall2_map_l in E4.
    eapply Forall2_in_l; [|exact E4]. intros c [[fn o] t] I F. specialize (KM c I). apply bind_ok in F. destruct F as (fn' & F1 & F). apply bind_ok in F. destruct F as (o' & F2 & F).
    apply bind_ok in F. destruct F as (t' & F3 & F). injection F as -> -> ->. apply bind_ok in F3. destruct F3 as (ht & F3 & F4).
    split; [exact (proj1 (name_at v _ c G KM _) F1)|]. split; [exact (proj1 (udata_at v _ c G KM _ _) F2)|]. exists ht. split; [exact (proj1 (ref_at v _ c G KM _ _) F3) | exists n; exact F4].
  - intros (name & size & align & fs & -> & E1 & E2 & E3 & F).
    assert (B : exists n, Forall2 (fun c f => match f with (fn, o, t) => named c fn /\ located c o /\ exists ht, typed c ht /\ shallow n v ht = Ok t end) (members d) fs).
    { apply (common_budget (fun n c f => match f with (fn, o, t) => named c fn /\ located c o /\ exists ht, typed c ht /\ shallow n v ht = Ok t end)).
      - intros n m c [[fn o] t] L (A1 & A2 & ht & A3 & A4). split; [exact A1|]. split; [exact A2|]. exists ht. split; [exact A3|]. rewrite (shallow_mono n m); [exact A4 | exact L | congruence].
      - eapply Forall2_imp; [|exact F]. intros c [[fn o] t] (A1 & A2 & ht & A3 & [n A4]). exists n. split; [exact A1|]. split; [exact A2|]. eauto. }
    destruct B as [n B]. exists n. rewrite Q. unfold struct_type. rewrite (name_ok v G h d name N E1). cbn [bind].
    rewrite (proj2 (udata_at v h d G N _ _) E2). cbn [bind]. rewrite (proj2 (udata_at v h d G N _ _) E3). cbn [bind]. rewrite (children_at v h d G N). cbn [bind].
    rewrite (member_filter v h d Tmember G N).
    rewrite (proj2 (mapM_ok _ _ fs)); [reflexivity|]. apply Forall2_map_l. eapply Forall2_in_l; [|exact B]. intros c [[fn o] t] I (A1 & A2 & ht & A3 & A4).
    specialize (KM c I). rewrite (name_ok v G _ c fn KM A1). cbn [bind]. rewrite (offset_ok v G _ c o KM A2). cbn [bind]. unfold entry_shallow, p_then.
    rewrite (type_ok v G _ c ht KM A3). cbn [bind]. rewrite A4. reflexivity.
Qed.

(** ** C67: enums *)
Lemma i128_at v h d a x : good_env v -> node v h d -> (i128_attr a v h = Ok x <-> has_attr d a (AUdata x) \/ has_attr d a (ASdata x)).
Proof.
  intros G N. unfold i128_attr. rewrite bind_ok. rewrite <- !(attr_at v h d G N). split.
  - intros (y & E & H). destruct y; cbn in H; try discriminate.
    + injection H as <-. auto.
    + destruct (n <? 0); injection H as <-; auto.
  - intros [E|E]; [exists (AUdata x) | exists (ASdata x)]; (split; [exact E|]); cbn; [reflexivity|]. destruct (x <? 0); reflexivity.
Qed.
Lemma i128_shape v h a : (exists x, i128_attr a v h = Ok x) \/ exists m, i128_attr a v h = Err m.
Proof.
  unfold i128_attr, attr_of. destruct (lookup_shape v h) as [[d ->]|[m ->]]; cbn [bind]; [|eauto]. destruct (get_attr _ _); cbn [bind]; [|eauto].
  destruct (udata_value _); [eauto|]. destruct (sdata_value _); eauto.
Qed.
Lemma enum_variant_ok v n c dv nm t m ht : good_env v -> node v (h_of c) c ->
  e_tag (d_entry c) = Tvariant ->
  match dv with Some x => has_attr c At_discr_value (AUdata x) \/ has_attr c At_discr_value (ASdata x)
              | None => forall x, ~ has_attr c At_discr_value (AUdata x) /\ ~ has_attr c At_discr_value (ASdata x) end ->
  first_of (fun m => e_tag (d_entry m) = Tmember) (d_kids c) m -> named m nm -> located m 0 -> typed m ht -> shallow n v ht = Ok t ->
  enum_variant (shallow n) v (h_of c) = Ok (nm, dv, t).
Proof.
  intros G N Tg D F Nm L Ty S. assert (Nk : node v (h_of m) m) by (eapply kid_node; [exact N | apply (first_of_In _ _ _ F)]).
  unfold enum_variant, p_map_res, p_then at 1, is_member_tag at 1. rewrite (tag_at v _ c G N), Tg. cbn [tag_eqb bind]. unfold p_and at 1.
  assert (P : p_filter (i128_attr At_discr_value) v (h_of c) = Ok dv).
  { unfold p_filter. destruct dv as [x|]; [rewrite (proj2 (i128_at v _ c _ x G N) D); reflexivity|]. destruct (i128_shape v (h_of c) At_discr_value) as [[x E]|[e ->]]; [|reflexivity].
    apply (i128_at v _ c _ x G N) in E. destruct (D x). tauto. }
  rewrite P. cbn [bind]. unfold p_then. rewrite (proj2 (member_tag_at v _ c Tmember (h_of m) G N)) by eauto. cbn [bind].
  rewrite (name_ok v G _ m nm Nk Nm). cbn [bind]. rewrite (offset_ok v G _ m 0 Nk L). cbn [bind]. unfold entry_shallow, p_then. rewrite (type_ok v G _ m ht Nk Ty). cbn [bind]. rewrite S. reflexivity.
Qed.
Lemma enum_variant_no v sh c : good_env v -> node v (h_of c) c -> e_tag (d_entry c) <> Tvariant -> exists m, enum_variant sh v (h_of c) = Err m.
Proof.
  intros G N H. unfold enum_variant, p_map_res, p_then, is_member_tag. rewrite (tag_at v _ c G N). destruct (tag_eqb (e_tag (d_entry c)) Tvariant) eqn:E; [apply tag_eqb_eq in E; contradiction|]. cbn [bind]. eauto.
Qed.
(** A structure with a variant part resolves to an enum with all its variants in order, each with its name,
    discriminant value and type, when every variant can be resolved. *)
Theorem enum_variants v h d p dp name size dc vs :
  good_env v -> user_type v h -> node v h d -> e_tag (d_entry d) = Tstructure -> named d name -> unsigned d At_byte_size size ->
  variant_part v h p -> node v p dp -> discriminant_of v p dc ->
  Forall2 (variant_says v) (filter (fun c => tag_eqb (e_tag (d_entry c)) Tvariant) (d_kids dp)) vs ->
  resolves_fully v h (TD (LEnum name dc vs size) (Some h)).
Proof.
  intros G U N Tg Nm Sz VP Np [k D] F.
  assert (B : exists n, (k <= n)%nat /\ Forall2 (fun c f => enum_variant (shallow n) v (h_of c) = Ok f) (filter (fun c => tag_eqb (e_tag (d_entry c)) Tvariant) (d_kids dp)) vs).
  { assert (B : exists n, Forall2 (fun c f => enum_variant (shallow n) v (h_of c) = Ok f) (filter (fun c => tag_eqb (e_tag (d_entry c)) Tvariant) (d_kids dp)) vs).
    { apply (common_budget (fun n c f => enum_variant (shallow n) v (h_of c) = Ok f)).
      - intros a b c f L E. rewrite (ple_enum_variant (shallow a) (shallow b)); [exact E | now apply shallow_mono | congruence].
      - eapply Forall2_in_l; [|exact F]. intros c [[nm dv] t] I (A1 & A2 & m & ht & A3 & A4 & A5 & A6 & [n A7]). exists n. apply filter_In in I.
        eapply enum_variant_ok; eauto. apply (kid_node v p dp c Np), I. }
    destruct B as [n B]. exists (max k n). split; [lia|]. eapply Forall2_imp; [|exact B]. intros c f E. rewrite (ple_enum_variant (shallow n) (shallow (max k n))); [exact E | apply shallow_mono; lia | congruence]. }
  destruct B as (n & Ln & B). exists n. unfold resolve_type. rewrite user_none by exact U. cbn [bind]. rewrite (tag_at v h d G N), Tg, (children_at v h d G N). cbn [bind].
  assert (X : existsb (fun c => tag_eqb (tag_of v c) Tvariant_part) (map h_of (d_kids d)) = true).
  { destruct VP as (d' & c & N' & Fc & _). rewrite (node_inj v h d' d G N' N) in *. apply existsb_exists. exists (h_of c). destruct (first_of_In _ _ _ Fc) as [I Tc].
    split; [now apply in_map|]. rewrite (tag_at v _ c G (kid_node v h d c N I)), Tc. reflexivity. }
  rewrite X. unfold enum_def, p_and. rewrite (name_ok v G h d name N Nm). cbn [bind]. rewrite (proj2 (udata_at v h d G N _ _) Sz). cbn [bind].
  rewrite (proj1 (variant_part_ok v G h p VP)). cbn [bind]. rewrite (ple_disc (shallow k) (shallow n)); [|now apply shallow_mono | congruence]. rewrite D. cbn [bind].
  unfold for_each_child. rewrite (children_at v p dp G Np). cbn [bind].
  assert (E : each_ok (enum_variant (shallow n)) v (map h_of (d_kids dp)) = Ok vs).
  { assert (K : forall c, In c (d_kids dp) -> node v (h_of c) c) by (intros c I; apply (kid_node v p dp c Np I)).
    clear F. revert vs B. induction (d_kids dp) as [|c l IH]; intros vs B; simpl in *; [inversion B; reflexivity|].
    destruct (tag_eqb (e_tag (d_entry c)) Tvariant) eqn:Tc.
    - inversion B as [|? f ? fs E1 E2]; subst. rewrite E1. rewrite (IH (fun c I => K c (or_intror I)) fs E2). reflexivity.
    - destruct (enum_variant_no v (shallow n) c G) as [m E]; [apply K; left; reflexivity | intros Q; apply tag_eqb_eq in Q; congruence |].
      rewrite E. apply IH; [intros; apply K; right; assumption | exact B]. }
  rewrite E. reflexivity.
Qed.
(** The discriminant's kind is that of the type of the member DW_AT_discr refers to (the integer kinds; anything else
    counts as implicit), its offset that of the variant part itself. *)
Theorem discriminant_explicit_partial v p dp hd dm t ty :
  good_env v -> node v p dp -> refers dp At_discr hd -> node v hd dm -> typed dm t -> resolves v t ty ->
  (forall o, located dp o -> discriminant_of v p (Disc (match layOf ty with LInt s => DInt s | LUInt s => DUInt s | _ => DImplicit end) o)) /\
  ((forall o, ~ located dp o) -> discriminant_of v p (Disc (match layOf ty with LInt s => DInt s | LUInt s => DUInt s | _ => DImplicit end) 0)).
Proof.
  intros G N R Nd Ty [n E].
  assert (Q : forall o, p_filter (udata_attr At_member_location) v p = Ok o ->
     enum_discriminant (shallow n) v p = Ok (Disc (int_disc (layOf ty)) (match o with Some x => x | None => 0 end))).
  { intros o Eo. unfold enum_discriminant, p_and. unfold p_filter at 1. rewrite (proj2 (ref_at v p dp G N _ _) R). cbn [bind]. rewrite Eo. cbn [bind].
    unfold entry_shallow, p_then. rewrite (type_ok v G hd dm t Nd Ty). cbn [bind]. rewrite E. reflexivity. }
  split.
  - intros o L. exists n. apply (Q (Some o)). unfold p_filter. rewrite (proj2 (udata_at v p dp G N _ _) L). reflexivity.
  - intros No. exists n. apply (Q None). unfold p_filter. destruct (data_offset_err v p) as [[o Eo]|[m Em]].
    + exfalso. apply (No o). exact (proj1 (udata_at v p dp G N _ _) Eo).
    + unfold data_offset in Em. rewrite Em. reflexivity.
Qed.
Theorem discriminant_implicit v p dp :
  good_env v -> node v p dp -> (forall hd, ~ refers dp At_discr hd) -> discriminant_of v p (Disc DImplicit 0).
Proof.
  intros G N R. exists 1%nat. unfold enum_discriminant, p_and. unfold p_filter at 1.
  assert (E : exists m, ref_attr At_discr v p = Err m).
  { unfold ref_attr, attr_of. rewrite (proj2 (lookup_ok v p dp G) N). cbn [bind]. destruct (get_attr (d_entry dp) At_discr) as [x|] eqn:A; cbn [bind]; [|eauto]. destruct x; eauto.
    exfalso. apply (R off). apply get_attr_spec. exact A. }
  destruct E as [m ->]. cbn [bind]. unfold p_filter. destruct (data_offset_err v p) as [[o Eo]|[e Eo]]; unfold data_offset in Eo; rewrite Eo; reflexivity.
Qed.

(** ** C71: function types *)
(** A function type whose result is a plain type (one that refers to no other type, such as an integer) cannot be
    resolved: the result type is dereferenced once too often. *)
Theorem function_type_unresolvable v h d r dr :
  good_env v -> user_type v h -> node v h d -> e_tag (d_entry d) = Tsubroutine -> typed d r -> node v r dr -> (forall t, ~ typed dr t) ->
  forall ty, ~ resolves_fully v h ty.
Proof.
  intros G U N Tg Ty Nr No ty [n E]. unfold resolve_type in E. rewrite user_none in E by exact U. cbn [bind] in E. rewrite (tag_at v h d G N), Tg in E.
  rewrite (type_ok v G h d r N Ty) in E. unfold entry_shallow, p_then in E. destruct (entry_type_err v r) as [[t Et]|[m Em]].
  - exact (No t (proj1 (ref_at v r dr G Nr _ _) Et)).
  - rewrite Em in E. discriminate.
Qed.

(** The claim in full: the result type if there is one, the argument types in order. *)
Definition function_type_says (v : env) (h : Z) (d : die) (ty : tdef) : Prop :=
  exists r args, ty = TD (LFunction r args) (Some h) /\
    match r with Some e => exists t, typed d t /\ resolves v t e | None => forall t, ~ typed d t end /\
    Forall2 (fun c e => exists t, typed c t /\ resolves v t e) (filter (fun c => tag_eqb (e_tag (d_entry c)) Tparameter) (d_kids d)) args.
(** It holds of function types without a result. Missing: function types with a result (function_type_unresolvable). *)
Theorem function_type_partial v h d ty :
  good_env v -> user_type v h -> node v h d -> e_tag (d_entry d) = Tsubroutine -> (forall t, ~ typed d t) ->
  (resolves_fully v h ty <-> function_type_says v h d ty).
Proof.
  intros G U N Tg No.
  assert (En : exists m, entry_type v h = Err m). { destruct (entry_type_err v h) as [[t Et]|[m Em]]; [destruct (No t (proj1 (ref_at v h d G N _ _) Et)) | eauto]. }
  destruct En as [m En].
  assert (Q : forall n, resolve_type n v h = (args <- fn_args (shallow n) v h ;; Ok (TD (LFunction None args) (Some h)))).
  { intros n. unfold resolve_type. rewrite user_none by exact U. cbn [bind]. rewrite (tag_at v h d G N), Tg, En. cbn [bind]. destruct (fn_args (shallow n) v h); reflexivity. }
  assert (KM : forall c, In c (filter (fun c => tag_eqb (e_tag (d_entry c)) Tparameter) (d_kids d)) -> node v (h_of c) c) by (intros c I; apply filter_In in I; apply (kid_node v h d c N), I).
  split.
  - intros [n E]. rewrite Q in E. apply bind_ok in E. destruct E as (args & E & X). injection X as <-. exists None, args. split; [reflexivity|]. split; [exact No|].
    unfold fn_args in E. rewrite (children_at v h d G N) in E. cbn [bind] in E. rewrite (member_filter v h d Tparameter G N) in E. apply mapM_ok in E. apply Forall2_map_l in E. eapply Forall2_in_l; [|exact E].
    intros c t I F. apply bind_ok in F. destruct F as (ht & F3 & F4). exists ht. split; [exact (proj1 (ref_at v _ c G (KM c I) _ _) F3) | exists n; exact F4].
  - intros (r & args & -> & R & F). assert (r = None). { destruct r as [e|]; [|reflexivity]. destruct R as (t & T & _). destruct (No t T). } subst r.
    assert (B : exists n, Forall2 (fun c t => exists ht, typed c ht /\ shallow n v ht = Ok t) (filter (fun c => tag_eqb (e_tag (d_entry c)) Tparameter) (d_kids d)) args).
    { apply (common_budget (fun n c t => exists ht, typed c ht /\ shallow n v ht = Ok t)).
      - intros a b c t L (ht & A3 & A4). exists ht. split; [exact A3|]. rewrite (shallow_mono a b); [exact A4 | exact L | congruence].
      - eapply Forall2_imp; [|exact F]. intros c t (ht & A3 & [n A4]). exists n. eauto. }
    destruct B as [n B]. exists n. rewrite Q. unfold fn_args. rewrite (children_at v h d G N). cbn [bind]. rewrite (member_filter v h d Tparameter G N).
    rewrite (proj2 (mapM_ok _ _ args)); [reflexivity|]. apply Forall2_map_l. eapply Forall2_in_l; [|exact B]. intros c t I (ht & A3 & A4).
    unfold entry_shallow, p_then. rewrite (type_ok v G _ c ht (KM c I) A3). cbn [bind]. exact A4.
Qed.
(** A function pointer (a pointer DIE named like [fn(A) -> R], without children, to a nameless function type): no argument
    is reported, and the result is an unknown type, whatever the function type is. *)
Theorem function_pointer_unknown v h d t dt r a0 :
  good_env v -> reads_as v h (LFunction r a0) -> node v h d -> d_kids d = [] -> typed d t -> node v t dt -> (forall n, ~ named dt n) -> user_type v t ->
  resolves_fully v h (TD (LFunction (Some (TD (LAlias (st "unknown")) (Some t))) []) (Some h)).
Proof.
  intros G R N K T Nt Nn U. exists 1%nat. unfold resolve_type, as_builtin. rewrite R. unfold primitive_type, entry_shallow, p_then. rewrite (type_ok v G h d t N T). cbn [bind shallow]. rewrite user_none by exact U. cbn [bind].
  assert (Na : match name_attr v t with Ok s => s | _ => st "unknown" end = st "unknown").
  { destruct (name_attr v t) as [s| | |] eqn:E; try reflexivity. destruct (Nn s (proj1 (name_at v t dt G Nt s) E)). }
  rewrite Na. unfold fn_args. rewrite (children_at v h d G N), K. cbn [bind map filter mapM layOf]. destruct r; reflexivity.
Qed.

(** ** C72: tuples, pointers, references, arrays, slices *)
Theorem pointer_like_layout v h d t e :
  good_env v -> node v h d -> typed d t -> resolves v t e ->
  (forall m x, reads_as v h (LPointer m x) -> resolves v h (TD (LPointer m e) (Some h)) /\ resolves_fully v h (TD (LPointer m e) (Some h))) /\
  (forall m x, reads_as v h (LReference m x) -> resolves v h (TD (LReference m e) (Some h)) /\ resolves_fully v h (TD (LReference m e) (Some h))) /\
  (forall n x, reads_as v h (LArray x n) -> resolves v h (TD (LArray e n) (Some h)) /\ resolves_fully v h (TD (LArray e n) (Some h))).
Proof.
  intros G N Ty [n E]. assert (S : entry_shallow (shallow n) v h = Ok e) by (unfold entry_shallow, p_then; rewrite (type_ok v G h d t N Ty); exact E).
  split; [|split]; intros m x R; builtin n R; unfold primitive_type; rewrite S; reflexivity.
Qed.
Theorem slice_layout v h o pt dp t e l x y a0 a1 a2 :
  good_env v -> reads_as v h (LSlice a0 a1 a2) -> follows v h [st "data_ptr"] o pt -> node v pt dp -> typed dp t -> resolves v t e ->
  follows v h [st "length"] l x -> y = TD (LSlice e o l) (Some h) -> resolves v h y /\ resolves_fully v h y.
Proof.
  intros G R F1 N Ty [n E] F2 ->. builtin n R. unfold primitive_type. destruct (member_ok v G _ _ _ _ F1) as (m & M & Nm & L & Tm). rewrite M. cbn [bind].
  rewrite (offset_ok v G _ m o Nm L). cbn [bind]. rewrite (type_ok v G _ m pt Nm Tm). cbn [bind]. unfold entry_shallow, p_then. rewrite (type_ok v G pt dp t N Ty). cbn [bind]. rewrite E. cbn [bind].
  rewrite (member_udata_ok v G _ _ _ _ F2). reflexivity.
Qed.
Theorem str_slice_layout v h o l x y a0 a1 :
  good_env v -> reads_as v h (LStrSlice a0 a1) -> follows v h [st "data_ptr"] o x -> follows v h [st "length"] l y ->
  resolves v h (TD (LStrSlice o l) (Some h)) /\ resolves_fully v h (TD (LStrSlice o l) (Some h)).
Proof.
  intros G R F1 F2. builtin O R. unfold primitive_type. rewrite (member_udata_ok v G _ _ _ _ F1). cbn [bind]. rewrite (member_udata_ok v G _ _ _ _ F2). reflexivity.
Qed.
(** A tuple gets every child's offset and type in order, and fails when one lacks them. *)
Theorem tuple_layout v h d ty a0 a1 :
  good_env v -> reads_as v h (LTuple a0 a1) -> node v h d ->
  (resolves v h ty <-> exists size es, ty = TD (LTuple es size) (Some h) /\ unsigned d At_byte_size size /\
     Forall2 (fun c e => located c (fst e) /\ exists t, typed c t /\ resolves v t (snd e)) (d_kids d) es).
Proof.
  intros G R N. split.
  - intros [n E]. destruct n as [|n]; [discriminate|]. cbn [shallow] in E. apply bind_ok in E. destruct E as (o & B & E). unfold as_builtin in B.
    unfold reads_as in R. rewrite R in B. apply bind_ok in B. destruct B as (lay & V & B). unfold rmap in V. apply bind_ok in V. destruct V as (x & V & X). injection X as <-. injection B as <-. injection E as <-.
    unfold primitive_type, tuple_type in V. apply bind_ok in V. destruct V as (size & E1 & V). rewrite (children_at v h d G N) in V. cbn [bind] in V. apply bind_ok in V. destruct V as (es & E2 & V). injection V as <-.
    exists size, es. split; [reflexivity|]. split; [exact (proj1 (udata_at v h d G N _ _) E1)|]. apply mapM_ok in E2. apply Forall2_map_l in E2. eapply Forall2_in_l; [|exact E2].
    intros c [o t] I F. pose proof (kid_node v h d c N I) as K. apply bind_ok in F. destruct F as (o' & F1 & F). apply bind_ok in F. destruct F as (t' & F2 & F). injection F as -> ->.
    apply bind_ok in F2. destruct F2 as (ht & F2 & F3). split; [exact (proj1 (udata_at v _ c G K _ _) F1)|]. exists ht. split; [exact (proj1 (ref_at v _ c G K _ _) F2) | exists n; exact F3].
  - intros (size & es & -> & Sz & F).
    assert (B : exists n, Forall2 (fun c e => located c (fst e) /\ exists t, typed c t /\ shallow n v t = Ok (snd e)) (d_kids d) es).
    { apply (common_budget (fun n c e => located c (fst e) /\ exists t, typed c t /\ shallow n v t = Ok (snd e))).
      - intros a b c e L (A1 & t & A2 & A3). split; [exact A1|]. exists t. split; [exact A2|]. rewrite (shallow_mono a b); [exact A3 | exact L | congruence].
      - eapply Forall2_imp; [|exact F]. intros c e (A1 & t & A2 & [n A3]). exists n. eauto. }
    destruct B as [n B]. apply (builtin_resolves v h n). unfold as_builtin. rewrite R. unfold primitive_type, tuple_type. rewrite (proj2 (udata_at v h d G N _ _) Sz). cbn [bind].
    rewrite (children_at v h d G N). cbn [bind]. rewrite (proj2 (mapM_ok _ _ es)); [reflexivity|]. apply Forall2_map_l. eapply Forall2_in_l; [|exact B].
    intros c [o t] I (A1 & ht & A2 & A3). pose proof (kid_node v h d c N I) as K. cbn [fst snd] in *. rewrite (offset_ok v G _ c o K A1). cbn [bind]. unfold entry_shallow, p_then. rewrite (type_ok v G _ c ht K A2). cbn [bind]. rewrite A3. reflexivity.
Qed.

(** A DW_TAG_enumeration_type with named, valued children resolves to exactly these names and values, in order, with the
    integer kind of its underlying type. *)
Theorem c_enum_values v h d name size t ty k dk vs :
  good_env v -> user_type v h -> node v h d -> e_tag (d_entry d) = Tenumeration -> named d name -> unsigned d At_byte_size size ->
  typed d t -> resolves v t ty -> (layOf ty = LInt k /\ dk = DInt k \/ layOf ty = LUInt k /\ dk = DUInt k) ->
  Forall2 (fun c p => named c (fst p) /\ (has_attr c At_const_value (AUdata (snd p)) \/ has_attr c At_const_value (ASdata (snd p)))) (d_kids d) vs ->
  resolves_fully v h (TD (LCEnum name dk vs size) (Some h)).
Proof.
  intros G U N Tg Nm Sz Ty [n E] K F. exists n. unfold resolve_type. rewrite user_none by exact U. cbn [bind]. rewrite (tag_at v h d G N), Tg.
  unfold c_enum_def, p_and. rewrite (name_ok v G h d name N Nm). cbn [bind]. rewrite (proj2 (udata_at v h d G N _ _) Sz). cbn [bind]. unfold p_map_res, p_then.
  rewrite (type_ok v G h d t N Ty). cbn [bind]. rewrite E. cbn [bind].
  assert (X : each_ok c_enum_variant v (map h_of (d_kids d)) = Ok vs).
  { assert (I : forall c, In c (d_kids d) -> node v (h_of c) c) by (intros c I; apply (kid_node v h d c N I)).
    induction F as [|c [s z] l r [A1 A2] F IH]; [reflexivity|]. cbn [map each_ok]. pose proof (I c (or_introl eq_refl)) as Nc.
    unfold c_enum_variant, p_and at 1. rewrite (name_ok v G _ c s Nc A1). cbn [bind]. rewrite (proj2 (i128_at v _ c _ z G Nc) A2). cbn [bind].
    fold c_enum_variant. rewrite IH by (intros; apply I; right; assumption). reflexivity. }
  unfold for_each_child. rewrite (children_at v h d G N). cbn [bind].
  destruct K as [[K ->]|[K ->]]; rewrite K; cbn [bind]; rewrite X; reflexivity.
Qed.
