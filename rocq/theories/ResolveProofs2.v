From Coq Require Import Ascii String List ZArith Lia Bool.
From Verif Require Import Base NumText DieModel DieSpec ModuleModel TypesModel ParserModel ParserSpec ParserProofs ParserProps ResolveModel ResolveSpec ResolveProofs.
Import ListNotations.
Open Scope Z_scope.

Lemma accept_first {T} (p : parser T) v (l : list die) (P : die -> Prop) c a :
  first_of P l c -> p v (h_of c) = Ok a -> (forall c', In c' l -> ~ P c' -> exists m, p v (h_of c') = Err m) ->
  first_accepts p v (map h_of l) a.
Proof.
  intros (l1 & l2 & -> & _ & F) A R. exists (map h_of l1), (h_of c), (map h_of l2). rewrite map_app. repeat split; [exact A|].
  rewrite Forall_forall in *. intros x Hx. apply in_map_iff in Hx. destruct Hx as (y & <- & Hy). apply R; [apply in_or_app; left; exact Hy | now apply F].
Qed.

Section In.
Context (v : env) (G : good_env v).

Lemma not_named h d f : node v h d -> ~ named d f -> (exists m, name_attr v h = Err m) \/ exists s, name_attr v h = Ok s /\ str_eqb s f = false.
Proof.
  intros N H. destruct (name_attr_err v h) as [[s E]|[m E]]; [right|left; eauto]. exists s. split; [exact E|]. apply str_eqb_neq. intros ->.
  apply H. now apply (name_at v h d G N).
Qed.
Lemma is_member_no h d f : node v h d -> ~ named d f -> exists m, is_member f v h = Err m.
Proof. intros N H. unfold is_member. destruct (not_named h d f N H) as [[m ->]|(s & -> & E)]; cbn [bind]; [eauto|]. rewrite E. eauto. Qed.
Lemma is_member_offset_no h d f : node v h d -> ~ named d f -> exists m, is_member_offset f v h = Err m.
Proof. intros N H. unfold is_member_offset. destruct (not_named h d f N H) as [[m ->]|(s & -> & E)]; cbn [bind]; [eauto|]. rewrite E. eauto. Qed.
Lemma field_path_no h d f p : node v h d -> ~ named d f -> exists m, field_path_offset (f :: p) v h = Err m.
Proof. intros N H. unfold field_path_offset, p_map. cbn [field_path]. destruct (not_named h d f N H) as [[m ->]|(s & -> & E)]; cbn [bind]; [eauto|]. rewrite E. cbn [bind]. eauto. Qed.
Lemma generic_no h d f : node v h d -> ~ (e_tag (d_entry d) = Ttemplate /\ named d f) -> exists m, generic f v h = Err m.
Proof.
  intros N H. unfold generic. rewrite (tag_at v h d G N). destruct (tag_eqb (e_tag (d_entry d)) Ttemplate) eqn:T; [|eauto].
  apply tag_eqb_eq in T. destruct (not_named h d f N) as [[m ->]|(s & -> & E)]; [intros Q; apply H; auto | |]; cbn [bind]; [eauto|]. rewrite E. eauto.
Qed.
Lemma then_err {U} (p : parser Z) (q : parser U) h m : p v h = Err m -> exists m', p_then p q v h = Err m'.
Proof. intros E. unfold p_then. rewrite E. cbn [bind]. eauto. Qed.

(** Following one field. *)
Lemma follows_field h f p n h' d : node v h d -> follows v h (f :: p) n h' ->
  exists c, first_of (fun c => named c f) (d_kids d) c /\ node v (h_of c) c /\ follows_member v (h_of c) (f :: p) n h'.
Proof.
  intros N F. inversion F as [|h0 d0 f0 c o t p0 k h1 N0 Fc L Ty F']; subst. rewrite (node_inj v h d0 d G N0 N) in *. exists c.
  assert (Nc : node v (h_of c) c) by (eapply kid_node; [exact N | apply (first_of_In _ _ _ Fc)]).
  split; [exact Fc|]. split; [exact Nc|]. exists c, o, t, k. repeat split; try assumption; try apply Nc. apply (first_of_In _ _ _ Fc).
Qed.
Lemma follows_one h f n t d : node v h d -> follows v h [f] n t ->
  exists c, first_of (fun c => named c f) (d_kids d) c /\ node v (h_of c) c /\ named c f /\ located c n /\ typed c t.
Proof.
  intros N F. destruct (follows_field h f [] n t d N F) as (c & Fc & Nc & (d' & o & t' & k & N' & Nm & L & Ty & F' & ->)).
  rewrite (node_inj v _ _ _ G N' Nc) in *. inversion F'; subst. exists c. rewrite Z.add_0_r. auto.
Qed.
Lemma follows_node h f p n h' : follows v h (f :: p) n h' -> exists d, node v h d.
Proof. inversion 1; subst; eauto. Qed.

Lemma offset_ok h d n : node v h d -> located d n -> data_offset v h = Ok n.
Proof. intros N L. exact (proj2 (udata_at v h d G N _ _) L). Qed.
Lemma type_ok h d t : node v h d -> typed d t -> entry_type v h = Ok t.
Proof. intros N L. exact (proj2 (ref_at v h d G N _ _) L). Qed.
Lemma name_ok h d s : node v h d -> named d s -> name_attr v h = Ok s.
Proof. intros N L. exact (proj2 (name_at v h d G N _) L). Qed.

(** The slots of the container parsers. *)
Lemma slot_path h d f p n h' : node v h d -> follows v h (f :: p) n h' -> in_u64 n -> first_accepts (field_path_offset (f :: p)) v (map h_of (d_kids d)) n.
Proof.
  intros N F U. destruct (follows_field h f p n h' d N F) as (c & Fc & Nc & M). apply (accept_first _ _ _ (fun c => named c f) c); [exact Fc | apply field_path_offset_sums; [exact G | exists h'; auto]|].
  intros c' I Q. apply (field_path_no (h_of c') c'); [exact (kid_node v _ _ c' N I) | exact Q].
Qed.
Lemma slot_offset h d f n t : node v h d -> follows v h [f] n t -> first_accepts (is_member_offset f) v (map h_of (d_kids d)) n.
Proof.
  intros N F. destruct (follows_one h f n t d N F) as (c & Fc & Nc & Nm & L & Ty). eapply accept_first; [exact Fc| |].
  - unfold is_member_offset. rewrite (name_ok _ c f Nc Nm). cbn [bind]. rewrite str_eqb_refl. now apply (offset_ok _ c).
  - intros c' I Q. eapply is_member_offset_no; [exact (kid_node v _ _ c' N I) | exact Q].
Qed.
Lemma slot_field {U} h d f n t (q : parser U) a : node v h d -> follows v h [f] n t ->
  (forall c, node v (h_of c) c -> located c n -> typed c t -> q v (h_of c) = Ok a) ->
  first_accepts (p_then (is_member f) q) v (map h_of (d_kids d)) a.
Proof.
  intros N F Q. destruct (follows_one h f n t d N F) as (c & Fc & Nc & Nm & L & Ty). eapply accept_first; [exact Fc| |].
  - unfold p_then, is_member. rewrite (name_ok _ c f Nc Nm). cbn [bind]. rewrite str_eqb_refl. cbn [bind]. now apply Q.
  - intros c' I R. destruct (is_member_no (h_of c') c' f) as [m E]; [exact (kid_node v _ _ c' N I) | exact R | eapply then_err; eauto].
Qed.
Lemma both_ok c n t : node v (h_of c) c -> located c n -> typed c t -> p_and data_offset entry_type v (h_of c) = Ok (n, t).
Proof. intros Nc L Ty. unfold p_and. rewrite (offset_ok _ c n Nc L), (type_ok _ c t Nc Ty). reflexivity. Qed.
Lemma slot_generic {U} h d f t (q : parser U) a : node v h d -> type_param v h f t -> q v t = Ok a ->
  first_accepts (p_then (generic f) q) v (map h_of (d_kids d)) a.
Proof.
  intros N (d' & c & N' & Fc & Ty) A. rewrite (node_inj v h d' d G N' N) in *.
  assert (Nc : node v (h_of c) c) by (eapply kid_node; [exact N | apply (first_of_In _ _ _ Fc)]).
  destruct (first_of_In _ _ _ Fc) as [_ [Tg Nm]]. eapply accept_first; [exact Fc| |].
  - unfold p_then, generic. rewrite (tag_at v _ c G Nc), Tg. cbn [tag_eqb]. rewrite (name_ok _ c f Nc Nm). cbn [bind]. rewrite str_eqb_refl.
    change (ref_attr At_type v (h_of c)) with (entry_type v (h_of c)). rewrite (type_ok _ c t Nc Ty). cbn [bind]. exact A.
  - intros c' I R. destruct (generic_no (h_of c') c' f) as [m E]; [exact (kid_node v _ _ c' N I) | exact R | eapply then_err; eauto].
Qed.
Lemma member_ok h f n t : follows v h [f] n t -> exists c, get_member f v h = Ok (h_of c) /\ node v (h_of c) c /\ located c n /\ typed c t.
Proof.
  intros F. destruct (follows_node _ _ _ _ _ F) as [d N]. destruct (follows_one h f n t d N F) as (c & Fc & Nc & Nm & L & Ty). exists c.
  split; [|auto]. apply (member_at v h d f _ G N). exists c. auto.
Qed.
Lemma member_both h f n t : follows v h [f] n t -> p_then (get_member f) (p_and data_offset entry_type) v h = Ok (n, t).
Proof. intros F. destruct (member_ok h f n t F) as (c & M & Nc & L & Ty). unfold p_then. rewrite M. cbn [bind]. now apply both_ok. Qed.
Lemma member_type h f n t : follows v h [f] n t -> p_then (get_member f) entry_type v h = Ok t.
Proof. intros F. destruct (member_ok h f n t F) as (c & M & Nc & L & Ty). unfold p_then. rewrite M. cbn [bind]. now apply (type_ok _ c). Qed.
Lemma member_off h f n t : follows v h [f] n t -> p_then (get_member f) data_offset v h = Ok n.
Proof. intros F. destruct (member_ok h f n t F) as (c & M & Nc & L & Ty). unfold p_then. rewrite M. cbn [bind]. now apply (offset_ok _ c). Qed.
Lemma member_udata_ok h f n t : follows v h [f] n t -> member_udata f At_member_location v h = Ok n.
Proof. intros F. apply (member_off h f n t F). Qed.
(** Splitting a path. *)
Lemma follows_app h p q n h' : follows v h (p ++ q) n h' -> exists n1 m n2, follows v h p n1 m /\ follows v m q n2 h' /\ n = n1 + n2.
Proof.
  revert h n. induction p as [|f p IH]; intros h n F; [exists 0, h, n; repeat split; [constructor | exact F]|].
  simpl in F. inversion F as [|h0 d f0 c o t p0 k h1 N Fc L Ty F']; subst. destruct (IH t k F') as (n1 & m & n2 & F1 & F2 & ->).
  exists (o + n1), m, n2. repeat split; [econstructor; eauto | exact F2 | lia].
Qed.
Lemma follows_split h f g p n h' : follows v h (f :: g :: p) n h' -> exists n1 t n2, follows v h [f] n1 t /\ follows v t (g :: p) n2 h' /\ n = n1 + n2.
Proof. exact (follows_app h [f] (g :: p) n h'). Qed.
Lemma follows_u64 h f n t : follows v h [f] n t -> in_u64 n.
Proof.
  intros F. destruct (follows_node _ _ _ _ _ F) as [d N]. destruct (follows_one h f n t d N F) as (c & Fc & Nc & Nm & L & Ty). eapply unsigned_u64; eauto.
Qed.

(** *** Containers *)
Lemma vec_fields_ok sh h l d c p q r t e :
  follows v h [st "buf"; st "inner"; st "ptr"] d p -> follows v h [st "len"] l q ->
  follows v h [st "buf"; st "inner"; st "cap"; st "__0"] c r -> in_u64 d -> in_u64 c -> type_param v h (st "T") t -> sh v t = Ok e ->
  vec_fields sh v h = Ok (l, d, c, e).
Proof.
  intros F1 F2 F3 U1 U2 T S. destruct (follows_node _ _ _ _ _ F2) as [dd N]. unfold vec_fields, p_map.
  rewrite (parse_children_complete _ v h (map h_of (d_kids dd)) (d, (l, (c, (e, tt)))) (children_at v h dd G N)); [reflexivity|].
  cbn [each_first fst snd]. repeat apply conj; [eapply slot_path | eapply slot_offset | eapply slot_path | eapply slot_generic | exact I]; eauto.
Qed.
Lemma hashbrown_ok h m c i ps k w tt0 pair x1 x2 x3 x4 x5 o :
  follows v h [st "table"; st "table"; st "bucket_mask"] m x1 -> follows v h [st "table"; st "table"; st "ctrl"] c x2 ->
  follows v h [st "table"; st "table"; st "items"] i x3 -> in_u64 m -> in_u64 c -> in_u64 i ->
  follows v h [st "table"] o tt0 -> type_param v tt0 (st "T") pair -> has_size v pair ps ->
  follows v pair [st "__0"] k x4 -> follows v pair [st "__1"] w x5 ->
  hashbrown_map v h = Ok (HashMap m c i ps k w).
Proof.
  intros F1 F2 F3 U1 U2 U3 F0 T Sz K W.
  destruct (follows_split _ _ _ _ _ _ F1) as (a1 & t1 & b1 & A1 & B1 & ->). destruct (follows_split _ _ _ _ _ _ F2) as (a2 & t2 & b2 & A2 & B2 & ->).
  destruct (follows_split _ _ _ _ _ _ F3) as (a3 & t3 & b3 & A3 & B3 & ->).
  pose proof (member_both _ _ _ _ F0) as M0. pose proof (member_both _ _ _ _ A1) as M1. pose proof (member_both _ _ _ _ A2) as M2. pose proof (member_both _ _ _ _ A3) as M3.
  rewrite M0 in M1, M2, M3. injection M1 as <- <-. injection M2 as <- <-. injection M3 as <- <-.
  destruct (follows_split _ _ _ _ _ _ B1) as (e1 & r1 & g1 & C1 & D1 & ->). destruct (follows_split _ _ _ _ _ _ B2) as (e2 & r2 & g2 & C2 & D2 & ->).
  destruct (follows_split _ _ _ _ _ _ B3) as (e3 & r3 & g3 & C3 & D3 & ->).
  pose proof (member_both _ _ _ _ C1) as M1. pose proof (member_both _ _ _ _ C2) as M2. pose proof (member_both _ _ _ _ C3) as M3.
  rewrite M1 in M2, M3. injection M2 as <- <-. injection M3 as <- <-.
  unfold hashbrown_map. rewrite M0. cbn [bind].
  destruct (follows_node _ _ _ _ _ C1) as [d1 N1]. destruct (follows_node _ _ _ _ _ K) as [dp Np]. destruct (follows_node _ _ _ _ _ D1) as [dr Nr].
  rewrite (parse_children_complete _ v tt0 (map h_of (d_kids d1)) ((ps, (k, (w, tt))), ((e1, r1), tt)) (children_at v tt0 d1 G N1)).
  - cbn [bind]. pose proof (follows_u64 _ _ _ _ F0) as O0. pose proof (follows_u64 _ _ _ _ C1) as O1. pose proof (follows_u64 _ _ _ _ D1) as P1.
    pose proof (follows_u64 _ _ _ _ D2) as P2. pose proof (follows_u64 _ _ _ _ D3) as P3.
    assert (A : in_u64 (o + e1)) by (unfold in_u64 in *; lia). rewrite (proj2 (add64_ok o e1 _) (conj eq_refl A)). cbn [bind].
    rewrite (parse_children_complete _ v r1 (map h_of (d_kids dr)) (g1, (g2, (g3, tt))) (children_at v r1 dr G Nr)).
    + cbn [bind]. rewrite !Z.add_assoc.
      rewrite (proj2 (add64_ok (o + e1) g1 (o + e1 + g1))); [cbn [bind]|split; [reflexivity | unfold in_u64 in *; lia]].
      rewrite (proj2 (add64_ok (o + e1) g2 (o + e1 + g2))); [cbn [bind]|split; [reflexivity | unfold in_u64 in *; lia]].
      rewrite (proj2 (add64_ok (o + e1) g3 (o + e1 + g3))); [cbn [bind]|split; [reflexivity | unfold in_u64 in *; lia]]. reflexivity.
    + cbn [each_first fst snd]. repeat apply conj; try exact I; eapply slot_offset; eauto.
  - cbn [each_first fst snd]. repeat apply conj; [eapply slot_generic; eauto | eapply slot_field; eauto; intros; now apply both_ok | exact I].
    unfold p_and. destruct Sz as (ds & Ns & Us). rewrite (proj2 (udata_at v pair ds G Ns _ _) Us). cbn [bind].
    rewrite (parse_children_complete _ v pair (map h_of (d_kids dp)) (k, (w, tt)) (children_at v pair dp G Np)); [reflexivity|].
    cbn [each_first fst snd]. repeat apply conj; try exact I; eapply slot_offset; eauto.
Qed.
Lemma nonnull_ok h p t : follows v h [st "pointer"] 0 p -> points_to v p t -> nonnull v h = Ok t.
Proof.
  intros F (d & N & Tg & Ty). unfold nonnull, p_map_res, p_then. destruct (member_ok _ _ _ _ F) as (c & -> & Nc & L & Yc). cbn [bind].
  unfold p_and. rewrite (offset_ok _ c 0 Nc L), (type_ok _ c p Nc Yc). cbn [bind]. unfold is_member_tag. rewrite (tag_at v p d G N), Tg. cbn [tag_eqb bind].
  rewrite (type_ok p d t N Ty). reflexivity.
Qed.
(** Enum variants by name. *)
Lemma named_variant_no h d name : node v h d -> ~ (e_tag (d_entry d) = Tvariant /\ exists m, In m (d_kids d) /\ named m name) -> exists m, named_enum_variant name v h = Err m.
Proof.
  intros N H. unfold named_enum_variant, p_then, is_member_tag. rewrite (tag_at v h d G N). destruct (tag_eqb (e_tag (d_entry d)) Tvariant) eqn:Tg; [|cbn [bind]; eauto].
  apply tag_eqb_eq in Tg. cbn [bind]. unfold p_and, p_filter.
  assert (U : (exists n, udata_attr At_discr v h = Ok n) \/ exists m, udata_attr At_discr v h = Err m).
  { unfold udata_attr, attr_of. rewrite (proj2 (lookup_ok v h d G) N). cbn [bind]. destruct (get_attr _ _); cbn [bind]; [|eauto]. destruct (udata_value _); eauto. }
  destruct (get_member_err name v h) as [[r M]|[m M]].
  - exfalso. apply H. split; [exact Tg|]. apply (member_at v h d name r G N) in M. destruct M as (c & F & _). exists c. now apply first_of_In in F.
  - rewrite M. destruct U as [[n ->]|[m' ->]]; cbn [bind]; eauto.
Qed.
Lemma slot_variant {T} p name t (q : parser T) off x a d :
  node v p d -> variant_type v p name t -> follows v t [st "__0"] off x -> q v x = Ok a ->
  exists w, first_accepts (enum_named_tuple_variant1 name q) v (map h_of (d_kids d)) (w, (off, a)).
Proof.
  intros N (d' & c & m & N' & Fc & Fm & L & Ty) F A. rewrite (node_inj v p d' d G N' N) in *.
  assert (Nc : node v (h_of c) c) by (eapply kid_node; [exact N | apply (first_of_In _ _ _ Fc)]).
  assert (Nm : node v (h_of m) m) by (eapply kid_node; [exact Nc | apply (first_of_In _ _ _ Fm)]).
  destruct (first_of_In _ _ _ Fc) as [_ [Tg _]].
  assert (U : exists w, p_filter (udata_attr At_discr) v (h_of c) = Ok w).
  { unfold p_filter, udata_attr, attr_of. rewrite (proj2 (lookup_ok v (h_of c) c G) Nc). cbn [bind]. destruct (get_attr _ _); cbn [bind]; [|eauto]. destruct (udata_value _); eauto. }
  destruct U as [w U]. exists w. eapply accept_first; [exact Fc| |].
  - unfold enum_named_tuple_variant1, named_enum_variant. unfold p_then at 1. unfold is_member_tag at 1. rewrite (tag_at v _ c G Nc), Tg. cbn [tag_eqb bind].
    unfold p_and at 1. rewrite U. cbn [bind]. unfold p_then at 1. rewrite (proj2 (member_at v _ c name (h_of m) G Nc)) by eauto. cbn [bind].
    rewrite (both_ok m 0 t Nm L Ty). cbn [bind Z.eqb]. destruct (follows_node _ _ _ _ _ F) as [dt Nt].
    rewrite (parse_children_complete _ v t (map h_of (d_kids dt)) ((off, a), tt) (children_at v t dt G Nt)); [reflexivity|].
    cbn [each_first fst snd]. split; [|exact I]. eapply slot_field; [exact Nt | exact F|]. intros k Nk Lk Yk. unfold p_and.
    rewrite (offset_ok _ k off Nk Lk). cbn [bind]. unfold p_then. rewrite (type_ok _ k x Nk Yk). cbn [bind]. rewrite A. reflexivity.
  - intros c' I R. destruct (named_variant_no (h_of c') c' name) as [e E]; [exact (kid_node v _ _ c' N I) | exact R|]. unfold enum_named_tuple_variant1. rewrite E. cbn [bind]. eauto.
Qed.
Lemma variant_part_ok h p : variant_part v h p -> get_member_by_tag Tvariant_part v h = Ok p /\ exists d, node v p d.
Proof.
  intros (d & c & N & F & <-). split; [apply (member_tag_at v h d _ _ G N); exists c; auto|]. exists c. eapply kid_node; [exact N | apply (first_of_In _ _ _ F)].
Qed.
Lemma option_entry_ok sh h d name n p dc t off x :
  node v h d -> named d name -> unsigned d At_byte_size n -> variant_part v h p -> enum_discriminant sh v p = Ok dc ->
  variant_type v p (st "Some") t -> follows v t [st "__0"] off x ->
  parse_option_entry sh v h = Ok (name, (n, (dc, (off, x)))).
Proof.
  intros N Nm Sz VP D V F. unfold parse_option_entry. unfold p_and at 1. rewrite (name_ok h d name N Nm). cbn [bind]. unfold p_and at 1.
  rewrite (proj2 (udata_at v h d G N _ _) Sz). cbn [bind]. destruct (variant_part_ok h p VP) as [M [dp Np]]. unfold p_then at 1. rewrite M. cbn [bind].
  unfold p_and at 1. rewrite D. cbn [bind]. unfold p_map at 1. unfold child, p_map.
  destruct (slot_variant p (st "Some") t identity off x x dp Np V F eq_refl) as [w Fw].
  rewrite (parse_children_complete _ v p (map h_of (d_kids dp)) ((w, (off, x)), tt) (children_at v p dp G Np)); [reflexivity|]. cbn [each_first fst snd]. auto.
Qed.
End In.
