(** C41 and C42: field paths and collecting children. *)
From Coq Require Import Ascii String List ZArith Lia Bool.
From Verif Require Import Base DieModel DieSpec ModuleModel TypesModel ParserModel ParserSpec ParserProofs.
Import ListNotations.
Open Scope Z_scope.

(** ** C41 *)
(** A path of members, read on a member DIE, yields the final type and the sum of the offsets; it succeeds exactly
    when all members, offsets and types are there and the sum fits in 64 bits. *)
Theorem field_path_sums v path h h' n :
  good_env v -> (field_path path v h = Ok (h', n) <-> follows_member v h path n h' /\ in_u64 n).
Proof.
  intros G. destruct path as [|f path]; cbn [field_path follows_member].
  - split.
    + intros E; injection E as <- <-. unfold in_u64, two64. repeat split; lia.
    + intros [[-> ->] _]. reflexivity.
  - split.
    + intros E. apply bind_ok in E. destruct E as (s & Nm & E). destruct (str_eqb s f) eqn:S; [|discriminate]. apply str_eqb_eq in S. subst s.
      apply bind_ok in E. destruct E as (o & O & E). apply bind_ok in E. destruct E as (t & A & E). apply bind_ok in E. destruct E as (h1 & Y & E).
      destruct (name_node v h f G Nm) as (d & N & Nd). apply add64_ok in A. destruct A as [-> A]. apply (path_from_ok v path G) in E; [|exact A].
      destruct E as (k & F & -> & U). split; [|exact U]. exists d, o, h1, k. repeat split; try assumption; try apply N.
      * exact (proj1 (udata_at v h d G N _ _) O).
      * exact (proj1 (ref_at v h d G N _ _) Y).
    + intros [(d & o & t & k & N & Nd & L & Ty & F & ->) U]. rewrite (proj2 (name_at v h d G N _) Nd). cbn [bind]. rewrite str_eqb_refl.
      unfold data_offset. rewrite (proj2 (udata_at v h d G N _ _) L). cbn [bind]. pose proof (follows_nonneg v _ _ _ _ G F) as P.
      assert (O : in_u64 o) by (eapply unsigned_u64; eauto). rewrite (proj2 (add64_ok 0 o o) (conj eq_refl O)). cbn [bind].
      unfold entry_type. rewrite (proj2 (ref_at v h d G N _ _) Ty). cbn [bind]. apply (path_from_ok v path G); [exact O|]. exists k. auto.
Qed.
Theorem field_path_offset_sums v path h n :
  good_env v -> (field_path_offset path v h = Ok n <-> exists h', follows_member v h path n h' /\ in_u64 n).
Proof.
  intros G. unfold field_path_offset, p_map. rewrite bind_ok. split.
  - intros ([h' k] & E & X). injection X as <-. exists h'. now apply field_path_sums.
  - intros (h' & F). exists (h', n). split; [now apply field_path_sums | reflexivity].
Qed.

(** A path that is not there is an error, never an offset and never a panic (offsets below 2^32, fewer than 2^32
    steps: nothing can overflow). *)
Lemma data_offset_err v h : (exists n, data_offset v h = Ok n) \/ exists m, data_offset v h = Err m.
Proof.
  unfold data_offset, udata_attr, attr_of. destruct (lookup_shape v h) as [[d ->]|[m ->]]; cbn [bind]; [|eauto].
  destruct (get_attr _ _) as [x|]; cbn [bind]; [|eauto]. destruct (udata_value x); eauto.
Qed.
Lemma entry_type_err v h : (exists n, entry_type v h = Ok n) \/ exists m, entry_type v h = Err m.
Proof.
  unfold entry_type, ref_attr, attr_of. destruct (lookup_shape v h) as [[d ->]|[m ->]]; cbn [bind]; [|eauto].
  destruct (get_attr _ _) as [x|]; cbn [bind]; [|eauto]. destruct x; eauto.
Qed.
Lemma name_attr_err v h : (exists n, name_attr v h = Ok n) \/ exists m, name_attr v h = Err m.
Proof.
  unfold name_attr, string_attr, attr_of. destruct (lookup_shape v h) as [[d ->]|[m ->]]; cbn [bind]; [|eauto].
  destruct (get_attr _ _) as [x|]; cbn [bind]; [|eauto]. destruct x as [[s|]| | | | | |]; eauto.
Qed.
Lemma get_member_err f v h : (exists n, get_member f v h = Ok n) \/ exists m, get_member f v h = Err m.
Proof.
  unfold get_member, children. destruct (lookup_shape v h) as [[d ->]|[m ->]]; cbn [bind]; [|eauto]. destruct (find _ _); eauto.
Qed.
Definition small_offsets (v : env) : Prop := forall d n, in_tree (en_unit v) d -> located d n -> n < 4294967296.
Lemma path_from_err v path : good_env v -> small_offsets v -> forall h total, 0 <= total ->
  total + Z.of_nat (length path) * 4294967296 < two64 ->
  (exists r, path_from v h total path = Ok r) \/ exists m, path_from v h total path = Err m.
Proof.
  intros G S. induction path as [|f path IH]; intros h total T B; cbn [path_from]; [eauto|].
  destruct (get_member_err f v h) as [[c M]|[m ->]]; [|cbn [bind]; eauto]. rewrite M. cbn [bind].
  destruct (data_offset_err v c) as [[o O]|[m ->]]; [|cbn [bind]; eauto]. rewrite O. cbn [bind].
  destruct (member_node v h f c G M) as (d & k & N & F & Nc). assert (L : located k o) by exact (proj1 (udata_at v c k G Nc _ _) O).
  assert (U : in_u64 o) by (eapply unsigned_u64; eauto). pose proof (S k o (proj1 Nc) L) as So. cbn [length] in B.
  assert (A : in_u64 (total + o)) by (unfold in_u64 in *; lia). rewrite (proj2 (add64_ok _ _ _) (conj eq_refl A)). cbn [bind].
  destruct (entry_type_err v c) as [[t ->]|[m ->]]; cbn [bind]; [|eauto]. apply IH; unfold in_u64 in *; lia.
Qed.
Theorem field_path_missing v path h :
  good_env v -> small_offsets v -> Z.of_nat (length path) < 4294967296 ->
  (forall n h', ~ follows_member v h path n h') -> exists m, field_path path v h = Err m.
Proof.
  intros G S Lp No. assert ((exists r, field_path path v h = Ok r) \/ exists m, field_path path v h = Err m) as [[[h' n] E]|E].
  - destruct path as [|f path]; cbn [field_path]; [eauto|].
    destruct (name_attr_err v h) as [[s ->]|[m ->]]; cbn [bind]; [|eauto]. destruct (str_eqb s f); [|eauto].
    destruct (data_offset_err v h) as [[o O]|[m ->]]; cbn [bind]; [|eauto]. rewrite O. cbn [bind].
    destruct (udata_node v h _ _ G O) as (d & N & L). assert (U : in_u64 o) by (eapply unsigned_u64; eauto).
    rewrite (proj2 (add64_ok 0 o o) (conj eq_refl U)). cbn [bind]. destruct (entry_type_err v h) as [[t ->]|[m ->]]; cbn [bind]; [|eauto].
    pose proof (S d o (proj1 N) L). apply path_from_err; try assumption; unfold in_u64, two64 in *; [lia|]. cbn [length] in Lp. lia.
  - apply field_path_sums in E; [|exact G]. exfalso. eapply No. apply E.
  - exact E.
Qed.

(** ** C42 *)
(** Each parser of the tuple gets the first child it accepts: the tuple of results is exactly that. *)
Theorem parse_children_first {T} (ps : parsers T) v h d r :
  good_env v -> node v h d -> (parse_children ps v h = Ok r <-> each_first ps v (map h_of (d_kids d)) r).
Proof. intros G N. pose proof (children_at v h d G N) as K. split; [now apply parse_children_list | now apply parse_children_complete]. Qed.
(** The whole fails exactly if some parser accepts no child (none of the parsers panicking). *)
Theorem parse_children_fails {T} (ps : parsers T) v h d :
  good_env v -> node v h d -> calm ps v (map h_of (d_kids d)) ->
  ((exists m, parse_children ps v h = Err m) <-> some_rejects ps v (map h_of (d_kids d))) /\
  ((exists r, parse_children ps v h = Ok r) \/ (exists m, parse_children ps v h = Err m)).
Proof.
  intros G N C. pose proof (children_at v h d G N) as K. split.
  - unfold parse_children. rewrite K. cbn [bind]. destruct (offer_calm ps v _ (no_slots ps) C) as [s O]. rewrite O. cbn [bind].
    apply filled_err. now apply offer_all_ok.
  - unfold parse_children. rewrite K. cbn [bind]. destruct (offer_calm ps v _ (no_slots ps) C) as [s O]. rewrite O. cbn [bind]. apply filled_shape.
Qed.

(** for_each_child keeps the results of the accepted children, in order, and never fails because of a child. *)
Theorem for_each_child_accepted {T} (p : parser T) v h d :
  good_env v -> node v h d -> (forall c, In c (d_kids d) -> is_ok (p v (h_of c)) || is_err (p v (h_of c)) = true) ->
  for_each_child p v h = Ok (flat_map (fun c => match p v (h_of c) with Ok a => [a] | _ => [] end) (d_kids d)).
Proof.
  intros G N C. unfold for_each_child. rewrite (children_at v h d G N). cbn [bind]. induction (d_kids d) as [|c l IH]; [reflexivity|].
  simpl map. cbn [each_ok flat_map]. pose proof (C c (or_introl eq_refl)) as Q. destruct (p v (h_of c)); simpl in Q; try discriminate.
  - rewrite IH by (intros; apply C; right; assumption). reflexivity.
  - apply IH. intros; apply C; right; assumption.
Qed.
(** try_for_each_child stops at the first failing child and otherwise keeps every present result, in order. *)
Theorem try_for_each_child_all {T} (p : parser (option T)) v h d :
  good_env v -> node v h d ->
  (forall rs, try_for_each_child p v h = Ok rs ->
     (forall c, In c (d_kids d) -> is_ok (p v (h_of c)) = true) /\
     rs = flat_map (fun c => match p v (h_of c) with Ok (Some a) => [a] | _ => [] end) (d_kids d)) /\
  ((forall c, In c (d_kids d) -> is_ok (p v (h_of c)) = true) -> exists rs, try_for_each_child p v h = Ok rs).
Proof.
  intros G N. unfold try_for_each_child. rewrite (children_at v h d G N). cbn [bind]. induction (d_kids d) as [|c l [IH1 IH2]]; [split|]; [| |split].
  - intros rs E. injection E as <-. split; [intros ? []|reflexivity].
  - intros _. eexists. reflexivity.
  - intros rs E. simpl in E. apply bind_ok in E. destruct E as (o & P & E). apply bind_ok in E. destruct E as (r & R & E). injection E as <-.
    destruct (IH1 r R) as [A ->]. split.
    + intros x [<-|Hx]; [rewrite P; reflexivity | apply A; exact Hx].
    + simpl. rewrite P. destruct o; reflexivity.
  - intros A. destruct IH2 as [r R]; [intros; apply A; right; assumption|]. simpl. pose proof (A c (or_introl eq_refl)) as Q.
    destruct (p v (h_of c)) as [o| | |]; try discriminate. cbn [bind]. rewrite R. cbn [bind]. eauto.
Qed.
