From Coq Require Import Ascii String List ZArith Lia Bool.
From Verif Require Import Base DieModel DieSpec ModuleModel TypesModel ParserModel ParserSpec.
Import ListNotations.
Open Scope Z_scope.

Lemma attr_eqb_eq a b : attr_eqb a b = true <-> a = b.
Proof.
  destruct a, b; simpl; split; intros H; try reflexivity; try discriminate; try (injection H as ->; apply Z.eqb_refl).
  apply Z.eqb_eq in H. now subst.
Qed.

(** find and first_of. *)
Lemma find_first {A} (f : A -> bool) (P : A -> Prop) l x :
  (forall y, In y l -> f y = true <-> P y) -> (find f l = Some x <-> first_of P l x).
Proof.
  induction l as [|a l IH]; intros H; simpl.
  - split; [discriminate | intros (l1 & l2 & E & _); destruct l1; discriminate].
  - destruct (f a) eqn:Fa.
    + split.
      * intros E; injection E as <-. exists [], l. repeat split; [now apply H; [left | exact Fa] | constructor].
      * intros (l1 & l2 & E & Px & F). destruct l1 as [|b l1]; [injection E as -> ->; reflexivity|].
        injection E as -> ->. inversion F; subst. exfalso. apply H2. apply H; [left; reflexivity | exact Fa].
    + rewrite IH by (intros y Hy; apply H; right; exact Hy). split.
      * intros (l1 & l2 & -> & Px & F). exists (a :: l1), l2. repeat split; [exact Px | constructor; [|exact F]].
        intros Pa. apply (proj2 (H a (or_introl eq_refl))) in Pa. congruence.
      * intros (l1 & l2 & E & Px & F). destruct l1 as [|b l1].
        -- injection E as -> ->. apply (proj2 (H x (or_introl eq_refl))) in Px. congruence.
        -- injection E as -> ->. inversion F; subst. exists l1, l2. repeat split; assumption.
Qed.
Lemma find_none_first {A} (f : A -> bool) (P : A -> Prop) l :
  (forall y, In y l -> f y = true <-> P y) -> find f l = None -> forall x, ~ first_of P l x.
Proof. intros H E x F. apply (proj2 (find_first f P l x H)) in F. congruence. Qed.
Lemma first_of_inj {A} (P : A -> Prop) l x y : first_of P l x -> first_of P l y -> x = y.
Proof.
  intros (l1 & l2 & -> & Px & F1) (m1 & m2 & E & Py & F2). revert m1 E F2.
  induction l1 as [|a l1 IH]; intros m1 E F2; destruct m1 as [|b m1]; simpl in E; injection E as ? E; subst.
  - reflexivity.
  - inversion F2; subst. contradiction.
  - inversion F1; subst. contradiction.
  - inversion F1; inversion F2; subst. eapply IH; eauto.
Qed.
Lemma first_of_In {A} (P : A -> Prop) l x : first_of P l x -> In x l /\ P x.
Proof. intros (l1 & l2 & -> & Px & _). split; [apply in_or_app; right; left; reflexivity | exact Px]. Qed.

(** Trees. *)
Lemma subtrees_eq d : subtrees d = d :: flat_map subtrees (d_kids d).
Proof.
  destruct d as [e [l|]]; [|reflexivity]. cbn [subtrees d_kids]. f_equal.
  all: induction l as [|x l IH]; [reflexivity|]; simpl; f_equal; exact IH.
Qed.
Lemma subtrees_in d x : In x (subtrees d) <-> in_tree d x.
Proof.
  split.
  - revert x. induction d as [e kids IH] using die_ind2. intros x. rewrite subtrees_eq. intros [<-|H]; [constructor|].
    apply in_flat_map in H. destruct H as (c & Hc & Hx). apply (in_kid _ c); [exact Hc|].
    destruct kids as [l|]; [|contradiction]. specialize (IH l eq_refl). rewrite Forall_forall in IH. apply IH; assumption.
  - induction 1 as [d|d c x Hc _ IH]; rewrite subtrees_eq; [left; reflexivity|]. right. apply in_flat_map. exists c. auto.
Qed.

Lemma lookup_ok v h d : good_env v -> (lookup v h = Ok d <-> node v h d).
Proof.
  intros [D _]. unfold lookup, node. destruct (find _ _) as [d'|] eqn:F.
  - apply find_some in F. destruct F as [I E]. apply subtrees_in in I. apply Z.eqb_eq in E. unfold h_of in E. split.
    + intros H; injection H as <-. split; assumption.
    + intros [I' E']. f_equal. apply D; congruence.
  - split; [discriminate|]. intros [I E]. apply subtrees_in in I. apply (find_none _ _ F) in I. unfold h_of in I. rewrite E, Z.eqb_refl in I. discriminate.
Qed.
Lemma lookup_shape v h : (exists d, lookup v h = Ok d) \/ exists m, lookup v h = Err m.
Proof. unfold lookup. destruct (find _ _); [left | right]; eexists; reflexivity. Qed.
Lemma node_inj v h d d' : good_env v -> node v h d -> node v h d' -> d = d'.
Proof. intros [D _] [I E] [I' E']. apply D; congruence. Qed.
Lemma in_tree_trans a b c : in_tree a b -> in_tree b c -> in_tree a c.
Proof. induction 1 as [|d k x Hk _ IH]; [auto|]. intros H. apply (in_kid _ k); auto. Qed.
Lemma kid_node v h d c : node v h d -> In c (d_kids d) -> node v (h_of c) c.
Proof. intros [I _] H. split; [|reflexivity]. eapply in_tree_trans; [exact I|]. apply (in_kid _ c); [exact H | constructor]. Qed.

Lemma get_attr_spec d a x : get_attr (d_entry d) a = Some x <-> has_attr d a x.
Proof.
  unfold get_attr, has_attr. pose proof (find_first (fun p : attr_name * attr_value => attr_eqb (fst p) a) (fun p => fst p = a)
    (e_attrs (d_entry d)) (a, x) (fun y _ => attr_eqb_eq (fst y) a)) as F.
  rewrite <- F. destruct (find _ _) as [[b y]|] eqn:E.
  - apply find_some in E. destruct E as [_ E]. apply attr_eqb_eq in E. simpl in E. subst b. split; intros H; injection H as ->; reflexivity.
  - split; discriminate.
Qed.
Lemma has_attr_inj d a x y : has_attr d a x -> has_attr d a y -> x = y.
Proof. intros H H'. pose proof (first_of_inj _ _ _ _ H H') as E. now injection E. Qed.

(** On a known DIE, accessors read the DIE. *)
Section At.
Context (v : env) (h : Z) (d : die) (G : good_env v) (N : node v h d).
Lemma children_at : children v h = Ok (map h_of (d_kids d)).
Proof. unfold children. rewrite (proj2 (lookup_ok v h d G) N). reflexivity. Qed.
Lemma tag_at : tag_of v h = e_tag (d_entry d).
Proof. unfold tag_of. rewrite (proj2 (lookup_ok v h d G) N). reflexivity. Qed.
Lemma attr_at a x : attr_of a v h = Ok x <-> has_attr d a x.
Proof.
  unfold attr_of. rewrite (proj2 (lookup_ok v h d G) N). cbn [bind]. rewrite <- get_attr_spec.
  destruct (get_attr _ _); split; intros H; try discriminate; injection H as ->; reflexivity.
Qed.
Lemma name_at s : name_attr v h = Ok s <-> named d s.
Proof.
  unfold name_attr, string_attr, named. rewrite bind_ok, <- attr_at. split.
  - intros (x & E & H). destruct x as [[s'|]| | | | | |]; try discriminate. injection H as ->. exact E.
  - intros E. exists (AStr (Some s)). split; [exact E | reflexivity].
Qed.
Lemma udata_at a n : udata_attr a v h = Ok n <-> unsigned d a n.
Proof.
  unfold udata_attr, unsigned. rewrite bind_ok, <- !attr_at. split.
  - intros (x & E & H). destruct x; cbn in H; try discriminate; [left; now injection H as ->|].
    destruct (Z.ltb_spec n0 0); [discriminate|]. injection H as ->. right; split; [exact E | lia].
  - intros [E|[E P]]; [exists (AUdata n) | exists (ASdata n)]; (split; [exact E|]); cbn; [reflexivity|].
    destruct (Z.ltb_spec n 0); [lia | reflexivity].
Qed.
Lemma ref_at a t : ref_attr a v h = Ok t <-> refers d a t.
Proof.
  unfold ref_attr, refers. rewrite bind_ok, <- attr_at. split.
  - intros (x & E & H). destruct x; try discriminate. now injection H as ->.
  - intros E. exists (AUnitRef t). split; [exact E | reflexivity].
Qed.
End At.

Lemma name_at_bool v h d f : good_env v -> node v h d -> ok_str_eqb (name_attr v h) f = true <-> named d f.
Proof.
  intros G N. rewrite <- (name_at v h d G N). unfold ok_str_eqb. destruct (name_attr v h); split; try discriminate.
  - intros E. apply str_eqb_eq in E. now subst.
  - intros E. injection E as ->. apply str_eqb_refl.
Qed.
Lemma find_map {A B} (g : A -> B) (f : B -> bool) l : find f (map g l) = option_map g (find (fun x => f (g x)) l).
Proof. induction l as [|a l IH]; simpl; [reflexivity|]. destruct (f (g a)); [reflexivity | exact IH]. Qed.

(** Searching the children of a DIE. *)
Lemma find_kid v h d (f : Z -> bool) (P : die -> Prop) r :
  good_env v -> node v h d ->
  (forall c, In c (d_kids d) -> f (h_of c) = true <-> P c) ->
  find f (map h_of (d_kids d)) = Some r <-> exists c, first_of P (d_kids d) c /\ h_of c = r.
Proof.
  intros G N H. rewrite find_map. pose proof (find_first (fun x => f (h_of x)) P (d_kids d)) as F. split.
  - destruct (find _ _) as [c|] eqn:E; [|discriminate]. intros X; injection X as <-. exists c. split; [apply F; [exact H | reflexivity] | reflexivity].
  - intros (c & Fc & <-). rewrite (proj2 (F c H) Fc). reflexivity.
Qed.
Lemma member_at v h d f r : good_env v -> node v h d ->
  get_member f v h = Ok r <-> exists c, first_of (fun c => named c f) (d_kids d) c /\ h_of c = r.
Proof.
  intros G N. unfold get_member. rewrite (children_at v h d G N). cbn [bind].
  rewrite <- (find_kid v h d (fun c => ok_str_eqb (name_attr v c) f) (fun c => named c f) r G N (fun c Hc => name_at_bool v (h_of c) c f G (kid_node v h d c N Hc))).
  destruct (find _ _); split; try discriminate; intros E; injection E as ->; reflexivity.
Qed.
Lemma member_tag_at v h d t r : good_env v -> node v h d ->
  get_member_by_tag t v h = Ok r <-> exists c, first_of (fun c => e_tag (d_entry c) = t) (d_kids d) c /\ h_of c = r.
Proof.
  intros G N. unfold get_member_by_tag. rewrite (children_at v h d G N). cbn [bind].
  rewrite <- (find_kid v h d (fun c => tag_eqb (tag_of v c) t) (fun c => e_tag (d_entry c) = t) r G N).
  - destruct (find _ _); split; try discriminate; intros E; injection E as ->; reflexivity.
  - intros c Hc. rewrite (tag_at v (h_of c) c G (kid_node v h d c N Hc)). apply tag_eqb_eq.
Qed.

(** Accessors fail on handles that are no DIE. *)
Lemma attr_node v h a x : good_env v -> attr_of a v h = Ok x -> exists d, node v h d /\ has_attr d a x.
Proof.
  intros G E. destruct (lookup_shape v h) as [[d L]|[m L]].
  - apply (lookup_ok v h d G) in L. exists d. split; [exact L | now apply (attr_at v h d G L)].
  - unfold attr_of in E. rewrite L in E. discriminate.
Qed.
Lemma children_node v h l : good_env v -> children v h = Ok l -> exists d, node v h d /\ l = map h_of (d_kids d).
Proof.
  intros G E. unfold children in E. apply bind_ok in E. destruct E as (d & L & H). injection H as <-. exists d. split; [now apply lookup_ok | reflexivity].
Qed.
Lemma name_node v h s : good_env v -> name_attr v h = Ok s -> exists d, node v h d /\ named d s.
Proof.
  intros G E. destruct (lookup_shape v h) as [[d L]|[m L]].
  - apply (lookup_ok v h d G) in L. exists d. split; [exact L | now apply (name_at v h d G L)].
  - unfold name_attr, string_attr, attr_of in E. rewrite L in E. discriminate.
Qed.
Lemma udata_node v h a n : good_env v -> udata_attr a v h = Ok n -> exists d, node v h d /\ unsigned d a n.
Proof.
  intros G E. destruct (lookup_shape v h) as [[d L]|[m L]].
  - apply (lookup_ok v h d G) in L. exists d. split; [exact L | now apply (udata_at v h d G L)].
  - unfold udata_attr, attr_of in E. rewrite L in E. discriminate.
Qed.
Lemma ref_node v h a t : good_env v -> ref_attr a v h = Ok t -> exists d, node v h d /\ refers d a t.
Proof.
  intros G E. destruct (lookup_shape v h) as [[d L]|[m L]].
  - apply (lookup_ok v h d G) in L. exists d. split; [exact L | now apply (ref_at v h d G L)].
  - unfold ref_attr, attr_of in E. rewrite L in E. discriminate.
Qed.
Lemma member_node v h f r : good_env v -> get_member f v h = Ok r ->
  exists d c, node v h d /\ first_of (fun c => named c f) (d_kids d) c /\ node v r c.
Proof.
  intros G E. assert (exists d, node v h d) as [d N].
  { unfold get_member in E. apply bind_ok in E. destruct E as (l & C & _). apply children_node in C; [|exact G]. destruct C as (d & N & _). eauto. }
  apply (member_at v h d f r G N) in E. destruct E as (c & F & <-). exists d, c. repeat split; try assumption; try apply N.
  - eapply kid_node; [exact N | apply (first_of_In _ _ _ F)].
Qed.

Lemma unsigned_u64 v h d a n : good_env v -> node v h d -> unsigned d a n -> in_u64 n.
Proof.
  intros [_ K] [I _] U. assert (forall x, has_attr d a x -> attr_ok x) as Q.
  { intros x (l1 & l2 & E & _ & _). apply (K d a x I). rewrite E. apply in_or_app; right; left; reflexivity. }
  destruct U as [U|[U P]]; apply Q in U; cbn in U; unfold in_u64, two64 in *; lia.
Qed.
Lemma unsigned_inj d a n m : unsigned d a n -> unsigned d a m -> n = m.
Proof. intros [H|[H _]] [H'|[H' _]]; pose proof (has_attr_inj _ _ _ _ H H') as E; congruence. Qed.

(** Field paths. *)
Lemma follows_nonneg v h p n h' : good_env v -> follows v h p n h' -> 0 <= n.
Proof.
  intros G. induction 1 as [|h d f c o t p n h' N F L T _ IH]; [lia|].
  assert (in_u64 o) as O by (eapply unsigned_u64; [exact G | eapply kid_node; [exact N | apply (first_of_In _ _ _ F)] | exact L]).
  unfold in_u64 in O. lia.
Qed.
Lemma add64_ok a b c : add64 a b = Ok c <-> c = a + b /\ in_u64 c.
Proof.
  unfold add64, u64_ok, in_u64. destruct (Z.leb_spec 0 (a + b)), (Z.ltb_spec (a + b) two64); simpl; split; try discriminate; try lia.
  - intros E; injection E as <-. lia.
  - intros [-> _]. reflexivity.
Qed.
Lemma path_from_ok v path : good_env v -> forall h total h' n, in_u64 total ->
  (path_from v h total path = Ok (h', n) <-> exists k, follows v h path k h' /\ n = total + k /\ in_u64 n).
Proof.
  intros G. induction path as [|f path IH]; intros h total h' n T; cbn [path_from].
  - split.
    + intros E; injection E as <- <-. exists 0. repeat split; [constructor | lia | apply T | apply T].
    + intros (k & F & -> & _). inversion F; subst. f_equal. f_equal. lia.
  - split.
    + intros E. apply bind_ok in E. destruct E as (r & M & E). apply bind_ok in E. destruct E as (o & O & E).
      apply bind_ok in E. destruct E as (t & A & E). apply bind_ok in E. destruct E as (h1 & Y & E).
      apply add64_ok in A. destruct A as [-> A]. apply (proj1 (IH _ _ _ _ A)) in E. destruct E as (k & F & -> & U).
      destruct (member_node v h f r G M) as (d & c & N & Fc & Nc). exists (o + k). repeat split; try apply U; [|lia].
      eapply follows_cons; [exact N | exact Fc | exact (proj1 (udata_at v r c G Nc _ _) O) | exact (proj1 (ref_at v r c G Nc _ _) Y) | exact F].
    + intros (k & F & -> & U). inversion F as [|h0 d f0 c o t p k' h1 N Fc L Ty F']; subst. pose proof (follows_nonneg v _ _ _ _ G F') as P.
      assert (Nc : node v (h_of c) c) by (eapply kid_node; [exact N | apply (first_of_In _ _ _ Fc)]).
      assert (M : get_member f v h = Ok (h_of c)) by (apply (member_at v h d f _ G N); exists c; split; [exact Fc | reflexivity]).
      assert (O : in_u64 o) by (eapply unsigned_u64; eauto).
      rewrite M. cbn [bind]. unfold data_offset. rewrite (proj2 (udata_at v _ c G Nc _ _) L). cbn [bind].
      assert (A : in_u64 (total + o)) by (unfold in_u64 in *; lia).
      rewrite (proj2 (add64_ok _ _ _) (conj eq_refl A)). cbn [bind]. unfold entry_type. rewrite (proj2 (ref_at v _ c G Nc _ _) Ty). cbn [bind].
      apply IH; [exact A|]. exists k'. repeat split; [exact F' | lia | apply U | apply U].
Qed.

(** Offering children to a tuple of parsers. *)
Lemma offer_calm {T} (ps : parsers T) v l s : calm ps v l -> exists s', offer_all ps v l s = Ok s'.
Proof.
  revert s. induction l as [|c l IH]; intros s C; simpl; [eauto|].
  assert (calm ps v l /\ exists s', offer ps v c s = Ok s') as [C' [s' E]].
  { clear IH. induction ps as [|T U p ps IH]; simpl in *; [split; [exact I | eauto]|]. destruct C as [Cp C].
    inversion Cp as [|? ? H Cp']; subst. destruct (IH (snd s) C) as [C' [s' E]]. split; [split; assumption|].
    destruct s as [[o|] s]; cbn [fst snd] in *; cbn [bind]; [rewrite E; cbn [bind]; eauto|]. destruct (p v c); simpl in H; try discriminate; cbn [bind]; rewrite E; cbn [bind]; eauto. }
  rewrite E. cbn [bind]. apply IH. exact C'.
Qed.
(** The slots after offering [l]: the first accepted child, unless the slot was full. *)
Definition slot_ok {T} (p : parser T) (v : env) (l : list Z) (before after : option T) : Prop :=
  match before with
  | Some a => after = Some a
  | None => match after with Some a => first_accepts p v l a | None => Forall (fun c => exists m, p v c = Err m) l end
  end.
Fixpoint slots_ok {T} (ps : parsers T) (v : env) (l : list Z) : slots ps -> slots ps -> Prop :=
  match ps with
  | PNil => fun _ _ => True
  | PCons p ps' => fun s s' => slot_ok p v l (fst s) (fst s') /\ slots_ok ps' v l (snd s) (snd s')
  end.
Lemma slot_ok_trans {T} (p : parser T) v c l a b d : slot_ok p v [c] a b -> slot_ok p v l b d -> slot_ok p v (c :: l) a d.
Proof.
  unfold slot_ok. destruct a as [a|].
  - intros ->. auto.
  - destruct b as [b|].
    + intros F ->. destruct F as (l1 & c' & l2 & E & H & F). destruct l1 as [|? l1]; [|injection E as _ E; destruct l1; discriminate].
      injection E as <- <-. exists [], c, l. repeat split; [exact H | constructor].
    + intros F. inversion F as [|? ? Hc]; subst. destruct d as [d|].
      * intros (l1 & c' & l2 & -> & H' & F'). exists (c :: l1), c', l2. repeat split; [exact H' | constructor; assumption].
      * intros F'. constructor; assumption.
Qed.
Lemma offer_ok {T} (ps : parsers T) v c s s' : offer ps v c s = Ok s' -> slots_ok ps v [c] s s'.
Proof.
  induction ps as [|T U p ps IH]; simpl; [auto|]. intros E. apply bind_ok in E. destruct E as (o & O & E). apply bind_ok in E.
  destruct E as (r & R & E). injection E as <-. simpl. split; [|apply IH; exact R].
  unfold slot_ok. destruct (fst s) as [a|]; [now injection O as <-|]. destruct (p v c) eqn:P; try discriminate; injection O as <-.
  - exists [], c, []. repeat split; [exact P | constructor].
  - constructor; [eauto | constructor].
Qed.
Lemma offer_all_ok {T} (ps : parsers T) v l : forall s s', offer_all ps v l s = Ok s' -> slots_ok ps v l s s'.
Proof.
  induction l as [|c l IH]; intros s s'; cbn [offer_all].
  - intros E; injection E as <-. clear. induction ps as [|T U p ps IH]; simpl; [exact I|]. split; [|apply IH]. unfold slot_ok. destruct (fst s); auto.
  - intros E. apply bind_ok in E. destruct E as (s1 & E1 & E2). apply offer_ok in E1. apply IH in E2. clear IH.
    induction ps as [|T U p ps IH]; simpl in *; [exact I|]. destruct E1 as [A1 B1], E2 as [A2 B2]. split; [eapply slot_ok_trans; eauto | eapply IH; eauto].
Qed.
Lemma first_accepts_inj {T} (p : parser T) v l a b : first_accepts p v l a -> first_accepts p v l b -> a = b.
Proof.
  intros (l1 & c & l2 & -> & Ha & F1) (m1 & d & m2 & E & Hb & F2). revert m1 E F2.
  induction l1 as [|x l1 IH]; intros m1 E F2; destruct m1 as [|y m1]; simpl in E; injection E as ? E; subst.
  - congruence.
  - inversion F2 as [|? ? [m H]]; subst. congruence.
  - inversion F1 as [|? ? [m H]]; subst. congruence.
  - inversion F1; inversion F2; subst. eapply IH; eauto.
Qed.
Lemma first_accepts_not {T} (p : parser T) v l a : first_accepts p v l a -> Forall (fun c => exists m, p v c = Err m) l -> False.
Proof. intros (l1 & c & l2 & -> & H & _) F. rewrite Forall_app in F. destruct F as [_ F]. inversion F as [|? ? [m E]]; subst. congruence. Qed.
Lemma filled_ok {T} (ps : parsers T) v l : forall s r, slots_ok ps v l (no_slots ps) s ->
  (filled ps s = Ok r <-> each_first ps v l r).
Proof.
  induction ps as [|T U p ps IH]; intros s r S; simpl in *.
  - destruct r. split; auto.
  - destruct S as [S1 S2]. destruct s as [o s]. cbn [fst snd] in *. unfold slot_ok in S1. destruct o as [a|].
    + split.
      * intros E. apply bind_ok in E. destruct E as (b & E & Q). injection Q as <-. cbn [fst snd]. split; [exact S1 | now apply (IH s b S2)].
      * intros [F1 F2]. rewrite (proj2 (IH s (snd r) S2) F2). cbn [bind]. rewrite (first_accepts_inj _ _ _ _ _ S1 F1). now destruct r.
    + split; [discriminate|]. intros [F1 _]. exfalso. eapply first_accepts_not; eauto.
Qed.
Lemma filled_shape {T} (ps : parsers T) : forall s, (exists r, filled ps s = Ok r) \/ (exists m, filled ps s = Err m).
Proof.
  induction ps as [|T U p ps IH]; intros s; simpl; [left; eauto|]. destruct (fst s); [|right; eauto].
  destruct (IH (snd s)) as [[r ->]|[m ->]]; cbn [bind]; eauto.
Qed.
Lemma filled_err {T} (ps : parsers T) v l : forall s, slots_ok ps v l (no_slots ps) s ->
  ((exists m, filled ps s = Err m) <-> some_rejects ps v l).
Proof.
  induction ps as [|T U p ps IH]; intros s S; simpl in *.
  - split; [intros [m E]; discriminate | contradiction].
  - destruct S as [S1 S2]. destruct s as [o s]. cbn [fst snd] in *. unfold slot_ok in S1. destruct o as [a|].
    + split.
      * intros [m E]. right. apply (IH s S2). destruct (filled ps s); try discriminate. eauto.
      * intros [F|R]; [exfalso; eapply first_accepts_not; eauto|]. apply (IH s S2) in R. destruct R as [m ->]. cbn [bind]. eauto.
    + split; [left; exact S1 | eauto].
Qed.
Lemma parse_children_list {T} (ps : parsers T) v h l r :
  children v h = Ok l -> parse_children ps v h = Ok r -> each_first ps v l r.
Proof.
  intros C E. unfold parse_children in E. rewrite C in E. cbn [bind] in E. apply bind_ok in E. destruct E as (s & O & F).
  apply offer_all_ok in O. now apply (filled_ok ps v l s r O).
Qed.
(** What the loop still has to find. *)
Fixpoint to_find {T} (ps : parsers T) (v : env) (l : list Z) : slots ps -> T -> Prop :=
  match ps with
  | PNil => fun _ _ => True
  | PCons p ps' => fun s r =>
      match fst s with Some a => a = fst r | None => first_accepts p v l (fst r) end /\ to_find ps' v l (snd s) (snd r)
  end.
Lemma offer_find {T} (ps : parsers T) v c l : forall s r, to_find ps v (c :: l) s r -> exists s', offer ps v c s = Ok s' /\ to_find ps v l s' r.
Proof.
  induction ps as [|T U p ps IH]; intros s r F; simpl in *; [eauto|]. destruct s as [o s], r as [a r]. cbn [fst snd] in *. destruct F as [F1 F2].
  destruct (IH s r F2) as (s' & E & F'). rewrite E. destruct o as [a'|].
  - cbn [bind]. exists (Some a', s'). cbn [fst snd]. auto.
  - destruct F1 as (l1 & c' & l2 & Q & A & R). destruct l1 as [|c1 l1]; injection Q as <- ->.
    + rewrite A. cbn [bind]. exists (Some a, s'). cbn [fst snd]. auto.
    + inversion R as [|? ? [m Em] R']; subst. rewrite Em. cbn [bind]. exists (None, s'). cbn [fst snd]. repeat split; [|exact F'].
      exists l1, c', l2. auto.
Qed.
Lemma offer_all_find {T} (ps : parsers T) v l : forall s r, to_find ps v l s r -> exists s', offer_all ps v l s = Ok s' /\ filled ps s' = Ok r.
Proof.
  induction l as [|c l IH]; intros s r F; cbn [offer_all].
  - exists s. split; [reflexivity|]. induction ps as [|T U p ps IHp]; simpl in *; [now destruct r|]. destruct s as [o s], r as [a r]. cbn [fst snd] in *.
    destruct F as [F1 F2]. rewrite (IHp s r F2). destruct o as [a'|]; [subst; reflexivity|]. destruct F1 as (l1 & ? & ? & Q & _). destruct l1; discriminate.
  - destruct (offer_find ps v c l s r F) as (s' & -> & F'). cbn [bind]. apply IH. exact F'.
Qed.
Lemma parse_children_complete {T} (ps : parsers T) v h l r :
  children v h = Ok l -> each_first ps v l r -> parse_children ps v h = Ok r.
Proof.
  intros C F. unfold parse_children. rewrite C. cbn [bind]. assert (to_find ps v l (no_slots ps) r) as F'.
  { clear C. induction ps as [|T U p ps IH]; simpl in *; [exact I|]. destruct F as [F1 F2]. split; [exact F1 | apply IH; exact F2]. }
  destruct (offer_all_find ps v l _ _ F') as (s' & -> & E). cbn [bind]. exact E.
Qed.
