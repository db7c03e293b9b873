(** C40: walking DIE trees. *)
From Coq Require Import List ZArith Lia Bool Sorted.
From Verif Require Import Base DieModel DieSpec DieProofs.
Import ListNotations.
Open Scope Z_scope.

(** The visitor [vis], writing down every entry it is shown and what it decides about it. *)
Definition logged {V} (vis : visitor V) : visitor (V * list (entry * decision)) :=
  Visitor (fun s e => let (v1, dec) := v_pre vis (fst s) e in ((v1, snd s ++ [(e, dec)]), dec))
    (fun s e => match v_post vis (fst s) e with inl v' => inl (v', snd s) | inr f => inr (fun o => (f o, snd s)) end).
Definition logged_cu {V} (cv : cu_visitor V) : cu_visitor (V * list (entry * decision)) :=
  CuVisitor (fun s e => let (v1, dec) := cu_pre cv (fst s) e in ((v1, snd s), dec)) (fun s e => (cu_post cv (fst s) e, snd s)).

(** The entries shown for a tree, with the decision taken on each: a skipped tree shows its top entry only. *)
Inductive shows : die -> list (entry * decision) -> Prop :=
| shows_skip e k : shows (Die e k) [(e, Skip)]
| shows_descend e k logs : shows_all (match k with Some l => l | None => [] end) logs -> shows (Die e k) ((e, Descend) :: logs)
with shows_all : list die -> list (entry * decision) -> Prop :=
| shows_nil : shows_all [] []
| shows_cons d l a b : shows d a -> shows_all l b -> shows_all (d :: l) (a ++ b).

Lemma logged_tree {V} (vis : visitor V) d : forall after v log,
  exists a, tree_walk (logged vis) d after (v, log) = ((fst (tree_walk vis d after v), log ++ a), snd (tree_walk vis d after v)) /\
  (snd (tree_walk vis d after v) = true -> shows d a).
Proof.
  induction d as [e kids IH] using die_ind2. intros after v log. rewrite !tree_walk_eq. cbn [logged v_pre v_post fst snd].
  destruct (v_pre vis v e) as [v1 [| |]]; cbn [fst snd].
  - set (l := match kids with Some l => l | None => [] end). 
    assert (L : forall v log, exists b, list_walk (logged vis) l after (v, log) = ((fst (list_walk vis l after v), log ++ b), snd (list_walk vis l after v)) /\
      (snd (list_walk vis l after v) = true -> shows_all l b)).
    { assert (F : Forall (fun d => forall after v log, exists a, tree_walk (logged vis) d after (v, log) = ((fst (tree_walk vis d after v), log ++ a), snd (tree_walk vis d after v)) /\ (snd (tree_walk vis d after v) = true -> shows d a)) l)
        by (subst l; destruct kids as [l|]; [exact (IH l eq_refl) | constructor]).
      clear - F. induction F as [|x l Hx _ IHl]; intros v log.
      - exists []. cbn. rewrite app_nil_r. split; [reflexivity | intros _; constructor].
      - cbn [list_walk]. destruct (Hx (next_of l after) v log) as (a & E & S). rewrite E.
        destruct (tree_walk vis x (next_of l after) v) as [v' [|]]; cbn [fst snd] in *.
        + destruct (IHl v' (log ++ a)) as (b & E2 & S2). rewrite E2. exists (a ++ b). rewrite app_assoc. split; [reflexivity|].
          intros H. constructor; [exact (S eq_refl) | exact (S2 H)].
        + exists a. split; [reflexivity | discriminate]. }
    destruct (L v1 (log ++ [(e, Descend)])) as (b & E & S). rewrite E. destruct (list_walk vis l after v1) as [v2 [|]]; cbn [fst snd] in *.
    + exists ((e, Descend) :: b). split; [|intros _; constructor; exact (S eq_refl)].
      unfold close. cbn [logged v_post fst snd]. rewrite <- app_assoc. cbn [app]. destruct (v_post vis v2 e); reflexivity.
    + exists ((e, Descend) :: b). rewrite <- app_assoc. split; [reflexivity | discriminate].
  - exists [(e, Skip)]. split; [|intros _; constructor]. unfold close. cbn [logged v_post fst snd]. destruct (v_post vis v1 e); reflexivity.
  - exists [(e, Fail)]. split; [reflexivity | discriminate].
Qed.
Lemma logged_list {V} (vis : visitor V) l : forall after v log,
  exists a, list_walk (logged vis) l after (v, log) = ((fst (list_walk vis l after v), log ++ a), snd (list_walk vis l after v)) /\
  (snd (list_walk vis l after v) = true -> shows_all l a).
Proof.
  induction l as [|x l IHl]; intros after v log.
  - exists []. cbn. rewrite app_nil_r. split; [reflexivity | intros _; constructor].
  - cbn [list_walk]. destruct (logged_tree vis x (next_of l after) v log) as (a & E & S). rewrite E.
    destruct (tree_walk vis x (next_of l after) v) as [v' [|]]; cbn [fst snd] in *.
    + destruct (IHl after v' (log ++ a)) as (b & E2 & S2). rewrite E2. exists (a ++ b). rewrite app_assoc. split; [reflexivity|].
      intros H. constructor; [exact (S eq_refl) | exact (S2 H)].
    + exists a. split; [reflexivity | discriminate].
Qed.

(** C40, for any visitor: it is shown exactly the pruned tree its own decisions describe. *)
Theorem walk_shows_pruned_tree : forall V (cv : cu_visitor V) (vis : visitor V) d pad v, e_tag (d_entry d) = Tcompile_unit ->
  snd (cu_pre cv v (d_entry d)) = Descend ->
  exists n0 v' ok log, forall n, (n0 <= n)%nat ->
    walk_unit cv vis n (unit_toks d pad) v = Some (v', ok) /\
    walk_unit (logged_cu cv) (logged vis) n (unit_toks d pad) (v, []) = Some ((v', log), ok) /\
    (ok = true -> shows_all (d_kids d) log).
Proof.
  intros V cv vis d pad v HT HD. destruct (walk_unit_refines cv vis d pad v HT) as (n1 & H1).
  destruct (walk_unit_refines (logged_cu cv) (logged vis) d pad (v, []) HT) as (n2 & H2).
  cbn [logged_cu cu_pre cu_post fst snd] in H2. destruct (cu_pre cv v (d_entry d)) as [v1 dec]. cbn in HD. subst dec. cbn [fst snd] in H2.
  destruct (logged_list vis (d_kids d) None v1 []) as (a & E & S). rewrite E in H2.
  destruct (list_walk vis (d_kids d) None v1) as [v2 [|]]; cbn [fst snd app] in *.
  - exists (n1 + n2)%nat, (cu_post cv v2 (d_entry d)), true, a. intros n Hn. rewrite H1, H2 by lia. auto.
  - exists (n1 + n2)%nat, v2, false, a. intros n Hn. rewrite H1, H2 by lia. repeat split. discriminate.
Qed.
Print Assumptions walk_shows_pruned_tree.

Scheme shows_ind2 := Induction for shows Sort Prop with shows_all_ind2 := Induction for shows_all Sort Prop.
Combined Scheme shows_mutind from shows_ind2, shows_all_ind2.
Lemma subseq_app {A} (a b c d : list A) : subseq a c -> subseq b d -> subseq (a ++ b) (c ++ d).
Proof.
  intros H H2. induction H; cbn [app].
  - induction l; cbn; [exact H2 | apply subseq_skip; exact IHl].
  - apply subseq_skip. exact IHsubseq.
  - apply subseq_take. exact IHsubseq.
Qed.
Lemma entries_eq e k : entries (Die e k) = e :: entries_list (match k with Some l => l | None => [] end).
Proof. destruct k; reflexivity. Qed.
Lemma shows_subseq : (forall d a, shows d a -> subseq (map fst a) (entries d)) /\ (forall l a, shows_all l a -> subseq (map fst a) (entries_list l)).
Proof.
  apply shows_mutind.
  - intros e k. rewrite entries_eq. cbn. apply subseq_take. apply subseq_nil.
  - intros e k logs _ IH. rewrite entries_eq. cbn. apply subseq_take. exact IH.
  - constructor.
  - intros d l a b _ Ha _ Hb. rewrite map_app. unfold entries_list. cbn [flat_map]. apply subseq_app; assumption.
Qed.
Lemma subseq_sorted (l m : list entry) : subseq l m -> StronglySorted (fun a b => e_off a < e_off b) m -> StronglySorted (fun a b => e_off a < e_off b) l /\ (forall x, In x l -> In x m).
Proof.
  induction 1 as [|x l m _ IH | x l m _ IH]; intros HS.
  - split; [constructor | intros x []].
  - inversion HS; subst. destruct (IH H1) as [I1 I2]. split; [exact I1 | intros y Hy; right; auto].
  - inversion HS; subst. destruct (IH H1) as [I1 I2]. split.
    + constructor; [exact I1|]. rewrite Forall_forall in *. intros y Hy. apply H2. auto.
    + intros y [<- | Hy]; [left; reflexivity | right; auto].
Qed.
(** ... hence, for a unit whose entries lie in file order, at most once each and in that order. *)
Theorem walk_shows_each_once_in_order : forall d log, StronglySorted (fun a b => e_off a < e_off b) (entries d) -> shows_all (d_kids d) log ->
  StronglySorted (fun a b => e_off a < e_off b) (map fst log) /\ (forall x, In x (map fst log) -> In x (entries d)) /\ NoDup (map fst log).
Proof.
  intros [e k] log HS HL. rewrite entries_eq in *. inversion HS; subst. pose proof (proj2 shows_subseq _ _ HL) as S.
  destruct (subseq_sorted _ _ S H1) as [S1 S2]. split; [exact S1|]. split; [intros x Hx; right; apply S2; exact Hx|].
  clear - S1. induction S1 as [|x l _ IH F]; constructor; [|exact IH]. intros H. rewrite Forall_forall in F. specialize (F x H). lia.
Qed.
Print Assumptions walk_shows_each_once_in_order.
(** ... and when the visitor's decision depends on the entry alone, exactly those all of whose ancestors it descends into. *)
Definition decides {V} (vis : visitor V) (descend : entry -> bool) : Prop :=
  forall v e, snd (v_pre vis v e) = if descend e then Descend else Skip.
Lemma decides_shows {V} (vis : visitor V) descend (D : decides vis descend) : forall l after v log,
  exists a, list_walk (logged vis) l after (v, log) = ((fst (list_walk vis l after v), log ++ a), true) /\ 
  (forall x, In x (map fst a) <-> exists c, In c l /\ reaches descend c x).
Proof.
  assert (T : forall d after v log, exists a, tree_walk (logged vis) d after (v, log) = ((fst (tree_walk vis d after v), log ++ a), true) /\
     snd (tree_walk vis d after v) = true /\ (forall x, In x (map fst a) <-> reaches descend d x)).
  { induction d as [e kids IH] using die_ind2. intros after v log. rewrite !tree_walk_eq. cbn [logged v_pre v_post fst snd].
    pose proof (D v e) as De. destruct (v_pre vis v e) as [v1 dec] eqn:PE. cbn in De.
    destruct (descend e) eqn:Q; subst dec; cbn [fst snd].
    - set (l := match kids with Some l => l | None => [] end).
      assert (L : forall v log, exists b, list_walk (logged vis) l after (v, log) = ((fst (list_walk vis l after v), log ++ b), true) /\
          snd (list_walk vis l after v) = true /\ (forall x, In x (map fst b) <-> exists c, In c l /\ reaches descend c x)).
      { assert (F : Forall (fun d => forall after v log, exists a, tree_walk (logged vis) d after (v, log) = ((fst (tree_walk vis d after v), log ++ a), true) /\
          snd (tree_walk vis d after v) = true /\ (forall x, In x (map fst a) <-> reaches descend d x)) l)
          by (subst l; destruct kids as [l|]; [exact (IH l eq_refl) | constructor]).
        clear - F. induction F as [|x l Hx _ IHl]; intros v log.
        - exists []. cbn. rewrite app_nil_r. split; [reflexivity|]. split; [reflexivity|]. intros x. split; [intros [] | intros (c & [] & _)].
        - cbn [list_walk]. destruct (Hx (next_of l after) v log) as (a & E & S & R). rewrite E.
          destruct (tree_walk vis x (next_of l after) v) as [v' ok]; cbn [fst snd] in *. subst ok.
          destruct (IHl v' (log ++ a)) as (b & E2 & S2 & R2). rewrite E2. exists (a ++ b). rewrite app_assoc. split; [reflexivity|]. split; [exact S2|].
          intros y. rewrite map_app, in_app_iff, R, R2. split.
          + intros [H | (c & H1 & H2)]; [exists x; split; [left; reflexivity | exact H] | exists c; split; [right; exact H1 | exact H2]].
          + intros (c & [<- | H1] & H2); [left; exact H2 | right; exists c; auto]. }
      destruct (L v1 (log ++ [(e, Descend)])) as (b & E & S & R). rewrite E. destruct (list_walk vis l after v1) as [v2 ok]; cbn [fst snd] in *. subst ok.
      exists ((e, Descend) :: b). split; [|split; [reflexivity|]].
      + unfold close. cbn [logged v_post fst snd]. rewrite <- app_assoc. cbn [app]. destruct (v_post vis v2 e); reflexivity.
      + intros x. cbn [map fst In]. rewrite R. split.
        * intros [<- | (c & H1 & H2)]; [exact (reaches_here descend (Die e kids))|]. apply (reaches_child descend (Die e kids) c x); [exact Q | subst l; destruct kids; exact H1 | exact H2].
        * intros H. inversion H as [? Ed | ? c ? H1 H2 H3]; subst; [left; reflexivity | right; exists c; split; [subst l; destruct kids; exact H2 | exact H3]].
    - exists [(e, Skip)]. split; [|split; [reflexivity|]].
      + unfold close. cbn [logged v_post fst snd]. destruct (v_post vis v1 e); reflexivity.
      + intros x. cbn. split; [intros [<- | []]; exact (reaches_here descend (Die e kids)) | intros H; inversion H; subst; [left; reflexivity | cbn in *; congruence]]. }
  induction l as [|x l IHl]; intros after v log.
  - exists []. cbn. rewrite app_nil_r. split; [reflexivity|]. intros x. split; [intros [] | intros (c & [] & _)].
  - cbn [list_walk]. destruct (T x (next_of l after) v log) as (a & E & S & R). rewrite E.
    destruct (tree_walk vis x (next_of l after) v) as [v' ok]; cbn [fst snd] in *. subst ok.
    destruct (IHl after v' (log ++ a)) as (b & E2 & R2). rewrite E2. exists (a ++ b). rewrite app_assoc. split; [reflexivity|].
    intros y. rewrite map_app, in_app_iff, R, R2. split.
    + intros [H | (c & H1 & H2)]; [exists x; split; [left; reflexivity | exact H] | exists c; split; [right; exact H1 | exact H2]].
    + intros (c & [<- | H1] & H2); [left; exact H2 | right; exists c; auto].
Qed.
Theorem walk_reaches_exactly : forall V (cv : cu_visitor V) (vis : visitor V) descend d pad v, e_tag (d_entry d) = Tcompile_unit ->
  snd (cu_pre cv v (d_entry d)) = Descend -> decides vis descend ->
  exists n0 v' log, forall n, (n0 <= n)%nat ->
    walk_unit (logged_cu cv) (logged vis) n (unit_toks d pad) (v, []) = Some ((v', log), true) /\
    forall x, In x (map fst log) <-> exists c, In c (d_kids d) /\ reaches descend c x.
Proof.
  intros V cv vis descend d pad v HT HD D. destruct (walk_unit_refines (logged_cu cv) (logged vis) d pad (v, []) HT) as (n2 & H2).
  cbn [logged_cu cu_pre cu_post fst snd] in H2. destruct (cu_pre cv v (d_entry d)) as [v1 dec]. cbn in HD. subst dec. cbn [fst snd] in H2.
  destruct (decides_shows vis descend D (d_kids d) None v1 []) as (a & E & R). rewrite E in H2. cbn [fst snd app] in H2.
  exists n2, (cu_post cv (fst (list_walk vis (d_kids d) None v1)) (d_entry d)), a. intros n Hn. rewrite H2 by lia. auto.
Qed.
Print Assumptions walk_reaches_exactly.
(** ... and the subtree walk of a single DIE never leaves its subtree, wherever it lies in the unit. *)
Theorem walk_die_stays_inside : forall V (vis : visitor V) d ls pad v,
  exists n0 v' ok log, forall n, (n0 <= n)%nat ->
    walk_die vis n (toks d ++ stream ls pad) v = Some (v', ok) /\
    walk_die (logged vis) n (toks d ++ stream ls pad) (v, []) = Some ((v', log), ok) /\ (ok = true -> shows d log).
Proof.
  intros V vis d ls pad v. destruct (walk_die_refines vis d ls pad v) as (n1 & H1). destruct (walk_die_refines (logged vis) d ls pad (v, [])) as (n2 & H2).
  destruct (logged_tree vis d (first_off (stream ls pad)) v []) as (a & E & S). rewrite E in H2.
  exists (n1 + n2)%nat, (fst (tree_walk vis d (first_off (stream ls pad)) v)), (snd (tree_walk vis d (first_off (stream ls pad)) v)), a.
  intros n Hn. rewrite H1, H2 by lia. cbn [app]. split; [destruct (tree_walk _ _ _ _); reflexivity | auto].
Qed.
Print Assumptions walk_die_stays_inside.

(** visitor.rs 305-363: which entries the default visitor walks into. *)
Definition default_descends (e : entry) : bool :=
  match e_tag e with
  | Tnamespace | Tsubprogram | Tstructure | Tenumeration | Tvariable | Tparameter | Tbase | Tpointer | Tarray | Tblock | Tunion => true
  | _ => false
  end.
(** Example: a unit with a namespace holding a struct (member unvisited below) and an inlined call that is not entered. *)
Definition ent (off : Z) (t : tag) : entry := Entry off t [] (Ok []).
Definition walk_example_unit : die :=
  Die (ent 11 Tcompile_unit) (Some
    [Die (ent 20 Tnamespace) (Some [Die (ent 30 Tstructure) (Some [Die (ent 35 Tmember) None]); Die (ent 40 Tbase) (Some [])]);
     Die (ent 50 Tinlined) (Some [Die (ent 55 Tparameter) None]); Die (ent 60 Tsubprogram) None]).
Definition plain_visitor : visitor unit := Visitor (fun v e => (v, if default_descends e then Descend else Skip)) (fun v _ => inl v).
Example walk_example :
  decides plain_visitor default_descends /\
  match walk_unit (logged_cu (CuVisitor (fun v _ => (v, Descend)) (fun v _ => v))) (logged plain_visitor) 100 (unit_toks walk_example_unit 2) (tt, []) with
  | Some ((_, log), ok) => (map (fun x => e_off (fst x)) log, ok) = ([20; 30; 35; 40; 50; 60], true)
  | None => False
  end.
Proof. split; [intros v e; reflexivity | vm_compute; reflexivity]. Qed.
