(** Walks as folds over the visible DIEs; the entries from a given offset on. *)
From Coq Require Import Ascii String List ZArith NArith Lia Bool.
From Verif Require Import Base OMap SymModel SymProofs LinesModel DieModel DieSpec DieProofs ModuleModel TypesModel ParserModel ParserSpec ParserProofs ResolveModel ResolveSpec ResolveProofs ResolveProofs2 ResolveProps FnModel FnSpec.
Import ListNotations.
Open Scope Z_scope.

Lemma shown_eq descend e k : shown descend (Die e k) = Die e k :: (if descend e then flat_map (shown descend) (match k with Some l => l | None => [] end) else []).
Proof. destruct k as [l|]; cbn [shown]; [|destruct (descend e); reflexivity]. f_equal. Qed.
Lemma shown_in descend d : forall x, In x (shown descend d) -> in_tree d x.
Proof.
  induction d as [e k IH] using die_ind2. intros x. rewrite shown_eq. intros [<- | H]; [constructor|]. destruct (descend e); [|destruct H].
  apply in_flat_map in H. destruct H as (c & Hc & Hx). destruct k as [l|]; [|destruct Hc]. apply (in_kid _ c); [exact Hc|].
  pose proof (IH l eq_refl) as F. rewrite Forall_forall in F. exact (F c Hc x Hx).
Qed.

(** A visitor that depends on the entry for where to go, and on nothing afterwards, folds over the shown entries. *)
Section Fold.
Context {V : Type} (vis : visitor V) (descend : entry -> bool) (step : V -> entry -> V) (P : V -> Prop) (Q : die -> Prop).
Hypothesis post_id : forall v e, v_post vis v e = inl v.
Hypothesis pre_step : forall v d, P v -> Q d ->
  v_pre vis v (d_entry d) = (step v (d_entry d), if descend (d_entry d) then Descend else Skip) /\ P (step v (d_entry d)).
Definition fold_entries (l : list die) (v : V) : V := fold_left (fun v d => step v (d_entry d)) l v.
Lemma fold_tree : forall d, Forall Q (shown descend d) -> forall after v, P v ->
  tree_walk vis d after v = (fold_entries (shown descend d) v, true) /\ P (fold_entries (shown descend d) v).
Proof.
  induction d as [e k IH] using die_ind2. intros F after v Pv. rewrite tree_walk_eq, shown_eq in *. inversion F as [|? ? Qd F']; subst.
  destruct (pre_step v _ Pv Qd) as [E Pv1]. cbn [d_entry] in E, Pv1. rewrite E. unfold fold_entries. cbn [fold_left d_entry].
  destruct (descend e).
  - set (l := match k with Some l => l | None => [] end) in *.
    assert (L : forall v, P v -> list_walk vis l after v = (fold_entries (flat_map (shown descend) l) v, true) /\ P (fold_entries (flat_map (shown descend) l) v)).
    { assert (IH' : Forall (fun d => Forall Q (shown descend d) -> forall after v, P v -> tree_walk vis d after v = (fold_entries (shown descend d) v, true) /\ P (fold_entries (shown descend d) v)) l)
        by (subst l; destruct k as [l|]; [exact (IH l eq_refl) | constructor]).
      clear - IH' F'. induction l as [|x l IHl]; intros v Pv; [split; [reflexivity | exact Pv]|].
      inversion IH' as [|? ? Hx Hl]; subst. cbn [flat_map] in *. apply Forall_app in F'. destruct F' as [F1 F2]. cbn [list_walk].
      destruct (Hx F1 (next_of l after) v Pv) as [-> P1]. destruct (IHl F2 Hl _ P1) as [-> P2].
      unfold fold_entries in *. rewrite fold_left_app. auto. }
    destruct (L _ Pv1) as [-> P2]. unfold close. rewrite post_id. split; [reflexivity | exact P2].
  - unfold close. rewrite post_id. split; [reflexivity | exact Pv1].
Qed.
Lemma fold_list l : Forall Q (flat_map (shown descend) l) -> forall after v, P v ->
  list_walk vis l after v = (fold_entries (flat_map (shown descend) l) v, true) /\ P (fold_entries (flat_map (shown descend) l) v).
Proof.
  induction l as [|x l IHl]; intros F after v Pv; [split; [reflexivity | exact Pv]|]. cbn [flat_map list_walk] in *. apply Forall_app in F. destruct F as [F1 F2].
  destruct (fold_tree x F1 (next_of l after) v Pv) as [-> P1]. destruct (IHl F2 after _ P1) as [-> P2]. unfold fold_entries in *. rewrite fold_left_app. auto.
Qed.
End Fold.

(** Finding the entries from a DIE on. *)
Lemma toks_from_skip h d R : (forall x, in_tree d x -> e_off (d_entry x) <> h) -> toks_from h (toks d ++ R) = toks_from h R.
Proof.
  revert R. induction d as [e k IH] using die_ind2. intros R H. rewrite toks_inner. cbn [app toks_from d_entry].
  pose proof (H _ (in_here _)) as N. cbn in N. apply Z.eqb_neq in N. rewrite N. destruct k as [l|]; cbn [inner]; [|reflexivity].
  assert (L : forall m, (forall x, In x m -> In x l) -> toks_from h (flats m ++ Null :: R) = toks_from h R).
  { induction m as [|x m IHm]; intros Hm; [reflexivity|]. unfold flats. cbn [flat_map]. fold (flats m). rewrite <- app_assoc.
    pose proof (IH l eq_refl) as F. rewrite Forall_forall in F. assert (I : In x l) by (apply Hm; left; reflexivity).
    rewrite (F x I); [apply IHm; intros; apply Hm; right; assumption|]. intros y Hy. apply H. apply (in_kid _ x); [exact I | exact Hy]. }
  rewrite <- app_assoc. exact (L l (fun x H => H)).
Qed.
Lemma in_tree_dec h d : (exists x, in_tree d x /\ e_off (d_entry x) = h) \/ (forall x, in_tree d x -> e_off (d_entry x) <> h).
Proof.
  destruct (find (fun x => h_of x =? h) (subtrees d)) as [x|] eqn:E.
  - left. apply find_some in E. destruct E as [I E]. exists x. split; [now apply subtrees_in | now apply Z.eqb_eq in E].
  - right. intros x I E2. apply subtrees_in in I. pose proof (find_none _ _ E x I) as F. unfold h_of in F. rewrite E2, Z.eqb_refl in F. discriminate.
Qed.
Lemma toks_from_tree h d pad : (exists x, in_tree d x /\ e_off (d_entry x) = h) -> forall ls,
  exists x ls', in_tree d x /\ e_off (d_entry x) = h /\ toks_from h (toks d ++ stream ls pad) = toks x ++ stream ls' pad.
Proof.
  induction d as [e k IH] using die_ind2. intros (x & I & E) ls. destruct (Z.eq_dec (e_off e) h) as [Q|Q].
  - exists (Die e k), ls. split; [constructor|]. split; [exact Q|]. rewrite toks_inner. cbn [app toks_from d_entry]. rewrite (proj2 (Z.eqb_eq _ _) Q). reflexivity.
  - assert (S : exists c, In c (d_kids (Die e k)) /\ in_tree c x) by (inversion I; subst; [cbn in Q; congruence | eauto]). destruct S as (c & Hc & Hx).
    destruct k as [l|]; [|destruct Hc]. cbn [d_kids] in Hc. pose proof (IH l eq_refl) as F. rewrite Forall_forall in F.
    rewrite toks_inner. cbn [app toks_from d_entry]. rewrite (proj2 (Z.eqb_neq _ _) Q). rewrite stream_inner.
    assert (L : forall m, (forall y, In y m -> In y l) -> In c m -> exists x ls', in_tree (Die e (Some l)) x /\ e_off (d_entry x) = h /\ toks_from h (stream (m :: ls) pad) = toks x ++ stream ls' pad).
    { induction m as [|y m IHm]; intros Hm Hin; [destruct Hin|]. rewrite stream_cons. unfold flats. cbn [flat_map]. fold (flats m). rewrite <- app_assoc, <- stream_cons.
      assert (Iy : In y l) by (apply Hm; left; reflexivity). destruct (in_tree_dec h y) as [D | D].
      - destruct (F y Iy D (m :: ls)) as (z & ls' & A & B & C). exists z, ls'. split; [apply (in_kid _ y); assumption|]. split; assumption.
      - rewrite toks_from_skip by exact D. destruct Hin as [-> | Hin]; [exfalso; exact (D x Hx E)|]. apply IHm; [intros; apply Hm; right; assumption | exact Hin]. }
    exact (L l (fun _ H => H) Hc).
Qed.
Lemma toks_from_node v h d pad : good_env v -> node v h d ->
  exists ls, toks_from h (toks (en_unit v) ++ repeat Null pad) = toks d ++ stream ls pad.
Proof.
  intros G N. destruct N as [I E]. destruct (toks_from_tree h (en_unit v) pad (ex_intro _ d (conj I E)) []) as (x & ls & A & B & C).
  exists ls. rewrite <- (node_inj v h x d G (conj A B) (conj I E)). exact C.
Qed.
