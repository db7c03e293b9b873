(** Ordered maps as sorted association lists: the observable behaviour of
    std::collections::BTreeMap (a standard-library type, not modelled further).
    Keys are compared by [cmp]; like BTreeMap, inserting under an equal key keeps the
    stored key and replaces the value. *)
From Coq Require Import List ZArith NArith Bool Lia Sorted Permutation.
From Coq Require Import ZifyBool ZifyNat ZifyN.
From Verif Require Import Base.
Import ListNotations.

Record wo {K} (cmp : K -> K -> comparison) : Prop := {
  wo_opp : forall a b, cmp b a = CompOpp (cmp a b);
  wo_eq : forall a b, cmp a b = Eq -> forall c, cmp a c = cmp b c;
  wo_lt : forall a b c, cmp a b = Lt -> cmp b c = Lt -> cmp a c = Lt
}.

(** Derived orders. *)
Definition then_with (a b : comparison) : comparison := match a with Eq => b | _ => a end.
Definition cmp_on {A K} (f : A -> K) (cmp : K -> K -> comparison) (a b : A) := cmp (f a) (f b).
Definition cmp_pair {A B} (ca : A -> A -> comparison) (cb : B -> B -> comparison) (x y : A * B) :=
  then_with (ca (fst x) (fst y)) (cb (snd x) (snd y)).
(** Lexicographic order on sequences (Rust's slice / Vec / str ordering; for str, the byte order of
    UTF-8 is the order of the scalar values). *)
Fixpoint cmp_list {A} (c : A -> A -> comparison) (l m : list A) : comparison :=
  match l, m with
  | [], [] => Eq
  | [], _ :: _ => Lt
  | _ :: _, [] => Gt
  | x :: l', y :: m' => then_with (c x y) (cmp_list c l' m')
  end.
Definition cmp_str : str -> str -> comparison := cmp_list N.compare.
Definition cmp_opt {A} (c : A -> A -> comparison) (x y : option A) : comparison :=
  match x, y with
  | None, None => Eq | None, Some _ => Lt | Some _, None => Gt | Some a, Some b => c a b
  end.

Lemma wo_refl {K} (cmp : K -> K -> comparison) : wo cmp -> forall a, cmp a a = Eq.
Proof. intros W a. pose proof (wo_opp _ W a a) as H. destruct (cmp a a); simpl in H; congruence. Qed.
Lemma wo_eq_sym {K} (cmp : K -> K -> comparison) : wo cmp -> forall a b, cmp a b = Eq -> cmp b a = Eq.
Proof. intros W a b H. rewrite (wo_opp _ W a b), H. reflexivity. Qed.
Lemma wo_eq_r {K} (cmp : K -> K -> comparison) : wo cmp ->
  forall a b, cmp a b = Eq -> forall c, cmp c a = cmp c b.
Proof.
  intros W a b H c. rewrite (wo_opp _ W a c), (wo_opp _ W b c), (wo_eq _ W a b H c). reflexivity.
Qed.

Lemma wo_Z : wo Z.compare.
Proof.
  constructor.
  - intros a b. apply Z.compare_antisym.
  - intros a b H c. apply Z.compare_eq in H. congruence.
  - intros a b c. rewrite !Z.compare_lt_iff. lia.
Qed.
Lemma wo_N : wo N.compare.
Proof.
  constructor.
  - intros a b. apply N.compare_antisym.
  - intros a b H c. apply N.compare_eq in H. congruence.
  - intros a b c. rewrite !N.compare_lt_iff. lia.
Qed.
Lemma wo_on {A K} (f : A -> K) cmp : wo cmp -> wo (cmp_on f cmp).
Proof.
  intros W. unfold cmp_on. constructor; intros a b; intros.
  - apply (wo_opp _ W).
  - apply (wo_eq _ W). assumption.
  - eapply (wo_lt _ W); eassumption.
Qed.
Lemma wo_pair {A B} (ca : A -> A -> comparison) (cb : B -> B -> comparison) :
  wo ca -> wo cb -> wo (cmp_pair ca cb).
Proof.
  intros Wa Wb. constructor.
  - intros [a1 b1] [a2 b2]. unfold cmp_pair; simpl. rewrite (wo_opp _ Wa a1 a2), (wo_opp _ Wb b1 b2).
    destruct (ca a1 a2); reflexivity.
  - intros [a1 b1] [a2 b2] H [a3 b3]. unfold cmp_pair in *; simpl in *.
    destruct (ca a1 a2) eqn:E; simpl in H; try discriminate.
    rewrite (wo_eq _ Wa _ _ E), (wo_eq _ Wb _ _ H). reflexivity.
  - intros [a1 b1] [a2 b2] [a3 b3] H1 H2. unfold cmp_pair in *; simpl in *.
    destruct (ca a1 a2) eqn:E1; simpl in H1; try discriminate.
    + rewrite (wo_eq _ Wa _ _ E1). destruct (ca a2 a3) eqn:E2; simpl in *; try discriminate; [|reflexivity].
      eapply (wo_lt _ Wb); eassumption.
    + destruct (ca a2 a3) eqn:E2; simpl in H2; try discriminate.
      * rewrite <- (wo_eq_r _ Wa _ _ E2), E1. reflexivity.
      * rewrite (wo_lt _ Wa _ _ _ E1 E2). reflexivity.
Qed.
Lemma wo_list {A} (c : A -> A -> comparison) : wo c -> wo (cmp_list c).
Proof.
  intros W. constructor.
  - induction a as [|x a IH]; destruct b as [|y b]; simpl; try reflexivity.
    rewrite (wo_opp _ W x y), (IH b). destruct (c x y); reflexivity.
  - induction a as [|x a IH]; destruct b as [|y b]; simpl; intros H; try discriminate; [reflexivity|].
    destruct (c x y) eqn:E; simpl in H; try discriminate. intros [|z m]; [reflexivity|].
    simpl. rewrite (wo_eq _ W _ _ E), (IH _ H). reflexivity.
  - induction a as [|x a IH]; destruct b as [|y b]; intros [|z m]; simpl; intros H1 H2;
      try discriminate; try reflexivity.
    destruct (c x y) eqn:E1; simpl in H1; try discriminate.
    + rewrite (wo_eq _ W _ _ E1). destruct (c y z) eqn:E2; simpl in *; try discriminate; [|reflexivity].
      eapply IH; eassumption.
    + destruct (c y z) eqn:E2; simpl in H2; try discriminate.
      * rewrite <- (wo_eq_r _ W _ _ E2), E1. reflexivity.
      * rewrite (wo_lt _ W _ _ _ E1 E2). reflexivity.
Qed.
Lemma wo_opt {A} (c : A -> A -> comparison) : wo c -> wo (cmp_opt c).
Proof.
  intros W. constructor.
  - intros [a|] [b|]; simpl; try reflexivity. apply (wo_opp _ W).
  - intros [a|] [b|]; simpl; intros H [d|]; try discriminate; try reflexivity. apply (wo_eq _ W); exact H.
  - intros [a|] [b|] [d|]; simpl; intros H1 H2; try discriminate; try reflexivity. eapply (wo_lt _ W); eassumption.
Qed.
Lemma wo_str : wo cmp_str.
Proof. apply wo_list, wo_N. Qed.
Lemma cmp_list_eq {A} (c : A -> A -> comparison) : (forall a b, c a b = Eq -> a = b) ->
  forall l m, cmp_list c l m = Eq -> l = m.
Proof.
  intros Hc. induction l as [|x l IH]; destruct m as [|y m]; simpl; intros H; try discriminate; [reflexivity|].
  destruct (c x y) eqn:E; simpl in H; try discriminate. rewrite (Hc _ _ E), (IH _ H). reflexivity.
Qed.
Lemma cmp_str_eq a b : cmp_str a b = Eq -> a = b.
Proof. apply cmp_list_eq. apply N.compare_eq. Qed.
Lemma cmp_str_refl a : cmp_str a a = Eq.
Proof. apply (wo_refl _ wo_str). Qed.

Section OMap.
  Context {K V : Type} (cmp : K -> K -> comparison).

  Definition omap := list (K * V).

  Fixpoint oget (k : K) (m : omap) : option V :=
    match m with
    | [] => None
    | (k', v) :: m' => match cmp k k' with Eq => Some v | _ => oget k m' end
    end.
  Fixpoint oinsert (k : K) (v : V) (m : omap) : omap :=
    match m with
    | [] => [(k, v)]
    | (k', v') :: m' =>
      match cmp k k' with
      | Lt => (k, v) :: m
      | Eq => (k', v) :: m'
      | Gt => (k', v') :: oinsert k v m'
      end
    end.
  (** [*map.entry(k).or_default()] followed by an update of the value. *)
  Definition oupdate (k : K) (dflt : V) (f : V -> V) (m : omap) : omap :=
    oinsert k (f (match oget k m with Some v => v | None => dflt end)) m.

  Fixpoint osorted (m : omap) : Prop :=
    match m with
    | [] => True
    | (k, _) :: m' => (forall k' v', In (k', v') m' -> cmp k k' = Lt) /\ osorted m'
    end.

  (** [map.range(..=k).next_back()]. *)
  Fixpoint last_le (k : K) (m : omap) : option (K * V) :=
    match m with
    | [] => None
    | (k', v) :: m' =>
      match cmp k' k with
      | Gt => None
      | _ => match last_le k m' with Some r => Some r | None => Some (k', v) end
      end
    end.

  Hypothesis W : wo cmp.

  Lemma oinsert_in k v m k' v' : In (k', v') (oinsert k v m) ->
    (cmp k k' = Eq /\ v' = v) \/ In (k', v') m.
  Proof.
    induction m as [|[k0 v0] m IH]; simpl.
    - intros [H|[]]. injection H as <- <-. left. split; [apply (wo_refl _ W) | reflexivity].
    - destruct (cmp k k0) eqn:E; simpl.
      + intros [H|H]; [injection H as <- <-; left; auto | right; auto].
      + intros [H|H]; [injection H as <- <-; left; split; [apply (wo_refl _ W) | reflexivity] | right; exact H].
      + intros [H|H]; [right; auto|]. destruct (IH H) as [|]; auto.
  Qed.

  Lemma oinsert_sorted k v m : osorted m -> osorted (oinsert k v m).
  Proof.
    induction m as [|[k0 v0] m IH]; simpl; intros H; [split; [intros ? ? []|exact I]|].
    destruct H as [H1 H2]. destruct (cmp k k0) eqn:E; simpl.
    - split; assumption.
    - split; [|split; assumption]. intros k' v' [H|H].
      + injection H as <- <-. exact E.
      + apply (wo_lt _ W _ _ _ E). eapply H1. exact H.
    - split; [|apply IH; exact H2]. intros k' v' H.
      apply oinsert_in in H. destruct H as [[H _]|H]; [|eapply H1; exact H].
      rewrite <- (wo_eq_r _ W _ _ H). rewrite (wo_opp _ W), E. reflexivity.
  Qed.
  Lemma oupdate_sorted k d f m : osorted m -> osorted (oupdate k d f m).
  Proof. apply oinsert_sorted. Qed.

  Lemma oget_insert k v m k' : osorted m ->
    oget k' (oinsert k v m) = match cmp k' k with Eq => Some v | _ => oget k' m end.
  Proof.
    induction m as [|[k0 v0] m IH]; simpl; intros H.
    - destruct (cmp k' k); reflexivity.
    - destruct H as [H1 H2]. destruct (cmp k k0) eqn:E; simpl.
      + rewrite <- (wo_eq_r _ W _ _ E). destruct (cmp k' k); reflexivity.
      + reflexivity.
      + rewrite (IH H2). destruct (cmp k' k) eqn:E2; try reflexivity.
        rewrite (wo_eq _ W _ _ E2), E. reflexivity.
  Qed.
  Lemma oget_update k d f m k' : osorted m ->
    oget k' (oupdate k d f m) =
      match cmp k' k with
      | Eq => Some (f (match oget k m with Some v => v | None => d end))
      | _ => oget k' m
      end.
  Proof. intros H. unfold oupdate. rewrite oget_insert by exact H. reflexivity. Qed.

  Lemma oget_eq a b m : cmp a b = Eq -> oget a m = oget b m.
  Proof.
    intros H. induction m as [|[k v] m IH]; simpl; [reflexivity|]. rewrite (wo_eq _ W _ _ H), IH. reflexivity.
  Qed.

  Lemma oget_in k v m : osorted m -> In (k, v) m -> oget k m = Some v.
  Proof.
    induction m as [|[k0 v0] m IH]; simpl; intros H Hin; [destruct Hin|].
    destruct H as [H1 H2]. destruct Hin as [Hin|Hin].
    - injection Hin as -> ->. rewrite (wo_refl _ W). reflexivity.
    - rewrite (wo_opp _ W). rewrite (H1 _ _ Hin). simpl. apply IH; assumption.
  Qed.
  Lemma oget_some k v m : oget k m = Some v -> exists k', cmp k k' = Eq /\ In (k', v) m.
  Proof.
    induction m as [|[k0 v0] m IH]; simpl; [discriminate|].
    destruct (cmp k k0) eqn:E; intros H.
    - injection H as <-. exists k0. auto.
    - destruct (IH H) as [k' [H1 H2]]. exists k'. auto.
    - destruct (IH H) as [k' [H1 H2]]. exists k'. auto.
  Qed.
  Lemma oget_none k m : oget k m = None <-> forall k' v, In (k', v) m -> cmp k k' <> Eq.
  Proof.
    split.
    - induction m as [|[k0 v0] m IH]; simpl; [intros _ ? ? []|].
      destruct (cmp k k0) eqn:E; [discriminate| |]; intros H k' v [Hin|Hin];
        try (injection Hin as <- <-; congruence); apply (IH H _ v); assumption.
    - induction m as [|[k0 v0] m IH]; simpl; [reflexivity|]. intros H.
      destruct (cmp k k0) eqn:E; [exfalso; eapply H; [left; reflexivity|exact E]| |];
        apply IH; intros k' v Hin; apply (H k' v); right; exact Hin.
  Qed.

  Lemma last_le_spec k m : osorted m ->
    match last_le k m with
    | Some (b, v) => In (b, v) m /\ cmp b k <> Gt /\ (forall b' v', In (b', v') m -> cmp b' k <> Gt -> cmp b' b <> Gt)
    | None => forall b v, In (b, v) m -> cmp b k = Gt
    end.
  Proof.
    induction m as [|[k0 v0] m IH]; simpl; intros H; [intros ? ? []|].
    destruct H as [H1 H2]. specialize (IH H2).
    assert (Hgt : cmp k0 k = Gt -> forall b v, In (b, v) m -> cmp b k = Gt).
    { intros Hk b v Hin. specialize (H1 _ _ Hin). rewrite (wo_opp _ W).
      rewrite (wo_opp _ W) in Hk. destruct (cmp k k0) eqn:E; try discriminate.
      rewrite (wo_lt _ W _ _ _ E H1). reflexivity. }
    assert (Hle : cmp k0 k <> Gt -> match (match last_le k m with Some r => Some r | None => Some (k0, v0) end) with
      | Some (b, v) => ((k0, v0) = (b, v) \/ In (b, v) m) /\ cmp b k <> Gt /\
          (forall b' v', (k0, v0) = (b', v') \/ In (b', v') m -> cmp b' k <> Gt -> cmp b' b <> Gt)
      | None => False end).
    { intros Hk. destruct (last_le k m) as [[b v]|].
      - destruct IH as [I1 [I2 I3]]. split; [auto|]. split; [exact I2|].
        intros b' v' [Hin|Hin] Hb'; [|eapply I3; eassumption].
        injection Hin as <- <-. rewrite (H1 _ _ I1). discriminate.
      - split; [auto|]. split; [exact Hk|]. intros b' v' [Hin|Hin] Hb'.
        + injection Hin as <- <-. rewrite (wo_refl _ W). discriminate.
        + specialize (IH _ _ Hin). congruence. }
    destruct (cmp k0 k) eqn:E.
    - specialize (Hle ltac:(discriminate)). destruct (last_le k m) as [[? ?]|]; exact Hle.
    - specialize (Hle ltac:(discriminate)). destruct (last_le k m) as [[? ?]|]; exact Hle.
    - intros b v [Hin|Hin]; [injection Hin as <- <-; exact E | eapply Hgt; [reflexivity | exact Hin]].
  Qed.
End OMap.
Arguments omap : clear implicits.
