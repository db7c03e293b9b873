From Coq Require Import Ascii String List ZArith Lia Bool Permutation Sorted.
From Verif Require Import Base NumText OMap TypesModel TypesProofs ValueModel.
Import ListNotations.
Open Scope Z_scope.

Definition vkids (v : value) : list value :=
  match v with
  | VScalar _ _ | VPtr _ _ => []
  | VArray _ l | VTuple _ l => l
  | VStruct _ l => map snd l
  | VMap _ l => map fst l ++ map snd l
  end.
Lemma value_ind' (P : value -> Prop) :
  (forall v, (forall k, In k (vkids v) -> P k) -> P v) -> forall v, P v.
Proof.
  intros H. fix IH 1. intros v. apply H. destruct v; simpl; intros k Hk.
  - destruct Hk.
  - clear - IH Hk. induction items as [|x xs IHx]; simpl in Hk; [destruct Hk|].
    destruct Hk as [<-|Hk]; [exact (IH x) | exact (IHx Hk)].
  - clear - IH Hk. induction fields as [|[n x] xs IHx]; simpl in Hk; [destruct Hk|].
    destruct Hk as [<-|Hk]; [exact (IH x) | exact (IHx Hk)].
  - clear - IH Hk. induction entries as [|x xs IHx]; simpl in Hk; [destruct Hk|].
    destruct Hk as [<-|Hk]; [exact (IH x) | exact (IHx Hk)].
  - apply in_app_iff in Hk. clear - IH Hk. induction entries as [|[x y] xs IHx]; simpl in Hk; [tauto|].
    destruct Hk as [[<-|Hk]|[<-|Hk]]; [exact (IH x) | exact (IHx (or_introl Hk)) | exact (IH y) | exact (IHx (or_intror Hk))].
  - destruct Hk.
Qed.

(** Serialisation: the order is the lexicographic order of the token sequences. *)
Inductive tok := TEnd | TTag (z : Z) | TStr (s : str).
Definition tcmp (a b : tok) : comparison :=
  match a, b with
  | TEnd, TEnd => Eq | TEnd, _ => Lt | _, TEnd => Gt
  | TTag x, TTag y => x ?= y | TTag _, _ => Lt | _, TTag _ => Gt
  | TStr x, TStr y => cmp_str x y
  end.
Lemma wo_tok : wo tcmp.
Proof.
  constructor.
  - intros [|x|x] [|y|y]; simpl; try reflexivity; [apply Z.compare_antisym | apply (wo_opp _ wo_str)].
  - intros [|x|x] [|y|y] H [|z|z]; simpl in *; try discriminate; try reflexivity;
      [apply (wo_eq _ wo_Z) | apply (wo_eq _ wo_str)]; assumption.
  - intros [|x|x] [|y|y] [|z|z]; simpl; intros H1 H2; try discriminate; try reflexivity;
      [eapply (wo_lt _ wo_Z) | eapply (wo_lt _ wo_str)]; eassumption.
Qed.
Lemma tcmp_eq a b : tcmp a b = Eq -> a = b.
Proof.
  destruct a, b; simpl; intros H; try discriminate; try reflexivity.
  - apply Z.compare_eq in H. congruence.
  - apply cmp_str_eq in H. congruence.
Qed.

Fixpoint toks (v : value) : list tok :=
  match v with
  | VScalar t x => [TTag 0; TStr t; TStr x]
  | VArray t l => [TTag 1; TStr t] ++ flat_map toks l ++ [TEnd]
  | VStruct t l => [TTag 2; TStr t] ++ flat_map (fun p => match p with (k, x) => TStr k :: toks x end) l ++ [TEnd]
  | VTuple t l => [TTag 3; TStr t] ++ flat_map toks l ++ [TEnd]
  | VMap t l => [TTag 4; TStr t] ++ flat_map (fun p => match p with (k, x) => toks k ++ toks x end) l ++ [TEnd]
  | VPtr a _ => [TTag 5; TTag a]
  end.

Lemma then_assoc a b c : then_with (then_with a b) c = then_with a (then_with b c).
Proof. destruct a; reflexivity. Qed.

Lemma toks_head v : exists z r, toks v = TTag z :: r.
Proof. destruct v; simpl; eauto. Qed.

Definition tk := cmp_list tcmp.
Lemma tk_cons x l y m : tk (x :: l) (y :: m) = then_with (tcmp x y) (tk l m).
Proof. reflexivity. Qed.

Lemma toks_vals {A} (f : A -> list tok) (c : A -> A -> comparison) (l m : list A) ra rb :
  (forall x, exists h r, f x = h :: r /\ h <> TEnd) ->
  (forall x y ra rb, In x l -> tk (f x ++ ra) (f y ++ rb) = then_with (c x y) (tk ra rb)) ->
  tk ((flat_map f l ++ [TEnd]) ++ ra) ((flat_map f m ++ [TEnd]) ++ rb) = then_with (cmp_list c l m) (tk ra rb).
Proof.
  intros Hh. revert m. induction l as [|x l IH]; intros [|y m] Hc; simpl.
  - reflexivity.
  - destruct (Hh y) as (h & r & E & N). rewrite E. simpl. destruct h; try congruence; reflexivity.
  - destruct (Hh x) as (h & r & E & N). rewrite E. simpl. destruct h; try congruence; reflexivity.
  - rewrite <- !app_assoc, (Hc x y) by (left; reflexivity).
    rewrite !app_assoc, <- (app_assoc (flat_map f l)), <- (app_assoc (flat_map f m)).
    rewrite !app_assoc, IH by (intros; apply Hc; right; assumption).
    destruct (c x y); reflexivity.
Qed.

Lemma vcmp_arr t l t' l' : vcmp (VArray t l) (VArray t' l') = then_with (cmp_str t t') (cmp_list vcmp l l').
Proof.
  simpl. f_equal. revert l'. induction l as [|x l IH]; intros [|y m]; simpl; try reflexivity; rewrite IH; reflexivity.
Qed.
Lemma vcmp_tup t l t' l' : vcmp (VTuple t l) (VTuple t' l') = then_with (cmp_str t t') (cmp_list vcmp l l').
Proof.
  simpl. f_equal. revert l'. induction l as [|x l IH]; intros [|y m]; simpl; try reflexivity; rewrite IH; reflexivity.
Qed.
Lemma vcmp_str t l t' l' : vcmp (VStruct t l) (VStruct t' l') = then_with (cmp_str t t') (cmp_list (cmp_pair cmp_str vcmp) l l').
Proof.
  simpl. f_equal. revert l'. induction l as [|[k x] l IH]; intros [|[k' y] m]; simpl; try reflexivity. rewrite IH. reflexivity.
Qed.
Lemma vcmp_map t l t' l' : vcmp (VMap t l) (VMap t' l') = then_with (cmp_str t t') (cmp_list (cmp_pair vcmp vcmp) l l').
Proof.
  simpl. f_equal. revert l'. induction l as [|[k x] l IH]; intros [|[k' y] m]; simpl; try reflexivity. rewrite IH. reflexivity.
Qed.

Lemma vcmp_toks a : forall b ra rb, tk (toks a ++ ra) (toks b ++ rb) = then_with (vcmp a b) (tk ra rb).
Proof.
  induction a as [a IH] using value_ind'. intros b ra rb.
  assert (Hv : forall x : value, exists h r, toks x = h :: r /\ h <> TEnd).
  { intros x. destruct (toks_head x) as (z & r & E). exists (TTag z), r. split; [exact E | discriminate]. }
  destruct a, b; try reflexivity.
  - simpl. rewrite !tk_cons. simpl. rewrite then_assoc. reflexivity.
  - change (toks (VArray ty items)) with (TTag 1 :: TStr ty :: (flat_map toks items ++ [TEnd])).
    change (toks (VArray ty0 items0)) with (TTag 1 :: TStr ty0 :: (flat_map toks items0 ++ [TEnd])).
    simpl app. rewrite !tk_cons. simpl (tcmp _ _). simpl then_with at 1.
    rewrite (toks_vals toks vcmp) by (auto; intros; apply IH; assumption).
    rewrite ?vcmp_arr, ?vcmp_tup, then_assoc. reflexivity.
  - change (toks (VStruct ty fields)) with (TTag 2 :: TStr ty :: (flat_map (fun p => match p with (k, x) => TStr k :: toks x end) fields ++ [TEnd])).
    change (toks (VStruct ty0 fields0)) with (TTag 2 :: TStr ty0 :: (flat_map (fun p => match p with (k, x) => TStr k :: toks x end) fields0 ++ [TEnd])).
    simpl app. rewrite !tk_cons. simpl (tcmp _ _). simpl then_with at 1.
    rewrite (toks_vals (fun p : str * value => match p with (k, x) => TStr k :: toks x end)
               (fun p q => match p, q with (k, x), (k', y) => then_with (cmp_str k k') (vcmp x y) end)).
    + rewrite <- then_assoc. f_equal. simpl. f_equal.
      clear. revert fields0. induction fields as [|[k x] l IHl]; intros [|[k' y] m]; simpl; try reflexivity. rewrite IHl. reflexivity.
    + intros [k x]. exists (TStr k), (toks x). split; [reflexivity | discriminate].
    + intros [k x] [k' y] r1 r2 Hin. simpl. rewrite tk_cons. simpl. rewrite IH, then_assoc; [reflexivity|].
      simpl. apply (in_map snd) in Hin. exact Hin.
  - change (toks (VTuple ty entries)) with (TTag 3 :: TStr ty :: (flat_map toks entries ++ [TEnd])).
    change (toks (VTuple ty0 entries0)) with (TTag 3 :: TStr ty0 :: (flat_map toks entries0 ++ [TEnd])).
    simpl app. rewrite !tk_cons. simpl (tcmp _ _). simpl then_with at 1.
    rewrite (toks_vals toks vcmp) by (auto; intros; apply IH; assumption).
    rewrite ?vcmp_arr, ?vcmp_tup, then_assoc. reflexivity.
  - change (toks (VMap ty entries)) with (TTag 4 :: TStr ty :: (flat_map (fun p => match p with (k, x) => toks k ++ toks x end) entries ++ [TEnd])).
    change (toks (VMap ty0 entries0)) with (TTag 4 :: TStr ty0 :: (flat_map (fun p => match p with (k, x) => toks k ++ toks x end) entries0 ++ [TEnd])).
    simpl app. rewrite !tk_cons. simpl (tcmp _ _). simpl then_with at 1.
    rewrite (toks_vals (fun p : value * value => match p with (k, x) => toks k ++ toks x end)
               (fun p q => match p, q with (k, x), (k', y) => then_with (vcmp k k') (vcmp x y) end)).
    + rewrite <- then_assoc. f_equal. simpl. f_equal.
      clear. revert entries0. induction entries as [|[k x] l IHl]; intros [|[k' y] m]; simpl; try reflexivity. rewrite IHl. reflexivity.
    + intros [k x]. destruct (toks_head k) as (z & r & E). rewrite E. simpl. eexists; eexists; split; [reflexivity | discriminate].
    + intros [k x] [k' y] r1 r2 Hin. rewrite <- !app_assoc. rewrite IH.
      * rewrite IH, then_assoc; [reflexivity|].
        simpl. apply in_app_iff. right. apply (in_map snd) in Hin. exact Hin.
      * simpl. apply in_app_iff. left. apply (in_map fst) in Hin. exact Hin.
Qed.

Lemma vcmp_lex a b : vcmp a b = tk (toks a) (toks b).
Proof.
  pose proof (vcmp_toks a b [] []) as H. rewrite !app_nil_r in H. rewrite H.
  simpl. destruct (vcmp a b); reflexivity.
Qed.

Lemma wo_vcmp : wo vcmp.
Proof.
  pose proof (wo_on toks _ (wo_list _ wo_tok)) as W.
  constructor; intros a b; intros; rewrite !vcmp_lex in *.
  - apply (wo_opp _ W).
  - apply (wo_eq _ W). assumption.
  - eapply (wo_lt _ W); eassumption.
Qed.

(** Equal values differ at most in the pointed-to types. *)
Fixpoint forget_types (v : value) : value :=
  match v with
  | VScalar t x => VScalar t x
  | VArray t l => VArray t (map forget_types l)
  | VStruct t l => VStruct t (map (fun p => match p with (k, x) => (k, forget_types x) end) l)
  | VTuple t l => VTuple t (map forget_types l)
  | VMap t l => VMap t (map (fun p => match p with (k, x) => (forget_types k, forget_types x) end) l)
  | VPtr a _ => VPtr a (TD LUnit None)
  end.

Lemma tk_eq l m : tk l m = Eq -> l = m.
Proof. apply cmp_list_eq. apply tcmp_eq. Qed.

Lemma cmp_list_eq_map {A B} (c : A -> A -> comparison) (g : A -> B) l :
  (forall x y, In x l -> c x y = Eq -> g x = g y) ->
  forall m, cmp_list c l m = Eq -> map g l = map g m.
Proof.
  induction l as [|x l IH]; intros H [|y m]; simpl; intros E; try discriminate; [reflexivity|].
  destruct (c x y) eqn:Ec; simpl in E; try discriminate.
  rewrite (H x y), (IH (fun a b I => H a b (or_intror I)) m E); [reflexivity|left; reflexivity|exact Ec].
Qed.

Lemma then_eq a b : then_with a b = Eq <-> a = Eq /\ b = Eq.
Proof. destruct a; simpl; split; intuition congruence. Qed.

Lemma vcmp_eq_forget a : forall b, vcmp a b = Eq -> forget_types a = forget_types b.
Proof.
  induction a as [a IH] using value_ind'. intros b.
  destruct a, b; try (intros E; discriminate E).
  - simpl. rewrite then_eq. intros [E1 E2]. apply cmp_str_eq in E1, E2. congruence.
  - rewrite vcmp_arr, then_eq. intros [E1 E2]. apply cmp_str_eq in E1. subst. simpl. f_equal.
    eapply cmp_list_eq_map; [|exact E2]. intros x y Hx. apply IH. exact Hx.
  - rewrite vcmp_str, then_eq. intros [E1 E2]. apply cmp_str_eq in E1. subst. simpl. f_equal.
    eapply cmp_list_eq_map; [|exact E2]. intros [k x] [k' y] Hx E. unfold cmp_pair in E. simpl in E. apply then_eq in E.
    destruct E as [Ek Ex]. apply cmp_str_eq in Ek. subst. rewrite (IH x) with (b := y); [reflexivity| |exact Ex].
    simpl. apply (in_map snd) in Hx. exact Hx.
  - rewrite vcmp_tup, then_eq. intros [E1 E2]. apply cmp_str_eq in E1. subst. simpl. f_equal.
    eapply cmp_list_eq_map; [|exact E2]. intros x y Hx. apply IH. exact Hx.
  - rewrite vcmp_map, then_eq. intros [E1 E2]. apply cmp_str_eq in E1. subst. simpl. f_equal.
    eapply cmp_list_eq_map; [|exact E2]. intros [k x] [k' y] Hx E. unfold cmp_pair in E. simpl in E. apply then_eq in E.
    destruct E as [Ek Ex]. rewrite (IH x) with (b := y), (IH k) with (b := k'); [reflexivity| |exact Ek| |exact Ex];
      simpl; apply in_app_iff; [left; apply (in_map fst) in Hx | right; apply (in_map snd) in Hx]; exact Hx.
  - simpl. intros E. apply Z.compare_eq in E. congruence.
Qed.

Lemma forget_toks a : toks (forget_types a) = toks a.
Proof.
  induction a as [a IH] using value_ind'. destruct a; simpl; try reflexivity; do 2 f_equal; f_equal.
  - induction items as [|x l IHl]; simpl; [reflexivity|]. rewrite (IH x (or_introl eq_refl)), IHl; [reflexivity|].
    intros; apply IH; right; assumption.
  - induction fields as [|[k x] l IHl]; simpl; [reflexivity|]. rewrite (IH x (or_introl eq_refl)), IHl; [reflexivity|].
    intros; apply IH; right; assumption.
  - induction entries as [|x l IHl]; simpl; [reflexivity|]. rewrite (IH x (or_introl eq_refl)), IHl; [reflexivity|].
    intros; apply IH; right; assumption.
  - induction entries as [|[k x] l IHl]; simpl; [reflexivity|].
    rewrite (IH k (or_introl eq_refl)), (IH x), IHl; [reflexivity| |].
    + intros z Hz. apply IH. simpl in *. apply in_app_iff in Hz. rewrite in_app_iff. simpl. tauto.
    + simpl. right. apply in_app_iff. right. left. reflexivity.
Qed.

Lemma vcmp_eq_iff a b : vcmp a b = Eq <-> forget_types a = forget_types b.
Proof.
  split; [apply vcmp_eq_forget|]. intros E. rewrite vcmp_lex, <- (forget_toks a), <- (forget_toks b), E.
  apply (wo_refl _ (wo_list _ wo_tok)).
Qed.
