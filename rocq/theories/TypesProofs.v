From Coq Require Import Ascii String List ZArith Lia Bool.
From Verif Require Import Base NumText TypesModel TypesSpec.
Import ListNotations.
Open Scope Z_scope.

(** All immediate component layouts. *)
Definition kids (l : layout) : list layout :=
  match l with
  | LArray e _ => [layOf e]
  | LFunction r args => match r with Some t => layOf t :: map layOf args | None => map layOf args end
  | LPointer _ p | LReference _ p => [layOf p]
  | LSlice e _ _ => [layOf e]
  | LTuple es _ => map (fun p => layOf (snd p)) es
  | LSmartPtr i _ _ _ => [layOf i]
  | LMap k v _ => [layOf k; layOf v]
  | LOption _ _ _ t _ => [layOf t]
  | LResult _ _ o _ e _ _ => [layOf o; layOf e]
  | LString _ _ _ i => [layOf i]
  | LVec _ _ _ i => [layOf i]
  | LStruct _ _ _ fs => map (fun f => layOf (snd f)) fs
  | LEnum _ _ vs _ => map (fun v => layOf (snd v)) vs
  | _ => []
  end.

Lemma layout_ind' (P : layout -> Prop) :
  (forall l, (forall k, In k (kids l) -> P k) -> P l) -> forall l, P l.
Proof.
  intros H. fix IH 1. intros l. apply H.
  assert (HT : forall t : tdef, P (layOf t)) by (intros [x ?]; exact (IH x)).
  assert (HL : forall ts : list tdef, forall k, In k (map layOf ts) -> P k).
  { intros ts. induction ts as [|t ts IHts]; simpl; intros k Hk; [destruct Hk|].
    destruct Hk as [<-|Hk]; [destruct t as [x ?]; exact (IH x) | exact (IHts k Hk)]. }
  destruct l; simpl; intros k Hk;
    repeat match goal with H : _ \/ _ |- _ => destruct H as [H|H] | H : False |- _ => destruct H end;
    subst; try match goal with |- P (layOf ?t) => destruct t as [x ?]; exact (IH x) end.
  - (* function *)
    destruct ret as [t|].
    + destruct Hk as [<-|Hk]; [destruct t as [x ?]; exact (IH x)|].
      clear - IH Hk. induction args as [|t' ts IHts]; simpl in Hk; [destruct Hk|].
      destruct Hk as [<-|Hk]; [destruct t' as [x ?]; exact (IH x) | exact (IHts Hk)].
    + clear - IH Hk. induction args as [|t' ts IHts]; simpl in Hk; [destruct Hk|].
      destruct Hk as [<-|Hk]; [destruct t' as [x ?]; exact (IH x) | exact (IHts Hk)].
  - clear - IH Hk. induction elems as [|[o [x p]] es IHes]; simpl in Hk; [destruct Hk|].
    destruct Hk as [<-|Hk]; [exact (IH x) | exact (IHes Hk)].
  - clear - IH Hk. induction fields as [|[o [x p]] es IHes]; simpl in Hk; [destruct Hk|].
    destruct Hk as [<-|Hk]; [exact (IH x) | exact (IHes Hk)].
  - clear - IH Hk. induction variants as [|[o [x p]] es IHes]; simpl in Hk; [destruct Hk|].
    destruct Hk as [<-|Hk]; [exact (IH x) | exact (IHes Hk)].
Qed.

Lemma spv_eqb_eq a b : spv_eqb a b = true <-> a = b.
Proof. destruct a, b; simpl; split; congruence. Qed.
Lemma bn_eqb_eq a b : bn_eqb a b = true <-> a = b.
Proof.
  destruct a, b; unfold bn_eqb; simpl. rewrite !andb_true_iff, !Z.eqb_eq.
  split; [intros [[[? ?] ?] ?]; congruence | intros E; injection E; intuition congruence].
Qed.
Lemma mapv_eqb_eq a b : mapv_eqb a b = true <-> a = b.
Proof.
  destruct a, b; simpl; rewrite ?andb_true_iff, ?Z.eqb_eq, ?bn_eqb_eq; split;
    intros E; try discriminate; try (injection E); intuition congruence.
Qed.
Lemma loc_matches_eq a b : loc_matches a b = true <-> exists d, a = Some d /\ b = Some d.
Proof.
  destruct a as [x|], b as [y|]; simpl; rewrite ?Z.eqb_eq; split; try discriminate; try (intros [d [? ?]]; congruence).
  intros ->. eexists; eauto.
Qed.

(** unfolding lemma: the local closures are [tmatching] *)
Fixpoint all2 {A B} (f : A -> B -> bool) (ps : list A) (qs : list B) : bool :=
  match ps, qs with
  | [], [] => true
  | p :: ps', q :: qs' => f p q && all2 f ps' qs'
  | _, _ => false
  end.

Lemma tm_unfold (x y : tdef) :
  match x with TD lx px => match y with TD ly py => loc_matches px py || matching_type lx ly end end = tmatching x y.
Proof. destruct x, y; reflexivity. Qed.

Lemma match_tuple ps s qs s' :
  matching_type (LTuple ps s) (LTuple qs s') = all2 (fun a b => tmatching (snd a) (snd b)) ps qs.
Proof.
  revert qs. induction ps as [|[o p] ps IH]; intros [|[o' q] qs]; try reflexivity.
  change (matching_type (LTuple ((o,p)::ps) s) (LTuple ((o',q)::qs) s')) with
    (match p with TD lx px => match q with TD ly py => loc_matches px py || matching_type lx ly end end &&
     matching_type (LTuple ps s) (LTuple qs s')).
  rewrite tm_unfold, IH. reflexivity.
Qed.
Lemma match_fn r ps r' qs :
  matching_type (LFunction r ps) (LFunction r' qs) =
  match r, r' with Some x, Some y => tmatching x y | None, None => true | _, _ => false end && all2 tmatching ps qs.
Proof.
  assert (H : forall ps qs, matching_type (LFunction None ps) (LFunction None qs) = all2 tmatching ps qs).
  { clear. induction ps as [|p ps IH]; intros [|q qs]; try reflexivity.
    change (matching_type (LFunction None (p::ps)) (LFunction None (q::qs))) with
      (match p with TD lx px => match q with TD ly py => loc_matches px py || matching_type lx ly end end &&
       matching_type (LFunction None ps) (LFunction None qs)).
    rewrite tm_unfold, IH. reflexivity. }
  rewrite <- (H ps qs).
  destruct r as [x|], r' as [y|]; try reflexivity.
  rewrite <- (tm_unfold x y). reflexivity.
Qed.

Lemma all2_Forall2 {A B} (f : A -> B -> bool) (P : A -> B -> Prop) ps qs :
  (forall a b, In a ps -> (f a b = true <-> P a b)) ->
  (all2 f ps qs = true <-> Forall2 P ps qs).
Proof.
  revert qs. induction ps as [|p ps IH]; intros [|q qs] H; simpl.
  - split; constructor.
  - split; [discriminate | intros E; inversion E].
  - split; [discriminate | intros E; inversion E].
  - rewrite andb_true_iff, (H p q (or_introl eq_refl)), (IH qs (fun a b I => H a b (or_intror I))).
    split; [intros [? ?]; constructor; assumption | intros E; inversion E; subst; auto].
Qed.

Lemma tmatching_iff x y (H : forall b, matching_type (layOf x) b = true <-> same (layOf x) b) :
  tmatching x y = true <-> tsame x y.
Proof.
  destruct x as [lx px], y as [ly py]; unfold tmatching; simpl in *.
  rewrite orb_true_iff, loc_matches_eq, H. split.
  - intros [[d [-> ->]]|S]; constructor; assumption.
  - intros S; inversion S; subst; [left; eauto | right; assumption].
Qed.

Lemma is_alias_dec l : {n | l = LAlias n} + {forall n, l <> LAlias n}.
Proof. destruct l; try (right; intros ? E; discriminate E). left; eexists; reflexivity. Defined.

Lemma same_alias_l_inv n x : same (LAlias n) x <-> n = display_name x.
Proof.
  split.
  - intros S; inversion S; subst; reflexivity.
  - intros ->; constructor.
Qed.
Lemma same_alias_r_inv n x : same x (LAlias n) <-> n = display_name x.
Proof.
  split.
  - intros S; inversion S; subst; reflexivity.
  - intros ->; constructor.
Qed.
Lemma match_alias_l n x : matching_type (LAlias n) x = true <-> n = display_name x.
Proof. destruct x; unfold matching_type; apply str_eqb_eq. Qed.
Lemma match_alias_r n x : matching_type x (LAlias n) = true <-> n = display_name x.
Proof.
  destruct x; try apply str_eqb_eq.
  - change (str_eqb name n = true <-> n = name). rewrite str_eqb_eq. split; congruence.
  - change (str_eqb name n = true <-> n = name). rewrite str_eqb_eq. split; congruence.
Qed.

Theorem matching_same a : forall b, matching_type a b = true <-> same a b.
Proof.
  induction a as [a IH] using layout_ind'. intros b.
  destruct (is_alias_dec b) as [[n ->]|Hb].
  { rewrite match_alias_r, same_alias_r_inv. reflexivity. }
  destruct (is_alias_dec a) as [[n ->]|Ha].
  { rewrite match_alias_l, same_alias_l_inv. reflexivity. }
  assert (IHt : forall t : tdef, In (layOf t) (kids a) -> forall y, tmatching t y = true <-> tsame t y).
  { intros t Ht y. apply tmatching_iff. apply IH. exact Ht. }
  destruct a, b;
    try (exfalso; eapply Ha; reflexivity); try (exfalso; eapply Hb; reflexivity);
    try (split; [discriminate | intros S; inversion S]; fail);
    try (split; [intros _; constructor | reflexivity]; fail).
  - (* array *) change (matching_type _ _) with (match elem with TD lx px => match elem0 with TD ly py => loc_matches px py || matching_type lx ly end end).
    rewrite tm_unfold, IHt by (simpl; auto). split; [constructor; assumption | intros S; inversion S; assumption].
  - simpl. rewrite Z.eqb_eq. split; [intros ->; constructor | intros S; inversion S; reflexivity].
  - (* fn *) rewrite match_fn, andb_true_iff.
    assert (HF : all2 tmatching args args0 = true <-> Forall2 tsame args args0).
    { apply all2_Forall2. intros x y Hx. apply IHt. simpl. destruct ret; simpl; [right|]; apply in_map; assumption. }
    rewrite HF. destruct ret as [x|], ret0 as [y|].
    + rewrite IHt by (simpl; auto). split; [intros [? ?]; constructor; assumption | intros S; inversion S; auto].
    + split; [intros [? ?]; discriminate | intros S; inversion S].
    + split; [intros [? ?]; discriminate | intros S; inversion S].
    + split; [intros [? ?]; constructor; assumption | intros S; inversion S; auto].
  - simpl. rewrite Z.eqb_eq. split; [intros ->; constructor | intros S; inversion S; reflexivity].
  - change (matching_type _ _) with (match p with TD lx px => match p0 with TD ly py => loc_matches px py || matching_type lx ly end end).
    rewrite tm_unfold, IHt by (simpl; auto). split; [constructor; assumption | intros S; inversion S; assumption].
  - change (matching_type _ _) with (match p with TD lx px => match p0 with TD ly py => loc_matches px py || matching_type lx ly end end).
    rewrite tm_unfold, IHt by (simpl; auto). split; [constructor; assumption | intros S; inversion S; assumption].
  - change (matching_type _ _) with (match elem with TD lx px => match elem0 with TD ly py => loc_matches px py || matching_type lx ly end end).
    rewrite tm_unfold, IHt by (simpl; auto). split; [constructor; assumption | intros S; inversion S; assumption].
  - simpl. rewrite andb_true_iff, !Z.eqb_eq. split; [intros [-> ->]; constructor | intros S; inversion S; auto].
  - rewrite match_tuple.
    rewrite (all2_Forall2 _ (fun a b => tsame (snd a) (snd b))).
    + split; [constructor; assumption | intros S; inversion S; assumption].
    + intros x y Hx. apply IHt. simpl. apply (in_map (fun p => layOf (snd p))) in Hx. exact Hx.
  - simpl. rewrite Z.eqb_eq. split; [intros ->; constructor | intros S; inversion S; reflexivity].
  - change (matching_type _ _) with (spv_eqb v v0 && match inner with TD lx px => match inner0 with TD ly py => loc_matches px py || matching_type lx ly end end).
    rewrite tm_unfold, andb_true_iff, spv_eqb_eq, IHt by (simpl; auto).
    split; [intros [-> ?]; constructor; assumption | intros S; inversion S; auto].
  - match goal with |- matching_type (LMap ?k ?x ?m) (LMap ?k' ?x' ?m') = true <-> _ =>
      change (matching_type (LMap k x m) (LMap k' x' m')) with
        (mapv_eqb m m' && match k with TD lx px => match k' with TD ly py => loc_matches px py || matching_type lx ly end end
         && match x with TD lx px => match x' with TD ly py => loc_matches px py || matching_type lx ly end end) end.
    rewrite !tm_unfold, !andb_true_iff, mapv_eqb_eq, !IHt by (simpl; auto).
    split; [intros [[-> ?] ?]; constructor; assumption | intros S; inversion S; auto].
  - match goal with |- matching_type (LOption _ _ _ ?k _) (LOption _ _ _ ?k' _) = true <-> _ =>
      change (matching_type _ _) with (match k with TD lx px => match k' with TD ly py => loc_matches px py || matching_type lx ly end end) end.
    rewrite tm_unfold, IHt by (simpl; auto). split; [constructor; assumption | intros S; inversion S; assumption].
  - match goal with |- matching_type (LResult _ _ ?k _ ?x _ _) (LResult _ _ ?k' _ ?x' _ _) = true <-> _ =>
      change (matching_type _ _) with (match k with TD lx px => match k' with TD ly py => loc_matches px py || matching_type lx ly end end
       && match x with TD lx px => match x' with TD ly py => loc_matches px py || matching_type lx ly end end) end.
    rewrite !tm_unfold, andb_true_iff, !IHt by (simpl; auto).
    split; [intros [? ?]; constructor; assumption | intros S; inversion S; auto].
  - match goal with |- matching_type (LVec _ _ _ ?k) (LVec _ _ _ ?k') = true <-> _ =>
      change (matching_type _ _) with (match k with TD lx px => match k' with TD ly py => loc_matches px py || matching_type lx ly end end) end.
    rewrite tm_unfold, IHt by (simpl; auto). split; [constructor; assumption | intros S; inversion S; assumption].
  - simpl. rewrite str_eqb_eq. split; [intros ->; constructor | intros S; inversion S; reflexivity].
  - simpl. rewrite str_eqb_eq. split; [intros ->; constructor | intros S; inversion S; reflexivity].
  - simpl. rewrite str_eqb_eq. split; [intros ->; constructor | intros S; inversion S; reflexivity].
Qed.

Lemma same_refl : forall a, same a a.
Proof.
  intros a. induction a as [a IH] using layout_ind'.
  assert (IHt : forall t : tdef, In (layOf t) (kids a) -> tsame t t).
  { intros [l p] Ht. apply tsame_lay. apply IH. exact Ht. }
  destruct a; try (constructor; auto; fail).
  - constructor. apply IHt; simpl; auto.
  - destruct ret as [r|].
    + constructor; [apply IHt; simpl; auto|].
      assert (H : forall t, In t args -> tsame t t) by (intros t Ht; apply IHt; simpl; right; apply in_map; exact Ht).
      clear - H. induction args as [|x xs IHx]; constructor; [apply H; left; reflexivity | apply IHx; intros; apply H; right; assumption].
    + constructor.
      assert (H : forall t, In t args -> tsame t t) by (intros t Ht; apply IHt; simpl; apply in_map; exact Ht).
      clear - H. induction args as [|x xs IHx]; constructor; [apply H; left; reflexivity | apply IHx; intros; apply H; right; assumption].
  - constructor; apply IHt; simpl; auto.
  - constructor; apply IHt; simpl; auto.
  - constructor; apply IHt; simpl; auto.
  - constructor.
    assert (H : forall t, In t elems -> tsame (snd t) (snd t)).
    { intros t Ht; apply IHt; simpl. apply (in_map (fun p => layOf (snd p))) in Ht. exact Ht. }
    clear - H. induction elems as [|x xs IHx]; constructor; [apply H; left; reflexivity | apply IHx; intros; apply H; right; assumption].
  - constructor; apply IHt; simpl; auto.
  - constructor; apply IHt; simpl; auto.
  - constructor; apply IHt; simpl; auto.
  - constructor; apply IHt; simpl; auto.
  - constructor; apply IHt; simpl; auto.
Qed.

Lemma Forall2_flip_in {A} (P : A -> A -> Prop) ps qs :
  Forall2 P ps qs -> (forall a b, In a ps -> P a b -> P b a) -> Forall2 P qs ps.
Proof.
  induction 1; intros H1; constructor;
    [apply H1; [left; reflexivity|assumption] | apply IHForall2; intros; apply H1; [right; assumption|assumption]].
Qed.

Lemma same_sym : forall a b, same a b -> same b a.
Proof.
  intros a. induction a as [a IH] using layout_ind'. intros b S.
  assert (IHt : forall t u : tdef, In (layOf t) (kids a) -> tsame t u -> tsame u t).
  { intros [l p] u Ht T. inversion T; subst; constructor. apply IH; assumption. }
  inversion S; subst; try (constructor; try (apply IHt; simpl; auto); fail).
  - constructor. eapply Forall2_flip_in; [eassumption|].
    intros x y Hx T. apply IHt; [|exact T]. simpl. apply (in_map (fun p => layOf (snd p))) in Hx. exact Hx.
  - constructor. eapply Forall2_flip_in; [eassumption|].
    intros x y Hx T. apply IHt; [|exact T]. simpl. apply in_map. exact Hx.
  - constructor; [apply IHt; simpl; auto|]. eapply Forall2_flip_in; [eassumption|].
    intros x y Hx T. apply IHt; [|exact T]. simpl. right. apply in_map. exact Hx.
Qed.

Lemma plain_inv l : plain l -> (forall n, l <> LAlias n) /\ Forall (fun t => locOf t = None /\ plain (layOf t)) (parts l).
Proof. intros P; inversion P; auto. Qed.

Lemma parts_kids l t : In t (parts l) -> In (layOf t) (kids l).
Proof.
  destruct l; simpl; intros H; repeat match goal with H : _ \/ _ |- _ => destruct H as [H|H] end; subst; auto; try contradiction.
  - destruct ret; simpl in *; [destruct H as [<-|H]; [left; reflexivity | right; apply in_map; exact H] | apply in_map; exact H].
  - apply in_map_iff in H. destruct H as [x [<- H]]. apply (in_map (fun p => layOf (snd p))) in H. exact H.
Qed.

Lemma Forall2_trans_in {A} (P : A -> A -> Prop) ps qs rs :
  Forall2 P ps qs -> Forall2 P qs rs ->
  (forall a b c, In a ps -> In b qs -> In c rs -> P a b -> P b c -> P a c) -> Forall2 P ps rs.
Proof.
  intros H. revert rs. induction H; intros rs H2 T; inversion H2; subst; constructor.
  - eapply T; [left; reflexivity|left; reflexivity|left; reflexivity|eassumption|eassumption].
  - apply IHForall2; [assumption|]. intros u v w Hu Hv Hw; apply T; right; assumption.
Qed.

Lemma same_trans : forall a b c, plain a -> plain b -> plain c -> same a b -> same b c -> same a c.
Proof.
  intros a. induction a as [a IH] using layout_ind'. intros b c Pa Pb Pc S1 S2.
  apply plain_inv in Pa; apply plain_inv in Pb; apply plain_inv in Pc.
  destruct Pa as [Na Fa], Pb as [Nb Fb], Pc as [Nc Fc].
  rewrite Forall_forall in Fa, Fb, Fc.
  assert (IHt : forall t u v : tdef, In t (parts a) -> In u (parts b) -> In v (parts c) -> tsame t u -> tsame u v -> tsame t v).
  { intros t u v Ht Hu Hv T1 T2.
    destruct (Fa t Ht) as [L1 P1], (Fb u Hu) as [L2 P2], (Fc v Hv) as [L3 P3].
    destruct t, u, v; simpl in *; subst.
    inversion T1; inversion T2; subst; try discriminate. constructor.
    refine (IH _ (parts_kids a (TD lay None) Ht) _ _ _ _ _ _ _); [| | |eassumption|eassumption]; assumption. }
  inversion S1; subst; try (exfalso; eapply Na; reflexivity); try (exfalso; eapply Nb; reflexivity);
    inversion S2; subst; try (exfalso; eapply Nc; reflexivity); try (constructor; try (eapply IHt; simpl; eauto); fail).
  - constructor. eapply Forall2_trans_in; eauto.
    intros x y z Hx Hy Hz T1 T2. eapply IHt; [| | |exact T1|exact T2]; simpl; apply in_map; assumption.
  - constructor. eapply Forall2_trans_in; eauto.
  - constructor; [eapply IHt; simpl; eauto|]. eapply Forall2_trans_in; eauto.
    intros x y z Hx Hy Hz T1 T2. eapply IHt; [| | |exact T1|exact T2]; simpl; auto.
  - constructor; [apply (IHt k k' k'0) | apply (IHt x x' x'0)]; simpl; auto.
  - constructor; [apply (IHt p p' p'0) | apply (IHt q q' q'0)]; simpl; auto.
Qed.

(** Forgetting what matching ignores: array lengths and reference mutability. *)
Fixpoint erase (l : layout) : layout :=
  let et (t : tdef) : tdef := match t with TD l p => TD (erase l) p end in
  match l with
  | LArray e _ => LArray (et e) 0
  | LFunction r args => LFunction (match r with Some t => Some (et t) | None => None end) (map et args)
  | LPointer m p => LPointer m (et p)
  | LReference _ p => LReference false (et p)
  | LSlice e a b => LSlice (et e) a b
  | LTuple es s => LTuple (map (fun p => match p with (o, t) => (o, et t) end) es) s
  | LSmartPtr i a b v => LSmartPtr (et i) a b v
  | LMap k v m => LMap (et k) (et v) m
  | LOption n d o t s => LOption n d o (et t) s
  | LResult n d a oa b ob s => LResult n d (et a) oa (et b) ob s
  | LVec a b c i => LVec a b c (et i)
  | l => l
  end.

Lemma same_display : forall a b, plain a -> plain b -> same a b -> display_name (erase a) = display_name (erase b).
Proof.
  intros a. induction a as [a IH] using layout_ind'. intros b Pa Pb S.
  apply plain_inv in Pa; apply plain_inv in Pb.
  destruct Pa as [Na Fa], Pb as [Nb Fb]. rewrite Forall_forall in Fa, Fb.
  assert (IHt : forall t u : tdef, In t (parts a) -> In u (parts b) -> tsame t u ->
            display_name (erase (layOf t)) = display_name (erase (layOf u))).
  { intros t u Ht Hu T. destruct (Fa t Ht) as [L1 P1], (Fb u Hu) as [L2 P2].
    destruct t, u; simpl in *; subst. inversion T; subst; try discriminate.
    refine (IH _ (parts_kids a (TD lay None) Ht) _ _ _ _); assumption. }
  inversion S; subst; try (exfalso; eapply Na; reflexivity); try (exfalso; eapply Nb; reflexivity); try reflexivity;
    try (repeat match goal with H : tsame ?t ?u |- _ => apply IHt in H; [|simpl; auto|simpl; auto]; destruct t, u; simpl in H end;
         simpl; congruence).
  - simpl. do 3 f_equal.
    assert (HH : forall x y, In x ps -> In y qs -> tsame (snd x) (snd y) -> display_name (erase (layOf (snd x))) = display_name (erase (layOf (snd y)))).
    { intros x y Hx Hy. apply IHt; simpl; apply in_map; assumption. }
    clear - H HH. induction H; simpl; [reflexivity|].
    f_equal.
    + specialize (HH x y (or_introl eq_refl) (or_introl eq_refl) H). destruct x as [? [? ?]], y as [? [? ?]]. exact HH.
    + apply IHForall2. intros; apply HH; auto with datatypes.
  - assert (HH : forall x y, In x ps -> In y qs -> tsame x y -> display_name (erase (layOf x)) = display_name (erase (layOf y))).
    { intros x y Hx Hy. apply IHt; simpl; assumption. }
    assert (E : map (fun t => match t with TD l' _ => display_name l' end) (map (fun t : tdef => match t with TD l p => TD (erase l) p end) ps) =
                map (fun t => match t with TD l' _ => display_name l' end) (map (fun t : tdef => match t with TD l p => TD (erase l) p end) qs)).
    { clear - H HH. induction H; simpl; [reflexivity|].
      f_equal.
      + specialize (HH x y (or_introl eq_refl) (or_introl eq_refl) H). destruct x as [? ?], y as [? ?]. exact HH.
      + apply IHForall2. intros; apply HH; auto with datatypes. }
    simpl. do 3 f_equal. exact (f_equal (fun z => join (st ", ") z ++ [41%N]) E).
  - pose proof (IHt r r' (or_introl eq_refl) (or_introl eq_refl) H) as Hr.
    assert (HH : forall x y, In x ps -> In y qs -> tsame x y -> display_name (erase (layOf x)) = display_name (erase (layOf y))).
    { intros x y Hx Hy. apply IHt; simpl; auto. }
    assert (E : map (fun t => match t with TD l' _ => display_name l' end) (map (fun t : tdef => match t with TD l p => TD (erase l) p end) ps) =
                map (fun t => match t with TD l' _ => display_name l' end) (map (fun t : tdef => match t with TD l p => TD (erase l) p end) qs)).
    { clear - H0 HH. induction H0; simpl; [reflexivity|].
      f_equal.
      + specialize (HH x y (or_introl eq_refl) (or_introl eq_refl) H). destruct x as [? ?], y as [? ?]. exact HH.
      + apply IHForall2. intros; apply HH; auto with datatypes. }
    destruct r, r'; simpl in *. rewrite Hr. do 3 f_equal. exact (f_equal (fun z => join (st ", ") z ++ _) E).
Qed.

(** dereferenced *)
Lemma deref_points_to l : points_to l (dereferenced l).
Proof.
  induction l as [l IH] using layout_ind'.
  destruct l; simpl; try apply pt_here; destruct p as [x q]; constructor; apply IH; simpl; auto.
Qed.
Lemma deref_not_pointer l : is_pointer (dereferenced l) = false.
Proof.
  induction l as [l IH] using layout_ind'.
  destruct l; simpl; try reflexivity; destruct p as [x q]; apply IH; simpl; auto.
Qed.
Lemma deref_fix l : is_pointer l = false -> dereferenced l = l.
Proof. destruct l; simpl; intros H; try discriminate; reflexivity. Qed.
Lemma points_to_deref l r : points_to l r -> is_pointer r = false -> dereferenced l = r.
Proof. induction 1; intros Hr; simpl; auto using deref_fix. Qed.

(** sizes *)
Lemma u64_ok_iff z : u64_ok z = true <-> in_u64 z.
Proof. unfold u64_ok, in_u64. rewrite andb_true_iff, Z.leb_le, Z.ltb_lt. reflexivity. Qed.
Lemma mul64_ok a b m : mul64 a b = Ok m <-> m = a * b /\ in_u64 (a * b).
Proof.
  unfold mul64. destruct (u64_ok (a * b)) eqn:E.
  - apply u64_ok_iff in E. split; [intros H; injection H as <-; auto | intros [-> _]; reflexivity].
  - split; [discriminate | intros [_ H]; apply u64_ok_iff in H; congruence].
Qed.

Lemma size_sized l : is_cell (array_base l) = false -> forall n, size l = Ok (Some n) <-> sized l n.
Proof.
  induction l as [l IH] using layout_ind'. intros Hc n.
  destruct l; simpl in *; try (split; [intros E; injection E as <-; constructor | intros S; inversion S; subst; reflexivity]; fail);
    try (split; [discriminate | intros S; inversion S]; fail).
  - destruct elem as [e p]. simpl in *.
    specialize (IH e (or_introl eq_refl) Hc). destruct (size e) as [[s|]|m|m|] eqn:Es; simpl.
    + rewrite bind_ok. split.
      * intros [m [Hm E]]. injection E as <-. apply mul64_ok in Hm. destruct Hm as [-> Hm].
        constructor; [apply IH; reflexivity | exact Hm].
      * intros S; inversion S; subst. match goal with H : sized e _ |- _ => apply IH in H; injection H as -> end.
        exists (s0 * len). split; [apply mul64_ok; auto | reflexivity].
    + split; [discriminate | intros S; inversion S; subst; match goal with H : sized e _ |- _ => apply IH in H; discriminate H end].
    + split; [discriminate | intros S; inversion S; subst; match goal with H : sized e _ |- _ => apply IH in H; discriminate H end].
    + split; [discriminate | intros S; inversion S; subst; match goal with H : sized e _ |- _ => apply IH in H; discriminate H end].
    + split; [discriminate | intros S; inversion S; subst; match goal with H : sized e _ |- _ => apply IH in H; discriminate H end].
  - destruct v; simpl in Hc; try discriminate Hc;
      (split; [intros E; injection E as <-; constructor; simpl; auto | intros S; inversion S; subst; reflexivity]).
  - destruct v; (split; [first [discriminate | intros E; injection E as <-; constructor] | intros S; inversion S; subst; reflexivity]).
Qed.

Lemma size_none l : size l = Ok None <-> exists n, array_base l = LAlias n.
Proof.
  induction l as [l IH] using layout_ind'.
  destruct l; simpl in *; try (split; [discriminate | intros [? E]; discriminate E]; fail).
  - destruct elem as [e p]. specialize (IH e (or_introl eq_refl)). simpl in *. rewrite <- IH.
    destruct (size e) as [[s|]|m|m|]; simpl; try (split; [discriminate | discriminate]).
    + destruct (mul64 s len) eqn:E; simpl; split; discriminate.
    + reflexivity.
  - destruct v; split; try discriminate; intros [? E]; discriminate E.
  - split; [exists name; reflexivity | reflexivity].
Qed.

Definition no_size (l : layout) : bool := match l with LStr | LMap _ _ IndexMap => true | _ => false end.

(** The only ways [size] aborts: a type without size, or a byte count beyond 2^64. *)
Lemma size_panic l m : size l = Panic m ->
  no_size (array_base l) = true \/
  exists e p n s, (exists ctx, array_dims l = ctx ++ array_dims (LArray (TD e p) n)) /\
                  array_base e = array_base l /\ size e = Ok (Some s) /\ ~ in_u64 (s * n).
Proof.
  induction l as [l IH] using layout_ind'. intros H.
  destruct l; simpl in *; try discriminate H; try (left; reflexivity).
  - destruct elem as [e p]. simpl in *. destruct (size e) as [[s|]|x|x|] eqn:Es; simpl in H; try discriminate H.
    + right. exists e, p, len, s. split; [exists []; reflexivity|]. split; [reflexivity|]. split; [exact Es|].
      unfold mul64 in H. destruct (u64_ok (s * len)) eqn:U; simpl in H; [discriminate H|].
      intros C. apply u64_ok_iff in C. congruence.
    + destruct (IH e (or_introl eq_refl)) as [L|R]; [congruence|left; exact L|].
      right. destruct R as (e' & p' & n' & s' & [ctx Hctx] & B & Sz & O).
      exists e', p', n', s'. split; [exists (len :: ctx); simpl; rewrite Hctx; reflexivity|].
      auto.
  - destruct v; try discriminate H. left; reflexivity.
Qed.

Lemma size_not_err l m : size l <> Err m.
Proof.
  induction l as [l IH] using layout_ind'.
  destruct l; simpl in *; try discriminate.
  - destruct elem as [e p]. specialize (IH e (or_introl eq_refl)). simpl in IH.
    destruct (size e) as [[s|]|x|x|]; simpl; try discriminate; try exact IH.
    unfold mul64. destruct (u64_ok _); simpl; discriminate.
  - destruct v; discriminate.
Qed.
