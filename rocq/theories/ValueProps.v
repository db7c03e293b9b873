(** C34: the order on values. *)
From Coq Require Import Ascii String List ZArith NArith Bool Lia.
From Verif Require Import Base NumText OMap TypesModel ValueModel ValueProofs.
Import ListNotations.
Open Scope Z_scope.

(** A comparison function is a total preorder. *)
Definition le_by {A} (cmp : A -> A -> comparison) (a b : A) : Prop := cmp a b <> Gt.

Theorem value_order_total : forall a b, le_by vcmp a b \/ le_by vcmp b a.
Proof.
  intros a b. unfold le_by. rewrite (wo_opp _ wo_vcmp a b). destruct (vcmp a b); simpl; [left|left|right]; discriminate.
Qed.
Print Assumptions value_order_total.
Theorem value_order_antisymmetric : forall a b, vcmp b a = CompOpp (vcmp a b).
Proof. exact (wo_opp _ wo_vcmp). Qed.
Print Assumptions value_order_antisymmetric.
Theorem value_order_transitive : forall a b c, le_by vcmp a b -> le_by vcmp b c -> le_by vcmp a c.
Proof.
  unfold le_by. intros a b c H1 H2.
  destruct (vcmp a b) eqn:E1; [|clear H1|congruence].
  - rewrite (wo_eq _ wo_vcmp a b E1 c). exact H2.
  - destruct (vcmp b c) eqn:E2; [| |congruence].
    + assert (E3 : vcmp c b = Eq) by (rewrite (wo_opp _ wo_vcmp b c), E2; reflexivity).
      rewrite (wo_opp _ wo_vcmp c a), (wo_eq _ wo_vcmp c b E3 a), (wo_opp _ wo_vcmp a b), E1. discriminate.
    + rewrite (wo_lt _ wo_vcmp a b c E1 E2). discriminate.
Qed.
Print Assumptions value_order_transitive.

(** Values that contain no typed pointer. *)
Inductive pointer_free : value -> Prop :=
| pf_scalar t v : pointer_free (VScalar t v)
| pf_array t l : Forall pointer_free l -> pointer_free (VArray t l)
| pf_struct t l : Forall (fun p => pointer_free (snd p)) l -> pointer_free (VStruct t l)
| pf_tuple t l : Forall pointer_free l -> pointer_free (VTuple t l)
| pf_map t l : Forall (fun p => pointer_free (fst p) /\ pointer_free (snd p)) l -> pointer_free (VMap t l).
Lemma pf_inv v : pointer_free v ->
  match v with
  | VScalar _ _ => True
  | VArray _ l | VTuple _ l => Forall pointer_free l
  | VStruct _ l => Forall (fun p => pointer_free (snd p)) l
  | VMap _ l => Forall (fun p => pointer_free (fst p) /\ pointer_free (snd p)) l
  | VPtr _ _ => False
  end.
Proof. intros H. destruct H; auto. Qed.
Lemma map_id_forall {A} (f : A -> A) (P : A -> Prop) l : Forall P l -> (forall x, In x l -> P x -> f x = x) -> map f l = l.
Proof.
  induction 1 as [|x l Hx Hl IH]; intros H; [reflexivity|]. simpl. rewrite (H x (or_introl eq_refl) Hx), IH; auto.
  intros y Hy. apply H. right. exact Hy.
Qed.
Lemma pointer_free_forget v : pointer_free v -> forget_types v = v.
Proof.
  induction v as [v IH] using value_ind'; intros H; apply pf_inv in H. destruct v as [t x|t l|t l|t l|t l|a t]; cbn [forget_types];
    try contradiction; try reflexivity; f_equal; cbn [vkids] in IH.
  - eapply map_id_forall; [exact H|]. intros x Hx Px. apply IH; assumption.
  - eapply map_id_forall; [exact H|]. intros [k x] Hx Px. f_equal. apply IH; [exact (in_map snd _ _ Hx) | exact Px].
  - eapply map_id_forall; [exact H|]. intros x Hx Px. apply IH; assumption.
  - eapply map_id_forall; [exact H|]. intros [k x] Hx [P1 P2]. f_equal; apply IH; auto; apply in_app_iff;
      [left; exact (in_map fst _ _ Hx) | right; exact (in_map snd _ _ Hx)].
Qed.
(** Values comparing equal are equal, except for the types of pointers. *)
Theorem value_order_equal_partial : forall a b, pointer_free a -> pointer_free b -> (vcmp a b = Eq <-> a = b).
Proof.
  intros a b Ha Hb. rewrite vcmp_eq_iff, (pointer_free_forget a Ha), (pointer_free_forget b Hb). reflexivity.
Qed.
Print Assumptions value_order_equal_partial.
Theorem value_order_equal_up_to_pointer_types : forall a b, vcmp a b = Eq <-> forget_types a = forget_types b.
Proof. exact vcmp_eq_iff. Qed.
Print Assumptions value_order_equal_up_to_pointer_types.
Theorem value_order_equal_refuted : exists a b, vcmp a b = Eq /\ a <> b.
Proof. exists (VPtr 16 (TD (LUInt 4) None)), (VPtr 16 (TD (LInt 8) None)). split; [reflexivity | discriminate]. Qed.
Print Assumptions value_order_equal_refuted.
Example value_order_example :
  vcmp (VMap (st "m") [(VScalar (st "u8") (st "1"), VPtr 7 (TD LUnit None))]) (VMap (st "m") [(VScalar (st "u8") (st "10"), VPtr 3 (TD LUnit None))]) = Lt
  /\ vcmp (VScalar (st "u8") (st "10")) (VScalar (st "u8") (st "9")) = Lt.
Proof. split; reflexivity. Qed.
