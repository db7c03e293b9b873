(** C14, C15, C16: type layouts. *)
From Coq Require Import Ascii String List ZArith NArith Bool Lia.
From Verif Require Import Base NumText TypesModel TypesSpec TypesProofs.
Import ListNotations.
Open Scope Z_scope.

Definition u8t := TD (LUInt 1) None.
Definition u64t := TD (LUInt 8) None.

(** C14. Matching accepts exactly the pairs that denote the same type. *)
Theorem type_matching_exact : forall a b, matching_type a b = true <-> same a b.
Proof. exact matching_same. Qed.
Print Assumptions type_matching_exact.
Theorem type_matching_reflexive : forall a, matching_type a a = true.
Proof. intros a. apply matching_same, same_refl. Qed.
Print Assumptions type_matching_reflexive.
Theorem type_matching_symmetric : forall a b, matching_type a b = matching_type b a.
Proof.
  intros a b. apply eq_true_iff_eq. rewrite !matching_same. split; apply same_sym.
Qed.
Print Assumptions type_matching_symmetric.
(** Transitivity holds between structurally known types ... *)
Theorem type_matching_transitive_partial : forall a b c, plain a -> plain b -> plain c ->
  matching_type a b = true -> matching_type b c = true -> matching_type a c = true.
Proof. intros a b c Pa Pb Pc. rewrite !matching_same. apply same_trans; assumption. Qed.
Print Assumptions type_matching_transitive_partial.
(** ... but not once a type is known by name only. *)
Theorem type_matching_transitive_refuted : exists a b c,
  matching_type a b = true /\ matching_type b c = true /\ matching_type a c = false.
Proof.
  exists (LAlias (st "[u8; 3]")), (LArray u8t 3), (LArray u8t 4). vm_compute. auto.
Qed.
Print Assumptions type_matching_transitive_refuted.
(** Matching types display alike, up to array lengths and [mut]. *)
Theorem matching_types_display_alike : forall a b, plain a -> plain b ->
  matching_type a b = true -> display_name (erase a) = display_name (erase b).
Proof. intros a b Pa Pb. rewrite matching_same. apply same_display; assumption. Qed.
Print Assumptions matching_types_display_alike.
(** The converse fails: two descriptions of one [HashMap<u8, u64>] with different known field offsets. *)
Theorem matching_ignores_placement_refuted : exists k v m m',
  let a := LMap k v m in let b := LMap k v m' in
  plain a /\ plain b /\ display_name a = display_name b /\ matching_type a b = false.
Proof.
  exists u8t, u64t, (HashMap 0 0 0 0 0 0), (HashMap 8 0 24 16 0 8). cbv zeta.
  assert (P : forall m, plain (LMap u8t u64t m)).
  { intros m. constructor; [discriminate|]. repeat constructor; try discriminate. }
  split; [apply P|]. split; [apply P|]. vm_compute. auto.
Qed.
Print Assumptions matching_ignores_placement_refuted.

Example type_matching_example :
  matching_type (LReference true (TD (LVec 16 8 0 (TD (LTuple [(0, u8t); (8, u64t)] 16) None)) None))
                (LReference false (TD (LVec 0 0 0 (TD (LTuple [(8, u8t); (0, u64t)] 16) None)) None)) = true
  /\ matching_type (LVec 16 8 0 u8t) (LVec 16 8 0 u64t) = false
  /\ matching_type (LAlias (st "Option<Vec<u8>>")) (LOption (st "Option") (Disc DImplicit 0) 0 (TD (LVec 16 8 0 u8t) None) 24) = true
  /\ matching_type (LTuple [(0, u8t)] 1) (LTuple [(0, u8t); (1, u8t)] 2) = false.
Proof. vm_compute. auto. Qed.
Example plain_example : plain (LReference true (TD (LVec 16 8 0 (TD (LTuple [(0, u8t); (8, u64t)] 16) None)) None)).
Proof. repeat (constructor; simpl; try discriminate). Qed.

(** C15. *)
Theorem dereferenced_strips_all : forall l,
  points_to l (dereferenced l) /\ is_pointer (dereferenced l) = false.
Proof. intros l. split; [apply deref_points_to | apply deref_not_pointer]. Qed.
Print Assumptions dereferenced_strips_all.
Theorem dereferenced_unique : forall l r, points_to l r -> is_pointer r = false -> dereferenced l = r.
Proof. exact points_to_deref. Qed.
Print Assumptions dereferenced_unique.
Theorem dereferenced_idempotent : forall l, dereferenced (dereferenced l) = dereferenced l.
Proof. intros l. apply deref_fix, deref_not_pointer. Qed.
Print Assumptions dereferenced_idempotent.
Theorem dereferenced_of_reference : forall l p, dereferenced (as_reference l p) = dereferenced l.
Proof. reflexivity. Qed.
Print Assumptions dereferenced_of_reference.
Example dereferenced_example :
  dereferenced (LReference true (TD (LPointer false (TD (as_reference (LVec 16 8 0 (TD (LReference false u8t) None)) (Some 5)) None)) (Some 7)))
  = LVec 16 8 0 (TD (LReference false u8t) None).
Proof. reflexivity. Qed.

Definition is_panic_size (r : res (option Z)) : bool := match r with Panic _ => true | _ => false end.

(** C16. Missing from the full claim: interior-mutability cells, see the refutation below. *)
Theorem type_size_exact_partial : forall l, is_cell (array_base l) = false ->
  forall n, size l = Ok (Some n) <-> sized l n.
Proof. exact size_sized. Qed.
Print Assumptions type_size_exact_partial.
Theorem type_size_unknown_iff_named_only : forall l, size l = Ok None <-> exists n, array_base l = LAlias n.
Proof. exact size_none. Qed.
Print Assumptions type_size_unknown_iff_named_only.
(** Overflow is never silent: the computation aborts, and aborts only for overflow or a type without size. *)
Theorem type_size_aborts_only_on_overflow : forall l m, size l = Panic m ->
  no_size (array_base l) = true \/
  exists e p n s, (exists ctx, array_dims l = ctx ++ array_dims (LArray (TD e p) n)) /\
                  array_base e = array_base l /\ size e = Ok (Some s) /\ ~ in_u64 (s * n).
Proof. exact size_panic. Qed.
Print Assumptions type_size_aborts_only_on_overflow.
Theorem array_size_overflow_detected : forall e p n s, size e = Ok (Some s) -> ~ in_u64 (s * n) ->
  exists m, size (LArray (TD e p) n) = Panic m.
Proof.
  intros e p n s H O. simpl. rewrite H. simpl. unfold mul64.
  destruct (u64_ok (s * n)) eqn:U; [apply u64_ok_iff in U; contradiction|]. simpl. eauto.
Qed.
Print Assumptions array_size_overflow_detected.
(** A RefCell<u64> is reported smaller than the value it contains. *)
Theorem type_size_covers_refuted : exists l s, size l = Ok (Some s) /\ ~ covers l s.
Proof.
  exists (LSmartPtr u64t 8 0 SRefCell), 8. split; [reflexivity|].
  intros C. specialize (C 8 u64t 8 (or_introl eq_refl) eq_refl). lia.
Qed.
Print Assumptions type_size_covers_refuted.
Example type_size_example :
  size (LArray (TD (LArray (TD (LStruct (st "P") 12 4 []) None) 3) None) 5) = Ok (Some 180)
  /\ sized (LArray (TD (LArray (TD (LStruct (st "P") 12 4 []) None) 3) None) 5) 180
  /\ is_panic_size (size (LArray (TD (LUInt 8) None) 4611686018427387904)) = true.
Proof.
  split; [reflexivity|]. split; [|reflexivity].
  apply type_size_exact_partial; reflexivity.
Qed.
