From Coq Require Import Ascii String List ZArith Lia Bool.
From Verif Require Import Base NumText DieModel DieSpec ModuleModel TypesModel ParserModel ParserSpec ParserProofs ParserProps ResolveModel.
Import ListNotations.
Open Scope Z_scope.

(** ** More budget never changes an answer. *)
Definition rle {A} (a b : res A) : Prop := a <> Fuel -> b = a.
Definition ple {T} (p q : parser T) : Prop := forall v h, rle (p v h) (q v h).
Lemma rle_refl {A} (a : res A) : rle a a.
Proof. intros _. reflexivity. Qed.
Lemma rle_bind {A B} (a b : res A) (f g : A -> res B) : rle a b -> (forall x, rle (f x) (g x)) -> rle (bind a f) (bind b g).
Proof. intros H K N. destruct a; cbn [bind] in *; try (rewrite H by discriminate; cbn [bind]; try reflexivity; apply K; exact N). congruence. Qed.
Lemma ple_refl {T} (p : parser T) : ple p p.
Proof. intros v h. apply rle_refl. Qed.
Lemma ple_and {T U} (p p' : parser T) (q q' : parser U) : ple p p' -> ple q q' -> ple (p_and p q) (p_and p' q').
Proof. intros H K v h. unfold p_and. apply rle_bind; [apply H|]. intros a. apply rle_bind; [apply K|]. intros; apply rle_refl. Qed.
Lemma ple_map {T U} (f : T -> U) p p' : ple p p' -> ple (p_map f p) (p_map f p').
Proof. intros H v h. unfold p_map. apply rle_bind; [apply H|]. intros; apply rle_refl. Qed.
Lemma ple_map_res {T U} (f : T -> res U) p p' : ple p p' -> ple (p_map_res f p) (p_map_res f p').
Proof. intros H v h. unfold p_map_res. apply rle_bind; [apply H|]. intros; apply rle_refl. Qed.
Lemma ple_then {U} p p' (q q' : parser U) : ple p p' -> ple q q' -> ple (p_then p q) (p_then p' q').
Proof. intros H K v h. unfold p_then. apply rle_bind; [apply H|]. intros; apply K. Qed.
Lemma rle_mapM {A B} (f g : A -> res B) l : (forall x, rle (f x) (g x)) -> rle (mapM f l) (mapM g l).
Proof. intros H. induction l as [|a l IH]; cbn [mapM]; [apply rle_refl|]. apply rle_bind; [apply H|]. intros. apply rle_bind; [apply IH|]. intros; apply rle_refl. Qed.
Lemma ple_each {T} (p q : parser T) : ple p q -> ple (for_each_child p) (for_each_child q).
Proof.
  intros H v h. unfold for_each_child. apply rle_bind; [apply rle_refl|]. intros l. induction l as [|c l IH]; cbn [each_ok]; [apply rle_refl|].
  intros N. destruct (p v c) eqn:P.
  - rewrite (H v c) by congruence. rewrite P. cbn [bind] in N |- *. destruct (each_ok p v l) eqn:E; cbn [bind] in *; try (rewrite IH by congruence; reflexivity).
  - rewrite (H v c) by congruence. rewrite P. apply IH. exact N.
  - rewrite (H v c) by congruence. rewrite P. reflexivity.
  - congruence.
Qed.
(** Two tuples of parsers, pairwise ordered. *)
Inductive ppairs : Type -> Type :=
| QNil : ppairs unit
| QCons {T U} (p q : parser T) (H : ple p q) (x : ppairs U) : ppairs (T * U).
Fixpoint lower {T} (x : ppairs T) : parsers T := match x with QNil => PNil | QCons p _ _ x' => PCons p (lower x') end.
Fixpoint upper {T} (x : ppairs T) : parsers T := match x with QNil => PNil | QCons _ q _ x' => PCons q (upper x') end.
Fixpoint move {T} (x : ppairs T) : slots (lower x) -> slots (upper x) :=
  match x with QNil => fun _ => tt | QCons _ _ _ x' => fun s => (fst s, move x' (snd s)) end.
Lemma offer_le {T} (x : ppairs T) v c : forall s, offer (lower x) v c s <> Fuel ->
  offer (upper x) v c (move x s) = rmap (move x) (offer (lower x) v c s).
Proof.
  induction x as [|T U p q H x IH]; intros s N; simpl in *; [now destruct s|]. destruct s as [o s]. cbn [fst snd] in *.
  destruct o as [a|]; cbn [bind] in *.
  - destruct (offer (lower x) v c s) eqn:E; cbn [bind] in N; try congruence; rewrite IH by congruence; rewrite E; reflexivity.
  - destruct (p v c) eqn:P; cbn [bind] in N; [| | |congruence]; rewrite (H v c) by congruence; rewrite P; cbn [bind]; try reflexivity;
    (destruct (offer (lower x) v c s) eqn:E; cbn [bind] in N; try congruence; rewrite IH by congruence; rewrite E; reflexivity).
Qed.
Lemma offer_all_le {T} (x : ppairs T) v l : forall s, offer_all (lower x) v l s <> Fuel ->
  offer_all (upper x) v l (move x s) = rmap (move x) (offer_all (lower x) v l s).
Proof.
  induction l as [|c l IH]; intros s N; cbn [offer_all] in *; [reflexivity|].
  destruct (offer (lower x) v c s) eqn:E; cbn [bind] in N; try congruence; rewrite offer_le by congruence; rewrite E; cbn [rmap bind]; try reflexivity.
  now apply IH.
Qed.
Lemma filled_move {T} (x : ppairs T) : forall s, filled (upper x) (move x s) = filled (lower x) s.
Proof. induction x as [|T U p q H x IH]; intros s; simpl; [reflexivity|]. destruct s as [[a|] s]; cbn [fst snd]; [rewrite IH|]; reflexivity. Qed.
Lemma move_no {T} (x : ppairs T) : move x (no_slots (lower x)) = no_slots (upper x).
Proof. induction x as [|T U p q H x IH]; simpl; [reflexivity | rewrite IH; reflexivity]. Qed.
Lemma ple_children {T} (x : ppairs T) : ple (parse_children (lower x)) (parse_children (upper x)).
Proof.
  intros v h. unfold parse_children. apply rle_bind; [apply rle_refl|]. intros l N.
  destruct (offer_all (lower x) v l (no_slots (lower x))) eqn:E; cbn [bind] in *; try congruence; rewrite <- move_no, offer_all_le by congruence; rewrite E; cbn [rmap bind]; try reflexivity.
  apply filled_move.
Qed.
Lemma ple_filter {T} (p q : parser T) : ple p q -> ple (p_filter p) (p_filter q).
Proof. intros H v h N. unfold p_filter in *. destruct (p v h) eqn:E; try congruence; rewrite (H v h) by congruence; rewrite E; reflexivity. Qed.
Lemma ple_fun {T} (p q : parser T) : (forall v h, rle (p v h) (q v h)) -> ple p q.
Proof. auto. Qed.

Section Mono.
Context (s s' : parser tdef) (H : ple s s').
Lemma ple_entry : ple (entry_shallow s) (entry_shallow s').
Proof. apply ple_then; [apply ple_refl | exact H]. Qed.
Lemma ple_generic f : ple (resolved_generic s f) (resolved_generic s' f).
Proof. apply ple_then; [apply ple_refl | exact H]. Qed.
Lemma ple_vec_fields : ple (vec_fields s) (vec_fields s').
Proof.
  apply ple_map. exact (ple_children (QCons _ _ (ple_refl _) (QCons _ _ (ple_refl _) (QCons _ _ (ple_refl _) (QCons _ _ (ple_generic _) QNil))))).
Qed.
Lemma ple_disc : ple (enum_discriminant s) (enum_discriminant s').
Proof.
  intros v h. unfold enum_discriminant. apply rle_bind; [apply rle_refl|]. intros [[d|] o]; [|apply rle_refl].
  apply rle_bind; [apply ple_entry|]. intros; apply rle_refl.
Qed.
Lemma ple_named_tuple {T} f (p q : parser T) : ple p q -> ple (enum_named_tuple_variant1 f p) (enum_named_tuple_variant1 f q).
Proof.
  intros K v h. unfold enum_named_tuple_variant1. apply rle_bind; [apply rle_refl|]. intros [d [o l]]. destruct (o =? 0); [|apply rle_refl].
  apply rle_bind; [|intros; apply rle_refl].
  refine (ple_children (QCons _ _ _ QNil) v l). apply ple_then; [apply ple_refl|]. apply ple_and; [apply ple_refl|]. apply ple_then; [apply ple_refl | exact K].
Qed.
Lemma ple_option_entry : ple (parse_option_entry s) (parse_option_entry s').
Proof.
  unfold parse_option_entry. apply ple_and; [apply ple_refl|]. apply ple_and; [apply ple_refl|]. apply ple_then; [apply ple_refl|].
  apply ple_and; [apply ple_disc | apply ple_refl].
Qed.
Lemma ple_enum_variant : ple (enum_variant s) (enum_variant s').
Proof.
  unfold enum_variant. apply ple_map_res. apply ple_then; [apply ple_refl|]. apply ple_and; [apply ple_refl|]. apply ple_then; [apply ple_refl|].
  intros v h. apply rle_bind; [apply rle_refl|]. intros. apply rle_bind; [apply rle_refl|]. intros. apply rle_bind; [apply ple_entry|]. intros; apply rle_refl.
Qed.
Lemma ple_args : ple (fn_args s) (fn_args s').
Proof. intros v h. apply rle_bind; [apply rle_refl|]. intros l. apply rle_mapM. intros; apply ple_entry. Qed.
Lemma ple_tuple : ple (tuple_type s) (tuple_type s').
Proof.
  intros v h. unfold tuple_type. apply rle_bind; [apply rle_refl|]. intros. apply rle_bind; [apply rle_refl|]. intros l. apply rle_bind; [|intros; apply rle_refl].
  apply rle_mapM. intros c. apply rle_bind; [apply rle_refl|]. intros. apply rle_bind; [apply ple_entry|]. intros; apply rle_refl.
Qed.
Lemma ple_primitive def : ple (primitive_type s def) (primitive_type s' def).
Proof.
  intros v h. destruct def; cbn [primitive_type]; try apply rle_refl; try (apply rle_bind; [apply ple_entry | intros; apply rle_refl]).
  - apply rle_bind; [apply ple_entry|]. intros. apply rle_bind; [apply ple_args|]. intros; apply rle_refl.
  - apply rle_bind; [apply rle_refl|]. intros. apply rle_bind; [apply rle_refl|]. intros. apply rle_bind; [apply rle_refl|]. intros.
    apply rle_bind; [apply ple_entry|]. intros; apply rle_refl.
  - apply ple_tuple.
Qed.
Lemma ple_btree : ple (btree_map s) (btree_map s').
Proof.
  intros v h. unfold btree_map. apply rle_bind.
  { exact (ple_children (QCons _ _ (ple_generic _) (QCons _ _ (ple_generic _) (QCons _ _ (ple_refl _) (QCons _ _ (ple_refl _) QNil)))) v h). }
  intros [k [val [[ro rt] [lo u]]]]. apply rle_bind; [apply ple_option_entry|]. intros (a & b & c & e & f).
  apply rle_bind; [apply rle_refl|]. intros (x1 & (x2 & x3) & x4). apply rle_bind; [apply rle_refl|]. intros leaf.
  apply rle_bind; [apply rle_refl|]. intros (y1 & y2 & y3 & y4). apply rle_bind; [apply rle_refl|]. intros po.
  apply rle_bind; [apply ple_option_entry|]. intros (a' & b' & c' & e' & f'). apply rle_refl.
Qed.
Lemma ple_map_type m : ple (map_type s m) (map_type s' m).
Proof.
  intros v h. unfold map_type. apply rle_bind.
  { exact (ple_children (QCons _ _ (ple_generic _) (QCons _ _ (ple_generic _) QNil)) v h). }
  intros (k & w & u). destruct m; [apply rle_refl | apply ple_btree | apply rle_refl].
Qed.
Lemma ple_smart sv : ple (smart_ptr_type s sv) (smart_ptr_type s' sv).
Proof.
  intros v h. unfold smart_ptr_type. apply rle_bind; [|intros; apply rle_refl].
  destruct sv; try apply rle_refl; try apply ple_entry; (apply rle_bind; [apply rle_refl | intros; apply H]).
Qed.
Lemma rle_some {A} (a b : res A) : rle a b -> rle (rmap Some a) (rmap Some b).
Proof. intros K. apply rle_bind; [exact K | intros; apply rle_refl]. Qed.
Lemma ple_result : ple (result_def s) (result_def s').
Proof.
  intros v h. unfold result_def. apply rle_bind.
  - apply ple_and; [apply ple_refl|]. apply ple_and; [apply ple_refl|]. apply ple_then; [apply ple_refl|]. apply ple_and; [apply ple_disc|].
    exact (ple_children (QCons _ _ (ple_named_tuple _ _ _ H) (QCons _ _ (ple_named_tuple _ _ _ H) QNil))).
  - intros. apply rle_refl.
Qed.
Lemma ple_builtin : ple (as_builtin s) (as_builtin s').
Proof.
  intros v h. unfold as_builtin. destruct (get_die_typename v h) as [def|]; [|apply rle_refl]. apply rle_bind; [|intros; apply rle_refl].
  destruct def; try apply rle_refl; apply rle_some; try apply (ple_primitive (LBool)); try apply ple_primitive.
  - apply ple_smart.
  - apply ple_map_type.
  - unfold option_def. apply rle_bind; [apply ple_option_entry|]. intros (a & b & c & e & f). apply rle_bind; [apply H | intros; apply rle_refl].
  - apply ple_result.
  - unfold string_type. apply ple_map. apply ple_then; [apply ple_refl|]. apply ple_then; [apply ple_refl | apply ple_vec_fields].
  - unfold vec. apply ple_map, ple_vec_fields.
Qed.
End Mono.

Lemma shallow_step n : ple (shallow n) (shallow (S n)).
Proof.
  induction n as [|n IH]; intros v h; [intros N; contradiction N; reflexivity|].
  change (rle (o <- as_builtin (shallow n) v h ;; match o with Some t => Ok t | None => Ok (TD (LAlias (match name_attr v h with Ok s => s | _ => st "unknown" end)) (Some h)) end)
              (o <- as_builtin (shallow (S n)) v h ;; match o with Some t => Ok t | None => Ok (TD (LAlias (match name_attr v h with Ok s => s | _ => st "unknown" end)) (Some h)) end)).
  apply rle_bind; [apply ple_builtin; exact IH | intros; apply rle_refl].
Qed.
Lemma shallow_mono n m : (n <= m)%nat -> ple (shallow n) (shallow m).
Proof.
  intros L. induction L as [|m L IH]; [apply ple_refl|]. intros v h N. rewrite (shallow_step m v h); [apply IH; exact N|]. rewrite (IH v h N). exact N.
Qed.
Lemma shallow_agree n m v h a b : shallow n v h = Ok a -> shallow m v h = Ok b -> a = b.
Proof.
  intros A B. assert (shallow (max n m) v h = Ok a) by (rewrite (shallow_mono n (max n m)); [exact A | lia | congruence]).
  assert (shallow (max n m) v h = Ok b) by (rewrite (shallow_mono m (max n m)); [exact B | lia | congruence]). congruence.
Qed.
Lemma shallow_loc n v h t : shallow n v h = Ok t -> locOf t = Some h.
Proof.
  destruct n; [discriminate|]. cbn [shallow]. intros E. apply bind_ok in E. destruct E as (o & B & E). destruct o as [t'|]; [|injection E as <-; reflexivity].
  injection E as <-. unfold as_builtin in B. destruct (get_die_typename v h); [|discriminate]. apply bind_ok in B. destruct B as (o & _ & B). destruct o; [|discriminate]. injection B as <-. reflexivity.
Qed.
