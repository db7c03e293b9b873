(** What DIE trees say, without the access functions of the model. *)
From Coq Require Import List ZArith Bool.
From Verif Require Import Base DieModel ModuleModel TypesModel ParserModel.
Import ListNotations.
Open Scope Z_scope.

(** [d] is the DIE with handle [h]. *)
Inductive in_tree : die -> die -> Prop :=
| in_here d : in_tree d d
| in_kid d c x : In c (d_kids d) -> in_tree c x -> in_tree d x.
Definition node (v : env) (h : Z) (d : die) : Prop := in_tree (en_unit v) d /\ e_off (d_entry d) = h.

(** [x] is the first element of [l] with property [P]. *)
Definition first_of {A} (P : A -> Prop) (l : list A) (x : A) : Prop :=
  exists l1 l2, l = l1 ++ x :: l2 /\ P x /\ Forall (fun y => ~ P y) l1.

(** The value of attribute [a] (the first, should it be repeated). *)
Definition has_attr (d : die) (a : attr_name) (x : attr_value) : Prop :=
  first_of (fun p => fst p = a) (e_attrs (d_entry d)) (a, x).
Definition named (d : die) (s : str) : Prop := has_attr d At_name (AStr (Some s)).
(** An attribute holding an unsigned number (a signed form counts when it is not negative). *)
Definition unsigned (d : die) (a : attr_name) (n : Z) : Prop :=
  has_attr d a (AUdata n) \/ (has_attr d a (ASdata n) /\ 0 <= n).
(** Offset of a member inside its parent. *)
Definition located (d : die) (n : Z) : Prop := unsigned d At_member_location n.
Definition refers (d : die) (a : attr_name) (h : Z) : Prop := has_attr d a (AUnitRef h).
Definition typed (d : die) (h : Z) : Prop := refers d At_type h.

(** [follows v h path n h']: starting at the type [h], walking through the members named in [path], each time
    continuing in the member's type, ends at the type [h'], [n] being the sum of the members' offsets. *)
Inductive follows (v : env) : Z -> list str -> Z -> Z -> Prop :=
| follows_nil h : follows v h [] 0 h
| follows_cons h d f c o t path n h' :
    node v h d -> first_of (fun c => named c f) (d_kids d) c -> located c o -> typed c t ->
    follows v t path n h' -> follows v h (f :: path) (o + n) h'.
(** The same, beginning with a member DIE instead of a type. *)
Definition follows_member (v : env) (h : Z) (path : list str) (n h' : Z) : Prop :=
  match path with
  | [] => n = 0 /\ h' = h
  | f :: path' => exists d o t n', node v h d /\ named d f /\ located d o /\ typed d t /\ follows v t path' n' h' /\ n = o + n'
  end.

(** Distinct offsets, and numbers as gimli decodes them. *)
Definition attr_ok (x : attr_value) : Prop :=
  match x with AUdata n => in_u64 n | ASdata n => -9223372036854775808 <= n < 9223372036854775808 | _ => True end.
Definition good_env (v : env) : Prop :=
  (forall d1 d2, in_tree (en_unit v) d1 -> in_tree (en_unit v) d2 -> e_off (d_entry d1) = e_off (d_entry d2) -> d1 = d2) /\
  (forall d a x, in_tree (en_unit v) d -> In (a, x) (e_attrs (d_entry d)) -> attr_ok x).

(** Each parser of the tuple yields the result of the first child it accepts. *)
Definition first_accepts {T} (p : parser T) (v : env) (l : list Z) (a : T) : Prop :=
  exists l1 c l2, l = l1 ++ c :: l2 /\ p v c = Ok a /\ Forall (fun c' => exists m, p v c' = Err m) l1.
Fixpoint each_first {T} (ps : parsers T) (v : env) (l : list Z) : T -> Prop :=
  match ps with
  | PNil => fun _ => True
  | PCons p ps' => fun r => first_accepts p v l (fst r) /\ each_first ps' v l (snd r)
  end.
(** Every parser of the tuple returns a result or an error on the children. *)
Fixpoint calm {T} (ps : parsers T) (v : env) (l : list Z) : Prop :=
  match ps with
  | PNil => True
  | PCons p ps' => Forall (fun c => is_ok (p v c) || is_err (p v c) = true) l /\ calm ps' v l
  end.
(** Some parser of the tuple rejects every child. *)
Fixpoint some_rejects {T} (ps : parsers T) (v : env) (l : list Z) : Prop :=
  match ps with
  | PNil => False
  | PCons p ps' => Forall (fun c => exists m, p v c = Err m) l \/ some_rejects ps' v l
  end.
