(** Shared vocabulary of the model: outcomes, strings, byte lists.
    Nothing here models a particular function of the code base. *)
From Coq Require Import Ascii String List ZArith NArith Lia Bool.
From Coq Require Import ZifyBool ZifyNat ZifyN.
Import ListNotations.
Open Scope Z_scope.

(** Outcome of a Rust call returning [anyhow::Result<A>]:
    [Ok], [Err] (an error value reaches the caller; the text is abbreviated),
    [Panic] (the thread panics: failed [unwrap], out-of-range slice,
    arithmetic overflow in a dev build, [unimplemented!]). [Fuel] is the model's
    own "recursion budget used up" and never stands for a Rust behaviour. *)
Inductive res (A : Type) : Type :=
| Ok (a : A)
| Err (msg : string)
| Panic (msg : string)
| Fuel.
Arguments Ok {A} a.
Arguments Err {A} msg.
Arguments Panic {A} msg.
Arguments Fuel {A}.

Definition bind {A B} (r : res A) (k : A -> res B) : res B :=
  match r with
  | Ok a => k a
  | Err m => Err m
  | Panic m => Panic m
  | Fuel => Fuel
  end.

Notation "x <- e ;; k" := (bind e (fun x => k))
  (at level 61, e at next level, right associativity).
Notation "' p <- e ;; k" := (bind e (fun p => k))
  (at level 61, p pattern, e at next level, right associativity).

Definition rmap {A B} (f : A -> B) (r : res A) : res B := a <- r ;; Ok (f a).

Definition is_ok {A} (r : res A) : bool := match r with Ok _ => true | _ => false end.
Definition is_err {A} (r : res A) : bool := match r with Err _ => true | _ => false end.

(** Iterator::map(..).collect::<Result<Vec<_>,_>>(): stops at the first failure. *)
Fixpoint mapM {A B} (f : A -> res B) (l : list A) : res (list B) :=
  match l with
  | [] => Ok []
  | a :: l' => b <- f a ;; bs <- mapM f l' ;; Ok (b :: bs)
  end.

(** Rust strings: lists of Unicode scalar values. *)
Definition char := N.
Definition str := list char.
(** [st "abc"] is the Rust literal "abc" (ASCII literals only). *)
Definition st (s : string) : str := map N_of_ascii (list_ascii_of_string s).
Definition ch (a : ascii) : char := N_of_ascii a.
Arguments st s%string.
Arguments ch a%char.

Definition str_eq_dec (a b : str) : {a = b} + {a <> b} := list_eq_dec N.eq_dec a b.
Definition str_eqb (a b : str) : bool := if str_eq_dec a b then true else false.

Lemma str_eqb_eq a b : str_eqb a b = true <-> a = b.
Proof. unfold str_eqb. destruct (str_eq_dec a b); split; congruence. Qed.
Lemma str_eqb_refl a : str_eqb a a = true.
Proof. apply str_eqb_eq; reflexivity. Qed.
Lemma str_eqb_neq a b : str_eqb a b = false <-> a <> b.
Proof. unfold str_eqb. destruct (str_eq_dec a b); split; congruence. Qed.

(** [join sep parts] is Rust's [parts.join(sep)]. *)
Fixpoint join (sep : str) (parts : list str) : str :=
  match parts with
  | [] => []
  | [p] => p
  | p :: ps => p ++ sep ++ join sep ps
  end.

Fixpoint starts_with (s p : str) {struct p} : bool :=
  match p, s with
  | [], _ => true
  | c :: p', d :: s' => N.eqb c d && starts_with s' p'
  | _ :: _, [] => false
  end.

Lemma starts_with_spec s p : starts_with s p = true <-> exists r, s = p ++ r.
Proof.
  revert s. induction p as [|c p IH]; intros s; simpl.
  - split; [intros _; exists s; reflexivity | reflexivity].
  - destruct s as [|d s].
    + split; [discriminate | intros [r Hr]; discriminate].
    + rewrite andb_true_iff, N.eqb_eq, IH. split.
      * intros [-> [r ->]]. exists r. reflexivity.
      * intros [r Hr]. injection Hr as -> ->. split; [reflexivity | exists r; reflexivity].
Qed.

Definition ends_with (s p : str) : bool := starts_with (rev s) (rev p).

Lemma ends_with_spec s p : ends_with s p = true <-> exists r, s = r ++ p.
Proof.
  unfold ends_with. rewrite starts_with_spec. split; intros [r Hr].
  - exists (rev r). rewrite <- (rev_involutive s), Hr, rev_app_distr, rev_involutive. reflexivity.
  - exists (rev r). rewrite Hr, rev_app_distr. reflexivity.
Qed.

(** u64 range. *)
Definition two64 : Z := 18446744073709551616.
Definition in_u64 (z : Z) : Prop := 0 <= z < two64.
Definition u64_ok (z : Z) : bool := (0 <=? z) && (z <? two64).

(** Checked u64 arithmetic of a dev build: overflow panics. *)
Definition add64 (a b : Z) : res Z := if u64_ok (a + b) then Ok (a + b) else Panic "u64 add overflow".
Definition sub64 (a b : Z) : res Z := if u64_ok (a - b) then Ok (a - b) else Panic "u64 sub overflow".
Definition mul64 (a b : Z) : res Z := if u64_ok (a * b) then Ok (a * b) else Panic "u64 mul overflow".

Lemma bind_ok {A B} (r : res A) (k : A -> res B) b :
  bind r k = Ok b <-> exists a, r = Ok a /\ k a = Ok b.
Proof.
  destruct r; simpl; split; try (intros [? [? ?]]; discriminate); try discriminate.
  - intros H. exists a. split; [reflexivity | exact H].
  - intros [a' [Ha Hk]]. injection Ha as <-. exact Hk.
Qed.
