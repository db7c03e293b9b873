(** Running programs: sequencing, which events are sent, and running against a stopped target. *)
From Coq Require Import Ascii String List ZArith Lia Bool.
From Verif Require Import Base ProcModel ProcSpec.
Import ListNotations.
Open Scope Z_scope.

Lemma exec_bind {S A B} (c : client S) (p : prog A) (f : A -> prog B) s :
  exec c (pbind p f) s = let '(t1, a, s1) := exec c p s in let '(t2, b, s2) := exec c (f a) s1 in (t1 ++ t2, b, s2).
Proof.
  revert s. induction p as [a|q k IH]; intros s; cbn [pbind exec].
  - now destruct (exec c (f a) s) as [[t b] s2].
  - destruct (c s q) as [x s1]. rewrite IH. destruct (exec c (k x) s1) as [[t1 a] s2]. destruct (exec c (f a) s2) as [[t2 b] s3]. reflexivity.
Qed.
(** Every event of every path satisfies [P]. *)
Fixpoint only {A} (P : request -> Prop) (p : prog A) : Prop :=
  match p with Ret _ => True | Ask q k => P q /\ forall x, only P (k x) end.
Lemma only_sends {A} P (p : prog A) : only P p -> sends_only P p.
Proof.
  intros H S c. unfold events. induction p as [a|q k IH]; intros s; cbn [exec].
  - constructor.
  - destruct H as [Hq Hk]. destruct (c s q) as [x s1]. specialize (IH x (Hk x) s1). destruct (exec c (k x) s1) as [[t a] s2]. constructor; assumption.
Qed.
Lemma only_bind {A B} P (p : prog A) (f : A -> prog B) : only P p -> (forall a, only P (f a)) -> only P (pbind p f).
Proof. intros H K. induction p as [a|q k IH]; cbn [pbind only]; [apply K|]. destruct H as [Hq Hk]. split; [exact Hq|]. intros x. apply IH, Hk. Qed.
Lemma only_ibind {A B} P (p : io A) (f : A -> io B) : only P p -> (forall a, only P (f a)) -> only P (ibind p f).
Proof. intros H K. apply only_bind; [exact H|]. intros [a|m|m|]; cbn; auto. Qed.
Lemma only_lift {A} P (r : res A) : only P (lift r).
Proof. exact I. Qed.
Lemma only_ask {A} (P : request -> Prop) q (f : answer -> A) : P q -> only P (pbind (ask q) (fun x => Ret (f x))).
Proof. intros H. cbn. auto. Qed.
Lemma only_imapM {A B} P (f : A -> io B) l : (forall a, In a l -> only P (f a)) -> only P (imapM f l).
Proof.
  induction l as [|a l IH]; intros H; [exact I|]. cbn [imapM]. apply only_ibind; [apply H; now left|]. intros b. apply only_ibind; [apply IH; intros; apply H; now right|]. intros; exact I.
Qed.
Lemma only_imp {A} (P Q : request -> Prop) (p : prog A) : (forall q, P q -> Q q) -> only P p -> only Q p.
Proof. intros H. induction p as [a|q k IH]; cbn; [auto|]. intros [Hq Hk]. split; [auto|]. intros x. apply IH, Hk. Qed.

(** Against a client in state [s] the program ends with [r] and leaves the client as it was. *)
Definition yields {S A} (c : client S) (s : S) (p : prog A) (r : A) : Prop := outcome c p s = r /\ after c p s = s.
Lemma yields_ret {S A} (c : client S) s (r : A) : yields c s (Ret r) r.
Proof. split; reflexivity. Qed.
Lemma yields_lift {S A} (c : client S) s (r : res A) : yields c s (lift r) r.
Proof. split; reflexivity. Qed.
Lemma yields_pbind {S A B} (c : client S) s (p : prog A) (f : A -> prog B) r b : yields c s p r -> yields c s (f r) b -> yields c s (pbind p f) b.
Proof.
  unfold yields, outcome, after. intros [E1 E2] [F1 F2]. rewrite exec_bind. destruct (exec c p s) as [[t1 a] s1]. cbn in E1, E2. subst.
  destruct (exec c (f r) s) as [[t2 b'] s2]. cbn in *. subst. auto.
Qed.
Lemma yields_bind {S A B} (c : client S) s (p : io A) (f : A -> io B) r g :
  yields c s p r -> (forall a, r = Ok a -> yields c s (f a) (g a)) -> yields c s (ibind p f) (bind r g).
Proof.
  intros H K. unfold ibind. eapply yields_pbind; [exact H|]. destruct r as [a|m|m|]; cbn [bind]; [apply K; reflexivity | apply yields_ret ..].
Qed.
Lemma yields_fun {S A} (c : client S) s (p : prog A) r r' : yields c s p r -> yields c s p r' -> r = r'.
Proof. intros [E _] [F _]. congruence. Qed.
Lemma yields_imapM {S A B} (c : client S) s (f : A -> io B) (g : A -> res B) l :
  (forall a, In a l -> yields c s (f a) (g a)) -> yields c s (imapM f l) (mapM g l).
Proof.
  induction l as [|a l IH]; intros H; [apply yields_ret|]. cbn [imapM mapM]. apply yields_bind; [apply H; now left|]. intros b _. apply yields_bind; [apply IH; intros; apply H; now right|]. intros; apply yields_ret.
Qed.
