(** Concrete memories, used to show that the hypotheses of the reading theorems are met. *)
From Coq Require Import Ascii String List ZArith Lia Bool.
From Coq Require Import ZifyBool ZifyNat.
From Verif Require Import Base NumText OMap TypesModel ValueModel DataModel DataSpec DataProofs.
Import ListNotations.
Open Scope Z_scope.

(** A memory made of regions (address, bytes). *)
Fixpoint mem_of (rs : list (Z * list Z)) : memory := fun a =>
  match rs with
  | [] => None
  | (b, bs) :: rs' =>
      if (b <=? a) && (a <? b + Z.of_nat (List.length bs)) then nth_error bs (Z.to_nat (a - b)) else mem_of rs' a
  end.
Fixpoint read_bytes (m : memory) (a : Z) (n : nat) : option (list Z) :=
  match n with
  | O => Some []
  | S n' => match m a, read_bytes m (a + 1) n' with Some b, Some bs => Some (b :: bs) | _, _ => None end
  end.
(** The resolver of a fully readable memory. *)
Definition mem_env (m : memory) : env := Env
  (fun a n => match read_bytes m a (Z.to_nat n) with Some bs => Ok bs | None => Err "unreadable" end)
  (fun _ => Err "unresolved")
  (fun bs => map Z.to_N bs)
  (fun _ _ => st "1.5").
Lemma read_bytes_holds m bs : forall a, (forall i b, nth_error bs i = Some b -> m (a + Z.of_nat i) = Some b) ->
  read_bytes m a (List.length bs) = Some bs.
Proof.
  induction bs as [|b bs IH]; intros a H; [reflexivity|]. cbn [List.length read_bytes].
  pose proof (H 0%nat b eq_refl) as H0. rewrite Z.add_0_r in H0. rewrite H0.
  rewrite IH; [reflexivity|]. intros i c Hi. replace (a + 1 + Z.of_nat i) with (a + Z.of_nat (S i)) by lia. apply H. exact Hi.
Qed.
Lemma mem_env_serves m : serves (mem_env m) m.
Proof.
  intros a bs [_ H]. cbn [rd mem_env]. rewrite Nat2Z.id, read_bytes_holds by exact H. reflexivity.
Qed.

Fixpoint holdsb (m : memory) (a : Z) (bs : list Z) : bool :=
  match bs with
  | [] => true
  | b :: bs' => (0 <=? b) && (b <? 256) && match m a with Some c => c =? b | None => false end && holdsb m (a + 1) bs'
  end.
Lemma holdsb_ok m bs : forall a, holdsb m a bs = true -> holds m a bs.
Proof.
  induction bs as [|b bs IH]; intros a H.
  - split; [constructor|]. intros i b Hi. destruct i; discriminate.
  - cbn [holdsb] in H. apply andb_true_iff in H. destruct H as [H H2]. apply IH in H2. destruct H2 as [H2 H3].
    split; [constructor; [unfold byte; lia | exact H2]|].
    intros [|i] c Hi; cbn [nth_error] in Hi.
    + injection Hi as <-. rewrite Z.add_0_r. destruct (m a); [f_equal; lia | lia].
    + replace (a + Z.of_nat (S i)) with (a + 1 + Z.of_nat i) by lia. apply H3. exact Hi.
Qed.
Ltac mem := first [apply mem_env_serves | apply holdsb_ok; vm_compute; reflexivity
  | split; [first [lia | vm_compute; intuition (congruence || lia)] | apply holdsb_ok; vm_compute; reflexivity]].
Ltac sp := repeat match goal with |- _ /\ _ => split end.
