From Coq Require Import Ascii String List ZArith Bool Lia Permutation Sorted ZifyBool.
From Verif Require Import Base AddrModel AddrSpec.
Import ListNotations.
Open Scope Z_scope.

(** In-order contents of a tree. *)
Fixpoint contents (t : node) : list finfo :=
  match t with
  | Leaf => []
  | Node i _ _ _ l r => contents l ++ i :: contents r
  end.

(** Every node caches its own range; [max_end] bounds the ends below it. *)
Fixpoint wf (ab : bool) (t : node) : Prop :=
  match t with
  | Leaf => True
  | Node i s e m l r =>
    s = lo ab i /\ e = hi ab i
    /\ (forall x, In x (contents t) -> hi ab x <= m)
    /\ (forall x, In x (contents r) -> s <= lo ab x)
    /\ wf ab l /\ wf ab r
  end.

Lemma exactly_filter {A} (f : A -> bool) (P : A -> Prop) l out :
  (forall x, f x = true <-> P x) -> Permutation (filter f l) out -> exactly P l out.
Proof.
  intros Hf Hp. split.
  - intros x Hx. apply Hf. apply Permutation_in with (l' := filter f l) in Hx.
    + apply filter_In in Hx. tauto.
    + symmetry; exact Hp.
  - exists (filter (fun x => negb (f x)) l). split.
    + rewrite <- Hp. clear. induction l as [|a l IH]; simpl; [constructor|].
      destruct (f a); simpl.
      * constructor; exact IH.
      * rewrite IH at 1. apply Permutation_middle.
    + intros x Hx HP. apply filter_In in Hx. apply Hf in HP. rewrite HP in Hx.
      destruct Hx; discriminate.
Qed.

Lemma nth_split_mid (l : list finfo) d mid :
  (mid < length l)%nat -> l = firstn mid l ++ nth mid l d :: skipn (mid + 1) l.
Proof.
  revert mid. induction l as [|a l IH]; intros mid H; simpl in *; [lia|].
  destruct mid as [|mid]; simpl; [reflexivity|].
  f_equal. apply IH. lia.
Qed.

Lemma build_contents ab : forall n l, (length l <= n)%nat -> contents (build_fuel n ab l) = l.
Proof.
  induction n as [|n IH]; intros l Hl.
  - destruct l; simpl in *; [reflexivity | lia].
  - destruct l as [|i0 l0] eqn:El; [reflexivity|].
    rewrite <- El in *. cbn [build_fuel]. rewrite El at 1.
    assert (Hlen : (length l > 0)%nat) by (rewrite El; simpl; lia).
    clear El l0.
    cbv zeta. cbn [contents].
    set (mid := Nat.div (length l) 2).
    assert (Hmid : (mid < length l)%nat) by (apply Nat.div_lt; lia).
    rewrite !IH.
    + symmetry. apply nth_split_mid. exact Hmid.
    + rewrite skipn_length. lia.
    + rewrite firstn_length. lia.
Qed.

Lemma sorted_strong (key : finfo -> Z) l :
  Sorted (fun a b => key a <= key b) l -> StronglySorted (fun a b => key a <= key b) l.
Proof. apply Sorted_StronglySorted. intros a b c; lia. Qed.

Lemma ss_app_inv {A} (R : A -> A -> Prop) l1 l2 :
  StronglySorted R (l1 ++ l2) ->
  StronglySorted R l1 /\ StronglySorted R l2 /\ forall x y, In x l1 -> In y l2 -> R x y.
Proof.
  induction l1 as [|a l1 IH]; simpl; intros H.
  - split; [constructor | split; [exact H | intros x y []]].
  - inversion H as [|? ? Hss Hall]; subst. apply IH in Hss. destruct Hss as [H1 [H2 H3]].
    rewrite Forall_app in Hall. destruct Hall as [Ha1 Ha2]. split.
    + constructor; assumption.
    + split; [exact H2|]. intros x y [<-|Hx] Hy.
      * rewrite Forall_forall in Ha2. apply Ha2; exact Hy.
      * apply H3; assumption.
Qed.

Lemma update_max_end_ge e l r :
  e <= update_max_end e l r
  /\ (match l with Leaf => True | Node _ _ _ m _ _ => m <= update_max_end e l r end)
  /\ (match r with Leaf => True | Node _ _ _ m _ _ => m <= update_max_end e l r end).
Proof. unfold update_max_end. destruct l, r; repeat split; lia. Qed.

Lemma wf_build ab : forall n l, (length l <= n)%nat ->
  StronglySorted (fun a b => lo ab a <= lo ab b) l -> wf ab (build_fuel n ab l).
Proof.
  induction n as [|n IH]; intros l Hl Hs; [exact I|].
  destruct l as [|i0 l0] eqn:El; [exact I|].
  rewrite <- El in *.
  assert (Hlen : (length l > 0)%nat) by (rewrite El; simpl; lia).
  cbn [build_fuel]. rewrite El at 1. clear El l0. cbv zeta.
  set (mid := Nat.div (length l) 2).
  assert (Hmid : (mid < length l)%nat) by (apply Nat.div_lt; lia).
  pose proof (nth_split_mid l i0 mid Hmid) as Hsplit.
  set (med := nth mid l i0) in *.
  rewrite Hsplit in Hs. apply ss_app_inv in Hs. destruct Hs as [Hs1 [Hs2 Hs12]].
  inversion Hs2 as [|? ? Hs3 Hall]; subst.
  assert (HL : (length (firstn mid l) <= n)%nat) by (rewrite firstn_length; lia).
  assert (HR : (length (skipn (mid + 1) l) <= n)%nat) by (rewrite skipn_length; lia).
  pose proof (IH _ HL Hs1) as WL. pose proof (IH _ HR Hs3) as WR.
  pose proof (build_contents ab _ _ HL) as CL. pose proof (build_contents ab _ _ HR) as CR.
  set (L := build_fuel n ab (firstn mid l)) in *.
  set (R := build_fuel n ab (skipn (mid + 1) l)) in *.
  cbn [wf contents].
  split; [unfold start_of, lo; reflexivity|].
  split; [unfold end_of, hi; reflexivity|].
  pose proof (update_max_end_ge (end_of ab med) L R) as [Hm1 [Hm2 Hm3]].
  split.
  { intros x Hx. apply in_app_or in Hx. destruct Hx as [Hx|[<-|Hx]].
    - destruct L as [|? ? ? m ? ?]; [destruct Hx|]. simpl wf in WL.
      destruct WL as [_ [_ [WL _]]]. specialize (WL x Hx). lia.
    - change (end_of ab med) with (hi ab med) in *. lia.
    - destruct R as [|? ? ? m ? ?]; [destruct Hx|]. simpl wf in WR.
      destruct WR as [_ [_ [WR _]]]. specialize (WR x Hx). lia. }
  split; [|split; assumption].
  intros x Hx. rewrite CR in Hx. rewrite Forall_forall in Hall. apply (Hall x Hx).
Qed.

Lemma filter_all_false {A} (f : A -> bool) l :
  (forall x, In x l -> f x = false) -> filter f l = [].
Proof.
  induction l as [|a l IH]; simpl; intros H; [reflexivity|].
  rewrite (H a (or_introl eq_refl)). apply IH. intros x Hx. apply H. right. exact Hx.
Qed.

Definition coversb (ab : bool) (a : Z) (f : finfo) : bool := (lo ab f <=? a) && (a <? hi ab f).
Definition overlapb (ab : bool) (qs qe : Z) (f : finfo) : bool := (lo ab f <? qe) && (qs <? hi ab f).

Lemma query_filter ab a : forall t, wf ab t ->
  Permutation (filter (coversb ab a) (contents t)) (query_address_recursive t a).
Proof.
  induction t as [|i s e m l IHl r IHr]; intros W; [constructor|].
  cbn [wf] in W. destruct W as [-> [-> [Hm [Hr [Wl Wr]]]]].
  specialize (IHl Wl). specialize (IHr Wr).
  cbn [contents query_address_recursive].
  rewrite filter_app. cbn [filter].
  assert (Hc : contains_address (lo ab i) (hi ab i) a = coversb ab a i)
    by (unfold contains_address, coversb; lia).
  rewrite Hc.
  assert (HL : Permutation (filter (coversb ab a) (contents l))
     match l with Leaf => [] | Node _ _ _ lmax _ _ =>
         if a <=? lmax then query_address_recursive l a else [] end).
  { destruct l as [|li ls le lm ll lr]; [constructor|].
    destruct (a <=? lm) eqn:E; [exact IHl|].
    rewrite filter_all_false; [constructor|]. intros x Hx. cbn [wf] in Wl.
    destruct Wl as [_ [_ [Wl _]]]. specialize (Wl x Hx). unfold coversb. lia. }
  assert (HR : Permutation (filter (coversb ab a) (contents r))
     match r with Leaf => [] | Node _ _ _ rmax _ _ =>
         if (a <=? rmax) && (a >=? lo ab i) then
           if (a >=? lo ab i) || (a <=? rmax) then
             if a <=? rmax then query_address_recursive r a else []
           else [] else [] end).
  { destruct r as [|ri rs re rm rl rr]; [constructor|].
    destruct ((a <=? rm) && (a >=? lo ab i)) eqn:E.
    - assert (E1 : (a >=? lo ab i) || (a <=? rm) = true) by lia.
      assert (E2 : (a <=? rm) = true) by lia. rewrite E1, E2. exact IHr.
    - rewrite filter_all_false; [constructor|]. intros x Hx.
      specialize (Hr x Hx). cbn [wf] in Wr.
      destruct Wr as [_ [_ [Wr _]]]. specialize (Wr x Hx). unfold coversb. lia. }
  destruct (coversb ab a i).
  - cbn [app]. rewrite <- Permutation_middle. constructor. apply Permutation_app; assumption.
  - cbn [app]. apply Permutation_app; assumption.
Qed.

Lemma query_interval_filter ab qs qe : forall t, wf ab t ->
  Permutation (filter (overlapb ab qs qe) (contents t)) (query_interval_recursive t qs qe).
Proof.
  induction t as [|i s e m l IHl r IHr]; intros W; [constructor|].
  cbn [wf] in W. destruct W as [-> [-> [Hm [Hr [Wl Wr]]]]].
  specialize (IHl Wl). specialize (IHr Wr).
  cbn [contents query_interval_recursive].
  rewrite filter_app. cbn [filter].
  change (overlaps (lo ab i) (hi ab i) qs qe) with (overlapb ab qs qe i).
  assert (HL : Permutation (filter (overlapb ab qs qe) (contents l))
     match l with Leaf => [] | Node _ _ _ lmax _ _ =>
         if lmax >=? qs then query_interval_recursive l qs qe else [] end).
  { destruct l as [|li ls le lm ll lr]; [constructor|].
    destruct (lm >=? qs) eqn:E; [exact IHl|].
    rewrite filter_all_false; [constructor|]. intros x Hx. cbn [wf] in Wl.
    destruct Wl as [_ [_ [Wl _]]]. specialize (Wl x Hx). unfold overlapb. lia. }
  assert (HR : Permutation (filter (overlapb ab qs qe) (contents r))
     match r with Leaf => [] | Node _ _ _ rmax _ _ =>
         if (lo ab i <=? qe) && (rmax >=? qs) then query_interval_recursive r qs qe else [] end).
  { destruct r as [|ri rs re rm rl rr]; [constructor|].
    destruct ((lo ab i <=? qe) && (rm >=? qs)) eqn:E; [exact IHr|].
    rewrite filter_all_false; [constructor|]. intros x Hx.
    specialize (Hr x Hx). cbn [wf] in Wr.
    destruct Wr as [_ [_ [Wr _]]]. specialize (Wr x Hx). unfold overlapb. lia. }
  destruct (overlapb ab qs qe i).
  - cbn [app]. rewrite <- Permutation_middle. constructor. apply Permutation_app; assumption.
  - cbn [app]. apply Permutation_app; assumption.
Qed.

Definition root (ab : bool) (t : address_tree) : node :=
  if ab then absolute_root t else relative_root t.

Lemma root_ok sort infos ab : sorts sort ->
  wf ab (root ab (address_tree_new sort infos))
  /\ Permutation infos (contents (root ab (address_tree_new sort infos))).
Proof.
  intros Hsort. unfold address_tree_new. destruct infos as [|i0 rest].
  - destruct ab; split; simpl; constructor.
  - set (infos := i0 :: rest). cbv zeta.
    destruct (Hsort absolute_start infos) as [P1 S1].
    destruct (Hsort relative_start (sort absolute_start infos)) as [P2 S2].
    destruct ab; cbn [root absolute_root relative_root]; unfold build_recursive.
    + rewrite build_contents by lia. split; [|exact P1].
      apply wf_build; [lia|]. apply sorted_strong. exact S1.
    + rewrite build_contents by lia. split; [|rewrite <- P2; exact P1].
      apply wf_build; [lia|]. apply sorted_strong. exact S2.
Qed.

Lemma exactly_perm {A} (P : A -> Prop) l l' out :
  Permutation l l' -> exactly P l out -> exactly P l' out.
Proof.
  intros Hp [H1 [rest [H2 H3]]]. split; [exact H1|]. exists rest. split; [|exact H3].
  rewrite <- Hp. exact H2.
Qed.

Lemma query_address_exact sort infos a ab : sorts sort ->
  exactly (covers ab a) infos (query_address (address_tree_new sort infos) a ab).
Proof.
  intros Hs. destruct (root_ok sort infos ab Hs) as [W P].
  apply exactly_perm with (l := contents (root ab (address_tree_new sort infos))).
  - symmetry; exact P.
  - apply exactly_filter with (f := coversb ab a).
    + intros x. unfold coversb, covers. lia.
    + unfold query_address. destruct ab; apply query_filter; exact W.
Qed.

Lemma query_range_exact sort infos qs qe ab : sorts sort ->
  exactly (overlapping ab qs qe) infos
    (query_address_range (address_tree_new sort infos) qs qe ab).
Proof.
  intros Hs. destruct (root_ok sort infos ab Hs) as [W P].
  apply exactly_perm with (l := contents (root ab (address_tree_new sort infos))).
  - symmetry; exact P.
  - apply exactly_filter with (f := overlapb ab qs qe).
    + intros x. unfold overlapb, overlapping. lia.
    + unfold query_address_range. destruct ab; apply query_interval_filter; exact W.
Qed.

(** Depth of the balanced tree, for the termination/complexity companion. *)
Fixpoint depth (t : node) : nat :=
  match t with Leaf => O | Node _ _ _ _ l r => S (Nat.max (depth l) (depth r)) end.

Lemma depth_build ab : forall k n l, (length l <= n)%nat -> (length l < 2 ^ k)%nat ->
  (depth (build_fuel n ab l) <= k)%nat.
Proof.
  induction k as [|k IH]; intros n l Hn Hk.
  - simpl in Hk. assert (length l = 0)%nat by lia. destruct l; [|discriminate].
    destruct n; simpl; lia.
  - destruct n as [|n]; [simpl; lia|]. destruct l as [|i0 l0] eqn:El; [simpl; lia|].
    rewrite <- El in *. assert (Hlen : (length l > 0)%nat) by (rewrite El; simpl; lia).
    cbn [build_fuel]. rewrite El at 1. clear El l0. cbv zeta. cbn [depth].
    set (mid := Nat.div (length l) 2).
    assert (Hm : (2 * mid <= length l < 2 * mid + 2)%nat).
    { pose proof (Nat.div_mod (length l) 2). pose proof (Nat.mod_upper_bound (length l) 2). lia. }
    cbn [Nat.pow] in Hk.
    apply le_n_S, Nat.max_lub; apply IH; rewrite ?skipn_length, ?firstn_length; lia.
Qed.

(** A concrete sorting function (insertion sort), so the hypothesis [sorts] is met. *)
Fixpoint ins (key : finfo -> Z) (x : finfo) (l : list finfo) : list finfo :=
  match l with
  | [] => [x]
  | y :: l' => if key x <=? key y then x :: l else y :: ins key x l'
  end.
Definition isort (key : finfo -> Z) (l : list finfo) : list finfo := fold_right (ins key) [] l.

Lemma ins_perm key x l : Permutation (x :: l) (ins key x l).
Proof.
  induction l as [|y l IH]; simpl; [reflexivity|].
  destruct (key x <=? key y); [reflexivity|].
  rewrite perm_swap. constructor. exact IH.
Qed.
Lemma ins_sorted key x l : Sorted (fun a b => key a <= key b) l ->
  Sorted (fun a b => key a <= key b) (ins key x l).
Proof.
  induction l as [|y l IH]; simpl; intros H; [repeat constructor|].
  destruct (key x <=? key y) eqn:E.
  - constructor; [exact H | constructor; lia].
  - inversion H as [|? ? Hs Hh]; subst. constructor; [apply IH; exact Hs|].
    destruct l as [|z l]; simpl; [constructor; lia|].
    destruct (key x <=? key z) eqn:E2; constructor; [lia|].
    inversion Hh; subst; assumption.
Qed.
Lemma isort_sorts : sorts isort.
Proof.
  intros key l. induction l as [|x l [IHp IHs]]; simpl; [split; constructor|]. split.
  - rewrite <- ins_perm. constructor. exact IHp.
  - apply ins_sorted. exact IHs.
Qed.
