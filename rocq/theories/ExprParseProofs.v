From Coq Require Import Ascii String List ZArith NArith Bool Arith Lia.
From Verif Require Import Base NumText ExprModel ExprSpec.
Import ListNotations.
Open Scope nat_scope.

Scheme GType_ind' := Induction for GType Sort Prop
with GTypeArgs_ind' := Induction for GTypeArgs Sort Prop
with GTypeList_ind' := Induction for GTypeList Sort Prop.
Combined Scheme GType_mut from GType_ind', GTypeArgs_ind', GTypeList_ind'.

Scheme GUnary_ind' := Induction for GUnary Sort Prop
with GPostfix_ind' := Induction for GPostfix Sort Prop
with GPrimary_ind' := Induction for GPrimary Sort Prop
with GArgs_ind' := Induction for GArgs Sort Prop
with GArgList_ind' := Induction for GArgList Sort Prop.
Combined Scheme GExpr_mut from GUnary_ind', GPostfix_ind', GPrimary_ind', GArgs_ind', GArgList_ind'.

Ltac inv H := inversion H; subst; clear H.

(** Splits a monadic success into its steps. *)
Ltac bok H :=
  match type of H with
  | bind _ _ = Ok _ =>
    let a := fresh "a" in let H1 := fresh "H" in
    apply bind_ok in H; destruct H as [a [H1 H]];
    lazymatch type of a with (_ * _)%type => destruct a | _ => idtac end
  end.

Lemma expect_rp_inv ts r : expect_rparen ts = Ok r -> ts = TRParen :: r.
Proof. destruct ts as [|[]]; try discriminate. intros H. inv H. reflexivity. Qed.
Lemma expect_rb_inv ts r : expect_rbracket ts = Ok r -> ts = TRBracket :: r.
Proof. destruct ts as [|[]]; try discriminate. intros H. inv H. reflexivity. Qed.
Lemma expect_ra_inv ts r : expect_rangle ts = Ok r -> ts = TRAngle :: r.
Proof. destruct ts as [|[]]; try discriminate. intros H. inv H. reflexivity. Qed.

Lemma path_tail_sound ts ss r : path_tail ts = Ok (ss, r) ->
  ts = path_toks ss ++ r /\ (forall x, r <> TPathSep :: x).
Proof.
  revert ss r. induction ts as [ts IH] using (induction_ltof1 _ (@length token)).
  unfold ltof in IH. intros ss r H.
  destruct ts as [|t ts]; [inv H; split; [reflexivity | discriminate]|].
  destruct t; try (inv H; split; [reflexivity | discriminate]).
  destruct ts as [|t ts]; [discriminate|]. destruct t; try discriminate.
  cbn [path_tail] in H. bok H. inv H.
  apply IH in H0; [|simpl; lia]. destruct H0 as [-> H0]. split; [reflexivity | exact H0].
Qed.

Lemma path_tail_complete ss r : (forall x, r <> TPathSep :: x) ->
  path_tail (path_toks ss ++ r) = Ok (ss, r).
Proof.
  intros Hr. induction ss as [|s ss IH]; simpl.
  - destruct r as [|t r]; [reflexivity|]. destruct t; try reflexivity. exfalso. eapply Hr; reflexivity.
  - simpl in IH. rewrite IH. reflexivity.
Qed.

Lemma path_tail_nofuel ts : path_tail ts <> Fuel.
Proof.
  induction ts as [ts IH] using (induction_ltof1 _ (@length token)).
  unfold ltof in IH. destruct ts as [|t ts]; [discriminate|].
  destruct t; try discriminate. destruct ts as [|t ts]; [discriminate|].
  destruct t; try discriminate. cbn [path_tail].
  specialize (IH ts ltac:(simpl; lia)). destruct (path_tail ts) as [[? ?]| | |]; simpl; congruence.
Qed.
Lemma path_tail_nopanic ts m : path_tail ts <> Panic m.
Proof.
  induction ts as [ts IH] using (induction_ltof1 _ (@length token)).
  unfold ltof in IH. destruct ts as [|t ts]; [discriminate|].
  destruct t; try discriminate. destruct ts as [|t ts]; [discriminate|].
  destruct t; try discriminate. cbn [path_tail].
  specialize (IH ts ltac:(simpl; lia)). destruct (path_tail ts) as [[? ?]| | |]; simpl; congruence.
Qed.

(** ** Soundness of the type-name parser *)
Lemma type_sound : forall n,
  (forall ts s r, parse_type_name n ts = Ok (s, r) -> exists pre, ts = pre ++ r /\ GType pre s)
  /\ (forall ts l r, parse_type_arguments n ts = Ok (l, r) -> exists pre, ts = pre ++ r /\ GTypeArgs pre l)
  /\ (forall pre0 acc ts l r, GTypeList pre0 acc -> type_args_loop n acc ts = Ok (l, r) ->
        exists pre, ts = pre ++ r /\ GTypeList (pre0 ++ pre) l).
Proof.
  induction n as [|n [IH1 [IH2 IH3]]]; [repeat split; discriminate|].
  split; [|split].
  - intros ts s r H. cbn [parse_type_name] in H.
    destruct ts as [|[]]; try discriminate. bok H.
    apply path_tail_sound in H0. destruct H0 as [-> H0].
    destruct l0 as [|t l0].
    + inv H. eexists. split; [|apply GT_plain]. reflexivity.
    + destruct t; try (inv H; eexists; split; [|apply GT_plain]; reflexivity).
      bok H. apply IH2 in H1. destruct H1 as [pre [-> Hp]]. bok H.
      apply expect_ra_inv in H1. subst. inv H.
      eexists. split; [|apply GT_args; exact Hp].
      rewrite <- !app_comm_cons, <- !app_assoc, <- !app_comm_cons, <- app_assoc. reflexivity.
  - intros ts l r H. cbn [parse_type_arguments] in H.
    assert (H' : (ts = r /\ l = [] ) \/ (exists a r1, parse_type_name n ts = Ok (a, r1) /\ type_args_loop n [a] r1 = Ok (l, r))).
    { destruct ts as [|t ts']; [right; bok H; eauto|].
      destruct t; try (right; bok H; eauto; fail). inv H. left. auto. }
    destruct H' as [[-> ->]|[a [r1 [Ha Hl]]]].
    + exists []. split; [reflexivity | constructor].
    + apply IH1 in Ha. destruct Ha as [p1 [-> Ha]].
      apply (IH3 p1) in Hl; [|constructor; exact Ha]. destruct Hl as [p2 [-> Hl]].
      exists (p1 ++ p2). split; [rewrite app_assoc; reflexivity | constructor; exact Hl].
  - intros pre0 acc ts l r Hacc H. cbn [type_args_loop] in H.
    destruct ts as [|t ts]; [inv H; exists []; split; [reflexivity | rewrite app_nil_r; assumption]|].
    destruct t; try (inv H; exists []; split; [reflexivity | rewrite app_nil_r; assumption]).
    bok H. apply IH1 in H0. destruct H0 as [p1 [-> Ha]].
    apply (IH3 (pre0 ++ TComma :: p1)) in H.
    + destruct H as [p2 [-> H]]. exists (TComma :: p1 ++ p2).
      split; [simpl; rewrite app_assoc; reflexivity|].
      rewrite <- app_assoc in H. exact H.
    + constructor; assumption.
Qed.

(** ** Soundness of the expression parser *)
Definition stops_postfix (r : list token) : Prop :=
  match r with TDot :: _ | TLBracket :: _ => False | _ => True end.

Lemma expr_sound : forall n,
  (forall ts e r, parse_unary n ts = Ok (e, r) -> exists pre, ts = pre ++ r /\ GUnary pre e /\ stops_postfix r)
  /\ (forall ts e r, parse_postfix n ts = Ok (e, r) -> exists pre, ts = pre ++ r /\ GPostfix pre e /\ stops_postfix r)
  /\ (forall pre0 e0 ts e r, GPostfix pre0 e0 -> postfix_loop n e0 ts = Ok (e, r) ->
        exists pre, ts = pre ++ r /\ GPostfix (pre0 ++ pre) e /\ stops_postfix r)
  /\ (forall ts e r, parse_primary n ts = Ok (e, r) -> exists pre, ts = pre ++ r /\ GPrimary pre e)
  /\ (forall ts l r, parse_arguments n ts = Ok (l, r) -> exists pre, ts = pre ++ r /\ GArgs pre l)
  /\ (forall pre0 acc ts l r, GArgList pre0 acc -> args_loop n acc ts = Ok (l, r) ->
        exists pre, ts = pre ++ r /\ GArgList (pre0 ++ pre) l).
Proof.
  induction n as [|n [IHu [IHp [IHl [IHr [IHa IHal]]]]]]; [repeat split; discriminate|].
  split; [|split; [|split; [|split; [|split]]]].
  - (* unary *)
    intros ts e r H. cbn [parse_unary] in H.
    assert (Hp : parse_postfix n ts = Ok (e, r) -> exists pre, ts = pre ++ r /\ GUnary pre e /\ stops_postfix r).
    { intros H'. apply IHp in H'. destruct H' as [pre [-> [H1 H2]]]. exists pre.
      split; [reflexivity | split; [constructor; exact H1 | exact H2]]. }
    destruct ts as [|t ts]; [auto|]. destruct t; auto; clear Hp.
    + bok H. inv H. apply IHu in H0. destruct H0 as [pre [-> [H1 H2]]].
      exists (TStar :: pre). split; [reflexivity | split; [constructor; exact H1 | exact H2]].
    + assert (Hf : (e0 <- parse_unary n ts ;; (let '(e1, r0) := e0 in Ok (EAddressOf false e1, r0))) = Ok (e, r) ->
         exists pre, TAmp :: ts = pre ++ r /\ GUnary pre e /\ stops_postfix r).
      { intros H'. bok H'. inv H'. apply IHu in H0. destruct H0 as [pre [-> [H1 H2]]].
        exists (TAmp :: pre). split; [reflexivity | split; [constructor; exact H1 | exact H2]]. }
      destruct ts as [|t ts]; [auto|]. destruct t; auto; clear Hf.
      bok H. inv H. apply IHu in H0. destruct H0 as [pre [-> [H1 H2]]].
      exists (TAmp :: TMut :: pre). split; [reflexivity | split; [constructor; exact H1 | exact H2]].
  - (* postfix *)
    intros ts e r H. cbn [parse_postfix] in H. bok H.
    apply IHr in H0. destruct H0 as [p1 [-> H0]].
    apply (IHl p1) in H; [|constructor; exact H0]. destruct H as [p2 [-> [H1 H2]]].
    exists (p1 ++ p2). split; [rewrite app_assoc; reflexivity | split; assumption].
  - (* postfix loop *)
    intros pre0 e0 ts e r H0 H. cbn [postfix_loop] in H.
    destruct ts as [|t ts]; [inv H; exists []; split; [reflexivity | split; [rewrite app_nil_r; assumption | exact I]]|].
    destruct t; try (inv H; exists []; split; [reflexivity | split; [rewrite app_nil_r; assumption | exact I]]).
    + destruct ts as [|t ts]; [discriminate|]. destruct t; try discriminate.
      assert (Hf : postfix_loop n (EField e0 s) ts = Ok (e, r) ->
        exists pre, TDot :: TIdent s :: ts = pre ++ r /\ GPostfix (pre0 ++ pre) e /\ stops_postfix r).
      { intros H'. apply (IHl (pre0 ++ [TDot; TIdent s])) in H'; [|constructor; exact H0].
        destruct H' as [p [-> [H1 H2]]]. exists (TDot :: TIdent s :: p).
        split; [reflexivity | split; [|exact H2]]. rewrite <- app_assoc in H1. exact H1. }
      destruct ts as [|t ts]; [auto|]. destruct t; auto; clear Hf.
      bok H. apply IHa in H1. destruct H1 as [p1 [-> H1]]. bok H.
      apply expect_rp_inv in H2. subst.
      apply (IHl (pre0 ++ TDot :: TIdent s :: TLParen :: p1 ++ [TRParen])) in H; [|constructor; assumption].
      destruct H as [p [-> [H3 H4]]].
      exists (TDot :: TIdent s :: TLParen :: p1 ++ TRParen :: p).
      split; [rewrite <- !app_comm_cons, <- app_assoc; reflexivity | split; [|exact H4]].
      rewrite <- app_assoc, <- !app_comm_cons, <- app_assoc in H3. exact H3.
    + bok H. apply IHu in H1. destruct H1 as [p1 [-> [H1 _]]]. bok H.
      apply expect_rb_inv in H2. subst.
      apply (IHl (pre0 ++ TLBracket :: p1 ++ [TRBracket])) in H; [|constructor; assumption].
      destruct H as [p [-> [H3 H4]]].
      exists (TLBracket :: p1 ++ TRBracket :: p).
      split; [rewrite <- !app_comm_cons, <- app_assoc; reflexivity | split; [|exact H4]].
      rewrite <- app_assoc, <- !app_comm_cons, <- app_assoc in H3. exact H3.
  - (* primary *)
    intros ts e r H. cbn [parse_primary] in H.
    destruct ts as [|t ts]; [discriminate|]. destruct t; try discriminate.
    + bok H. apply path_tail_sound in H0. destruct H0 as [-> H0].
      assert (Hf : match l with [] => Ok (EVariable s, l0) | _ => Ok (EPath (s :: l), l0) end = Ok (e, r) ->
         exists pre, TIdent s :: path_toks l ++ l0 = pre ++ r /\ GPrimary pre e).
      { intros H'. destruct l as [|s1 l]; inv H'.
        - exists [TIdent s]. split; [reflexivity | constructor].
        - exists (TIdent s :: path_toks (s1 :: l)). split; [reflexivity | constructor]. }
      destruct l0 as [|t l0]; [auto|]. destruct t; auto; clear Hf.
      * bok H. apply IHa in H1. destruct H1 as [p1 [-> H1]]. bok H.
        apply expect_rp_inv in H2. subst. inv H.
        eexists. split; [|apply GR_call; exact H1].
        rewrite <- !app_comm_cons, <- !app_assoc, <- !app_comm_cons, <- app_assoc. reflexivity.
      * bok H. apply type_sound in H1. destruct H1 as [p1 [-> H1]]. bok H.
        apply expect_ra_inv in H2. subst. inv H.
        eexists. split; [|apply GR_generic; exact H1].
        rewrite <- !app_comm_cons, <- !app_assoc, <- !app_comm_cons, <- app_assoc. reflexivity.
    + inv H. exists [TNumber v]. split; [reflexivity | constructor].
    + inv H. exists [TString s]. split; [reflexivity | constructor].
    + bok H. apply IHu in H0. destruct H0 as [p1 [-> [H0 _]]]. bok H.
      apply expect_rp_inv in H1. subst. inv H.
      exists (TLParen :: p1 ++ [TRParen]). split; [rewrite <- app_comm_cons, <- app_assoc; reflexivity | constructor; exact H0].
  - (* arguments *)
    intros ts l r H. cbn [parse_arguments] in H.
    assert (H' : (ts = r /\ l = [] ) \/ (exists a r1, parse_unary n ts = Ok (a, r1) /\ args_loop n [a] r1 = Ok (l, r))).
    { destruct ts as [|t ts']; [right; bok H; eauto|].
      destruct t; try (right; bok H; eauto; fail). inv H. left. auto. }
    destruct H' as [[-> ->]|[a [r1 [Ha Hl]]]].
    + exists []. split; [reflexivity | constructor].
    + apply IHu in Ha. destruct Ha as [p1 [-> [Ha _]]].
      apply (IHal p1) in Hl; [|constructor; exact Ha]. destruct Hl as [p2 [-> Hl]].
      exists (p1 ++ p2). split; [rewrite app_assoc; reflexivity | constructor; exact Hl].
  - (* arguments loop *)
    intros pre0 acc ts l r Hacc H. cbn [args_loop] in H.
    destruct ts as [|t ts]; [inv H; exists []; split; [reflexivity | rewrite app_nil_r; assumption]|].
    destruct t; try (inv H; exists []; split; [reflexivity | rewrite app_nil_r; assumption]).
    bok H. apply IHu in H0. destruct H0 as [p1 [-> [Ha _]]].
    apply (IHal (pre0 ++ TComma :: p1)) in H.
    + destruct H as [p2 [-> H]]. exists (TComma :: p1 ++ p2).
      split; [simpl; rewrite app_assoc; reflexivity|].
      rewrite <- app_assoc in H. exact H.
    + constructor; assumption.
Qed.

(** Every derivation consumes at least one token. *)
Lemma gtype_nonempty : (forall ts s, GType ts s -> ts <> []) .
Proof. intros ts s H. inv H; discriminate. Qed.
Lemma gexpr_nonempty :
  (forall ts e, GUnary ts e -> ts <> []) /\ (forall ts e, GPostfix ts e -> ts <> [])
  /\ (forall ts e, GPrimary ts e -> ts <> []) /\ (forall ts l, GArgs ts l -> True)
  /\ (forall ts l, GArgList ts l -> ts <> []).
Proof.
  apply GExpr_mut; intros; try discriminate; try exact I; try assumption;
    try (intros HH; apply app_eq_nil in HH; destruct HH; discriminate).
Qed.

Lemma unary_shorter n ts e r : parse_unary n ts = Ok (e, r) -> length r < length ts.
Proof.
  intros H. apply expr_sound in H. destruct H as [pre [-> [H _]]].
  apply gexpr_nonempty in H. rewrite app_length. destruct pre; [congruence | simpl; lia].
Qed.
Lemma primary_shorter n ts e r : parse_primary n ts = Ok (e, r) -> length r < length ts.
Proof.
  intros H. apply expr_sound in H. destruct H as [pre [-> H]].
  apply gexpr_nonempty in H. rewrite app_length. destruct pre; [congruence | simpl; lia].
Qed.
Lemma args_shorter n ts l r : parse_arguments n ts = Ok (l, r) -> length r <= length ts.
Proof. intros H. apply expr_sound in H. destruct H as [pre [-> H]]. rewrite app_length. lia. Qed.
Lemma tname_shorter n ts s r : parse_type_name n ts = Ok (s, r) -> length r < length ts.
Proof.
  intros H. apply type_sound in H. destruct H as [pre [-> H]].
  apply gtype_nonempty in H. rewrite app_length. destruct pre; [congruence | simpl; lia].
Qed.
Lemma targs_shorter n ts l r : parse_type_arguments n ts = Ok (l, r) -> length r <= length ts.
Proof. intros H. apply type_sound in H. destruct H as [pre [-> H]]. rewrite app_length. lia. Qed.
Lemma path_tail_shorter ts ss r : path_tail ts = Ok (ss, r) -> length r <= length ts.
Proof. intros H. apply path_tail_sound in H. destruct H as [-> _]. rewrite app_length. lia. Qed.

(** ** The fuel is enough, and the parser never panics *)
Definition good {A} (r : res A) : Prop := match r with Fuel | Panic _ => False | _ => True end.

Lemma good_bind {A B} (r : res A) (k : A -> res B) :
  good r -> (forall a, r = Ok a -> good (k a)) -> good (bind r k).
Proof. destruct r; simpl; auto. Qed.

Lemma expect_rp_good ts : good (expect_rparen ts).
Proof. destruct ts as [|[]]; exact I. Qed.
Lemma expect_rb_good ts : good (expect_rbracket ts).
Proof. destruct ts as [|[]]; exact I. Qed.
Lemma expect_ra_good ts : good (expect_rangle ts).
Proof. destruct ts as [|[]]; exact I. Qed.
Lemma expect_rp_len ts r : expect_rparen ts = Ok r -> length ts = S (length r).
Proof. destruct ts as [|[]]; try discriminate. intros H. inv H. reflexivity. Qed.
Lemma expect_rb_len ts r : expect_rbracket ts = Ok r -> length ts = S (length r).
Proof. destruct ts as [|[]]; try discriminate. intros H. inv H. reflexivity. Qed.
Lemma expect_ra_len ts r : expect_rangle ts = Ok r -> length ts = S (length r).
Proof. destruct ts as [|[]]; try discriminate. intros H. inv H. reflexivity. Qed.
Lemma path_tail_good ts : good (path_tail ts).
Proof.
  destruct (path_tail ts) eqn:E; try exact I.
  - exact (path_tail_nopanic _ _ E).
  - exact (path_tail_nofuel _ E).
Qed.

Lemma type_good : forall n,
  (forall ts, 6 * length ts + 1 <= n -> good (parse_type_name n ts))
  /\ (forall ts, 6 * length ts + 2 <= n -> good (parse_type_arguments n ts))
  /\ (forall acc ts, 6 * length ts + 1 <= n -> good (type_args_loop n acc ts)).
Proof.
  induction n as [|n [IH1 [IH2 IH3]]]; [repeat split; intros; lia|].
  split; [|split].
  - intros ts Hn. cbn [parse_type_name]. destruct ts as [|[]]; try exact I. simpl length in Hn.
    apply good_bind; [apply path_tail_good|]. intros [tl r] H. apply path_tail_shorter in H.
    destruct r as [|[] r]; try exact I. simpl length in H.
    apply good_bind; [apply IH2; lia|]. intros [l r1] H1. apply targs_shorter in H1.
    apply good_bind; [apply expect_ra_good | intros; exact I].
  - intros ts Hn. cbn [parse_type_arguments].
    assert (Hg : good ('(a, r) <- parse_type_name n ts;; type_args_loop n [a] r)).
    { apply good_bind; [apply IH1; lia|]. intros [a r] H. apply tname_shorter in H. apply IH3. lia. }
    destruct ts as [|[]]; auto. exact I.
  - intros acc ts Hn. cbn [type_args_loop]. destruct ts as [|[]]; try exact I. simpl length in Hn.
    apply good_bind; [apply IH1; lia|]. intros [a r] H. apply tname_shorter in H. apply IH3. lia.
Qed.

Lemma expr_good : forall n,
  (forall ts, 6 * length ts + 3 <= n -> good (parse_unary n ts))
  /\ (forall ts, 6 * length ts + 2 <= n -> good (parse_postfix n ts))
  /\ (forall e ts, 6 * length ts + 1 <= n -> good (postfix_loop n e ts))
  /\ (forall ts, 6 * length ts + 1 <= n -> good (parse_primary n ts))
  /\ (forall ts, 6 * length ts + 4 <= n -> good (parse_arguments n ts))
  /\ (forall acc ts, 6 * length ts + 1 <= n -> good (args_loop n acc ts)).
Proof.
  induction n as [|n [IHu [IHp [IHl [IHr [IHa IHal]]]]]]; [repeat split; intros; lia|].
  split; [|split; [|split; [|split; [|split]]]].
  - intros ts Hn. cbn [parse_unary].
    assert (Hg : good (parse_postfix n ts)) by (apply IHp; lia).
    destruct ts as [|t ts]; [exact Hg|]. simpl length in Hn.
    assert (Hs : good (parse_unary n ts)) by (apply IHu; lia).
    destruct t; auto; clear Hg.
    + apply good_bind; [exact Hs | intros [? ?] _; exact I].
    + assert (Hf : good ('(e, r) <- parse_unary n ts;; Ok (EAddressOf false e, r)))
        by (apply good_bind; [exact Hs | intros [? ?] _; exact I]).
      destruct ts as [|t ts]; [exact Hf|]. destruct t; auto; clear Hf. simpl length in Hn.
      apply good_bind; [apply IHu; lia | intros [? ?] _; exact I].
  - intros ts Hn. cbn [parse_postfix]. apply good_bind; [apply IHr; lia|].
    intros [e r] H. apply primary_shorter in H. apply IHl. lia.
  - intros e ts Hn. cbn [postfix_loop]. destruct ts as [|t ts]; [exact I|]. simpl length in Hn.
    destruct t; try exact I.
    + destruct ts as [|t ts]; [exact I|]. simpl length in Hn. destruct t; try exact I.
      assert (Hf : good (postfix_loop n (EField e s) ts)) by (apply IHl; lia).
      destruct ts as [|t ts]; [exact Hf|]. simpl length in Hn. destruct t; auto; clear Hf.
      apply good_bind; [apply IHa; lia|]. intros [args r] H. apply args_shorter in H.
      apply good_bind; [apply expect_rp_good|]. intros r1 H1. apply expect_rp_len in H1.
      apply IHl. lia.
    + apply good_bind; [apply IHu; lia|]. intros [i r] H. apply unary_shorter in H.
      apply good_bind; [apply expect_rb_good|]. intros r1 H1. apply expect_rb_len in H1.
      apply IHl. lia.
  - intros ts Hn. cbn [parse_primary]. destruct ts as [|t ts]; [exact I|]. simpl length in Hn.
    destruct t; try exact I.
    + apply good_bind; [apply path_tail_good|]. intros [tl r] H. apply path_tail_shorter in H.
      assert (Hf : good (match tl with [] => Ok (EVariable s, r) | _ => Ok (EPath (s :: tl), r) end))
        by (destruct tl; exact I).
      destruct r as [|t r]; [exact Hf|]. simpl length in H. destruct t; auto; clear Hf.
      * apply good_bind; [apply IHa; lia|]. intros [args r1] H1.
        apply good_bind; [apply expect_rp_good | intros; exact I].
      * apply good_bind; [apply type_good; lia|]. intros [args r1] H1.
        apply good_bind; [apply expect_ra_good | intros; exact I].
    + apply good_bind; [apply IHu; lia|]. intros [e r] H.
      apply good_bind; [apply expect_rp_good | intros; exact I].
  - intros ts Hn. cbn [parse_arguments].
    assert (Hg : good ('(a, r) <- parse_unary n ts;; args_loop n [a] r)).
    { apply good_bind; [apply IHu; lia|]. intros [a r] H. apply unary_shorter in H. apply IHal. lia. }
    destruct ts as [|[]]; auto. exact I.
  - intros acc ts Hn. cbn [args_loop]. destruct ts as [|[]]; try exact I. simpl length in Hn.
    apply good_bind; [apply IHu; lia|]. intros [a r] H. apply unary_shorter in H. apply IHal. lia.
Qed.

Lemma parse_tokens_good ts : good (parse_tokens ts).
Proof.
  unfold parse_tokens, parse_fuel. apply good_bind.
  - apply expr_good. lia.
  - intros [e r] _. exact I.
Qed.

(** ** Fuel monotonicity *)
Lemma mono_bind {A B} (r r' : res A) (k k' : A -> res B) :
  (r <> Fuel -> r' = r) -> (forall a, k a <> Fuel -> k' a = k a) ->
  bind r k <> Fuel -> bind r' k' = bind r k.
Proof.
  intros H1 H2 H. destruct r; simpl in *; try (rewrite H1 by discriminate; simpl; auto); congruence.
Qed.

Lemma type_mono : forall n m, n <= m ->
  (forall ts, parse_type_name n ts <> Fuel -> parse_type_name m ts = parse_type_name n ts)
  /\ (forall ts, parse_type_arguments n ts <> Fuel -> parse_type_arguments m ts = parse_type_arguments n ts)
  /\ (forall acc ts, type_args_loop n acc ts <> Fuel -> type_args_loop m acc ts = type_args_loop n acc ts).
Proof.
  induction n as [|n IH]; intros m Hm; [repeat split; intros; exfalso; auto|].
  destruct m as [|m]; [lia|]. destruct (IH m ltac:(lia)) as [IH1 [IH2 IH3]].
  split; [|split].
  - intros ts H. cbn [parse_type_name] in *. destruct ts as [|[]]; auto.
    apply mono_bind; [auto| |exact H]. intros [tl r] Hk. destruct r as [|[] r]; auto.
    apply mono_bind; [apply IH2| |exact Hk]. intros [l r1] Hk1. auto.
  - intros ts H. cbn [parse_type_arguments] in *.
    assert (Hg : ('(a, r) <- parse_type_name n ts;; type_args_loop n [a] r) <> Fuel ->
      ('(a, r) <- parse_type_name m ts;; type_args_loop m [a] r) = ('(a, r) <- parse_type_name n ts;; type_args_loop n [a] r)).
    { intros H'. apply mono_bind; [apply IH1| |exact H']. intros [a r] Hk. apply IH3. exact Hk. }
    destruct ts as [|[]]; auto.
  - intros acc ts H. cbn [type_args_loop] in *. destruct ts as [|[]]; auto.
    apply mono_bind; [apply IH1| |exact H]. intros [a r] Hk. apply IH3. exact Hk.
Qed.

Lemma expr_mono : forall n m, n <= m ->
  (forall ts, parse_unary n ts <> Fuel -> parse_unary m ts = parse_unary n ts)
  /\ (forall ts, parse_postfix n ts <> Fuel -> parse_postfix m ts = parse_postfix n ts)
  /\ (forall e ts, postfix_loop n e ts <> Fuel -> postfix_loop m e ts = postfix_loop n e ts)
  /\ (forall ts, parse_primary n ts <> Fuel -> parse_primary m ts = parse_primary n ts)
  /\ (forall ts, parse_arguments n ts <> Fuel -> parse_arguments m ts = parse_arguments n ts)
  /\ (forall acc ts, args_loop n acc ts <> Fuel -> args_loop m acc ts = args_loop n acc ts).
Proof.
  induction n as [|n IH]; intros m Hm; [repeat split; intros; exfalso; auto|].
  destruct m as [|m]; [lia|]. destruct (IH m ltac:(lia)) as [IHu [IHp [IHl [IHr [IHa IHal]]]]].
  split; [|split; [|split; [|split; [|split]]]].
  - intros ts H. cbn [parse_unary] in *.
    destruct ts as [|t ts]; [apply IHp; exact H|].
    destruct t; try (apply IHp; exact H).
    + apply mono_bind; [apply IHu| |exact H]. intros [? ?] _; reflexivity.
    + destruct ts as [|t ts]; [apply mono_bind; [apply IHu| |exact H]; intros [? ?] _; reflexivity|].
      destruct t; (apply mono_bind; [apply IHu| |exact H]; intros [? ?] _; reflexivity).
  - intros ts H. cbn [parse_postfix] in *. apply mono_bind; [apply IHr| |exact H].
    intros [e r] Hk. apply IHl. exact Hk.
  - intros e ts H. cbn [postfix_loop] in *. destruct ts as [|t ts]; [reflexivity|].
    destruct t; try reflexivity.
    + destruct ts as [|t ts]; [reflexivity|]. destruct t; try reflexivity.
      destruct ts as [|t ts]; [apply IHl; exact H|]. destruct t; try (apply IHl; exact H).
      apply mono_bind; [apply IHa| |exact H]. intros [args r] Hk.
      apply mono_bind; [auto| |exact Hk]. intros r1 Hk1. apply IHl. exact Hk1.
    + apply mono_bind; [apply IHu| |exact H]. intros [i r] Hk.
      apply mono_bind; [auto| |exact Hk]. intros r1 Hk1. apply IHl. exact Hk1.
  - intros ts H. cbn [parse_primary] in *. destruct ts as [|t ts]; [reflexivity|].
    destruct t; try reflexivity.
    + apply mono_bind; [auto| |exact H]. intros [tl r] Hk. cbv zeta in *.
      destruct r as [|t r]; [reflexivity|]. destruct t; try reflexivity.
      * apply mono_bind; [apply IHa| |exact Hk]. intros [? ?] _; reflexivity.
      * apply mono_bind; [apply type_mono; lia| |exact Hk]. intros [? ?] _; reflexivity.
    + apply mono_bind; [apply IHu| |exact H]. intros [? ?] _; reflexivity.
  - intros ts H. cbn [parse_arguments] in *.
    assert (Hg : ('(a, r) <- parse_unary n ts;; args_loop n [a] r) <> Fuel ->
      ('(a, r) <- parse_unary m ts;; args_loop m [a] r) = ('(a, r) <- parse_unary n ts;; args_loop n [a] r)).
    { intros H'. apply mono_bind; [apply IHu| |exact H']. intros [a r] Hk. apply IHal. exact Hk. }
    destruct ts as [|[]]; auto.
  - intros acc ts H. cbn [args_loop] in *. destruct ts as [|[]]; auto.
    apply mono_bind; [apply IHu| |exact H]. intros [a r] Hk. apply IHal. exact Hk.
Qed.

(** ** Completeness *)
Definition tstops (r : list token) : Prop :=
  match r with TPathSep :: _ | TLAngle :: _ => False | _ => True end.
Definition pstops (r : list token) : Prop :=
  match r with TPathSep :: _ | TLAngle :: _ | TLParen :: _ => False | _ => True end.

Lemma tstops_path r : tstops r -> forall x, r <> TPathSep :: x.
Proof. intros H x ->. exact H. Qed.
Lemma pstops_t r : pstops r -> tstops r.
Proof. destruct r as [|[]]; simpl; auto. Qed.

(** "parsing yields [v] for all large enough fuel". *)
Definition ev {A} (f : nat -> res A) (v : res A) : Prop := exists n0, forall n, n0 <= n -> f n = v.

Lemma type_complete :
  (forall ts s, GType ts s -> forall rest, tstops rest ->
      ev (fun n => parse_type_name n (ts ++ rest)) (Ok (s, rest)))
  /\ (forall ts l, GTypeArgs ts l -> forall rest,
      ev (fun n => parse_type_arguments n (ts ++ TRAngle :: rest)) (Ok (l, TRAngle :: rest)))
  /\ (forall ts l, GTypeList ts l -> (forall x, ts <> TRAngle :: x) /\ ts <> [] /\ forall rest, tstops rest ->
      exists k n0, forall n, n0 <= n -> k < n /\
        parse_type_arguments n (ts ++ rest) = type_args_loop (n - k) l rest).
Proof.
  apply GType_mut.
  - intros name tail rest Hr. exists 1. intros n Hn. destruct n as [|n]; [lia|].
    cbn [app parse_type_name]. rewrite path_tail_complete by (apply tstops_path; exact Hr).
    cbn [bind]. destruct rest as [|[]]; try reflexivity. destruct Hr.
  - intros name tail ats args _ IH rest Hr. destruct (IH rest) as [n0 H0].
    exists (S n0). intros n Hn. destruct n as [|n]; [lia|].
    cbn [app parse_type_name]. rewrite <- app_assoc. rewrite path_tail_complete by discriminate.
    cbn [bind app]. rewrite <- app_assoc. cbn [app]. rewrite H0 by lia. reflexivity.
  - intros rest. exists 1. intros n Hn. destruct n as [|n]; [lia|]. reflexivity.
  - intros ts args _ [Hhd [Hne IH]] rest. destruct (IH (TRAngle :: rest) I) as [k [n0 H0]].
    exists (S n0). intros n Hn. destruct (H0 n ltac:(lia)) as [Hk ->].
    destruct (n - k) as [|m] eqn:E; [lia|]. reflexivity.
  - intros ts a Ht IH. split; [|split].
    + intros x ->. inv Ht.
    + apply gtype_nonempty in Ht. exact Ht.
    + intros rest Hr. destruct (IH rest Hr) as [n0 H0].
      exists 1, (S (S n0)). intros n Hn. split; [lia|]. destruct n as [|n]; [lia|].
      cbn [parse_type_arguments]. rewrite H0 by lia. cbn [bind].
      replace (S n - 1) with n by lia.
      inv Ht; reflexivity.
  - intros ts l ts' a Hl [Hhd [Hne IHl]] Ht IHt. split; [|split].
    + intros x Hx. destruct ts as [|t ts]; [congruence|]. simpl in Hx. injection Hx as -> _. eapply Hhd; reflexivity.
    + intros Hx. apply app_eq_nil in Hx. destruct Hx; congruence.
    + intros rest Hr. rewrite <- app_assoc. cbn [app].
      destruct (IHl (TComma :: ts' ++ rest) I) as [k [n0 H0]].
      destruct (IHt rest Hr) as [n1 H1].
      exists (S k), (n0 + n1 + k + 2). intros n Hn. split; [lia|].
      destruct (H0 n ltac:(lia)) as [Hk ->].
      replace (n - k) with (S (n - S k)) by lia. cbn [type_args_loop].
      rewrite H1 by lia. reflexivity.
Qed.

Lemma gtypeargs_complete ts l rest : GTypeArgs ts l ->
  ev (fun n => parse_type_arguments n (ts ++ TRAngle :: rest)) (Ok (l, TRAngle :: rest)).
Proof. intros H. apply (proj1 (proj2 type_complete)); exact H. Qed.

Lemma expr_complete :
  (forall ts e, GUnary ts e -> forall rest, stops rest ->
      ev (fun n => parse_unary n (ts ++ rest)) (Ok (e, rest)))
  /\ (forall ts e, GPostfix ts e -> (forall x, ts <> TStar :: x) /\ (forall x, ts <> TAmp :: x) /\ forall rest, pstops rest ->
      exists k n0, forall n, n0 <= n -> k < n /\
        parse_postfix n (ts ++ rest) = postfix_loop (n - k) e rest)
  /\ (forall ts e, GPrimary ts e -> (forall x, ts <> TStar :: x) /\ (forall x, ts <> TAmp :: x) /\ forall rest, pstops rest ->
      ev (fun n => parse_primary n (ts ++ rest)) (Ok (e, rest)))
  /\ (forall ts l, GArgs ts l -> forall rest,
      ev (fun n => parse_arguments n (ts ++ TRParen :: rest)) (Ok (l, TRParen :: rest)))
  /\ (forall ts l, GArgList ts l -> (forall x, ts <> TRParen :: x) /\ forall rest, stops rest ->
      exists k n0, forall n, n0 <= n -> k < n /\
        parse_arguments n (ts ++ rest) = args_loop (n - k) l rest).
Proof.
  assert (Hpre : forall (t : token) (ts tl : list token), ts <> [] ->
     (forall x, ts <> t :: x) -> forall x, ts ++ tl <> t :: x).
  { intros t ts tl Hne Hhd x Hx. destruct ts as [|t0 ts]; [congruence|]. simpl in Hx.
    injection Hx as -> _. eapply Hhd; reflexivity. }
  apply GExpr_mut.
  - intros ts e _ IH rest Hr. destruct (IH rest Hr) as [n0 H0]. exists (S n0). intros n Hn.
    destruct n as [|n]; [lia|]. cbn [app parse_unary]. rewrite H0 by lia. reflexivity.
  - intros ts e Hu IH rest Hr. destruct (IH rest Hr) as [n0 H0]. exists (S n0). intros n Hn.
    destruct n as [|n]; [lia|]. cbn [app parse_unary]. rewrite H0 by lia.
    destruct (ts ++ rest) as [|t x] eqn:E; [reflexivity|]. destruct t; try reflexivity.
    (* a unary expression never starts with `mut` *)
    exfalso. specialize (H0 (S (S (S (S n0)))) ltac:(lia)). cbn in H0. discriminate.
  - intros ts e _ IH rest Hr. destruct (IH rest Hr) as [n0 H0]. exists (S n0). intros n Hn.
    destruct n as [|n]; [lia|]. cbn [app parse_unary]. rewrite H0 by lia. reflexivity.
  - intros ts e Hp [Hs [Ha IH]] rest Hr.
    destruct (IH rest) as [k [n0 H0]]; [destruct rest as [|[]]; simpl in *; auto; discriminate|].
    exists (S (S n0)). intros n Hn. destruct n as [|n]; [lia|].
    destruct (H0 n ltac:(lia)) as [Hk E].
    assert (Hv : postfix_loop (n - k) e rest = Ok (e, rest)).
    { destruct (n - k) as [|m] eqn:Em; [lia|]. destruct rest as [|[]]; simpl in *; try reflexivity; discriminate. }
    cbn [parse_unary]. rewrite <- Hv, <- E. apply gexpr_nonempty in Hp.
    destruct ts as [|t ts]; [congruence|]. cbn [app].
    destruct t; try reflexivity; exfalso; [eapply Hs | eapply Ha]; reflexivity.
  - (* postfix: primary *)
    intros ts e _ [Hs [Ha IH]]. split; [exact Hs|]. split; [exact Ha|]. intros rest Hr.
    destruct (IH rest Hr) as [n0 H0]. exists 1, (S (S n0)). intros n Hn. split; [lia|].
    destruct n as [|n]; [lia|]. cbn [parse_postfix]. rewrite H0 by lia. cbn [bind].
    replace (S n - 1) with n by lia. reflexivity.
  - (* field *)
    intros ts e f Hp [Hs [Ha IH]]. apply gexpr_nonempty in Hp.
    split; [apply Hpre; assumption|]. split; [apply Hpre; assumption|]. intros rest Hr.
    destruct (IH (TDot :: TIdent f :: rest) I) as [k [n0 H0]].
    exists (S k), (S (S (n0 + k))). intros n Hn. split; [lia|].
    destruct (H0 n ltac:(lia)) as [Hk E]. rewrite <- app_assoc. cbn [app]. rewrite E.
    replace (n - k) with (S (n - S k)) by lia. cbn [postfix_loop].
    destruct rest as [|[]]; try reflexivity; destruct Hr.
  - (* method *)
    intros ts e m ats args Hp [Hs [Ha IH]] _ IHa. apply gexpr_nonempty in Hp.
    split; [apply Hpre; assumption|]. split; [apply Hpre; assumption|]. intros rest Hr.
    destruct (IH (TDot :: TIdent m :: TLParen :: ats ++ TRParen :: rest) I) as [k [n0 H0]].
    destruct (IHa rest) as [n1 H1].
    exists (S k), (n0 + n1 + k + 2). intros n Hn. split; [lia|].
    destruct (H0 n ltac:(lia)) as [Hk E]. rewrite <- app_assoc. cbn [app].
    rewrite <- app_assoc. cbn [app]. rewrite E.
    replace (n - k) with (S (n - S k)) by lia. cbn [postfix_loop].
    rewrite H1 by lia. reflexivity.
  - (* index *)
    intros ts e its i Hp [Hs [Ha IH]] _ IHi. apply gexpr_nonempty in Hp.
    split; [apply Hpre; assumption|]. split; [apply Hpre; assumption|]. intros rest Hr.
    destruct (IH (TLBracket :: its ++ TRBracket :: rest) I) as [k [n0 H0]].
    destruct (IHi (TRBracket :: rest) eq_refl) as [n1 H1].
    exists (S k), (n0 + n1 + k + 2). intros n Hn. split; [lia|].
    destruct (H0 n ltac:(lia)) as [Hk E]. rewrite <- app_assoc. cbn [app].
    rewrite <- app_assoc. cbn [app]. rewrite E.
    replace (n - k) with (S (n - S k)) by lia. cbn [postfix_loop].
    rewrite H1 by lia. reflexivity.
  - (* var *)
    intros name. split; [discriminate|]. split; [discriminate|]. intros rest Hr.
    exists 1. intros n Hn. destruct n as [|n]; [lia|]. cbn [app parse_primary].
    pose proof (path_tail_complete [] rest (tstops_path _ (pstops_t _ Hr))) as Hpt.
    simpl in Hpt. rewrite Hpt. cbn [bind]. destruct rest as [|[]]; try reflexivity; destruct Hr.
  - (* path *)
    intros name s tail. split; [discriminate|]. split; [discriminate|]. intros rest Hr.
    exists 1. intros n Hn. destruct n as [|n]; [lia|]. cbn [app parse_primary].
    rewrite path_tail_complete by (apply tstops_path, pstops_t; exact Hr).
    cbn [bind]. destruct rest as [|[]]; try reflexivity; destruct Hr.
  - (* generic *)
    intros name tail ats args Hg. split; [discriminate|]. split; [discriminate|]. intros rest Hr.
    destruct (gtypeargs_complete _ _ rest Hg) as [n0 H0].
    exists (S n0). intros n Hn. destruct n as [|n]; [lia|]. cbn [app parse_primary].
    rewrite <- app_assoc. rewrite path_tail_complete by discriminate.
    cbn [bind app]. rewrite <- app_assoc. cbn [app]. rewrite H0 by lia. reflexivity.
  - (* call *)
    intros name tail ats args _ IHa. split; [discriminate|]. split; [discriminate|]. intros rest Hr.
    destruct (IHa rest) as [n0 H0].
    exists (S n0). intros n Hn. destruct n as [|n]; [lia|]. cbn [app parse_primary].
    rewrite <- app_assoc. rewrite path_tail_complete by discriminate.
    cbn [bind app]. rewrite <- app_assoc. cbn [app]. rewrite H0 by lia. reflexivity.
  - intros v. split; [discriminate|]. split; [discriminate|]. intros rest Hr.
    exists 1. intros n Hn. destruct n as [|n]; [lia|]. reflexivity.
  - intros s. split; [discriminate|]. split; [discriminate|]. intros rest Hr.
    exists 1. intros n Hn. destruct n as [|n]; [lia|]. reflexivity.
  - (* paren *)
    intros ts e _ IH. split; [discriminate|]. split; [discriminate|]. intros rest Hr.
    destruct (IH (TRParen :: rest) eq_refl) as [n0 H0].
    exists (S n0). intros n Hn. destruct n as [|n]; [lia|]. cbn [app parse_primary].
    rewrite <- app_assoc. cbn [app]. rewrite H0 by lia. reflexivity.
  - (* args none *)
    intros rest. exists 1. intros n Hn. destruct n as [|n]; [lia|]. reflexivity.
  - (* args some *)
    intros ts args _ [Hhd IH] rest. destruct (IH (TRParen :: rest) eq_refl) as [k [n0 H0]].
    exists (S n0). intros n Hn. destruct (H0 n ltac:(lia)) as [Hk ->].
    destruct (n - k) as [|m] eqn:E; [lia|]. reflexivity.
  - (* one *)
    intros ts e Hu IH.
    assert (Hhd : forall x, ts <> TRParen :: x).
    { intros x ->. destruct (IH [TEof] eq_refl) as [n0 H0].
      specialize (H0 (S (S (S (S n0)))) ltac:(lia)). cbn in H0. discriminate. }
    split; [exact Hhd|].
    intros rest Hr. destruct (IH rest Hr) as [n0 H0].
    exists 1, (S (S n0)). intros n Hn. split; [lia|]. destruct n as [|n]; [lia|].
    cbn [parse_arguments]. rewrite H0 by lia. cbn [bind]. replace (S n - 1) with n by lia.
    apply gexpr_nonempty in Hu. destruct ts as [|t ts]; [congruence|]. cbn [app].
    destruct t; try reflexivity. exfalso. eapply Hhd. reflexivity.
  - (* more *)
    intros ts l ts' e Hl [Hhd IHl] _ IHe. apply gexpr_nonempty in Hl.
    split; [apply Hpre; assumption|].
    intros rest Hr. rewrite <- app_assoc. cbn [app].
    destruct (IHl (TComma :: ts' ++ rest) eq_refl) as [k [n0 H0]].
    destruct (IHe rest Hr) as [n1 H1].
    exists (S k), (n0 + n1 + k + 2). intros n Hn. split; [lia|].
    destruct (H0 n ltac:(lia)) as [Hk ->].
    replace (n - k) with (S (n - S k)) by lia. cbn [args_loop].
    rewrite H1 by lia. reflexivity.
Qed.

Lemma parse_unary_complete ts e rest n : GUnary ts e -> stops rest ->
  6 * length (ts ++ rest) + 3 <= n -> parse_unary n (ts ++ rest) = Ok (e, rest).
Proof.
  intros H Hr Hn. destruct (proj1 expr_complete ts e H rest Hr) as [n0 H0].
  pose proof (proj1 (expr_good n) (ts ++ rest) Hn) as Hg.
  rewrite <- (H0 (max n n0)) by lia. symmetry.
  apply (proj1 (expr_mono n (max n n0) ltac:(lia))).
  intros E. rewrite E in Hg. exact Hg.
Qed.

Lemma parse_tokens_complete ts e rest : GUnary ts e -> stops rest ->
  parse_tokens (ts ++ rest) = Ok e.
Proof.
  intros H Hr. unfold parse_tokens. rewrite (parse_unary_complete ts e rest); [reflexivity|exact H|exact Hr|].
  unfold parse_fuel. lia.
Qed.

Lemma parse_tokens_sound ts e : parse_tokens ts = Ok e ->
  exists pre rest, ts = pre ++ rest /\ GUnary pre e
    /\ match rest with TDot :: _ | TLBracket :: _ => False | _ => True end.
Proof.
  unfold parse_tokens. intros H. bok H. inv H. apply expr_sound in H0.
  destruct H0 as [pre [-> [H1 H2]]]. exists pre, l. auto.
Qed.

Lemma grammar_deterministic ts e1 e2 : GUnary ts e1 -> GUnary ts e2 -> e1 = e2.
Proof.
  intros H1 H2. apply (parse_tokens_complete ts _ []) in H1; [|exact I].
  apply (parse_tokens_complete ts _ []) in H2; [|exact I]. congruence.
Qed.
