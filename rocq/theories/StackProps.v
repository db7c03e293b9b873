(** C132: how deep an expression may nest. *)
From Coq Require Import Ascii String List ZArith NArith Lia Bool.
From Verif Require Import Base NumText ExprModel ExprLexProofs ExprProps StackModel.
Import ListNotations.
Open Scope nat_scope.

(** ** Specification: the tokens that nest: opening brackets and prefix operators. *)
Definition nests (t : token) : bool := match t with TLParen | TLBracket | TLAngle | TStar | TAmp => true | _ => false end.
Definition nesting (ts : list token) : nat := List.length (filter nests ts).

(** ** Proofs *)
Definition opens := fix opens (ts : list token) : nat := match ts with [] => 0 | t :: r => (if nests t then 1 else 0) + opens r end.
Lemma opens_nesting ts : opens ts = nesting ts.
Proof. unfold nesting. induction ts as [|t ts IH]; cbn [opens filter]; [reflexivity|]. destruct (nests t); cbn [List.length]; rewrite IH; reflexivity. Qed.
Lemma opens_cons t r : opens (t :: r) = (if nests t then 1 else 0) + opens r.
Proof. reflexivity. Qed.
Definition fits {A} (c : nat) (F : nat -> list token -> frames (A * list token)) (f : list token -> res (A * list token)) : Prop :=
  forall d ts, 4 * opens ts + c <= d -> F d ts = Some (f ts) /\ forall a r, f ts = Ok (a, r) -> opens r <= opens ts.
Lemma path_tail_opens n : forall ts l r, List.length ts <= n -> path_tail ts = Ok (l, r) -> opens r <= opens ts.
Proof.
  induction n as [|n IH]; intros ts l r Hn E.
  - destruct ts; [|cbn in Hn; lia]. cbn in E. inversion E; subst. lia.
  - destruct ts as [|t ts]; [cbn in E; inversion E; subst; lia|]. cbn [List.length] in Hn.
    destruct t; cbn [path_tail] in E; try (inversion E; subst; lia).
    destruct ts as [|t ts]; [discriminate|]. destruct t; try discriminate. cbn [bind] in E.
    destruct (path_tail ts) as [[l2 r2]|m|m|] eqn:E2; cbn in E; try discriminate. inversion E; subst.
    cbn [List.length] in Hn. apply IH in E2; [|lia]. rewrite !opens_cons. cbn [nests]. lia.
Qed.
Ltac count := rewrite ?opens_cons in *; cbn [nests] in *; lia.
(** One call: by the hypothesis [H] about the function called. *)
Ltac call H r :=
  let E := fresh "E" in let S := fresh "S" in
  match goal with |- context [fbind (?F ?n ?d r) _] => destruct (H d r) as [E S]; [count|]; rewrite E; clear E end;
  match type of S with forall a z, ?x = _ -> _ => destruct x as [[? ?]| ? | ? |]; cbn [fbind bind]; [specialize (S _ _ eq_refl) | split; [reflexivity | discriminate] ..] end.
Ltac leaf := solve [split; [reflexivity | discriminate] | split; [reflexivity | let Q := fresh "Q" in intros ? ? Q; inversion Q; subst; count]].
Ltac tail H := let E := fresh "E" in let S := fresh "S" in
  match goal with |- ?x = _ /\ _ => match x with _ ?r => destruct (H r) as [E S]; [count|] end | _ => idtac end.
Ltac last H d r := let E := fresh "E" in let S := fresh "S" in
  destruct (H d r) as [E S]; [count|]; cbv beta in E, S; rewrite E; split; [reflexivity | let Q := fresh "Q" in intros ? ? Q; specialize (S _ _ Q); count].
Lemma expect_paren_opens ts r : expect_rparen ts = Ok r -> opens r <= opens ts.
Proof. destruct ts as [|t ts]; [discriminate|]. destruct t; try discriminate. intros E. inversion E; subst. count. Qed.
Lemma expect_bracket_opens ts r : expect_rbracket ts = Ok r -> opens r <= opens ts.
Proof. destruct ts as [|t ts]; [discriminate|]. destruct t; try discriminate. intros E. inversion E; subst. count. Qed.
Lemma expect_angle_opens ts r : expect_rangle ts = Ok r -> opens r <= opens ts.
Proof. destruct ts as [|t ts]; [discriminate|]. destruct t; try discriminate. intros E. inversion E; subst. count. Qed.
Ltac closing K r := let E := fresh "X" in let z := fresh "z" in
  destruct (K r) as [z|?|?|] eqn:E; cbn [fbind bind]; [| split; [reflexivity | discriminate] ..].

Lemma types_fit n :
  fits 1 (fun d ts => parse_type_name_in n d ts) (parse_type_name n) /\ fits 2 (fun d ts => parse_type_arguments_in n d ts) (parse_type_arguments n) /\
  forall acc, fits 1 (fun d ts => type_args_loop_in n d acc ts) (type_args_loop n acc).
Proof.
  induction n as [|n (IN & IA & IL)]; [split; [|split; [|intros acc]]; intros d ts Hd; (split; [reflexivity | discriminate])|].
  split; [|split; [|intros acc]]; intros d ts Hd.
  - destruct d as [|d]; [lia|]. cbn [parse_type_name_in parse_type_name]. destruct ts as [|t ts]; [leaf|]. destruct t; try leaf.
    destruct (path_tail ts) as [[tl0 r0]|m|m|] eqn:E0; cbn [fbind bind]; try leaf. apply (path_tail_opens (List.length ts)) in E0; [|lia].
    destruct r0 as [|t0 r0]; [leaf|]. destruct t0; try leaf.
    destruct (IA d r0) as [E S]; [count|]. rewrite E. clear E. destruct (parse_type_arguments n r0) as [[nested r1]|m|m|]; cbn [fbind bind]; try leaf. specialize (S _ _ eq_refl).
    destruct (expect_rangle r1) as [r2|m|m|] eqn:E1; cbn [fbind bind]; try leaf. apply expect_angle_opens in E1. leaf.
  - destruct d as [|d]; [lia|]. cbn [parse_type_arguments_in parse_type_arguments].
    assert (G : fbind (parse_type_name_in n d ts) (fun '(a, r) => type_args_loop_in n d [a] r) = Some ('(a, r) <- parse_type_name n ts ;; type_args_loop n [a] r) /\
      forall a r, ('(a, r) <- parse_type_name n ts ;; type_args_loop n [a] r) = Ok (a, r) -> opens r <= opens ts).
    { destruct (IN d ts) as [E S]; [lia|]. rewrite E. clear E. destruct (parse_type_name n ts) as [[a r]|m|m|]; cbn [fbind bind]; try leaf. specialize (S _ _ eq_refl). last (IL [a]) d r. }
    destruct ts as [|t ts]; [exact G|]. destruct t; try exact G. leaf.
  - cbn [type_args_loop_in type_args_loop]. destruct ts as [|t ts]; [leaf|]. destruct t; try leaf.
    destruct (IN d ts) as [E S]; [count|]. rewrite E. clear E. destruct (parse_type_name n ts) as [[a r]|m|m|]; cbn [fbind bind]; try leaf. specialize (S _ _ eq_refl). last (IL (acc ++ [a])) d r.
Qed.
Lemma parsers_fit n :
  fits 3 (fun d ts => parse_unary_in n d ts) (parse_unary n) /\ fits 2 (fun d ts => parse_postfix_in n d ts) (parse_postfix n) /\
  (forall e, fits 0 (fun d ts => postfix_loop_in n d e ts) (postfix_loop n e)) /\ fits 1 (fun d ts => parse_primary_in n d ts) (parse_primary n) /\
  fits 4 (fun d ts => parse_arguments_in n d ts) (parse_arguments n) /\ forall acc, fits 3 (fun d ts => args_loop_in n d acc ts) (args_loop n acc).
Proof.
  induction n as [|n (IU & IP & IO & IM & IA & IL)]; [split; [|split; [|split; [intros acc|split; [|split; [|intros acc]]]]]; intros d ts Hd; (split; [reflexivity | discriminate])|].
  split; [|split; [|split; [intros acc|split; [|split; [|intros acc]]]]]; intros d ts Hd.
  - destruct d as [|d]; [lia|]. cbn [parse_unary_in parse_unary].
    destruct ts as [|t ts]; [last IP d (@nil token)|]. destruct t; try match goal with |- parse_postfix_in n d ?r = _ /\ _ => last IP d r end.
    + destruct (IU d ts) as [E S]; [count|]. rewrite E. clear E. destruct (parse_unary n ts) as [[e r]|m|m|]; cbn [fbind bind]; try leaf. specialize (S _ _ eq_refl). leaf.
    + assert (G : forall b r, opens r <= opens ts -> fbind (parse_unary_in n d r) (fun '(e, r) => done (EAddressOf b e, r)) = Some ('(e, r) <- parse_unary n r ;; Ok (EAddressOf b e, r)) /\
        forall a z, ('(e, r) <- parse_unary n r ;; Ok (EAddressOf b e, r)) = Ok (a, z) -> opens z <= opens (TAmp :: ts)).
      { intros b r Hr. destruct (IU d r) as [E S]; [count|]. rewrite E. clear E. destruct (parse_unary n r) as [[e z]|m|m|]; cbn [fbind bind]; try leaf. specialize (S _ _ eq_refl). leaf. }
      destruct ts as [|t ts]; [apply G; lia|]. destruct t; apply G; count.
  - destruct d as [|d]; [lia|]. cbn [parse_postfix_in parse_postfix].
    destruct (IM d ts) as [E S]; [lia|]. rewrite E. clear E. destruct (parse_primary n ts) as [[e r]|m|m|]; cbn [fbind bind]; try leaf. specialize (S _ _ eq_refl). last (IO e) d r.
  - cbn [postfix_loop_in postfix_loop]. destruct ts as [|t ts]; [leaf|]. destruct t; try leaf.
    + destruct ts as [|t ts]; [leaf|]. destruct t; try leaf;
      match goal with |- context [EField acc ?f] =>
        destruct ts as [|t ts]; [last (IO (EField acc f)) d (@nil token)|];
        destruct t; try match goal with |- postfix_loop_in n d (EField acc f) ?r = _ /\ _ => last (IO (EField acc f)) d r end;
        destruct (IA d ts) as [E S]; [count|]; rewrite E; clear E; destruct (parse_arguments n ts) as [[args r]|m|m|]; cbn [fbind bind]; try leaf; specialize (S _ _ eq_refl);
        destruct (expect_rparen r) as [r2|m|m|] eqn:E1; cbn [fbind bind]; try leaf; apply expect_paren_opens in E1; last (IO (EMethodCall acc f args)) d r2
      end.
    + destruct (IU d ts) as [E S]; [count|]. rewrite E. clear E. destruct (parse_unary n ts) as [[i r]|m|m|]; cbn [fbind bind]; try leaf. specialize (S _ _ eq_refl).
      destruct (expect_rbracket r) as [r2|m|m|] eqn:E1; cbn [fbind bind]; try leaf. apply expect_bracket_opens in E1. last (IO (EIndex acc i)) d r2.
  - destruct d as [|d]; [lia|]. cbn [parse_primary_in parse_primary]. destruct ts as [|t ts]; [leaf|]. destruct t; try leaf.
    + destruct (path_tail ts) as [[tl0 r0]|m|m|] eqn:E0; cbn [fbind bind]; try leaf. apply (path_tail_opens (List.length ts)) in E0; [|lia]. cbv zeta.
      destruct r0 as [|t0 r0]; [destruct tl0; leaf|]. destruct t0; try solve [destruct tl0; leaf].
      * destruct (IA d r0) as [E S]; [count|]. rewrite E. clear E. destruct (parse_arguments n r0) as [[args r]|m|m|]; cbn [fbind bind]; try leaf. specialize (S _ _ eq_refl).
        destruct (expect_rparen r) as [r2|m|m|] eqn:E1; cbn [fbind bind]; try leaf. apply expect_paren_opens in E1. leaf.
      * destruct (types_fit n) as (_ & TA & _). destruct (TA d r0) as [E S]; [count|]. rewrite E. clear E. destruct (parse_type_arguments n r0) as [[args r]|m|m|]; cbn [fbind bind]; try leaf. specialize (S _ _ eq_refl).
        destruct (expect_rangle r) as [r2|m|m|] eqn:E1; cbn [fbind bind]; try leaf. apply expect_angle_opens in E1. leaf.
    + destruct (IU d ts) as [E S]; [count|]. rewrite E. clear E. destruct (parse_unary n ts) as [[e r]|m|m|]; cbn [fbind bind]; try leaf. specialize (S _ _ eq_refl).
      destruct (expect_rparen r) as [r2|m|m|] eqn:E1; cbn [fbind bind]; try leaf. apply expect_paren_opens in E1. leaf.
  - destruct d as [|d]; [lia|]. cbn [parse_arguments_in parse_arguments].
    assert (G : fbind (parse_unary_in n d ts) (fun '(a, r) => args_loop_in n d [a] r) = Some ('(a, r) <- parse_unary n ts ;; args_loop n [a] r) /\
      forall a r, ('(a, r) <- parse_unary n ts ;; args_loop n [a] r) = Ok (a, r) -> opens r <= opens ts).
    { destruct (IU d ts) as [E S]; [lia|]. rewrite E. clear E. destruct (parse_unary n ts) as [[a r]|m|m|]; cbn [fbind bind]; try leaf. specialize (S _ _ eq_refl). last (IL [a]) d r. }
    destruct ts as [|t ts]; [exact G|]. destruct t; try exact G. leaf.
  - cbn [args_loop_in args_loop]. destruct ts as [|t ts]; [leaf|]. destruct t; try leaf.
    destruct (IU d ts) as [E S]; [count|]. rewrite E. clear E. destruct (parse_unary n ts) as [[a r]|m|m|]; cbn [fbind bind]; try leaf. specialize (S _ _ eq_refl). last (IL (acc ++ [a])) d r.
Qed.
(** Running on a stack changes nothing but whether there is an answer. *)
Definition agrees {A} (F : frames A) (f : res A) : Prop := F = None \/ F = Some f.
Lemma agrees_bind {A B} (F : frames A) f (K : A -> frames B) k : agrees F f -> (forall a, agrees (K a) (k a)) -> agrees (fbind F K) (bind f k).
Proof. intros [-> | ->] H; [left; reflexivity|]. destruct f; cbn [fbind bind]; try (right; reflexivity). apply H. Qed.
Ltac agree := repeat first [ right; reflexivity | left; reflexivity | solve [auto] | apply agrees_bind; [solve [auto | right; reflexivity] | intros [? ?]] | apply agrees_bind; [solve [auto | right; reflexivity] | intros ?]
  | match goal with |- agrees (match ?x with _ => _ end) _ => is_var x; destruct x end ].
Lemma types_agree n :
  (forall d ts, agrees (parse_type_name_in n d ts) (parse_type_name n ts)) /\ (forall d ts, agrees (parse_type_arguments_in n d ts) (parse_type_arguments n ts)) /\
  (forall acc d ts, agrees (type_args_loop_in n d acc ts) (type_args_loop n acc ts)).
Proof.
  induction n as [|n (IN & IA & IL)]; [split; [|split]; intros; right; reflexivity|].
  split; [|split]; intros; try (destruct d as [|d]; [left; reflexivity|]); cbn [parse_type_name_in parse_type_name parse_type_arguments_in parse_type_arguments type_args_loop_in type_args_loop]; cbv zeta; agree.
Qed.
Lemma parsers_agree n :
  (forall d ts, agrees (parse_unary_in n d ts) (parse_unary n ts)) /\ (forall d ts, agrees (parse_postfix_in n d ts) (parse_postfix n ts)) /\
  (forall e d ts, agrees (postfix_loop_in n d e ts) (postfix_loop n e ts)) /\ (forall d ts, agrees (parse_primary_in n d ts) (parse_primary n ts)) /\
  (forall d ts, agrees (parse_arguments_in n d ts) (parse_arguments n ts)) /\ (forall acc d ts, agrees (args_loop_in n d acc ts) (args_loop n acc ts)).
Proof.
  induction n as [|n (IU & IP & IO & IM & IA & IL)]; [repeat apply conj; intros; right; reflexivity|]. destruct (types_agree n) as (TN & TA & TL).
  split; [|split; [|split; [|split; [|split]]]]; intros; try (destruct d as [|d]; [left; reflexivity|]);
    cbn [parse_unary_in parse_unary parse_postfix_in parse_postfix postfix_loop_in postfix_loop parse_primary_in parse_primary parse_arguments_in parse_arguments args_loop_in args_loop]; cbv zeta; agree.
Qed.

(** ** The stack an expression needs *)
(** There are three outcomes less one: with any stack the parser gives the answer it gives without a limit, or the process ends. *)
Theorem stack_changes_nothing_else : forall d input, parse_stack d input = None \/ parse_stack d input = Some (parse_expression input).
Proof.
  intros d input. unfold parse_stack, parse_expression. change (agrees (fbind (Some (tokenize input)) (fun ts => let? '(e, _) := parse_unary_in (parse_fuel ts) d ts in done e)) (ts <- tokenize input ;; parse_tokens ts)).
  apply agrees_bind; [right; reflexivity|]. intros ts. apply agrees_bind; [apply parsers_agree|]. intros [e r]. right. reflexivity.
Qed.
Print Assumptions stack_changes_nothing_else.
(** An expression with [k] opening brackets and prefix operators needs at most [4 * k + 3] frames. *)
Theorem shallow_expressions_parsed_partial : forall d input, (forall ts, tokenize input = Ok ts -> 4 * nesting ts + 3 <= d) -> parse_stack d input = Some (parse_expression input).
Proof.
  intros d input H. unfold parse_stack, parse_expression, parse_tokens. destruct (tokenize input) as [ts|m|m|]; try reflexivity. specialize (H ts eq_refl). rewrite <- opens_nesting in H.
  cbn [fbind bind]. destruct (parsers_fit (parse_fuel ts)) as (IU & _). destruct (IU d ts H) as [E _]. cbv beta in E. rewrite E. destruct (parse_unary (parse_fuel ts) ts) as [[e r]|m|m|]; reflexivity.
Qed.
Print Assumptions shallow_expressions_parsed_partial.
Lemma tokens_short n : forall input pos ts, tokenize_loop n input pos = Ok ts -> List.length ts <= n.
Proof.
  induction n as [|n IH]; intros input pos ts E; [discriminate|]. cbn [tokenize_loop] in E. destruct (next_token input pos) as [[t p]|m|m|]; cbn [bind] in E; try discriminate.
  assert (G : (ts <- tokenize_loop n input p ;; Ok (t :: ts)) = Ok ts -> List.length ts <= S n).
  { destruct (tokenize_loop n input p) as [l|m|m|] eqn:E2; cbn [bind]; try discriminate. intros Q. inversion Q; subst. apply IH in E2. cbn [List.length]. lia. }
  destruct t; try (apply G; exact E). inversion E; subst. cbn. lia.
Qed.
Lemma filter_short {A} p (l : list A) : List.length (filter p l) <= List.length l.
Proof. induction l as [|a l IH]; cbn [filter]; [lia|]. destruct (p a); cbn [List.length]; lia. Qed.
(** So a text of [k] characters needs at most [4 * k + 7]. *)
Theorem short_expressions_parsed_partial : forall d input, 4 * List.length input + 7 <= d -> parse_stack d input = Some (parse_expression input).
Proof.
  intros d input H. apply shallow_expressions_parsed_partial. intros ts E. apply tokens_short in E. pose proof (filter_short nests ts) as F. unfold nesting. lia.
Qed.
Print Assumptions short_expressions_parsed_partial.
(** For every stack there is a well-formed expression that ends the process. *)
Definition stars (k : nat) : str := repeat (ch "*") k.
Fixpoint derefs (k : nat) (e : expr) : expr := match k with 0 => e | S k => EDeref (derefs k e) end.
Lemma stars_lex k : LexTo (stars k ++ st "x") (repeat TStar k ++ [TIdent (st "x")]) [].
Proof.
  induction k as [|k IH]; cbn [stars repeat app].
  - eapply LT_cons; [vm_compute; reflexivity | discriminate | apply LT_nil].
  - eapply LT_cons; [|discriminate | exact IH]. reflexivity.
Qed.
Lemma stars_tokens k : tokenize (stars k ++ st "x") = Ok ((repeat TStar k ++ [TIdent (st "x")]) ++ [TEof]).
Proof.
  unfold tokenize. apply (LexTo_tokenize (stars k ++ st "x")) with (r := []) (pre := []) (s := stars k ++ st "x"); [|apply stars_lex | reflexivity | reflexivity | lia].
  apply Forall_app. split; [|repeat constructor]. unfold stars. induction k as [|k IH]; cbn [repeat]; constructor; [vm_compute; reflexivity | exact IH].
Qed.
Lemma stars_parse k : forall n r, k < n -> parse_unary n (repeat TStar k ++ r) = match parse_unary (n - k) r with Ok (e, z) => Ok (derefs k e, z) | Err m => Err m | Panic m => Panic m | Fuel => Fuel end.
Proof.
  induction k as [|k IH]; intros n r Hn; cbn [repeat app derefs].
  - rewrite Nat.sub_0_r. destruct (parse_unary n r) as [[e z]|m|m|]; reflexivity.
  - destruct n as [|n]; [lia|]. cbn [parse_unary]. rewrite IH by lia. cbn [Nat.sub]. destruct (parse_unary (n - k) r) as [[e z]|m|m|]; reflexivity.
Qed.
Lemma stars_overflow d : forall n r, d < n -> parse_unary_in n d (repeat TStar d ++ r) = None.
Proof.
  induction d as [|d IH]; intros n r Hn; (destruct n as [|n]; [lia|]); [reflexivity|]. cbn [repeat app parse_unary_in]. rewrite IH by lia. reflexivity.
Qed.
Theorem deep_expression_ends_the_server_refuted : forall d, exists input, List.length input = S d /\ parse_expression input = Ok (derefs d (EVariable (st "x"))) /\ parse_stack d input = None.
Proof.
  intros d. exists (stars d ++ st "x"). split; [unfold stars; rewrite app_length, repeat_length; cbn; lia|].
  assert (L : List.length ((repeat TStar d ++ [TIdent (st "x")]) ++ [TEof]) = d + 2) by (rewrite !app_length, repeat_length; cbn; lia).
  split.
  - unfold parse_expression. rewrite stars_tokens. cbn [bind]. unfold parse_tokens, parse_fuel. rewrite L, <- app_assoc, stars_parse by lia.
    replace (6 * (d + 2) + 6 - d) with (S (S (S (S (5 * d + 14))))) by lia. reflexivity.
  - unfold parse_stack. rewrite stars_tokens. cbn [fbind]. unfold parse_fuel. rewrite L, <- app_assoc, stars_overflow by lia. reflexivity.
Qed.
Print Assumptions deep_expression_ends_the_server_refuted.
Example nested_fits : parse_stack 19 (st "f(a[b], *c)") = Some (parse_expression (st "f(a[b], *c)")) /\ nesting (repeat TLParen 3) = 3 /\
  exists e, parse_expression (st "f(a[b], *c)") = Ok e.
Proof. split; [vm_compute; reflexivity|]. split; [reflexivity|]. eexists. vm_compute. reflexivity. Qed.
Example parens_overflow : parse_stack 10 (st "((((x))))") = None.
Proof. vm_compute. reflexivity. Qed.
