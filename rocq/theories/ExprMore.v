(** Lemmas behind the remaining expression properties. *)
From Coq Require Import Ascii String List ZArith NArith Bool Arith Lia.
From Coq Require Import ZifyBool ZifyNat ZifyN.
From Verif Require Import Base NumText ExprModel ExprSpec ExprParseProofs ExprLexProofs.
Import ListNotations.
Open Scope nat_scope.

Lemma parse_ok_or_err input : ascii_str input ->
  (exists e, parse_expression input = Ok e) \/ (exists m, parse_expression input = Err m).
Proof.
  intros Ha. pose proof (parse_expression_good_ascii input Ha) as Hg.
  destruct (parse_expression input); [left|right| |]; eauto; destruct Hg.
Qed.

Lemma prefix_looser ts e i its f :
  GPostfix ts e -> GUnary its i ->
  parse_tokens (TStar :: ts ++ TLBracket :: its ++ [TRBracket; TEof]) = Ok (EDeref (EIndex e i))
  /\ parse_tokens (TAmp :: TMut :: ts ++ [TDot; TIdent f; TEof]) = Ok (EAddressOf true (EField e f)).
Proof.
  intros He Hi. split.
  - replace (TStar :: ts ++ TLBracket :: its ++ [TRBracket; TEof])
      with ((TStar :: ts ++ TLBracket :: its ++ [TRBracket]) ++ [TEof])
      by (cbn; rewrite <- !app_assoc; cbn; rewrite <- app_assoc; reflexivity).
    apply parse_tokens_complete; [|reflexivity]. apply GU_deref, GU_postfix, GP_index; assumption.
  - replace (TAmp :: TMut :: ts ++ [TDot; TIdent f; TEof])
      with ((TAmp :: TMut :: ts ++ [TDot; TIdent f]) ++ [TEof])
      by (cbn; rewrite <- !app_assoc; reflexivity).
    apply parse_tokens_complete; [|reflexivity]. apply GU_mut, GU_postfix, GP_field; assumption.
Qed.

Lemma u64_fit radix ds : (1 <= radix)%Z -> ds <> [] -> forallb is_hexdigit ds = true ->
  u64_from_digits radix ds =
    if (digits_value radix ds <? 2 ^ 64)%Z then Ok (digits_value radix ds) else Err "number too large".
Proof.
  intros Hr Hne Hs. rewrite u64_from_digits_spec by assumption. unfold u64_max.
  destruct (digits_value radix ds <=? 18446744073709551615)%Z eqn:E1;
  destruct (digits_value radix ds <? 2 ^ 64)%Z eqn:E2; try reflexivity; lia.
Qed.

Lemma nextS_digit c s : is_digit c = true -> nextS (c :: s) = numS (c :: s).
Proof.
  intros Hc. unfold nextS.
  assert (Hw : is_whitespace c = false).
  { apply ident_not_ws. unfold is_ident_char. rewrite Hc. destruct (is_ascii_alpha c); reflexivity. }
  cbn [span]. rewrite Hw. cbn [snd].
  rewrite !(digit_not c) by (try exact Hc; simpl; tauto).
  assert (Hns : is_ident_start c = false) by (revert Hc; unfold is_ident_start, is_ascii_alpha, is_digit; lia).
  rewrite Hns, Hc. reflexivity.
Qed.

Lemma decimal_literal before ds after :
  ascii_str (before ++ ds ++ after) -> ds <> [] -> forallb is_digit ds = true ->
  match after with c :: _ => is_digit c = false | [] => True end ->
  (ds = st "0" -> match after with c :: _ => c <> ch "x" /\ c <> ch "X" | [] => True end) ->
  next_token (before ++ ds ++ after) (length before) =
    if (digits_value 10 ds <? 2 ^ 64)%Z
    then Ok (TNumber (digits_value 10 ds), length (before ++ ds))
    else Err "number too large".
Proof.
  intros Ha Hne Hd Haf H0. rewrite next_token_at by exact Ha.
  destruct ds as [|c ds]; [congruence|].
  assert (Hc : is_digit c = true) by (cbn in Hd; apply andb_true_iff in Hd; tauto).
  cbn [app]. rewrite nextS_digit by exact Hc.
  assert (Hx : forall x, x = ch "x" \/ x = ch "X" -> starts_with (c :: ds ++ after) [48%N; x] = false).
  { intros x Hx. cbn [starts_with]. destruct (N.eqb 48 c) eqn:E48; [|reflexivity]. simpl.
    apply N.eqb_eq in E48. subst c. destruct ds as [|d ds].
    - cbn [app]. destruct after as [|d after]; [reflexivity|]. specialize (H0 eq_refl).
      destruct (N.eqb x d) eqn:Exd; [|reflexivity]. apply N.eqb_eq in Exd. subst d.
      destruct H0 as [Hn1 Hn2]. destruct Hx; congruence.
    - cbn [app]. destruct (N.eqb x d) eqn:Exd; [|reflexivity]. apply N.eqb_eq in Exd. subst d.
      cbn [forallb] in Hd. destruct Hx; subst x; discriminate. }
  unfold numS.
  change (st "0x") with [48%N; ch "x"]. change (st "0X") with [48%N; ch "X"].
  rewrite !Hx by tauto. cbn [orb].
  change (c :: ds ++ after) with ((c :: ds) ++ after). rewrite span_exact by assumption.
  rewrite u64_fit by (try lia; try discriminate; apply forallb_digit_hex; exact Hd).
  destruct (_ <? _)%Z; [|reflexivity]. cbn [bind lift].
  change (before ++ c :: ds) with (before ++ (c :: ds)). 
  rewrite pos_of_app3. reflexivity.
Qed.

Lemma hex_literal before x hs after :
  x = ch "x" \/ x = ch "X" ->
  ascii_str (before ++ (ch "0" :: x :: hs) ++ after) -> hs <> [] -> forallb is_hexdigit hs = true ->
  match after with c :: _ => is_hexdigit c = false | [] => True end ->
  next_token (before ++ (ch "0" :: x :: hs) ++ after) (length before) =
    if (digits_value 16 hs <? 2 ^ 64)%Z
    then Ok (TNumber (digits_value 16 hs), length (before ++ ch "0" :: x :: hs))
    else Err "number too large".
Proof.
  intros Hx Ha Hne Hd Haf. rewrite next_token_at by exact Ha.
  cbn [app]. rewrite nextS_digit by reflexivity. unfold numS.
  assert (starts_with (ch "0" :: x :: hs ++ after) (st "0x")
       || starts_with (ch "0" :: x :: hs ++ after) (st "0X") = true) as ->.
  { destruct Hx; subst x; reflexivity. }
  cbn [skipn]. rewrite span_exact by assumption.
  rewrite u64_fit by (try lia; assumption).
  destruct (_ <? _)%Z; [|reflexivity]. cbn [bind lift].
  change (before ++ ch "0" :: x :: hs ++ after) with (before ++ (ch "0" :: x :: hs) ++ after).
  rewrite pos_of_app3. reflexivity.
Qed.

Lemma number_tokens_u64 input ts v : ascii_str input ->
  tokenize input = Ok ts -> In (TNumber v) ts -> (0 <= v < 2 ^ 64)%Z.
Proof.
  intros Ha H Hin. unfold tokenize in H. apply (tokenize_LexTo input Ha ts [] input) in H; [|reflexivity].
  destruct H as [ts0 [r [-> [_ [_ Hok]]]]]. apply in_app_or in Hin.
  destruct Hin as [Hin|[Hin|[]]]; [|discriminate].
  rewrite Forall_forall in Hok. specialize (Hok _ Hin). exact Hok.
Qed.

Lemma accepted_prefix input ts e :
  tokenize input = Ok ts -> parse_expression input = Ok e ->
  exists pre rest, ts = pre ++ rest /\ pre <> [] /\ GUnary pre e.
Proof.
  intros Ht H. unfold parse_expression in H. rewrite Ht in H. cbn [bind] in H.
  apply parse_tokens_sound in H. destruct H as [pre [rest [H1 [H2 _]]]].
  exists pre, rest. split; [exact H1|]. split; [|exact H2]. apply gexpr_nonempty in H2. exact H2.
Qed.

Lemma trailing_accepted :
  exists input ts e, tokenize input = Ok (ts ++ [TEof]) /\ (forall e', ~ GUnary ts e')
    /\ parse_expression input = Ok e.
Proof.
  exists (st "a b"), [TIdent (st "a"); TIdent (st "b")], (EVariable (st "a")).
  split; [vm_compute; reflexivity|]. split; [|vm_compute; reflexivity].
  intros e' H. pose proof (parse_tokens_complete _ _ [] H I) as Hc.
  vm_compute in Hc. injection Hc as <-.
  inversion H as [| | |? ? Hp]; subst. inversion Hp as [? ? Hr|? ? ? ?|? ? ? ? ? ?|? ? ? ? ?]; subst.
  inversion Hr.
Qed.

Lemma string_literal before s after :
  ascii_str (before ++ [34%N] ++ s ++ [34%N] ++ after) -> literal_content s ->
  next_token (before ++ [34%N] ++ s ++ [34%N] ++ after) (length before)
  = Ok (TString s, length (before ++ [34%N] ++ s ++ [34%N])).
Proof.
  intros Ha Hl. rewrite next_token_at by exact Ha. rewrite lex_string by exact Hl.
  cbn [bind lift].
  assert (Heq : before ++ [34%N] ++ s ++ [34%N] ++ after = before ++ ([34%N] ++ s ++ [34%N]) ++ after)
    by (rewrite <- !app_assoc; reflexivity).
  f_equal. f_equal. etransitivity; [|apply (pos_of_app3 before ([34%N] ++ s ++ [34%N]) after)]. f_equal. exact Heq.
Qed.

Lemma unterminated_string before s :
  ascii_str (before ++ [34%N] ++ s) -> Forall (fun c => c <> 34%N) s ->
  exists m, next_token (before ++ [34%N] ++ s) (length before) = Err m.
Proof.
  intros Ha Hs. rewrite next_token_at by exact Ha.
  unfold nextS. cbn [app span]. assert (is_whitespace 34%N = false) as -> by reflexivity. cbn [snd].
  cbn [N.eqb Pos.eqb]. 
  destruct (scan_str s) as [[a b]|] eqn:E; [|eexists; reflexivity].
  apply scan_str_suffix with (k := length s) in E; [|apply Nat.le_refl]. destruct E as [-> _].
  rewrite !Forall_app in Hs. destruct Hs as [_ [Hs _]]. inversion Hs; congruence.
Qed.

Lemma string_literal_wrong :
  exists s after, literal_content s /\
    exists s' p, next_token ([34%N] ++ s ++ [34%N] ++ after) 0 = Ok (TString s', p) /\ s' <> s.
Proof.
  exists [233; 97]%N, [120]%N. split; [repeat (constructor; [discriminate|discriminate|]); constructor|].
  do 2 eexists. vm_compute. split; [reflexivity | discriminate].
Qed.
