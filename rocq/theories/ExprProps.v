(** C06-C11: the expression language. *)
From Coq Require Import Ascii String List ZArith NArith Bool Lia.
From Verif Require Import Base NumText ExprModel ExprSpec ExprParseProofs ExprLexProofs ExprMore.
Import ListNotations.
Open Scope nat_scope.

(** C06. Parsing terminates on every input whatsoever (the model's recursion budget, linear in the
    input, is never used up). *)
Theorem parse_always_terminates : forall input, parse_expression input <> Fuel.
Proof. exact parse_expression_terminates. Qed.
Print Assumptions parse_always_terminates.

(** C06, ASCII part: a result or an error, never a panic.
    Missing for the full property: inputs with non-ASCII characters, for which it is false (next). *)
Theorem parse_never_panics_partial : forall input, ascii_str input ->
  (exists e, parse_expression input = Ok e) \/ (exists m, parse_expression input = Err m).
Proof. exact parse_ok_or_err. Qed.
Print Assumptions parse_never_panics_partial.

(** C06 is false of the code: the string literal containing one accented letter panics
    (the tokenizer slices bytes at a character index). *)
Theorem parse_never_panics_refuted :
  exists input m, parse_expression input = Panic m.
Proof. exists [34; 233; 34]%N. eexists. vm_compute. reflexivity. Qed.
Print Assumptions parse_never_panics_refuted.

(** C07. Round trip, for every expression parsed from ASCII text.
    Missing for the full property: non-ASCII input, for which it is false (next). *)
Theorem display_roundtrip_partial : forall input e, ascii_str input ->
  parse_expression input = Ok e -> parse_expression (display e) = Ok e.
Proof. exact parse_display_roundtrip. Qed.
Print Assumptions display_roundtrip_partial.

Theorem display_roundtrip_refuted :
  exists input e m, parse_expression input = Ok e /\ parse_expression (display e) = Panic m.
Proof. exists [34; 233; 97; 34; 120]%N, (EString [233]%N), "byte index is not a char boundary"%string.
  vm_compute. split; reflexivity. Qed.
Print Assumptions display_roundtrip_refuted.

(** C08. Every sentence of the grammar is parsed to the expression the grammar gives it, whatever
    follows it, as long as that does not extend it ... *)
Theorem grammar_complete : forall ts e rest,
  GUnary ts e -> stops rest -> parse_tokens (ts ++ rest) = Ok e.
Proof. exact parse_tokens_complete. Qed.
Print Assumptions grammar_complete.
(** ... and every expression produced is given by the grammar to a prefix of the tokens, one that
    no postfix operator could have extended. *)
Theorem grammar_sound : forall ts e, parse_tokens ts = Ok e ->
  exists pre rest, ts = pre ++ rest /\ GUnary pre e
    /\ match rest with TDot :: _ | TLBracket :: _ => False | _ => True end.
Proof. exact parse_tokens_sound. Qed.
Print Assumptions grammar_sound.
Theorem grammar_unambiguous : forall ts e1 e2, GUnary ts e1 -> GUnary ts e2 -> e1 = e2.
Proof. exact grammar_deterministic. Qed.
Print Assumptions grammar_unambiguous.
(** Consequence stated on text: prefix operators bind looser than every postfix operator. *)
Theorem prefix_binds_looser : forall ts e i its f,
  GPostfix ts e -> GUnary its i ->
  parse_tokens (TStar :: ts ++ TLBracket :: its ++ [TRBracket; TEof]) = Ok (EDeref (EIndex e i))
  /\ parse_tokens (TAmp :: TMut :: ts ++ [TDot; TIdent f; TEof]) = Ok (EAddressOf true (EField e f)).
Proof. exact prefix_looser. Qed.
Print Assumptions prefix_binds_looser.

(** C09. A decimal literal anywhere in an ASCII input: its exact value, or an error when it does
    not fit in 64 bits. *)
Theorem decimal_literal_exact : forall before ds after,
  ascii_str (before ++ ds ++ after) -> ds <> [] -> forallb is_digit ds = true ->
  match after with c :: _ => is_digit c = false | [] => True end ->
  (ds = st "0" -> match after with c :: _ => c <> ch "x" /\ c <> ch "X" | [] => True end) ->
  next_token (before ++ ds ++ after) (length before) =
    if (digits_value 10 ds <? 2 ^ 64)%Z
    then Ok (TNumber (digits_value 10 ds), length (before ++ ds))
    else Err "number too large".
Proof. exact decimal_literal. Qed.
Print Assumptions decimal_literal_exact.
Theorem hex_literal_exact : forall before x hs after,
  x = ch "x" \/ x = ch "X" ->
  ascii_str (before ++ (ch "0" :: x :: hs) ++ after) -> hs <> [] -> forallb is_hexdigit hs = true ->
  match after with c :: _ => is_hexdigit c = false | [] => True end ->
  next_token (before ++ (ch "0" :: x :: hs) ++ after) (length before) =
    if (digits_value 16 hs <? 2 ^ 64)%Z
    then Ok (TNumber (digits_value 16 hs), length (before ++ ch "0" :: x :: hs))
    else Err "number too large".
Proof. exact hex_literal. Qed.
Print Assumptions hex_literal_exact.
(** Every number token of every ASCII input is a u64. *)
Theorem number_tokens_fit : forall input ts v, ascii_str input ->
  tokenize input = Ok ts -> In (TNumber v) ts -> (0 <= v < 2 ^ 64)%Z.
Proof. exact number_tokens_u64. Qed.
Print Assumptions number_tokens_fit.

(** C10 is false of the code: [a b] is not in the language but is accepted as [a]. *)
Theorem whole_input_refuted :
  exists input ts e, tokenize input = Ok (ts ++ [TEof]) /\ (forall e', ~ GUnary ts e')
    /\ parse_expression input = Ok e.
Proof. exact trailing_accepted. Qed.
Print Assumptions whole_input_refuted.
(** C10, what holds: an input is accepted only if a non-empty prefix of its tokens is a sentence. *)
Theorem accepted_prefix_partial : forall input ts e,
  tokenize input = Ok ts -> parse_expression input = Ok e ->
  exists pre rest, ts = pre ++ rest /\ pre <> [] /\ GUnary pre e.
Proof. exact accepted_prefix. Qed.
Print Assumptions accepted_prefix_partial.

(** C11, ASCII part: the literal token carries the text between the quotes, verbatim.
    Missing: non-ASCII inputs, for which it is false (next). *)
Theorem string_literal_content_partial : forall before s after,
  ascii_str (before ++ [34%N] ++ s ++ [34%N] ++ after) -> literal_content s ->
  next_token (before ++ [34%N] ++ s ++ [34%N] ++ after) (length before)
  = Ok (TString s, length (before ++ [34%N] ++ s ++ [34%N])).
Proof. exact string_literal. Qed.
Print Assumptions string_literal_content_partial.
Theorem unterminated_string_rejected : forall before s,
  ascii_str (before ++ [34%N] ++ s) -> Forall (fun c => c <> 34%N) s ->
  exists m, next_token (before ++ [34%N] ++ s) (length before) = Err m.
Proof. exact unterminated_string. Qed.
Print Assumptions unterminated_string_rejected.
Theorem string_literal_content_refuted :
  exists s after, literal_content s /\
    exists s' p, next_token ([34%N] ++ s ++ [34%N] ++ after) 0 = Ok (TString s', p) /\ s' <> s.
Proof. exact string_literal_wrong. Qed.
Print Assumptions string_literal_content_refuted.

(** Non-vacuity. *)
Definition ex_text : str := st "*a.b[&mut c::d<Vec<u8>, T>][0x1F].m(""x\""y"", (f(1,2)))".
Example ex_text_ascii : ascii_str ex_text.
Proof. unfold ascii_str. repeat (constructor; [reflexivity|]). constructor. Qed.
Example ex_text_parses : exists b m args, parse_expression ex_text = Ok (EDeref (EMethodCall b m args)).
Proof. do 3 eexists. vm_compute. reflexivity. Qed.
Example ex_grammar : GUnary [TStar; TIdent (st "a"); TDot; TIdent (st "b")] (EDeref (EField (EVariable (st "a")) (st "b"))).
Proof. apply GU_deref, GU_postfix, (GP_field [TIdent (st "a")]), GP_primary, GR_var. Qed.
Example ex_overflow : next_token (st "18446744073709551616") 0 = Err "number too large"
  /\ next_token (st "18446744073709551615") 0 = Ok (TNumber 18446744073709551615%Z, 20).
Proof. vm_compute. split; reflexivity. Qed.
Example ex_literal : literal_content (st "a\""b").
Proof. repeat (first [apply LC_escape | apply LC_plain; [discriminate|discriminate|]]). constructor. Qed.
