(** Model of the expression tokenizer, parser and printer.
    crates/rudy-parser/src/expressions.rs *)
From Coq Require Import Ascii String List ZArith NArith Bool Arith.
From Verif Require Import Base NumText.
Import ListNotations.
Open Scope nat_scope.

(** expressions.rs:14-66 [Expression]. *)
Inductive expr :=
| EVariable (name : str)
| EPath (segments : list str)
| EGeneric (base : str) (args : list str)
| EField (base : expr) (field : str)
| EIndex (base index : expr)
| EDeref (e : expr)
| EAddressOf (mutable : bool) (e : expr)
| ENumber (v : Z)
| EString (v : str)
| EParen (e : expr)
| EMethodCall (base : expr) (method : str) (args : list expr)
| ECall (function : str) (args : list expr).

(** expressions.rs:68-95 [impl Display for Expression]. *)
Fixpoint display (e : expr) : str :=
  match e with
  | EVariable n => n
  | EPath segs => join (st "::") segs
  | EGeneric b args => b ++ st "<" ++ join (st ", ") args ++ st ">"
  | EField b f => display b ++ st "." ++ f
  | EIndex b i => display b ++ st "[" ++ display i ++ st "]"
  | EDeref e => st "*" ++ display e
  | EAddressOf m e => (if m then st "&mut " else st "&") ++ display e
  | ENumber v => dec_nat v
  | EString v => [34%N] ++ v ++ [34%N]
  | EParen e => st "(" ++ display e ++ st ")"
  | EMethodCall b m args =>
      display b ++ st "." ++ m ++ st "(" ++ join (st ", ") (map display args) ++ st ")"
  | ECall f args => f ++ st "(" ++ join (st ", ") (map display args) ++ st ")"
  end.

(** expressions.rs:99-124 [Token]. *)
Inductive token :=
| TIdent (s : str) | TNumber (v : Z) | TString (s : str)
| TDot | TStar | TAmp | TLBracket | TRBracket | TLParen | TRParen
| TLAngle | TRAngle | TPathSep | TComma | TMut | TEof.

(** ** Tokenizer (expressions.rs:126-299)

    [position] is used both as a character index ([chars().nth(position)]) and as
    a byte index (slicing, and the bound in [advance]); both uses are kept. *)

(** char::len_utf8. *)
Definition len_utf8 (c : char) : nat :=
  if (c <? 128)%N then 1 else if (c <? 2048)%N then 2 else if (c <? 65536)%N then 3 else 4.
(** str::len (bytes). *)
Definition byte_len (s : str) : nat := fold_right (fun c n => len_utf8 c + n) 0 s.

(** Splitting a string at a byte index; [None] when it is not a char boundary or out of range. *)
Fixpoint split_at_byte (s : str) (n : nat) : option (str * str) :=
  match n with
  | O => Some ([], s)
  | S _ =>
    match s with
    | [] => None
    | c :: s' =>
      if len_utf8 c <=? n then
        match split_at_byte s' (n - len_utf8 c) with
        | Some (a, b) => Some (c :: a, b)
        | None => None
        end
      else None
    end
  end.

(** [&s[a..b]]: panics unless a <= b and both are char boundaries. *)
Definition slice (s : str) (a b : nat) : res str :=
  if a <=? b then
    match split_at_byte s b with
    | None => Panic "byte index is not a char boundary"
    | Some (pre, _) =>
      match split_at_byte pre a with
      | None => Panic "byte index is not a char boundary"
      | Some (_, mid) => Ok mid
      end
    end
  else Panic "slice index starts after end".
(** [&s[a..]]. *)
Definition slice_from (s : str) (a : nat) : res str :=
  match split_at_byte s a with
  | None => Panic "byte index is not a char boundary"
  | Some (_, r) => Ok r
  end.

(** expressions.rs:136-138 [current_char]. *)
Definition current_char (input : str) (pos : nat) : option char := nth_error input pos.
(** expressions.rs:140-144 [advance]. *)
Definition advance (input : str) (pos : nat) : nat :=
  if pos <? byte_len input then pos + 1 else pos.

(** char::is_whitespace (Unicode White_Space). *)
Definition is_whitespace (c : char) : bool :=
  ((9 <=? c) && (c <=? 13) || (c =? 32) || (c =? 133) || (c =? 160) || (c =? 5760)
   || (8192 <=? c) && (c <=? 8202) || (c =? 8232) || (c =? 8233) || (c =? 8239)
   || (c =? 8287) || (c =? 12288))%N.
Definition is_ascii_alpha (c : char) : bool :=
  ((65 <=? c) && (c <=? 90) || (97 <=? c) && (c <=? 122))%N.
(** identifier characters: is_ascii_alphanumeric or '_'. *)
Definition is_ident_char (c : char) : bool := is_ascii_alpha c || is_digit c || (c =? 95)%N.
Definition is_ident_start (c : char) : bool := is_ascii_alpha c || (c =? 95)%N.

(** The [while let Some(ch) = self.current_char() { if p(ch) { advance } else { break } }] loops
    (expressions.rs:146-154, 158-164, 178-184, 189-195). Fuel: the number of characters. *)
Fixpoint scan_while (fuel : nat) (p : char -> bool) (input : str) (pos : nat) : nat :=
  match fuel with
  | O => pos
  | S n =>
    match current_char input pos with
    | Some c => if p c then scan_while n p input (advance input pos) else pos
    | None => pos
    end
  end.
Definition scan (p : char -> bool) (input : str) (pos : nat) : nat :=
  scan_while (S (length input)) p input pos.

(** expressions.rs:146-154 [skip_whitespace]. *)
Definition skip_whitespace (input : str) (pos : nat) : nat := scan is_whitespace input pos.

(** expressions.rs:156-166 [read_identifier]. *)
Definition read_identifier (input : str) (pos : nat) : res (str * nat) :=
  let p := scan is_ident_char input pos in
  s <- slice input pos p ;; Ok (s, p).

(** expressions.rs:168-199 [read_number]. *)
Definition read_number (input : str) (pos : nat) : res (Z * nat) :=
  rest <- slice_from input pos ;;
  if starts_with rest (st "0x") || starts_with rest (st "0X") then
    let p := scan is_hexdigit input (advance input (advance input pos)) in
    hex_str <- slice input (pos + 2) p ;;
    v <- u64_from_digits 16 hex_str ;; Ok (v, p)
  else
    let p := scan is_digit input pos in
    s <- slice input pos p ;;
    v <- u64_from_digits 10 s ;; Ok (v, p).

(** expressions.rs:206-221, the loop of [read_string]. *)
Fixpoint read_string_loop (fuel : nat) (input : str) (start pos : nat) : res (str * nat) :=
  match fuel with
  | O => Fuel
  | S n =>
    match current_char input pos with
    | None => Err "Unterminated string literal"
    | Some c =>
      if N.eqb c 34 then
        content <- slice input start pos ;; Ok (content, advance input pos)
      else if N.eqb c 92 then
        let p := advance input pos in
        let p := match current_char input p with Some _ => advance input p | None => p end in
        read_string_loop n input start p
      else read_string_loop n input start (advance input pos)
    end
  end.
(** expressions.rs:201-224 [read_string]. *)
Definition read_string (input : str) (pos : nat) : res (str * nat) :=
  let p := advance input pos in
  read_string_loop (S (length input)) input p p.

(** expressions.rs:226-298 [next_token]. *)
Definition next_token (input : str) (pos0 : nat) : res (token * nat) :=
  let pos := skip_whitespace input pos0 in
  match current_char input pos with
  | None => Ok (TEof, pos)
  | Some c =>
    if N.eqb c 46 then Ok (TDot, advance input pos)
    else if N.eqb c 42 then Ok (TStar, advance input pos)
    else if N.eqb c 38 then Ok (TAmp, advance input pos)
    else if N.eqb c 91 then Ok (TLBracket, advance input pos)
    else if N.eqb c 93 then Ok (TRBracket, advance input pos)
    else if N.eqb c 40 then Ok (TLParen, advance input pos)
    else if N.eqb c 41 then Ok (TRParen, advance input pos)
    else if N.eqb c 60 then Ok (TLAngle, advance input pos)
    else if N.eqb c 62 then Ok (TRAngle, advance input pos)
    else if N.eqb c 58 then
      let p := advance input pos in
      match current_char input p with
      | Some d => if N.eqb d 58 then Ok (TPathSep, advance input p)
                  else Err "Expected '::' but found single ':'"
      | None => Err "Expected '::' but found single ':'"
      end
    else if N.eqb c 44 then Ok (TComma, advance input pos)
    else if is_ident_start c then
      '(ident, p) <- read_identifier input pos ;;
      Ok (if str_eqb ident (st "mut") then TMut else TIdent ident, p)
    else if is_digit c then
      '(v, p) <- read_number input pos ;; Ok (TNumber v, p)
    else if N.eqb c 34 then
      '(s, p) <- read_string input pos ;; Ok (TString s, p)
    else Err "Unexpected character"
  end.

(** expressions.rs:308-325 [Parser::new]: tokens up to and including Eof. *)
Fixpoint tokenize_loop (fuel : nat) (input : str) (pos : nat) : res (list token) :=
  match fuel with
  | O => Fuel
  | S n =>
    '(t, p) <- next_token input pos ;;
    match t with
    | TEof => Ok [TEof]
    | _ => ts <- tokenize_loop n input p ;; Ok (t :: ts)
    end
  end.
Definition tokenize (input : str) : res (list token) :=
  tokenize_loop (S (length input)) input 0.

(** ** Parser (expressions.rs:301-577)

    The parser's [position] only ever increases, so its state is the remaining
    token list; reading past the end gives Eof (expressions.rs:327-329) and
    advancing past the end does nothing (331-335). Running out of native stack on
    deeply nested input is not modelled. *)

Definition cur (ts : list token) : token := match ts with t :: _ => t | [] => TEof end.

(** expressions.rs:337-348 [expect], which compares enum discriminants only;
    it is only called with the payload-free closing tokens below. *)
Definition expect_rparen (ts : list token) : res (list token) :=
  match ts with TRParen :: r => Ok r | _ => Err "Expected RightParen" end.
Definition expect_rbracket (ts : list token) : res (list token) :=
  match ts with TRBracket :: r => Ok r | _ => Err "Expected RightBracket" end.
Definition expect_rangle (ts : list token) : res (list token) :=
  match ts with TRAngle :: r => Ok r | _ => Err "Expected RightAngle" end.

(** expressions.rs:434-443 and 553-561: [while PathSeparator { advance; Identifier }]. *)
Fixpoint path_tail (ts : list token) : res (list str * list token) :=
  match ts with
  | TPathSep :: rest =>
    match rest with
    | TIdent s :: r => '(ss, r') <- path_tail r ;; Ok (s :: ss, r')
    | _ => Err "Expected identifier after '::'"
    end
  | _ => Ok ([], ts)
  end.

(** expressions.rs:541-576 [parse_type_name] and 521-539 [parse_type_arguments]. *)
Fixpoint parse_type_name (n : nat) (ts : list token) {struct n} : res (str * list token) :=
  match n with
  | O => Fuel
  | S n =>
    match ts with
    | TIdent name :: r =>
      '(tail, r) <- path_tail r ;;
      let type_name := join (st "::") (name :: tail) in
      match r with
      | TLAngle :: r =>
        '(nested, r) <- parse_type_arguments n r ;;
        r <- expect_rangle r ;;
        Ok (type_name ++ st "<" ++ join (st ", ") nested ++ st ">", r)
      | _ => Ok (type_name, r)
      end
    | _ => Err "Expected type name"
    end
  end
with parse_type_arguments (n : nat) (ts : list token) {struct n} : res (list str * list token) :=
  match n with
  | O => Fuel
  | S n =>
    match ts with
    | TRAngle :: _ => Ok ([], ts)
    | _ => '(a, r) <- parse_type_name n ts ;; type_args_loop n [a] r
    end
  end
with type_args_loop (n : nat) (acc : list str) (ts : list token) {struct n} : res (list str * list token) :=
  match n with
  | O => Fuel
  | S n =>
    match ts with
    | TComma :: r => '(a, r) <- parse_type_name n r ;; type_args_loop n (acc ++ [a]) r
    | _ => Ok (acc, ts)
    end
  end.

(** expressions.rs:354-519: [parse_expression]/[parse_unary], [parse_postfix] (split into its
    first step and its loop), [parse_primary], [parse_arguments] (and its loop). *)
Fixpoint parse_unary (n : nat) (ts : list token) {struct n} : res (expr * list token) :=
  match n with
  | O => Fuel
  | S n =>
    match ts with
    | TStar :: r => '(e, r) <- parse_unary n r ;; Ok (EDeref e, r)
    | TAmp :: r =>
      match r with
      | TMut :: r => '(e, r) <- parse_unary n r ;; Ok (EAddressOf true e, r)
      | _ => '(e, r) <- parse_unary n r ;; Ok (EAddressOf false e, r)
      end
    | _ => parse_postfix n ts
    end
  end
with parse_postfix (n : nat) (ts : list token) {struct n} : res (expr * list token) :=
  match n with
  | O => Fuel
  | S n => '(e, r) <- parse_primary n ts ;; postfix_loop n e r
  end
with postfix_loop (n : nat) (e : expr) (ts : list token) {struct n} : res (expr * list token) :=
  match n with
  | O => Fuel
  | S n =>
    match ts with
    | TDot :: r =>
      match r with
      | TIdent field :: r =>
        match r with
        | TLParen :: r =>
          '(args, r) <- parse_arguments n r ;;
          r <- expect_rparen r ;;
          postfix_loop n (EMethodCall e field args) r
        | _ => postfix_loop n (EField e field) r
        end
      | _ => Err "Expected field name after '.'"
      end
    | TLBracket :: r =>
      '(i, r) <- parse_unary n r ;;
      r <- expect_rbracket r ;;
      postfix_loop n (EIndex e i) r
    | _ => Ok (e, ts)
    end
  end
with parse_primary (n : nat) (ts : list token) {struct n} : res (expr * list token) :=
  match n with
  | O => Fuel
  | S n =>
    match ts with
    | TIdent name :: r =>
      '(tail, r) <- path_tail r ;;
      let segments := name :: tail in
      match r with
      | TLAngle :: r =>
        '(targs, r) <- parse_type_arguments n r ;;
        r <- expect_rangle r ;;
        Ok (EGeneric (join (st "::") segments) targs, r)
      | TLParen :: r =>
        '(args, r) <- parse_arguments n r ;;
        r <- expect_rparen r ;;
        Ok (ECall (join (st "::") segments) args, r)
      | _ =>
        match tail with
        | [] => Ok (EVariable name, r)
        | _ => Ok (EPath segments, r)
        end
      end
    | TNumber v :: r => Ok (ENumber v, r)
    | TString v :: r => Ok (EString v, r)
    | TLParen :: r =>
      '(e, r) <- parse_unary n r ;;
      r <- expect_rparen r ;;
      Ok (EParen e, r)
    | _ => Err "Expected identifier, number, string, or '('"
    end
  end
with parse_arguments (n : nat) (ts : list token) {struct n} : res (list expr * list token) :=
  match n with
  | O => Fuel
  | S n =>
    match ts with
    | TRParen :: _ => Ok ([], ts)
    | _ => '(e, r) <- parse_unary n ts ;; args_loop n [e] r
    end
  end
with args_loop (n : nat) (acc : list expr) (ts : list token) {struct n} : res (list expr * list token) :=
  match n with
  | O => Fuel
  | S n =>
    match ts with
    | TComma :: r => '(e, r) <- parse_unary n r ;; args_loop n (acc ++ [e]) r
    | _ => Ok (acc, ts)
    end
  end.

(** Enough fuel for a token list (proved sufficient in ExprProofs). *)
Definition parse_fuel (ts : list token) : nat := 6 * length ts + 6.

(** expressions.rs:350-356 [Parser::parse]: the rest of the tokens is not inspected. *)
Definition parse_tokens (ts : list token) : res expr :=
  '(e, _) <- parse_unary (parse_fuel ts) ts ;; Ok e.

(** expressions.rs:579-583 [parse_expression]. *)
Definition parse_expression (input : str) : res expr :=
  ts <- tokenize input ;; parse_tokens ts.
