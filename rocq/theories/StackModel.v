(** The parser of expressions with the stack it runs on: crates/rudy-parser/src/expressions.rs 350-576. Each of the recursive
    functions (parse_unary, parse_postfix, parse_primary, parse_arguments, parse_type_arguments, parse_type_name) takes one frame
    while it runs, and the thread has a number [d] of them; a frame's size, and the frames of functions that call none of these, are
    left out, and parse_expression, which only calls parse_unary, has none. [None]: no frame is left, which ends the process (the
    guard page of the thread, server.rs 35). The bodies are those of ExprModel. *)
From Coq Require Import Ascii String List ZArith NArith Lia Bool.
From Verif Require Import Base NumText ExprModel.
Import ListNotations.
Open Scope nat_scope.

Definition frames (A : Type) := option (res A).
Definition done {A} (a : A) : frames A := Some (Ok a).
Definition wrong {A} (m : string) : frames A := Some (Err m).
Definition fbind {A B} (x : frames A) (f : A -> frames B) : frames B :=
  match x with
  | Some (Ok a) => f a
  | Some (Err m) => Some (Err m)
  | Some (Panic m) => Some (Panic m)
  | Some Fuel => Some Fuel
  | None => None
  end.
Notation "'let?' x := e 'in' k" := (fbind e (fun x => k)) (at level 200, x name, e at level 200, right associativity).
Notation "'let?' ' p := e 'in' k" := (fbind e (fun p => k)) (at level 200, p pattern, e at level 200, right associativity).
(** expressions.rs 521-576. *)
Fixpoint parse_type_name_in (n d : nat) (ts : list token) {struct n} : frames (str * list token) :=
  match n with
  | O => Some Fuel
  | S n => match d with O => None | S d =>
    match ts with
    | TIdent name :: r =>
      let? '(tail, r) := Some (path_tail r) in
      let type_name := join (st "::") (name :: tail) in
      match r with
      | TLAngle :: r =>
        let? '(nested, r) := parse_type_arguments_in n d r in
        let? r := Some (expect_rangle r) in
        done (type_name ++ st "<" ++ join (st ", ") nested ++ st ">", r)
      | _ => done (type_name, r)
      end
    | _ => wrong "Expected type name"
    end end
  end
with parse_type_arguments_in (n d : nat) (ts : list token) {struct n} : frames (list str * list token) :=
  match n with
  | O => Some Fuel
  | S n => match d with O => None | S d =>
    match ts with
    | TRAngle :: _ => done ([], ts)
    | _ => let? '(a, r) := parse_type_name_in n d ts in type_args_loop_in n d [a] r
    end end
  end
with type_args_loop_in (n d : nat) (acc : list str) (ts : list token) {struct n} : frames (list str * list token) :=
  match n with
  | O => Some Fuel
  | S n =>
    match ts with
    | TComma :: r => let? '(a, r) := parse_type_name_in n d r in type_args_loop_in n d (acc ++ [a]) r
    | _ => done (acc, ts)
    end
  end.

(** expressions.rs 350-519. *)
Fixpoint parse_unary_in (n d : nat) (ts : list token) {struct n} : frames (expr * list token) :=
  match n with
  | O => Some Fuel
  | S n => match d with O => None | S d =>
    match ts with
    | TStar :: r => let? '(e, r) := parse_unary_in n d r in done (EDeref e, r)
    | TAmp :: r =>
      match r with
      | TMut :: r => let? '(e, r) := parse_unary_in n d r in done (EAddressOf true e, r)
      | _ => let? '(e, r) := parse_unary_in n d r in done (EAddressOf false e, r)
      end
    | _ => parse_postfix_in n d ts
    end end
  end
with parse_postfix_in (n d : nat) (ts : list token) {struct n} : frames (expr * list token) :=
  match n with
  | O => Some Fuel
  | S n => match d with O => None | S d => let? '(e, r) := parse_primary_in n d ts in postfix_loop_in n d e r end
  end
with postfix_loop_in (n d : nat) (e : expr) (ts : list token) {struct n} : frames (expr * list token) :=
  match n with
  | O => Some Fuel
  | S n =>
    match ts with
    | TDot :: r =>
      match r with
      | TIdent field :: r =>
        match r with
        | TLParen :: r =>
          let? '(args, r) := parse_arguments_in n d r in
          let? r := Some (expect_rparen r) in
          postfix_loop_in n d (EMethodCall e field args) r
        | _ => postfix_loop_in n d (EField e field) r
        end
      | _ => wrong "Expected field name after '.'"
      end
    | TLBracket :: r =>
      let? '(i, r) := parse_unary_in n d r in
      let? r := Some (expect_rbracket r) in
      postfix_loop_in n d (EIndex e i) r
    | _ => done (e, ts)
    end
  end
with parse_primary_in (n d : nat) (ts : list token) {struct n} : frames (expr * list token) :=
  match n with
  | O => Some Fuel
  | S n => match d with O => None | S d =>
    match ts with
    | TIdent name :: r =>
      let? '(tail, r) := Some (path_tail r) in
      let segments := name :: tail in
      match r with
      | TLAngle :: r =>
        let? '(targs, r) := parse_type_arguments_in n d r in
        let? r := Some (expect_rangle r) in
        done (EGeneric (join (st "::") segments) targs, r)
      | TLParen :: r =>
        let? '(args, r) := parse_arguments_in n d r in
        let? r := Some (expect_rparen r) in
        done (ECall (join (st "::") segments) args, r)
      | _ =>
        match tail with
        | [] => done (EVariable name, r)
        | _ => done (EPath segments, r)
        end
      end
    | TNumber v :: r => done (ENumber v, r)
    | TString v :: r => done (EString v, r)
    | TLParen :: r =>
      let? '(e, r) := parse_unary_in n d r in
      let? r := Some (expect_rparen r) in
      done (EParen e, r)
    | _ => wrong "Expected identifier, number, string, or '('"
    end end
  end
with parse_arguments_in (n d : nat) (ts : list token) {struct n} : frames (list expr * list token) :=
  match n with
  | O => Some Fuel
  | S n => match d with O => None | S d =>
    match ts with
    | TRParen :: _ => done ([], ts)
    | _ => let? '(e, r) := parse_unary_in n d ts in args_loop_in n d [e] r
    end end
  end
with args_loop_in (n d : nat) (acc : list expr) (ts : list token) {struct n} : frames (list expr * list token) :=
  match n with
  | O => Some Fuel
  | S n =>
    match ts with
    | TComma :: r => let? '(e, r) := parse_unary_in n d r in args_loop_in n d (acc ++ [e]) r
    | _ => done (acc, ts)
    end
  end.
(** expressions.rs 350-356 and 579-583: an expression parsed on a stack of [d] frames. *)
Definition parse_stack (d : nat) (input : str) : frames expr :=
  let? ts := Some (tokenize input) in
  let? '(e, _) := parse_unary_in (parse_fuel ts) d ts in done e.
