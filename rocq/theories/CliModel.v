(** Model of the command line of the server binary: rudy-lldb/src/main.rs 13-59 and 72-85 (Args, Command, main), as clap 4's
    derive turns them into a parser.

    clap is a dependency: its parser (clap_builder, Parser::get_matches_with, parse_long_arg, parse_short_arg,
    parse_opt_value, react) is modelled as documented for what these declarations use: options with one value, flags, help
    and version, one level of subcommands. Arguments are texts; messages are left out: an outcome is a command that runs,
    help or version shown with success, or a refusal (exit code 2). *)
From Coq Require Import Ascii String List ZArith NArith Lia Bool.
From Verif Require Import Base NumText ExprModel.
Import ListNotations.
Open Scope Z_scope.

(** An argument of a subcommand: its long and short names, and whether it takes a value. *)
Record arg := Arg { a_long : str; a_short : char; a_value : bool }.
(** main.rs 22-30 and 32-40. *)
Definition server_args : list arg := [Arg (st "port") (ch "p") true; Arg (st "host") (ch "H") true].
(** main.rs 42-54. *)
Definition install_args : list arg := [Arg (st "dir") (ch "d") true; Arg (st "skip-lldbinit") (ch "s") false; Arg (st "yes") (ch "y") false].
(** main.rs 20-55: Command. *)
Inductive command := Start (port : Z) (host : str) | Stop (port : Z) (host : str) | Install (dir : str) (skip_lldbinit assume_yes : bool).
Inductive outcome := Runs (c : command) | Shows | Refuses.

(** value_parser!(u16): str::parse::<i64>, then 0..=65535. *)
Definition unsigned (s : str) : option Z := if (match s with [] => false | _ => true end) && forallb is_digit s then Some (digits_value 10 s) else None.
Definition port_value (s : str) : option Z :=
  match (match s with
         | c :: r => if (c =? ch "+")%N then unsigned r else if (c =? ch "-")%N then option_map Z.opp (unsigned r) else unsigned s
         | [] => None
         end) with
  | Some n => if (0 <=? n) && (n <=? 65535) then Some n else None
  | None => None
  end.
Definition settings := list (str * str).
Definition setting (k : str) (l : settings) : option str := option_map snd (find (fun e => str_eqb (fst e) k) l).
(** react, ArgAction::Set and SetTrue: once each, and the value has to be one of the type. *)
Definition take (a : arg) (v : str) (l : settings) : option settings :=
  match setting (a_long a) l with
  | Some _ => None
  | None => if str_eqb (a_long a) (st "port") then match port_value v with Some _ => Some ((a_long a, v) :: l) | None => None end
            else Some ((a_long a, v) :: l)
  end.
(** ParsedArg::to_long (the name, and the value after the first "="), to_short; anything else stands for itself. *)
Inductive token := Long (name : str) (value : option str) | Shorts (cs : str) | Escape | Word.
Fixpoint at_equals (s : str) : str * option str :=
  match s with [] => ([], None) | c :: r => if (c =? ch "=")%N then ([], Some r) else let '(n, v) := at_equals r in (c :: n, v) end.
Definition token_of (s : str) : token :=
  match s with
  | c :: r =>
      if (c =? ch "-")%N then
        match r with
        | [] => Word
        | d :: r2 => if (d =? ch "-")%N then match r2 with [] => Escape | _ => let '(n, v) := at_equals r2 in Long n v end else Shorts r
        end
      else Word
  | [] => Word
  end.
Definition is_word (s : str) : bool := match token_of s with Word => true | _ => false end.
(** parse_short_arg: a cluster of flags, perhaps ended by an option with its value or without. *)
Inductive cluster_end := Said (l : settings) | Wants (a : arg) (l : settings) | Helped | Wrong.
Fixpoint cluster (T : list arg) (cs : str) (l : settings) : cluster_end :=
  match cs with
  | [] => Said l
  | c :: r =>
      if (c =? ch "h")%N then Helped
      else match find (fun a => (a_short a =? c)%N) T with
           | None => Wrong
           | Some a =>
               if a_value a then
                 match r with
                 | [] => Wants a l
                 | d :: r2 => match take a (if (d =? ch "=")%N then r2 else r) l with Some l2 => Said l2 | None => Wrong end
                 end
               else match take a (st "true") l with Some l2 => cluster T r l2 | None => Wrong end
           end
  end.
Inductive scanned := Given (l : settings) | Help | Bad.
(** get_matches_with, in a subcommand. *)
Fixpoint scan (T : list arg) (ts : list str) (l : settings) : scanned :=
  match ts with
  | [] => Given l
  | t :: r =>
      let wants a l := match r with
                       | v :: r2 => if is_word v then match take a v l with Some l2 => scan T r2 l2 | None => Bad end else Bad
                       | [] => Bad
                       end in
      match token_of t with
      | Word => Bad
      | Escape => match r with [] => Given l | _ => Bad end
      | Long n v =>
          if str_eqb n (st "help") then match v with None => Help | Some _ => Bad end
          else match find (fun a => str_eqb (a_long a) n) T with
               | None => Bad
               | Some a =>
                   if a_value a then match v with Some x => match take a x l with Some l2 => scan T r l2 | None => Bad end | None => wants a l end
                   else match v with Some _ => Bad | None => match take a (st "true") l with Some l2 => scan T r l2 | None => Bad end end
               end
      | Shorts cs =>
          match cluster T cs l with
          | Said l2 => scan T r l2
          | Wants a l2 => wants a l2
          | Helped => Help
          | Wrong => Bad
          end
      end
  end.
(** main.rs 24-29, 34-39, 44-53: default values. *)
Definition value_or (k d : str) (l : settings) : str := match setting k l with Some v => v | None => d end.
Definition port_of (l : settings) : Z := match port_value (value_or (st "port") (st "5737") l) with Some n => n | None => 0 end.
Definition host_of (l : settings) : str := value_or (st "host") (st "127.0.0.1") l.
Definition given (k : str) (l : settings) : bool := match setting k l with Some _ => true | None => false end.
Definition install_of (l : settings) : command := Install (value_or (st "dir") (st "~/.lldb") l) (given (st "skip-lldbinit") l) (given (st "yes") l).
Definition finish (f : settings -> command) (x : scanned) : outcome := match x with Given l => Runs (f l) | Help => Shows | Bad => Refuses end.
(** clap's own subcommand help. *)
Definition help_about (ts : list str) : outcome :=
  match ts with
  | [] => Shows
  | [t] => if existsb (str_eqb t) (map st ["start"; "stop"; "install"; "help"]%string) then Shows else Refuses
  | _ => Refuses
  end.
(** main.rs 13-18, 58-85: what main is asked to do, given the arguments after the program's name. *)
Definition command_line (ts : list str) : outcome :=
  match ts with
  | [] => Refuses
  | t :: r =>
      if str_eqb t (st "start") then finish (fun l => Start (port_of l) (host_of l)) (scan server_args r [])
      else if str_eqb t (st "stop") then finish (fun l => Stop (port_of l) (host_of l)) (scan server_args r [])
      else if str_eqb t (st "install") then finish install_of (scan install_args r [])
      else if str_eqb t (st "help") then help_about r
      else match token_of t with
           | Long n None => if str_eqb n (st "help") || str_eqb n (st "version") then Shows else Refuses
           | Shorts (c :: _) => if (c =? ch "h")%N || (c =? ch "V")%N then Shows else Refuses
           | _ => Refuses
           end
  end.
