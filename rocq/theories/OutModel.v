(** Model of what the server writes to its own standard output and error while it serves a connection, and of a reader of
    them that may be missing: rudy-lldb/src/main.rs 60-69 (the log goes to standard output, errors are on unless RUST_LOG
    says otherwise), rudy-lldb/src/server.rs 134-177 and 206-289 (the loop and the commands, as in ServerModel) with the
    log calls at 142 and 393, and rudy-lldb/python/rudy_lldb.py 907-912 (the server is started with pipes for both that
    are read only when it fails to start).

    One connection at a time; [said]: the sizes of what has been written before, by any connection. A write that does not
    go through blocks the thread for good. The shape of a log line ([frame]) and of a panic's message ([dying]), what the
    libraries log on the way ([lib]) and which writes a pipe takes ([takes_out], [takes_err]) are parameters. *)
From Coq Require Import Ascii String List ZArith Lia Bool.
From Verif Require Import Base NumText Utf8 TypesModel ExprModel ProcModel IoDataModel EvalModel ServerModel.
Import ListNotations.
Open Scope Z_scope.

Record said := Said { to_out : list nat; to_err : list nat }.
(** How it stops: as in ServerModel, or never: the thread waits for somebody to read what it writes. *)
Inductive fate := Ended (e : ending) | Hanging.

Section Out.
Variable frame : str -> list Z.
Variable dying : string -> list Z.
Variable lib : conn -> list nat.
Variables takes_out takes_err : list nat -> bool.

(** server.rs 362-397: what handle_methods_command logs: a failed evaluation, not a failed discovery. *)
Definition tells_of (D : dbg) (input : str) (e : expr) : prog (list Z) :=
  pbind (e_ref (evaluate D e) None) (fun r => Ret (match fst r with
    | Err m => frame (st "Failed to evaluate expression '" ++ input ++ st "': " ++ st m)
    | _ => []
    end)).
(** server.rs 206-289, 292-425: what handle_command logs; the questions are those of [handle_command]. *)
Definition tells (D : dbg) (cmd : str) (args : list str) : prog (list Z) :=
  if str_eqb cmd (st "methods") then
    match args with
    | [] => Ret []
    | _ =>
      let input := join (st " ") args in
      match parse_expression input with
      | Ok e =>
          match e with
          | EVariable v => pbind (is_variable v) (fun b => if b then tells_of D input e else Ret [])
          | EPath _ | EGeneric _ _ => Ret []
          | _ => tells_of D input e
          end
      | _ => Ret []
      end
    end
  else Ret [].
(** Writing to standard output. *)
Definition say (l : list nat) (s : said) : option said :=
  let s' := Said (to_out s ++ l) (to_err s) in if takes_out (to_out s') then Some s' else None.
Definition line_of (text : list Z) : list nat := match text with [] => [] | _ => [List.length text] end.
(** A panic: the message is written to standard error, then the thread ends. *)
Definition panics (why : string) (c : conn) (s : said) : fate * conn * said :=
  let s' := Said (to_out s) (to_err s ++ [List.length (dying why)]) in
  if takes_err (to_err s') then (Ended (Panicked why), c, s') else (Hanging, c, s).

(** server.rs 134-177, as [serve], with the log. *)
Fixpoint serve_out (D : dbg) (n : nat) (c : conn) (s : said) : fate * conn * said :=
  match n with
  | O => (Ended Budget, c, s)
  | S n' =>
      let '(r, c1) := read_next c in
      match r with
      | Ok None => (Ended Closed, c1, s)
      | Ok (Some m) =>
          match m with
          | Command cmd args =>
              let '(_, t, _) := exec send_event (tells D cmd args) c1 in
              let '(_, a, c2) := exec send_event (handle_command D cmd args) c1 in
              match say (lib c1 ++ line_of t) s with
              | None => (Hanging, c2, s)
              | Some s1 =>
                match a with
                | Ok response =>
                    let '(w, c3) := write_message c2 response in
                    match w with
                    | Ok _ => if str_eqb cmd (st "shutdown") then (Ended Exited, c3, s1) else serve_out D n' c3 s1
                    | Err m => (Ended (Aborted m), c3, s1)
                    | Panic m => panics m c3 s1
                    | Fuel => (Ended Budget, c3, s1)
                    end
                | Err m => (Ended (Aborted m), c2, s1)
                | Panic m => panics m c2 s1
                | Fuel => (Ended Budget, c2, s1)
                end
              end
          | Init _ => (Ended (Aborted "Unexpected init message in existing session"), c1, s)
          | EventResponse _ => (Ended (Aborted "Unexpected EventResponse message in existing session"), c1, s)
          end
      | Err m =>
          match say [List.length (frame (st "Failed to read message: " ++ st m))] s with
          | None => (Hanging, c1, s)
          | Some s1 =>
              let '(w, c2) := write_message c1 (err_msg m) in
              match w with
              | Ok _ => serve_out D n' c2 s1
              | Err m => (Ended (Aborted m), c2, s1)
              | Panic m => panics m c2 s1
              | Fuel => (Ended Budget, c2, s1)
              end
          end
      | Panic m => panics m c1 s
      | Fuel => (Ended Budget, c1, s)
      end
  end.
(** server.rs 123-179: run_server_loop, as [run_session], after [s] has been written. *)
Definition session_out (load : str -> res dbg) (lines : list line) (up : list bool) (s : said) : fate * list wire * said :=
  let '(r, c) := init load (Conn lines up []) in
  let '(f, c', s') :=
    match r with
    | Ok (Some D) => serve_out D (S (List.length lines)) c s
    | Ok None => (Ended Exited, c, s)
    | Err m => (Ended (Aborted m), c, s)
    | Panic m => panics m c s
    | Fuel => (Ended Budget, c, s)
    end in
  (f, cn_log c', s').
End Out.
