(** Model of the rd command as typed in LLDB, with the server started on demand: rudy-lldb/python/rudy_lldb.py 24-34
    (configuration), 868-949 (_ensure_server_running, _start_server), 952-1003 (_get_connection), 1006-1126 (rudy_command).

    The machine is a parameter: whether a connection to the server's address is accepted (and what the machine looks like
    afterwards), what becomes of a started process, whether a connection to the server is made, and what is returned by
    send_command (SessionModel). Waiting is not an action. Debug output (RUDY_DEBUG) is left out, and so are exceptions raised by
    LLDB's own calls. *)
From Coq Require Import Ascii String List ZArith NArith Lia Bool.
From Verif Require Import Base NumText JsonModel WireModel ClientModel.
Import ListNotations.
Open Scope Z_scope.

(** 24-25: is_truthy; str.lower restricted to ASCII letters (no other character becomes one of the letters of the four words). *)
Definition lower_char (c : char) : char := if ((65 <=? c) && (c <=? 90))%N then (c + 32)%N else c.
Definition is_truthy (s : str) : bool :=
  existsb (str_eqb (map lower_char s)) (map st ["1"; "true"; "on"; "yes"]%string).
(** 28-34: the configuration. RUDY_PORT has been read as a number. *)
Record config := Config { host : str; port : Z; autostart : option str }.
Definition auto (c : config) : bool := is_truthy (match autostart c with Some s => s | None => st "1" end).

(** What is done, in order. *)
Inductive probe := Up | Down | Broken (e : str).
Inductive act :=
| Printed (s : str)
| Probed (r : probe)
| Spawned (cmd : list str)
| Polled (finished : bool)
| Collected (finished : bool)
| Killed
| Connected (binary : str) (ok : bool)
| Sent (cmd : str) (args : list str).

Record machine (W : Type) := Machine {
  m_probe : W -> probe * W;
  m_which : str -> bool;
  m_spawn : list str -> W -> option str * W;          (* the exception, if any *)
  m_poll : W -> option (str * str) * W;               (* the output of the process, once it has ended *)
  m_collect : W -> option (str * str) * W;            (* the same, waiting for a second *)
  m_kill : W -> W;
  m_connect : str -> W -> bool * W;
  m_send : str -> str -> list str -> W -> res json * W; (* by the binary of the connection used *)
}.
Arguments m_probe {W} _ _.
Arguments m_which {W} _ _.
Arguments m_spawn {W} _ _ _.
Arguments m_poll {W} _ _.
Arguments m_collect {W} _ _.
Arguments m_kill {W} _ _.
Arguments m_connect {W} _ _ _.
Arguments m_send {W} _ _ _ _ _.

Section Rd.
Context {W : Type}.
Variable M : machine W.
Variable C : config.
Definition job (A : Type) := W -> A * list act * W.
Definition jret {A} (a : A) : job A := fun w => (a, [], w).
Definition jbind {A B} (x : job A) (f : A -> job B) : job B := fun w =>
  let '(a, t, w1) := x w in let '(b, u, w2) := f a w1 in (b, t ++ u, w2).
Definition jprint (s : str) : job unit := fun w => (tt, [Printed s], w).
Fixpoint jprints (l : list str) : job unit := match l with [] => jret tt | s :: l' => jbind (jprint s) (fun _ => jprints l') end.

(** 868-879: _ensure_server_running. *)
Definition server_running : job bool := fun w =>
  let '(r, w1) := m_probe M w in
  match r with
  | Up => (true, [Probed r], w1)
  | Down => (false, [Probed r], w1)
  | Broken e => (false, [Probed r; Printed (st "Error checking server status: " ++ e)], w1)
  end.

(** 882-904: the command line. *)
Definition server_command : list str :=
  (if m_which M (st "rudy-lldb-server") then [st "rudy-lldb-server"]
   else if m_which M (st "cargo") then map st ["cargo"; "run"; "-p"; "rudy-lldb"; "--bin"; "rudy-lldb-server"; "--"]%string
   else [st "rudy-lldb-server"])
  ++ [st "start"; st "--port"; dec (port C); st "--host"; host C].
Definition cargo_note : list str :=
  if m_which M (st "rudy-lldb-server") then [] else if m_which M (st "cargo") then [st "rudy-lldb-server binary not found, trying to run with cargo"] else [].
Definition esc (colour text : string) : str := (27%N :: st colour) ++ st text ++ (27%N :: st "[0m").
Definition address : str := host C ++ st ":" ++ dec (port C).
Definition output_lines (o : str * str) : list str :=
  (match fst o with [] => [] | s => [st "stdout: " ++ s] end) ++ (match snd o with [] => [] | s => [st "stderr: " ++ s] end).

(** 915-934: the ten attempts. [None]: none of them decided. *)
Fixpoint await (n : nat) : job (option bool) :=
  match n with
  | O => jret None
  | S n' =>
    jbind server_running (fun up =>
    if up then jbind (jprint (st "Rudy server started successfully")) (fun _ => jret (Some true))
    else fun w =>
      let '(o, w1) := m_poll M w in
      match o with
      | Some out => let '(_, t, w2) := jprints (esc "[91m" "Rudy server failed to start!" :: output_lines out) w1 in (Some false, Polled true :: t, w2)
      | None => let '(r, t, w2) := await n' w1 in (r, Polled false :: t, w2)
      end)
  end.
(** 936-947: giving up. *)
Definition give_up : job bool := fun w =>
  let '(o, w1) := m_collect M w in
  match o with
  | Some out => let '(_, t, w2) := jprints (output_lines out) w1 in (false, Collected true :: t, w2)
  | None => (false, [Collected false; Killed; Printed (st "Server process did not respond, killed it")], m_kill M w1)
  end.
(** 882-949: _start_server. *)
Definition start_server : job bool :=
  jbind server_running (fun up =>
  if up then jret true
  else
    jbind (jprints cargo_note) (fun _ =>
    jbind (jprint (st "Starting Rudy server on " ++ address ++ st "...")) (fun _ => fun w =>
    let '(x, w1) := m_spawn M server_command w in
    match x with
    | Some e => (false, [Printed (st "Error starting server: " ++ e)], w1)
    | None =>
      let '(r, t, w2) :=
        jbind (await 10) (fun r =>
        match r with
        | Some b => jret b
        | None => jbind (jprint (st "Failed to start Rudy server - timeout waiting for server to respond")) (fun _ => give_up)
        end) w1 in
      (r, Spawned server_command :: t, w2)
    end))).

Definition start_note : str := esc "[93m" ("rudy-lldb server is not running, automatically attempting to start." ++ String (ascii_of_nat 10) "To stop this behavior set the RUDY_AUTOSTART env var to 0").
Definition off_note : str := esc "[93m" ("rudy-lldb server is not running." ++ String (ascii_of_nat 10) "Make sure you run `rudy-lldb-server` first, or set the RUDY_AUTOSTART env var to True").
(** 952-1003: _get_connection. [conn]: the binary of the connection there is; [target]: no target, a target without
    executable, or the directory and name of the executable. *)
Definition connection (conn : option str) (target : option (option (str * str))) : job (option str) :=
  match target with
  | None => jbind (jprint (st "No target selected")) (fun _ => jret None)
  | Some None => jbind (jprint (st "No executable in target")) (fun _ => jret None)
  | Some (Some (dir, file)) =>
    let binary := dir ++ st "/" ++ file in
    match conn with
    | Some q => jret (Some q)
    | None =>
      jbind server_running (fun up =>
      jbind (if up then jret true
             else if auto C then jbind (jprint start_note) (fun _ => start_server)
             else jbind (jprint off_note) (fun _ => jret false)) (fun go =>
      if go then fun w => let '(ok, w1) := m_connect M binary w in ((if ok then Some binary else None), [Connected binary ok], w1)
      else jret None))
    end
  end.

Definition usage : list str :=
  map st ["Usage: rd <subcommand> [args...]"; "Available commands:"; "  eval <expression>     - Evaluate a Rust expression";
          "  methods <expression>  - List all methods for a type or expression"; "  functions [pattern]   - List all functions or search by pattern";
          "  print <expression>    - Pretty print a Rust expression"; "  status                - Show Rudy server status"]%string.
(** 1006-1126: rudy_command; gives the connection that is kept. [repr]: as in ClientModel. *)
Definition rd (repr : json -> str) (conn : option str) (target : option (option (str * str))) (line : str) : job (option str) :=
  match py_split line with
  | [] => jbind (jprints usage) (fun _ => jret conn)
  | w :: args =>
    let cmd := shortcode w in
    if str_eqb cmd (st "status") then
      jbind server_running (fun up =>
      jbind (jprint (if up then st "Rudy server is running on " ++ address else st "Rudy server is not running")) (fun _ => jret conn))
    else
      jbind (connection conn target) (fun use =>
      match use with
      | None => jbind (jprint (st "Failed to connect to Rudy server")) (fun _ => jret conn)
      | Some p => fun w0 =>
        let '(r, w1) := m_send M p cmd args w0 in
        let '(_, t, w2) := jprints (match r with
                                    | Ok (JObj fs) => print_response repr cmd fs
                                    | Ok _ => [st "Command failed: "]
                                    | Err e => [st "Command failed: " ++ st e]
                                    | _ => [st "Command failed: "]
                                    end) w1 in
        (Some p, Sent cmd args :: t, w2)
      end)
  end.
End Rd.
