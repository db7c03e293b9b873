(** Model of rudy-lldb/src/server.rs: one client connection.

    A connection is the lines the client will send, in order (after them the client has closed its side), and which writes
    get through; the log records what went over the wire. Lines are modelled after JSON decoding: [Bad] is a line that is
    empty or not a client message, or a failed read. Error texts are abbreviated; tracing is dropped. *)
From Coq Require Import Ascii String List ZArith Lia Bool.
From Verif Require Import Base NumText OMap TypesModel ValueModel DataModel DiscoverModel ExprModel ProcModel IoDataModel EvalModel.
Import ListNotations.
Open Scope Z_scope.

(** protocol.rs 47-57: ClientMessage. *)
Inductive cmsg := Init (binary_path : str) | Command (cmd : str) (args : list str) | EventResponse (data : reply).
(** server.rs 474-487: MethodDiscoveryResult, MethodInfo; evaluator.rs 1167-1180: FunctionInfo. *)
Record minfo := MInfo { mi_name : str; mi_sig : str; mi_description : option str; mi_callable : bool; mi_synthetic : bool }.
Record mresult := MResult { mr_type : str; mr_methods : list minfo }.
Record fninfo := FnInfo { fn_name : str; fn_full : str; fn_sig : str; fn_addr : Z; fn_callable : bool; fn_module : list str }.
(** What Complete carries, before it is serialized. *)
Inductive payload := PValue (r : eresult) | PMethods (r : mresult) | PFunctions (l : list fninfo) | PShutdown.
(** protocol.rs 62-75: ServerMessage. *)
Inductive smsg := Event (q : request) | Complete (result : payload) | ErrorMsg (text : str).
Definition err_msg (m : string) : smsg := ErrorMsg (st m).

(** ** The wire *)
Inductive line := Msg (m : cmsg) | Bad.
Inductive wire := Got (l : line) | Eof | Sent (m : smsg) | Unsent (m : smsg).
(** [cn_up]: whether each coming write gets through (past the end of the list: no). *)
Record conn := Conn { cn_in : list line; cn_up : list bool; cn_log : list wire }.
Definition logged (c : conn) (w : wire) : conn := Conn (cn_in c) (cn_up c) (cn_log c ++ [w]).
(** server.rs 64-83: read_next_message. *)
Definition read_next (c : conn) : res (option cmsg) * conn :=
  match cn_in c with
  | [] => (Ok None, logged c Eof)
  | l :: rest => (match l with Msg m => Ok (Some m) | Bad => Err "Failed to parse message" end, logged (Conn rest (cn_up c) (cn_log c)) (Got l))
  end.
(** server.rs 85-91: write_message. *)
Definition write_message (c : conn) (m : smsg) : res unit * conn :=
  match cn_up c with
  | true :: u => (Ok tt, logged (Conn (cn_in c) u (cn_log c)) (Sent m))
  | false :: u => (Err "write failed", logged (Conn (cn_in c) u (cn_log c)) (Unsent m))
  | [] => (Err "write failed", logged c (Unsent m))
  end.
(** server.rs 181-203: send_event_request. *)
Definition send_event : client conn := fun c q =>
  match write_message c (Event q) with
  | (Ok _, c1) =>
      match read_next c1 with
      | (Ok (Some (EventResponse r)), c2) => (Replied r, c2)
      | (Ok (Some _), c2) => (Broken "Expected EventResponse", c2)
      | (Ok None, c2) => (Broken "Client disconnected while waiting for event response", c2)
      | (Err m, c2) => (Broken m, c2)
      | (_, c2) => (Broken "unreachable", c2)
      end
  | (Err m, c1) => (Broken m, c1)
  | (_, c1) => (Broken "unreachable", c1)
  end.

Section Commands.
Variable D : dbg.
(** server.rs 309-320 and its three repetitions: DiscoveredMethod to MethodInfo. *)
Definition method_info (m : dmethod) : minfo :=
  MInfo (dm_name m) (dm_sig m) (Some (st "Method at address " ++ hex (dm_addr m))) (dm_callable m) (dm_synthetic m).
Definition methods_of_type (name : str) (t : tdef) : res mresult :=
  ms <- g_methods D t ;; Ok (MResult name (map method_info ms)).
(** [if let Ok(Some(type_def)) = lookup_type_by_name(name) {..} else { Err(..) }] *)
Definition type_methods (name : str) (m : string) : res mresult :=
  match g_type D name with
  | Ok (Some t) => methods_of_type name t
  | Panic x => Panic x
  | Fuel => Fuel
  | _ => Err m
  end.
(** server.rs 362-387: evaluate_to_ref, then discover_methods_for_pointer (function_discovery.rs 275-286). *)
Definition pointer_methods (e : expr) : ev mresult :=
  let^ p := e_ref (evaluate D e) in
  let^ ms := elift (rmap (filter has_self) (g_methods D (snd p))) in
  eret (MResult (tname (snd p)) (map method_info ms)).
(** server.rs 292-425: handle_methods_command. *)
Definition methods_command (input : str) : prog (res mresult) :=
  let of_value e := pbind (pointer_methods e None) (fun r => Ret (fst r)) in
  match parse_expression input with
  | Ok e =>
      match e with
      | EVariable v => pbind (is_variable v) (fun b => if b then of_value e else Ret (type_methods v "No type found matching"))
      | EPath _ | EGeneric _ _ => Ret (type_methods (display e) "No type found matching")
      | _ => of_value e
      end
  | Err _ => Ret (type_methods input "Could not resolve as a type or expression")
  | Panic m => Ret (Panic m)
  | Fuel => Ret Fuel
  end.
(** server.rs 428-471: handle_functions_command. *)
Definition function_info (f : dfunction) : fninfo :=
  FnInfo (df_name f) (df_full f) (df_sig f) (df_addr f) (df_callable f) (df_module f).
Definition functions_command (args : list str) : res (list fninfo) :=
  match args with
  | [] => rmap (fun m => map (fun p => function_info (snd p)) m) (g_all_functions D)
  | pattern :: _ => rmap (map function_info) (g_functions D pattern)
  end.
(** [match result { Ok(x) => Complete, Err(e) => Error }] *)
Definition respond {A} (f : A -> payload) (r : res A) : res smsg :=
  match r with
  | Ok a => Ok (Complete (f a))
  | Err m => Ok (err_msg m)
  | Panic m => Panic m
  | Fuel => Fuel
  end.
(** server.rs 206-289: handle_command. *)
Definition handle_command (cmd : str) (args : list str) : prog (res smsg) :=
  if str_eqb cmd (st "eval") || str_eqb cmd (st "print") then
    match args with
    | [] => Ret (Ok (err_msg "Usage: eval <expression>"))
    | _ =>
        match parse_expression (join (st " ") args) with
        | Ok e => pbind (e_val (evaluate D e) None) (fun r => Ret (respond PValue (fst r)))
        | Err m => Ret (Ok (err_msg m))
        | Panic m => Ret (Panic m)
        | Fuel => Ret Fuel
        end
    end
  else if str_eqb cmd (st "methods") then
    match args with
    | [] => Ret (Ok (err_msg "Usage: methods <type_name_or_expression>"))
    | _ => pbind (methods_command (join (st " ") args)) (fun r => Ret (respond PMethods r))
    end
  else if str_eqb cmd (st "functions") then Ret (respond PFunctions (functions_command args))
  else if str_eqb cmd (st "shutdown") then Ret (Ok (Complete PShutdown))
  else Ret (Ok (ErrorMsg (st "Unknown command: " ++ cmd))).
End Commands.

(** How a connection ends: the client closed it; an error or a panic ends its thread (the socket is closed); the process
    exits. [Budget] is the model's own. *)
Inductive ending := Closed | Aborted (why : string) | Panicked (why : string) | Exited | Budget.
(** server.rs 93-120: init; [load]: DebugInfo::new. *)
Definition init (load : str -> res dbg) (c : conn) : res (option dbg) * conn :=
  let '(r, c1) := read_next c in
  match r with
  | Ok None => (Err "Client disconnected before sending init message", c1)
  | Ok (Some (Init path)) => (rmap Some (load path), c1)
  | Ok (Some (Command cmd _)) =>
      if str_eqb cmd (st "shutdown") then
        let '(w, c2) := write_message c1 (Complete PShutdown) in
        (match w with Ok _ => Ok None | Err m => Err m | Panic m => Panic m | Fuel => Fuel end, c2)
      else (Err "Invalid message, expected init or shutdown", c1)
  | Ok (Some _) => (Err "Invalid message, expected init or shutdown", c1)
  | Err m => (Err m, c1)
  | Panic m => (Panic m, c1)
  | Fuel => (Fuel, c1)
  end.
(** server.rs 134-177: the loop; every round reads at least one line, so [n] above their number is enough. *)
Fixpoint serve (D : dbg) (n : nat) (c : conn) : ending * conn :=
  match n with
  | O => (Budget, c)
  | S n' =>
      let '(r, c1) := read_next c in
      match r with
      | Ok None => (Closed, c1)
      | Ok (Some m) =>
          match m with
          | Command cmd args =>
              let '(_, a, c2) := exec send_event (handle_command D cmd args) c1 in
              match a with
              | Ok response =>
                  let '(w, c3) := write_message c2 response in
                  match w with
                  | Ok _ => if str_eqb cmd (st "shutdown") then (Exited, c3) else serve D n' c3
                  | Err m => (Aborted m, c3)
                  | Panic m => (Panicked m, c3)
                  | Fuel => (Budget, c3)
                  end
              | Err m => (Aborted m, c2)
              | Panic m => (Panicked m, c2)
              | Fuel => (Budget, c2)
              end
          | Init _ => (Aborted "Unexpected init message in existing session", c1)
          | EventResponse _ => (Aborted "Unexpected EventResponse message in existing session", c1)
          end
      | Err m =>
          let '(w, c2) := write_message c1 (err_msg m) in
          match w with
          | Ok _ => serve D n' c2
          | Err m => (Aborted m, c2)
          | Panic m => (Panicked m, c2)
          | Fuel => (Budget, c2)
          end
      | Panic m => (Panicked m, c1)
      | Fuel => (Budget, c1)
      end
  end.
(** server.rs 123-179: run_server_loop, for a client that will send [lines]. *)
Definition run_session (load : str -> res dbg) (lines : list line) (up : list bool) : ending * list wire :=
  let '(r, c) := init load (Conn lines up []) in
  match r with
  | Ok (Some D) => let '(e, c2) := serve D (S (List.length lines)) c in (e, cn_log c2)
  | Ok None => (Exited, cn_log c)
  | Err m => (Aborted m, cn_log c)
  | Panic m => (Panicked m, cn_log c)
  | Fuel => (Budget, cn_log c)
  end.
