(** Model of a whole rd session on the LLDB side: rudy-lldb/python/rudy_lldb.py 83-102 (send_command) over the bytes of a
    connection, and 952-1003 (_get_connection). *)
From Coq Require Import Ascii String List ZArith NArith Lia Bool.
From Verif Require Import Base NumText Utf8 JsonModel ExprModel ProcModel EvalModel ServerModel WireModel ClientModel.
Import ListNotations.
Open Scope Z_scope.

Section Loop.
Context {St : Type}.
Variable L : debugger St.
(** 91-102: the loop of send_command, over the messages the server will have written. Gives what send_command returns or
    raises, the answers sent meanwhile, and the messages left. *)
Fixpoint event_loop (msgs : list (res json)) (s : St) : res json * list reply * list (res json) * St :=
  match msgs with
  | [] => (Err "Server closed connection", [], [], s)
  | Ok (JObj fs) :: rest =>
      if is_text (get "type" fs) "Event" then
        let '(r, s1) := handle_event L fs s in
        let '(x, rs, rest', s2) := event_loop rest s1 in (x, r :: rs, rest', s2)
      else if is_text (get "type" fs) "Complete" || is_text (get "type" fs) "Error" then (Ok (JObj fs), [], rest, s)
      else (Err "Unknown response type", [], rest, s)
  | _ :: rest => (Err "not a message", [], rest, s)
  end.
(** Commands one after the other on one connection (1046-1126): a failed one is reported, the connection stays in use. *)
Fixpoint run_commands (cmds : list (str * list str)) (msgs : list (res json)) (s : St) : list (res json) * list cmsg * St :=
  match cmds with
  | [] => ([], [], s)
  | (c, args) :: cmds' =>
      let '(x, rs, rest, s1) := event_loop msgs s in
      let '(xs, ms, s2) := run_commands cmds' rest s1 in
      (x :: xs, Command c args :: map EventResponse rs ++ ms, s2)
  end.
(** 52-67: the connection begins with Init. *)
Definition client_stream (p : str) (cmds : list (str * list str)) (server : list Z) (s : St) : list (res json) * list Z * St :=
  let '(xs, ms, s2) := run_commands cmds (py_messages server) s in (xs, flat_map client_bytes (Init p :: ms), s2).
End Loop.

(** 952-1003: _get_connection. The state is the binary named in Init when the connection was made, if there is one;
    [target]: the executable of the selected target; [up]: a connection can be made now. Gives the connection to use. *)
Definition get_connection (conn target : option str) (up : bool) : option str * option str :=
  match target with
  | None => (None, conn)
  | Some p =>
      match conn with
      | Some q => (Some q, conn)
      | None => if up then (Some p, Some p) else (None, None)
      end
  end.
Fixpoint connections (conn : option str) (steps : list (option str * bool)) : list (option str) :=
  match steps with
  | [] => []
  | (t, up) :: steps' => let '(use, conn') := get_connection conn t up in use :: connections conn' steps'
  end.
