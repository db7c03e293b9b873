(** Model of rudy-lldb/src/server.rs 19-44 (run_server): the connections of one server as they interleave, each a thread
    that blocks whenever it reads; and of rudy-lldb/src/main.rs 88-112 (stop_server).

    A thread runs from one read to the next without being observed in between: what it does touches nothing another
    thread sees (its own socket, and the database, whose entries are made by each session anew: File is a salsa input,
    file/mod.rs 59-91; memoization is not modelled). *)
From Coq Require Import Ascii String List ZArith NArith Lia Bool.
From Verif Require Import Base NumText Utf8 ProcModel ExprModel ExprLexProofs EvalModel ServerModel.
Import ListNotations.
Open Scope Z_scope.

(** What a connection's thread is blocked in: reading the first message; reading the next command; reading the answer to
    an event asked while handling [cmd]; or it has ended. *)
Inductive phase := Starting | Ready (D : dbg) | Asking (D : dbg) (cmd : str) (k : answer -> prog (res smsg)) | Done (e : ending).
Record thread := Thread { th_phase : phase; th_up : list bool; th_log : list wire }.
Definition in_phase (p : phase) (c : conn) : thread := Thread p (cn_up c) (cn_log c).
(** server.rs 134-142: back to the top of the loop; the client may have closed its side. *)
Definition ready (closed : bool) (D : dbg) (c : conn) : thread := if closed then in_phase (Done Closed) (logged c Eof) else in_phase (Ready D) c.
(** server.rs 155-177 and 180-203: handling a command up to the next read (or, when the client has closed its side, to
    the end). *)
Fixpoint proceed (closed : bool) (D : dbg) (cmd : str) (p : prog (res smsg)) (c : conn) : thread :=
  match p with
  | Ret (Ok m) =>
      match write_message c m with
      | (Ok _, c1) => if str_eqb cmd (st "shutdown") then in_phase (Done Exited) c1 else ready closed D c1
      | (Err why, c1) => in_phase (Done (Aborted why)) c1
      | (Panic why, c1) => in_phase (Done (Panicked why)) c1
      | (Fuel, c1) => in_phase (Done Budget) c1
      end
  | Ret (Err why) => in_phase (Done (Aborted why)) c
  | Ret (Panic why) => in_phase (Done (Panicked why)) c
  | Ret Fuel => in_phase (Done Budget) c
  | Ask q k =>
      match write_message c (Event q) with
      | (Ok _, c1) =>
          if closed then proceed closed D cmd (k (Broken "Client disconnected while waiting for event response")) (logged c1 Eof)
          else in_phase (Asking D cmd k) c1
      | (Err why, c1) => proceed closed D cmd (k (Broken why)) c1
      | (_, c1) => proceed closed D cmd (k (Broken "unreachable")) c1
      end
  end.
(** server.rs 64-82: what the read gives: a line, or the end of the stream. *)
Definition note (x : option line) : wire := match x with Some l => Got l | None => Eof end.
Definition is_closed (x : option line) : bool := match x with Some _ => false | None => true end.
(** server.rs 188-198. *)
Definition answer_of (x : option line) : answer :=
  match x with
  | Some (Msg (EventResponse r)) => Replied r
  | Some (Msg _) => Broken "Expected EventResponse"
  | Some Bad => Broken "Failed to parse message"
  | None => Broken "Client disconnected while waiting for event response"
  end.
(** The blocked thread gets this from its read and runs to its next read; [load]: DebugInfo::new at that time. *)
Definition receive (load : str -> res dbg) (t : thread) (x : option line) : thread :=
  let c := logged (Conn [] (th_up t) (th_log t)) (note x) in
  match th_phase t with
  | Done _ => t
  | Starting =>
      match x with
      | None => in_phase (Done (Aborted "Client disconnected before sending init message")) c
      | Some Bad => in_phase (Done (Aborted "Failed to parse message")) c
      | Some (Msg (Init p)) =>
          match load p with
          | Ok D => in_phase (Ready D) c
          | Err why => in_phase (Done (Aborted why)) c
          | Panic why => in_phase (Done (Panicked why)) c
          | Fuel => in_phase (Done Budget) c
          end
      | Some (Msg (Command cmd _)) =>
          if str_eqb cmd (st "shutdown") then
            match write_message c (Complete PShutdown) with
            | (Ok _, c1) => in_phase (Done Exited) c1
            | (Err why, c1) => in_phase (Done (Aborted why)) c1
            | (Panic why, c1) => in_phase (Done (Panicked why)) c1
            | (Fuel, c1) => in_phase (Done Budget) c1
            end
          else in_phase (Done (Aborted "Invalid message, expected init or shutdown")) c
      | Some (Msg (EventResponse _)) => in_phase (Done (Aborted "Invalid message, expected init or shutdown")) c
      end
  | Ready D =>
      match x with
      | None => in_phase (Done Closed) c
      | Some Bad =>
          match write_message c (err_msg "Failed to parse message") with
          | (Ok _, c1) => in_phase (Ready D) c1
          | (Err why, c1) => in_phase (Done (Aborted why)) c1
          | (Panic why, c1) => in_phase (Done (Panicked why)) c1
          | (Fuel, c1) => in_phase (Done Budget) c1
          end
      | Some (Msg (Command cmd args)) => proceed false D cmd (handle_command D cmd args) c
      | Some (Msg (Init _)) => in_phase (Done (Aborted "Unexpected init message in existing session")) c
      | Some (Msg (EventResponse _)) => in_phase (Done (Aborted "Unexpected EventResponse message in existing session")) c
      end
  | Asking D cmd k => proceed (is_closed x) D cmd (k (answer_of x)) c
  end.

(** ** The server *)
(** The i-th connection accepted is session i (30-42). *)
Record server := Server { sv_threads : list thread; sv_running : bool }.
(** What happens to it: a client connects ([up]: which writes to it will get through), accept fails, a line from
    connection [i] arrives (with the files as they are then), connection [i] is closed by its client. *)
Inductive event := Connects (up : list bool) | AcceptFails | Arrives (i : nat) (load : str -> res dbg) (l : line) | HangsUp (i : nat).
Definition exited (t : thread) : bool := match th_phase t with Done Exited => true | _ => false end.
Fixpoint set_nth {A} (i : nat) (a : A) (l : list A) : list A :=
  match l, i with
  | [], _ => []
  | _ :: l', O => a :: l'
  | x :: l', S i' => x :: set_nth i' a l'
  end.
(** A thread that ends by an error or a panic leaves the others alone; std::process::exit(0) (130, 174) ends them all, and
    so does a failing accept (server.rs 31, main.rs 72). *)
Definition feed (s : server) (i : nat) (load : str -> res dbg) (x : option line) : server :=
  match nth_error (sv_threads s) i with
  | Some t => let t' := receive load t x in Server (set_nth i t' (sv_threads s)) (negb (exited t'))
  | None => s
  end.
Definition step (s : server) (e : event) : server :=
  if sv_running s then
    match e with
    | Connects up => Server (sv_threads s ++ [Thread Starting up []]) true
    | AcceptFails => Server (sv_threads s) false
    | Arrives i load l => feed s i load (Some l)
    | HangsUp i => feed s i (fun _ => Err "unused") None
    end
  else s.
Definition run (evs : list event) : server := fold_left step evs (Server [] true).

(** ** rudy-lldb stop *)
(** core::net::parser: Parser::read_number. *)
Definition read_number (max : Z) (max_digits : option nat) (zeros : bool) (s : str) : option (Z * str) :=
  let '(ds, r) := span is_digit s in
  let n := List.length ds in
  if (n =? 0)%nat then None
  else if match max_digits with Some k => (k <? n)%nat | None => false end then None
  else if negb zeros && (1 <? n)%nat && match ds with c :: _ => (c =? 48)%N | [] => false end then None
  else let v := digits_value 10 ds in if v <=? max then Some (v, r) else None.
Definition read_char (c : char) (s : str) : option str := match s with d :: r => if (d =? c)%N then Some r else None | [] => None end.
Definition octet (s : str) : option (Z * str) := read_number 255 (Some 3%nat) false s.
Definition then_octet (p : list Z * str) : option (list Z * str) :=
  match read_char (ch ".") (snd p) with
  | Some s => match octet s with Some (v, r) => Some (fst p ++ [v], r) | None => None end
  | None => None
  end.
Definition obind {A B} (o : option A) (f : A -> option B) : option B := match o with Some a => f a | None => None end.
(** read_ipv4_addr, read_socket_addr_v4; all of the text has to be used. *)
Definition ipv4_socket (s : str) : option (list Z * Z) :=
  obind (octet s) (fun p => obind (then_octet ([fst p], snd p)) (fun p => obind (then_octet p) (fun p => obind (then_octet p) (fun p =>
  obind (read_char (ch ":") (snd p)) (fun s => obind (read_number 65535 None true s) (fun q => match snd q with [] => Some (fst p, fst q) | _ => None end)))))).
(** SocketAddr::from_str; [v6] reads the addresses in brackets. *)
Definition socket_addr (v6 : str -> option (list Z * Z)) (s : str) : option (list Z * Z) :=
  match ipv4_socket s with
  | Some a => Some a
  | None => match s with c :: _ => if (c =? ch "[")%N then v6 s else None | [] => None end
  end.
Definition quoted (s : string) : str := [34%N] ++ st s ++ [34%N].
(** main.rs 94-96. *)
Definition stop_bytes : list Z := utf8 ([123%N] ++ quoted "type" ++ st ":" ++ quoted "Command" ++ st "," ++ quoted "cmd" ++ st ":" ++ quoted "shutdown" ++ st "," ++ quoted "args" ++ st ":[]}") ++ [10].
(** main.rs 88-112: stop_server; [connects]: a connection to this address can be made now; [writes]: and written to. Gives
    what it returns and the bytes the server is sent. *)
Definition stop_server (v6 : str -> option (list Z * Z)) (connects : list Z * Z -> bool) (writes : bool) (host : str) (port : Z) : res unit * option (list Z) :=
  match socket_addr v6 (host ++ st ":" ++ dec port) with
  | None => (Err "invalid socket address syntax", None)
  | Some a => if connects a then if writes then (Ok tt, Some stop_bytes) else (Err "write failed", None) else (Err "Failed to connect", None)
  end.
