(** The protocol between the server and a client, as a grammar of what goes over the wire of one connection. *)
From Coq Require Import Ascii String List ZArith Lia Bool.
From Verif Require Import Base NumText ProcModel DiscoverModel ExprModel EvalModel ServerModel.
Import ListNotations.
Open Scope Z_scope.

(** One event: it is sent and then exactly one line is read. Only an event response counts as an answer; any other
    message, a bad line, the end of the connection or a failed write leaves the asker with an error. *)
Inductive exchange : request -> answer -> list wire -> Prop :=
| x_reply q r : exchange q (Replied r) [Sent (Event q); Got (Msg (EventResponse r))]
| x_other q m why : (forall r, m <> EventResponse r) -> exchange q (Broken why) [Sent (Event q); Got (Msg m)]
| x_bad q why : exchange q (Broken why) [Sent (Event q); Got Bad]
| x_closed q why : exchange q (Broken why) [Sent (Event q); Eof]
| x_unsent q why : exchange q (Broken why) [Unsent (Event q)].
Inductive exchanges : list (request * answer) -> list wire -> Prop :=
| xs_none : exchanges [] []
| xs_one q a w t ws : exchange q a w -> exchanges t ws -> exchanges ((q, a) :: t) (w ++ ws).
(** The program, given these answers to its questions, ends with [a]. *)
Inductive replays {A} : prog A -> list (request * answer) -> A -> Prop :=
| rp_ret a : replays (Ret a) [] a
| rp_ask q x k t a : replays (k x) t a -> replays (Ask q k) ((q, x) :: t) a.

(** The response that ends the handling of a line. *)
Definition final (m : smsg) : Prop := match m with Complete _ | ErrorMsg _ => True | Event _ => False end.

Section Session.
Variable D : dbg.
(** A line read between commands, and what is sent on its account: for a command its events, each with its one line, and
    then one final response; for a line that is no message an error. *)
Inductive turn : list wire -> Prop :=
| turn_command cmd args t xs m : cmd <> st "shutdown" -> exchanges t xs -> replays (handle_command D cmd args) t (Ok m) -> final m ->
    turn (Got (Msg (Command cmd args)) :: xs ++ [Sent m])
| turn_bad e : turn [Got Bad; Sent (ErrorMsg e)].
(** How it stops. *)
Inductive stop : ending -> list wire -> Prop :=
| stop_closed : stop Closed [Eof]
| stop_shutdown args : stop Exited [Got (Msg (Command (st "shutdown") args)); Sent (Complete PShutdown)]
| stop_init why p : stop (Aborted why) [Got (Msg (Init p))]
| stop_event why r : stop (Aborted why) [Got (Msg (EventResponse r))]
| stop_unsent why cmd args t xs m : exchanges t xs -> replays (handle_command D cmd args) t (Ok m) -> final m ->
    stop (Aborted why) (Got (Msg (Command cmd args)) :: xs ++ [Unsent m])
| stop_bad why e : stop (Aborted why) [Got Bad; Unsent (ErrorMsg e)]
| stop_panic why cmd args t xs : exchanges t xs -> replays (handle_command D cmd args) t (Panic why) ->
    stop (Panicked why) (Got (Msg (Command cmd args)) :: xs).
Definition conversation (e : ending) (log : list wire) : Prop :=
  exists turns last, Forall turn turns /\ stop e last /\ log = concat turns ++ last.
End Session.
(** A whole connection: it has to begin with Init (which is not answered) or shutdown. *)
Inductive session (load : str -> res dbg) : ending -> list wire -> Prop :=
| s_served p D e log : load p = Ok D -> conversation D e log -> session load e (Got (Msg (Init p)) :: log)
| s_shutdown args : session load Exited [Got (Msg (Command (st "shutdown") args)); Sent (Complete PShutdown)]
| s_unsent why args : session load (Aborted why) [Got (Msg (Command (st "shutdown") args)); Unsent (Complete PShutdown)]
| s_missing why p m : load p = Err m -> session load (Aborted why) [Got (Msg (Init p))]
| s_broken why p : load p = Panic why -> session load (Panicked why) [Got (Msg (Init p))]
| s_refused why m : (forall p, m <> Init p) -> (forall args, m <> Command (st "shutdown") args) -> session load (Aborted why) [Got (Msg m)]
| s_bad why : session load (Aborted why) [Got Bad]
| s_eof why : session load (Aborted why) [Eof].

(** What the client sent and what got through to it. *)
Definition lines_read (log : list wire) : list line := flat_map (fun w => match w with Got l => [l] | _ => [] end) log.
Definition responses (log : list wire) : list smsg := flat_map (fun w => match w with Sent (Event _) => [] | Sent m => [m] | _ => [] end) log.
Definition requests (log : list wire) : list request := flat_map (fun w => match w with Sent (Event q) => [q] | _ => [] end) log.
(** The log up to the point where the server found the connection closed by the client. *)
Fixpoint before_eof (log : list wire) : list wire :=
  match log with [] => [] | Eof :: _ => [] | w :: log' => w :: before_eof log' end.

(** The client answers as [c] does in state [s]. *)
Definition answers_as {S} (c : client S) (s : S) (t : list (request * answer)) : Prop := Forall (fun e => snd e = fst (c s (fst e))) t.
