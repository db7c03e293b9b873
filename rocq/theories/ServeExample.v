(** Three connections at once: one evaluates a variable, one goes away in the middle of an answer, one sends nonsense; then
    the server is stopped. *)
From Coq Require Import Ascii String List ZArith NArith Lia Bool Arith.
From Verif Require Import Base NumText Utf8 ProcModel ExprModel EvalModel ServerModel WireModel EvalExample ServeModel ServeProps ServeStop.
Import ListNotations.
Open Scope Z_scope.

Definition files (p : str) : res dbg := if str_eqb p (st "/bin/app") then Ok dbg0 else Err "no such file".
Definition says (i : nat) (m : cmsg) : event := Arrives i files (Msg m).
Definition ups : list bool := repeat true 9.
Definition eval_i : cmsg := Command (st "eval") [st "i"].
Definition frame : cmsg := EventResponse (FrameInfo 4194304 0 0).
Definition schedule : list event :=
  [Connects ups; says 0 (Init (st "/bin/app")); Connects ups; says 0 eval_i; says 1 (Init (st "/bin/app")); Connects ups; Arrives 2 files Bad;
   says 1 eval_i; says 0 frame; HangsUp 1; says 0 (EventResponse (RegisterData 4096));
   says 0 (EventResponse (MemoryData (word 2)))].
Definition sent_to (s : server) (i : nat) : list smsg := flat_map (fun w => match w with Sent m => [m] | _ => [] end) (match nth_error (sv_threads s) i with Some t => th_log t | None => [] end).

(** Its value is 2, for the connection that stayed; the others' ends are their own. *)
Example interleaved : sent_to (run schedule) 0 = [Event GetFrameInfo; Event (ReadRegisterByIndex 6); Event (ReadMemory 4192 8); Complete (PValue (EResult (st "2") (st "u64")))] /\
  sent_to (run schedule) 1 = [Event GetFrameInfo; ErrorMsg (st "Client disconnected while waiting for event response")] /\ sent_to (run schedule) 2 = [] /\
  map (fun t => match th_phase t with Done e => Some e | _ => None end) (sv_threads (run schedule)) = [None; Some Closed; Some (Aborted "Failed to parse message")] /\
  sv_running (run schedule) = true.
Proof. vm_compute. repeat split. Qed.
(** The hypotheses of [connections_isolated] and of [interleaved_session] for the second connection, and of [stop_stops]
    for a fourth that stops the server while the first is in the middle of an answer. *)
Definition first3 : list event := firstn 2 schedule.
Definition rest : list event := skipn 3 schedule.
Example meets_isolation : schedule = first3 ++ Connects ups :: rest /\ ran_through (first3 ++ Connects ups :: rest) /\ connections first3 = 1%nat /\
  inputs 1 rest = Line files (Msg (Init (st "/bin/app"))) :: map (fun p => Line (fst p) (snd p)) [(files, Msg eval_i)] ++ [Hangup].
Proof. split; [reflexivity|]. split; [apply running_ran; vm_compute; reflexivity|]. split; reflexivity. Qed.
Definition meanwhile : list event := [says 0 eval_i; HangsUp 1].
Example meets_stop : ran_through ((firstn 9 schedule) ++ Connects (true :: ups) :: meanwhile) /\ inputs (connections (firstn 9 schedule)) meanwhile = [] /\
  sv_running (run ((firstn 9 schedule) ++ Connects (true :: ups) :: meanwhile)) = true /\
  sv_running (run ((firstn 9 schedule) ++ Connects (true :: ups) :: meanwhile ++ [Arrives 3 files (Msg (Command (st "shutdown") []))])) = false.
Proof. split; [apply running_ran; vm_compute; reflexivity|]. repeat split; vm_compute; reflexivity. Qed.
Example stop_by_address : stop_server (fun _ => None) (fun a => match a with ([127; 0; 0; 1], 5737) => true | _ => false end) true (st "127.0.0.1") 5737 = (Ok tt, Some stop_bytes).
Proof. vm_compute. reflexivity. Qed.
Print Assumptions meets_stop.
