(** Sessions over the small target of EvalExample, and where the protocol's promises fail. *)
From Coq Require Import Ascii String List ZArith Lia Bool.
From Verif Require Import Base NumText OMap TypesModel ValueModel DataModel AccessModel DiscoverModel ExprModel ProcModel ProcSpec IoDataModel EvalModel EvalSpec EvalExample ServerModel ServerSpec ServerProofs ServerCausal ServerStrict ServerProps.
Import ListNotations.
Open Scope Z_scope.

Definition load0 (p : str) : res dbg := if str_eqb p (st "target") then Ok dbg0 else Err "Failed to load binary".
Definition hello : line := Msg (Init (st "target")).
Definition cmd (c : string) (args : list string) : line := Msg (Command (st c) (map st args)).
Definition reply_lines (c : string) (args : list string) : list line := map (fun e => answer_line (snd e)) (events lldb (handle_command dbg0 (st c) (map st args)) 0%nat).
Definition writes : list bool := repeat true 50.
(** [xs [i]] (the client split it at the blank), then a line that is no message, an unknown command, and the client
    leaves: every line at top level is answered once, after its events. *)
Example polite_session :
  let lines := [hello; cmd "eval" ["xs"; "[i]"]%string] ++ reply_lines "eval" ["xs"; "[i]"]%string ++ [Bad; cmd "frobnicate" []] in
  exists log, run_session load0 lines writes = (Closed, log) /\
    responses log = [Complete (PValue (EResult (st "30") (st "u64"))); ErrorMsg (st "Failed to parse message"); ErrorMsg (st "Unknown command: frobnicate")] /\
    List.length (requests log) = 7%nat /\ lines_read log = lines.
Proof. eexists. split; [vm_compute; reflexivity|]. split; [vm_compute; reflexivity|]. split; vm_compute; reflexivity. Qed.
(** The hypotheses of [eval_answer_exact]: the target is stopped, and the answers are the client's. *)
Example eval_answer_case :
  steady lldb 0%nat /\ parse_expression (join (st " ") [st "xs"; st "[i]"]) = Ok (EIndex (EVariable (st "xs")) (EVariable (st "i"))) /\ no_calls (EIndex (EVariable (st "xs")) (EVariable (st "i"))) /\
  exists t, answers_as lldb 0%nat t /\ replays (handle_command dbg0 (st "eval") [st "xs"; st "[i]"]) t (Ok (Complete (PValue (EResult (st "30") (st "u64"))))).
Proof.
  split; [apply lldb_steady|]. split; [vm_compute; reflexivity|]. split.
  - intros x P. inversion P as [| |? ? ? Pb|? ? ? Pi| | | | | |]; subst; [exact I| |]; match goal with H : part x _ |- _ => inversion H; subst; exact I end.
  - exists (events lldb (handle_command dbg0 (st "eval") [st "xs"; st "[i]"]) 0%nat). split.
    + unfold answers_as. vm_compute. repeat constructor.
    + assert (E : outcome lldb (handle_command dbg0 (st "eval") [st "xs"; st "[i]"]) 0%nat = Ok (Complete (PValue (EResult (st "30") (st "u64"))))) by (vm_compute; reflexivity). rewrite <- E. apply replays_exec.
Qed.
(** [methods xs] for a target in which [xs] is not known as a variable, and no type of that name: an error. *)
Example methods_case : exists t text, answers_as lldb 0%nat t /\ replays (handle_command dbg0 (st "methods") [st "xs"]) t (Ok (ErrorMsg text)) /\ List.length t = 1%nat.
Proof.
  exists (events lldb (handle_command dbg0 (st "methods") [st "xs"]) 0%nat), (st "No type found matching"). split; [unfold answers_as; vm_compute; repeat constructor|]. split; [|vm_compute; reflexivity].
  assert (E : outcome lldb (handle_command dbg0 (st "methods") [st "xs"]) 0%nat = Ok (ErrorMsg (st "No type found matching"))) by (vm_compute; reflexivity). rewrite <- E. apply replays_exec.
Qed.

(** ** Where it fails *)
(** C43: a command the client sends while the server waits for the answer to an event is used up as a bad answer and never
    answered itself; a command whose handling panics gets no response at all, the connection is closed; the same happens to
    a client that sends Init or an event response out of turn. *)
Theorem every_command_answered_refuted :
  (exists log, run_session load0 [hello; cmd "eval" ["xs"]%string; cmd "eval" ["xs"]%string] writes = (Closed, log) /\ List.length (responses log) = 1%nat) /\
  (exists input why log, run_session load0 [hello; Msg (Command (st "eval") [input]); cmd "eval" ["1"]%string] writes = (Panicked why, log) /\ responses log = []) /\
  (exists why log, run_session load0 [hello; hello; cmd "eval" ["1"]%string] writes = (Aborted why, log) /\ responses log = []) /\
  (exists why log, run_session load0 [hello; Msg (EventResponse MemoryWritten); cmd "eval" ["1"]%string] writes = (Aborted why, log) /\ responses log = []).
Proof.
  split; [eexists; split; vm_compute; reflexivity|]. split; [exists (st """" ++ [233%N] ++ st """"); eexists; eexists; split; vm_compute; reflexivity|].
  split; eexists; eexists; split; vm_compute; reflexivity.
Qed.
Print Assumptions every_command_answered_refuted.
(** C44: with a variable as an argument, the evaluation goes on asking after an event was not answered. *)
Theorem unanswered_event_ends_evaluation_refuted :
  exists t r q why t', replays (handle_command dbg0 (st "eval") [st "f(i)"]) t (Ok (Complete (PValue r))) /\ t = (q, Broken why) :: t' /\ t' <> [].
Proof.
  set (deaf := (fun n q => match n with O => (Broken "garbage", S n) | _ => lldb n q end) : client nat).
  exists (events deaf (handle_command dbg0 (st "eval") [st "f(i)"]) 0%nat). eexists _, _, _, _. split.
  - assert (E : outcome deaf (handle_command dbg0 (st "eval") [st "f(i)"]) 0%nat = Ok (Complete (PValue (EResult (st "5") (st "u64"))))) by (vm_compute; reflexivity). rewrite <- E. apply replays_exec.
  - split; [vm_compute; reflexivity|]. vm_compute; discriminate.
Qed.
Print Assumptions unanswered_event_ends_evaluation_refuted.
(** The hypotheses of [unanswered_event_ends_evaluation_partial]: the second answer is garbage. *)
Example unanswered_case : literal_arguments (EVariable (st "i")) /\
  exists t q x text, replays (handle_command dbg0 (st "eval") [st "i"]) (t ++ [(q, x)]) (Ok (ErrorMsg text)) /\ List.length t = 1%nat /\ ~ fits q x.
Proof.
  split; [intros x P; inversion P; subst; exact I|].
  set (deaf := (fun n q => match n with O => (fst (lldb n q), 1%nat) | _ => (Replied MemoryWritten, n) end) : client nat).
  exists [(GetFrameInfo, Replied (FrameInfo 4194304 0 0))], (ReadRegisterByIndex 6), (Replied MemoryWritten), (st "Unexpected response type for ReadRegisterByIndex"). split; [|split; [reflexivity | intros []]].
  assert (E : outcome deaf (handle_command dbg0 (st "eval") [st "i"]) 0%nat = Ok (ErrorMsg (st "Unexpected response type for ReadRegisterByIndex"))) by (vm_compute; reflexivity).
  assert (F : events deaf (handle_command dbg0 (st "eval") [st "i"]) 0%nat = [(GetFrameInfo, Replied (FrameInfo 4194304 0 0)); (ReadRegisterByIndex 6, Replied MemoryWritten)]) by (vm_compute; reflexivity).
  cbn [app]. rewrite <- E, <- F. apply replays_exec.
Qed.
