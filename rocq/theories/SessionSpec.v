(** Specification of whole sessions, for C94-C97. *)
From Coq Require Import Ascii String List ZArith NArith Lia Bool.
From Verif Require Import Base NumText Utf8 DataSpec JsonModel ProcModel EvalModel ServerModel WireModel WireProps ClientModel ClientSpec SessionModel.
Import ListNotations.
Open Scope Z_scope.

(** ** The two programs on the two ends of a connection *)
(** [connected]: the bytes [up] are what the client sends when it receives [down], and [down] is what the server sends when
    it receives [up] (its writes succeed); [xs] is what the commands gave. *)
Record connected {St} (load : str -> res dbg) (L : debugger St) (p : str) (cmds : list (str * list str)) (s : St)
    (writes : nat) (up down : list Z) (xs : list (res json)) (s2 : St) (e : ending) : Prop := Connected {
  cn_client : client_stream L p cmds down s = (xs, up, s2);
  cn_server : exists log, session load up (repeat true writes) = (e, log) /\ down = sent_bytes log
}.

(** ** What should come of it: the handling of each command run against LLDB directly *)
Definition lost : res json := Err "Server closed connection".
Definition command_fits (c : str * list str) : Prop := text (fst c) /\ Forall text (snd c).
Inductive dialogue {St} (L : debugger St) (D : dbg) : St -> list (str * list str) -> list (res json) -> St -> ending -> Prop :=
| d_end s : dialogue L D s [] [] s Closed
| d_answered s c args t m s1 cmds xs s2 e : c <> st "shutdown" -> command_fits (c, args) ->
    exec (python_client L) (handle_command D c args) s = (t, Ok m, s1) -> Forall (fun x => request_fits (fst x)) t -> server_fits m ->
    dialogue L D s1 cmds xs s2 e -> dialogue L D s ((c, args) :: cmds) (Ok (enc_server m) :: xs) s2 e
| d_panic s c args t why s1 cmds : command_fits (c, args) ->
    exec (python_client L) (handle_command D c args) s = (t, Panic why, s1) -> Forall (fun x => request_fits (fst x)) t ->
    dialogue L D s ((c, args) :: cmds) (map (fun _ => lost) ((c, args) :: cmds)) s1 (Panicked why)
| d_shutdown s args cmds : Forall text args ->
    dialogue L D s ((st "shutdown", args) :: cmds) (Ok (enc_server (Complete PShutdown)) :: map (fun _ => lost) cmds) s Exited.

(** What LLDB's API gives: 64-bit numbers, bytes and Unicode texts. *)
Definition value_fits (v : evres) : Prop := u64 (v_unsigned v) /\ u64 (v_load v) /\ u64 (v_addr v) /\ text (v_text v).
Record debugger_fits {St} (L : debugger St) : Prop := DebuggerFits {
  df_memory : forall s a n d, l_memory L s a n = Some d -> Forall byte d;
  df_registers : forall s, Forall (Forall (fun r => u64 (snd (fst r)) /\ u64 (snd r))) (l_registers L s);
  df_frame : forall s, u64 (l_pc L s) /\ u64 (l_sp L s) /\ u64 (l_fp L s);
  df_thread : forall s, u64 (l_tid L s) /\ text (l_name L s);
  df_base : forall s a, l_base L s = Some a -> u64 a;
  df_eval : forall s e v s1, l_eval L s e = (v, s1) -> value_fits v;
  df_variable : forall s n t, l_variable L s n = Some t -> text t;
  df_error : forall s, text (l_error L s)
}.
