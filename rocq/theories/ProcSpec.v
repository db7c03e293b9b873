(** What a client can be, and which events leave the target as it is. *)
From Coq Require Import Ascii String List ZArith Lia Bool.
From Verif Require Import Base ProcModel.
Import ListNotations.
Open Scope Z_scope.

(** Events that only look at the target. (An LLDB expression may run code, so it is not among them.) *)
Definition looks (q : request) : Prop :=
  match q with
  | ReadMemory _ _ | ReadRegister _ | ReadRegisterByIndex _ | GetFrameInfo | GetThreadInfo | GetBaseAddress | GetVariableType _ => True
  | _ => False
  end.
(** Events that change the target or run its code. *)
Definition acts (q : request) : Prop :=
  match q with
  | ExecuteMethod _ _ _ _ | ExecuteFunction _ _ _ | AllocateMemory _ | WriteMemory _ _ | EvaluateLLDB _ => True
  | _ => False
  end.
(** The client's state does not change when it is only asked to look: a stopped target. *)
Definition steady {S} (c : client S) (s : S) : Prop := forall q, looks q -> snd (c s q) = s.
(** Whatever the client answers, the program sends only events satisfying [P]. *)
Definition sends_only {A} (P : request -> Prop) (p : prog A) : Prop :=
  forall S (c : client S) s, Forall (fun e => P (fst e)) (events c p s).
