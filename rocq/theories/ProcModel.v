(** Programs that talk to the debugger, and what a client makes of them.

    The evaluator runs on the server and asks the client (LLDB) for everything it needs about the target; each question
    is one event. A program is therefore a tree: an answer, or a question with what to do for every possible answer. *)
From Coq Require Import Ascii String List ZArith Lia Bool.
From Verif Require Import Base.
Import ListNotations.
Open Scope Z_scope.

(** rudy-lldb/src/protocol.rs 7-30: MethodArgument, ArgumentType. *)
Inductive argty := APointer | AInteger | ABool | AFloat.
Record marg := MArg { ma_value : str; ma_type : argty; ma_size : option Z }.
(** protocol.rs 33-42: MethodCallResult. *)
Inductive callres := Simple (value : Z) (ty : str) | ComplexPtr (address size : Z) (ty : str).
(** protocol.rs 89-127: EventRequest. *)
Inductive request :=
| ReadMemory (address size : Z)
| ReadRegister (name : str)
| ReadRegisterByIndex (index : Z)
| GetFrameInfo
| GetThreadInfo
| GetBaseAddress
| EvaluateLLDB (expr : str)
| ExecuteMethod (method_address base_address : Z) (args : list marg) (return_type_size : option Z)
| ExecuteFunction (function_address : Z) (args : list marg) (return_type_size : option Z)
| GetVariableType (name : str)
| AllocateMemory (size : Z)
| WriteMemory (address : Z) (data : list Z).
(** protocol.rs 190-222: EventResponseData. *)
Inductive reply :=
| MemoryData (data : list Z)
| RegisterData (value : Z)
| FrameInfo (pc sp fp : Z)
| ThreadInfo (tid : Z) (name : option str)
| BaseAddress (address : Z)
| ExpressionResult (value : str)
| MethodResult (r : callres)
| FunctionResult (r : callres)
| VariableTypeResult (type_name : option str)
| MemoryAllocated (address : Z)
| MemoryWritten
| ErrorReply (message : str).
(** What send_event_request (server.rs 180-203) hands to the asker: the client's event response, or an error when the
    connection fails or the client sends anything else. *)
Inductive answer := Replied (r : reply) | Broken (why : string).

Inductive prog (A : Type) : Type :=
| Ret (a : A)
| Ask (q : request) (k : answer -> prog A).
Arguments Ret {A} a.
Arguments Ask {A} q k.
Fixpoint pbind {A B} (p : prog A) (f : A -> prog B) : prog B :=
  match p with Ret a => f a | Ask q k => Ask q (fun x => pbind (k x) f) end.

(** A program that may fail like a Rust function returning [Result]. *)
Definition io (A : Type) := prog (res A).
Definition lift {A} (r : res A) : io A := Ret r.
Definition ret {A} (a : A) : io A := Ret (Ok a).
Definition fail {A} (m : string) : io A := Ret (Err m).
Definition ibind {A B} (p : io A) (f : A -> io B) : io B :=
  pbind p (fun r => match r with Ok a => f a | Err m => Ret (Err m) | Panic m => Ret (Panic m) | Fuel => Ret Fuel end).
Definition ask (q : request) : prog answer := Ask q (fun a => Ret a).
Notation "'let!' x := e 'in' k" := (ibind e (fun x => k)) (at level 200, x name, e at level 200, right associativity).
Notation "'let!' ' p := e 'in' k" := (ibind e (fun p => k)) (at level 200, p pattern, e at level 200, right associativity).
Fixpoint imapM {A B} (f : A -> io B) (l : list A) : io (list B) :=
  match l with
  | [] => ret []
  | a :: l' => let! b := f a in let! bs := imapM f l' in ret (b :: bs)
  end.

(** A client: how it answers a question in a state, and its next state. [exec]: the questions asked with their answers,
    the outcome, and the client's last state. *)
Definition client (S : Type) := S -> request -> answer * S.
Fixpoint exec {S A} (c : client S) (p : prog A) (s : S) : list (request * answer) * A * S :=
  match p with
  | Ret a => ([], a, s)
  | Ask q k => let '(x, s1) := c s q in let '(t, a, s2) := exec c (k x) s1 in ((q, x) :: t, a, s2)
  end.
Definition events {S A} (c : client S) (p : prog A) (s : S) : list (request * answer) := fst (fst (exec c p s)).
Definition outcome {S A} (c : client S) (p : prog A) (s : S) : A := snd (fst (exec c p s)).
Definition after {S A} (c : client S) (p : prog A) (s : S) : S := snd (exec c p s).
