(** Specification of the LLDB side, for C91-C94: what LLDB is asked to do for each event, and the C text of a call. *)
From Coq Require Import Ascii String List ZArith NArith Lia Bool.
From Verif Require Import Base NumText Utf8 DataSpec JsonModel ProcModel EvalModel ServerModel WireModel WireProps ClientModel.
Import ListNotations.
Open Scope Z_scope.

(** ** Messages the server can write: texts of Unicode scalar values, 64-bit numbers *)
Definition arg_fits (a : marg) : Prop := text (ma_value a) /\ opt u64 (ma_size a).
Definition request_fits (q : request) : Prop :=
  match q with
  | ReadMemory a n => u64 a /\ u64 n
  | ReadRegister s | EvaluateLLDB s | GetVariableType s => text s
  | ReadRegisterByIndex i => u64 i
  | GetFrameInfo | GetThreadInfo | GetBaseAddress => True
  | ExecuteMethod m b xs r => u64 m /\ u64 b /\ Forall arg_fits xs /\ opt u64 r
  | ExecuteFunction f xs r => u64 f /\ Forall arg_fits xs /\ opt u64 r
  | AllocateMemory n => u64 n
  | WriteMemory a d => u64 a /\ Forall byte d
  end.
Definition method_fits (m : minfo) : Prop := text (mi_name m) /\ text (mi_sig m) /\ opt text (mi_description m).
Definition function_fits (f : fninfo) : Prop := text (fn_name f) /\ text (fn_full f) /\ text (fn_sig f) /\ u64 (fn_addr f) /\ Forall text (fn_module f).
Definition payload_fits (p : payload) : Prop :=
  match p with
  | PValue r => text (er_value r) /\ text (er_type r)
  | PMethods r => text (mr_type r) /\ Forall method_fits (mr_methods r)
  | PFunctions l => Forall function_fits l
  | PShutdown => True
  end.
Definition server_fits (m : smsg) : Prop :=
  match m with Event q => request_fits q | Complete p => payload_fits p | ErrorMsg e => text e end.

(** ** The C expression of a call *)
(** The texts that count as true. *)
Definition says_true (v : str) : bool :=
  existsb (str_eqb v) (map st ["1"; "true"; "truE"; "trUe"; "trUE"; "tRue"; "tRuE"; "tRUe"; "tRUE"; "True"; "TruE"; "TrUe"; "TrUE"; "TRue"; "TRuE"; "TRUe"; "TRUE"]%string).
(** An argument: its C type and the C expression of its value. A pointer with a size is a block passed by value. *)
Definition c_argument (a : marg) : str * str :=
  match ma_type a, ma_size a with
  | APointer, Some n => (st "struct Arg_" ++ dec n, st "*((struct Arg_" ++ dec n ++ st "*)" ++ ma_value a ++ st ")")
  | APointer, None => (st "void*", st "(void*)" ++ ma_value a)
  | AInteger, _ => (st "unsigned long", ma_value a)
  | AFloat, _ => (st "double", ma_value a)
  | ABool, _ => (st "int", if says_true (ma_value a) then st "1" else st "0")
  end.
(** [call_of addr args]: the function at [addr], as one of the given parameter types, applied to the given values. *)
Definition call_of (ret : str) (addr : Z) (args : list (str * str)) (none : string) : str :=
  st "((" ++ ret ++ st " (*)(" ++ (match args with [] => st none | _ => join (st ", ") (map fst args) end) ++ st "))" ++ hex addr ++ st ")("
  ++ join (st ", ") (map snd args) ++ st ")".
(** A definition of the struct of [n] bytes used for arguments. *)
Definition defines (d : str) (n : Z) : Prop := d = st "struct Arg_" ++ dec n ++ st " { unsigned char bytes[" ++ dec n ++ st "]; }".
(** Without repetitions, first occurrences first. *)
Definition distinct (l : list Z) : list Z := rev (nodup Z.eq_dec (rev l)).
(** The text: definitions (each size that occurs, once), then the call; a result returned through memory is kept in a
    variable whose address is the value of the expression. *)
Definition says_call (text : str) (addr : Z) (args : list (str * str)) (none : string) (sizes : list Z) (ret : option Z) : Prop :=
  exists defs, Forall2 defines defs (distinct sizes) /\
    text = match ret with
           | None => flat_map (fun d => d ++ st "; ") defs ++ call_of (st "unsigned long") addr args none
           | Some n => flat_map (fun d => d ++ st "; ") defs ++ st "struct ReturnBuffer_" ++ dec n ++ st " { unsigned char bytes[" ++ dec n ++ st "]; }; auto result = "
                       ++ call_of (st "struct ReturnBuffer_" ++ dec n) addr args none ++ st "; &result"
           end.
Definition sizes_of (xs : list marg) : list Z := flat_map (fun a => match ma_size a with Some n => [n] | None => [] end) xs.
(** The result of a call, from the value of the expression. *)
Definition returns (v : evres) (ret : option Z) (r : callres) : Prop :=
  v_valid v = true /\ v_failed v = false /\
  match ret with
  | None => r = Simple (v_unsigned v) (st "usize")
  | Some n => exists a, r = ComplexPtr a n (st "complex") /\ a <> two64 - 1 /\
                (a = v_unsigned v /\ a <> 0 \/ v_unsigned v = 0 /\ (a = v_load v \/ v_load v = two64 - 1 /\ a = v_addr v))
  end.

(** ** What LLDB does for an event *)
Section Performs.
Context {S : Type}.
Variable L : debugger S.
Definition stopped_at_frame (s : S) : Prop := l_thread L s = true /\ l_frame L s = true.
Inductive performs (s : S) : request -> reply -> S -> Prop :=
| p_memory a n d : l_memory L s a n = Some d -> performs s (ReadMemory a n) (MemoryData d) s
| p_register n v w l1 l2 : stopped_at_frame s -> concat (l_registers L s) = l1 ++ (n, v, w) :: l2 -> ~ In n (map (fun r => fst (fst r)) l1) ->
    performs s (ReadRegister n) (RegisterData v) s
| p_register_index i l1 x l2 r : stopped_at_frame s -> 0 <= i -> l_registers L s = l1 ++ x :: l2 ->
    Forall (fun y => Z.of_nat (List.length y) <= i) l1 -> nth_error x (Z.to_nat i) = Some r -> performs s (ReadRegisterByIndex i) (RegisterData (snd r)) s
| p_frame : stopped_at_frame s -> performs s GetFrameInfo (FrameInfo (l_pc L s) (l_sp L s) (l_fp L s)) s
| p_thread n : l_thread L s = true -> (n = None <-> l_name L s = []) -> (forall x, n = Some x -> x = l_name L s) -> performs s GetThreadInfo (ThreadInfo (l_tid L s) n) s
| p_base a : l_base L s = Some a -> performs s GetBaseAddress (BaseAddress a) s
| p_expr e v s1 : l_eval L s e = (v, s1) -> v_valid v = true -> performs s (EvaluateLLDB e) (ExpressionResult (v_text v)) s1
| p_method m b xs ret text v s1 r :
    says_call text m ((st "void*", st "(void*)" ++ hex b) :: map c_argument xs) "" (sizes_of xs) ret ->
    l_eval L s text = (v, s1) -> returns v ret r -> performs s (ExecuteMethod m b xs ret) (MethodResult r) s1
| p_function f xs ret text v s1 r :
    says_call text f (map c_argument xs) "void" (sizes_of xs) ret ->
    l_eval L s text = (v, s1) -> returns v ret r -> performs s (ExecuteFunction f xs ret) (FunctionResult r) s1
| p_variable n t : (stopped_at_frame s -> t = l_variable L s n) -> (~ stopped_at_frame s -> t = None) -> performs s (GetVariableType n) (VariableTypeResult t) s
| p_allocate n v s1 : l_eval L s (st "(void*)malloc(" ++ dec n ++ st ")") = (v, s1) -> v_valid v = true -> v_failed v = false ->
    performs s (AllocateMemory n) (MemoryAllocated (v_unsigned v)) s1
| p_write a d s1 : l_write L s a d = (true, s1) -> performs s (WriteMemory a d) MemoryWritten s1.
(** A refusal: nothing was done, or the expression or the write failed. *)
Definition tried (s : S) (q : request) (s1 : S) : Prop :=
  s1 = s \/
  match q with
  | EvaluateLLDB e => exists v, l_eval L s e = (v, s1)
  | ExecuteMethod m b xs ret => exists text v, says_call text m ((st "void*", st "(void*)" ++ hex b) :: map c_argument xs) "" (sizes_of xs) ret /\ l_eval L s text = (v, s1)
  | ExecuteFunction f xs ret => exists text v, says_call text f (map c_argument xs) "void" (sizes_of xs) ret /\ l_eval L s text = (v, s1)
  | AllocateMemory n => exists v, l_eval L s (st "(void*)malloc(" ++ dec n ++ st ")") = (v, s1)
  | WriteMemory a d => l_write L s a d = (false, s1)
  | _ => False
  end.
End Performs.
(** The kind of reply the server expects for a request (evaluator.rs, server.rs: every other one is an error). *)
Definition kind_fits (q : request) (r : reply) : Prop :=
  match q, r with
  | ReadMemory _ _, MemoryData _ | ReadRegister _, RegisterData _ | ReadRegisterByIndex _, RegisterData _
  | GetFrameInfo, FrameInfo _ _ _ | GetThreadInfo, ThreadInfo _ _ | GetBaseAddress, BaseAddress _
  | EvaluateLLDB _, ExpressionResult _ | ExecuteMethod _ _ _ _, MethodResult _ | ExecuteFunction _ _ _, FunctionResult _
  | GetVariableType _, VariableTypeResult _ | AllocateMemory _, MemoryAllocated _ | WriteMemory _ _, MemoryWritten => True
  | _, ErrorReply _ => True
  | _, _ => False
  end.
