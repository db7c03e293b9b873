(** Model of the LLDB side: rudy-lldb/python/rudy_lldb.py (the connection, the event handlers, the rd command).

    LLDB itself is a parameter [debugger]: what its API answers in a state, and the state after it ran an expression or
    wrote memory. A Python exception inside an event handler becomes an Error response there; error texts are a parameter.
    Not modelled: starting the server (868-949), tracing, the texts printed for usage and connection problems. *)
From Coq Require Import Ascii String List ZArith NArith Lia Bool.
From Verif Require Import Base NumText Utf8 JsonModel ExprModel ProcModel EvalModel ServerModel WireModel.
From Verif Require JsonModel.
Import ListNotations.
Open Scope Z_scope.

(** ** Reading what the server sends (rudy_lldb.py 75-81: _read_message) *)
(** str.isspace. *)
Definition py_space (c : char) : bool := is_whitespace c || ((28 <=? c) && (c <=? 31))%N.
Fixpoint lstrip (s : str) : str := match s with c :: r => if py_space c then lstrip r else s | [] => [] end.
Definition strip (s : str) : str := rev (lstrip (rev (lstrip s))).
(** A text file opened for reading: \n, \r\n and \r end a line. *)
Fixpoint py_lines (s : str) : list str :=
  match s with
  | [] => []
  | c :: r =>
      if N.eqb c 10 then [10%N] :: py_lines r
      else if N.eqb c 13 then
        match r with
        | c2 :: r2 => if N.eqb c2 10 then [10%N] :: py_lines r2 else [10%N] :: py_lines r
        | [] => [[10%N]]
        end
      else match py_lines r with [] => [[c]] | l :: ls => (c :: l) :: ls end
  end.
(** json.loads reads what serde_json reads (it also accepts NaN, lone surrogates, large integers: never sent). *)
Definition py_message (l : str) : res json :=
  match strip l with [] => Err "Server closed connection" | t => JsonModel.from_str t end.
Definition py_messages (bs : list Z) : list (res json) := map py_message (py_lines (utf8_lossy bs)).
(** dict.get; json.loads keeps the last of repeated keys. *)
Definition get (k : string) (fs : fields) : option json := last (map Some (values k fs)) None.
Definition get_or (k : string) (d : json) (fs : fields) : json := match get k fs with Some j => j | None => d end.
Definition py_int (j : json) : option Z := match j with JNum z => Some z | _ => None end.
Definition py_str (j : json) : option str := match j with JStr s => Some s | _ => None end.
Definition py_list (j : json) : option (list json) := match j with JArr l => Some l | _ => None end.
Definition is_text (j : option json) (s : string) : bool := match j with Some (JStr t) => str_eqb t (st s) | _ => false end.
Fixpoint all_some {A B} (f : A -> option B) (l : list A) : option (list B) :=
  match l with
  | [] => Some []
  | a :: l' => match f a, all_some f l' with Some b, Some bs => Some (b :: bs) | _, _ => None end
  end.

(** ** LLDB *)
(** The value an expression gives: IsValid, GetError().Fail(), GetValueAsUnsigned, GetLoadAddress,
    GetAddress().GetLoadAddress, and GetValue() or GetSummary() or "". *)
Record evres := EvRes { v_valid : bool; v_failed : bool; v_unsigned : Z; v_load : Z; v_addr : Z; v_text : str }.
Record debugger (S : Type) := Debugger {
  l_target : S -> bool; l_process : S -> bool; l_thread : S -> bool; l_frame : S -> bool;
  l_memory : S -> Z -> Z -> option (list Z);            (* ReadMemory; None: failed *)
  l_registers : S -> list (list (str * Z * Z));         (* sets of registers: name, value, first word of its data *)
  l_pc : S -> Z; l_sp : S -> Z; l_fp : S -> Z;
  l_tid : S -> Z; l_name : S -> str;
  l_base : S -> option Z;                               (* load address of the first module *)
  l_eval : S -> str -> evres * S;                       (* EvaluateExpression *)
  l_variable : S -> str -> option str;                  (* FindVariable: the type name *)
  l_write : S -> Z -> list Z -> bool * S;               (* WriteMemory wrote all *)
  l_error : S -> str                                    (* whatever text an error gets *)
}.
Arguments l_target {S}. Arguments l_process {S}. Arguments l_thread {S}. Arguments l_frame {S}. Arguments l_memory {S}. Arguments l_registers {S}.
Arguments l_pc {S}. Arguments l_sp {S}. Arguments l_fp {S}. Arguments l_tid {S}. Arguments l_name {S}. Arguments l_base {S}. Arguments l_eval {S}.
Arguments l_variable {S}. Arguments l_write {S}. Arguments l_error {S}.
(** lldb.LLDB_INVALID_ADDRESS. *)
Definition invalid_address : Z := two64 - 1.

(** ** Calls (rudy_lldb.py 423-569 and 571-713) *)
(** str.lower, for ASCII. *)
Definition lower (c : char) : char := if ((65 <=? c) && (c <=? 90))%N then (c + 32)%N else c.
Definition struct_of (n : Z) : str := st "struct Arg_" ++ dec n.
(** One argument: its C type and value (440-466). *)
Record parg := PArg { pa_type : str; pa_value : str; pa_size : option Z }.
Definition c_type (a : parg) : str :=
  if str_eqb (pa_type a) (st "Pointer") then match pa_size a with Some n => struct_of n | None => st "void*" end
  else if str_eqb (pa_type a) (st "Integer") then st "unsigned long"
  else if str_eqb (pa_type a) (st "Bool") then st "int"
  else if str_eqb (pa_type a) (st "Float") then st "double"
  else st "unsigned long".
Definition c_value (a : parg) : str :=
  if str_eqb (pa_type a) (st "Pointer") then
    match pa_size a with
    | Some n => st "*((" ++ struct_of n ++ st "*)" ++ pa_value a ++ st ")"
    | None => st "(void*)" ++ pa_value a
    end
  else if str_eqb (pa_type a) (st "Bool") then
    (if str_eqb (map lower (pa_value a)) (st "true") || str_eqb (map lower (pa_value a)) (st "1") then st "1" else st "0")
  else pa_value a.
(** 468-475: struct definitions, each once. *)
Definition struct_def (name : string) (n : Z) : str := st "struct " ++ st name ++ dec n ++ st " { unsigned char bytes[" ++ dec n ++ st "]; }".
Fixpoint struct_defs (xs : list parg) (seen : list str) : list str :=
  match xs with
  | [] => seen
  | x :: xs' =>
      match pa_size x with
      | Some n => let d := struct_def "Arg_" n in if existsb (str_eqb d) seen then struct_defs xs' seen else struct_defs xs' (seen ++ [d])
      | None => struct_defs xs' seen
      end
  end.
(** 477-485, 504-520: the expression; [types] and [vals] start with the receiver for a method; [none] is written for an
    empty parameter list (functions only). *)
Definition signature (ret : str) (types : list str) (none : string) (addr : Z) : str :=
  st "((" ++ ret ++ st " (*)(" ++ (match types with [] => st none | _ => join (st ", ") types end) ++ st "))" ++ hex addr ++ st ")".
Definition call_expr (addr : Z) (recv : list Z) (none : string) (xs : list parg) (ret : option Z) : str :=
  let types := map (fun _ => st "void*") recv ++ map c_type xs in
  let vals := map (fun b => st "(void*)" ++ hex b) recv ++ map c_value xs in
  let defs := struct_defs xs [] in
  match ret with
  | None =>
      join (st "; ") defs ++ (match defs with [] => [] | _ => st "; " end)
        ++ signature (st "unsigned long") types none addr ++ st "(" ++ join (st ", ") vals ++ st ")"
  | Some n =>
      join (st "; ") (defs ++ [struct_def "ReturnBuffer_" n]) ++ st "; auto result = "
        ++ signature (st "struct ReturnBuffer_" ++ dec n) types none addr ++ st "(" ++ join (st ", ") vals ++ st "); &result"
  end.
(** 486-503, 521-556: the result of the call. *)
Definition call_result (v : evres) (ret : option Z) : option callres :=
  if v_valid v && negb (v_failed v) then
    match ret with
    | None => Some (Simple (v_unsigned v) (st "usize"))
    | Some n =>
        let a := if v_unsigned v =? 0 then (if v_load v =? invalid_address then v_addr v else v_load v) else v_unsigned v in
        if a =? invalid_address then None else Some (ComplexPtr a n (st "complex"))
    end
  else None.

(** ** Events *)
Definition p_arg (j : json) : option parg :=
  match j with
  | JObj fs =>
      match py_str (get_or "arg_type" (jtext "Integer") fs), py_str (get_or "value" (jtext "0") fs), get "arg_type_size" fs with
      | Some t, Some v, None | Some t, Some v, Some JNull => Some (PArg t v None)
      | Some t, Some v, Some (JNum n) => Some (PArg t v (Some n))
      | _, _, _ => None
      end
  | _ => None
  end.
Definition p_size (j : option json) : option (option Z) :=
  match j with None | Some JNull => Some None | Some (JNum n) => Some (Some n) | _ => None end.
Section Handle.
Context {St : Type}.
Variable L : debugger St.
(** An error response (whatever its text). *)
Definition refuse (s : St) : reply * St := (ErrorReply (l_error L s), s).
Definition or_refuse (s : St) (r : option reply) : reply * St := match r with Some x => (x, s) | None => refuse s end.
(** 163-190: _handle_read_memory. *)
Definition handle_read_memory (fs : fields) (s : St) : reply * St :=
  match py_int (get_or "address" (JNum 0) fs), py_int (get_or "size" (JNum 0) fs) with
  | Some a, Some n => match l_memory L s a n with Some d => (MemoryData d, s) | None => refuse s end
  | _, _ => refuse s
  end.
(** 192-238: _handle_read_register. *)
Definition handle_read_register (fs : fields) (s : St) : reply * St :=
  if negb (l_thread L s && l_frame L s) then refuse s
  else match py_str (get_or "name" (jtext "") fs) with
       | Some n => or_refuse s (option_map (fun r => RegisterData (snd (fst r))) (find (fun r => str_eqb (fst (fst r)) n) (concat (l_registers L s))))
       | None => refuse s
       end.
(** 240-294: _handle_read_register_by_index: the first set long enough. *)
Fixpoint nth_register (i : Z) (sets : list (list (str * Z * Z))) : option Z :=
  match sets with
  | [] => None
  | x :: r => match nth_error x (Z.to_nat i) with Some y => Some (snd y) | None => nth_register i r end
  end.
Definition handle_read_register_by_index (fs : fields) (s : St) : reply * St :=
  if negb (l_thread L s && l_frame L s) then refuse s
  else match py_int (get_or "index" (JNum 0) fs) with
       | Some i => if i <? 0 then refuse s else or_refuse s (option_map RegisterData (nth_register i (l_registers L s)))
       | None => refuse s
       end.
(** 296-332: _handle_get_frame_info. *)
Definition handle_frame_info (s : St) : reply * St :=
  if negb (l_thread L s && l_frame L s) then refuse s else (FrameInfo (l_pc L s) (l_sp L s) (l_fp L s), s).
(** 334-357: _handle_get_thread_info. *)
Definition handle_thread_info (s : St) : reply * St :=
  if negb (l_thread L s) then refuse s
  else (ThreadInfo (l_tid L s) (match l_name L s with [] => None | n => Some n end), s).
(** 359-392: _handle_get_base_address. *)
Definition handle_base_address (s : St) : reply * St := or_refuse s (option_map BaseAddress (l_base L s)).
(** 394-421: _handle_evaluate_expression. *)
Definition handle_evaluate (fs : fields) (s : St) : reply * St :=
  match py_str (get_or "expr" (jtext "") fs) with
  | Some e => let '(v, s1) := l_eval L s e in if v_valid v then (ExpressionResult (v_text v), s1) else refuse s1
  | None => refuse s
  end.
(** 423-569: _handle_execute_method. *)
Definition handle_method (fs : fields) (s : St) : reply * St :=
  match py_int (get_or "method_address" (JNum 0) fs), py_int (get_or "base_address" (JNum 0) fs), py_list (get_or "args" (JArr []) fs), p_size (get "return_type_size" fs) with
  | Some m, Some b, Some xs, Some ret =>
      match all_some p_arg xs with
      | Some ps => let '(v, s1) := l_eval L s (call_expr m [b] "" ps ret) in
                   match call_result v ret with Some r => (MethodResult r, s1) | None => refuse s1 end
      | None => refuse s
      end
  | _, _, _, _ => refuse s
  end.
(** 571-713: _handle_execute_function. *)
Definition handle_function (fs : fields) (s : St) : reply * St :=
  match py_int (get_or "function_address" (JNum 0) fs), py_list (get_or "args" (JArr []) fs), p_size (get "return_type_size" fs) with
  | Some f, Some xs, Some ret =>
      match all_some p_arg xs with
      | Some ps => let '(v, s1) := l_eval L s (call_expr f [] "void" ps ret) in
                   match call_result v ret with Some r => (FunctionResult r, s1) | None => refuse s1 end
      | None => refuse s
      end
  | _, _, _ => refuse s
  end.
(** 715-769: _handle_get_variable_type. *)
Definition handle_variable_type (fs : fields) (s : St) : reply * St :=
  match py_str (get_or "name" (jtext "") fs) with
  | Some n => (VariableTypeResult (if l_thread L s && l_frame L s then l_variable L s n else None), s)
  | None => refuse s
  end.
(** 771-804: _handle_allocate_memory. *)
Definition handle_allocate (fs : fields) (s : St) : reply * St :=
  match py_int (get_or "size" (JNum 0) fs) with
  | Some n => let '(v, s1) := l_eval L s (st "(void*)malloc(" ++ dec n ++ st ")") in
              if v_valid v && negb (v_failed v) then (MemoryAllocated (v_unsigned v), s1) else refuse s1
  | None => refuse s
  end.
(** 806-848: _handle_write_memory. *)
Definition handle_write (fs : fields) (s : St) : reply * St :=
  match py_int (get_or "address" (JNum 0) fs), py_list (get_or "data" (JArr []) fs) with
  | Some a, Some l =>
      match all_some py_int l with
      | Some d => if forallb (fun b => (0 <=? b) && (b <? 256)) d
                  then let '(ok, s1) := l_write L s a d in if ok then (MemoryWritten, s1) else refuse s1
                  else refuse s
      | None => refuse s
      end
  | _, _ => refuse s
  end.
(** 104-161: _handle_event. *)
Definition handle_event (fs : fields) (s : St) : reply * St :=
  let e := get "event" fs in
  if negb (l_target L s && l_process L s) then refuse s
  else if is_text e "ReadMemory" then handle_read_memory fs s
  else if is_text e "ReadRegister" then handle_read_register fs s
  else if is_text e "ReadRegisterByIndex" then handle_read_register_by_index fs s
  else if is_text e "GetFrameInfo" then handle_frame_info s
  else if is_text e "GetThreadInfo" then handle_thread_info s
  else if is_text e "GetBaseAddress" then handle_base_address s
  else if is_text e "EvaluateLLDBExpression" then handle_evaluate fs s
  else if is_text e "ExecuteMethod" then handle_method fs s
  else if is_text e "ExecuteFunction" then handle_function fs s
  else if is_text e "GetVariableType" then handle_variable_type fs s
  else if is_text e "AllocateMemory" then handle_allocate fs s
  else if is_text e "WriteMemory" then handle_write fs s
  else refuse s.

(** 83-102: send_command, as a client of the server's programs: every event is answered. *)
Definition python_client : client St := fun s q =>
  match enc_server (Event q) with JObj fs => let '(r, s1) := handle_event fs s in (Replied r, s1) | _ => (Broken "unreachable", s) end.
End Handle.

(** ** The rd command (1006-1126) *)
Fixpoint py_split (s : str) : list str :=
  match s with
  | [] => []
  | c :: r =>
      if py_space c then py_split r
      else match r with
           | [] => [[c]]
           | d :: _ => if py_space d then [c] :: py_split r
                       else match py_split r with [] => [[c]] | w :: ws => (c :: w) :: ws end
           end
  end.
Definition shortcode (s : str) : str :=
  if str_eqb s (st "e") then st "eval" else if str_eqb s (st "f") then st "functions" else if str_eqb s (st "m") then st "methods"
  else if str_eqb s (st "p") then st "print" else if str_eqb s (st "s") then st "status" else s.
(** What is sent for a typed line: nothing for an empty line and for status. *)
Definition typed (line : str) : option (str * list str) :=
  match py_split line with
  | [] => None
  | w :: ws => if str_eqb (shortcode w) (st "status") then None else Some (shortcode w, ws)
  end.

(** What is printed for the response; [repr]: Python's str() of anything but a text, number or truth value. *)
Section Print.
Variable repr : json -> str.
Definition py_show (j : json) : str :=
  match j with
  | JStr s => s
  | JNum z => dec z
  | JBool b => st (if b then "True" else "False")
  | JNull => st "None"
  | _ => repr j
  end.
Definition truthy (j : option json) : bool := match j with Some (JBool b) => b | _ => false end.
Definition is_dict (j : json) : bool := match j with JObj _ => true | _ => false end.
Definition dict (j : json) : fields := match j with JObj fs => fs | _ => [] end.
Definition items (j : json) : list json := match j with JArr l => l | _ => [] end.
(** 1060-1095: methods. *)
Definition print_methods (fs : fields) : list str :=
  let ms := filter is_dict (items (get_or "methods" (JArr []) fs)) in
  let regular := filter (fun m => negb (truthy (get "is_synthetic" (dict m)))) ms in
  let synthetic := filter (fun m => truthy (get "is_synthetic" (dict m))) ms in
  [st "Methods for " ++ py_show (get_or "type_name" (jtext "Unknown") fs) ++ st ":"]
  ++ (match regular with
      | [] => [st "  (no methods found)"]
      | _ => map (fun m => st "  - " ++ py_show (get_or "signature" (jtext "") (dict m))
                             ++ st (if truthy (get "callable" (dict m)) then " (callable)" else " (not callable)")) regular
      end)
  ++ (match synthetic with
      | [] => []
      | _ => (10%N :: st "Synthetic methods (debug helpers):") :: map (fun m => st "  - " ++ py_show (get_or "signature" (jtext "") (dict m))) synthetic
      end).
(** 1097-1118: functions. *)
Definition print_function (j : json) : str :=
  let fs := dict j in
  let name := py_show (get_or "name" (jtext "") fs) in
  let path := map py_show (items (get_or "module_path" (JArr []) fs)) in
  st "  " ++ (match path with [] => name | _ => join (st "::") (path ++ [name]) end) ++ st ": " ++ py_show (get_or "signature" (jtext "") fs)
    ++ st (if truthy (get "callable" fs) then " (callable)" else " (not callable)").
Definition print_functions (l : list json) : list str :=
  match l with
  | [] => [st "No functions found"]
  | _ => (st "Found " ++ dec (Z.of_nat (List.length l)) ++ st " function(s):") :: map print_function (filter is_dict l)
  end.
(** 1050-1126: the response. *)
Definition print_response (cmd : str) (fs : fields) : list str :=
  if is_text (get "type" fs) "Complete" then
    let r := get_or "result" (JObj []) fs in
    if str_eqb cmd (st "methods") && is_dict r then print_methods (dict r)
    else match r with
         | JArr l => if str_eqb cmd (st "functions") then print_functions l else [py_show r]
         | JObj kvs => map (fun kv => fst kv ++ st ": " ++ py_show (snd kv)) kvs
         | _ => [py_show r]
         end
  else [st "Error: " ++ py_show (get_or "error" (jtext "Unknown error") fs)].
End Print.
