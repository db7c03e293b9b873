(** Model of rudy-lldb/src/evaluator.rs: evaluating expressions against a client.

    Error texts are abbreviated and tracing is dropped. What debug information answers is a parameter [dbg] (it is
    modelled in FnModel, DiscoverModel and ResolveModel); those answers do not involve the client except for the registers
    of a variable's location, which are asked for here. *)
From Coq Require Import Ascii String List ZArith Lia Bool.
From Verif Require Import Base NumText OMap TypesModel ValueModel DataModel AccessModel SynthModel LocModel FnModel DiscoverModel ExprModel ProcModel IoDataModel.
Import ListNotations.
Open Scope Z_scope.

(** debug_info.rs 279-339, 1081-1116: what get_variable_at_pc finds before it asks for registers: the frame base and
    location expressions, the base address of relocations, and the type (alias resolution may fail afterwards). *)
Record vplan := VPlan { vp_fb : option (list dop); vp_base : Z; vp_loc : option (list dop); vp_ty : res tdef }.
Record dbg := Dbg {
  g_env : ienv;
  g_variable : Z -> str -> res (option vplan);          (* by program counter and name *)
  g_methods : tdef -> res (list dmethod);               (* discover_methods_for_type *)
  g_functions : str -> res (list dfunction);            (* discover_functions *)
  g_all_functions : res (omap str dfunction);           (* discover_all_functions *)
  g_type : str -> res (option tdef);                    (* lookup_type_by_name *)
  g_float : str -> bool;                                (* str::parse::<f64>().is_ok() *)
  g_fuel : nat                                          (* recursion budget of the model *)
}.

(** A step of the evaluator: the cached program counter (evaluator.rs 121-126) survives errors. *)
Definition ev (A : Type) := option Z -> prog (res A * option Z).
Definition eret {A} (a : A) : ev A := fun pc => Ret (Ok a, pc).
Definition elift {A} (r : res A) : ev A := fun pc => Ret (r, pc).
Definition efail {A} (m : string) : ev A := fun pc => Ret (Err m, pc).
Definition eio {A} (p : io A) : ev A := fun pc => pbind p (fun r => Ret (r, pc)).
Definition ebind {A B} (x : ev A) (f : A -> ev B) : ev B := fun pc =>
  pbind (x pc) (fun r => match fst r with Ok a => f a (snd r) | Err m => Ret (Err m, snd r) | Panic m => Ret (Panic m, snd r) | Fuel => Ret (Fuel, snd r) end).
(** [match x { Ok(a) => f(a), Err(_) => y }] *)
Definition ematch {A B} (x : ev A) (f : A -> ev B) (y : ev B) : ev B := fun pc =>
  pbind (x pc) (fun r => match fst r with Ok a => f a (snd r) | Err _ => y (snd r) | Panic m => Ret (Panic m, snd r) | Fuel => Ret (Fuel, snd r) end).
Notation "'let^' x := e 'in' k" := (ebind e (fun x => k)) (at level 200, x name, e at level 200, right associativity).

(** evaluator.rs 1155-1163: EvalResult. *)
Record eresult := EResult { er_value : str; er_type : str }.

(** ** Text *)
(** str::lines: split at line feeds, dropping a carriage return before one and a last empty line. *)
Definition lf : char := 10%N.
Definition cr : char := 13%N.
Fixpoint split_lf (s : str) : str * option str :=
  match s with
  | [] => ([], None)
  | c :: s' => if N.eqb c lf then ([], Some s') else let '(a, r) := split_lf s' in (c :: a, r)
  end.
Definition strip_cr (s : str) : str := match rev s with c :: r => if N.eqb c cr then rev r else s | [] => s end.
Fixpoint lines_aux (n : nat) (s : str) : list str :=
  match n, s with
  | O, _ => []
  | _, [] => []
  | S n', _ => match split_lf s with
               | (a, Some r) => strip_cr a :: lines_aux n' r
               | (a, None) => [a]
               end
  end.
Definition lines (s : str) : list str := lines_aux (List.length s) s.
(** evaluator.rs 1182-1188: indent; always called with level 1. *)
Definition indent (s : str) (level : nat) : str :=
  join [lf] (map (fun l => repeat (ch " ") (level * 2) ++ l) (lines s)).
(** evaluator.rs 1190-1228: format_value. *)
Definition block (op : str) (items : list str) (cl : str) : str :=
  op ++ [lf] ++ indent (join (st "," ++ [lf]) items) 1 ++ [lf] ++ cl.
Fixpoint format_value (v : value) : str :=
  match v with
  | VScalar _ x => x
  | VArray _ items =>
      if (List.length items <=? 10)%nat then block (st "[") (map format_value items) (st "]")
      else st "[" ++ dec (Z.of_nat (List.length items)) ++ st " items]"
  | VStruct ty fields => block (ty ++ st " {") (map (fun f => fst f ++ st ": " ++ format_value (snd f)) fields) (st "}")
  | VMap _ entries =>
      if (List.length entries <=? 10)%nat then
        block (st "{") (map (fun e => format_value (fst e) ++ st ": " ++ format_value (snd e)) entries) (st "}")
      else st "{ " ++ dec (Z.of_nat (List.length entries)) ++ st " entries }"
  | VTuple ty entries => block (ty ++ st " (") (map format_value entries) (st ")")
  | VPtr a t => st "<" ++ tname t ++ st " @ " ++ hex a ++ st ">"
  end.

Section Eval.
Variable D : dbg.
Definition read_pointer (p : tptr) : io value := iread (g_env D) (g_fuel D) (fst p) (snd p).

(** evaluator.rs 184-242: read_pointer_recursive. *)
Fixpoint expand (depth : nat) (v : value) : io value :=
  match depth with
  | O => ret v
  | S d =>
      match v with
      | VPtr a t => let! x := read_pointer (a, t) in expand d x
      | VScalar _ _ => ret v
      | VArray ty items => let! l := imapM (expand d) items in ret (VArray ty l)
      | VStruct ty fields => let! l := imapM (fun f => let! x := expand d (snd f) in ret (fst f, x)) fields in ret (VStruct ty l)
      | VTuple ty entries => let! l := imapM (expand d) entries in ret (VTuple ty l)
      | VMap ty entries =>
          let! l := imapM (fun e => let! k := expand d (fst e) in let! x := expand d (snd e) in ret (k, x)) entries in ret (VMap ty l)
      end
  end.
(** evaluator.rs 172-182: pointer_to_result. *)
Definition max_depth : nat := 8.
Definition pointer_to_result (p : tptr) : io eresult :=
  let! v := read_pointer p in
  let! x := expand max_depth v in
  ret (EResult (format_value x) (tname (snd p))).

(** evaluator.rs 137-154: get_pc. *)
Definition get_pc : ev Z := fun pc =>
  match pc with
  | Some p => Ret (Ok p, pc)
  | None => pbind (ask GetFrameInfo) (fun a =>
      match a with
      | Replied (FrameInfo p _ _) => Ret (Ok p, Some p)
      | Replied _ => Ret (Err "Unexpected response type for GetFrameInfo", None)
      | Broken m => Ret (Err m, None)
      end)
  end.
(** evaluator.rs 156-170: is_variable. *)
Definition is_variable (name : str) : prog bool :=
  pbind (ask (GetVariableType name)) (fun a => Ret (match a with Replied (VariableTypeResult (Some _)) => true | _ => false end)).

(** evaluator.rs 543-553: evaluate_variable_to_ref. *)
Definition variable_ref (name : str) : ev tptr :=
  let^ pc := get_pc in
  let^ o := elift (g_variable D pc name) in
  match o with
  | None => efail "Failed to resolve variable"
  | Some pl =>
      let^ a := eio (iresolve_data_location (vp_fb pl) (vp_base pl) (vp_loc pl)) in
      let^ t := elift (vp_ty pl) in
      match a with None => efail "Variable has no address" | Some a => eret (a, t) end
  end.

(** evaluator.rs 657-675: read_integer_from_memory; the text of a scalar as an unsigned number. *)
Definition int_of_text (x : str) : res Z :=
  match parse_u64 x with
  | Some n => Ok n
  | None => if starts_with x (st "0x") then
              match (match skipn 2 x with c :: r => if N.eqb c 43 then r else c :: r | [] => [] end) with
              | [] => Err "Failed to parse hex value"
              | h => if forallb is_hexdigit h then u64_from_digits 16 h else Err "Failed to parse hex value"
              end
            else Err "Could not parse integer value"
  end.
Fixpoint read_int (n : nat) (p : tptr) : io Z :=
  match n with
  | O => lift Fuel
  | S n' =>
      let! v := read_pointer p in
      match v with
      | VScalar _ x => lift (int_of_text x)
      | VPtr a t => read_int n' (a, t)
      | _ => fail "Expected scalar integer value"
      end
  end.
(** evaluator.rs 677-690: read_string_from_memory; a pointer value makes it start over with the same pointer. *)
Fixpoint read_str (n : nat) (p : tptr) : io str :=
  match n with
  | O => lift Fuel
  | S n' =>
      let! v := read_pointer p in
      match v with
      | VScalar _ x => ret (trim_matches (ch """") x)
      | VPtr _ _ => read_str n' p
      | _ => fail "Expected scalar string value"
      end
  end.
(** evaluator.rs 647-655: supports_string_indexing. *)
Definition is_map (l : layout) : bool := match l with LMap _ _ _ => true | _ => false end.

(** The four ways an expression is evaluated: to a pointer (283-313), to a result (244-281), to an integer (604-623) and
    to a string (625-645). *)
Record evs := Evs { e_ref : ev tptr; e_val : ev eresult; e_int : ev Z; e_str : ev str }.

(** evaluator.rs 573-602 (evaluate_index_to_ref) and the same steps of 692-725 (evaluate_index). *)
Definition index_ref (base index : evs) : ev tptr :=
  let^ p := e_ref base in
  if is_map (layOf (snd p)) then
    let^ key := e_str index in
    eio (iindex_map (g_env D) (g_fuel D) (fst p) (snd p) (VScalar (st "String") key))
  else
    let^ i := e_int index in
    eio (iindex_int (g_env D) (g_fuel D) (fst p) (snd p) i).

(** evaluator.rs 1121-1152: fallback_eval_result_to_method_arg. *)
Fixpoint contains (s p : str) : bool := starts_with s p || match s with [] => false | _ :: s' => contains s' p end.
Definition fallback_arg (r : eresult) : res marg :=
  if str_eqb (er_type r) (st "bool") && (str_eqb (er_value r) (st "true") || str_eqb (er_value r) (st "false")) then
    Ok (MArg (if str_eqb (er_value r) (st "true") then st "1" else st "0") ABool None)
  else if g_float D (er_value r) then
    if contains (er_type r) (st "f32") || contains (er_type r) (st "f64") then Ok (MArg (er_value r) AFloat None)
    else Ok (MArg (er_value r) AInteger None)
  else Err "Cannot convert result to method argument".
(** evaluator.rs 1045-1119: convert_expression_to_method_arg_typed. *)
Definition convert_arg (e : expr) (x : evs) (target : option tdef) : ev marg :=
  match e with
  | ENumber v => eret (MArg (dec_nat v) AInteger None)
  | EString v =>
      match target with
      | Some t =>
          let^ a := eio (icreate_typed_value v t) in
          let^ s := elift (tsize t) in
          eret (MArg (hex a) APointer s)
      | None => efail "Cannot convert string literal without parameter type information"
      end
  | EVariable _ | EField _ _ | EIndex _ _ | EMethodCall _ _ _ | ECall _ _ =>
      ematch (e_ref x)
        (fun p => let^ s := elift (tsize (snd p)) in eret (MArg (hex (fst p)) APointer s))
        (let^ r := e_val x in elift (fallback_arg r))
  | _ => efail "Unsupported argument type"
  end.
(** The loops over the arguments (evaluator.rs 363-394, 481-487, 821-854, 956-990): the i-th argument with the type of
    the i-th parameter, if there is one. *)
Fixpoint convert_args (args : list (expr * evs)) (ps : list (option str * tdef)) : ev (list marg) :=
  match args with
  | [] => eret []
  | a :: args' =>
      let^ x := convert_arg (fst a) (snd a) (match ps with p :: _ => Some (snd p) | [] => None end) in
      let^ r := convert_args args' (tl ps) in
      eret (x :: r)
  end.
(** [return_type.as_ref().and_then(|t| t.layout.size())] *)
Definition return_size (t : option tdef) : res (option Z) := match t with Some t => tsize t | None => Ok None end.

(** evaluator.rs 338-410, 785-872: finding the method and running it. *)
Definition find_method (p : tptr) (method : str) : res dmethod :=
  ms <- rmap (filter has_self) (g_methods D (snd p)) ;;
  match find (fun m => str_eqb (dm_name m) method) ms with
  | None => Err "Method not found"
  | Some m => if dm_addr m =? 0 then Err "Method is not callable" else Ok m
  end.
Definition call_method (p : tptr) (method : str) (args : list (expr * evs)) : ev (dmethod * callres) :=
  let^ m := elift (find_method p method) in
  let^ xs := convert_args args (dm_params m) in
  let^ sz := elift (return_size (dm_ret m)) in
  let^ r := eio (pbind (ask (ExecuteMethod (dm_addr m) (fst p) xs sz)) (fun a => Ret
    (match a with
     | Replied (MethodResult r) => Ok r
     | Replied (ErrorReply _) => Err "Method execution failed"
     | Replied _ => Err "Unexpected response type for ExecuteMethod"
     | Broken m => Err m
     end))) in
  eret (m, r).
(** evaluator.rs 451-502, 914-1008: finding the function and running it. *)
Definition find_function (name : str) (nargs : nat) : res dfunction :=
  fs <- g_functions D name ;;
  match fs with
  | [] => Err "Function not found"
  | f :: _ => if df_addr f =? 0 then Err "Function is not callable"
              else if (nargs =? List.length (df_params f))%nat then Ok f else Err "wrong number of arguments"
  end.
Definition call_function (name : str) (args : list (expr * evs)) : ev (dfunction * callres) :=
  let^ f := elift (find_function name (List.length args)) in
  let^ xs := convert_args args (df_params f) in
  let^ sz := elift (return_size (df_ret f)) in
  let^ r := eio (pbind (ask (ExecuteFunction (df_addr f) xs sz)) (fun a => Ret
    (match a with
     | Replied (FunctionResult r) => Ok r
     | Replied (ErrorReply _) => Err "Function execution failed"
     | Replied _ => Err "Unexpected response type for ExecuteFunction"
     | Broken m => Err m
     end))) in
  eret (f, r).
(** evaluator.rs 412-442, 504-534: a call's result as a pointer. *)
Definition result_ref (ret_ty : option tdef) (r : callres) : res tptr :=
  match r with
  | Simple _ _ => Err "returns a simple value"
  | ComplexPtr a _ _ => match ret_ty with Some t => Ok (a, t) | None => Err "no type definition" end
  end.
(** evaluator.rs 874-905, 1010-1042: a call's result for display. *)
Definition result_val (ret_ty : option tdef) (r : callres) : io eresult :=
  match r with
  | Simple v ty => ret (EResult (dec v) ty)
  | ComplexPtr a _ _ =>
      match ret_ty with
      | Some t => pointer_to_result (a, t)
      | None => ret (EResult (st "<complex value at " ++ hex a ++ st ">") (st "unknown"))
      end
  end.
Definition synthetic_name (l : layout) (method : str) : bool := existsb (str_eqb method) (synthetic_methods l).
(** evaluator.rs 315-443: evaluate_method_call_to_ref. *)
Definition method_ref (base : evs) (method : str) (args : list (expr * evs)) : ev tptr :=
  let^ p := e_ref base in
  if synthetic_name (layOf (snd p)) method then efail "Synthetic method cannot be used as an argument"
  else let^ c := call_method p method args in elift (result_ref (dm_ret (fst c)) (snd c)).
(** evaluator.rs 727-776: evaluate_method_call; 778-906: execute_real_method. No synthetic method takes arguments. *)
Definition value_type (v : value) : str :=
  match v with VScalar ty _ => ty | VPtr _ t => tname t | _ => st "unknown" end.
Definition method_val (base : evs) (method : str) (args : list (expr * evs)) : ev eresult :=
  let^ p := e_ref base in
  if synthetic_name (layOf (snd p)) method then
    match args with
    | [] => let^ v := eio (isynthetic (fst p) (layOf (snd p)) method) in eret (EResult (format_value v) (value_type v))
    | _ => efail "Method takes no arguments"
    end
  else let^ c := call_method p method args in eio (result_val (dm_ret (fst c)) (snd c)).
(** evaluator.rs 445-535, 908-1043: evaluate_function_call_to_ref, evaluate_function_call. *)
Definition function_ref (name : str) (args : list (expr * evs)) : ev tptr :=
  let^ c := call_function name args in elift (result_ref (df_ret (fst c)) (snd c)).
Definition function_val (name : str) (args : list (expr * evs)) : ev eresult :=
  let^ c := call_function name args in eio (result_val (df_ret (fst c)) (snd c)).
(** From a way to a pointer to the other three (537-541, 555-571, 604-645, 692-725). *)
Definition of_ref (r : ev tptr) : evs :=
  Evs r (let^ p := r in eio (pointer_to_result p)) (let^ p := r in eio (read_int (g_fuel D) p)) (let^ p := r in eio (read_str (g_fuel D) p)).
Definition no {A} : ev A := efail "cannot be evaluated this way".
(** evaluator.rs 244-313, 604-645. *)
Fixpoint evaluate (e : expr) : evs :=
  match e with
  | EVariable n => of_ref (variable_ref n)
  | EPath _ => Evs no no no no
  | EGeneric _ _ => Evs no no no no
  | EField b f =>
      let x := evaluate b in of_ref (let^ p := e_ref x in elift (get_struct_field (fst p) (snd p) f))
  | EIndex b i => let x := evaluate b in let y := evaluate i in of_ref (index_ref x y)
  | ENumber v => Evs no (eret (EResult (dec_nat v) (st "u64"))) (eret v) no
  | EString v => Evs no (eret (EResult (ch """" :: v ++ [ch """"]) (st "String"))) no (eret v)
  | EParen i => let x := evaluate i in Evs no (e_val x) (e_int x) (e_str x)
  | EDeref _ => Evs no no no no
  | EAddressOf _ _ => Evs no no no no
  | EMethodCall b m args =>
      let x := evaluate b in let xs := map (fun a => (a, evaluate a)) args in Evs (method_ref x m xs) (method_val x m xs) no no
  | ECall f args => let xs := map (fun a => (a, evaluate a)) args in Evs (function_ref f xs) (function_val f xs) no no
  end.
End Eval.
