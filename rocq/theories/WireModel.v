(** Model of the messages on the wire: rudy-lldb/src/protocol.rs with serde's derived (de)serialization, the reading and
    writing of lines in rudy-lldb/src/server.rs 64-90, and the Python client's side of it
    (rudy-lldb/python/rudy_lldb.py 69-105).

    serde's derive macros are modelled from their documentation: internally tagged enums (tag = "type" and tag = "event",
    the second flattened into the first), unknown fields ignored, a repeated field refused, an Option field may be missing
    or null; an internally tagged message may also be an array whose first element is the tag. *)
From Coq Require Import Ascii String List ZArith NArith Lia Bool.
From Verif Require Import Base NumText Utf8 JsonModel SymModel ProcModel EvalModel ServerModel.
Import ListNotations.
Open Scope Z_scope.

Definition obj (l : list (string * json)) : json := JObj (map (fun kv => (st (fst kv), snd kv)) l).
Definition jopt {A} (f : A -> json) (o : option A) : json := match o with Some a => f a | None => JNull end.
Definition jtext (s : string) : json := JStr (st s).

(** ** Server messages *)
(** protocol.rs 7-30: MethodArgument, ArgumentType. *)
Definition type_text (t : argty) : string :=
  match t with APointer => "Pointer" | AInteger => "Integer" | ABool => "Bool" | AFloat => "Float" end.
Definition enc_arg (a : marg) : json :=
  obj [("value"%string, JStr (ma_value a)); ("arg_type"%string, jtext (type_text (ma_type a))); ("arg_type_size"%string, jopt JNum (ma_size a))].
(** protocol.rs 89-127: EventRequest, tag = "event". *)
Definition enc_request (q : request) : list (string * json) :=
  match q with
  | ReadMemory a n => [("event", jtext "ReadMemory"); ("address", JNum a); ("size", JNum n)]
  | ReadRegister r => [("event", jtext "ReadRegister"); ("name", JStr r)]
  | ReadRegisterByIndex i => [("event", jtext "ReadRegisterByIndex"); ("index", JNum i)]
  | GetFrameInfo => [("event", jtext "GetFrameInfo")]
  | GetThreadInfo => [("event", jtext "GetThreadInfo")]
  | GetBaseAddress => [("event", jtext "GetBaseAddress")]
  | EvaluateLLDB e => [("event", jtext "EvaluateLLDBExpression"); ("expr", JStr e)]
  | ExecuteMethod m b xs r =>
      [("event", jtext "ExecuteMethod"); ("method_address", JNum m); ("base_address", JNum b); ("args", JArr (map enc_arg xs)); ("return_type_size", jopt JNum r)]
  | ExecuteFunction f xs r =>
      [("event", jtext "ExecuteFunction"); ("function_address", JNum f); ("args", JArr (map enc_arg xs)); ("return_type_size", jopt JNum r)]
  | GetVariableType v => [("event", jtext "GetVariableType"); ("name", JStr v)]
  | AllocateMemory n => [("event", jtext "AllocateMemory"); ("size", JNum n)]
  | WriteMemory a d => [("event", jtext "WriteMemory"); ("address", JNum a); ("data", JArr (map JNum d))]
  end%string.
(** serde_json::to_value of EvalResult (evaluator.rs 1155-1163), MethodDiscoveryResult, MethodInfo (server.rs 474-487),
    FunctionInfo (evaluator.rs 1165-1180): a serde_json::Value keeps its keys sorted. *)
Definition enc_method (m : minfo) : json :=
  obj [("callable", JBool (mi_callable m)); ("description", jopt JStr (mi_description m)); ("is_synthetic", JBool (mi_synthetic m));
       ("name", JStr (mi_name m)); ("signature", JStr (mi_sig m))]%string.
Definition enc_function (f : fninfo) : json :=
  obj [("address", JNum (fn_addr f)); ("callable", JBool (fn_callable f)); ("full_name", JStr (fn_full f));
       ("module_path", JArr (map JStr (fn_module f))); ("name", JStr (fn_name f)); ("signature", JStr (fn_sig f))]%string.
Definition enc_payload (p : payload) : json :=
  match p with
  | PValue r => obj [("type", JStr (er_type r)); ("value", JStr (er_value r))]
  | PMethods r => obj [("methods", JArr (map enc_method (mr_methods r))); ("type_name", JStr (mr_type r))]
  | PFunctions l => JArr (map enc_function l)
  | PShutdown => obj [("status", jtext "shutting down")]
  end%string.
(** protocol.rs 60-82: ServerMessage, tag = "type". *)
Definition enc_server (m : smsg) : json :=
  match m with
  | Event q => obj (("type", jtext "Event") :: enc_request q)
  | Complete p => obj [("type", jtext "Complete"); ("result", enc_payload p)]
  | ErrorMsg e => obj [("type", jtext "Error"); ("error", JStr e); ("backtrace", JNull)]
  end%string.
(** server.rs 85-91: write_message. *)
Definition server_bytes (m : smsg) : list Z := utf8 (to_string (enc_server m)) ++ [10].

(** ** Client messages *)
(** The objects the Python client builds: rudy_lldb.py 62-66, 85-87 and the handlers from 162 on. *)
Definition enc_call (r : callres) : json :=
  match r with
  | Simple v t => obj [("SimpleValue", obj [("value", JNum v); ("return_type", JStr t)])]
  | ComplexPtr a n t => obj [("ComplexPointer", obj [("address", JNum a); ("size", JNum n); ("return_type", JStr t)])]
  end%string.
Definition enc_reply (r : reply) : list (string * json) :=
  match r with
  | MemoryData d => [("event", jtext "MemoryData"); ("data", JArr (map JNum d))]
  | RegisterData v => [("event", jtext "RegisterData"); ("value", JNum v)]
  | FrameInfo p s f => [("event", jtext "FrameInfo"); ("pc", JNum p); ("sp", JNum s); ("fp", JNum f)]
  | ThreadInfo t n => [("event", jtext "ThreadInfo"); ("tid", JNum t); ("name", jopt JStr n)]
  | BaseAddress a => [("event", jtext "BaseAddress"); ("address", JNum a)]
  | ExpressionResult v => [("event", jtext "ExpressionResult"); ("value", JStr v)]
  | MethodResult c => [("event", jtext "MethodResult"); ("result", enc_call c)]
  | FunctionResult c => [("event", jtext "FunctionResult"); ("result", enc_call c)]
  | VariableTypeResult t => [("event", jtext "VariableTypeResult"); ("type_name", jopt JStr t)]
  | MemoryAllocated a => [("event", jtext "MemoryAllocated"); ("address", JNum a)]
  | MemoryWritten => [("event", jtext "MemoryWritten")]
  | ErrorReply m => [("event", jtext "Error"); ("message", JStr m)]
  end%string.
Definition client_fields (m : cmsg) : list (string * json) :=
  match m with
  | Init p => [("type", jtext "Init"); ("binary_path", JStr p)]
  | Command c xs => [("type", jtext "Command"); ("cmd", JStr c); ("args", JArr (map JStr xs))]
  | EventResponse r => ("type", jtext "EventResponse") :: enc_reply r
  end%string.
Definition enc_client (m : cmsg) : json := obj (client_fields m).
(** rudy_lldb.py 69-73: _send_message. *)
Definition client_bytes (m : cmsg) : list Z := utf8 (dumps (enc_client m)) ++ [10].

(** ** Reading a client message (protocol.rs 45-58, 190-222) *)
Definition fields := list (str * json).
Definition values (k : string) (fs : fields) : list json := map snd (filter (fun kv => str_eqb (fst kv) (st k)) fs).
Definition field (k : string) (fs : fields) : res (option json) :=
  match values k fs with
  | [] => Ok None
  | [j] => Ok (Some j)
  | _ => Err "duplicate field"
  end.
Definition required {A} (k : string) (d : json -> res A) (fs : fields) : res A :=
  o <- field k fs ;; match o with Some j => d j | None => Err "missing field" end.
Definition d_option {A} (d : json -> res A) (j : json) : res (option A) := match j with JNull => Ok None | _ => rmap Some (d j) end.
Definition optional {A} (k : string) (d : json -> res A) (fs : fields) : res (option A) :=
  o <- field k fs ;; match o with Some j => d_option d j | None => Ok None end.
Definition d_str (j : json) : res str := match j with JStr s => Ok s | _ => Err "invalid type: expected a string" end.
Definition d_uint (max : Z) (j : json) : res Z :=
  match j with JNum z => if (0 <=? z) && (z <=? max) then Ok z else Err "invalid value" | _ => Err "invalid type: expected an integer" end.
Definition d_u64 : json -> res Z := d_uint (two64 - 1).
Definition d_u8 : json -> res Z := d_uint 255.
Definition d_vec {A} (d : json -> res A) (j : json) : res (list A) := match j with JArr l => mapM d l | _ => Err "invalid type: expected a sequence" end.
(** The variant named by a tag; the inner tag, read from buffered content, may also be the variant's index. *)
Definition tag_name (j : json) : res str := d_str j.
Fixpoint nth_text (l : list string) (z : Z) : res str :=
  match l with [] => Err "unknown variant" | s :: l' => if z =? 0 then Ok (st s) else nth_text l' (z - 1) end.
Definition reply_tags : list string :=
  ["MemoryData"; "RegisterData"; "FrameInfo"; "ThreadInfo"; "BaseAddress"; "ExpressionResult"; "MethodResult"; "FunctionResult";
   "VariableTypeResult"; "MemoryAllocated"; "MemoryWritten"; "Error"]%string.
Definition inner_tag (j : json) : res str := match j with JNum z => nth_text reply_tags z | _ => d_str j end.
(** protocol.rs 33-42: MethodCallResult, externally tagged; a variant may be an object or an array of its fields. *)
Definition d_simple (j : json) : res callres :=
  match j with
  | JObj fs => v <- required "value" d_u64 fs ;; t <- required "return_type" d_str fs ;; Ok (Simple v t)
  | JArr [a; b] => v <- d_u64 a ;; t <- d_str b ;; Ok (Simple v t)
  | _ => Err "invalid type"
  end.
Definition d_complex (j : json) : res callres :=
  match j with
  | JObj fs => a <- required "address" d_u64 fs ;; n <- required "size" d_u64 fs ;; t <- required "return_type" d_str fs ;; Ok (ComplexPtr a n t)
  | JArr [x; y; z] => a <- d_u64 x ;; n <- d_u64 y ;; t <- d_str z ;; Ok (ComplexPtr a n t)
  | _ => Err "invalid type"
  end.
Definition d_call (j : json) : res callres :=
  match j with
  | JObj [(k, v)] =>
      if str_eqb k (st "SimpleValue") then d_simple v
      else if str_eqb k (st "ComplexPointer") then d_complex v
      else Err "unknown variant"
  | _ => Err "invalid type"
  end.
Definition without (k : string) (fs : fields) : fields := filter (fun kv => negb (str_eqb (fst kv) (st k))) fs.
Definition d_reply (fs : fields) : res reply :=
  t <- required "event" inner_tag fs ;;
  let fs := without "event" fs in
  if str_eqb t (st "MemoryData") then d <- required "data" (d_vec d_u8) fs ;; Ok (MemoryData d)
  else if str_eqb t (st "RegisterData") then v <- required "value" d_u64 fs ;; Ok (RegisterData v)
  else if str_eqb t (st "FrameInfo") then p <- required "pc" d_u64 fs ;; s <- required "sp" d_u64 fs ;; f <- required "fp" d_u64 fs ;; Ok (FrameInfo p s f)
  else if str_eqb t (st "ThreadInfo") then i <- required "tid" d_u64 fs ;; n <- optional "name" d_str fs ;; Ok (ThreadInfo i n)
  else if str_eqb t (st "BaseAddress") then a <- required "address" d_u64 fs ;; Ok (BaseAddress a)
  else if str_eqb t (st "ExpressionResult") then v <- required "value" d_str fs ;; Ok (ExpressionResult v)
  else if str_eqb t (st "MethodResult") then c <- required "result" d_call fs ;; Ok (MethodResult c)
  else if str_eqb t (st "FunctionResult") then c <- required "result" d_call fs ;; Ok (FunctionResult c)
  else if str_eqb t (st "VariableTypeResult") then n <- optional "type_name" d_str fs ;; Ok (VariableTypeResult n)
  else if str_eqb t (st "MemoryAllocated") then a <- required "address" d_u64 fs ;; Ok (MemoryAllocated a)
  else if str_eqb t (st "MemoryWritten") then Ok MemoryWritten
  else if str_eqb t (st "Error") then m <- required "message" d_str fs ;; Ok (ErrorReply m)
  else Err "unknown variant".
Definition d_client (j : json) : res cmsg :=
  match j with
  | JObj fs =>
      t <- required "type" tag_name fs ;;
      let fs := without "type" fs in
      if str_eqb t (st "Init") then p <- required "binary_path" d_str fs ;; Ok (Init p)
      else if str_eqb t (st "Command") then c <- required "cmd" d_str fs ;; xs <- required "args" (d_vec d_str) fs ;; Ok (Command c xs)
      else if str_eqb t (st "EventResponse") then r <- d_reply fs ;; Ok (EventResponse r)
      else Err "unknown variant"
  | JArr (t :: l) =>
      t <- tag_name t ;;
      if str_eqb t (st "Init") then match l with [p] => p <- d_str p ;; Ok (Init p) | _ => Err "invalid length" end
      else if str_eqb t (st "Command") then
        match l with [c; xs] => c <- d_str c ;; xs <- d_vec d_str xs ;; Ok (Command c xs) | _ => Err "invalid length" end
      else Err "invalid type"
  | _ => Err "invalid type"
  end.

(** ** Lines (server.rs 64-83: read_next_message) *)
(** BufRead::read_line: up to and including a line feed; at the end of the stream what is left, if anything. *)
Fixpoint split_lines (bs : list Z) : list (list Z) :=
  match bs with
  | [] => []
  | b :: r =>
      if b =? 10 then [b] :: split_lines r
      else match split_lines r with [] => [[b]] | l :: ls => (b :: l) :: ls end
  end.
(** Not UTF-8: read_line fails. *)
Definition text_of (bs : list Z) : option str :=
  let s := utf8_lossy bs in if list_eq_dec Z.eq_dec (utf8 s) bs then Some s else None.
Definition line_of (bs : list Z) : line :=
  match text_of bs with
  | None => Bad
  | Some s =>
      match trim s with
      | [] => Bad
      | t => match bind (from_str t) d_client with Ok m => Msg m | _ => Bad end
      end
  end.
Definition lines_of (bs : list Z) : list line := map line_of (split_lines bs).
(** A whole connection over bytes. *)
Definition session (load : str -> res dbg) (bs : list Z) (up : list bool) : ending * list wire := run_session load (lines_of bs) up.
Definition sent_bytes (log : list wire) : list Z := flat_map (fun w => match w with Sent m => server_bytes m | _ => [] end) log.
