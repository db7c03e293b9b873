(** A session with the small target of EvalExample: the hypotheses of C89-C98 are met, and where the claims fail. *)
From Coq Require Import Ascii String List ZArith NArith Lia Bool.
From Verif Require Import Base NumText DataSpec OMap TypesModel ValueModel DataModel DiscoverModel ExprModel ProcModel ProcSpec EvalModel EvalSpec MemExample EvalExample ServerModel ServerSpec ServerProps ServerExample JsonModel WireModel WireProps WireRead ClientModel ClientSpec ClientProps ClientEvents SessionModel SessionSpec SessionProofs RdProps TypedProps SessionProps Utf8.
Import ListNotations.
Open Scope Z_scope.

(** LLDB stopped in that target; its state counts the expressions it evaluated. *)
Definition registers0 : list (list (str * Z * Z)) := [[(st "rax", 1, 1); (st "rdx", 2, 2); (st "rcx", 3, 3); (st "rbx", 4, 4); (st "rsi", 5, 5); (st "rdi", 6, 6); (st "rbp", 4096, 4096)]].
Definition checked (bs : list Z) : option (list Z) := if forallb (fun b => (0 <=? b) && (b <? 256)) bs then Some bs else None.
Definition lldb0 : debugger nat := Debugger nat (fun _ => true) (fun _ => true) (fun _ => true) (fun _ => true)
  (fun _ a n => match read_bytes (mem_of target_memory) a (Z.to_nat n) with Some bs => checked bs | None => None end)
  (fun _ => registers0) (fun _ => 4194304) (fun _ => 0) (fun _ => 0) (fun _ => 77) (fun _ => st "main") (fun _ => Some 65536)
  (fun n e => (EvRes true false 8192 (two64 - 1) 4096 (st "5"), S n)) (fun _ x => if str_eqb x (st "i") then Some (st "u64") else None)
  (fun n _ _ => (true, S n)) (fun _ => st "error").
Lemma ascii_texts s : forallb (fun c => N.ltb c 128) s = true -> text s.
Proof. intros H. apply Forall_forall. intros c I. rewrite forallb_forall in H. specialize (H c I). apply N.ltb_lt in H. unfold scalar. lia. Qed.
Example lldb0_fits : debugger_fits lldb0.
Proof.
  split; cbn -[str_eqb st].
  - intros _ a n d. destruct (read_bytes _ a _) as [bs|]; [|discriminate]. unfold checked. destruct (forallb _ bs) eqn:E; [|discriminate]. intros H. injection H as <-. apply Forall_forall. intros b I. rewrite forallb_forall in E. specialize (E b I). unfold byte. lia.
  - intros _. repeat constructor; cbn; unfold two64; lia.
  - intros _. repeat split; unfold two64; lia.
  - intros _. split; [split; unfold two64; lia | apply ascii_texts; reflexivity].
  - intros _ a H. injection H as <-. split; unfold two64; lia.
  - intros n e v s1 H. injection H as <- _. repeat split; unfold two64; cbn; try lia. apply ascii_texts; reflexivity.
  - intros _ x t. destruct (str_eqb x (st "i")); [|discriminate]. intros H. injection H as <-. apply ascii_texts; reflexivity.
  - intros _. apply ascii_texts; reflexivity.
Qed.
(** "rd e xs  [i]", a call, a literal the lexer panics on, and one more command. *)
Definition args1 : list str := [st "xs"; st "[i]"].
Definition args2 : list str := [st "node.sum()"].
Definition args3 : list str := [[34%N; 233%N; 34%N]].
Definition cmds0 : list (str * list str) := [(st "eval", args1); (st "eval", args2); (st "eval", args3); (st "eval", [st "1"])].
Definition results0 : list (res json) :=
  [Ok (enc_server (Complete (PValue (EResult (st "30") (st "u64"))))); Ok (enc_server (Complete (PValue (EResult (st "10") (st "u64"))))); lost; lost].
Definition fits_b (q : request) : bool :=
  match q with
  | ReadMemory a n => (0 <=? a) && (a <? two64) && (0 <=? n) && (n <? two64)
  | ReadRegisterByIndex i => (0 <=? i) && (i <? two64)
  | GetFrameInfo => true
  | ExecuteMethod m b [] (Some n) => (0 <=? m) && (m <? two64) && (0 <=? b) && (b <? two64) && (0 <=? n) && (n <? two64)
  | _ => false
  end.
Lemma fits_b_ok t : forallb (fun x : request * answer => fits_b (fst x)) t = true -> Forall (fun x => request_fits (fst x)) t.
Proof.
  intros H. apply Forall_forall. intros [q a] I. rewrite forallb_forall in H. specialize (H _ I). cbn in *. destruct q; try discriminate; cbn in *.
  - unfold u64. lia.
  - unfold u64. lia.
  - exact Logic.I.
  - destruct args; [|discriminate]. destruct return_type_size; [|discriminate]. cbn. unfold u64. repeat apply conj; try lia. constructor.
Qed.
Ltac texts := cbn [snd]; repeat (apply Forall_cons; [apply ascii_texts; reflexivity|]); apply Forall_nil.
Definition trace (args : list str) (n : nat) := exec (python_client lldb0) (handle_command dbg0 (st "eval") args) n.
Example session0 : exists s2 why, dialogue lldb0 dbg0 0%nat cmds0 results0 s2 (Panicked why).
Proof.
  eexists _, _. unfold cmds0, results0.
  eapply (d_answered lldb0 dbg0 0%nat (st "eval") args1 (fst (fst (trace args1 0%nat)))).
  - discriminate.
  - split; [apply ascii_texts; reflexivity | texts].
  - vm_compute. reflexivity.
  - apply fits_b_ok. vm_compute. reflexivity.
  - split; apply ascii_texts; reflexivity.
  - eapply (d_answered lldb0 dbg0 0%nat (st "eval") args2 (fst (fst (trace args2 0%nat)))).
    + discriminate.
    + split; [apply ascii_texts; reflexivity | texts].
    + vm_compute. reflexivity.
    + apply fits_b_ok. vm_compute. reflexivity.
    + split; apply ascii_texts; reflexivity.
    + eapply (d_panic lldb0 dbg0 1%nat (st "eval") args3 []).
      * split; [apply ascii_texts; reflexivity|]. apply Forall_cons; [|apply Forall_nil]. repeat constructor; unfold scalar; lia.
      * vm_compute. reflexivity.
      * constructor.
Qed.
(** ... so [session_end_to_end] applies to it. *)
Example session0_connected : exists k up down s2 why, connected load0 lldb0 (st "target") cmds0 0%nat k up down results0 s2 (Panicked why).
Proof.
  destruct session0 as (s2 & why & H). destruct (session_end_to_end _ lldb0 load0 (st "target") dbg0 0%nat cmds0 results0 s2 (Panicked why) lldb0_fits) as [k0 X]; [apply ascii_texts; reflexivity | reflexivity | exact H|].
  destruct (X k0 (le_n _)) as [(up & down & C) _]. exists k0, up, down, s2, why. exact C.
Qed.
(** C98 refuted: after the panic the harmless command "rd eval 1" fails too, although it would be answered on its own. *)
Theorem commands_answered_refuted : exists k up down s2 e x,
  connected load0 lldb0 (st "target") cmds0 0%nat k up down results0 s2 e /\ nth_error results0 3 = Some lost /\
  dialogue lldb0 dbg0 1%nat [(st "eval", [st "1"])] [Ok (enc_server (Complete (PValue x)))] 1%nat Closed.
Proof.
  destruct session0_connected as (k & up & down & s2 & why & C). exists k, up, down, s2, (Panicked why), (EResult (st "1") (st "u64")). split; [exact C|]. split; [reflexivity|].
  eapply (d_answered lldb0 dbg0 1%nat (st "eval") [st "1"] []).
  - discriminate.
  - split; [apply ascii_texts; reflexivity | texts].
  - vm_compute. reflexivity.
  - constructor.
  - split; apply ascii_texts; reflexivity.
  - apply d_end.
Qed.
Print Assumptions commands_answered_refuted.
(** C96, C95: the typed line is "rd  e xs [i]" with other spacing; the printed text. *)
Example typed0 : typed (st " e  xs [i]") = Some (st "eval", args1) /\ plain_text (st "xs [i]") /\
  print_response (fun _ => []) (st "eval") (the_fields (enc_server (Complete (PValue (EResult (st "30") (st "u64")))))) = [st "type: u64"; st "value: 30"].
Proof. split; [vm_compute; reflexivity|]. split; [apply Forall_forall; intros c H; vm_compute in H; repeat (destruct H as [<-|H]; [repeat split; lia|]); destruct H|]. vm_compute. reflexivity. Qed.
(** C92: a call with a block of 16 bytes passed by value and a result through memory. *)
Example call0 : call_expr 4096 [8192] "" [PArg (st "Pointer") (st "0x10") (Some 16); PArg (st "Bool") (st "True") None; PArg (st "Pointer") (st "0x20") (Some 16)] (Some 24) =
  st "struct Arg_16 { unsigned char bytes[16]; }; struct ReturnBuffer_24 { unsigned char bytes[24]; }; auto result = ((struct ReturnBuffer_24 (*)(void*, struct Arg_16, int, struct Arg_16))0x1000)((void*)0x2000, *((struct Arg_16*)0x10), 1, *((struct Arg_16*)0x20)); &result".
Proof. vm_compute. reflexivity. Qed.
Example event0 : request_fits (ReadMemory 8192 8) /\ performs lldb0 0%nat (ReadMemory 8192 8) (MemoryData [10; 0; 0; 0; 0; 0; 0; 0]) 0%nat.
Proof. split; [split; split; unfold two64; lia|]. constructor. vm_compute. reflexivity. Qed.
Example event1 : performs lldb0 0%nat (ReadRegisterByIndex 6) (RegisterData 4096) 0%nat /\ kind_fits (ReadRegisterByIndex 6) (RegisterData 4096).
Proof. split; [|exact I]. apply (p_register_index lldb0 0%nat 6 [] (nth 0 registers0 []) [] (st "rbp", 4096, 4096)); try reflexivity; [split; reflexivity | lia | constructor]. Qed.
(** C89-C91: the bytes of messages with non-ASCII text. *)
Example bytes0 : client_fits (Command (st "eval") [[233%N; 128512%N]]) /\ lines_of (client_bytes (Command (st "eval") [[233%N; 128512%N]]) ++ [123; 10]) = [Msg (Command (st "eval") [[233%N; 128512%N]]); Bad].
Proof. split; [split; [apply ascii_texts; reflexivity | repeat constructor; unfold scalar; lia] | vm_compute; reflexivity]. Qed.
Example bytes1 : server_fits (ErrorMsg [233%N; 10%N; 128512%N]) /\ py_messages (server_bytes (ErrorMsg [233%N; 10%N; 128512%N])) = [Ok (enc_server (ErrorMsg [233%N; 10%N; 128512%N]))].
Proof. split; [repeat constructor; unfold scalar; lia | vm_compute; reflexivity]. Qed.
(** C90: fields in another order, an unknown field, numbers out of range refused. *)
Definition wire_text (s : string) : list Z := utf8 (map (fun c => if N.eqb c 39 then 34%N else c) (st s)) ++ [10].
Example order0 : lines_of (wire_text "{'args': ['xs'], 'id': [1, 2], 'cmd': 'eval', 'type': 'Command'}") = [Msg (Command (st "eval") [st "xs"])].
Proof. vm_compute. reflexivity. Qed.
Example order1 : lines_of (wire_text "{'type': 'EventResponse', 'event': 'MemoryData', 'data': [1, 256]}") = [Bad].
Proof. vm_compute. reflexivity. Qed.
(** C94. *)
Example print0 : printed (fun _ => []) (st "methods") (Complete (PMethods (MResult (st "T") [MInfo (st "a") (st "fn a(&self)") None true false; MInfo (st "b") (st "fn b()") None false true]))) =
  [st "Methods for T:"; st "  - fn a(&self) (callable)"; 10%N :: st "Synthetic methods (debug helpers):"; st "  - fn b()"].
Proof. vm_compute. reflexivity. Qed.
(** C97. *)
Example connections0 : Forall (fun s => fst s = None \/ fst s = Some (st "/bin/a")) [(None, true); (Some (st "/bin/a"), false); (Some (st "/bin/a"), true); (Some (st "/bin/a"), false)] /\
  connections None [(None, true); (Some (st "/bin/a"), false); (Some (st "/bin/a"), true); (Some (st "/bin/a"), false)] = [None; None; Some (st "/bin/a"); Some (st "/bin/a")].
Proof. split; [repeat (apply Forall_cons; [cbn; auto|]); apply Forall_nil | reflexivity]. Qed.
