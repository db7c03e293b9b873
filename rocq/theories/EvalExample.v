(** A small target: the hypotheses of the evaluation theorems are met, and what goes wrong with calls as arguments. *)
From Coq Require Import Ascii String List ZArith Lia Bool.
From Verif Require Import Base NumText OMap TypesModel ValueModel DataModel AccessModel SynthModel LocModel FnModel DiscoverModel ExprModel ProcModel ProcSpec ProcProofs IoDataModel MemExample EvalModel EvalSpec EvalProofs EvalDenote EvalProps EvalCalls EvalTerm.
Import ListNotations.
Open Scope Z_scope.

Definition u64t : tdef := TD (LUInt 8) (Some 1).
Definition i64t : tdef := TD (LInt 8) (Some 2).
Definition node_name : tdef := TD (LAlias (st "Node")) (Some 3).
Definition node_ref : tdef := TD (LReference false node_name) (Some 4).
Definition node : tdef := TD (LStruct (st "Node") 16 8 [(st "value", 0, u64t); (st "next", 8, node_ref)]) (Some 3).
Definition vect : tdef := TD (LVec 16 8 0 u64t) (Some 5).
Definition word (z : Z) : list Z := [z mod 256; (z / 256) mod 256; 0; 0; 0; 0; 0; 0].
(** A node whose [next] is itself, a vector of 10, 20, 30, [i] = 2, [j] = -1. *)
Definition target_memory : list (Z * list Z) :=
  [(4112, word 7 ++ word 4112); (4160, word 3 ++ word 8192 ++ word 3); (4192, word 2 ++ repeat 255 8); (8192, word 10 ++ word 20 ++ word 30)].
Definition names (l : loc) : res tdef := match l with Some 3 => Ok node | _ => Err "unresolved" end.
Definition slot (off : Z) (t : tdef) : res (option vplan) := Ok (Some (VPlan (Some [OReg 6]) 0 (Some [OFbreg off]) (Ok t))).
Definition vars (pc : Z) (x : str) : res (option vplan) :=
  if str_eqb x (st "node") then slot 16 node
  else if str_eqb x (st "xs") then slot 64 vect
  else if str_eqb x (st "i") then slot 96 u64t
  else if str_eqb x (st "j") then slot 104 i64t
  else Ok None.
Definition fn_g := DFunction (st "g") (st "g") [] 20480 true [] (Some u64t) [].
Definition fn_f := DFunction (st "f") (st "f") [] 24576 true [] (Some u64t) [(Some (st "x"), u64t)].
Definition me_sum := DMethod (st "sum") (st "Node::sum") [] 28672 (Some Borrowed) true false (Some u64t) [].
Definition dbg0 : dbg := Dbg (IEnv names (fun bs => map Z.to_N bs) (fun _ _ => st "1.5")) vars
  (fun t => if str_eqb (tname t) (st "Node") then Ok [me_sum] else Ok [])
  (fun f => if str_eqb f (st "g") then Ok [fn_g] else if str_eqb f (st "f") then Ok [fn_f] else Ok [])
  (Ok []) (fun _ => Ok None) (fun x => forallb is_digit x) 5.
(** The client's state counts how often it ran code. *)
Definition lldb : client nat := fun n q =>
  match q with
  | ReadMemory a k => (match read_bytes (mem_of target_memory) a (Z.to_nat k) with Some bs => Replied (MemoryData bs) | None => Replied (ErrorReply []) end, n)
  | ReadRegisterByIndex 6 => (Replied (RegisterData 4096), n)
  | GetFrameInfo => (Replied (FrameInfo 4194304 0 0), n)
  | ExecuteFunction _ _ _ => (Replied (FunctionResult (Simple 5 (st "u64"))), S n)
  | ExecuteMethod _ _ _ _ => (Replied (MethodResult (Simple 7 (st "u64"))), S n)
  | _ => (Replied (ErrorReply []), n)
  end.
Lemma lldb_steady n : steady lldb n.
Proof.
  intros q H. unfold lldb. destruct q; try destruct H; repeat (match goal with |- snd (match ?x with _ => _ end, _) = _ => reflexivity | |- snd (match ?x with _ => _ end) = _ => destruct x end); reflexivity.
Qed.
Lemma lldb_frame n : fst (lldb n GetFrameInfo) = Replied (FrameInfo 4194304 0 0).
Proof. reflexivity. Qed.
Definition var (x : string) : expr := EVariable (st x).
Definition show (e : expr) : res eresult := fst (outcome lldb (e_val (evaluate dbg0 e) None) 0%nat).
(** The node that is its own successor: shown down to level eight, where pointers remain. *)
Definition value_at (n : nat) : str := repeat (ch " ") n ++ st "value: 7".
Example cyclic_node_shown : show (var "node") = Ok (EResult (join [lf]
  [st "Node {"; st "  next: &Node {"; st "    next: &Node {"; st "      next: &Node {"; st "        next: &Node {";
   st "          next: <&Node @ 0x1018>,"; st "          value: <u64 @ 0x1010>"; st "        },"; value_at 8; st "      },"; value_at 6; st "    },"; value_at 4; st "  },"; value_at 2; st "}"]) (st "Node")).
Proof. vm_compute. reflexivity. Qed.
(** The types in play here satisfy the conditions of [expansion_ends]. *)
Definition types_here (t : tdef) : Prop := In t [u64t; i64t; node_name; node_ref; node; vect].
Example types_here_closed : closed (g_env dbg0) types_here /\ (forall t, types_here t -> ends (g_env dbg0) (g_fuel dbg0) t) /\ (forall l, i_resolve (g_env dbg0) l <> Fuel) /\ types_here node.
Proof.
  split; [|split; [|split]].
  - intros t H. repeat destruct H as [<-|H]; try destruct H; cbn; unfold types_here; try exact I.
    + intros u E. injection E as <-. cbn. tauto.
    + cbn. tauto.
    + intros f [<-|[<-|[]]]; cbn; tauto.
    + cbn. tauto.
  - intros t H. repeat destruct H as [<-|H]; try destruct H; cbn; try exact I.
    + intros u E. injection E as <-. exact I.
    + intros u E. injection E as <-. exact I.
  - intros l. cbn. unfold names. repeat (match goal with |- (match ?x with _ => _ end) <> _ => destruct x end); discriminate.
  - cbn. tauto.
Qed.
Example cyclic_node_ends : forall S (c : client S) s, outcome c (pointer_to_result dbg0 (4112, node)) s <> Fuel.
Proof. intros S c s. destruct types_here_closed as (C & E & N & T). apply (expansion_ends dbg0 types_here N C E S c s 4112 node T). Qed.
(** [xs[i]] is [xs[2]]; [xs[j]] is nothing, because [j] is -1. *)
Example variable_index_case :
  place lldb 0%nat dbg0 4194304 (var "xs") (4160, vect) /\ place lldb 0%nat dbg0 4194304 (var "i") (4192, u64t) /\ place lldb 0%nat dbg0 4194304 (var "j") (4200, i64t) /\
  read (shown_env lldb 0%nat (g_env dbg0)) (g_fuel dbg0) 4192 u64t = Ok (VScalar (st "u64") (dec 2)) /\
  read (shown_env lldb 0%nat (g_env dbg0)) (g_fuel dbg0) 4200 i64t = Ok (VScalar (st "i64") (dec (-1))) /\
  show (EIndex (var "xs") (var "i")) = Ok (EResult (st "30") (st "u64")) /\
  (forall r, show (EIndex (var "xs") (var "j")) <> Ok r).
Proof.
  assert (P : forall x off t, vars 4194304 (st x) = slot off t -> resolve_data_location (shown_regs lldb 0%nat) (Some [OReg 6]) 0 (Some [OFbreg off]) = Ok (Some (4096 + off)) -> place lldb 0%nat dbg0 4194304 (var x) (4096 + off, t)).
  { intros x off t V R. eapply (pl_variable _ _ _ _ _ (VPlan (Some [OReg 6]) 0 (Some [OFbreg off]) (Ok t))); [exact V | exact R | reflexivity]. }
  split; [apply (P "xs"%string 64); vm_compute; reflexivity|]. split; [apply (P "i"%string 96); vm_compute; reflexivity|]. split; [apply (P "j"%string 104); vm_compute; reflexivity|].
  split; [vm_compute; reflexivity|]. split; [vm_compute; reflexivity|]. split; [vm_compute; reflexivity|]. intros r. vm_compute. discriminate.
Qed.
(** [node.sum()] is run once; its result is shown. *)
Example method_call_case : exists t s2, exec lldb (e_val (evaluate dbg0 (EMethodCall (var "node") (st "sum") [])) None) 0%nat = (t, (Ok (EResult (st "7") (st "u64")), Some 4194304), s2) /\ runs t = 1%nat.
Proof. eexists _, _. split; [vm_compute; reflexivity | reflexivity]. Qed.
(** A call written as an argument is run twice when it returns a simple value: once in the attempt to get a pointer, whose
    result is thrown away, and again for the value. With nesting the number doubles at every level. *)
Theorem each_call_runs_once_refuted :
  runs (events lldb (e_val (evaluate dbg0 (ECall (st "f") [ECall (st "g") []])) None) 0%nat) = 3%nat /\ calls (ECall (st "f") [ECall (st "g") []]) = 2%nat /\
  runs (events lldb (e_val (evaluate dbg0 (ECall (st "f") [ECall (st "f") [ECall (st "g") []]])) None) 0%nat) = 7%nat /\
  worst (ECall (st "f") [ECall (st "f") [ECall (st "g") []]]) = 7%nat.
Proof. repeat split; vm_compute; reflexivity. Qed.
Print Assumptions each_call_runs_once_refuted.
(** A method is run with more arguments than it takes. *)
Theorem method_argument_count_refuted : exists t r pc s2 base xs sz,
  exec lldb (e_val (evaluate dbg0 (EMethodCall (var "node") (st "sum") [ENumber 1; ENumber 2])) None) 0%nat = (t, (Ok r, pc), s2) /\
  In (ExecuteMethod (dm_addr me_sum) base xs sz, Replied (MethodResult (Simple 7 (st "u64")))) t /\ (List.length (dm_params me_sum) < List.length xs)%nat.
Proof. eexists _, _, _, _, _, _, _. split; [vm_compute; reflexivity|]. split; [right; right; left; reflexivity | cbn; lia]. Qed.
Print Assumptions method_argument_count_refuted.
(** Whereas a function is not. *)
Theorem function_argument_count_checked : forall D f args pc S (c : client S) s t out pc2 s2,
  exec c (e_val (evaluate D (ECall f args)) pc) s = (t, (Ok out, pc2), s2) -> exists d fs, g_functions D f = Ok (d :: fs) /\ List.length args = List.length (df_params d).
Proof.
  intros D f args pc S c s t out pc2 s2 H. apply function_result_shown in H. destruct H as (d & xs & sz & r & t3 & s3 & t4 & s4 & t5 & F & _). apply found_function in F. destruct F as (fs & G & _ & L). eauto.
Qed.
Print Assumptions function_argument_count_checked.
