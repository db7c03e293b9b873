(** Mistaken expressions on the binaries of BinaryExample4 and BinaryExample7 (C125). *)
From Coq Require Import Ascii String List ZArith NArith Lia Bool Arith Sorted Permutation.
From Verif Require Import Base NumText OMap AddrModel AddrSpec AddrProofs SymModel SymSpec SymProofs SymProps PathModel LinesModel LinesProps DieModel DieSpec ModuleModel ModuleSpec
  TypesModel ParserModel ParserSpec ParserProofs ResolveModel ResolveSpec ResolveProofs ResolveProps ResolveExample LocModel FnModel FnSpec FnProofs FnProps SourceModel DiscoverModel DiscoverSpec LoadModel LoadProps LookupSpec BinaryModel BinarySpec BinaryProofs BinaryProps BinaryVars BinaryTypes BinaryMethods.
From Verif Require Import ValueModel FormatSpec ExprModel ProcModel EvalModel ServerModel ClientModel ClientSpec SessionModel SessionSpec WireProps RdProps SessionExample BinarySession BinaryExample BinarySpec DataSpec AccessProps PlainSpec BinaryEval MemExample BinaryExample4 BinaryCall BinaryCommands BinaryExample7 BinaryAstray.
From Verif Require Import ResolveExample BinaryEval.
From Verif Require Import ValueModel ParserModel Utf8.
Import ListNotations.
Open Scope Z_scope.

Definition nest_refuses (words : list str) : Prop := exists k0, forall k, (k0 <= k)%nat -> exists n0, forall n, (n0 <= n)%nat -> exists msg,
  BinaryEval.prints app_map nest_fs (fun l => l) plain_externals isort None (fun s => s) (fun _ _ => []) (fun _ => false) nest_lldb 0%nat (st "/app/bin") n k words [st "Error: " ++ msg].
Definition nest_astray : expr -> Prop := astray nest_env nest_unit (somes nest_locals) 4096 (fun _ _ => []) nest_mem (no_function nest_history).
Lemma nest_mistake x e : forallb (fun c => N.ltb c 128) (st x) = true -> parse_expression (st x) = Ok e -> nest_astray e -> nest_refuses [st x].
Proof.
  intros T Pe A. refine (mistake_reported app_map nest_fs (fun l => l) plain_externals isort None (fun s => s) (fun _ _ => []) (fun _ => false) isort_sorts nat nest_lldb 0%nat (st "/app/bin") nest_binary nest_tables
    nest_fits eq_refl eq_refl eq_refl eq_refl ltac:(apply ascii_texts; reflexivity) nest_opened eq_refl ltac:(apply Forall_cons; [exact nest_well | apply Forall_nil]) nest_apart nest_mem nest_file nest_unit run_die nest_env [] nest_locals 6 4096 [st x] e
    nest_served nest_stopped ltac:(discriminate) ltac:(apply Forall_cons; [apply ascii_texts; exact T | apply Forall_nil]) Pe _).
  rewrite nest_indexed. exact A.
Qed.
Ltac undeclared_ := apply as_variable; let x := fresh in intros x Hx; cbn in Hx; repeat destruct Hx as [<- | Hx]; [discriminate..|]; destruct Hx.
Example no_variable : nest_refuses [st "nosuch.field"].
Proof. eapply nest_mistake; [reflexivity | vm_compute; reflexivity|]. apply as_in_field. undeclared_. Qed.
Example no_field : nest_refuses [st "o.nosuch[0]"].
Proof.
  eapply nest_mistake; [reflexivity | vm_compute; reflexivity|]. apply as_in_base. eapply (as_no_field _ _ _ _ _ _ _ (EVariable (st "o"))); [exact nest_o | reflexivity|].
  intros g Hg. repeat destruct Hg as [<- | Hg]; [discriminate..|]. destruct Hg.
Qed.
Example beyond_array : nest_refuses [st "both[2]"].
Proof. eapply nest_mistake; [reflexivity | vm_compute; reflexivity|]. eapply (as_beyond_array _ _ _ _ _ _ _ (EVariable (st "both"))); [exact nest_both | reflexivity | apply nu_literal | lia]. Qed.
Example beyond_vec : nest_refuses [st "g.items[(2)]"].
Proof.
  eapply nest_mistake; [reflexivity | vm_compute; reflexivity|]. apply (as_beyond_vec nest_env nest_unit (somes nest_locals) 4096 (fun _ _ => []) nest_mem (no_function nest_history) (EField (EVariable (st "g")) (st "items")) 3904 vec_t 16 0 8 u32t 8192 2 (EParen (ENumber 2)) 2); [exact nest_items | reflexivity | u64_ | u64_ | mem | mem | apply nu_paren, nu_literal | lia].
Qed.
Example no_key : nest_refuses [st "m[""c""]"].
Proof.
  eapply nest_mistake; [reflexivity | vm_compute; reflexivity|]. apply (as_no_key nest_env nest_unit (somes nest_locals) 4096 (fun _ _ => []) nest_mem (no_function nest_history) (EVariable (st "m")) 3968 map_t string_t u32t (HashMap 8 0 24 32 0 24) [(8416, 8440); (8352, 8376)] (EString (st "c")) (st "c") nest_m eq_refl nest_entries).
  - apply na_literal. split; discriminate.
  - apply Forall_cons; [|apply Forall_cons; [|apply Forall_nil]].
    + exists (st "a"). split; [|discriminate]. exists 6%nat, (st "String"), (quoted (st "a")).
      split; [apply (nest_key 6 8416 8216); [u64_ | u64_ | mem | mem | apply ascii_texts; reflexivity | discriminate | mem]|]. split; [split; discriminate | right; reflexivity].
    + exists (st "b"). split; [|discriminate]. exists 6%nat, (st "String"), (quoted (st "b")).
      split; [apply (nest_key 6 8352 8217); [u64_ | u64_ | mem | mem | apply ascii_texts; reflexivity | discriminate | mem]|]. split; [split; discriminate | right; reflexivity].
Qed.
Example field_of_number : nest_refuses [st "i.x"].
Proof. eapply nest_mistake; [reflexivity | vm_compute; reflexivity|]. eapply (as_fieldless _ _ _ _ _ _ _ (EVariable (st "i"))); [exact nest_i | exact Logic.I]. Qed.
Example element_of_number : nest_refuses [st "g.items[i[0]]"].
Proof.
  eapply nest_mistake; [reflexivity | vm_compute; reflexivity|]. eapply (as_in_index _ _ _ _ _ _ _ (EField (EVariable (st "g")) (st "items"))); [exact nest_items|].
  eapply (as_without_elements _ _ _ _ _ _ _ (EVariable (st "i"))); [exact nest_i | exact Logic.I | apply nu_literal].
Qed.
Example no_function_ : nest_refuses [st "double(1)"].
Proof.
  eapply nest_mistake; [reflexivity | vm_compute; reflexivity|]. apply as_no_function. exists [], (st "double"). split; [reflexivity|]. split; [apply Forall_cons; [exact double_segment | apply Forall_nil]|].
  split; [intros (ds & H & _); discriminate H|]. intros y [<- | []] [E _]. discriminate E.
Qed.
Example unreadable : forall n k, BinaryEval.prints app_map nest_fs (fun l => l) plain_externals isort None (fun s => s) (fun _ _ => []) (fun _ => false) nest_lldb 0%nat (st "/app/bin") n k [st "o."] [st "Error: Expected field name after '.'"].
Proof.
  apply (unreadable_expression_reported app_map nest_fs (fun l => l) plain_externals isort None (fun s => s) (fun _ _ => []) (fun _ => false) nat nest_lldb 0%nat (st "/app/bin") nest_binary [st "o."] "Expected field name after '.'"%string nest_fits); [apply ascii_texts; reflexivity | exact nest_opened | discriminate | apply Forall_cons; [apply ascii_texts; reflexivity | apply Forall_nil] | vm_compute; reflexivity | apply ascii_texts; reflexivity].
Qed.
(** Without a frame. *)
Definition frameless : debugger nat := Debugger nat (fun _ => true) (fun _ => true) (fun _ => true) (fun _ => false) (fun _ => nest_memory)
  (fun _ => registers0) (fun _ => 4164) (fun _ => 0) (fun _ => 0) (fun _ => 77) (fun _ => st "main") (fun _ => Some 65536)
  (fun n e => (call_value, n)) (fun _ x => None) (fun n _ _ => (true, S n)) (fun _ => st "error").
Example frameless_fits : debugger_fits frameless.
Proof.
  split; cbn -[str_eqb st nest_memory].
  - intros q a n d. unfold nest_memory. apply nest_read.
  - intros _. repeat constructor; cbn; unfold two64; lia.
  - intros _. repeat split; unfold two64; lia.
  - intros _. split; [split; unfold two64; lia | apply ascii_texts; reflexivity].
  - intros _ a H. injection H as <-. split; unfold two64; lia.
  - intros n e v s1 H. injection H as <- _. repeat split; unfold two64; cbn; try lia. apply ascii_texts; reflexivity.
  - intros _ x t H. discriminate.
  - intros _. apply ascii_texts; reflexivity.
Qed.
Example no_frame : forall n k, exists msg, BinaryEval.prints app_map nest_fs (fun l => l) plain_externals isort None (fun s => s) (fun _ _ => []) (fun _ => false) frameless 0%nat (st "/app/bin") n k [st "o.ns"] [st "Error: " ++ msg].
Proof.
  eapply (no_frame_reported app_map nest_fs (fun l => l) plain_externals isort None (fun s => s) (fun _ _ => []) (fun _ => false) nat frameless 0%nat (st "/app/bin") nest_binary); [exact frameless_fits | apply ascii_texts; reflexivity | exact nest_opened | reflexivity | discriminate | apply Forall_cons; [apply ascii_texts; reflexivity | apply Forall_nil] | vm_compute; reflexivity|].
  apply fv_field, fv_variable.
Qed.
(** Calls: a debugger that cannot carry out any. *)
Definition failing : debugger nat := Debugger nat (fun _ => true) (fun _ => true) (fun _ => true) (fun _ => true) call_memory
  (fun _ => registers0) (fun _ => 4164) (fun _ => 0) (fun _ => 0) (fun _ => 77) (fun _ => st "main") (fun _ => Some 65536)
  (fun n e => (EvRes true true 0 0 0 [], S n)) (fun _ x => None) (fun n _ _ => (true, S n)) (fun _ => st "error").
Example failing_fits : debugger_fits failing.
Proof.
  split; cbn -[str_eqb st call_memory].
  - intros q a n d. unfold call_memory. apply call_read.
  - intros _. repeat constructor; cbn; unfold two64; lia.
  - intros _. repeat split; unfold two64; lia.
  - intros _. split; [split; unfold two64; lia | apply ascii_texts; reflexivity].
  - intros _ a H. injection H as <-. split; unfold two64; lia.
  - intros n e v s1 H. injection H as <- _. repeat split; unfold two64; cbn; try lia. constructor.
  - intros _ x t H. discriminate.
  - intros _. apply ascii_texts; reflexivity.
Qed.
Lemma failing_stopped : stopped app_map plain_externals failing 0%nat call_binary call_tables call_file call_unit go_die call_env [] call_locals 6 4096.
Proof.
  exists s_go, (pth ["home"; "u"; "app"; "src"; "main.rs"]%string, 6, Some 9), s_go. split; [exact call_attributed|]. split; [exact call_described|]. split; [reflexivity|]. split; [unfold u64, two64; lia | reflexivity].
Qed.
Definition failing_prints (args : list str) (s1 : nat) : Prop := exists k0, forall k, (k0 <= k)%nat -> exists n0, forall n, (n0 <= n)%nat -> exists msg,
  prints_leaving app_map call_fs (fun l => l) plain_externals isort None (fun s => s) (fun _ _ => []) (fun _ => false) failing 0%nat (st "/app/bin") n k args [st "Error: " ++ msg] s1.
Example double_fails : failing_prints [st "double(i)"] 1.
Proof.
  refine (failed_call_reported app_map call_fs (fun l => l) plain_externals isort None (fun s => s) (fun _ _ => []) (fun _ => false) isort_sorts nat failing 0%nat (st "/app/bin") call_binary call_tables
    failing_fits eq_refl eq_refl eq_refl eq_refl ltac:(apply ascii_texts; reflexivity) call_opened eq_refl ltac:(apply Forall_cons; [exact call_well | apply Forall_nil]) call_apart
    (call_mem 0) call_file call_unit go_die call_env [] call_locals 6 4096 [st "double(i)"] [] (st "double") [EVariable (st "i")] s_double call_file call_unit double_die call_env [(Some (st "n"), u32t)] (Some u32t)
    [((st "struct Arg_4", st "*((struct Arg_4*)0xff8)"), [4])] (Some 4) double_text _ 1%nat (call_served 0) failing_stopped _ _ _ _ _ _ double_declared _ eq_refl _ eq_refl _ _ eq_refl _).
  - discriminate.
  - apply Forall_cons; [apply ascii_texts; reflexivity | apply Forall_nil].
  - vm_compute. reflexivity.
  - apply Forall_cons; [exact double_segment | apply Forall_nil].
  - intros (ds & H & _). discriminate.
  - rewrite call_indexed. exact double_only.
  - cbn. unfold two64. lia.
  - apply Forall2_cons; [|apply Forall2_nil]. apply (pa_block call_env call_unit (somes call_locals) 4096 (fun _ _ => []) (call_mem 0) (EVariable (st "i")) 4088 u32t 4 call_i eq_refl). u64_.
  - u64_.
  - eexists [_]. split; [apply Forall2_cons; [reflexivity | apply Forall2_nil]|]. vm_compute. reflexivity.
  - right. reflexivity.
Qed.
Example sum_fails : failing_prints [st "p.sum(5)"] 1.
Proof.
  refine (failed_method_reported app_map call_fs (fun l => l) plain_externals isort None (fun s => s) (fun _ _ => []) (fun _ => false) isort_sorts nat failing 0%nat (st "/app/bin") call_binary call_tables
    failing_fits eq_refl eq_refl eq_refl eq_refl ltac:(apply ascii_texts; reflexivity) call_opened eq_refl ltac:(apply Forall_cons; [exact call_well | apply Forall_nil]) call_apart
    (call_mem 0) call_file call_unit go_die call_env [] call_locals 6 4096 [st "p.sum(5)"] (EVariable (st "p")) 4032 point_t (st "sum") [ENumber 5] call_methods sum_method
    [((st "unsigned long", st "5"), [])] (Some 4) sum_text _ 1%nat (call_served 0) failing_stopped _ _ _ call_p _ _ call_lists _ _ _ eq_refl _ _ eq_refl _).
  - discriminate.
  - apply Forall_cons; [apply ascii_texts; reflexivity | apply Forall_nil].
  - vm_compute. reflexivity.
  - u64_.
  - intros names H. cbn in H. subst names. intros [].
  - exists [], (tl call_methods). split; [reflexivity|]. split; [split; [exists Borrowed; reflexivity | reflexivity] | constructor].
  - cbn. unfold two64. lia.
  - apply Forall2_cons; [|apply Forall2_nil]. apply (pa_number call_env call_unit (somes call_locals) 4096 (fun _ _ => []) (call_mem 0) 5). lia.
  - u64_.
  - exists []. split; [apply Forall2_nil|]. vm_compute. reflexivity.
  - right. reflexivity.
Qed.
Definition call_refuses (words : list str) : Prop := exists k0, forall k, (k0 <= k)%nat -> exists n0, forall n, (n0 <= n)%nat -> exists msg,
  BinaryEval.prints app_map call_fs (fun l => l) plain_externals isort None (fun s => s) (fun _ _ => []) (fun _ => false) call_lldb 0%nat (st "/app/bin") n k words [st "Error: " ++ msg].
Example too_many : call_refuses [st "double(i, 1)"].
Proof.
  refine (wrong_arity_reported_partial app_map call_fs (fun l => l) plain_externals isort None (fun s => s) (fun _ _ => []) (fun _ => false) nat call_lldb 0%nat (st "/app/bin") call_binary call_tables
    call_fits ltac:(apply ascii_texts; reflexivity) call_opened eq_refl ltac:(apply Forall_cons; [exact call_well | apply Forall_nil]) call_apart
    [st "double(i, 1)"] [] (st "double") [EVariable (st "i"); ENumber 1] s_double call_file call_unit double_die call_env [(Some (st "n"), u32t)] (Some u32t) _ _ _ _ _ _ double_declared _).
  - discriminate.
  - apply Forall_cons; [apply ascii_texts; reflexivity | apply Forall_nil].
  - vm_compute. reflexivity.
  - apply Forall_cons; [exact double_segment | apply Forall_nil].
  - intros (ds & H & _). discriminate.
  - rewrite call_indexed. exact double_only.
  - discriminate.
Qed.
Example no_method : call_refuses [st "p.norm()"].
Proof.
  refine (unknown_method_reported app_map call_fs (fun l => l) plain_externals isort None (fun s => s) (fun _ _ => []) (fun _ => false) isort_sorts nat call_lldb 0%nat (st "/app/bin") call_binary call_tables
    call_fits eq_refl eq_refl eq_refl eq_refl ltac:(apply ascii_texts; reflexivity) call_opened eq_refl ltac:(apply Forall_cons; [exact call_well | apply Forall_nil]) call_apart
    (call_mem 0) call_file call_unit go_die call_env [] call_locals 6 4096 [st "p.norm()"] (EVariable (st "p")) 4032 point_t (st "norm") [] call_methods (call_served 0) call_stopped _ _ _ call_p _ call_lists _).
  - discriminate.
  - apply Forall_cons; [apply ascii_texts; reflexivity | apply Forall_nil].
  - vm_compute. reflexivity.
  - intros names H. cbn in H. subst names. intros [].
  - intros q Hq _. repeat destruct Hq as [<- | Hq]; [discriminate..|]. destruct Hq.
Qed.
(** rd eval p.sum(), without the argument that the method declares: not refused but called, with the address of the object alone. *)
Definition short_text : str := st "struct ReturnBuffer_4 { unsigned char bytes[4]; }; auto result = ((struct ReturnBuffer_4 (*)(void*))0x1080)((void*)0xfc0); &result".
Definition short_lldb : debugger nat := Debugger nat (fun _ => true) (fun _ => true) (fun _ => true) (fun _ => true) call_memory
  (fun _ => registers0) (fun _ => 4164) (fun _ => 0) (fun _ => 0) (fun _ => 77) (fun _ => st "main") (fun _ => Some 65536)
  (fun n e => (call_value, if str_eqb e short_text then 2%nat else n)) (fun _ x => None) (fun n _ _ => (true, S n)) (fun _ => st "error").
Example short_fits : debugger_fits short_lldb.
Proof.
  split; cbn -[str_eqb st call_memory short_text].
  - intros q a n d. unfold call_memory. apply call_read.
  - intros _. repeat constructor; cbn; unfold two64; lia.
  - intros _. repeat split; unfold two64; lia.
  - intros _. split; [split; unfold two64; lia | apply ascii_texts; reflexivity].
  - intros _ a H. injection H as <-. split; unfold two64; lia.
  - intros n e v s1 H. injection H as <- _. repeat split; unfold two64; cbn; try lia. apply ascii_texts; reflexivity.
  - intros _ x t H. discriminate.
  - intros _. apply ascii_texts; reflexivity.
Qed.
Lemma short_stopped : stopped app_map plain_externals short_lldb 0%nat call_binary call_tables call_file call_unit go_die call_env [] call_locals 6 4096.
Proof.
  exists s_go, (pth ["home"; "u"; "app"; "src"; "main.rs"]%string, 6, Some 9), s_go. split; [exact call_attributed|]. split; [exact call_described|]. split; [reflexivity|]. split; [unfold u64, two64; lia | reflexivity].
Qed.
Theorem wrong_method_arity_refuted :
  (on_object sum_method /\ map fst (dm_params sum_method) = [Some (st "k")]) /\
  (exists k0, forall k, (k0 <= k)%nat -> exists n0, forall n, (n0 <= n)%nat ->
     prints_leaving app_map call_fs (fun l => l) plain_externals isort None (fun s => s) (fun _ _ => []) (fun _ => false) short_lldb 0%nat (st "/app/bin") n k [st "p.sum()"] [st "type: u32"; st "value: 12"] 2%nat).
Proof.
  split; [split; [exists Borrowed; reflexivity | reflexivity]|].
  refine (method_call_printed_partial app_map call_fs (fun l => l) plain_externals isort None (fun s => s) (fun _ _ => []) (fun _ => false) isort_sorts nat short_lldb 0%nat (st "/app/bin") call_binary call_tables
    short_fits eq_refl eq_refl eq_refl eq_refl ltac:(apply ascii_texts; reflexivity) call_opened eq_refl ltac:(apply Forall_cons; [exact call_well | apply Forall_nil]) call_apart
    (call_mem 0) call_file call_unit go_die call_env [] call_locals 6 4096 [st "p.sum()"] (EVariable (st "p")) 4032 point_t (st "sum") [] call_methods sum_method call_file call_unit call_env
    [] (Some 4) short_text call_value 2%nat _ (call_served 0) short_stopped _ _ _ call_p _ _ call_lists _ _ (or_introl eq_refl) (or_introl eq_refl) call_view _ eq_refl _ _ eq_refl _).
  - discriminate.
  - apply Forall_cons; [apply ascii_texts; reflexivity | apply Forall_nil].
  - vm_compute. reflexivity.
  - u64_.
  - intros names H. cbn in H. subst names. intros [].
  - exists [], (tl call_methods). split; [reflexivity|]. split; [split; [exists Borrowed; reflexivity | reflexivity] | constructor].
  - cbn. unfold two64. lia.
  - apply Forall2_nil.
  - u64_.
  - exists []. split; [apply Forall2_nil|]. vm_compute. reflexivity.
  - change [st "type: u32"; st "value: 12"] with [st "type: " ++ tname u32t; st "value: " ++ Base.join [lf] (shown (VScalar (st "u32") (dec 12)))].
    apply (out_value short_lldb call_env (fun _ _ => []) call_value 2%nat (Some u32t) 4 8192 u32t (call_mem 2)); try reflexivity.
    + split; [reflexivity|]. split; [reflexivity|]. exists 8192. split; [reflexivity|]. split; [discriminate|]. left. split; [reflexivity | discriminate].
    + apply call_served.
    + apply fo_unsigned with (w := 4); [reflexivity | cbn; tauto | u64_ | mem].
    + apply ti_scalar; [apply one_line_b; reflexivity | discriminate].
    + apply ascii_texts. reflexivity.
    + apply Forall_cons; [apply ascii_texts; reflexivity | apply Forall_nil].
Qed.
Print Assumptions no_key.
Print Assumptions double_fails.
Print Assumptions sum_fails.
Print Assumptions wrong_method_arity_refuted.
