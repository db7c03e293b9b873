(** Cases that meet the hypotheses of C113: the built-in methods on the binary and target of BinaryExample4.v. *)
From Coq Require Import Ascii String List ZArith NArith Lia Bool Arith Sorted Permutation.
From Verif Require Import Base NumText OMap AddrModel AddrSpec AddrProofs SymModel SymSpec SymProofs SymProps PathModel LinesModel LinesProps DieModel DieSpec ModuleModel ModuleSpec
  TypesModel ParserModel ParserSpec ParserProofs ResolveModel ResolveSpec ResolveProofs ResolveProps ResolveExample LocModel FnModel FnSpec FnProofs FnProps SourceModel LoadModel LoadProps LookupSpec BinaryModel BinarySpec BinaryProofs BinaryProps BinaryVars BinaryTypes.
From Verif Require Import ValueModel FormatSpec ExprModel ProcModel EvalModel ClientModel ClientSpec SessionModel SessionSpec WireProps RdProps SessionExample BinarySession BinaryExample BinarySpec DataSpec AccessProps PlainSpec BinaryEval MemExample BinarySynth BinaryExample4.
From Verif Require Import ResolveExample.
From Verif Require Import ValueModel ParserModel Utf8.
Import ListNotations.
Open Scope Z_scope.
Definition nest_method (St := nat) := builtin_method_printed_partial app_map nest_fs (fun l => l) plain_externals isort None (fun s => s) (fun _ _ => []) (fun _ => false) isort_sorts nat nest_lldb 0%nat (st "/app/bin") nest_binary nest_tables
    nest_fits eq_refl eq_refl eq_refl eq_refl ltac:(apply ascii_texts; reflexivity) nest_opened eq_refl ltac:(apply Forall_cons; [exact nest_well | apply Forall_nil]) nest_apart nest_mem nest_file nest_unit run_die nest_env [] nest_locals 6 4096.
Lemma nest_reports text_ e method a ty t x : forallb (fun c => N.ltb c 128) (st text_) = true -> parse_expression (Base.join (st " ") [st text_]) = Ok (EMethodCall e (st method) []) -> nest_stands e a ty -> reports nest_mem a ty (st method) t x ->
  nest_prints [st text_] [st "type: " ++ t; st "value: " ++ x].
Proof. intros A Pe Sd Re. apply (nest_method [st text_] e a ty (st method) t x nest_served nest_stopped); [discriminate | apply Forall_cons; [apply ascii_texts; exact A | apply Forall_nil] | exact Pe | exact Sd | exact Re]. Qed.
Definition bag_field (name : string) (off : Z) (t : tdef) : Prop := nest_stands (EField (EVariable (st "g")) (st name)) (3904 + off) t.
Lemma nest_name : bag_field "name" 24 string_t.
Proof.
  apply (st_field nest_env nest_unit (somes nest_locals) 4096 (fun _ _ => []) nest_mem (EVariable (st "g")) 3904 bag_t (st "Bag") 56 8 [(st "items", 0, vec_t); (st "name", 24, string_t); (st "opt", 48, opt_t)] (st "name") (st "name", 24, string_t) nest_g eq_refl); [|u64_].
  eexists [_], _. split; [reflexivity|]. split; [reflexivity|]. repeat constructor; discriminate.
Qed.
Lemma nest_opt : bag_field "opt" 48 opt_t.
Proof.
  apply (st_field nest_env nest_unit (somes nest_locals) 4096 (fun _ _ => []) nest_mem (EVariable (st "g")) 3904 bag_t (st "Bag") 56 8 [(st "items", 0, vec_t); (st "name", 24, string_t); (st "opt", 48, opt_t)] (st "opt") (st "opt", 48, opt_t) nest_g eq_refl); [|u64_].
  eexists [_; _], _. split; [reflexivity|]. split; [reflexivity|]. repeat constructor; discriminate.
Qed.
(** rd eval g.items.len(), g.items.capacity(), g.name.is_empty(), g.opt.is_some(), both.len(), sl.len() *)
Example items_len : nest_prints [st "g.items.len()"] [st "type: usize"; st "value: 2"].
Proof. eapply (nest_reports "g.items.len()" _ "len" 3904 vec_t); [reflexivity | vm_compute; reflexivity | exact nest_items|]. apply (re_vec_len nest_mem 3904 vec_t 16 0 8 u32t 2 eq_refl). split; [u64_ | mem]. Qed.
Example items_capacity : nest_prints [st "g.items.capacity()"] [st "type: usize"; st "value: 2"].
Proof. eapply (nest_reports "g.items.capacity()" _ "capacity" 3904 vec_t); [reflexivity | vm_compute; reflexivity | exact nest_items|]. apply (re_vec_capacity nest_mem 3904 vec_t 16 0 8 u32t 2 eq_refl). split; [u64_ | mem]. Qed.
Example name_is_empty : nest_prints [st "g.name.is_empty()"] [st "type: bool"; st "value: false"].
Proof. eapply (nest_reports "g.name.is_empty()" _ "is_empty" 3928 string_t); [reflexivity | vm_compute; reflexivity | exact nest_name|]. apply (re_string_empty nest_mem 3928 string_t 16 0 8 (TD (LUInt 1) (Some 14)) 2 eq_refl). split; [u64_ | mem]. Qed.
Example opt_is_some : nest_prints [st "g.opt.is_some()"] [st "type: bool"; st "value: true"].
Proof. eapply (nest_reports "g.opt.is_some()" _ "is_some" 3952 opt_t); [reflexivity | vm_compute; reflexivity | exact nest_opt|]. apply (re_is_some nest_mem 3952 opt_t (st "Option<u32>") (Disc (DUInt 4) 0) 4 u32t 8 1 eq_refl); [u64_ | cbn; tauto | mem]. Qed.
Example both_len : nest_prints [st "both.len()"] [st "type: usize"; st "value: 2"].
Proof. eapply (nest_reports "both.len()" _ "len" 4048 two_inner); [reflexivity | vm_compute; reflexivity | exact nest_both|]. exact (re_array_len nest_mem 4048 two_inner (alias "Inner" 80) 2 eq_refl). Qed.
Example sl_len : nest_prints [st "sl.len()"] [st "type: usize"; st "value: 2"].
Proof. eapply (nest_reports "sl.len()" _ "len" 4016 slice_t); [reflexivity | vm_compute; reflexivity | exact nest_sl|]. apply (re_slice_len nest_mem 4016 slice_t u32t 0 2 eq_refl). split; [u64_ | mem]. Qed.
(** [res] holds [Err(3)]; rd eval res.is_ok() prints true. *)
Lemma nest_res : nest_stands (EVariable (st "res")) 3888 res_t.
Proof.
  apply (st_variable nest_env nest_unit (somes nest_locals) 4096 (fun _ _ => []) nest_mem (st "res") (Var (Some (st "res")) res_t (here 5) 61) (-208)); [|reflexivity | reflexivity].
  eexists [_; _; _; _; _; _; _; _], _. split; [reflexivity|]. split; [reflexivity|]. repeat constructor; discriminate.
Qed.
Example err_is_ok : nest_prints [st "res.is_ok()"] [st "type: bool"; st "value: true"].
Proof.
  apply (result_method_refuted app_map nest_fs (fun l => l) plain_externals isort None (fun s => s) (fun _ _ => []) (fun _ => false) isort_sorts nat nest_lldb 0%nat (st "/app/bin") nest_binary nest_tables
    nest_fits eq_refl eq_refl eq_refl eq_refl ltac:(apply ascii_texts; reflexivity) nest_opened eq_refl ltac:(apply Forall_cons; [exact nest_well | apply Forall_nil]) nest_apart nest_mem nest_file nest_unit run_die nest_env [] nest_locals 6 4096
    [st "res.is_ok()"] (EVariable (st "res")) 3888 res_t (st "Result<u32,u32>") (Disc (DUInt 4) 0) u32t 4 u32t 4 8 1 (st "is_ok") nest_served nest_stopped); try reflexivity.
  - discriminate.
  - apply Forall_cons; [apply ascii_texts; reflexivity | apply Forall_nil].
  - exact nest_res.
  - u64_.
  - mem.
  - cbn; tauto.
  - now left.
Qed.
