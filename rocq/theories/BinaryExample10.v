(** The command methods of a variable, on the binary of BinaryExample7 (C121). *)
From Coq Require Import Ascii String List ZArith NArith Lia Bool Arith Sorted Permutation.
From Verif Require Import Base NumText OMap AddrModel AddrSpec AddrProofs SymModel SymSpec SymProofs SymProps PathModel LinesModel LinesProps DieModel DieSpec ModuleModel ModuleSpec
  TypesModel ParserModel ParserSpec ParserProofs ResolveModel ResolveSpec ResolveProofs ResolveProps ResolveExample LocModel FnModel FnSpec FnProofs FnProps SourceModel DiscoverModel DiscoverSpec LoadModel LoadProps LookupSpec BinaryModel BinarySpec BinaryProofs BinaryProps BinaryVars BinaryTypes BinaryMethods.
From Verif Require Import ValueModel FormatSpec ExprModel ProcModel EvalModel ServerModel ClientModel ClientSpec SessionModel SessionSpec WireProps RdProps SessionExample BinarySession BinaryExample BinarySpec DataSpec AccessProps PlainSpec BinaryEval MemExample BinaryExample4 BinaryCall BinaryCommands BinaryExample7 BinaryValueMethods.
From Verif Require Import ResolveExample.
From Verif Require Import ValueModel ParserModel Utf8.
Import ListNotations.
Open Scope Z_scope.

Definition named_lldb : debugger nat := Debugger nat (fun _ => true) (fun _ => true) (fun _ => true) (fun _ => true) call_memory
  (fun _ => registers0) (fun _ => 4164) (fun _ => 0) (fun _ => 0) (fun _ => 77) (fun _ => st "main") (fun _ => Some 65536)
  (fun n e => (call_value, n)) (fun _ x => if str_eqb x (st "p") then Some (st "app::Point") else None) (fun n _ _ => (true, S n)) (fun _ => st "error").
Example named_fits : debugger_fits named_lldb.
Proof.
  split; cbn -[str_eqb st call_memory].
  - intros q a n d. unfold call_memory. apply call_read.
  - intros _. repeat constructor; cbn; unfold two64; lia.
  - intros _. repeat split; unfold two64; lia.
  - intros _. split; [split; unfold two64; lia | apply ascii_texts; reflexivity].
  - intros _ a H. injection H as <-. split; unfold two64; lia.
  - intros n e v s1 H. injection H as <- _. repeat split; unfold two64; cbn; try lia. apply ascii_texts; reflexivity.
  - intros _ x t H. destruct (str_eqb x (st "p")); [|discriminate]. injection H as <-. apply ascii_texts; reflexivity.
  - intros _. apply ascii_texts; reflexivity.
Qed.
Lemma named_stopped : stopped app_map plain_externals named_lldb 0%nat call_binary call_tables call_file call_unit go_die call_env [] call_locals 6 4096.
Proof.
  exists s_go, (pth ["home"; "u"; "app"; "src"; "main.rs"]%string, 6, Some 9), s_go. split; [exact call_attributed|]. split; [exact call_described|]. split; [reflexivity|]. split; [unfold u64, two64; lia | reflexivity].
Qed.
Definition app_die : die := nd 20 Tnamespace [nm "app"] [go_die; double_die; pt_die; struct_ 100 "Wrap" 8 [mem 101 "at" 0 90]].
Example pt_enclosed : enclosed call_unit pt_die app_die [st "app"].
Proof. split; [apply subtrees_in; vm_compute; tauto | vm_compute; tauto]. Qed.
Example pt_result : forall n k, (40 <= n)%nat -> (8 <= k)%nat -> BinaryModel.discover_methods n k call_binary plain_externals (fun s => s) point_t = Ok call_methods.
Proof. intros n k Hn Hk. replace n with (40 + (n - 40))%nat by lia. replace k with (8 + (k - 8))%nat by lia. generalize (n - 40)%nat as m, (k - 8)%nat as j. intros m j. vm_compute. reflexivity. Qed.
(** rd methods p *)
Example value_methods : exists k0, forall k, (k0 <= k)%nat -> exists n0, forall n, (n0 <= n)%nat ->
  BinaryCommands.prints (server_load app_map call_fs (fun l => l) plain_externals isort None (fun s => s) utf8_lossy (fun _ _ => []) (fun _ => false) n k) named_lldb (st "/app/bin") 0%nat (st "methods") [st "p"]
    [st "Methods for Point:"; st "  - fn sum(&self, k: u32) -> u32 (callable)"].
Proof.
  destruct (methods_of_value_printed_partial app_map call_fs (fun l => l) plain_externals isort None (fun s => s) (fun _ _ => []) (fun _ => false) isort_sorts nat named_lldb 0%nat (st "/app/bin") call_binary call_tables
    named_fits eq_refl eq_refl eq_refl eq_refl ltac:(apply ascii_texts; reflexivity) call_opened eq_refl ltac:(apply Forall_cons; [exact call_well | apply Forall_nil]) ltac:(apply Forall_cons; [exact call_well | apply Forall_nil]) call_apart
    (call_mem 0) call_file call_unit go_die call_env [] call_locals 6 4096 [st "p"] (EVariable (st "p")) 4032 (layOf point_t) (call_served 0) named_stopped) with (f' := call_file) (u' := call_unit) (d' := pt_die) (scope := app_die) (spath := [st "app"]) (v' := call_env) as (k0 & K).
  - discriminate.
  - apply Forall_cons; [apply ascii_texts; reflexivity | apply Forall_nil].
  - vm_compute. reflexivity.
  - intros name E. injection E as <-. split; [apply ascii_texts; reflexivity | eexists; reflexivity].
  - exact call_p.
  - apply ascii_texts. reflexivity.
  - left. reflexivity.
  - left. reflexivity.
  - reflexivity.
  - apply subtrees_in. vm_compute. tauto.
  - exact pt_enclosed.
  - exact call_view.
  - exists (k0 + 8)%nat. intros k Hk. destruct (K k ltac:(lia)) as (n0 & N). exists (n0 + 40)%nat. intros n Hn. destruct (N n call_methods ltac:(lia) (pt_result n k ltac:(lia) ltac:(lia))) as [(l' & Sl & P) _].
    + apply Forall_forall. intros m Hm. unfold method_fits. assert (G : forallb (fun m => forallb (forallb (fun c => (c <? 128)%N)) [mi_name (method_info m); mi_sig (method_info m); match mi_description (method_info m) with Some s => s | None => [] end]) call_methods = true) by (vm_compute; reflexivity).
      rewrite forallb_forall in G. specialize (G m Hm). cbn [forallb] in G. rewrite !andb_true_iff in G. destruct G as (G1 & G2 & G3 & _). split; [apply ascii_texts; exact G1|]. split; [apply ascii_texts; exact G2|]. destruct (mi_description (method_info m)) as [q|]; [apply ascii_texts; exact G3 | exact Logic.I].
    + assert (l' = call_methods) as ->; [|exact P]. unfold call_methods in Sl. inversion Sl as [|x l1 l2 Hx S2 Q1 Q2|x l1 l2 Hx S2 Q1 Q2]; subst; [inversion S2; subst; reflexivity|]. exfalso. apply Hx. eexists. reflexivity.
Qed.
Print Assumptions value_methods.
