(** C103, C104, C105: what the code does not do, on binaries: an address between two rows of the line table is not
    located although it lies in a function; of two variables of the same name the shadowed one is answered. *)
From Coq Require Import Ascii String List ZArith NArith Lia Bool Arith.
From Verif Require Import Base NumText OMap AddrModel AddrSpec AddrProofs SymModel SymSpec SymProofs SymProps PathModel LinesModel LinesProps DieModel DieSpec ModuleModel
  TypesModel ParserModel ParserSpec ParserProofs ResolveModel ResolveSpec ResolveProofs ResolveProps ResolveExample LocModel FnModel FnSpec FnProofs FnProps SourceModel LoadModel LoadProps BinaryModel BinarySpec BinaryProofs BinaryProps BinaryVars.
From Verif Require Import ExprModel ProcModel EvalModel ClientModel ClientSpec SessionModel SessionSpec WireProps RdProps SessionExample BinarySession BinaryExample BinarySpec Utf8.
Import ListNotations.
Open Scope Z_scope.


(** ** An address inside a function, past the address of a row (the row in force is that of line 6) *)
Theorem address_inside_function_refuted : covers_address app_history app_file total s_total 64 96 4165 /\
  located app_map app_unit 68 (pth ["home"; "u"; "app"; "src"; "main.rs"]%string, 6, Some 9) /\
  exists n0, forall n, (n0 <= n)%nat -> address_to_location isort app_map n app_binary 4165 = None.
Proof.
  split; [|split].
  - split; [rewrite app_visible; right; right; left; reflexivity|]. split; [exact linked_total|]. split; [reflexivity | cbn; lia].
  - eexists false, _, None, _, [Row 64 1 (Some 3) 0 false], (Row 68 1 (Some 6) 9 false), _, _, _, 6. split; [reflexivity|]. split; [reflexivity|]. split; [reflexivity|]. split; [reflexivity|]. split; [reflexivity|]. split; [reflexivity|].
    split; [vm_compute; reflexivity|]. split; [reflexivity|]. intros q [<- | []] (_ & A & _). discriminate A.
  - destruct (address_located_sound plain_externals app_tables app_binary app_index app_map isort isort_sorts) with (a := 4165) as (n0 & H).
    + intros f [<- | []]. split; [exact app_readable | exact app_distinct].
    + exists n0. intros n Hn. specialize (H n Hn). destruct (address_to_location isort app_map n app_binary 4165) as [[[name p] line]|]; [exfalso | reflexivity].
      destruct (H name p line eq_refl) as (s0 & f & d & s & lo & hi & d2 & s2 & u & col & _ & Ff & (Hd & L & R & C) & _ & Hu & _ & _ & Lo).
      assert (Q : f = app_file) by (unfold file_by_id in Ff; apply find_some in Ff; destruct Ff as [[<- | []] _]; reflexivity). subst f. destruct Hu as [<- | []].
      destruct Lo as (v5 & es & z & rows & before & r & after & e & p' & line' & Lt & Er & _ & Ea & _). injection Lt as <- <- <- <-.
      assert (Hr : In r [Row 64 1 (Some 3) 0 false; Row 68 1 (Some 6) 9 false; Row 96 1 (Some 20) 0 false; Row 128 1 None 0 true]) by (rewrite Er; apply in_or_app; right; left; reflexivity).
      destruct (linked_only d s Hd L) as [[-> ->] | [-> ->]]; injection R as <- <-; cbn [sym_addr s_total s_main] in *; [|lia].
      repeat destruct Hr as [<- | Hr]; try contradiction; cbn in Ea; lia.
Qed.
Print Assumptions address_inside_function_refuted.

(** ** Shadowing *)
(** fn total(n: u32) { let x: u32; let x: u32; }  fn main() {}  struct Order { id: u32 } *)
Definition sh_total : die := fn 50 "app::total" 64 96 [vdecl 51 Tparameter "n" 10 3; vdecl 54 Tvariable "x" 10 4; vdecl 55 Tvariable "x" 10 5].
Definition sh_main : die := fn 70 "app::main" 96 128 [].
Definition sh_order : die := struct_ 90 "Order" 4 [mem 91 "id" 0 10].
Definition sh_die : die := Die (Entry 1 Tcompile_unit [(At_language, ALang 28)] (Ok [(64, 128)])) (Some [base 10 "u32" 4; nd 20 Tnamespace [nm "app"] [sh_total; sh_main; sh_order]]).
Definition sh_unit : bunit :=
  BUnit sh_die 2 200 (Some (Some (st "/build/app")))
    (Some (false, [FEntry (Some (st "src")) (Some (st "main.rs"))], None,
       [Row 64 1 (Some 3) 0 false; Row 68 1 (Some 6) 9 false; Row 96 1 (Some 20) 0 false; Row 128 1 None 0 true]))
    (fun h => if h =? 51 then Some [OFbreg (-8)] else if h =? 54 then Some [OFbreg (-16)] else if h =? 55 then Some [OFbreg (-24)] else None) (fun h => Some [OReg 6]).
Definition sh_object : object :=
  Object true [mk_raw (Some (st "app::total")) 4160 true; mk_raw (Some (st "app::main")) 4192 true; mk_raw (Some (st "app::LIMIT")) 8192 false; mk_raw None 1 true] [] [] [sh_unit].
Definition sh_fs (p : fpath) : option stored := if fpath_eqb p (pth ["app"; "bin"]%string) then Some (Stored (Some sh_object) None) else None.
Definition sh_map : list (fpath * fpath) := [(components (st "/build"), components (st "/home/u"))].
Definition sh_file : bfile := BFile 0 false [sh_unit].
Definition sh_tables : list (N * list raw_entry) := [(0%N, ob_symbols sh_object)].
Definition sh_binary : binary := Binary (index_symbol_map plain_externals sh_tables) [sh_file] [sh_file].
Example sh_opened : open_binary sh_map sh_fs (fun l => l) plain_externals (components (st "/app/bin")) = Ok sh_binary.
Proof. vm_compute. reflexivity. Qed.
Definition sh_s_total : symbol := mk_symbol (mk_sname (st "total") [] [st "app"] (st "app::total")) 4160 0.
Definition sh_s_main : symbol := mk_symbol (mk_sname (st "main") [] [st "app"] (st "app::main")) 4192 0.
Definition sh_s_limit : symbol := mk_symbol (mk_sname (st "LIMIT") [] [st "app"] (st "app::LIMIT")) 8192 0.
Definition sh_history : list (bool * list N * symbol) := [(true, st "app::total", sh_s_total); (true, st "app::main", sh_s_main); (false, st "app::LIMIT", sh_s_limit)].
Example sh_indexed : history plain_externals sh_tables = sh_history.
Proof. vm_compute. reflexivity. Qed.
Example sh_visible : visible (units_of sh_file) = [base 10 "u32" 4; nd 20 Tnamespace [nm "app"] [sh_total; sh_main; sh_order]; sh_total; sh_main; sh_order; mem 91 "id" 0 10].
Proof. vm_compute. reflexivity. Qed.
Lemma sh_linked_total : linked sh_history sh_file sh_total sh_s_total.
Proof.
  exists true, (st "app::total"), (st "app::total"). split; [reflexivity|]. split; [reflexivity|]. split; [reflexivity|]. exists [], (tl sh_history). split; [reflexivity|]. split; [split; reflexivity|].
  intros e [<- | [<- | []]] [_ E]; discriminate E.
Qed.
Lemma sh_linked_main : linked sh_history sh_file sh_main sh_s_main.
Proof.
  exists true, (st "app::main"), (st "app::main"). split; [reflexivity|]. split; [reflexivity|]. split; [reflexivity|]. exists (firstn 1 sh_history), (skipn 2 sh_history). split; [reflexivity|]. split; [split; reflexivity|].
  intros e [<- | []] [_ E]; discriminate E.
Qed.
Lemma sh_linked_only d s : In d (visible (units_of sh_file)) -> linked sh_history sh_file d s -> (d = sh_total /\ s = sh_s_total) \/ (d = sh_main /\ s = sh_s_main).
Proof.
  rewrite sh_visible. intros Hd (b & raw & link & Tg & Ln & Rw & La). apply is_last_in in La. destruct La as [He [_ Er]]. cbn [fst snd] in Er.
  destruct Hd as [<- | [<- | [<- | [<- | [<- | [<- | []]]]]]]; try discriminate Tg; injection Ln as <-; [left | right]; (split; [reflexivity|]); subst raw;
  destruct He as [He | [He | [He | []]]]; pose proof (f_equal (fun z => snd (fst z)) He) as Er'; pose proof (f_equal snd He) as Es; cbn [fst snd] in Er', Es; try (symmetry; exact Es); exfalso; vm_compute in Er'; discriminate Er'.
Qed.
Example sh_readable : readable_file sh_history sh_file.
Proof.
  split; [|split].
  - repeat constructor. eexists. reflexivity.
  - rewrite sh_visible. repeat (apply Forall_cons; [intros T; try discriminate T; exact I|]). apply Forall_nil.
  - intros d s lo hi Hd L R. destruct (sh_linked_only d s Hd L) as [[-> ->] | [-> ->]]; injection R as <- <-; unfold two64; cbn; lia.
Qed.
Example sh_distinct : distinct_dies sh_file.
Proof.
  intros u1 u2 d1 d2 [<- | []] [<- | []] T1 T2 E. split; [reflexivity|]. apply subtrees_in in T1, T2. exact (distinct_inj h_of (subtrees sh_die) d1 d2 eq_refl T1 T2 E).
Qed.
Example sh_fn_total : function_of sh_history sh_file (sym_name sh_s_total) sh_total sh_s_total.
Proof.
  exists (firstn 2 (visible (units_of sh_file))), [sh_main; sh_order; mem 91 "id" 0 10]. split; [rewrite sh_visible; reflexivity|]. split; [exact sh_linked_total|]. split; [reflexivity|]. intros d s Hd L.
  assert (V : In d (visible (units_of sh_file))) by (rewrite sh_visible; right; right; right; exact Hd). destruct (sh_linked_only d s V L) as [[-> _] | [_ ->]]; [destruct Hd as [E | [E | [E | []]]]; discriminate E | discriminate].
Qed.
Example sh_attributed : attributed sh_map sh_history sh_binary 4164 sh_s_total (pth ["home"; "u"; "app"; "src"; "main.rs"]%string, 6, Some 9).
Proof.
  exists sh_s_total, sh_file, sh_total, 64, 96, sh_total, sh_s_total, sh_unit. split; [|split; [|split; [|split; [|split; [|split; [|split; [|split; [|split; [|split]]]]]]]]].
  - split; [left; reflexivity|]. split; [cbn; lia|]. intros y [<- | [<- | []]]; cbn; lia.
  - intros y [[<- | [<- | []]] _]; reflexivity.
  - reflexivity.
  - exact sh_readable.
  - exact sh_distinct.
  - split; [rewrite sh_visible; right; right; left; reflexivity|]. split; [exact sh_linked_total|]. split; [reflexivity | cbn; lia].
  - intros d' s' lo' hi' (Hd & L & R & C). destruct (sh_linked_only d' s' Hd L) as [[-> ->] | [-> ->]]; [auto|]. injection R as <- <-. cbn in C. lia.
  - exact sh_fn_total.
  - left. reflexivity.
  - apply subtrees_in. vm_compute. tauto.
  - eexists false, _, None, _, [Row 64 1 (Some 3) 0 false], (Row 68 1 (Some 6) 9 false), _, _, _, 6. split; [reflexivity|]. split; [reflexivity|]. split; [reflexivity|]. split; [reflexivity|]. split; [reflexivity|]. split; [reflexivity|].
    split; [vm_compute; reflexivity|]. split; [reflexivity|]. intros q [<- | []] (_ & A & _). discriminate A.
Qed.
(** The environment of the unit, the variables of [sh_total]. *)
Definition sh_ranges : list mrange := Eval vm_compute in fst (file_modules 40 sh_file).
Definition sh_env : env := Env sh_die sh_ranges parse_name.
Example sh_view : unit_view sh_file sh_unit sh_env.
Proof. exists 40%nat. intros n Hn. replace n with (40 + (n - 40))%nat by lia. generalize (n - 40)%nat as m. intros m. unfold unit_env, sh_env. f_equal. Qed.
Definition sh_params : list (option var) := [Some (Var (Some (st "n")) u32t (here 3) 51)].
Definition sh_locals : list (option var) := [Some (Var (Some (st "x")) u32t (here 4) 54); Some (Var (Some (st "x")) u32t (here 5) 55)].
Lemma sh_var o t s line : var_says sh_env (decl_path sh_map sh_unit) (vdecl o t s 10 line) (Var (Some (st s)) u32t (here line) o).
Proof.
  unfold var_says. cbn [va_name va_ty va_loc va_die here]. split; [apply ex_attr; reflexivity|].
  split; [exists 10; split; [apply ex_attr; reflexivity | exists 5%nat; vm_compute; reflexivity]|]. split; [|reflexivity].
  exists 1. split; [apply ex_attr; reflexivity|]. split; [vm_compute; reflexivity|]. left. apply ex_attr. reflexivity.
Qed.
Example sh_says : function_says sh_map sh_env sh_unit sh_total sh_params sh_locals.
Proof. split; repeat (apply Forall2_cons; [constructor; apply sh_var|]); apply Forall2_nil. Qed.
Example sh_attrs : readable_attrs sh_unit.
Proof.
  intros d a x T H. apply subtrees_in in T. assert (G : forallb (fun d => forallb (fun p => attr_okb (snd p)) (e_attrs (d_entry d))) (subtrees sh_die) = true) by (vm_compute; reflexivity).
  rewrite forallb_forall in G. specialize (G d T). rewrite forallb_forall in G. specialize (G (a, x) H). cbn [snd] in G.
  destruct x; cbn in G |- *; auto; apply andb_true_iff in G; destruct G as [A1 A2]; apply Z.leb_le in A1; apply Z.ltb_lt in A2; unfold in_u64; lia.
Qed.
Example sh_described : described sh_map sh_history sh_binary (sym_name sh_s_total) sh_s_total sh_file sh_unit sh_total sh_env sh_params sh_locals.
Proof.
  split; try reflexivity.
  - exists [], [sh_s_main]. split; [reflexivity|]. split; [reflexivity|]. intros y [<- | []]; discriminate.
  - exact sh_readable.
  - exact sh_distinct.
  - left. reflexivity.
  - apply subtrees_in. vm_compute. tauto.
  - exists sh_s_total. exact sh_fn_total.
  - exact sh_attrs.
  - exact sh_view.
  - exact sh_says.
Qed.

(** ** What the theorems say about it *)
Definition sh_at_total (c : regs) (name : string) : res (option vinfo) -> Prop := fun r => exists k0, forall k, (k0 <= k)%nat -> exists n0, forall n, (n0 <= n)%nat ->
  get_variable_at_pc isort sh_map n k sh_binary c 4164 (st name) = r.
Lemma sh_index : bi_index sh_binary = index_symbol_map plain_externals sh_tables.
Proof. reflexivity. Qed.
Example sh_x : sh_at_total rbp "x" (Ok (Some (VInfo (st "x") (Some 4080) u32t))).
Proof.
  refine (variable_found_partial plain_externals sh_tables sh_binary sh_index sh_map isort isort_sorts 4164 sh_s_total _ sh_s_total sh_file sh_unit sh_total sh_env sh_params sh_locals rbp 6 4096
    (Var (Some (st "x")) u32t (here 4) 54) _ sh_attributed sh_described eq_refl eq_refl (st "x") _ _).
  - exists [Var (Some (st "n")) u32t (here 3) 51], [Var (Some (st "x")) u32t (here 5) 55]. split; [reflexivity|]. split; [reflexivity|]. repeat constructor; discriminate.
  - split; [reflexivity|]. split; reflexivity.
Qed.
(** LLDB stopped there: what [rd eval x] prints. *)
Definition sh_memory (a n : Z) : option (list Z) := if (a =? 4080) && (n =? 4) then Some [42; 1; 0; 0] else if (a =? 4072) && (n =? 4) then Some [7; 0; 0; 0] else None.
Definition sh_lldb : debugger nat := Debugger nat (fun _ => true) (fun _ => true) (fun _ => true) (fun _ => true) (fun _ => sh_memory)
  (fun _ => registers0) (fun _ => 4164) (fun _ => 0) (fun _ => 0) (fun _ => 77) (fun _ => st "main") (fun _ => Some 65536)
  (fun n e => (EvRes true false 8192 (two64 - 1) 4096 (st "5"), S n)) (fun _ x => None) (fun n _ _ => (true, S n)) (fun _ => st "error").
Example sh_fits : debugger_fits sh_lldb.
Proof.
  split; cbn -[str_eqb st].
  - intros _ a n d. unfold sh_memory. destruct ((a =? 4080) && (n =? 4)); [|destruct ((a =? 4072) && (n =? 4)); [|discriminate]]; intros H; injection H as <-; repeat (apply Forall_cons; [unfold DataSpec.byte; lia|]); apply Forall_nil.
  - intros _. repeat constructor; cbn; unfold two64; lia.
  - intros _. repeat split; unfold two64; lia.
  - intros _. split; [split; unfold two64; lia | apply ascii_texts; reflexivity].
  - intros _ a H. injection H as <-. split; unfold two64; lia.
  - intros n e v s1 H. injection H as <- _. repeat split; unfold two64; cbn; try lia. apply ascii_texts; reflexivity.
  - intros _ x t H. discriminate.
  - intros _. apply ascii_texts; reflexivity.
Qed.
(** The second [x] (at 4072, on line 5) is in force on line 6: asked for [x], the first one is answered ... *)
Theorem variable_shadowing_refuted : (exists before x y, sh_locals = before ++ [Some x; Some y] /\ va_name x = Some (st "x") /\ va_name y = Some (st "x") /\ bu_loc sh_unit (va_die y) = Some [OFbreg (4072 - 4096)] /\ va_loc y = here 5) /\ sh_at_total rbp "x" (Ok (Some (VInfo (st "x") (Some 4080) u32t))).
Proof. split; [|exact sh_x]. exists [], (Var (Some (st "x")) u32t (here 4) 54), (Var (Some (st "x")) u32t (here 5) 55). repeat split; reflexivity. Qed.
Print Assumptions variable_shadowing_refuted.
(** ... and [rd eval x] prints 298, not 7. *)
Theorem shadowed_value_printed_refuted : sh_memory 4072 4 = Some [7; 0; 0; 0] /\ exists k n writes,
  let load := server_load sh_map sh_fs (fun l => l) plain_externals isort None (fun s => s) (fun _ => []) (fun _ _ => []) (fun _ => false) n k in
  (exists up down xs s2 e, connected load sh_lldb (st "/app/bin") [(st "eval", [st "x"])] 0%nat writes up down xs s2 e) /\
  (forall up down xs s2 e, connected load sh_lldb (st "/app/bin") [(st "eval", [st "x"])] 0%nat writes up down xs s2 e -> exists j, xs = [Ok j] /\ s2 = 0%nat /\ e = ServerModel.Closed /\
     forall repr, print_response repr (st "eval") (the_fields j) = [st "type: u32"; st "value: 298"]).
Proof.
  split; [reflexivity|]. destruct (integer_variable_printed_partial sh_map sh_fs (fun l => l) plain_externals isort None (fun s => s) (fun _ => []) (fun _ _ => []) (fun _ => false) isort_sorts nat sh_lldb 0%nat (st "/app/bin") sh_binary sh_tables
    sh_fits eq_refl eq_refl eq_refl eq_refl ltac:(apply ascii_texts; reflexivity) sh_opened sh_index sh_s_total _ sh_s_total sh_file sh_unit sh_total sh_env sh_params sh_locals 6 4096 (Var (Some (st "x")) u32t (here 4) 54) u32t (-16) 4 [42; 1; 0; 0] (st "x")
    sh_attributed sh_described eq_refl) as (k & K).
  - unfold u64, two64. lia.
  - reflexivity.
  - exists [Var (Some (st "n")) u32t (here 3) 51], [Var (Some (st "x")) u32t (here 5) 55]. split; [reflexivity|]. split; [reflexivity|]. repeat constructor; discriminate.
  - reflexivity.
  - reflexivity.
  - left. reflexivity.
  - cbn. tauto.
  - reflexivity.
  - reflexivity.
  - apply ascii_texts. reflexivity.
  - vm_compute. reflexivity.
  - destruct (K k (le_n k)) as (n & N). destruct (N n (le_n n)) as (w & W). exists k, n, w. exact (W w (le_n w)).
Qed.
Print Assumptions shadowed_value_printed_refuted.
