(** A small binary in which the hypotheses of C99-C106 hold: /app/bin with two functions of one unit, stopped in the
    first. *)
From Coq Require Import Ascii String List ZArith NArith Lia Bool Arith.
From Verif Require Import Base NumText OMap AddrModel AddrSpec AddrProofs SymModel SymSpec SymProofs SymProps PathModel LinesModel LinesProps DieModel DieSpec ModuleModel
  TypesModel ParserModel ParserSpec ParserProofs ResolveModel ResolveSpec ResolveProofs ResolveProps ResolveExample LocModel FnModel FnSpec FnProofs FnProps SourceModel LoadModel LoadProps BinaryModel BinarySpec BinaryProofs BinaryProps BinaryVars.
From Verif Require Import ExprModel ProcModel EvalModel ClientModel ClientSpec SessionModel SessionSpec WireProps RdProps SessionExample BinarySession BinarySpec Utf8.
Import ListNotations.
Open Scope Z_scope.

Definition vdecl (o : Z) (t : tag) (s : string) (ty line : Z) : die :=
  nd o t [nm s; (At_decl_file, AFile 1); (At_decl_line, AUdata line); (At_type, AUnitRef ty)] [].
Definition fn (o : Z) (link : string) (lo hi : Z) (k : list die) : die :=
  Die (Entry o Tsubprogram [nm link; (At_linkage_name, AStr (Some (st link)))] (Ok [(lo, hi)])) (Some k).
(** fn total(n: u32) { let x: u32; let late: u32; }  fn main() {}  struct Order { id: u32 } *)
Definition total : die := fn 50 "app::total" 64 96 [vdecl 51 Tparameter "n" 10 3; vdecl 54 Tvariable "x" 10 4; vdecl 55 Tvariable "late" 10 9].
Definition main : die := fn 70 "app::main" 96 128 [].
Definition order : die := struct_ 90 "Order" 4 [mem 91 "id" 0 10].
Definition app_die : die := Die (Entry 1 Tcompile_unit [(At_language, ALang 28)] (Ok [(64, 128)])) (Some [base 10 "u32" 4; nd 20 Tnamespace [nm "app"] [total; main; order]]).
Definition app_unit : bunit :=
  BUnit app_die 2 200 (Some (Some (st "/build/app")))
    (Some (false, [FEntry (Some (st "src")) (Some (st "main.rs"))], None,
       [Row 64 1 (Some 3) 0 false; Row 68 1 (Some 6) 9 false; Row 96 1 (Some 20) 0 false; Row 128 1 None 0 true]))
    (fun h => if h =? 51 then Some [OFbreg (-8)] else if h =? 54 then Some [OFbreg (-16)] else None) (fun h => Some [OReg 6]).
Definition app_object : object :=
  Object true [mk_raw (Some (st "app::total")) 4160 true; mk_raw (Some (st "app::main")) 4192 true; mk_raw (Some (st "app::LIMIT")) 8192 false; mk_raw None 1 true] [] [] [app_unit].
Definition app_fs (p : fpath) : option stored := if fpath_eqb p (pth ["app"; "bin"]%string) then Some (Stored (Some app_object) None) else None.
Definition app_map : list (fpath * fpath) := [(components (st "/build"), components (st "/home/u"))].
Definition app_file : bfile := BFile 0 false [app_unit].
Definition app_tables : list (N * list raw_entry) := [(0%N, ob_symbols app_object)].
Definition app_binary : binary := Binary (index_symbol_map plain_externals app_tables) [app_file] [app_file].
Example app_opened : open_binary app_map app_fs (fun l => l) plain_externals (components (st "/app/bin")) = Ok app_binary.
Proof. vm_compute. reflexivity. Qed.
Definition s_total : symbol := mk_symbol (mk_sname (st "total") [] [st "app"] (st "app::total")) 4160 0.
Definition s_main : symbol := mk_symbol (mk_sname (st "main") [] [st "app"] (st "app::main")) 4192 0.
Definition s_limit : symbol := mk_symbol (mk_sname (st "LIMIT") [] [st "app"] (st "app::LIMIT")) 8192 0.
Definition app_history : list (bool * list N * symbol) := [(true, st "app::total", s_total); (true, st "app::main", s_main); (false, st "app::LIMIT", s_limit)].
Example app_indexed : history plain_externals app_tables = app_history.
Proof. vm_compute. reflexivity. Qed.
Example app_visible : visible (units_of app_file) = [base 10 "u32" 4; nd 20 Tnamespace [nm "app"] [total; main; order]; total; main; order; mem 91 "id" 0 10].
Proof. vm_compute. reflexivity. Qed.
Lemma linked_total : linked app_history app_file total s_total.
Proof.
  exists true, (st "app::total"), (st "app::total"). split; [reflexivity|]. split; [reflexivity|]. split; [reflexivity|]. exists [], (tl app_history). split; [reflexivity|]. split; [split; reflexivity|].
  intros e [<- | [<- | []]] [_ E]; discriminate E.
Qed.
Lemma linked_main : linked app_history app_file main s_main.
Proof.
  exists true, (st "app::main"), (st "app::main"). split; [reflexivity|]. split; [reflexivity|]. split; [reflexivity|]. exists (firstn 1 app_history), (skipn 2 app_history). split; [reflexivity|]. split; [split; reflexivity|].
  intros e [<- | []] [_ E]; discriminate E.
Qed.
Lemma linked_only d s : In d (visible (units_of app_file)) -> linked app_history app_file d s -> (d = total /\ s = s_total) \/ (d = main /\ s = s_main).
Proof.
  rewrite app_visible. intros Hd (b & raw & link & Tg & Ln & Rw & La). apply is_last_in in La. destruct La as [He [_ Er]]. cbn [fst snd] in Er.
  destruct Hd as [<- | [<- | [<- | [<- | [<- | [<- | []]]]]]]; try discriminate Tg; injection Ln as <-; [left | right]; (split; [reflexivity|]); subst raw;
  destruct He as [He | [He | [He | []]]]; pose proof (f_equal (fun z => snd (fst z)) He) as Er'; pose proof (f_equal snd He) as Es; cbn [fst snd] in Er', Es; try (symmetry; exact Es); exfalso; vm_compute in Er'; discriminate Er'.
Qed.
Example app_readable : readable_file app_history app_file.
Proof.
  split; [|split].
  - repeat constructor. eexists. reflexivity.
  - rewrite app_visible. repeat (apply Forall_cons; [intros T; try discriminate T; exact I|]). apply Forall_nil.
  - intros d s lo hi Hd L R. destruct (linked_only d s Hd L) as [[-> ->] | [-> ->]]; injection R as <- <-; unfold two64; cbn; lia.
Qed.
Example app_distinct : distinct_dies app_file.
Proof.
  intros u1 u2 d1 d2 [<- | []] [<- | []] T1 T2 E. split; [reflexivity|]. apply subtrees_in in T1, T2. exact (distinct_inj h_of (subtrees app_die) d1 d2 eq_refl T1 T2 E).
Qed.
Example fn_total : function_of app_history app_file (sym_name s_total) total s_total.
Proof.
  exists (firstn 2 (visible (units_of app_file))), [main; order; mem 91 "id" 0 10]. split; [rewrite app_visible; reflexivity|]. split; [exact linked_total|]. split; [reflexivity|]. intros d s Hd L.
  assert (V : In d (visible (units_of app_file))) by (rewrite app_visible; right; right; right; exact Hd). destruct (linked_only d s V L) as [[-> _] | [_ ->]]; [destruct Hd as [E | [E | [E | []]]]; discriminate E | discriminate].
Qed.
Example app_attributed : attributed app_map app_history app_binary 4164 s_total (pth ["home"; "u"; "app"; "src"; "main.rs"]%string, 6, Some 9).
Proof.
  exists s_total, app_file, total, 64, 96, total, s_total, app_unit. split; [|split; [|split; [|split; [|split; [|split; [|split; [|split; [|split; [|split]]]]]]]]].
  - split; [left; reflexivity|]. split; [cbn; lia|]. intros y [<- | [<- | []]]; cbn; lia.
  - intros y [[<- | [<- | []]] _]; reflexivity.
  - reflexivity.
  - exact app_readable.
  - exact app_distinct.
  - split; [rewrite app_visible; right; right; left; reflexivity|]. split; [exact linked_total|]. split; [reflexivity | cbn; lia].
  - intros d' s' lo' hi' (Hd & L & R & C). destruct (linked_only d' s' Hd L) as [[-> ->] | [-> ->]]; [auto|]. injection R as <- <-. cbn in C. lia.
  - exact fn_total.
  - left. reflexivity.
  - apply subtrees_in. vm_compute. tauto.
  - eexists false, _, None, _, [Row 64 1 (Some 3) 0 false], (Row 68 1 (Some 6) 9 false), _, _, _, 6. split; [reflexivity|]. split; [reflexivity|]. split; [reflexivity|]. split; [reflexivity|]. split; [reflexivity|]. split; [reflexivity|].
    split; [vm_compute; reflexivity|]. split; [reflexivity|]. intros q [<- | []] (_ & A & _). discriminate A.
Qed.
(** The environment of the unit, the variables of [total]. *)
Definition app_ranges : list mrange := Eval vm_compute in fst (file_modules 40 app_file).
Definition app_env : env := Env app_die app_ranges parse_name.
Example app_view : unit_view app_file app_unit app_env.
Proof. exists 40%nat. intros n Hn. replace n with (40 + (n - 40))%nat by lia. generalize (n - 40)%nat as m. intros m. unfold unit_env, app_env. f_equal. Qed.
Definition u32t : tdef := TD (LUInt 4) (Some 10).
Definition here (line : Z) : option (path * Z) := Some (pth ["home"; "u"; "app"; "src"; "main.rs"]%string, line).
Definition app_params : list (option var) := [Some (Var (Some (st "n")) u32t (here 3) 51)].
Definition app_locals : list (option var) := [Some (Var (Some (st "x")) u32t (here 4) 54); Some (Var (Some (st "late")) u32t (here 9) 55)].
Lemma app_var o t s line : var_says app_env (decl_path app_map app_unit) (vdecl o t s 10 line) (Var (Some (st s)) u32t (here line) o).
Proof.
  unfold var_says. cbn [va_name va_ty va_loc va_die here]. split; [apply ex_attr; reflexivity|].
  split; [exists 10; split; [apply ex_attr; reflexivity | exists 5%nat; vm_compute; reflexivity]|]. split; [|reflexivity].
  exists 1. split; [apply ex_attr; reflexivity|]. split; [vm_compute; reflexivity|]. left. apply ex_attr. reflexivity.
Qed.
Example app_says : function_says app_map app_env app_unit total app_params app_locals.
Proof. split; repeat (apply Forall2_cons; [constructor; apply app_var|]); apply Forall2_nil. Qed.
Example app_attrs : readable_attrs app_unit.
Proof.
  intros d a x T H. apply subtrees_in in T. assert (G : forallb (fun d => forallb (fun p => attr_okb (snd p)) (e_attrs (d_entry d))) (subtrees app_die) = true) by (vm_compute; reflexivity).
  rewrite forallb_forall in G. specialize (G d T). rewrite forallb_forall in G. specialize (G (a, x) H). cbn [snd] in G.
  destruct x; cbn in G |- *; auto; apply andb_true_iff in G; destruct G as [A1 A2]; apply Z.leb_le in A1; apply Z.ltb_lt in A2; unfold in_u64; lia.
Qed.
Example app_described : described app_map app_history app_binary (sym_name s_total) s_total app_file app_unit total app_env app_params app_locals.
Proof.
  split; try reflexivity.
  - exists [], [s_main]. split; [reflexivity|]. split; [reflexivity|]. intros y [<- | []]; discriminate.
  - exact app_readable.
  - exact app_distinct.
  - left. reflexivity.
  - apply subtrees_in. vm_compute. tauto.
  - exists s_total. exact fn_total.
  - exact app_attrs.
  - exact app_view.
  - exact app_says.
Qed.

(** ** What the theorems say about it *)
Definition at_total (c : regs) (name : string) : res (option vinfo) -> Prop := fun r => exists k0, forall k, (k0 <= k)%nat -> exists n0, forall n, (n0 <= n)%nat ->
  get_variable_at_pc isort app_map n k app_binary c 4164 (st name) = r.
Definition rbp : regs := Regs (fun r => if r =? 6 then Ok 4096 else Err "no such register") (Err "none").
Lemma app_index : bi_index app_binary = index_symbol_map plain_externals app_tables.
Proof. reflexivity. Qed.
Example app_x : at_total rbp "x" (Ok (Some (VInfo (st "x") (Some 4080) u32t))).
Proof.
  refine (variable_found_partial plain_externals app_tables app_binary app_index app_map isort isort_sorts 4164 s_total _ s_total app_file app_unit total app_env app_params app_locals rbp 6 4096
    (Var (Some (st "x")) u32t (here 4) 54) _ app_attributed app_described eq_refl eq_refl (st "x") _ _).
  - exists [Var (Some (st "n")) u32t (here 3) 51], [Var (Some (st "late")) u32t (here 9) 55]. split; [reflexivity|]. split; [reflexivity|]. repeat constructor; discriminate.
  - split; [reflexivity|]. split; reflexivity.
Qed.
Example app_absent : at_total rbp "z" (Ok None).
Proof.
  refine (variable_absent plain_externals app_tables app_binary app_index app_map isort isort_sorts 4164 s_total _ s_total app_file app_unit total app_env app_params app_locals rbp (st "z") app_attributed app_described _).
  intros y [<- | [<- | [<- | []]]]; discriminate.
Qed.
(** [late] is declared on line 9, after line 6. *)
Example app_all : exists k0, forall k, (k0 <= k)%nat -> exists n0, forall n, (n0 <= n)%nat ->
  get_all_variables_at_pc isort app_map n k app_binary rbp 4164 = Ok ([VInfo (st "n") (Some 4088) u32t], [VInfo (st "x") (Some 4080) u32t]).
Proof.
  refine (variables_found plain_externals app_tables app_binary app_index app_map isort isort_sorts 4164 s_total _ 6 _ s_total app_file app_unit total app_env app_params app_locals rbp 6 4096 _ _ app_attributed app_described eq_refl eq_refl _ _);
  repeat (apply Forall2_cons; [split; [reflexivity | split; reflexivity]|]); apply Forall2_nil.
Qed.
Example app_found : exists k0, forall k, (k0 <= k)%nat -> exists n0, forall n, (n0 <= n)%nat ->
  find_function_by_name app_map n k app_binary (st "app::total") = Ok (Some (RFunction (st "app::total") 4160 32 [(st "n", u32t)])).
Proof.
  refine (function_found plain_externals app_tables app_binary app_index app_map [st "app"] (st "total") s_total app_file app_unit total s_total app_env app_params app_locals 32 _ _ eq_refl app_readable app_distinct (or_introl eq_refl) _ fn_total app_attrs app_view app_says _).
  - repeat constructor; intros H; vm_compute in H; repeat destruct H as [H|H]; try discriminate; contradiction.
  - split; [split; [reflexivity | exists []; reflexivity]|]. split; [exact (de_last _ _ _ _ _ _ _ _ _ _ _ app_described)|]. intros y [<- | [<- | []]] [E _]; [vm_compute; discriminate | discriminate E].
  - apply subtrees_in. vm_compute. tauto.
  - split; [reflexivity | unfold two64; lia].
Qed.
Example app_symbol : find_symbol_by_name app_binary (st "LIMIT") = Some s_limit /\ find_symbol_by_name app_binary (st "total") = None.
Proof. vm_compute. auto. Qed.

(** LLDB stopped there: what [rd eval x] prints. *)
Definition app_memory (a n : Z) : option (list Z) := if (a =? 4080) && (n =? 4) then Some [42; 1; 0; 0] else None.
Definition app_lldb : debugger nat := Debugger nat (fun _ => true) (fun _ => true) (fun _ => true) (fun _ => true) (fun _ => app_memory)
  (fun _ => registers0) (fun _ => 4164) (fun _ => 0) (fun _ => 0) (fun _ => 77) (fun _ => st "main") (fun _ => Some 65536)
  (fun n e => (EvRes true false 8192 (two64 - 1) 4096 (st "5"), S n)) (fun _ x => None) (fun n _ _ => (true, S n)) (fun _ => st "error").
Example app_fits : debugger_fits app_lldb.
Proof.
  split; cbn -[str_eqb st].
  - intros _ a n d. unfold app_memory. destruct ((a =? 4080) && (n =? 4)); [|discriminate]. intros H. injection H as <-. repeat (apply Forall_cons; [unfold DataSpec.byte; lia|]). apply Forall_nil.
  - intros _. repeat constructor; cbn; unfold two64; lia.
  - intros _. repeat split; unfold two64; lia.
  - intros _. split; [split; unfold two64; lia | apply ascii_texts; reflexivity].
  - intros _ a H. injection H as <-. split; unfold two64; lia.
  - intros n e v s1 H. injection H as <- _. repeat split; unfold two64; cbn; try lia. apply ascii_texts; reflexivity.
  - intros _ x t H. discriminate.
  - intros _. apply ascii_texts; reflexivity.
Qed.
Example app_printed : exists k n writes,
  let load := server_load app_map app_fs (fun l => l) plain_externals isort None (fun s => s) (fun _ => []) (fun _ _ => []) (fun _ => false) n k in
  (exists up down xs s2 e, connected load app_lldb (st "/app/bin") [(st "eval", [st "x"])] 0%nat writes up down xs s2 e) /\
  (forall up down xs s2 e, connected load app_lldb (st "/app/bin") [(st "eval", [st "x"])] 0%nat writes up down xs s2 e -> exists j, xs = [Ok j] /\ s2 = 0%nat /\ e = ServerModel.Closed /\
     forall repr, print_response repr (st "eval") (the_fields j) = [st "type: u32"; st "value: 298"]).
Proof.
  destruct (integer_variable_printed_partial app_map app_fs (fun l => l) plain_externals isort None (fun s => s) (fun _ => []) (fun _ _ => []) (fun _ => false) isort_sorts nat app_lldb 0%nat (st "/app/bin") app_binary app_tables
    app_fits eq_refl eq_refl eq_refl eq_refl ltac:(apply ascii_texts; reflexivity) app_opened app_index s_total _ s_total app_file app_unit total app_env app_params app_locals 6 4096 (Var (Some (st "x")) u32t (here 4) 54) u32t (-16) 4 [42; 1; 0; 0] (st "x")
    app_attributed app_described eq_refl) as (k & K).
  - unfold u64, two64. lia.
  - reflexivity.
  - exists [Var (Some (st "n")) u32t (here 3) 51], [Var (Some (st "late")) u32t (here 9) 55]. split; [reflexivity|]. split; [reflexivity|]. repeat constructor; discriminate.
  - reflexivity.
  - reflexivity.
  - left. reflexivity.
  - cbn. tauto.
  - reflexivity.
  - reflexivity.
  - apply ascii_texts. reflexivity.
  - vm_compute. reflexivity.
  - destruct (K k (le_n k)) as (n & N). destruct (N n (le_n n)) as (w & W). exists k, n, w. exact (W w (le_n w)).
Qed.
