(** A binary and a stopped target that meet the hypotheses of C127: calls inside expressions. *)
From Coq Require Import Ascii String List ZArith NArith Lia Bool Arith Sorted Permutation.
From Verif Require Import Base NumText OMap AddrModel AddrSpec AddrProofs SymModel SymSpec SymProofs SymProps PathModel LinesModel LinesProps DieModel DieSpec ModuleModel ModuleSpec
  TypesModel ParserModel ParserSpec ParserProofs ResolveModel ResolveSpec ResolveProofs ResolveProps ResolveExample LocModel FnModel FnSpec FnProofs FnProps SourceModel DiscoverModel DiscoverSpec LoadModel LoadProps LookupSpec BinaryModel BinarySpec BinaryProofs BinaryProps BinaryVars BinaryTypes.
From Verif Require Import ValueModel FormatSpec ExprModel ProcModel EvalModel ClientModel ClientSpec SessionModel SessionSpec WireProps RdProps SessionExample BinarySession BinaryExample BinarySpec DataSpec AccessProps PlainSpec BinaryEval MemExample BinaryExample4 BinaryCall CreateModel CreateProps BinaryCallText BinarySynth BinaryNested.
From Verif Require Import ResolveExample BinaryTypes.
From Verif Require Import ValueModel ParserModel Utf8.
Import ListNotations.
Open Scope Z_scope.

(** struct Point { x: u32, y: u32 }  impl Point { fn moved(&self, by: u32) -> Point }  fn origin(i: u32) -> Point  fn tick()  fn show(k: u32) -> u32
    fn run() { let p: Point; let i: u32; } *)
Definition giving (o : Z) (name link : string) (lo hi ret : Z) (k : list die) : die :=
  Die (Entry o Tsubprogram [nm name; (At_linkage_name, AStr (Some (st link))); (At_type, AUnitRef ret)] (Ok [(lo, hi)])) (Some k).
Definition go_die : die := fn 50 "app::run" 64 96 [vdecl 51 Tvariable "p" 90 4; vdecl 54 Tvariable "i" 10 5].
Definition origin_die : die := giving 60 "origin" "app::origin" 96 128 90 [vdecl 61 Tparameter "i" 10 9].
Definition tick_die : die := fn 64 "app::tick" 128 160 [].
Definition show_die : die := giving 66 "show" "app::show" 160 192 10 [vdecl 67 Tparameter "k" 10 11].
Definition moved_die : die := giving 93 "moved" "app::Point::moved" 192 224 90 [vdecl 94 Tparameter "self" 110 12; vdecl 95 Tparameter "by" 10 12].
Definition pt_die : die := struct_ 90 "Point" 8 [mem 91 "x" 0 10; mem 92 "y" 4 10; moved_die].
Definition txt_die : die := Die (Entry 1 Tcompile_unit [(At_language, ALang 28)] (Ok [(64, 224)]))
  (Some [base 10 "u32" 4; nd 20 Tnamespace [nm "app"] [go_die; origin_die; tick_die; show_die; pt_die]; ptr 110 "&app::Point" 90; nd 220 Tnamespace [nm "zz"] []]).
Definition txt_unit : bunit :=
  BUnit txt_die 2 300 (Some (Some (st "/build/app")))
    (Some (false, [FEntry (Some (st "src")) (Some (st "main.rs"))], None, [Row 64 1 (Some 3) 0 false; Row 68 1 (Some 6) 9 false; Row 224 1 None 0 true]))
    (fun h => if h =? 51 then Some [OFbreg (-64)] else if h =? 54 then Some [OFbreg (-8)] else None) (fun h => Some [OReg 6]).
Definition txt_object : object := Object true [mk_raw (Some (st "app::run")) 4160 true; mk_raw (Some (st "app::origin")) 4192 true; mk_raw (Some (st "app::tick")) 4224 true; mk_raw (Some (st "app::show")) 4256 true; mk_raw (Some (st "app::Point::moved")) 4288 true] [] [] [txt_unit].
Definition txt_fs (p : fpath) : option stored := if fpath_eqb p (pth ["app"; "bin"]%string) then Some (Stored (Some txt_object) None) else None.
Definition txt_file : bfile := BFile 0 false [txt_unit].
Definition txt_tables : list (N * list raw_entry) := [(0%N, ob_symbols txt_object)].
Definition txt_binary : binary := Binary (index_symbol_map plain_externals txt_tables) [txt_file] [txt_file].
Example txt_opened : open_binary app_map txt_fs (fun l => l) plain_externals (components (st "/app/bin")) = Ok txt_binary.
Proof. vm_compute. reflexivity. Qed.

Definition s_go : symbol := mk_symbol (mk_sname (st "run") [] [st "app"] (st "app::run")) 4160 0.
Definition s_origin : symbol := mk_symbol (mk_sname (st "origin") [] [st "app"] (st "app::origin")) 4192 0.
Definition s_tick : symbol := mk_symbol (mk_sname (st "tick") [] [st "app"] (st "app::tick")) 4224 0.
Definition s_show : symbol := mk_symbol (mk_sname (st "show") [] [st "app"] (st "app::show")) 4256 0.
Definition s_moved : symbol := mk_symbol (mk_sname (st "moved") [] [st "app"; st "Point"] (st "app::Point::moved")) 4288 0.
Definition txt_history : list (bool * list N * symbol) := [(true, st "app::run", s_go); (true, st "app::origin", s_origin); (true, st "app::tick", s_tick); (true, st "app::show", s_show); (true, st "app::Point::moved", s_moved)].
Example txt_indexed : history plain_externals txt_tables = txt_history.
Proof. vm_compute. reflexivity. Qed.
Definition txt_seen : list die := Eval vm_compute in visible (units_of txt_file).
Example txt_visible : visible (units_of txt_file) = txt_seen.
Proof. vm_compute. reflexivity. Qed.
Ltac linked_at n link := exists true, (st link), (st link); split; [reflexivity|]; split; [reflexivity|]; split; [reflexivity|]; exists (firstn n txt_history), (skipn (S n) txt_history);
  split; [reflexivity|]; split; [split; reflexivity|]; let I := fresh in intros e I [_ E]; cbn in I; repeat (destruct I as [<- | I]; [discriminate E|]); exact I.
Lemma linked_go : linked txt_history txt_file go_die s_go.
Proof. linked_at 0%nat "app::run"%string. Qed.
Lemma linked_origin : linked txt_history txt_file origin_die s_origin.
Proof. linked_at 1%nat "app::origin"%string. Qed.
Lemma linked_tick : linked txt_history txt_file tick_die s_tick.
Proof. linked_at 2%nat "app::tick"%string. Qed.
Lemma linked_show : linked txt_history txt_file show_die s_show.
Proof. linked_at 3%nat "app::show"%string. Qed.
Definition txt_fns : list (die * symbol) := [(go_die, s_go); (origin_die, s_origin); (tick_die, s_tick); (show_die, s_show); (moved_die, s_moved)].
Lemma txt_linked d s : In d (visible (units_of txt_file)) -> linked txt_history txt_file d s -> In (d, s) txt_fns.
Proof.
  rewrite txt_visible. intros Hd (b & raw & link & Tg & Ln & Rw & La). apply is_last_in in La. destruct La as [He [_ Er]]. cbn [fst snd] in Er.
  unfold txt_seen in Hd. repeat (destruct Hd as [<- | Hd]; [try discriminate Tg|]); try contradiction Hd; injection Ln as <-; [left | right; left | right; right; left | right; right; right; left | right; right; right; right; left]; (apply f_equal2; [reflexivity|]); subst raw;
  destruct He as [He | [He | [He | [He | [He | []]]]]]; pose proof (f_equal (fun z => snd (fst z)) He) as Er'; pose proof (f_equal snd He) as Es; cbn [fst snd] in Er', Es; try exact Es; exfalso; vm_compute in Er'; discriminate Er'.
Qed.
Example txt_readable : readable_file txt_history txt_file.
Proof.
  split; [|split].
  - repeat constructor. eexists. reflexivity.
  - rewrite txt_visible. unfold txt_seen. repeat (apply Forall_cons; [intros T; try discriminate T; exact Logic.I|]). apply Forall_nil.
  - intros d s lo hi Hd L R. pose proof (txt_linked d s Hd L) as I. repeat (destruct I as [E | I]; [injection E as <- <-; injection R as <- <-; unfold two64; cbn; lia|]). destruct I.
Qed.
Example txt_distinct : distinct_dies txt_file.
Proof.
  intros u1 u2 d1 d2 [<- | []] [<- | []] T1 T2 E. split; [reflexivity|]. apply subtrees_in in T1, T2. exact (distinct_inj h_of (subtrees txt_die) d1 d2 eq_refl T1 T2 E).
Qed.
Lemma after_seen k d : In d (skipn k txt_seen) -> In d (visible (units_of txt_file)).
Proof. intros H. rewrite txt_visible, <- (firstn_skipn k txt_seen). apply in_or_app. right. exact H. Qed.

Ltac fn_at n H := exists (firstn n txt_seen), (skipn (S n) txt_seen); split; [rewrite txt_visible; reflexivity|]; split; [exact H|]; split; [reflexivity|]; let d := fresh in let s := fresh in let Hd := fresh in let L := fresh in let I := fresh in intros d s Hd L;
  pose proof (txt_linked d s (after_seen (S n) d Hd) L) as I; repeat (destruct I as [E | I]; [pose proof (f_equal snd E) as Es; pose proof (f_equal fst E) as Ed; cbn [fst snd] in Es, Ed; subst d s; first [discriminate | exfalso; cbn in Hd; repeat (destruct Hd as [E' | Hd]; [discriminate E'|]); exact Hd]|]); destruct I.
Example fn_go : function_of txt_history txt_file (sym_name s_go) go_die s_go.
Proof. fn_at 2%nat linked_go. Qed.
Example fn_origin : function_of txt_history txt_file (sym_name s_origin) origin_die s_origin.
Proof. fn_at 3%nat linked_origin. Qed.
Example fn_tick : function_of txt_history txt_file (sym_name s_tick) tick_die s_tick.
Proof. fn_at 4%nat linked_tick. Qed.
Example fn_show : function_of txt_history txt_file (sym_name s_show) show_die s_show.
Proof. fn_at 5%nat linked_show. Qed.
Example txt_attributed : attributed app_map txt_history txt_binary 4164 s_go (pth ["home"; "u"; "app"; "src"; "main.rs"]%string, 6, Some 9).
Proof.
  exists s_go, txt_file, go_die, 64, 96, go_die, s_go, txt_unit. split; [|split; [|split; [|split; [|split; [|split; [|split; [|split; [|split; [|split]]]]]]]]].
  - split; [left; reflexivity|]. split; [cbn; lia|]. intros y I; cbn in I; repeat (destruct I as [<- | I]; [cbn; lia|]); destruct I.
  - intros y [I _]; cbn in I; repeat (destruct I as [<- | I]; [reflexivity|]); destruct I.
  - reflexivity.
  - exact txt_readable.
  - exact txt_distinct.
  - split; [rewrite txt_visible; cbn; tauto|]. split; [exact linked_go|]. split; [reflexivity | cbn; lia].
  - intros d' s' lo' hi' (Hd & L & R & C). pose proof (txt_linked d' s' Hd L) as I; repeat (destruct I as [E | I]; [injection E as <- <-; first [auto; fail | exfalso; injection R as <- <-; cbn in C; lia]|]); destruct I.
  - exact fn_go.
  - left. reflexivity.
  - apply subtrees_in. vm_compute. tauto.
  - eexists false, _, None, _, [Row 64 1 (Some 3) 0 false], (Row 68 1 (Some 6) 9 false), _, _, _, 6. split; [reflexivity|]. split; [reflexivity|]. split; [reflexivity|]. split; [reflexivity|]. split; [reflexivity|]. split; [reflexivity|].
    split; [vm_compute; reflexivity|]. split; [reflexivity|]. intros q [<- | []] (_ & A & _). discriminate A.
Qed.
Definition txt_ranges : list mrange := Eval vm_compute in fst (file_modules 40 txt_file).
Definition txt_env : env := Env txt_die txt_ranges parse_name.
Example txt_view : unit_view txt_file txt_unit txt_env.
Proof. exists 40%nat. intros n Hn. replace n with (40 + (n - 40))%nat by lia. generalize (n - 40)%nat as m. intros m. unfold unit_env, txt_env. f_equal. Qed.
Definition point_t : tdef := TD (LStruct (st "Point") 8 8 [(st "x", 0, u32t); (st "y", 4, u32t)]) (Some 90).
Example point_resolves : resolves_fully txt_env 90 point_t /\ resolves_fully txt_env 10 u32t.
Proof. split; exists 8%nat; vm_compute; reflexivity. Qed.
Definition txt_locals : list (option var) := [Some (Var (Some (st "p")) (alias "Point" 90) (here 4) 51); Some (Var (Some (st "i")) u32t (here 5) 54)].
Lemma txt_var o t s h ty line : shallow 5 txt_env h = Ok ty -> var_says txt_env (decl_path app_map txt_unit) (vdecl o t s h line) (Var (Some (st s)) ty (here line) o).
Proof.
  intros R. unfold var_says. cbn [va_name va_ty va_loc va_die here]. split; [apply ex_attr; reflexivity|].
  split; [exists h; split; [apply ex_attr; reflexivity | exists 5%nat; exact R]|]. split; [|reflexivity].
  exists 1. split; [apply ex_attr; reflexivity|]. split; [vm_compute; reflexivity|]. left. apply ex_attr. reflexivity.
Qed.
Example txt_says : function_says app_map txt_env txt_unit go_die [] txt_locals.
Proof. split; repeat (apply Forall2_cons; [constructor; apply txt_var; vm_compute; reflexivity|]); apply Forall2_nil. Qed.
Example txt_attrs : readable_attrs txt_unit.
Proof.
  intros d a x T H. apply subtrees_in in T. assert (G : forallb (fun d => forallb (fun p => attr_okb (snd p)) (e_attrs (d_entry d))) (subtrees txt_die) = true) by (vm_compute; reflexivity).
  rewrite forallb_forall in G. specialize (G d T). rewrite forallb_forall in G. specialize (G (a, x) H). cbn [snd] in G.
  destruct x; cbn in G |- *; auto; apply andb_true_iff in G; destruct G as [A1 A2]; apply Z.leb_le in A1; apply Z.ltb_lt in A2; unfold in_u64; lia.
Qed.
Example txt_described : described app_map txt_history txt_binary (sym_name s_go) s_go txt_file txt_unit go_die txt_env [] txt_locals.
Proof.
  split; try reflexivity.
  - exists [], [s_origin; s_tick; s_show; s_moved]. split; [reflexivity|]. split; [reflexivity|]. intros y I; repeat (destruct I as [<- | I]; [discriminate|]); destruct I.
  - exact txt_readable.
  - exact txt_distinct.
  - left. reflexivity.
  - apply subtrees_in. vm_compute. tauto.
  - exists s_go. exact fn_go.
  - exact txt_attrs.
  - exact txt_view.
  - exact txt_says.
Qed.
Example txt_well : well_formed txt_file.
Proof.
  split; [|split; [exact txt_distinct | intros u [<- | []]; exact txt_attrs]].
  exists (fun _ => bu_length txt_unit). split; [intros u [<- | []]; reflexivity|]. split; [|split; exact Logic.I]. split; [reflexivity|]. split; [|split].
  - assert (O : forall e k, is_namespace e = false -> forallb (fun x => negb (is_namespace x)) (entries_list (match k with Some l => l | None => [] end)) = true -> ns_tree (Die e k)).
    { intros e k N F. apply ns_tree_other; [exact N|]. rewrite forallb_forall in F. apply Forall_forall. intros x Hx. apply F in Hx. destruct (is_namespace x); [discriminate | reflexivity]. }
    cbn [txt_unit bu_die]. unfold txt_die, nd. cbn [d_kids app].
    repeat (apply Forall_cons; [first [apply O; reflexivity | apply ns_tree_ns; [reflexivity | discriminate|]; repeat (apply Forall_cons; [apply O; reflexivity|]); apply Forall_nil]|]). apply Forall_nil.
  - cbn. repeat (apply SSorted_cons || apply SSorted_nil || apply Forall_cons || apply Forall_nil); unfold by_offset; cbn; lia.
  - intros x Hx. cbn in Hx. repeat destruct Hx as [<- | Hx]; cbn; lia.
Qed.
Lemma txt_apart : apart [txt_file].
Proof. intros f1 f2 w1 w2 d1 d2 [<- | []] [<- | []] _ _ _ _ _. reflexivity. Qed.


(** LLDB stopped there: the frame base is 4096, [p] at 4032, [i] at 4088. A state is the list of the C expressions LLDB has evaluated, and
    the n-th of them has the value 8192 + 16 n. *)
Definition log_regions : list (Z * list Z) := [(4032, [3; 0; 0; 0; 4; 0; 0; 0]); (4088, [21; 0; 0; 0]); (8192, [10; 0; 0; 0; 20; 0; 0; 0]); (8208, [13; 0; 0; 0; 23; 0; 0; 0]); (8224, [7; 0; 0; 0])].
Definition log_mem : memory := mem_of log_regions.
Definition log_value (n : nat) : evres := EvRes true false (8192 + 16 * (Z.of_nat n mod 4)) (two64 - 1) 4096 (st "5").
Definition log_lldb : debugger (list str) := Debugger (list str) (fun _ => true) (fun _ => true) (fun _ => true) (fun _ => true) (fun _ a n => read_bytes log_mem a (Z.to_nat n))
  (fun _ => registers0) (fun _ => 4164) (fun _ => 0) (fun _ => 0) (fun _ => 77) (fun _ => st "main") (fun _ => Some 65536)
  (fun s e => (log_value (List.length s), s ++ [e])) (fun _ x => None) (fun s _ _ => (false, s)) (fun _ => st "error").
Lemma log_served s : served (l_memory log_lldb s) log_mem.
Proof. intros a bs _ [_ H]. cbn [log_lldb l_memory]. rewrite Nat2Z.id. apply read_bytes_holds. exact H. Qed.
Lemma log_read n : forall a d, read_bytes log_mem a n = Some d -> Forall byte d.
Proof.
  induction n as [|n IH]; intros a d H; cbn [read_bytes] in H; [injection H as <-; constructor|]. destruct (log_mem a) as [b|] eqn:E; [|discriminate]. destruct (read_bytes log_mem (a + 1) n) as [l|] eqn:R; [|discriminate]. injection H as <-.
  constructor; [|exact (IH _ _ R)]. apply (region_bytes log_regions) with (a := a); [reflexivity | exact E].
Qed.
Example log_fits : debugger_fits log_lldb.
Proof.
  split; cbn [log_lldb l_memory l_registers l_pc l_sp l_fp l_tid l_name l_base l_eval l_variable l_error].
  - intros q a n d. apply log_read.
  - intros _. repeat constructor; cbn; unfold two64; lia.
  - intros _. repeat split; unfold two64; lia.
  - intros _. split; [split; unfold two64; lia | apply ascii_texts; reflexivity].
  - intros _ a H. injection H as <-. split; unfold two64; lia.
  - intros s e v s1 H. assert (T5 : text (st "5")) by (apply ascii_texts; reflexivity). pose proof (f_equal fst H) as V. cbn [fst] in V. subst v. pose proof (Z.mod_pos_bound (Z.of_nat (List.length s)) 4 ltac:(lia)).
    (split; [|split; [|split]]); cbn [log_value v_unsigned v_load v_addr v_text]; try exact T5; split; unfold two64; lia.
  - intros _ x t H. discriminate.
  - intros _. apply ascii_texts; reflexivity.
Qed.
Lemma log_stop s s1 : same_stop log_lldb s s1.
Proof. constructor; reflexivity. Qed.
Lemma log_stopped : stopped app_map plain_externals log_lldb [] txt_binary txt_tables txt_file txt_unit go_die txt_env [] txt_locals 6 4096.
Proof.
  exists s_go, (pth ["home"; "u"; "app"; "src"; "main.rs"]%string, 6, Some 9), s_go. split; [exact txt_attributed|]. split; [exact txt_described|]. split; [reflexivity|]. split; [unfold u64, two64; lia | reflexivity].
Qed.
Definition log_reaches := reaches log_lldb plain_externals (fun s => s) txt_tables txt_binary txt_env txt_unit (somes txt_locals) 4096 (fun _ _ => []).
Definition log_calls := calls log_lldb plain_externals (fun s => s) txt_tables txt_binary txt_env txt_unit (somes txt_locals) 4096 (fun _ _ => []).
Lemma log_i s : log_reaches s (EVariable (st "i")) txt_env 4088 u32t s.
Proof.
  apply (re_variable log_lldb plain_externals (fun s => s) txt_tables txt_binary txt_env txt_unit (somes txt_locals) 4096 (fun _ _ => []) s (st "i") (Var (Some (st "i")) u32t (here 5) 54) (-8)); [|reflexivity | reflexivity].
  eexists [_], _. split; [reflexivity|]. split; [reflexivity|]. repeat constructor; discriminate.
Qed.
Ltac sole n := let y := fresh in intros y; split;
  [ let L := fresh in let N := fresh in let I := fresh in intros [L [N _]]; apply is_last_in in L; destruct L as [I _]; cbn in I; repeat (destruct I as [<- | I]; [first [reflexivity | discriminate N]|]); destruct I
  | intros ->; split; [exists (firstn n (functions_of txt_history)), (skipn (S n) (functions_of txt_history)); split; [reflexivity|]; split; [reflexivity|]; let I := fresh in intros y I; cbn in I; repeat (destruct I as [<- | I]; [discriminate|]); destruct I|]; split; [reflexivity | exists [st "app"]; reflexivity] ].
Lemma origin_only : callee txt_history [] (st "origin") s_origin.
Proof. sole 1%nat. Qed.
Lemma tick_only : callee txt_history [] (st "tick") s_tick.
Proof. sole 2%nat. Qed.
Lemma show_only : callee txt_history [] (st "show") s_show.
Proof. sole 3%nat. Qed.
Lemma origin_declared : declares txt_history txt_binary s_origin txt_file txt_unit origin_die txt_env [(Some (st "i"), u32t)] (Some point_t).
Proof.
  split; [reflexivity|]. split; [exact txt_readable|]. split; [exists s_origin; exact fn_origin|]. split; [left; reflexivity|]. split; [apply subtrees_in; vm_compute; tauto|]. split; [exact txt_view|].
  split; [|exact (proj1 point_resolves)]. apply Forall2_cons; [|apply Forall2_nil]. split; [reflexivity | exact (proj2 point_resolves)].
Qed.
Lemma tick_declared : declares txt_history txt_binary s_tick txt_file txt_unit tick_die txt_env [] None.
Proof.
  split; [reflexivity|]. split; [exact txt_readable|]. split; [exists s_tick; exact fn_tick|]. split; [left; reflexivity|]. split; [apply subtrees_in; vm_compute; tauto|]. split; [exact txt_view|].
  split; [apply Forall2_nil | reflexivity].
Qed.
Lemma show_declared : declares txt_history txt_binary s_show txt_file txt_unit show_die txt_env [(Some (st "k"), u32t)] (Some u32t).
Proof.
  split; [reflexivity|]. split; [exact txt_readable|]. split; [exists s_show; exact fn_show|]. split; [left; reflexivity|]. split; [apply subtrees_in; vm_compute; tauto|]. split; [exact txt_view|].
  split; [|exact (proj2 point_resolves)]. apply Forall2_cons; [|apply Forall2_nil]. split; [reflexivity | exact (proj2 point_resolves)].
Qed.
Ltac segment := split; [discriminate|]; split; [|split; [reflexivity|]];
  [ let a := fresh in let b := fresh in let E := fresh in let I := fresh in intros a b E; exfalso; match type of E with ?x = _ => assert (I : In 58%N x) by (rewrite E; apply in_or_app; right; now left) end; repeat destruct I as [I|I]; try discriminate; destruct I
  | split; [reflexivity|]; split;
    [ let c := fresh in let I := fresh in intros c I; repeat destruct I as [<-|I]; try destruct I; repeat split; discriminate
    | let a := fresh in let b := fresh in let E := fresh in let I := fresh in intros a b E; match type of E with ?x = _ => assert (I : In 32%N x) by (rewrite E; apply in_or_app; right; now left) end; repeat destruct I as [I|I]; try discriminate; destruct I ] ].
Lemma origin_segment : wf_segment (st "origin").
Proof. segment. Qed.
Lemma tick_segment : wf_segment (st "tick").
Proof. segment. Qed.
Lemma show_segment : wf_segment (st "show").
Proof. segment. Qed.
Definition txt_methods : list dmethod := Eval vm_compute in match BinaryModel.discover_methods 40 8 txt_binary plain_externals (fun s => s) point_t with Ok l => l | _ => [] end.
Lemma txt_lists : methods_are plain_externals (fun s => s) txt_binary point_t txt_methods.
Proof.
  exists 8%nat. intros k Hk. exists 40%nat. intros n Hn. replace n with (40 + (n - 40))%nat by lia. replace k with (8 + (k - 8))%nat by lia. generalize (n - 40)%nat, (k - 8)%nat. intros a b. vm_compute. reflexivity.
Qed.
Definition moved_method : dmethod := Eval vm_compute in hd (DMethod [] [] [] 0 None false false None []) txt_methods.

(** What LLDB is given for [origin(i)], [.moved(3)] on its result, [tick()] and [show(...)]. *)
Definition origin_text : str := st "struct Arg_4 { unsigned char bytes[4]; }; struct ReturnBuffer_8 { unsigned char bytes[8]; }; auto result = ((struct ReturnBuffer_8 (*)(struct Arg_4))0x1060)(*((struct Arg_4*)0xff8)); &result".
Definition moved_text : str := st "struct ReturnBuffer_8 { unsigned char bytes[8]; }; auto result = ((struct ReturnBuffer_8 (*)(void*, unsigned long))0x10c0)((void*)0x2000, 3); &result".
Definition tick_text : str := st "((unsigned long (*)(void))0x1080)()".
Definition show_text : str := st "struct ReturnBuffer_4 { unsigned char bytes[4]; }; auto result = ((struct ReturnBuffer_4 (*)(unsigned long))0x10a0)(8208); &result".
Definition log_leaves (args : list str) (lines : list str) (s1 : list str) : Prop := exists k0, forall k, (k0 <= k)%nat -> exists n0, forall n, (n0 <= n)%nat ->
  prints_leaving app_map txt_fs (fun l => l) plain_externals isort None (fun s => s) (fun _ _ => []) (fun _ => true) log_lldb [] (st "/app/bin") n k args lines s1.

Lemma origin_called : log_calls [] (ECall (st "origin") [EVariable (st "i")]) txt_env (Some point_t) (Some 8) (log_value 0) [origin_text].
Proof.
  apply (ca_function log_lldb plain_externals (fun s => s) txt_tables txt_binary txt_env txt_unit (somes txt_locals) 4096 (fun _ _ => []) [] [] (st "origin") [EVariable (st "i")] s_origin txt_file txt_unit origin_die txt_env
    [(Some (st "i"), u32t)] (Some point_t) [((st "struct Arg_4", st "*((struct Arg_4*)0xff8)"), [4])] (Some 8) origin_text (log_value 0) [] [origin_text]); try reflexivity.
  - apply Forall_cons; [exact origin_segment | apply Forall_nil].
  - intros (ds & H & _). discriminate.
  - rewrite txt_indexed. exact origin_only.
  - rewrite txt_indexed. exact origin_declared.
  - cbn. unfold two64. lia.
  - apply (sn_block log_lldb plain_externals (fun s => s) txt_tables txt_binary txt_env txt_unit (somes txt_locals) 4096 (fun _ _ => []) [] (EVariable (st "i")) txt_env 4088 u32t [] 4 [] [(Some (st "i"), u32t)] [] []);
      [apply log_i | reflexivity | u64_ | apply sn_nil].
  - u64_.
  - eexists [_]. split; [change (distinct _) with [4]; repeat (apply Forall2_cons; [reflexivity|]); apply Forall2_nil | reflexivity].
Qed.
Lemma value_at n : (n < 3)%nat -> forall k, returns (log_value n) (Some k) (ComplexPtr (8192 + 16 * (Z.of_nat n mod 4)) k (st "complex")).
Proof.
  intros Hn k. split; [reflexivity|]. split; [reflexivity|]. eexists. split; [reflexivity|]. cbn [log_value v_unsigned]. pose proof (Z.mod_pos_bound (Z.of_nat n) 4 ltac:(lia)). split; [unfold two64; lia|]. left. split; [reflexivity | lia].
Qed.
Lemma moved_called : log_calls [] (EMethodCall (ECall (st "origin") [EVariable (st "i")]) (st "moved") [ENumber 3]) txt_env (Some point_t) (Some 8) (log_value 1) [origin_text; moved_text].
Proof.
  apply (ca_method log_lldb plain_externals (fun s => s) txt_tables txt_binary txt_env txt_unit (somes txt_locals) 4096 (fun _ _ => []) [] (ECall (st "origin") [EVariable (st "i")]) txt_env 8192 point_t [origin_text] (st "moved") [ENumber 3]
    txt_methods moved_method txt_file txt_unit txt_env [((st "unsigned long", dec 3), [])] (Some 8) moved_text (log_value 1) [origin_text] [origin_text; moved_text]); try reflexivity.
  - eapply re_result; [exact origin_called | exact (value_at 0 ltac:(lia) 8) | apply log_stop].
  - u64_.
  - intros names H. cbn in H. subst names. intros [].
  - exact txt_lists.
  - exists [], (tl txt_methods). split; [reflexivity|]. split; [split; [exists Borrowed; reflexivity | reflexivity] | constructor].
  - cbn. unfold two64. lia.
  - left. reflexivity.
  - left. reflexivity.
  - exact txt_view.
  - apply sn_number; [lia | apply sn_nil].
  - u64_.
  - exists []. split; [apply Forall2_nil | reflexivity].
Qed.
(** rd eval origin(i).moved(3).y: [origin] is called once, then [moved] once on its result. *)
Example chain_printed : log_leaves [st "origin(i).moved(3).y"] [st "type: u32"; st "value: 23"] [origin_text; moved_text].
Proof.
  refine (nested_expression_printed_partial app_map txt_fs (fun l => l) plain_externals isort None (fun s => s) (fun _ _ => []) (fun _ => true) isort_sorts (fun _ => eq_refl) (list str) log_lldb [] (st "/app/bin") txt_binary txt_tables
    log_fits eq_refl eq_refl eq_refl eq_refl ltac:(apply ascii_texts; reflexivity) txt_opened eq_refl ltac:(apply Forall_cons; [exact txt_well | apply Forall_nil]) txt_apart
    txt_file txt_unit go_die txt_env [] txt_locals 6 4096 [st "origin(i).moved(3).y"] (EField (EMethodCall (ECall (st "origin") [EVariable (st "i")]) (st "moved") [ENumber 3]) (st "y")) _ _ log_stopped _ _ _ _).
  - discriminate.
  - apply Forall_cons; [apply ascii_texts; reflexivity | apply Forall_nil].
  - vm_compute. reflexivity.
  - change [st "type: u32"; st "value: 23"] with [st "type: " ++ tname u32t; st "value: " ++ Base.join [lf] (shown (VScalar (st "u32") (dec 23)))].
    apply (sh_place log_lldb plain_externals (fun s => s) txt_tables txt_binary txt_env txt_unit (somes [] ++ somes txt_locals) 4096 (fun _ _ => []) [] _ txt_env 8212 u32t [origin_text; moved_text] log_mem); try exact I; try apply log_served.
    + apply (re_field log_lldb plain_externals (fun s => s) txt_tables txt_binary txt_env txt_unit (somes [] ++ somes txt_locals) 4096 (fun _ _ => []) [] _ txt_env 8208 point_t [origin_text; moved_text] (st "Point") 8 8 [(st "x", 0, u32t); (st "y", 4, u32t)] (st "y") (st "y", 4, u32t)).
      * eapply re_result; [exact moved_called | exact (value_at 1 ltac:(lia) 8) | apply log_stop].
      * reflexivity.
      * eexists [_], _. split; [reflexivity|]. split; [reflexivity|]. apply Forall_cons; [discriminate | apply Forall_nil].
      * u64_.
    + apply fo_unsigned with (w := 4); [reflexivity | cbn; tauto | u64_|]. split; [split; reflexivity || lia|]. split; [repeat (apply Forall_cons; [unfold byte; vm_compute; split; [discriminate | reflexivity]|]); apply Forall_nil|].
      intros i c Hi. destruct i as [|[|[|[|i]]]]; cbn in Hi; [| | | |destruct i; discriminate Hi]; injection Hi as <-; vm_compute; reflexivity.
    + apply ti_scalar; [apply FormatProps.dec_one_line|]. discriminate.
    + apply ascii_texts. reflexivity.
    + apply Forall_cons; [apply dec_text | apply Forall_nil].
Qed.
Print Assumptions chain_printed.
Lemma tick_called s : log_calls s (ECall (st "tick") []) txt_env None None (log_value (List.length s)) (s ++ [tick_text]).
Proof.
  apply (ca_function log_lldb plain_externals (fun s => s) txt_tables txt_binary txt_env txt_unit (somes txt_locals) 4096 (fun _ _ => []) s [] (st "tick") [] s_tick txt_file txt_unit tick_die txt_env
    [] None [] None tick_text (log_value (List.length s)) s (s ++ [tick_text])); try reflexivity.
  - apply Forall_cons; [exact tick_segment | apply Forall_nil].
  - intros (ds & H & _). discriminate.
  - rewrite txt_indexed. exact tick_only.
  - rewrite txt_indexed. exact tick_declared.
  - cbn. unfold two64. lia.
  - apply sn_nil.
  - exists []. split; [apply Forall2_nil | reflexivity].
Qed.
(** rd eval show(tick()): [tick] is called twice, and the value of the second call, 8208, is passed. *)
Example twice_printed : log_leaves [st "show(tick())"] [st "type: u32"; st "value: 7"] [tick_text; tick_text; show_text].
Proof.
  refine (argument_call_runs_once_refuted app_map txt_fs (fun l => l) plain_externals isort None (fun s => s) (fun _ _ => []) (fun _ => true) isort_sorts (fun _ => eq_refl) (list str) log_lldb [] (st "/app/bin") txt_binary txt_tables
    log_fits eq_refl eq_refl eq_refl eq_refl ltac:(apply ascii_texts; reflexivity) txt_opened eq_refl ltac:(apply Forall_cons; [exact txt_well | apply Forall_nil]) txt_apart
    txt_file txt_unit go_die txt_env [] txt_locals 6 4096 [st "show(tick())"] (ECall (st "tick") []) txt_env None (log_value 0) [tick_text] txt_env None (log_value 1) [tick_text; tick_text] [] (st "show") s_show txt_file txt_unit show_die txt_env (Some (st "k"), u32t) (Some u32t)
    (Some 4) show_text (log_value 2) [tick_text; tick_text; show_text] _ log_stopped _ _ _ (tick_called []) _ (log_stop _ _) (tick_called [tick_text]) _ (log_stop _ _) _ _ _ _ _ eq_refl _ _ eq_refl _).
  - discriminate.
  - apply Forall_cons; [apply ascii_texts; reflexivity | apply Forall_nil].
  - vm_compute. reflexivity.
  - split; [reflexivity|]. split; reflexivity.
  - split; [reflexivity|]. split; reflexivity.
  - apply Forall_cons; [exact show_segment | apply Forall_nil].
  - intros (ds & H & _). discriminate.
  - rewrite txt_indexed. exact show_only.
  - rewrite txt_indexed. exact show_declared.
  - cbn. unfold two64. lia.
  - u64_.
  - exists []. split; [apply Forall2_nil | reflexivity].
  - change [st "type: u32"; st "value: 7"] with [st "type: " ++ tname u32t; st "value: " ++ Base.join [lf] (shown (VScalar (st "u32") (dec 7)))].
    apply (out_value log_lldb txt_env (fun _ _ => []) (log_value 2) [tick_text; tick_text; show_text] (Some u32t) 4 8224 u32t log_mem); try reflexivity.
    + exact (value_at 2 ltac:(lia) 4).
    + apply log_served.
    + apply fo_unsigned with (w := 4); [reflexivity | cbn; tauto | u64_|]. split; [split; reflexivity || lia|]. split; [repeat (apply Forall_cons; [unfold byte; vm_compute; split; [discriminate | reflexivity]|]); apply Forall_nil|].
      intros i c Hi. destruct i as [|[|[|[|i]]]]; cbn in Hi; [| | | |destruct i; discriminate Hi]; injection Hi as <-; vm_compute; reflexivity.
    + apply ti_scalar; [apply FormatProps.dec_one_line|]. discriminate.
    + apply ascii_texts. reflexivity.
    + apply Forall_cons; [apply dec_text | apply Forall_nil].
Qed.
Print Assumptions twice_printed.
