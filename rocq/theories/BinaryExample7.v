(** A binary and a stopped target that meet the hypotheses of C114: a function and a method that are called. *)
From Coq Require Import Ascii String List ZArith NArith Lia Bool Arith Sorted Permutation.
From Verif Require Import Base NumText OMap AddrModel AddrSpec AddrProofs SymModel SymSpec SymProofs SymProps PathModel LinesModel LinesProps DieModel DieSpec ModuleModel ModuleSpec
  TypesModel ParserModel ParserSpec ParserProofs ResolveModel ResolveSpec ResolveProofs ResolveProps ResolveExample LocModel FnModel FnSpec FnProofs FnProps SourceModel DiscoverModel DiscoverSpec LoadModel LoadProps LookupSpec BinaryModel BinarySpec BinaryProofs BinaryProps BinaryVars BinaryTypes.
From Verif Require Import ValueModel FormatSpec ExprModel ProcModel EvalModel ClientModel ClientSpec SessionModel SessionSpec WireProps RdProps SessionExample BinarySession BinaryExample BinarySpec DataSpec AccessProps PlainSpec BinaryEval MemExample BinaryExample4 BinaryCall.
From Verif Require Import ResolveExample.
From Verif Require Import ValueModel ParserModel Utf8.
Import ListNotations.
Open Scope Z_scope.

(** struct Point { x: u32, y: u32 }  impl Point { fn sum(&self, k: u32) -> u32 }  fn double(n: u32) -> u32  struct Wrap { at: Point }
    fn run() { let p: Point; let i: u32; let w: Wrap; } *)
Definition giving (o : Z) (name link : string) (lo hi ret : Z) (k : list die) : die :=
  Die (Entry o Tsubprogram [nm name; (At_linkage_name, AStr (Some (st link))); (At_type, AUnitRef ret)] (Ok [(lo, hi)])) (Some k).
Definition go_die : die := fn 50 "app::run" 64 96 [vdecl 51 Tvariable "p" 90 4; vdecl 54 Tvariable "i" 10 5; vdecl 56 Tvariable "w" 100 6].
Definition double_die : die := giving 60 "double" "app::double" 96 128 10 [vdecl 61 Tparameter "n" 10 9].
Definition sum_die : die := giving 93 "sum" "app::Point::sum" 128 160 10 [vdecl 94 Tparameter "self" 110 12; vdecl 95 Tparameter "k" 10 12].
Definition pt_die : die := struct_ 90 "Point" 8 [mem 91 "x" 0 10; mem 92 "y" 4 10; sum_die].
Definition call_die : die := Die (Entry 1 Tcompile_unit [(At_language, ALang 28)] (Ok [(64, 160)]))
  (Some [base 10 "u32" 4; nd 20 Tnamespace [nm "app"] [go_die; double_die; pt_die; struct_ 100 "Wrap" 8 [mem 101 "at" 0 90]]; ptr 110 "&app::Point" 90; nd 120 Tnamespace [nm "zz"] []]).
Definition call_unit : bunit :=
  BUnit call_die 2 300 (Some (Some (st "/build/app")))
    (Some (false, [FEntry (Some (st "src")) (Some (st "main.rs"))], None, [Row 64 1 (Some 3) 0 false; Row 68 1 (Some 6) 9 false; Row 160 1 None 0 true]))
    (fun h => if h =? 51 then Some [OFbreg (-64)] else if h =? 54 then Some [OFbreg (-8)] else if h =? 56 then Some [OFbreg (-80)] else None) (fun h => Some [OReg 6]).
Definition call_object : object := Object true [mk_raw (Some (st "app::run")) 4160 true; mk_raw (Some (st "app::double")) 4192 true; mk_raw (Some (st "app::Point::sum")) 4224 true] [] [] [call_unit].
Definition call_fs (p : fpath) : option stored := if fpath_eqb p (pth ["app"; "bin"]%string) then Some (Stored (Some call_object) None) else None.
Definition call_file : bfile := BFile 0 false [call_unit].
Definition call_tables : list (N * list raw_entry) := [(0%N, ob_symbols call_object)].
Definition call_binary : binary := Binary (index_symbol_map plain_externals call_tables) [call_file] [call_file].
Example call_opened : open_binary app_map call_fs (fun l => l) plain_externals (components (st "/app/bin")) = Ok call_binary.
Proof. vm_compute. reflexivity. Qed.
Definition s_go : symbol := mk_symbol (mk_sname (st "run") [] [st "app"] (st "app::run")) 4160 0.
Definition s_double : symbol := mk_symbol (mk_sname (st "double") [] [st "app"] (st "app::double")) 4192 0.
Definition s_sum : symbol := mk_symbol (mk_sname (st "sum") [] [st "app"; st "Point"] (st "app::Point::sum")) 4224 0.
Definition call_history : list (bool * list N * symbol) := [(true, st "app::run", s_go); (true, st "app::double", s_double); (true, st "app::Point::sum", s_sum)].
Example call_indexed : history plain_externals call_tables = call_history.
Proof. vm_compute. reflexivity. Qed.
Definition call_seen : list die := Eval vm_compute in visible (units_of call_file).
Example call_visible : visible (units_of call_file) = call_seen.
Proof. vm_compute. reflexivity. Qed.
Lemma linked_go : linked call_history call_file go_die s_go.
Proof.
  exists true, (st "app::run"), (st "app::run"). split; [reflexivity|]. split; [reflexivity|]. split; [reflexivity|]. exists [], (tl call_history). split; [reflexivity|]. split; [split; reflexivity|].
  intros e [<- | [<- | []]] [_ E]; discriminate E.
Qed.
Lemma linked_double : linked call_history call_file double_die s_double.
Proof.
  exists true, (st "app::double"), (st "app::double"). split; [reflexivity|]. split; [reflexivity|]. split; [reflexivity|]. exists (firstn 1 call_history), (skipn 2 call_history). split; [reflexivity|]. split; [split; reflexivity|].
  intros e [<- | []] [_ E]; discriminate E.
Qed.
Lemma call_linked d s : In d (visible (units_of call_file)) -> linked call_history call_file d s -> d = go_die /\ s = s_go \/ d = double_die /\ s = s_double \/ d = sum_die /\ s = s_sum.
Proof.
  rewrite call_visible. intros Hd (b & raw & link & Tg & Ln & Rw & La). apply is_last_in in La. destruct La as [He [_ Er]]. cbn [fst snd] in Er.
  unfold call_seen in Hd. repeat (destruct Hd as [<- | Hd]; [try discriminate Tg|]); try contradiction Hd; injection Ln as <-; [left | right; left | right; right]; (split; [reflexivity|]); subst raw;
  destruct He as [He | [He | [He | []]]]; pose proof (f_equal (fun z => snd (fst z)) He) as Er'; pose proof (f_equal snd He) as Es; cbn [fst snd] in Er', Es; try (symmetry; exact Es); exfalso; vm_compute in Er'; discriminate Er'.
Qed.
Example call_readable : readable_file call_history call_file.
Proof.
  split; [|split].
  - repeat constructor. eexists. reflexivity.
  - rewrite call_visible. unfold call_seen. repeat (apply Forall_cons; [intros T; try discriminate T; exact Logic.I|]). apply Forall_nil.
  - intros d s lo hi Hd L R. destruct (call_linked d s Hd L) as [[-> ->] | [[-> ->] | [-> ->]]]; injection R as <- <-; unfold two64; cbn; lia.
Qed.
Example call_distinct : distinct_dies call_file.
Proof.
  intros u1 u2 d1 d2 [<- | []] [<- | []] T1 T2 E. split; [reflexivity|]. apply subtrees_in in T1, T2. exact (distinct_inj h_of (subtrees call_die) d1 d2 eq_refl T1 T2 E).
Qed.
Lemma after_seen k d : In d (skipn k call_seen) -> In d (visible (units_of call_file)).
Proof. intros H. rewrite call_visible, <- (firstn_skipn k call_seen). apply in_or_app. right. exact H. Qed.
Example fn_go : function_of call_history call_file (sym_name s_go) go_die s_go.
Proof.
  exists (firstn 2 call_seen), (skipn 3 call_seen). split; [rewrite call_visible; reflexivity|]. split; [exact linked_go|]. split; [reflexivity|]. intros d s Hd L.
  destruct (call_linked d s (after_seen 3 d Hd) L) as [[-> _] | [[_ ->] | [_ ->]]]; [|discriminate | discriminate]. exfalso. cbn in Hd. repeat (destruct Hd as [E | Hd]; [discriminate E|]). exact Hd.
Qed.
Example fn_double : function_of call_history call_file (sym_name s_double) double_die s_double.
Proof.
  exists (firstn 3 call_seen), (skipn 4 call_seen). split; [rewrite call_visible; reflexivity|]. split; [exact linked_double|]. split; [reflexivity|]. intros d s Hd L.
  destruct (call_linked d s (after_seen 4 d Hd) L) as [[_ ->] | [[-> _] | [_ ->]]]; [discriminate | | discriminate]. exfalso. cbn in Hd. repeat (destruct Hd as [E | Hd]; [discriminate E|]). exact Hd.
Qed.
Example call_attributed : attributed app_map call_history call_binary 4164 s_go (pth ["home"; "u"; "app"; "src"; "main.rs"]%string, 6, Some 9).
Proof.
  exists s_go, call_file, go_die, 64, 96, go_die, s_go, call_unit. split; [|split; [|split; [|split; [|split; [|split; [|split; [|split; [|split; [|split]]]]]]]]].
  - split; [left; reflexivity|]. split; [cbn; lia|]. intros y [<- | [<- | [<- | []]]]; cbn; lia.
  - intros y [[<- | [<- | [<- | []]]] _]; reflexivity.
  - reflexivity.
  - exact call_readable.
  - exact call_distinct.
  - split; [rewrite call_visible; cbn; tauto|]. split; [exact linked_go|]. split; [reflexivity | cbn; lia].
  - intros d' s' lo' hi' (Hd & L & R & C). destruct (call_linked d' s' Hd L) as [[-> ->] | [[-> ->] | [-> ->]]]; [auto | exfalso | exfalso]; injection R as <- <-; cbn in C; lia.
  - exact fn_go.
  - left. reflexivity.
  - apply subtrees_in. vm_compute. tauto.
  - eexists false, _, None, _, [Row 64 1 (Some 3) 0 false], (Row 68 1 (Some 6) 9 false), _, _, _, 6. split; [reflexivity|]. split; [reflexivity|]. split; [reflexivity|]. split; [reflexivity|]. split; [reflexivity|]. split; [reflexivity|].
    split; [vm_compute; reflexivity|]. split; [reflexivity|]. intros q [<- | []] (_ & A & _). discriminate A.
Qed.
Definition call_ranges : list mrange := Eval vm_compute in fst (file_modules 40 call_file).
Definition call_env : env := Env call_die call_ranges parse_name.
Example call_view : unit_view call_file call_unit call_env.
Proof. exists 40%nat. intros n Hn. replace n with (40 + (n - 40))%nat by lia. generalize (n - 40)%nat as m. intros m. unfold unit_env, call_env. f_equal. Qed.
Definition point_t : tdef := TD (LStruct (st "Point") 8 8 [(st "x", 0, u32t); (st "y", 4, u32t)]) (Some 90).
Definition wrap_t : tdef := TD (LStruct (st "Wrap") 8 8 [(st "at", 0, alias "Point" 90)]) (Some 100).
Example wrap_resolves : resolves_fully call_env 100 wrap_t.
Proof. exists 8%nat. vm_compute. reflexivity. Qed.
Example point_resolves : resolves_fully call_env 90 point_t /\ resolves_fully call_env 10 u32t.
Proof. split; exists 8%nat; vm_compute; reflexivity. Qed.
Definition call_locals : list (option var) := [Some (Var (Some (st "p")) (alias "Point" 90) (here 4) 51); Some (Var (Some (st "i")) u32t (here 5) 54); Some (Var (Some (st "w")) (alias "Wrap" 100) (here 6) 56)].
Lemma call_var o t s h ty line : shallow 5 call_env h = Ok ty -> var_says call_env (decl_path app_map call_unit) (vdecl o t s h line) (Var (Some (st s)) ty (here line) o).
Proof.
  intros R. unfold var_says. cbn [va_name va_ty va_loc va_die here]. split; [apply ex_attr; reflexivity|].
  split; [exists h; split; [apply ex_attr; reflexivity | exists 5%nat; exact R]|]. split; [|reflexivity].
  exists 1. split; [apply ex_attr; reflexivity|]. split; [vm_compute; reflexivity|]. left. apply ex_attr. reflexivity.
Qed.
Example call_says : function_says app_map call_env call_unit go_die [] call_locals.
Proof. split; repeat (apply Forall2_cons; [constructor; apply call_var; vm_compute; reflexivity|]); apply Forall2_nil. Qed.
Example call_attrs : readable_attrs call_unit.
Proof.
  intros d a x T H. apply subtrees_in in T. assert (G : forallb (fun d => forallb (fun p => attr_okb (snd p)) (e_attrs (d_entry d))) (subtrees call_die) = true) by (vm_compute; reflexivity).
  rewrite forallb_forall in G. specialize (G d T). rewrite forallb_forall in G. specialize (G (a, x) H). cbn [snd] in G.
  destruct x; cbn in G |- *; auto; apply andb_true_iff in G; destruct G as [A1 A2]; apply Z.leb_le in A1; apply Z.ltb_lt in A2; unfold in_u64; lia.
Qed.
Example call_described : described app_map call_history call_binary (sym_name s_go) s_go call_file call_unit go_die call_env [] call_locals.
Proof.
  split; try reflexivity.
  - exists [], [s_double; s_sum]. split; [reflexivity|]. split; [reflexivity|]. intros y [<- | [<- | []]]; discriminate.
  - exact call_readable.
  - exact call_distinct.
  - left. reflexivity.
  - apply subtrees_in. vm_compute. tauto.
  - exists s_go. exact fn_go.
  - exact call_attrs.
  - exact call_view.
  - exact call_says.
Qed.
Example call_well : well_formed call_file.
Proof.
  split; [|split; [exact call_distinct | intros u [<- | []]; exact call_attrs]].
  exists (fun _ => bu_length call_unit). split; [intros u [<- | []]; reflexivity|]. split; [|split; exact Logic.I]. split; [reflexivity|]. split; [|split].
  - assert (O : forall e k, is_namespace e = false -> forallb (fun x => negb (is_namespace x)) (entries_list (match k with Some l => l | None => [] end)) = true -> ns_tree (Die e k)).
    { intros e k N F. apply ns_tree_other; [exact N|]. rewrite forallb_forall in F. apply Forall_forall. intros x Hx. apply F in Hx. destruct (is_namespace x); [discriminate | reflexivity]. }
    cbn [call_unit bu_die]. unfold call_die, nd. cbn [d_kids app].
    repeat (apply Forall_cons; [first [apply O; reflexivity | apply ns_tree_ns; [reflexivity | discriminate|]; repeat (apply Forall_cons; [apply O; reflexivity|]); apply Forall_nil]|]). apply Forall_nil.
  - cbn. repeat (apply SSorted_cons || apply SSorted_nil || apply Forall_cons || apply Forall_nil); unfold by_offset; cbn; lia.
  - intros x Hx. cbn in Hx. repeat destruct Hx as [<- | Hx]; cbn; lia.
Qed.
Lemma call_apart : apart [call_file].
Proof. intros f1 f2 w1 w2 d1 d2 [<- | []] [<- | []] _ _ _ _ _. reflexivity. Qed.

(** LLDB stopped there: the frame base is 4096, [p] at 4032, [i] at 4088, [w] at 4016. The call of [double] leaves the target in state 1, that of
    [sum] in state 2; in both the result is at 8192. *)
Definition call_regions (n : nat) : list (Z * list Z) :=
  [(4016, [9; 0; 0; 0; 8; 0; 0; 0]); (4032, [3; 0; 0; 0; 4; 0; 0; 0]); (4088, [21; 0; 0; 0])] ++ match n with O => [] | S O => [(8192, [42; 0; 0; 0])] | 3%nat => [(8192, [32; 0; 0; 0])] | _ => [(8192, [12; 0; 0; 0])] end.
Definition call_mem (n : nat) : memory := mem_of (call_regions n).
Definition call_memory (n : nat) (a k : Z) : option (list Z) := read_bytes (call_mem n) a (Z.to_nat k).
Lemma call_served n : served (call_memory n) (call_mem n).
Proof. intros a bs _ [_ H]. unfold call_memory. rewrite Nat2Z.id. apply read_bytes_holds. exact H. Qed.
Lemma call_read q n : forall a d, read_bytes (call_mem q) a n = Some d -> Forall byte d.
Proof.
  induction n as [|n IH]; intros a d H; cbn [read_bytes] in H; [injection H as <-; constructor|]. destruct (call_mem q a) as [b|] eqn:E; [|discriminate]. destruct (read_bytes (call_mem q) (a + 1) n) as [l|] eqn:R; [|discriminate]. injection H as <-.
  constructor; [|exact (IH _ _ R)]. apply (region_bytes (call_regions q)) with (a := a); [destruct q as [|[|[|[|q]]]]; reflexivity | exact E].
Qed.
Definition double_text : str := st "struct Arg_4 { unsigned char bytes[4]; }; struct ReturnBuffer_4 { unsigned char bytes[4]; }; auto result = ((struct ReturnBuffer_4 (*)(struct Arg_4))0x1060)(*((struct Arg_4*)0xff8)); &result".
Definition sum_text : str := st "struct ReturnBuffer_4 { unsigned char bytes[4]; }; auto result = ((struct ReturnBuffer_4 (*)(void*, unsigned long))0x1080)((void*)0xfc0, 5); &result".
Definition address_text : str := st "struct ReturnBuffer_4 { unsigned char bytes[4]; }; auto result = ((struct ReturnBuffer_4 (*)(void*))0x1060)((void*)0xfb0); &result".
Definition call_value : evres := EvRes true false 8192 (two64 - 1) 4096 (st "5").
Definition call_lldb : debugger nat := Debugger nat (fun _ => true) (fun _ => true) (fun _ => true) (fun _ => true) call_memory
  (fun _ => registers0) (fun _ => 4164) (fun _ => 0) (fun _ => 0) (fun _ => 77) (fun _ => st "main") (fun _ => Some 65536)
  (fun n e => (call_value, if str_eqb e double_text then 1%nat else if str_eqb e sum_text then 2%nat else if str_eqb e address_text then 3%nat else n)) (fun _ x => None) (fun n _ _ => (true, S n)) (fun _ => st "error").
Example call_fits : debugger_fits call_lldb.
Proof.
  split; cbn -[str_eqb st call_memory double_text sum_text address_text].
  - intros q a n d. unfold call_memory. apply call_read.
  - intros _. repeat constructor; cbn; unfold two64; lia.
  - intros _. repeat split; unfold two64; lia.
  - intros _. split; [split; unfold two64; lia | apply ascii_texts; reflexivity].
  - intros _ a H. injection H as <-. split; unfold two64; lia.
  - intros n e v s1 H. injection H as <- _. repeat split; unfold two64; cbn; try lia. apply ascii_texts; reflexivity.
  - intros _ x t H. discriminate.
  - intros _. apply ascii_texts; reflexivity.
Qed.
Lemma call_stopped : stopped app_map plain_externals call_lldb 0%nat call_binary call_tables call_file call_unit go_die call_env [] call_locals 6 4096.
Proof.
  exists s_go, (pth ["home"; "u"; "app"; "src"; "main.rs"]%string, 6, Some 9), s_go. split; [exact call_attributed|]. split; [exact call_described|]. split; [reflexivity|]. split; [unfold u64, two64; lia | reflexivity].
Qed.
Definition call_stands : expr -> Z -> tdef -> Prop := stands call_env call_unit (somes call_locals) 4096 (fun _ _ => []) (call_mem 0).
Lemma call_p : call_stands (EVariable (st "p")) 4032 point_t.
Proof.
  apply (st_variable call_env call_unit (somes call_locals) 4096 (fun _ _ => []) (call_mem 0) (st "p") (Var (Some (st "p")) (alias "Point" 90) (here 4) 51) (-64)); [|reflexivity | exists 90; split; [reflexivity | apply point_resolves]].
  eexists [], _. split; [reflexivity|]. split; [reflexivity | constructor].
Qed.
Lemma call_i : call_stands (EVariable (st "i")) 4088 u32t.
Proof.
  apply (st_variable call_env call_unit (somes call_locals) 4096 (fun _ _ => []) (call_mem 0) (st "i") (Var (Some (st "i")) u32t (here 5) 54) (-8)); [|reflexivity | reflexivity].
  eexists [_], _. split; [reflexivity|]. split; [reflexivity|]. repeat constructor; discriminate.
Qed.
Lemma double_only : callee call_history [] (st "double") s_double.
Proof.
  intros y. split.
  - intros [L [N _]]. apply is_last_in in L. destruct L as [I _]. destruct I as [<- | [<- | [<- | []]]]; [discriminate N | reflexivity | discriminate N].
  - intros ->. split; [exists [s_go], [s_sum]; split; [reflexivity|]; split; [reflexivity|]; intros y [<- | []]; discriminate|]. split; [reflexivity | exists [st "app"]; reflexivity].
Qed.
Lemma double_declared : declares call_history call_binary s_double call_file call_unit double_die call_env [(Some (st "n"), u32t)] (Some u32t).
Proof.
  split; [reflexivity|]. split; [exact call_readable|]. split; [exists s_double; exact fn_double|]. split; [left; reflexivity|]. split; [apply subtrees_in; vm_compute; tauto|]. split; [exact call_view|].
  split; [|exact (proj2 point_resolves)]. apply Forall2_cons; [|apply Forall2_nil]. split; [reflexivity | exact (proj2 point_resolves)].
Qed.
Definition call_leaves (args : list str) (lines : list str) (s1 : nat) : Prop := exists k0, forall k, (k0 <= k)%nat -> exists n0, forall n, (n0 <= n)%nat ->
  prints_leaving app_map call_fs (fun l => l) plain_externals isort None (fun s => s) (fun _ _ => []) (fun _ => false) call_lldb 0%nat (st "/app/bin") n k args lines s1.
Lemma call_outcome q x : holds_uint (call_mem q) 8192 4 x -> outcome call_lldb call_env (fun _ _ => []) call_value q (Some u32t) (Some 4) [st "type: u32"; st "value: " ++ dec x].
Proof.
  intros H. change [st "type: u32"; st "value: " ++ dec x] with [st "type: " ++ tname u32t; st "value: " ++ Base.join [lf] (shown (VScalar (st "u32") (dec x)))].
  apply (out_value call_lldb call_env (fun _ _ => []) call_value q (Some u32t) 4 8192 u32t (call_mem q)); try reflexivity.
  - split; [reflexivity|]. split; [reflexivity|]. exists 8192. split; [reflexivity|]. split; [discriminate|]. left. split; [reflexivity | discriminate].
  - apply call_served.
  - apply fo_unsigned with (w := 4); [reflexivity | cbn; tauto | u64_ | exact H].
  - apply ti_scalar; [apply FormatProps.dec_one_line|]. destruct (JsonProofs.dec_head [] [] eq_refl eq_refl x) as (c & r' & Q & _). rewrite Q. discriminate.
  - apply ascii_texts. reflexivity.
  - apply Forall_cons; [apply dec_text | apply Forall_nil].
Qed.
Lemma double_segment : wf_segment (st "double").
Proof.
  split; [discriminate|]. split; [|split; [reflexivity|]].
  - intros a b E. exfalso. assert (I : In 58%N (st "double")) by (rewrite E; apply in_or_app; right; now left). repeat destruct I as [I|I]; try discriminate; destruct I.
  - split; [reflexivity|]. split.
    + intros c I. repeat destruct I as [<-|I]; try destruct I; repeat split; discriminate.
    + intros a b E. assert (I : In 32%N (st "double")) by (rewrite E; apply in_or_app; right; now left). repeat destruct I as [I|I]; try discriminate; destruct I.
Qed.
(** rd eval double(i) *)
Example double_printed : call_leaves [st "double(i)"] [st "type: u32"; st "value: 42"] 1.
Proof.
  refine (function_call_printed_partial app_map call_fs (fun l => l) plain_externals isort None (fun s => s) (fun _ _ => []) (fun _ => false) isort_sorts nat call_lldb 0%nat (st "/app/bin") call_binary call_tables
    call_fits eq_refl eq_refl eq_refl eq_refl ltac:(apply ascii_texts; reflexivity) call_opened eq_refl ltac:(apply Forall_cons; [exact call_well | apply Forall_nil]) call_apart
    (call_mem 0) call_file call_unit go_die call_env [] call_locals 6 4096 [st "double(i)"] [] (st "double") [EVariable (st "i")] s_double call_file call_unit double_die call_env [(Some (st "n"), u32t)] (Some u32t)
    [((st "struct Arg_4", st "*((struct Arg_4*)0xff8)"), [4])] (Some 4) double_text call_value 1%nat _ (call_served 0) call_stopped _ _ _ _ _ _ double_declared _ eq_refl _ eq_refl _ _ eq_refl _).
  - discriminate.
  - apply Forall_cons; [apply ascii_texts; reflexivity | apply Forall_nil].
  - vm_compute. reflexivity.
  - apply Forall_cons; [exact double_segment | apply Forall_nil].
  - intros (ds & H & _). discriminate.
  - rewrite call_indexed. exact double_only.
  - cbn. unfold two64. lia.
  - apply Forall2_cons; [|apply Forall2_nil]. apply (pa_block call_env call_unit (somes call_locals) 4096 (fun _ _ => []) (call_mem 0) (EVariable (st "i")) 4088 u32t 4 call_i eq_refl). u64_.
  - u64_.
  - eexists [_]. split; [apply Forall2_cons; [reflexivity | apply Forall2_nil]|]. vm_compute. reflexivity.
  - apply (call_outcome 1 42). mem.
Qed.
(** rd eval double(w.at): the address of [w.at], 4016, is passed, where the function gets it as its number. *)
Lemma call_w : call_stands (EField (EVariable (st "w")) (st "at")) 4016 (alias "Point" 90).
Proof.
  assert (W : call_stands (EVariable (st "w")) 4016 wrap_t).
  { apply (st_variable call_env call_unit (somes call_locals) 4096 (fun _ _ => []) (call_mem 0) (st "w") (Var (Some (st "w")) (alias "Wrap" 100) (here 6) 56) (-80)); [|reflexivity | exists 100; split; [reflexivity | exact wrap_resolves]].
    eexists [_; _], _. split; [reflexivity|]. split; [reflexivity|]. repeat constructor; discriminate. }
  apply (st_field call_env call_unit (somes call_locals) 4096 (fun _ _ => []) (call_mem 0) (EVariable (st "w")) 4016 wrap_t (st "Wrap") 8 8 [(st "at", 0, alias "Point" 90)] (st "at") (st "at", 0, alias "Point" 90) W eq_refl); [|u64_].
  eexists [], _. split; [reflexivity|]. split; [reflexivity | constructor].
Qed.
Example address_printed : call_leaves [st "double(w.at)"] [st "type: u32"; st "value: 32"] 3.
Proof.
  refine (proj1 (nested_argument_refuted app_map call_fs (fun l => l) plain_externals isort None (fun s => s) (fun _ _ => []) (fun _ => false) isort_sorts nat call_lldb 0%nat (st "/app/bin") call_binary call_tables
    call_fits eq_refl eq_refl eq_refl eq_refl ltac:(apply ascii_texts; reflexivity) call_opened eq_refl ltac:(apply Forall_cons; [exact call_well | apply Forall_nil]) call_apart
    (call_mem 0) call_file call_unit go_die call_env [] call_locals 6 4096 [st "double(w.at)"] [] (st "double") (EField (EVariable (st "w")) (st "at")) 4016 (alias "Point" 90) (st "Point") 90 point_t 8 s_double call_file call_unit double_die call_env (Some (st "n"), u32t) (Some u32t)
    (Some 4) address_text call_value 3%nat _ (call_served 0) call_stopped _ _ _ _ _ _ double_declared _ call_w eq_refl eq_refl (proj1 point_resolves) eq_refl eq_refl _ _ _ _)).
  - discriminate.
  - apply Forall_cons; [apply ascii_texts; reflexivity | apply Forall_nil].
  - vm_compute. reflexivity.
  - apply Forall_cons; [exact double_segment | apply Forall_nil].
  - intros (ds & H & _). discriminate.
  - rewrite call_indexed. exact double_only.
  - cbn. unfold two64. lia.
  - u64_.
  - exists []. split; [apply Forall2_nil|]. vm_compute. reflexivity.
  - reflexivity.
  - apply (call_outcome 3 32). mem.
Qed.
(** rd eval p.sum(5) *)
Definition call_methods : list dmethod := Eval vm_compute in match BinaryModel.discover_methods 40 8 call_binary plain_externals (fun s => s) point_t with Ok l => l | _ => [] end.
Lemma call_lists : methods_are plain_externals (fun s => s) call_binary point_t call_methods.
Proof.
  exists 8%nat. intros k Hk. exists 40%nat. intros n Hn. replace n with (40 + (n - 40))%nat by lia. replace k with (8 + (k - 8))%nat by lia. generalize (n - 40)%nat, (k - 8)%nat. intros a b. vm_compute. reflexivity.
Qed.
Definition sum_method : dmethod := Eval vm_compute in hd (DMethod [] [] [] 0 None false false None []) call_methods.
Example sum_printed : call_leaves [st "p.sum(5)"] [st "type: u32"; st "value: 12"] 2.
Proof.
  refine (method_call_printed_partial app_map call_fs (fun l => l) plain_externals isort None (fun s => s) (fun _ _ => []) (fun _ => false) isort_sorts nat call_lldb 0%nat (st "/app/bin") call_binary call_tables
    call_fits eq_refl eq_refl eq_refl eq_refl ltac:(apply ascii_texts; reflexivity) call_opened eq_refl ltac:(apply Forall_cons; [exact call_well | apply Forall_nil]) call_apart
    (call_mem 0) call_file call_unit go_die call_env [] call_locals 6 4096 [st "p.sum(5)"] (EVariable (st "p")) 4032 point_t (st "sum") [ENumber 5] call_methods sum_method call_file call_unit call_env
    [((st "unsigned long", st "5"), [])] (Some 4) sum_text call_value 2%nat _ (call_served 0) call_stopped _ _ _ call_p _ _ call_lists _ _ (or_introl eq_refl) (or_introl eq_refl) call_view _ eq_refl _ _ eq_refl _).
  - discriminate.
  - apply Forall_cons; [apply ascii_texts; reflexivity | apply Forall_nil].
  - vm_compute. reflexivity.
  - u64_.
  - intros names H. cbn in H. subst names. intros [].
  - exists [], (tl call_methods). split; [reflexivity|]. split; [split; [exists Borrowed; reflexivity | reflexivity] | constructor].
  - cbn. unfold two64. lia.
  - apply Forall2_cons; [|apply Forall2_nil]. apply (pa_number call_env call_unit (somes call_locals) 4096 (fun _ _ => []) (call_mem 0) 5). lia.
  - u64_.
  - exists []. split; [apply Forall2_nil|]. vm_compute. reflexivity.
  - apply (call_outcome 2 12). mem.
Qed.
Print Assumptions double_printed.
Print Assumptions sum_printed.
Print Assumptions address_printed.
