(** A binary and a stopped target with a heap that meet the hypotheses of C114 for calls with texts. *)
From Coq Require Import Ascii String List ZArith NArith Lia Bool Arith Sorted Permutation.
From Verif Require Import Base NumText OMap AddrModel AddrSpec AddrProofs SymModel SymSpec SymProofs SymProps PathModel LinesModel LinesProps DieModel DieSpec ModuleModel ModuleSpec
  TypesModel ParserModel ParserSpec ParserProofs ResolveModel ResolveSpec ResolveProofs ResolveProps ResolveExample LocModel FnModel FnSpec FnProofs FnProps SourceModel DiscoverModel DiscoverSpec LoadModel LoadProps LookupSpec BinaryModel BinarySpec BinaryProofs BinaryProps BinaryVars BinaryTypes.
From Verif Require Import ValueModel FormatSpec ExprModel ProcModel EvalModel ClientModel ClientSpec SessionModel SessionSpec WireProps RdProps SessionExample BinarySession BinaryExample BinarySpec DataSpec AccessProps PlainSpec BinaryEval MemExample BinaryExample4 BinaryCall CreateModel CreateProps BinaryCallText.
From Verif Require Import ResolveExample BinaryTypes.
From Verif Require Import ValueModel ParserModel Utf8.
Import ListNotations.
Open Scope Z_scope.

(** struct Point { x: u32, y: u32 }  impl Point { fn tag(&self, name: String) -> u32 }  fn greet(s: String, t: &str, k: u32) -> u32
    fn run() { let p: Point; let i: u32; } *)
Definition giving (o : Z) (name link : string) (lo hi ret : Z) (k : list die) : die :=
  Die (Entry o Tsubprogram [nm name; (At_linkage_name, AStr (Some (st link))); (At_type, AUnitRef ret)] (Ok [(lo, hi)])) (Some k).
Definition go_die : die := fn 50 "app::run" 64 96 [vdecl 51 Tvariable "p" 90 4; vdecl 54 Tvariable "i" 10 5].
Definition greet_die : die := giving 60 "greet" "app::greet" 96 128 10 [vdecl 61 Tparameter "s" 145 9; vdecl 62 Tparameter "t" 195 9; vdecl 63 Tparameter "k" 10 9].
Definition tag_die : die := giving 93 "tag" "app::Point::tag" 128 160 10 [vdecl 94 Tparameter "self" 110 12; vdecl 95 Tparameter "name" 145 12].
Definition pt_die : die := struct_ 90 "Point" 8 [mem 91 "x" 0 10; mem 92 "y" 4 10; tag_die].
Definition txt_die : die := Die (Entry 1 Tcompile_unit [(At_language, ALang 28)] (Ok [(64, 160)]))
  (Some [base 10 "u32" 4; base 13 "u64" 8; base 14 "u8" 1; ptr 15 "*const u8" 14; nd 20 Tnamespace [nm "app"] [go_die; greet_die; pt_die]; ptr 110 "&app::Point" 90;
    struct_ 130 "RawVec" 16 [mem 131 "inner" 0 135]; struct_ 135 "RawVecInner" 16 [mem 136 "ptr" 0 15; mem 137 "cap" 8 138]; struct_ 138 "Cap" 8 [mem 139 "__0" 0 13];
    struct_ 140 "Vec<u8>" 24 [tpar 141 "T" 14; mem 142 "buf" 0 130; mem 143 "len" 16 13]; struct_ 145 "String" 24 [mem 146 "vec" 0 140];
    struct_ 195 "&str" 16 [mem 196 "data_ptr" 0 15; mem 197 "length" 8 13]; nd 220 Tnamespace [nm "zz"] []]).
Definition txt_unit : bunit :=
  BUnit txt_die 2 300 (Some (Some (st "/build/app")))
    (Some (false, [FEntry (Some (st "src")) (Some (st "main.rs"))], None, [Row 64 1 (Some 3) 0 false; Row 68 1 (Some 6) 9 false; Row 160 1 None 0 true]))
    (fun h => if h =? 51 then Some [OFbreg (-64)] else if h =? 54 then Some [OFbreg (-8)] else None) (fun h => Some [OReg 6]).
Definition txt_object : object := Object true [mk_raw (Some (st "app::run")) 4160 true; mk_raw (Some (st "app::greet")) 4192 true; mk_raw (Some (st "app::Point::tag")) 4224 true] [] [] [txt_unit].
Definition txt_fs (p : fpath) : option stored := if fpath_eqb p (pth ["app"; "bin"]%string) then Some (Stored (Some txt_object) None) else None.
Definition txt_file : bfile := BFile 0 false [txt_unit].
Definition txt_tables : list (N * list raw_entry) := [(0%N, ob_symbols txt_object)].
Definition txt_binary : binary := Binary (index_symbol_map plain_externals txt_tables) [txt_file] [txt_file].
Example txt_opened : open_binary app_map txt_fs (fun l => l) plain_externals (components (st "/app/bin")) = Ok txt_binary.
Proof. vm_compute. reflexivity. Qed.
Definition s_go : symbol := mk_symbol (mk_sname (st "run") [] [st "app"] (st "app::run")) 4160 0.
Definition s_greet : symbol := mk_symbol (mk_sname (st "greet") [] [st "app"] (st "app::greet")) 4192 0.
Definition s_tag : symbol := mk_symbol (mk_sname (st "tag") [] [st "app"; st "Point"] (st "app::Point::tag")) 4224 0.
Definition txt_history : list (bool * list N * symbol) := [(true, st "app::run", s_go); (true, st "app::greet", s_greet); (true, st "app::Point::tag", s_tag)].
Example txt_indexed : history plain_externals txt_tables = txt_history.
Proof. vm_compute. reflexivity. Qed.
Definition txt_seen : list die := Eval vm_compute in visible (units_of txt_file).
Example txt_visible : visible (units_of txt_file) = txt_seen.
Proof. vm_compute. reflexivity. Qed.
Lemma linked_go : linked txt_history txt_file go_die s_go.
Proof.
  exists true, (st "app::run"), (st "app::run"). split; [reflexivity|]. split; [reflexivity|]. split; [reflexivity|]. exists [], (tl txt_history). split; [reflexivity|]. split; [split; reflexivity|].
  intros e [<- | [<- | []]] [_ E]; discriminate E.
Qed.
Lemma linked_greet : linked txt_history txt_file greet_die s_greet.
Proof.
  exists true, (st "app::greet"), (st "app::greet"). split; [reflexivity|]. split; [reflexivity|]. split; [reflexivity|]. exists (firstn 1 txt_history), (skipn 2 txt_history). split; [reflexivity|]. split; [split; reflexivity|].
  intros e [<- | []] [_ E]; discriminate E.
Qed.
Lemma txt_linked d s : In d (visible (units_of txt_file)) -> linked txt_history txt_file d s -> d = go_die /\ s = s_go \/ d = greet_die /\ s = s_greet \/ d = tag_die /\ s = s_tag.
Proof.
  rewrite txt_visible. intros Hd (b & raw & link & Tg & Ln & Rw & La). apply is_last_in in La. destruct La as [He [_ Er]]. cbn [fst snd] in Er.
  unfold txt_seen in Hd. repeat (destruct Hd as [<- | Hd]; [try discriminate Tg|]); try contradiction Hd; injection Ln as <-; [left | right; left | right; right]; (split; [reflexivity|]); subst raw;
  destruct He as [He | [He | [He | []]]]; pose proof (f_equal (fun z => snd (fst z)) He) as Er'; pose proof (f_equal snd He) as Es; cbn [fst snd] in Er', Es; try (symmetry; exact Es); exfalso; vm_compute in Er'; discriminate Er'.
Qed.
Example txt_readable : readable_file txt_history txt_file.
Proof.
  split; [|split].
  - repeat constructor. eexists. reflexivity.
  - rewrite txt_visible. unfold txt_seen. repeat (apply Forall_cons; [intros T; try discriminate T; exact Logic.I|]). apply Forall_nil.
  - intros d s lo hi Hd L R. destruct (txt_linked d s Hd L) as [[-> ->] | [[-> ->] | [-> ->]]]; injection R as <- <-; unfold two64; cbn; lia.
Qed.
Example txt_distinct : distinct_dies txt_file.
Proof.
  intros u1 u2 d1 d2 [<- | []] [<- | []] T1 T2 E. split; [reflexivity|]. apply subtrees_in in T1, T2. exact (distinct_inj h_of (subtrees txt_die) d1 d2 eq_refl T1 T2 E).
Qed.
Lemma after_seen k d : In d (skipn k txt_seen) -> In d (visible (units_of txt_file)).
Proof. intros H. rewrite txt_visible, <- (firstn_skipn k txt_seen). apply in_or_app. right. exact H. Qed.
Example fn_go : function_of txt_history txt_file (sym_name s_go) go_die s_go.
Proof.
  exists (firstn 5 txt_seen), (skipn 6 txt_seen). split; [rewrite txt_visible; reflexivity|]. split; [exact linked_go|]. split; [reflexivity|]. intros d s Hd L.
  destruct (txt_linked d s (after_seen 6 d Hd) L) as [[-> _] | [[_ ->] | [_ ->]]]; [|discriminate | discriminate]. exfalso. cbn in Hd. repeat (destruct Hd as [E | Hd]; [discriminate E|]). exact Hd.
Qed.
Example fn_greet : function_of txt_history txt_file (sym_name s_greet) greet_die s_greet.
Proof.
  exists (firstn 6 txt_seen), (skipn 7 txt_seen). split; [rewrite txt_visible; reflexivity|]. split; [exact linked_greet|]. split; [reflexivity|]. intros d s Hd L.
  destruct (txt_linked d s (after_seen 7 d Hd) L) as [[_ ->] | [[-> _] | [_ ->]]]; [discriminate | | discriminate]. exfalso. cbn in Hd. repeat (destruct Hd as [E | Hd]; [discriminate E|]). exact Hd.
Qed.
Example txt_attributed : attributed app_map txt_history txt_binary 4164 s_go (pth ["home"; "u"; "app"; "src"; "main.rs"]%string, 6, Some 9).
Proof.
  exists s_go, txt_file, go_die, 64, 96, go_die, s_go, txt_unit. split; [|split; [|split; [|split; [|split; [|split; [|split; [|split; [|split; [|split]]]]]]]]].
  - split; [left; reflexivity|]. split; [cbn; lia|]. intros y [<- | [<- | [<- | []]]]; cbn; lia.
  - intros y [[<- | [<- | [<- | []]]] _]; reflexivity.
  - reflexivity.
  - exact txt_readable.
  - exact txt_distinct.
  - split; [rewrite txt_visible; cbn; tauto|]. split; [exact linked_go|]. split; [reflexivity | cbn; lia].
  - intros d' s' lo' hi' (Hd & L & R & C). destruct (txt_linked d' s' Hd L) as [[-> ->] | [[-> ->] | [-> ->]]]; [auto | exfalso | exfalso]; injection R as <- <-; cbn in C; lia.
  - exact fn_go.
  - left. reflexivity.
  - apply subtrees_in. vm_compute. tauto.
  - eexists false, _, None, _, [Row 64 1 (Some 3) 0 false], (Row 68 1 (Some 6) 9 false), _, _, _, 6. split; [reflexivity|]. split; [reflexivity|]. split; [reflexivity|]. split; [reflexivity|]. split; [reflexivity|]. split; [reflexivity|].
    split; [vm_compute; reflexivity|]. split; [reflexivity|]. intros q [<- | []] (_ & A & _). discriminate A.
Qed.
Definition txt_ranges : list mrange := Eval vm_compute in fst (file_modules 40 txt_file).
Definition txt_env : env := Env txt_die txt_ranges parse_name.
Example txt_view : unit_view txt_file txt_unit txt_env.
Proof. exists 40%nat. intros n Hn. replace n with (40 + (n - 40))%nat by lia. generalize (n - 40)%nat as m. intros m. unfold unit_env, txt_env. f_equal. Qed.
Definition point_t : tdef := TD (LStruct (st "Point") 8 8 [(st "x", 0, u32t); (st "y", 4, u32t)]) (Some 90).
Definition string_type : tdef := TD (LString 16 0 8 (TD (LUInt 1) (Some 14))) (Some 145).
Definition str_type : tdef := TD (LStrSlice 0 8) (Some 195).
Example texts_resolve : resolves_fully txt_env 145 string_type /\ resolves_fully txt_env 195 str_type.
Proof. split; exists 8%nat; vm_compute; reflexivity. Qed.
Example point_resolves : resolves_fully txt_env 90 point_t /\ resolves_fully txt_env 10 u32t.
Proof. split; exists 8%nat; vm_compute; reflexivity. Qed.
Definition txt_locals : list (option var) := [Some (Var (Some (st "p")) (alias "Point" 90) (here 4) 51); Some (Var (Some (st "i")) u32t (here 5) 54)].
Lemma txt_var o t s h ty line : shallow 5 txt_env h = Ok ty -> var_says txt_env (decl_path app_map txt_unit) (vdecl o t s h line) (Var (Some (st s)) ty (here line) o).
Proof.
  intros R. unfold var_says. cbn [va_name va_ty va_loc va_die here]. split; [apply ex_attr; reflexivity|].
  split; [exists h; split; [apply ex_attr; reflexivity | exists 5%nat; exact R]|]. split; [|reflexivity].
  exists 1. split; [apply ex_attr; reflexivity|]. split; [vm_compute; reflexivity|]. left. apply ex_attr. reflexivity.
Qed.
Example txt_says : function_says app_map txt_env txt_unit go_die [] txt_locals.
Proof. split; repeat (apply Forall2_cons; [constructor; apply txt_var; vm_compute; reflexivity|]); apply Forall2_nil. Qed.
Example txt_attrs : readable_attrs txt_unit.
Proof.
  intros d a x T H. apply subtrees_in in T. assert (G : forallb (fun d => forallb (fun p => attr_okb (snd p)) (e_attrs (d_entry d))) (subtrees txt_die) = true) by (vm_compute; reflexivity).
  rewrite forallb_forall in G. specialize (G d T). rewrite forallb_forall in G. specialize (G (a, x) H). cbn [snd] in G.
  destruct x; cbn in G |- *; auto; apply andb_true_iff in G; destruct G as [A1 A2]; apply Z.leb_le in A1; apply Z.ltb_lt in A2; unfold in_u64; lia.
Qed.
Example txt_described : described app_map txt_history txt_binary (sym_name s_go) s_go txt_file txt_unit go_die txt_env [] txt_locals.
Proof.
  split; try reflexivity.
  - exists [], [s_greet; s_tag]. split; [reflexivity|]. split; [reflexivity|]. intros y [<- | [<- | []]]; discriminate.
  - exact txt_readable.
  - exact txt_distinct.
  - left. reflexivity.
  - apply subtrees_in. vm_compute. tauto.
  - exists s_go. exact fn_go.
  - exact txt_attrs.
  - exact txt_view.
  - exact txt_says.
Qed.
Example txt_well : well_formed txt_file.
Proof.
  split; [|split; [exact txt_distinct | intros u [<- | []]; exact txt_attrs]].
  exists (fun _ => bu_length txt_unit). split; [intros u [<- | []]; reflexivity|]. split; [|split; exact Logic.I]. split; [reflexivity|]. split; [|split].
  - assert (O : forall e k, is_namespace e = false -> forallb (fun x => negb (is_namespace x)) (entries_list (match k with Some l => l | None => [] end)) = true -> ns_tree (Die e k)).
    { intros e k N F. apply ns_tree_other; [exact N|]. rewrite forallb_forall in F. apply Forall_forall. intros x Hx. apply F in Hx. destruct (is_namespace x); [discriminate | reflexivity]. }
    cbn [txt_unit bu_die]. unfold txt_die, nd. cbn [d_kids app].
    repeat (apply Forall_cons; [first [apply O; reflexivity | apply ns_tree_ns; [reflexivity | discriminate|]; repeat (apply Forall_cons; [apply O; reflexivity|]); apply Forall_nil]|]). apply Forall_nil.
  - cbn. repeat (apply SSorted_cons || apply SSorted_nil || apply Forall_cons || apply Forall_nil); unfold by_offset; cbn; lia.
  - intros x Hx. cbn in Hx. repeat destruct Hx as [<- | Hx]; cbn; lia.
Qed.
Lemma txt_apart : apart [txt_file].
Proof. intros f1 f2 w1 w2 d1 d2 [<- | []] [<- | []] _ _ _ _ _. reflexivity. Qed.

(** LLDB stopped there: the frame base is 4096, [p] at 4032, [i] at 4088. A state is the memory and the size of the heap, which begins at
    65536; every other expression than a [malloc] leaves its result, 7, at 8192. *)
Record hstate := HState { hs_raw : memory; hs_size : nat }.
Definition heap_end (s : hstate) : Z := 65536 + Z.of_nat (hs_size s).
Definition clean (c : option Z) : option Z := match c with Some b => if (0 <=? b) && (b <? 256) then Some b else None | None => None end.
Definition heap_mem (s : hstate) : memory := fun y => if y <? heap_end s then clean (hs_raw s y) else None.
Definition heap_room (s : hstate) (k : Z) : Prop := heap_end s + k <= two64.
Definition malloc_head : str := st "(void*)malloc(".
Definition txt_value (a : Z) : evres := EvRes true false a (two64 - 1) 4096 (st "5").
Definition heap_eval (s : hstate) (e : str) : evres * hstate :=
  match (if str_eqb (firstn 14 e) malloc_head then parse_u64 (removelast (skipn 14 e)) else None) with
  | Some n => if (0 <? n) && (heap_end s + n <=? two64) then (txt_value (heap_end s), HState (store (heap_mem s) (heap_end s) (repeat 0 (Z.to_nat n))) (hs_size s + Z.to_nat n)) else (EvRes false true 0 0 0 [], s)
  | None => (txt_value 8192, HState (store (heap_mem s) 8192 [7; 0; 0; 0]) (hs_size s))
  end.
Definition heap_lldb : debugger hstate := Debugger hstate (fun _ => true) (fun _ => true) (fun _ => true) (fun _ => true) (fun s a n => read_bytes (heap_mem s) a (Z.to_nat n))
  (fun _ => registers0) (fun _ => 4164) (fun _ => 0) (fun _ => 0) (fun _ => 77) (fun _ => st "main") (fun _ => Some 65536)
  heap_eval (fun _ x => None) (fun s a d => (true, HState (store (heap_mem s) a d) (hs_size s))) (fun _ => st "error").
Lemma heap_bytes s n : forall a d, read_bytes (heap_mem s) a n = Some d -> Forall byte d.
Proof.
  induction n as [|n IH]; intros a d H; cbn [read_bytes] in H; [injection H as <-; constructor|]. destruct (heap_mem s a) as [b|] eqn:E; [|discriminate]. destruct (read_bytes (heap_mem s) (a + 1) n) as [l|] eqn:R; [|discriminate]. injection H as <-.
  constructor; [|exact (IH _ _ R)]. unfold heap_mem, clean in E. destruct (a <? heap_end s); [|discriminate]. destruct (hs_raw s a); [|discriminate]. destruct ((0 <=? z) && (z <? 256)) eqn:Q; [|discriminate]. injection E as <-. apply andb_true_iff in Q. unfold byte. lia.
Qed.
Lemma removelast_one {A} (l : list A) c : removelast (l ++ [c]) = l.
Proof. rewrite removelast_app by discriminate. apply app_nil_r. Qed.
Lemma malloc_read n : 0 < n -> n < two64 -> str_eqb (firstn 14 (st "(void*)malloc(" ++ dec n ++ st ")")) malloc_head = true /\ parse_u64 (removelast (skipn 14 (st "(void*)malloc(" ++ dec n ++ st ")"))) = Some n.
Proof.
  intros H1 H2. change 14%nat with (List.length malloc_head). change (st "(void*)malloc(") with malloc_head. rewrite firstn_app, Nat.sub_diag, firstn_all, firstn_O, app_nil_r. split; [apply str_eqb_refl|].
  rewrite skipn_app, Nat.sub_diag, skipn_all, skipn_O. cbn [app]. change (st ")") with [41%N]. rewrite removelast_one. unfold dec. destruct (Z.ltb_spec n 0); [lia|]. rewrite parse_u64_dec by lia. unfold u64_max, two64 in *. destruct (Z.leb_spec n 18446744073709551615); [reflexivity | lia].
Qed.
Lemma clean_twice s y : clean (heap_mem s y) = heap_mem s y.
Proof. unfold heap_mem. destruct (y <? heap_end s); [|reflexivity]. unfold clean. destruct (hs_raw s y) as [b|]; [|reflexivity]. destruct ((0 <=? b) && (b <? 256)) eqn:E; [rewrite E|]; reflexivity. Qed.
Lemma clean_byte b : byte b -> clean (Some b) = Some b.
Proof. intros H. unfold clean, byte in *. replace ((0 <=? b) && (b <? 256)) with true by lia. reflexivity. Qed.
Lemma stored_bytes (m : memory) a d y : Forall byte d -> clean (m y) = m y -> clean (store m a d y) = store m a d y.
Proof.
  intros B C. unfold store. destruct ((a <=? y) && (y <? a + Z.of_nat (List.length d))); [|exact C]. destruct (nth_error d (Z.to_nat (y - a))) as [b|] eqn:E; [|reflexivity]. apply clean_byte. rewrite Forall_forall in B. apply B. exact (nth_error_In _ _ E).
Qed.
Example heap_has : has_heap heap_lldb heap_mem heap_room.
Proof.
  split.
  - intros s a bs Nb [_ H]. cbn [l_memory heap_lldb]. rewrite Nat2Z.id. apply read_bytes_holds. exact H.
  - intros s n k Hn Hk R. unfold heap_room in R. assert (He : 65536 <= heap_end s) by (unfold heap_end; lia). destruct (malloc_read n Hn ltac:(lia)) as [E1 E2].
    eexists _, _. split; [cbn [l_eval heap_lldb]; unfold heap_eval; rewrite E1, E2; replace ((0 <? n) && (heap_end s + n <=? two64)) with true by lia; reflexivity|]. cbn [txt_value v_valid v_failed v_unsigned].
    split; [reflexivity|]. split; [reflexivity|]. split; [lia|]. split; [lia|]. split; [constructor; reflexivity|].
    set (s1 := HState (store (heap_mem s) (heap_end s) (repeat 0 (Z.to_nat n))) (hs_size s + Z.to_nat n)).
    assert (E' : heap_end s1 = heap_end s + n) by (unfold heap_end, s1; cbn [hs_size]; lia).
    assert (M' : forall y, heap_mem s1 y = if y <? heap_end s + n then store (heap_mem s) (heap_end s) (repeat 0 (Z.to_nat n)) y else None).
    { intros y. unfold heap_mem at 1. rewrite E'. change (hs_raw s1 y) with (store (heap_mem s) (heap_end s) (repeat 0 (Z.to_nat n)) y). rewrite stored_bytes; [reflexivity | apply Forall_forall; intros z Hz; apply repeat_spec in Hz; subst z; unfold byte; lia | apply clean_twice]. }
    split; [unfold heap_room; rewrite E'; lia|]. intros y. rewrite M'. split; intros Hy; unfold within in Hy.
    + split; [unfold heap_mem; destruct (Z.ltb_spec y (heap_end s)); [lia | reflexivity]|]. destruct (Z.ltb_spec y (heap_end s + n)); [|lia]. unfold store. rewrite repeat_length. replace ((heap_end s <=? y) && (y <? heap_end s + Z.of_nat (Z.to_nat n))) with true by lia. apply nth_error_Some. rewrite repeat_length. lia.
    + rewrite store_out by (rewrite repeat_length; unfold within; lia). destruct (Z.ltb_spec y (heap_end s + n)); [reflexivity|]. unfold heap_mem. destruct (Z.ltb_spec y (heap_end s)); [lia | reflexivity].
  - intros s a d Nd Bd O. eexists. split; [reflexivity|]. split; [constructor; reflexivity|]. split; [intros k R; exact R|]. intros y. unfold heap_mem at 1. change (heap_end (HState (store (heap_mem s) a d) (hs_size s))) with (heap_end s). cbn [hs_raw]. rewrite stored_bytes; [|exact Bd | apply clean_twice].
    destruct (Z.ltb_spec y (heap_end s)); [reflexivity|]. unfold store. destruct ((a <=? y) && (y <? a + Z.of_nat (List.length d))) eqn:E; [|unfold heap_mem; destruct (Z.ltb_spec y (heap_end s)); [lia | reflexivity]].
    exfalso. apply (O y); [unfold within; lia|]. unfold heap_mem. destruct (Z.ltb_spec y (heap_end s)); [lia | reflexivity].
Qed.
Example heap_fits : debugger_fits heap_lldb.
Proof.
  split; cbn [heap_lldb l_memory l_registers l_pc l_sp l_fp l_tid l_name l_base l_eval l_variable l_error].
  - intros q a n d. apply heap_bytes.
  - intros _. repeat constructor; cbn; unfold two64; lia.
  - intros _. repeat split; unfold two64; lia.
  - intros _. split; [split; unfold two64; lia | apply ascii_texts; reflexivity].
  - intros _ a H. injection H as <-. split; unfold two64; lia.
  - intros s e v s1 H. assert (T5 : text (st "5")) by (apply ascii_texts; reflexivity). unfold heap_eval in H. destruct (if str_eqb (firstn 14 e) malloc_head then _ else _) as [n|].
    + destruct ((0 <? n) && (heap_end s + n <=? two64)) eqn:Q; pose proof (f_equal fst H) as V; cbn [fst] in V; subst v; (split; [|split; [|split]]); cbn [txt_value v_unsigned v_load v_addr v_text]; try exact T5; try (split; unfold two64; lia); try (apply Forall_nil).
      split; unfold heap_end, two64 in *; lia.
    + pose proof (f_equal fst H) as V; cbn [fst] in V; subst v. (split; [|split; [|split]]); cbn [txt_value v_unsigned v_load v_addr v_text]; try exact T5; try (split; unfold two64; lia).
  - intros _ x t H. discriminate.
  - intros _. apply ascii_texts; reflexivity.
Qed.
Definition heap0 : hstate := HState (mem_of [(4032, [3; 0; 0; 0; 4; 0; 0; 0]); (4088, [21; 0; 0; 0])]) 0.
Lemma txt_stopped : stopped app_map plain_externals heap_lldb heap0 txt_binary txt_tables txt_file txt_unit go_die txt_env [] txt_locals 6 4096.
Proof.
  exists s_go, (pth ["home"; "u"; "app"; "src"; "main.rs"]%string, 6, Some 9), s_go. split; [exact txt_attributed|]. split; [exact txt_described|]. split; [reflexivity|]. split; [unfold u64, two64; lia | reflexivity].
Qed.
Definition txt_stands : expr -> Z -> tdef -> Prop := stands txt_env txt_unit (somes txt_locals) 4096 (fun _ _ => []) (heap_mem heap0).
Lemma txt_p : txt_stands (EVariable (st "p")) 4032 point_t.
Proof.
  apply (st_variable txt_env txt_unit (somes txt_locals) 4096 (fun _ _ => []) (heap_mem heap0) (st "p") (Var (Some (st "p")) (alias "Point" 90) (here 4) 51) (-64)); [|reflexivity | exists 90; split; [reflexivity | apply point_resolves]].
  eexists [], _. split; [reflexivity|]. split; [reflexivity | constructor].
Qed.
Lemma txt_i : txt_stands (EVariable (st "i")) 4088 u32t.
Proof.
  apply (st_variable txt_env txt_unit (somes txt_locals) 4096 (fun _ _ => []) (heap_mem heap0) (st "i") (Var (Some (st "i")) u32t (here 5) 54) (-8)); [|reflexivity | reflexivity].
  eexists [_], _. split; [reflexivity|]. split; [reflexivity|]. repeat constructor; discriminate.
Qed.
Lemma greet_only : callee txt_history [] (st "greet") s_greet.
Proof.
  intros y. split.
  - intros [L [N _]]. apply is_last_in in L. destruct L as [I _]. destruct I as [<- | [<- | [<- | []]]]; [discriminate N | reflexivity | discriminate N].
  - intros ->. split; [exists [s_go], [s_tag]; split; [reflexivity|]; split; [reflexivity|]; intros y [<- | []]; discriminate|]. split; [reflexivity | exists [st "app"]; reflexivity].
Qed.
Definition greet_params : list (option str * tdef) := [(Some (st "s"), string_type); (Some (st "t"), str_type); (Some (st "k"), u32t)].
Lemma greet_declared : declares txt_history txt_binary s_greet txt_file txt_unit greet_die txt_env greet_params (Some u32t).
Proof.
  split; [reflexivity|]. split; [exact txt_readable|]. split; [exists s_greet; exact fn_greet|]. split; [left; reflexivity|]. split; [apply subtrees_in; vm_compute; tauto|]. split; [exact txt_view|].
  split; [|exact (proj2 point_resolves)]. repeat apply Forall2_cons; [| | |apply Forall2_nil]; (split; [reflexivity|]); [exact (proj1 texts_resolve) | exact (proj2 texts_resolve) | exact (proj2 point_resolves)].
Qed.
Lemma greet_segment : wf_segment (st "greet").
Proof.
  split; [discriminate|]. split; [|split; [reflexivity|]].
  - intros a b E. exfalso. assert (I : In 58%N (st "greet")) by (rewrite E; apply in_or_app; right; now left). repeat destruct I as [I|I]; try discriminate; destruct I.
  - split; [reflexivity|]. split.
    + intros c I. repeat destruct I as [<-|I]; try destruct I; repeat split; discriminate.
    + intros a b E. assert (I : In 32%N (st "greet")) by (rewrite E; apply in_or_app; right; now left). repeat destruct I as [I|I]; try discriminate; destruct I.
Qed.
Definition txt_leaves (args : list str) (lines : list str) (s1 : hstate) : Prop := exists k0, forall k, (k0 <= k)%nat -> exists n0, forall n, (n0 <= n)%nat ->
  prints_leaving app_map txt_fs (fun l => l) plain_externals isort None (fun s => s) (fun _ _ => []) (fun _ => false) heap_lldb heap0 (st "/app/bin") n k args lines s1.
Definition called (s : hstate) : hstate := HState (store (heap_mem s) 8192 [7; 0; 0; 0]) (hs_size s).
Lemma txt_outcome s : outcome heap_lldb txt_env (fun _ _ => []) (txt_value 8192) (called s) (Some u32t) (Some 4) [st "type: u32"; st "value: 7"].
Proof.
  change [st "type: u32"; st "value: 7"] with [st "type: " ++ tname u32t; st "value: " ++ Base.join [lf] (shown (VScalar (st "u32") (dec 7)))].
  apply (out_value heap_lldb txt_env (fun _ _ => []) (txt_value 8192) (called s) (Some u32t) 4 8192 u32t (heap_mem (called s))); try reflexivity.
  - split; [reflexivity|]. split; [reflexivity|]. exists 8192. split; [reflexivity|]. split; [discriminate|]. left. split; [reflexivity | discriminate].
  - apply (hh_served heap_lldb heap_mem heap_room heap_has).
  - apply fo_unsigned with (w := 4); [reflexivity | cbn; tauto | u64_|]. split; [split; reflexivity || lia|]. split; [repeat (apply Forall_cons; [unfold byte; vm_compute; split; [discriminate | reflexivity]|]); apply Forall_nil|].
    intros i c Hi. unfold heap_mem. change (heap_end (called s)) with (heap_end s). unfold heap_end. destruct (Z.ltb_spec (8192 + Z.of_nat i) (65536 + Z.of_nat (hs_size s))) as [_|Hg].
    + cbn [called hs_raw]. unfold store. cbn [List.length]. destruct i as [|[|[|[|i]]]]; cbn in Hi; [| | | |destruct i; discriminate Hi]; injection Hi as <-; reflexivity.
    + destruct i as [|[|[|[|i]]]]; cbn in Hi; [| | | |destruct i; discriminate Hi]; clear - Hg; lia.
  - apply ti_scalar; [apply FormatProps.dec_one_line|]. discriminate.
  - apply ascii_texts. reflexivity.
  - apply Forall_cons; [apply dec_text | apply Forall_nil].
Qed.
(** rd eval greet("hi", "there", i) *)
Definition greet_args : list expr := [EString (st "hi"); EString (st "there"); EVariable (st "i")].
Lemma no_text_place v u vars b floats m x c : passes v u vars b floats m (EString x) c -> False.
Proof. intros H. inversion H; match goal with Q : stands _ _ _ _ _ _ _ _ _ |- _ => inversion Q end. Qed.
Lemma one_number v u vars b floats m x a c c' : passes v u vars b floats m (EVariable x) c -> (forall a' ty, stands v u vars b floats m (EVariable x) a' ty -> a' = a /\ ty = u32t) -> c' = ((st "struct Arg_4", st "*((struct Arg_4*)" ++ hex a ++ st ")"), [4]) -> c = c'.
Proof. intros H F ->. inversion H as [|e a' ty size Sd Sz Us|e a' ty Sd Sz]; subst; destruct (F _ _ Sd) as [-> ->]; [injection Sz as <-; reflexivity | discriminate Sz]. Qed.
Lemma only_i a ty : txt_stands (EVariable (st "i")) a ty -> a = 4088 /\ ty = u32t.
Proof.
  intros H. inversion H as [name x off ty' (l1 & l2 & E & N & F) Lo Ty| | | |]; subst. cbn in E. destruct l1 as [|y l1]; [injection E as <- <-; discriminate N|]. injection E as <- E. destruct l1 as [|y l1]; [|injection E as <- E; destruct l1; discriminate E]. injection E as <- <-.
  cbn in Lo, Ty. injection Lo as <-. subst. split; [reflexivity | auto].
Qed.
Example greet_printed : exists s2 a1 a2, carries heap_lldb heap_mem heap0 s2 /\ text_at (heap_mem s2) string_type (st "hi") a1 /\ text_at (heap_mem s2) str_type (st "there") a2 /\
  txt_leaves [st "greet(""hi"","; st """there"","; st "i)"] [st "type: u32"; st "value: 7"] (called s2).
Proof.
  destruct (function_call_with_texts app_map txt_fs (fun l => l) plain_externals isort None (fun s => s) (fun _ _ => []) (fun _ => false) isort_sorts hstate heap_lldb heap_mem heap_room heap0 (st "/app/bin") txt_binary txt_tables
    heap_fits heap_has eq_refl eq_refl eq_refl eq_refl ltac:(apply ascii_texts; reflexivity) txt_opened eq_refl ltac:(apply Forall_cons; [exact txt_well | apply Forall_nil]) txt_apart
    txt_file txt_unit go_die txt_env [] txt_locals 6 4096 [st "greet(""hi"","; st """there"","; st "i)"] [] (st "greet") greet_args s_greet txt_file txt_unit greet_die txt_env greet_params (Some u32t) (Some 4) (26 + (21 + 0)) txt_stopped)
    as (s2 & cs & C & Se & K).
  - discriminate.
  - repeat (apply Forall_cons; [apply ascii_texts; reflexivity|]). apply Forall_nil.
  - vm_compute. reflexivity.
  - apply Forall_cons; [exact greet_segment | apply Forall_nil].
  - intros (ds & H & _). discriminate.
  - rewrite txt_indexed. exact greet_only.
  - rewrite txt_indexed. exact greet_declared.
  - cbn. unfold two64. lia.
  - reflexivity.
  - apply sd_text; [apply ascii_texts; reflexivity | discriminate | apply (tp_string (st "hi")); unfold string_fields; lia|].
    apply sd_text; [apply ascii_texts; reflexivity | discriminate | apply (tp_str (st "there")); [left; split; reflexivity | vm_compute; discriminate]|].
    eapply sd_plain; [|apply sd_nil]. apply (pa_block txt_env txt_unit (somes txt_locals) 4096 (fun _ _ => []) (heap_mem heap0) (EVariable (st "i")) 4088 u32t 4 txt_i eq_refl). u64_.
  - unfold heap_room, heap_end, two64. cbn. lia.
  - reflexivity.
  - u64_.
  - inversion Se as [|e c es ps cs1 P _|x1 ty1 a1 z1 es1 n1 ps1 cs1 T1 Z1 Se1]; subst; [exfalso; exact (no_text_place _ _ _ _ _ _ _ _ P)|].
    inversion Se1 as [|e c es ps cs2 P _|x2 ty2 a2 z2 es2 n2 ps2 cs2 T2 Z2 Se2]; subst; [exfalso; exact (no_text_place _ _ _ _ _ _ _ _ P)|].
    inversion Se2 as [|e c es ps cs3 P Se3|]; subst. inversion Se3; subst. 
    assert (Ec : c = ((st "struct Arg_4", st "*((struct Arg_4*)0xff8)"), [4])) by exact (one_number _ _ _ _ _ _ _ 4088 _ _ P only_i eq_refl). subst c. injection Z1 as <-. injection Z2 as <-.
    exists s2, a1, a2. split; [exact C|]. split; [exact T1|]. split; [exact T2|]. eapply (K _ (txt_value 8192) (called s2)); [| |apply txt_outcome].
    + eexists [_; _; _]. split; [change (distinct _) with [24; 16; 4]; repeat (apply Forall2_cons; [reflexivity|]); apply Forall2_nil | reflexivity].
    + reflexivity.
Qed.
Print Assumptions greet_printed.
(** rd eval p.tag("a b") *)
Definition txt_methods : list dmethod := Eval vm_compute in match BinaryModel.discover_methods 40 8 txt_binary plain_externals (fun s => s) point_t with Ok l => l | _ => [] end.
Lemma txt_lists : methods_are plain_externals (fun s => s) txt_binary point_t txt_methods.
Proof.
  exists 8%nat. intros k Hk. exists 40%nat. intros n Hn. replace n with (40 + (n - 40))%nat by lia. replace k with (8 + (k - 8))%nat by lia. generalize (n - 40)%nat, (k - 8)%nat. intros a b. vm_compute. reflexivity.
Qed.
Definition tag_method : dmethod := Eval vm_compute in hd (DMethod [] [] [] 0 None false false None []) txt_methods.
Example tag_printed : exists s2 a, carries heap_lldb heap_mem heap0 s2 /\ text_at (heap_mem s2) string_type (st "a b") a /\
  txt_leaves [st "p.tag(""a"; st "b"")"] [st "type: u32"; st "value: 7"] (called s2).
Proof.
  destruct (method_call_with_texts app_map txt_fs (fun l => l) plain_externals isort None (fun s => s) (fun _ _ => []) (fun _ => false) isort_sorts hstate heap_lldb heap_mem heap_room heap0 (st "/app/bin") txt_binary txt_tables
    heap_fits heap_has eq_refl eq_refl eq_refl eq_refl ltac:(apply ascii_texts; reflexivity) txt_opened eq_refl ltac:(apply Forall_cons; [exact txt_well | apply Forall_nil]) txt_apart
    txt_file txt_unit go_die txt_env [] txt_locals 6 4096 [st "p.tag(""a"; st "b"")"] (EVariable (st "p")) 4032 point_t (st "tag") [EString (st "a b")] txt_methods tag_method txt_file txt_unit txt_env (Some 4) (27 + 0) txt_stopped)
    as (s2 & cs & C & Se & K).
  - discriminate.
  - repeat (apply Forall_cons; [apply ascii_texts; reflexivity|]). apply Forall_nil.
  - vm_compute. reflexivity.
  - exact txt_p.
  - u64_.
  - intros names H. cbn in H. subst names. intros [].
  - exact txt_lists.
  - exists [], (tl txt_methods). split; [reflexivity|]. split; [split; [exists Borrowed; reflexivity | reflexivity] | constructor].
  - cbn. unfold two64. lia.
  - left. reflexivity.
  - left. reflexivity.
  - exact txt_view.
  - apply sd_text; [apply ascii_texts; reflexivity | discriminate | apply (tp_string (st "a b")); unfold string_fields; lia | apply sd_nil].
  - unfold heap_room, heap_end, two64. cbn. lia.
  - reflexivity.
  - u64_.
  - inversion Se as [|e c es ps cs1 P _|x1 ty1 a1 z1 es1 n1 ps1 cs1 T1 Z1 Se1]; subst; [exfalso; exact (no_text_place _ _ _ _ _ _ _ _ P)|]. inversion Se1; subst. injection Z1 as <-.
    exists s2, a1. split; [exact C|]. split; [exact T1|]. eapply (K _ (txt_value 8192) (called s2)); [| |apply txt_outcome].
    + eexists [_]. split; [change (distinct _) with [24]; repeat (apply Forall2_cons; [reflexivity|]); apply Forall2_nil | reflexivity].
    + reflexivity.
Qed.
Print Assumptions tag_printed.
