(** A binary and a stopped target that meet the hypotheses of C110: a struct with a nested struct and arrays, and a reference to it. *)
From Coq Require Import Ascii String List ZArith NArith Lia Bool Arith Sorted Permutation.
From Verif Require Import Base NumText OMap AddrModel AddrSpec AddrProofs SymModel SymSpec SymProofs SymProps PathModel LinesModel LinesProps DieModel DieSpec ModuleModel ModuleSpec
  TypesModel ParserModel ParserSpec ParserProofs ResolveModel ResolveSpec ResolveProofs ResolveProps ResolveExample LocModel FnModel FnSpec FnProofs FnProps SourceModel LoadModel LoadProps LookupSpec BinaryModel BinarySpec BinaryProofs BinaryProps BinaryVars BinaryTypes.
From Verif Require Import ValueModel FormatSpec ExprModel ProcModel EvalModel ClientModel ClientSpec SessionModel SessionSpec WireProps RdProps SessionExample BinarySession BinaryExample BinarySpec DataSpec AccessProps PlainSpec BinaryEval MemExample.
From Verif Require Import ResolveExample.
From Verif Require Import ValueModel ParserModel Utf8.
Import ListNotations.
Open Scope Z_scope.

(** struct Inner { x: i32, ok: bool }  struct Outer { id: u32, inner: Inner, both: [Inner; 2], ns: [u32; 2] }
    fn run() { let o: Outer; let r: &Outer; let ns: [u32; 2]; let both: [Inner; 2];
               let g: Bag; let m: HashMap<String,u32>; let sl: &[u32]; let i: u32; let res: Result<u32,u32>; }
    struct Bag { items: Vec<u32>, name: String, opt: Option<u32> } *)
Definition run_die : die := fn 50 "app::run" 64 96 [vdecl 51 Tvariable "o" 90 4; vdecl 54 Tvariable "r" 110 5; vdecl 55 Tvariable "ns" 104 5; vdecl 56 Tvariable "both" 100 5; vdecl 57 Tvariable "g" 95 5; vdecl 58 Tvariable "m" 150 5; vdecl 59 Tvariable "sl" 195 5; vdecl 60 Tvariable "i" 10 5; vdecl 61 Tvariable "res" 200 5].
Definition inner_die : die := struct_ 80 "Inner" 8 [mem 81 "x" 0 11; mem 82 "ok" 4 12].
Definition outer_die : die := struct_ 90 "Outer" 40 [mem 91 "id" 0 10; mem 92 "inner" 8 80; mem 93 "both" 16 100; mem 94 "ns" 32 104].
Definition bag_die : die := struct_ 95 "Bag" 56 [mem 96 "items" 0 120; mem 97 "name" 24 145; mem 98 "opt" 48 180].
Definition std_dies : list die :=
  [ struct_ 120 "Vec<u32>" 24 [tpar 121 "T" 10; mem 122 "buf" 0 130; mem 123 "len" 16 13]; struct_ 130 "RawVec" 16 [mem 131 "inner" 0 135]
  ; struct_ 135 "RawVecInner" 16 [mem 136 "ptr" 0 15; mem 137 "cap" 8 138]; struct_ 138 "Cap" 8 [mem 139 "__0" 0 13]
  ; struct_ 140 "Vec<u8>" 24 [tpar 141 "T" 14; mem 142 "buf" 0 130; mem 143 "len" 16 13]; struct_ 145 "String" 24 [mem 146 "vec" 0 140]
  ; struct_ 150 "HashMap<String,u32>" 48 [tpar 151 "K" 145; tpar 152 "V" 10; mem 153 "base" 0 155]; struct_ 155 "hashbrown" 48 [mem 156 "table" 0 160]
  ; struct_ 160 "RawTable" 32 [tpar 161 "T" 170; mem 162 "table" 0 165]; struct_ 165 "RawTableInner" 32 [mem 166 "ctrl" 0 15; mem 167 "bucket_mask" 8 13; mem 168 "items" 24 13]
  ; struct_ 170 "(String, u32)" 32 [mem 171 "__0" 0 145; mem 172 "__1" 24 10]
  ; struct_ 180 "Option<u32>" 8 [vpart 181 182 [mem 182 "" 0 10; variant 183 0 "None" 191; variant 187 1 "Some" 189]]; struct_ 189 "Some" 8 [mem 190 "__0" 4 10]; struct_ 191 "None" 8 []
  ; struct_ 195 "&[u32]" 16 [mem 196 "data_ptr" 0 198; mem 197 "length" 8 13]; ptr 198 "*const u32" 10
  ; struct_ 200 "Result<u32,u32>" 8 [vpart 201 202 [mem 202 "" 0 10; variant 203 0 "Ok" 207; variant 205 1 "Err" 209]]; struct_ 207 "Ok" 8 [mem 208 "__0" 4 10]; struct_ 209 "Err" 8 [mem 210 "__0" 4 10] ].
Definition array_ (o ty n : Z) : die := nd o Tarray [(At_type, AUnitRef ty)] [nd (o + 1) Tsubrange [(At_count, AUdata n)] []].
Definition nest_die : die := Die (Entry 1 Tcompile_unit [(At_language, ALang 28)] (Ok [(64, 96)]))
  (Some ([base 10 "u32" 4; base 11 "i32" 4; base 12 "bool" 1; base 13 "u64" 8; base 14 "u8" 1; ptr 15 "*const u8" 14; nd 20 Tnamespace [nm "app"] [run_die; inner_die; outer_die; bag_die]; array_ 100 80 2; array_ 104 10 2; ptr 110 "&app::Outer" 90] ++ std_dies)).
Definition nest_unit : bunit :=
  BUnit nest_die 2 300 (Some (Some (st "/build/app")))
    (Some (false, [FEntry (Some (st "src")) (Some (st "main.rs"))], None, [Row 64 1 (Some 3) 0 false; Row 68 1 (Some 6) 9 false; Row 96 1 None 0 true]))
    (fun h => if h =? 51 then Some [OFbreg (-64)] else if h =? 54 then Some [OFbreg (-8)] else if h =? 55 then Some [OFbreg (-16)] else if h =? 56 then Some [OFbreg (-48)] else if h =? 57 then Some [OFbreg (-192)] else if h =? 58 then Some [OFbreg (-128)] else if h =? 59 then Some [OFbreg (-80)]
      else if h =? 60 then Some [OFbreg (-200)] else if h =? 61 then Some [OFbreg (-208)] else None) (fun h => Some [OReg 6]).
Definition nest_object : object := Object true [mk_raw (Some (st "app::run")) 4160 true] [] [] [nest_unit].
Definition nest_fs (p : fpath) : option stored := if fpath_eqb p (pth ["app"; "bin"]%string) then Some (Stored (Some nest_object) None) else None.
Definition nest_file : bfile := BFile 0 false [nest_unit].
Definition nest_tables : list (N * list raw_entry) := [(0%N, ob_symbols nest_object)].
Definition nest_binary : binary := Binary (index_symbol_map plain_externals nest_tables) [nest_file] [nest_file].
Example nest_opened : open_binary app_map nest_fs (fun l => l) plain_externals (components (st "/app/bin")) = Ok nest_binary.
Proof. vm_compute. reflexivity. Qed.
Definition s_run : symbol := mk_symbol (mk_sname (st "run") [] [st "app"] (st "app::run")) 4160 0.
Definition nest_history : list (bool * list N * symbol) := [(true, st "app::run", s_run)].
Example nest_indexed : history plain_externals nest_tables = nest_history.
Proof. vm_compute. reflexivity. Qed.
Definition nest_seen : list die := Eval vm_compute in visible (units_of nest_file).
Example nest_visible : visible (units_of nest_file) = nest_seen.
Proof. vm_compute. reflexivity. Qed.
Lemma linked_run : linked nest_history nest_file run_die s_run.
Proof.
  exists true, (st "app::run"), (st "app::run"). split; [reflexivity|]. split; [reflexivity|]. split; [reflexivity|]. exists [], []. split; [reflexivity|]. split; [split; reflexivity|]. intros e [].
Qed.
Lemma nest_linked d s : In d (visible (units_of nest_file)) -> linked nest_history nest_file d s -> d = run_die /\ s = s_run.
Proof.
  rewrite nest_visible. intros Hd (b & raw & link & Tg & Ln & Rw & La). apply is_last_in in La. destruct La as [He [_ Er]]. cbn [fst snd] in Er.
  unfold nest_seen in Hd. repeat (destruct Hd as [<- | Hd]; [try discriminate Tg|]); try contradiction Hd. injection Ln as <-. split; [reflexivity|].
  destruct He as [He | []]. exact (eq_sym (f_equal snd He)).
Qed.
Example nest_readable : readable_file nest_history nest_file.
Proof.
  split; [|split].
  - repeat constructor. eexists. reflexivity.
  - rewrite nest_visible. unfold nest_seen. repeat (apply Forall_cons; [intros T; try discriminate T; exact Logic.I|]). apply Forall_nil.
  - intros d s lo hi Hd L R. destruct (nest_linked d s Hd L) as [-> ->]. injection R as <- <-. unfold two64. cbn. lia.
Qed.
Example nest_distinct : distinct_dies nest_file.
Proof.
  intros u1 u2 d1 d2 [<- | []] [<- | []] T1 T2 E. split; [reflexivity|]. apply subtrees_in in T1, T2. exact (distinct_inj h_of (subtrees nest_die) d1 d2 eq_refl T1 T2 E).
Qed.
Example fn_run : function_of nest_history nest_file (sym_name s_run) run_die s_run.
Proof.
  exists (firstn 7 nest_seen), (skipn 8 nest_seen). split; [rewrite nest_visible; reflexivity|]. split; [exact linked_run|]. split; [reflexivity|]. intros d s Hd L.
  assert (V : In d (visible (units_of nest_file))) by (rewrite nest_visible, <- (firstn_skipn 8 nest_seen); apply in_or_app; right; exact Hd). destruct (nest_linked d s V L) as [-> _]. exfalso. cbn in Hd. repeat (destruct Hd as [E | Hd]; [discriminate E|]). exact Hd.
Qed.
Example nest_attributed : attributed app_map nest_history nest_binary 4164 s_run (pth ["home"; "u"; "app"; "src"; "main.rs"]%string, 6, Some 9).
Proof.
  exists s_run, nest_file, run_die, 64, 96, run_die, s_run, nest_unit. split; [|split; [|split; [|split; [|split; [|split; [|split; [|split; [|split; [|split]]]]]]]]].
  - split; [left; reflexivity|]. split; [cbn; lia|]. intros y [<- | []]; cbn; lia.
  - intros y [[<- | []] _]; reflexivity.
  - reflexivity.
  - exact nest_readable.
  - exact nest_distinct.
  - split; [rewrite nest_visible; cbn; tauto|]. split; [exact linked_run|]. split; [reflexivity | cbn; lia].
  - intros d' s' lo' hi' (Hd & L & R & C). destruct (nest_linked d' s' Hd L) as [-> ->]. auto.
  - exact fn_run.
  - left. reflexivity.
  - apply subtrees_in. vm_compute. tauto.
  - eexists false, _, None, _, [Row 64 1 (Some 3) 0 false], (Row 68 1 (Some 6) 9 false), _, _, _, 6. split; [reflexivity|]. split; [reflexivity|]. split; [reflexivity|]. split; [reflexivity|]. split; [reflexivity|]. split; [reflexivity|].
    split; [vm_compute; reflexivity|]. split; [reflexivity|]. intros q [<- | []] (_ & A & _). discriminate A.
Qed.
Definition nest_ranges : list mrange := Eval vm_compute in fst (file_modules 40 nest_file).
Definition nest_env : env := Env nest_die nest_ranges parse_name.
Example nest_view : unit_view nest_file nest_unit nest_env.
Proof. exists 40%nat. intros n Hn. replace n with (40 + (n - 40))%nat by lia. generalize (n - 40)%nat as m. intros m. unfold unit_env, nest_env. f_equal. Qed.
Definition i32t : tdef := TD (LInt 4) (Some 11).
Definition boolt : tdef := TD LBool (Some 12).
Definition alias (s : string) (h : Z) : tdef := TD (LAlias (st s)) (Some h).
Definition inner_t : tdef := TD (LStruct (st "Inner") 8 8 [(st "x", 0, i32t); (st "ok", 4, boolt)]) (Some 80).
Definition two_inner : tdef := TD (LArray (alias "Inner" 80) 2) (Some 100).
Definition two_u32 : tdef := TD (LArray u32t 2) (Some 104).
Definition outer_t : tdef := TD (LStruct (st "Outer") 40 8 [(st "id", 0, u32t); (st "inner", 8, alias "Inner" 80); (st "both", 16, alias "unknown" 100); (st "ns", 32, alias "unknown" 104)]) (Some 90).
Definition ref_t : tdef := TD (LReference false (alias "Outer" 90)) (Some 110).
Definition vec_t : tdef := TD (LVec 16 0 8 u32t) (Some 120).
Definition string_t : tdef := TD (LString 16 0 8 (TD (LUInt 1) (Some 14))) (Some 145).
Definition opt_t : tdef := TD (LOption (st "Option<u32>") (Disc (DUInt 4) 0) 4 u32t 8) (Some 180).
Definition map_t : tdef := TD (LMap string_t u32t (HashMap 8 0 24 32 0 24)) (Some 150).
Definition slice_t : tdef := TD (LSlice u32t 0 8) (Some 195).
Definition res_t : tdef := TD (LResult (st "Result<u32,u32>") (Disc (DUInt 4) 0) u32t 4 u32t 4 8) (Some 200).
Definition bag_t : tdef := TD (LStruct (st "Bag") 56 8 [(st "items", 0, vec_t); (st "name", 24, string_t); (st "opt", 48, opt_t)]) (Some 95).
Example bag_resolves : resolves_fully nest_env 95 bag_t.
Proof. exists 8%nat. vm_compute. reflexivity. Qed.
Example nest_resolves : resolves_fully nest_env 80 inner_t /\ resolves_fully nest_env 90 outer_t /\ resolves_fully nest_env 100 two_inner /\ resolves_fully nest_env 104 two_u32.
Proof. repeat apply conj; exists 5%nat; vm_compute; reflexivity. Qed.
Definition nest_locals : list (option var) :=
  [Some (Var (Some (st "o")) (alias "Outer" 90) (here 4) 51); Some (Var (Some (st "r")) ref_t (here 5) 54); Some (Var (Some (st "ns")) (alias "unknown" 104) (here 5) 55); Some (Var (Some (st "both")) (alias "unknown" 100) (here 5) 56);
   Some (Var (Some (st "g")) (alias "Bag" 95) (here 5) 57); Some (Var (Some (st "m")) map_t (here 5) 58); Some (Var (Some (st "sl")) slice_t (here 5) 59); Some (Var (Some (st "i")) u32t (here 5) 60); Some (Var (Some (st "res")) res_t (here 5) 61)].
Lemma nest_var o t s h ty line : shallow 5 nest_env h = Ok ty -> var_says nest_env (decl_path app_map nest_unit) (vdecl o t s h line) (Var (Some (st s)) ty (here line) o).
Proof.
  intros R. unfold var_says. cbn [va_name va_ty va_loc va_die here]. split; [apply ex_attr; reflexivity|].
  split; [exists h; split; [apply ex_attr; reflexivity | exists 5%nat; exact R]|]. split; [|reflexivity].
  exists 1. split; [apply ex_attr; reflexivity|]. split; [vm_compute; reflexivity|]. left. apply ex_attr. reflexivity.
Qed.
Example nest_says : function_says app_map nest_env nest_unit run_die [] nest_locals.
Proof. split; repeat (apply Forall2_cons; [constructor; apply nest_var; vm_compute; reflexivity|]); apply Forall2_nil. Qed.
Example nest_attrs : readable_attrs nest_unit.
Proof.
  intros d a x T H. apply subtrees_in in T. assert (G : forallb (fun d => forallb (fun p => attr_okb (snd p)) (e_attrs (d_entry d))) (subtrees nest_die) = true) by (vm_compute; reflexivity).
  rewrite forallb_forall in G. specialize (G d T). rewrite forallb_forall in G. specialize (G (a, x) H). cbn [snd] in G.
  destruct x; cbn in G |- *; auto; apply andb_true_iff in G; destruct G as [A1 A2]; apply Z.leb_le in A1; apply Z.ltb_lt in A2; unfold in_u64; lia.
Qed.
Example nest_described : described app_map nest_history nest_binary (sym_name s_run) s_run nest_file nest_unit run_die nest_env [] nest_locals.
Proof.
  split; try reflexivity.
  - exists [], []. split; [reflexivity|]. split; [reflexivity|]. intros y [].
  - exact nest_readable.
  - exact nest_distinct.
  - left. reflexivity.
  - apply subtrees_in. vm_compute. tauto.
  - exists s_run. exact fn_run.
  - exact nest_attrs.
  - exact nest_view.
  - exact nest_says.
Qed.
Example nest_well : well_formed nest_file.
Proof.
  split; [|split; [exact nest_distinct | intros u [<- | []]; exact nest_attrs]].
  exists (fun _ => bu_length nest_unit). split; [intros u [<- | []]; reflexivity|]. split; [|split; exact Logic.I]. split; [reflexivity|]. split; [|split].
  - assert (O : forall e k, is_namespace e = false -> forallb (fun x => negb (is_namespace x)) (entries_list (match k with Some l => l | None => [] end)) = true -> ns_tree (Die e k)).
    { intros e k N F. apply ns_tree_other; [exact N|]. rewrite forallb_forall in F. apply Forall_forall. intros x Hx. apply F in Hx. destruct (is_namespace x); [discriminate | reflexivity]. }
    cbn [nest_unit bu_die]. unfold nest_die, nd. cbn [d_kids app].
    repeat (apply Forall_cons; [first [apply O; reflexivity | apply ns_tree_ns; [reflexivity | discriminate|]; repeat (apply Forall_cons; [apply O; reflexivity|]); apply Forall_nil]|]). apply Forall_nil.
  - cbn. repeat (apply SSorted_cons || apply SSorted_nil || apply Forall_cons || apply Forall_nil); unfold by_offset; cbn; lia.
  - intros x Hx. cbn in Hx. repeat destruct Hx as [<- | Hx]; cbn; lia.
Qed.
Lemma nest_apart : apart [nest_file].
Proof. intros f1 f2 w1 w2 d1 d2 [<- | []] [<- | []] _ _ _ _ _. reflexivity. Qed.

(** LLDB stopped there: the frame base is 4096, [o] at 4032, [r] at 4088, [ns] at 4080, [both] at 4048, [g] at 3904, [m] at 3968,
    [sl] at 4016, [i] at 3896, [res] at 3888. *)
Definition nest_regions : list (Z * list Z) :=
  [ (3888, [1; 0; 0; 0;  3; 0; 0; 0]); (3896, [1; 0; 0; 0])
  ; (3904, [0; 32; 0; 0; 0; 0; 0; 0;  2; 0; 0; 0; 0; 0; 0; 0;  2; 0; 0; 0; 0; 0; 0; 0])
  ; (3928, [16; 32; 0; 0; 0; 0; 0; 0;  2; 0; 0; 0; 0; 0; 0; 0;  2; 0; 0; 0; 0; 0; 0; 0])
  ; (3952, [1; 0; 0; 0; 9; 0; 0; 0])
  ; (3968, [0; 33; 0; 0; 0; 0; 0; 0;  3; 0; 0; 0; 0; 0; 0; 0;  0; 0; 0; 0; 0; 0; 0; 0;  2; 0; 0; 0; 0; 0; 0; 0])
  ; (4016, [0; 32; 0; 0; 0; 0; 0; 0;  2; 0; 0; 0; 0; 0; 0; 0])
  ; (4032, [7; 0; 0; 0;  0; 0; 0; 0;  251; 255; 255; 255;  1; 0; 0; 0;  1; 0; 0; 0;  0; 0; 0; 0;  2; 0; 0; 0;  1; 0; 0; 0;  10; 0; 0; 0;  11; 1; 0; 0])
  ; (4080, [3; 0; 0; 0;  4; 0; 0; 0;  192; 15; 0; 0; 0; 0; 0; 0])
  ; (8192, [5; 0; 0; 0;  6; 0; 0; 0]); (8208, [104; 105]); (8216, [97]); (8217, [98])
  ; (8352, [25; 32; 0; 0; 0; 0; 0; 0;  1; 0; 0; 0; 0; 0; 0; 0;  1; 0; 0; 0; 0; 0; 0; 0;  2; 0; 0; 0])
  ; (8416, [24; 32; 0; 0; 0; 0; 0; 0;  1; 0; 0; 0; 0; 0; 0; 0;  1; 0; 0; 0; 0; 0; 0; 0;  1; 0; 0; 0])
  ; (8448, [17; 255; 18; 255]) ].
Definition nest_mem : memory := mem_of nest_regions.
Definition nest_memory (a n : Z) : option (list Z) := read_bytes nest_mem a (Z.to_nat n).
Lemma nest_served : served nest_memory nest_mem.
Proof. intros a bs _ [_ H]. unfold nest_memory. rewrite Nat2Z.id. apply read_bytes_holds. exact H. Qed.
Lemma region_bytes rs : forallb (fun r => forallb (fun b => (0 <=? b) && (b <? 256)) (snd r)) rs = true -> forall a b, mem_of rs a = Some b -> byte b.
Proof.
  induction rs as [|[q bs] rs IH]; intros H a b E; [discriminate|]. cbn [forallb snd] in H. apply andb_true_iff in H. destruct H as [H1 H2]. cbn [mem_of] in E. destruct ((q <=? a) && _); [|exact (IH H2 a b E)].
  apply nth_error_In in E. rewrite forallb_forall in H1. specialize (H1 b E). apply andb_true_iff in H1. destruct H1 as [G1 G2]. apply Z.leb_le in G1. apply Z.ltb_lt in G2. unfold byte. lia.
Qed.
Lemma nest_read n : forall a d, read_bytes nest_mem a n = Some d -> Forall byte d.
Proof.
  induction n as [|n IH]; intros a d H; cbn [read_bytes] in H; [injection H as <-; constructor|]. destruct (nest_mem a) as [b|] eqn:E; [|discriminate]. destruct (read_bytes nest_mem (a + 1) n) as [l|] eqn:R; [|discriminate]. injection H as <-.
  constructor; [|exact (IH _ _ R)]. apply (region_bytes nest_regions eq_refl a b E).
Qed.
Definition nest_lldb : debugger nat := Debugger nat (fun _ => true) (fun _ => true) (fun _ => true) (fun _ => true) (fun _ => nest_memory)
  (fun _ => registers0) (fun _ => 4164) (fun _ => 0) (fun _ => 0) (fun _ => 77) (fun _ => st "main") (fun _ => Some 65536)
  (fun n e => (EvRes true false 8192 (two64 - 1) 4096 (st "5"), S n)) (fun _ x => None) (fun n _ _ => (true, S n)) (fun _ => st "error").
Example nest_fits : debugger_fits nest_lldb.
Proof.
  split; cbn -[str_eqb st nest_memory].
  - intros _ a n d. unfold nest_memory. apply nest_read.
  - intros _. repeat constructor; cbn; unfold two64; lia.
  - intros _. repeat split; unfold two64; lia.
  - intros _. split; [split; unfold two64; lia | apply ascii_texts; reflexivity].
  - intros _ a H. injection H as <-. split; unfold two64; lia.
  - intros n e v s1 H. injection H as <- _. repeat split; unfold two64; cbn; try lia. apply ascii_texts; reflexivity.
  - intros _ x t H. discriminate.
  - intros _. apply ascii_texts; reflexivity.
Qed.
Lemma nest_stopped : stopped app_map plain_externals nest_lldb 0%nat nest_binary nest_tables nest_file nest_unit run_die nest_env [] nest_locals 6 4096.
Proof.
  exists s_run, (pth ["home"; "u"; "app"; "src"; "main.rs"]%string, 6, Some 9), s_run. split; [exact nest_attributed|]. split; [exact nest_described|]. split; [reflexivity|]. split; [unfold u64, two64; lia | reflexivity].
Qed.
Definition nest_stands : expr -> Z -> tdef -> Prop := stands nest_env nest_unit (somes nest_locals) 4096 (fun _ _ => []) nest_mem.
Definition nest_found : nat -> Z -> tdef -> value -> Prop := found nest_env (fun _ _ => []) nest_mem.
Lemma nest_o : nest_stands (EVariable (st "o")) 4032 outer_t.
Proof.
  apply (st_variable nest_env nest_unit (somes nest_locals) 4096 (fun _ _ => []) nest_mem (st "o") (Var (Some (st "o")) (alias "Outer" 90) (here 4) 51) (-64)); [|reflexivity | exists 90; split; [reflexivity | apply nest_resolves]].
  eexists [], _. split; [reflexivity|]. split; [reflexivity | constructor].
Qed.
Lemma nest_r : nest_stands (EVariable (st "r")) 4088 ref_t.
Proof.
  apply (st_variable nest_env nest_unit (somes nest_locals) 4096 (fun _ _ => []) nest_mem (st "r") (Var (Some (st "r")) ref_t (here 5) 54) (-8)); [|reflexivity | reflexivity].
  eexists [_], _. split; [reflexivity|]. split; [reflexivity|]. repeat constructor. discriminate.
Qed.
Lemma nest_both : nest_stands (EVariable (st "both")) 4048 two_inner.
Proof.
  apply (st_variable nest_env nest_unit (somes nest_locals) 4096 (fun _ _ => []) nest_mem (st "both") (Var (Some (st "both")) (alias "unknown" 100) (here 5) 56) (-48)); [|reflexivity | exists 100; split; [reflexivity | apply nest_resolves]].
  eexists [_; _; _], _. split; [reflexivity|]. split; [reflexivity|]. repeat constructor; discriminate.
Qed.
Lemma nest_inner : nest_stands (EField (EVariable (st "o")) (st "inner")) 4040 (alias "Inner" 80).
Proof.
  apply (st_field nest_env nest_unit (somes nest_locals) 4096 (fun _ _ => []) nest_mem (EVariable (st "o")) 4032 outer_t (st "Outer") 40 8 [(st "id", 0, u32t); (st "inner", 8, alias "Inner" 80); (st "both", 16, alias "unknown" 100); (st "ns", 32, alias "unknown" 104)] (st "inner") (st "inner", 8, alias "Inner" 80) nest_o eq_refl); [|unfold u64, two64; cbn; lia].
  eexists [_], _. split; [reflexivity|]. split; [reflexivity|]. repeat constructor. discriminate.
Qed.
Lemma nest_ns : nest_stands (EField (EVariable (st "o")) (st "ns")) 4064 (alias "unknown" 104).
Proof.
  apply (st_field nest_env nest_unit (somes nest_locals) 4096 (fun _ _ => []) nest_mem (EVariable (st "o")) 4032 outer_t (st "Outer") 40 8 [(st "id", 0, u32t); (st "inner", 8, alias "Inner" 80); (st "both", 16, alias "unknown" 100); (st "ns", 32, alias "unknown" 104)] (st "ns") (st "ns", 32, alias "unknown" 104) nest_o eq_refl); [|unfold u64, two64; cbn; lia].
  eexists [_; _; _], _. split; [reflexivity|]. split; [reflexivity|]. repeat constructor; discriminate.
Qed.
(** The value of [o]: fields by name. *)
Definition inner_v (x : string) (ok : string) : value := VStruct (st "Inner") [(st "ok", VScalar (st "bool") (st ok)); (st "x", VScalar (st "i32") (st x))].
Definition outer_v : value := VStruct (st "Outer")
  [(st "both", VArray (st "[Inner; 2]") [inner_v "1" "false"; inner_v "2" "true"]); (st "id", VScalar (st "u32") (st "7")); (st "inner", inner_v "-5" "true");
   (st "ns", VArray (st "[u32; 2]") [VScalar (st "u32") (st "10"); VScalar (st "u32") (st "267")])].
Ltac u64_ := unfold u64, two64; cbn; lia.
Lemma holds_dec a n x : holds nest_mem a (encode (Z.to_nat n) x) -> 0 <= x < 2 ^ (8 * n) -> holds_uint nest_mem a n x.
Proof. split; assumption. Qed.
Lemma found_u32 j a x : u64 a -> holds_uint nest_mem a 4 x -> nest_found j a u32t (VScalar (st "u32") (dec x)).
Proof. intros U M. apply (fo_unsigned nest_env (fun _ _ => []) nest_mem j a u32t 4 x); [reflexivity | cbn; tauto | exact U | exact M]. Qed.
Lemma found_inner j a x b n ok : (4 <= j)%nat -> u64 a -> u64 (a + 4) -> holds_int nest_mem a 4 x -> st n = dec x ->
  holds_uint nest_mem (a + 4) 1 b -> st ok = (if b =? 0 then st "false" else st "true") -> nest_found j a inner_t (inner_v n ok).
Proof.
  intros Hj U U4 M En M4 Eo. destruct j as [|[|j]]; [lia | lia|].
  apply (fo_struct nest_env (fun _ _ => []) nest_mem j a inner_t (st "Inner") 8 8 [(st "x", 0, i32t); (st "ok", 4, boolt)] [(st "ok", 4, boolt); (st "x", 0, i32t)]); [reflexivity | apply perm_swap | repeat constructor |].
  apply Forall2_cons; [|apply Forall2_cons; [|apply Forall2_nil]]; (split; [reflexivity|]); cbn [f_offset f_type fst snd].
  - split; [exact U4|]. rewrite Eo. apply fo_bool; [reflexivity | exact U4 | exact M4].
  - rewrite Z.add_0_r. split; [exact U|]. rewrite En. apply (fo_signed nest_env (fun _ _ => []) nest_mem j a i32t 4 x); [reflexivity | cbn; tauto | exact U | exact M].
Qed.
Lemma found_outer : nest_found 8 4032 outer_t outer_v.
Proof.
  apply (fo_struct nest_env (fun _ _ => []) nest_mem 6 4032 outer_t (st "Outer") 40 8 [(st "id", 0, u32t); (st "inner", 8, alias "Inner" 80); (st "both", 16, alias "unknown" 100); (st "ns", 32, alias "unknown" 104)] [(st "both", 16, alias "unknown" 100); (st "id", 0, u32t); (st "inner", 8, alias "Inner" 80); (st "ns", 32, alias "unknown" 104)]); [reflexivity | | repeat constructor |].
  - apply Permutation_sym. change ([(st "both", 16, alias "unknown" 100); (st "id", 0, u32t); (st "inner", 8, alias "Inner" 80)] ++ [(st "ns", 32, alias "unknown" 104)]) with
      ((st "both", 16, alias "unknown" 100) :: [(st "id", 0, u32t); (st "inner", 8, alias "Inner" 80)] ++ [(st "ns", 32, alias "unknown" 104)]).
    apply (Permutation_middle [(st "id", 0, u32t); (st "inner", 8, alias "Inner" 80)] [(st "ns", 32, alias "unknown" 104)] (st "both", 16, alias "unknown" 100)).
  - apply Forall2_cons; [|apply Forall2_cons; [|apply Forall2_cons; [|apply Forall2_cons; [|apply Forall2_nil]]]]; (split; [reflexivity|]); (split; [u64_|]); cbn [f_offset f_type fst snd].
    + apply (fo_declared nest_env (fun _ _ => []) nest_mem 6 4048 (alias "unknown" 100) (st "unknown") 100 two_inner); [reflexivity | reflexivity | apply nest_resolves|].
      apply (fo_array nest_env (fun _ _ => []) nest_mem 4 4048 two_inner (alias "Inner" 80) inner_t 2 8); [reflexivity | exists 80; split; [reflexivity | apply nest_resolves] | reflexivity | lia | u64_ | u64_|].
      apply Forall2_cons; [|apply Forall2_cons; [|apply Forall2_nil]].
      * apply (found_inner 4 4048 1 0); [lia | u64_ | u64_ | mem | reflexivity | mem | reflexivity].
      * apply (found_inner 4 4056 2 1); [lia | u64_ | u64_ | mem | reflexivity | mem | reflexivity].
    + apply (found_u32 6 4032 7); [u64_ | mem].
    + apply (fo_declared nest_env (fun _ _ => []) nest_mem 6 4040 (alias "Inner" 80) (st "Inner") 80 inner_t); [reflexivity | reflexivity | apply nest_resolves|].
      apply (found_inner 6 4040 (-5) 1); [lia | u64_ | u64_ | mem | reflexivity | mem | reflexivity].
    + apply (fo_declared nest_env (fun _ _ => []) nest_mem 6 4064 (alias "unknown" 104) (st "unknown") 104 two_u32); [reflexivity | reflexivity | apply nest_resolves|].
      apply (fo_array nest_env (fun _ _ => []) nest_mem 4 4064 two_u32 u32t u32t 2 4); [reflexivity | reflexivity | reflexivity | lia | u64_ | u64_|].
      apply Forall2_cons; [|apply Forall2_cons; [|apply Forall2_nil]]; [apply (found_u32 4 4064 10) | apply (found_u32 4 4068 267)]; [u64_ | mem | u64_ | mem].
Qed.
Definition nest_prints (words : list str) (lines : list str) : Prop := exists k0, forall k, (k0 <= k)%nat -> exists n0, forall n, (n0 <= n)%nat ->
  prints app_map nest_fs (fun l => l) plain_externals isort None (fun s => s) (fun _ _ => []) (fun _ => false) nest_lldb 0%nat (st "/app/bin") n k words lines.
Lemma one_line_b x : forallb (fun c => negb (N.eqb c 10) && negb (N.eqb c 13)) x = true -> one_line x.
Proof. intros H. rewrite forallb_forall in H. split; intros I; specialize (H _ I); discriminate H. Qed.
Ltac tidy_ := repeat first [apply ti_scalar; [apply one_line_b; reflexivity | discriminate] | apply ti_array | apply ti_struct; [apply one_line_b; reflexivity|] | apply Forall_nil | apply Forall_cons | apply conj; [apply one_line_b; reflexivity|]].
Lemma nest_printed words e a ty w : words <> [] -> Forall text words -> parse_expression (Base.join (st " ") words) = Ok e -> nest_stands e a ty -> nest_found 8 a ty w ->
  tidy w -> text (tname ty) -> Forall text (shown w) -> nest_prints words [st "type: " ++ tname ty; st "value: " ++ Base.join [lf] (shown w)].
Proof.
  intros Na Ta Pe Sd Fo Ti Tt Tw. refine (plain_value_printed_partial app_map nest_fs (fun l => l) plain_externals isort None (fun s => s) (fun _ _ => []) (fun _ => false) isort_sorts nat nest_lldb 0%nat (st "/app/bin") nest_binary nest_tables
    nest_fits eq_refl eq_refl eq_refl eq_refl ltac:(apply ascii_texts; reflexivity) nest_opened eq_refl ltac:(apply Forall_cons; [exact nest_well | apply Forall_nil]) nest_apart nest_mem nest_file nest_unit run_die nest_env [] nest_locals 6 4096 words e a ty w
    nest_served nest_stopped Na Ta Pe Sd Fo Ti Tt Tw).
Qed.
(** rd eval o *)
Example outer_printed : nest_prints [st "o"] [st "type: Outer"; st "value: " ++ Base.join [lf]
  [ st "Outer {"
  ; st "  both: ["; st "    Inner {"; st "      ok: false,"; st "      x: 1"; st "    },"; st "    Inner {"; st "      ok: true,"; st "      x: 2"; st "    }"; st "  ],"
  ; st "  id: 7,"; st "  inner: Inner {"; st "    ok: true,"; st "    x: -5"; st "  },"; st "  ns: ["; st "    10,"; st "    267"; st "  ]"; st "}" ]].
Proof.
  apply (nest_printed [st "o"] (EVariable (st "o")) 4032 outer_t outer_v); [discriminate | apply Forall_cons; [apply ascii_texts; reflexivity | apply Forall_nil] | vm_compute; reflexivity | exact nest_o | exact found_outer | unfold outer_v, inner_v; tidy_ | apply ascii_texts; reflexivity|].
  apply Forall_forall. intros x Hx. apply ascii_texts. revert x Hx. apply forallb_forall. vm_compute. reflexivity.
Qed.
(** rd eval r: the same behind the reference; rd eval o.inner. *)
Example inner_printed : nest_prints [st "o.inner"] [st "type: Inner"; st "value: " ++ Base.join [lf] [st "Inner {"; st "  ok: true,"; st "  x: -5"; st "}"]].
Proof.
  apply (nest_printed [st "o.inner"] (EField (EVariable (st "o")) (st "inner")) 4040 (alias "Inner" 80) (inner_v "-5" "true")); [discriminate | apply Forall_cons; [apply ascii_texts; reflexivity | apply Forall_nil] | vm_compute; reflexivity | exact nest_inner | | unfold inner_v; tidy_ | apply ascii_texts; reflexivity|].
  - apply (fo_declared nest_env (fun _ _ => []) nest_mem 8 4040 (alias "Inner" 80) (st "Inner") 80 inner_t); [reflexivity | reflexivity | apply nest_resolves|].
    apply (found_inner 8 4040 (-5) 1); [lia | u64_ | u64_ | mem | reflexivity | mem | reflexivity].
  - apply Forall_forall. intros x Hx. apply ascii_texts. revert x Hx. apply forallb_forall. vm_compute. reflexivity.
Qed.
Example reference_printed : nest_prints [st "r"] [st "type: " ++ tname ref_t; st "value: " ++ Base.join [lf] (shown (behind_ref outer_v))].
Proof.
  apply (nest_printed [st "r"] (EVariable (st "r")) 4088 ref_t (behind_ref outer_v)); [discriminate | apply Forall_cons; [apply ascii_texts; reflexivity | apply Forall_nil] | vm_compute; reflexivity | exact nest_r | | unfold outer_v, inner_v; cbn [behind_ref retyped]; tidy_ | apply ascii_texts; reflexivity|].
  - apply (fo_reference nest_env (fun _ _ => []) nest_mem 8 4088 ref_t false (alias "Outer" 90) 4032); [reflexivity | u64_ | mem|].
    apply (fo_declared nest_env (fun _ _ => []) nest_mem 8 _ (alias "Outer" 90) (st "Outer") 90 outer_t); [reflexivity | reflexivity | apply nest_resolves | exact found_outer].
  - apply Forall_forall. intros x Hx. apply ascii_texts. revert x Hx. apply forallb_forall. vm_compute. reflexivity.
Qed.
(** rd eval o.inner.x, r.id, both[0], o.ns[0] are refused. *)
Example nested_refused : forall words e a ty, In (words, e, a, ty)
    [ ([st "o.inner.x"], EField (EVariable (st "o")) (st "inner"), 4040, alias "Inner" 80); ([st "r.id"], EVariable (st "r"), 4088, ref_t)
    ; ([st "both[0]"], EVariable (st "both"), 4048, two_inner); ([st "o.ns[0]"], EField (EVariable (st "o")) (st "ns"), 4064, alias "unknown" 104) ] ->
  exists k0, forall k, (k0 <= k)%nat -> exists n0, forall n, (n0 <= n)%nat -> exists m,
  prints app_map nest_fs (fun l => l) plain_externals isort None (fun s => s) (fun _ _ => []) (fun _ => false) nest_lldb 0%nat (st "/app/bin") n k words [st "Error: " ++ m].
Proof.
  intros words e a ty H. refine (nested_place_refuted app_map nest_fs (fun l => l) plain_externals isort None (fun s => s) (fun _ _ => []) (fun _ => false) isort_sorts nat nest_lldb 0%nat (st "/app/bin") nest_binary nest_tables
    nest_fits eq_refl eq_refl eq_refl eq_refl ltac:(apply ascii_texts; reflexivity) nest_opened eq_refl ltac:(apply Forall_cons; [exact nest_well | apply Forall_nil]) nest_apart nest_mem nest_file nest_unit run_die nest_env [] nest_locals 6 4096 words e a ty
    nest_served nest_stopped _ _ _ _).
  - repeat destruct H as [H | H]; try (injection H as <- _ _ _; discriminate). destruct H.
  - repeat destruct H as [H | H]; try (injection H as <- _ _ _; apply Forall_cons; [apply ascii_texts; reflexivity | apply Forall_nil]). destruct H.
  - destruct H as [H | [H | [H | [H | []]]]]; injection H as _ <- <- <-; [exact nest_inner | exact nest_r | exact nest_both | exact nest_ns].
  - destruct H as [H | [H | [H | [H | []]]]]; injection H as <- <- <- <-.
    + left. exists (st "x"). split; [vm_compute; reflexivity|]. left. eexists. reflexivity.
    + left. exists (st "id"). split; [vm_compute; reflexivity|]. right. eexists _, _. reflexivity.
    + right. left. eexists 0, _, 2, _. split; [vm_compute; reflexivity|]. split; [reflexivity|]. split; [reflexivity | lia].
    + right. right. left. eexists 0, _. split; [vm_compute; reflexivity | reflexivity].
Qed.
(** Standard containers: [g], [m], [sl], [i]. *)
Lemma nest_g : nest_stands (EVariable (st "g")) 3904 bag_t.
Proof.
  apply (st_variable nest_env nest_unit (somes nest_locals) 4096 (fun _ _ => []) nest_mem (st "g") (Var (Some (st "g")) (alias "Bag" 95) (here 5) 57) (-192)); [|reflexivity | exists 95; split; [reflexivity | apply bag_resolves]].
  eexists [_; _; _; _], _. split; [reflexivity|]. split; [reflexivity|]. repeat constructor; discriminate.
Qed.
Lemma nest_m : nest_stands (EVariable (st "m")) 3968 map_t.
Proof.
  apply (st_variable nest_env nest_unit (somes nest_locals) 4096 (fun _ _ => []) nest_mem (st "m") (Var (Some (st "m")) map_t (here 5) 58) (-128)); [|reflexivity | reflexivity].
  eexists [_; _; _; _; _], _. split; [reflexivity|]. split; [reflexivity|]. repeat constructor; discriminate.
Qed.
Lemma nest_sl : nest_stands (EVariable (st "sl")) 4016 slice_t.
Proof.
  apply (st_variable nest_env nest_unit (somes nest_locals) 4096 (fun _ _ => []) nest_mem (st "sl") (Var (Some (st "sl")) slice_t (here 5) 59) (-80)); [|reflexivity | reflexivity].
  eexists [_; _; _; _; _; _], _. split; [reflexivity|]. split; [reflexivity|]. repeat constructor; discriminate.
Qed.
Lemma nest_i : nest_stands (EVariable (st "i")) 3896 u32t.
Proof.
  apply (st_variable nest_env nest_unit (somes nest_locals) 4096 (fun _ _ => []) nest_mem (st "i") (Var (Some (st "i")) u32t (here 5) 60) (-200)); [|reflexivity | reflexivity].
  eexists [_; _; _; _; _; _; _], _. split; [reflexivity|]. split; [reflexivity|]. repeat constructor; discriminate.
Qed.
Definition bag_v : value := VStruct (st "Bag")
  [(st "items", VArray (st "Vec<u32>") [VScalar (st "u32") (st "5"); VScalar (st "u32") (st "6")]); (st "name", VScalar (st "String") (quoted (st "hi"))); (st "opt", VScalar (st "Option<u32>") (st "9"))].
Lemma found_bag : nest_found 8 3904 bag_t bag_v.
Proof.
  apply (fo_struct nest_env (fun _ _ => []) nest_mem 6 3904 bag_t (st "Bag") 56 8 [(st "items", 0, vec_t); (st "name", 24, string_t); (st "opt", 48, opt_t)] [(st "items", 0, vec_t); (st "name", 24, string_t); (st "opt", 48, opt_t)]); [reflexivity | apply Permutation_refl | repeat constructor |].
  apply Forall2_cons; [|apply Forall2_cons; [|apply Forall2_cons; [|apply Forall2_nil]]]; (split; [reflexivity|]); (split; [u64_|]); cbn [f_offset f_type fst snd].
  - apply (fo_vec nest_env (fun _ _ => []) nest_mem 4 3904 vec_t 16 0 8 u32t u32t 8192 2 4); [reflexivity | u64_ | u64_ | mem | mem | reflexivity | reflexivity | lia | u64_|].
    apply Forall2_cons; [|apply Forall2_cons; [|apply Forall2_nil]]; [apply (found_u32 4 8192 5) | apply (found_u32 4 8196 6)]; [u64_ | mem | u64_ | mem].
  - apply (fo_string nest_env (fun _ _ => []) nest_mem 6 3928 string_t 16 0 8 (TD (LUInt 1) (Some 14)) 8208 (st "hi")); [reflexivity | u64_ | u64_ | mem | mem | apply ascii_texts; reflexivity | discriminate | mem].
  - apply (fo_some nest_env (fun _ _ => []) nest_mem 6 3952 opt_t (st "Option<u32>") (Disc (DUInt 4) 0) 4 u32t 8 1 (VScalar (st "u32") (st "9"))); [reflexivity | u64_ | cbn; tauto | mem | discriminate | u64_|].
    apply (found_u32 6 3956 9); [u64_ | mem].
Qed.
(** rd eval g *)
Example bag_printed : nest_prints [st "g"] [st "type: Bag"; st "value: " ++ Base.join [lf]
  [st "Bag {"; st "  items: ["; st "    5,"; st "    6"; st "  ],"; st "  name: ""hi"","; st "  opt: 9"; st "}"]].
Proof.
  apply (nest_printed [st "g"] (EVariable (st "g")) 3904 bag_t bag_v); [discriminate | apply Forall_cons; [apply ascii_texts; reflexivity | apply Forall_nil] | vm_compute; reflexivity | exact nest_g | exact found_bag | unfold bag_v; tidy_ | apply ascii_texts; reflexivity|].
  apply Forall_forall. intros x Hx. apply ascii_texts. revert x Hx. apply forallb_forall. vm_compute. reflexivity.
Qed.
Lemma nest_items : nest_stands (EField (EVariable (st "g")) (st "items")) 3904 vec_t.
Proof.
  apply (st_field nest_env nest_unit (somes nest_locals) 4096 (fun _ _ => []) nest_mem (EVariable (st "g")) 3904 bag_t (st "Bag") 56 8 [(st "items", 0, vec_t); (st "name", 24, string_t); (st "opt", 48, opt_t)] (st "items") (st "items", 0, vec_t) nest_g eq_refl); [|u64_].
  eexists [], _. split; [reflexivity|]. split; [reflexivity|]. constructor.
Qed.
(** rd eval g.items[i]: the index is the value of a variable. *)
Example item_printed : nest_prints [st "g.items[i]"] [st "type: u32"; st "value: 6"].
Proof.
  apply (nest_printed [st "g.items[i]"] (EIndex (EField (EVariable (st "g")) (st "items")) (EVariable (st "i"))) 8196 u32t (VScalar (st "u32") (st "6"))); [discriminate | apply Forall_cons; [apply ascii_texts; reflexivity | apply Forall_nil] | vm_compute; reflexivity | | | tidy_ | apply ascii_texts; reflexivity|].
  - apply (st_item nest_env nest_unit (somes nest_locals) 4096 (fun _ _ => []) nest_mem (EField (EVariable (st "g")) (st "items")) 3904 vec_t 16 0 8 u32t 8192 2 (EVariable (st "i")) 1 4 nest_items); [reflexivity | u64_ | u64_ | mem | mem | | lia | reflexivity | u64_ | u64_].
    apply (nu_place nest_env nest_unit (somes nest_locals) 4096 (fun _ _ => []) nest_mem (EVariable (st "i")) 3896 u32t (st "u32") 8 1 nest_i); [|lia]. apply (found_u32 8 3896 1); [u64_ | mem].
  - apply (found_u32 8 8196 6); [u64_ | mem].
  - apply Forall_cons; [apply ascii_texts; reflexivity | apply Forall_nil].
Qed.
Lemma nest_entries : PlainSpec.entries nest_mem 3968 string_t u32t (HashMap 8 0 24 32 0 24) [(8416, 8440); (8352, 8376)].
Proof. apply (en_hash nest_mem 3968 string_t u32t 8 0 24 32 0 24 8448 [17; 255; 18; 255]). split; unfold two64; try mem; cbn; lia. Qed.
Lemma nest_key j a base x : u64 a -> u64 (a + 16) -> holds_uint nest_mem a 8 base -> holds_uint nest_mem (a + 16) 8 (Z.of_nat (List.length (utf8 x))) -> text x -> x <> [] -> holds nest_mem base (utf8 x) -> nest_found j a string_t (VScalar (st "String") (quoted x)).
Proof. intros U1 U2 H1 H2 T N H. apply (fo_string nest_env (fun _ _ => []) nest_mem j a string_t 16 0 8 (TD (LUInt 1) (Some 14)) base x); [reflexivity | exact U2 | rewrite Z.add_0_r; exact U1 | exact H2 | rewrite Z.add_0_r; exact H1 | exact T | exact N | exact H]. Qed.
(** rd eval m, m["b"] *)
Example map_printed : nest_prints [st "m"] [st "type: HashMap<String, u32>"; st "value: " ++ Base.join [lf] (shown (VMap (tname map_t)
  [(VScalar (st "String") (quoted (st "a")), VScalar (st "u32") (st "1")); (VScalar (st "String") (quoted (st "b")), VScalar (st "u32") (st "2"))]))].
Proof.
  apply (nest_printed [st "m"] (EVariable (st "m")) 3968 map_t); [discriminate | apply Forall_cons; [apply ascii_texts; reflexivity | apply Forall_nil] | vm_compute; reflexivity | exact nest_m | | | apply ascii_texts; reflexivity|].
  - apply (fo_map nest_env (fun _ _ => []) nest_mem 6 3968 map_t string_t u32t (HashMap 8 0 24 32 0 24) _ _ eq_refl nest_entries). apply Forall2_cons; [|apply Forall2_cons; [|apply Forall2_nil]]; (split; cbn [fst snd]).
    + apply (nest_key 6 8416 8216); [u64_ | u64_ | mem | mem | apply ascii_texts; reflexivity | discriminate | mem].
    + apply (found_u32 6 8440 1); [u64_ | mem].
    + apply (nest_key 6 8352 8217); [u64_ | u64_ | mem | mem | apply ascii_texts; reflexivity | discriminate | mem].
    + apply (found_u32 6 8376 2); [u64_ | mem].
  - apply ti_map. repeat (apply Forall_cons; [split; tidy_|]). apply Forall_nil.
  - apply Forall_forall. intros x Hx. apply ascii_texts. revert x Hx. apply forallb_forall. vm_compute. reflexivity.
Qed.
Example entry_printed : nest_prints [st "m[""b""]"] [st "type: u32"; st "value: 2"].
Proof.
  apply (nest_printed [st "m[""b""]"] (EIndex (EVariable (st "m")) (EString (st "b"))) 8376 u32t (VScalar (st "u32") (st "2"))); [discriminate | apply Forall_cons; [apply ascii_texts; reflexivity | apply Forall_nil] | vm_compute; reflexivity | | | tidy_ | apply ascii_texts; reflexivity|].
  - apply (st_entry nest_env nest_unit (somes nest_locals) 4096 (fun _ _ => []) nest_mem (EVariable (st "m")) 3968 map_t string_t u32t (HashMap 8 0 24 32 0 24) [(8416, 8440)] 8352 8376 [] (EString (st "b")) (st "b") nest_m eq_refl nest_entries).
    + apply na_literal. split; discriminate.
    + exists 6%nat, (st "String"), (quoted (st "b")). split; [apply (nest_key 6 8352 8217); [u64_ | u64_ | mem | mem | apply ascii_texts; reflexivity | discriminate | mem]|]. split; [split; discriminate | right; reflexivity].
    + apply Forall_cons; [|apply Forall_nil]. exists (st "a"). split; [|discriminate]. exists 6%nat, (st "String"), (quoted (st "a")).
      split; [apply (nest_key 6 8416 8216); [u64_ | u64_ | mem | mem | apply ascii_texts; reflexivity | discriminate | mem]|]. split; [split; discriminate | right; reflexivity].
  - apply (found_u32 8 8376 2); [u64_ | mem].
  - apply Forall_cons; [apply ascii_texts; reflexivity | apply Forall_nil].
Qed.
(** rd eval sl[0] is refused. *)
Example slice_refused : exists k0, forall k, (k0 <= k)%nat -> exists n0, forall n, (n0 <= n)%nat -> exists m,
  prints app_map nest_fs (fun l => l) plain_externals isort None (fun s => s) (fun _ _ => []) (fun _ => false) nest_lldb 0%nat (st "/app/bin") n k [st "sl[0]"] [st "Error: " ++ m].
Proof.
  refine (nested_place_refuted app_map nest_fs (fun l => l) plain_externals isort None (fun s => s) (fun _ _ => []) (fun _ => false) isort_sorts nat nest_lldb 0%nat (st "/app/bin") nest_binary nest_tables
    nest_fits eq_refl eq_refl eq_refl eq_refl ltac:(apply ascii_texts; reflexivity) nest_opened eq_refl ltac:(apply Forall_cons; [exact nest_well | apply Forall_nil]) nest_apart nest_mem nest_file nest_unit run_die nest_env [] nest_locals 6 4096 [st "sl[0]"] (EVariable (st "sl")) 4016 slice_t
    nest_served nest_stopped ltac:(discriminate) ltac:(apply Forall_cons; [apply ascii_texts; reflexivity | apply Forall_nil]) nest_sl _).
  right. right. right. exists 0, u32t, 0, 8, 2%nat, (VArray (st "&[u32]") [VScalar (st "u32") (st "5"); VScalar (st "u32") (st "6")]). split; [vm_compute; reflexivity|]. split; [reflexivity|].
  apply (fo_slice nest_env (fun _ _ => []) nest_mem 0 4016 slice_t u32t 0 8 u32t 8192 2 4); [reflexivity | u64_ | u64_ | mem | mem | reflexivity | reflexivity | lia | u64_|].
  apply Forall2_cons; [|apply Forall2_cons; [|apply Forall2_nil]]; [apply (found_u32 0 8192 5) | apply (found_u32 0 8196 6)]; [u64_ | mem | u64_ | mem].
Qed.
