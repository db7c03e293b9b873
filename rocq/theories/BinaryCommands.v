(** C120, C121: the commands functions and methods, from the stored files to the printed lines. *)
From Coq Require Import Ascii String List ZArith NArith Lia Bool Arith.
From Verif Require Import Base NumText OMap AddrModel SymModel SymSpec SymProofs SymProps PathModel LinesModel LinesProps DieModel DieSpec ModuleModel ParserSpec
  TypesModel ValueModel ParserModel ResolveModel ResolveSpec FnModel FnSpec SourceModel LoadModel LoadProps ParserProofs DiscoverModel DiscoverSpec DiscoverProps DiscoverFns LookupSpec LookupProps TypeTextModel TypeNameSpec TypeNameProps BinaryModel BinarySpec BinaryProofs.
From Verif Require Import ExprModel ProcModel ProcSpec EvalModel ServerModel ServerSpec ServerProps JsonModel WireModel WireProps ClientModel ClientSpec ClientProps SessionModel SessionSpec SessionProofs SessionProps RdProps BinarySession
  BinaryDiscover BinaryMethods BinaryTypes BinarySpec Utf8.
Import ListNotations.
Open Scope Z_scope.

(** ** Specification *)
(** What the LLDB user sees after typing one command, whatever the target does: the target is left alone and these lines
    are printed (for all sufficiently long-lived connections). *)
Definition prints {St} (load : str -> res dbg) (L : debugger St) (p : str) (s : St) (cmd : str) (args : list str) (lines : list str) : Prop :=
  exists w0, forall writes, (w0 <= writes)%nat ->
    (exists up down xs s2 e, connected load L p [(cmd, args)] s writes up down xs s2 e) /\
    (forall up down xs s2 e, connected load L p [(cmd, args)] s writes up down xs s2 e -> exists j, xs = [Ok j] /\ s2 = s /\ e = Closed /\ forall repr, print_response repr cmd (the_fields j) = lines).
(** One line of the listing: path and name, signature, whether it can be called. *)
Definition listing_line (y : symbol) (f : dfunction) : str :=
  st "  " ++ flat_map (fun x => x ++ st "::") (module_path (sym_name y)) ++ lookup_name (sym_name y) ++ st ": " ++ df_sig f ++ st (if df_callable f then " (callable)" else " (not callable)").
Definition listing (ls : list str) : list str := match ls with [] => [st "No functions found"] | _ => (st "Found " ++ dec (Z.of_nat (List.length ls)) ++ st " function(s):") :: ls end.
(** For all sufficiently large budgets of the model's recursions. *)
Definition eventually (P : nat -> nat -> Prop) : Prop := exists n0, forall n, (n0 <= n)%nat -> exists k0, forall k, (k0 <= k)%nat -> P n k.
(** A method's line. *)
Definition own_line (m : dmethod) : str := st "  - " ++ dm_sig m ++ st (if dm_callable m then " (callable)" else " (not callable)").
Definition built_in_line (m : dmethod) : str := st "  - " ++ dm_sig m.
Definition method_listing (name : str) (ms : list dmethod) : list str :=
  [st "Methods for " ++ name ++ st ":"] ++
  (match filter (fun m => negb (dm_synthetic m)) ms with [] => [st "  (no methods found)"] | own => map own_line own end) ++
  (match filter dm_synthetic ms with [] => [] | built => (10%N :: st "Synthetic methods (debug helpers):") :: map built_in_line built end).

(** ** Proofs *)
Lemma one_answer {St} (load : str -> res dbg) (L : debugger St) (p : str) s D cmd args m :
  debugger_fits L -> text p -> load p = Ok D -> cmd <> st "shutdown" -> text cmd -> Forall text args -> handle_command D cmd args = Ret (Ok m) -> server_fits m ->
  forall lines, (forall repr, printed repr cmd m = lines) -> prints load L p s cmd args lines.
Proof.
  intros Fi Tp Ld Ns Tc Ta Hc Sf lines Pr.
  assert (Dl : dialogue L D s [(cmd, args)] [Ok (enc_server m)] s Closed).
  { apply (d_answered L D s cmd args [] m s [] [] s Closed); [exact Ns | split; assumption | rewrite Hc; reflexivity | constructor | exact Sf | constructor]. }
  destruct (session_end_to_end St L load p D s [(cmd, args)] [Ok (enc_server m)] s Closed Fi Tp Ld Dl) as (w0 & W). exists w0. intros writes Hw. destruct (W writes Hw) as [(up & down & E) U].
  split; [eauto 10|]. intros up' down' xs s2 e C. destruct (U _ _ _ _ _ C) as (-> & -> & ->). eexists. split; [reflexivity|]. split; [reflexivity|]. split; [reflexivity|]. exact Pr.
Qed.
Lemma text_functions : text (st "functions").
Proof. txt. Qed.
Lemma text_methods : text (st "methods").
Proof. txt. Qed.
Lemma functions_lines repr l : printed repr (st "functions") (Complete (PFunctions l)) = listing (map function_line l).
Proof. rewrite functions_printed. destruct l as [|f l]; [reflexivity|]. unfold listing. cbn [map]. f_equal. f_equal. f_equal. f_equal. cbn [List.length]. now rewrite map_length. Qed.

Lemma all_answers X files fidx : (forall file n v h, oget cmp_sname n (fidx file) = Some (v, h) -> good_env v /\ exists d, node v h d /\ settled v d) ->
  exists k0, forall k, (k0 <= k)%nat -> exists m, DiscoverModel.discover_all_functions k (index_symbol_map X files) fidx = Ok m.
Proof.
  intros Gi. unfold DiscoverModel.discover_all_functions.
  assert (G : forall ys, exists k0, forall k, (k0 <= k)%nat -> exists r, mapM (fun y => f <- discovered k (index_symbol_map X files) fidx y ;; Ok (sname_display (sym_name y), f)) ys = Ok r).
  { induction ys as [|y ys IH]; [exists 0%nat; intros; exists []; reflexivity|]. destruct IH as (k1 & IH).
    assert (D : exists k2, forall k, (k2 <= k)%nat -> exists g, discovered k (index_symbol_map X files) fidx y = Ok g).
    { unfold discovered. unfold debug_entry. destruct (get_function (index_symbol_map X files) (sym_name y)) as [z|]; [|exists 0%nat; intros; eexists; reflexivity]. destruct (oget cmp_sname (sym_name y) (fidx (sym_file z))) as [[v h]|] eqn:Q; [|exists 0%nat; intros; eexists; reflexivity].
      destruct (Gi _ _ _ _ Q) as (G & d & N & S). destruct (create_answers v h d G N S) as (k2 & H). exists k2. intros k L. destruct (H k L y) as [(g & ->)|(m & ->)]; eexists; reflexivity. }
    destruct D as (k2 & D). exists (k1 + k2)%nat. intros k L. cbn [mapM]. destruct (D k ltac:(lia)) as (g & ->). cbn [bind]. destruct (IH k ltac:(lia)) as (r & ->). eexists; reflexivity. }
  destruct (G (all_symbols (index_symbol_map X files))) as (k0 & K). exists k0. intros k Hk. destruct (K k Hk) as (r & ->). eexists; reflexivity.
Qed.
Lemma all_sorted k ix fidx m : DiscoverModel.discover_all_functions k ix fidx = Ok m -> osorted cmp_str m.
Proof.
  unfold DiscoverModel.discover_all_functions. intros E. apply bind_ok in E. destruct E as (ps & _ & Q). injection Q as <-.
  assert (G : forall l m, osorted cmp_str m -> osorted cmp_str (fold_left (fun m (p : str * dfunction) => oinsert cmp_str (fst p) (snd p) m) l m)); [|apply G; exact I].
  induction l as [|q l IH]; intros m S; [exact S|]. cbn [fold_left]. apply IH. apply oinsert_sorted; [apply wo_str | exact S].
Qed.
(** The texts come in increasing order (by character codes), each once. *)
Fixpoint increasing (l : list str) : Prop := match l with [] => True | x :: l' => (forall y, In y l' -> cmp_str x y = Lt) /\ increasing l' end.
Lemma sorted_keys {V} (m : omap str V) : osorted cmp_str m -> increasing (map fst m).
Proof. induction m as [|[k v] m IH]; [exact (fun _ => I)|]. cbn [osorted map fst increasing]. intros [A S]. split; [|exact (IH S)]. intros y Hy. apply in_map_iff in Hy. destruct Hy as ([k' v'] & <- & H). exact (A k' v' H). Qed.

Section Commands.
Variables (smap : list (fpath * fpath)) (fs : fpath -> option stored) (order : list nat -> list nat) (X : externals)
  (sort : (AddrModel.finfo -> Z) -> list AddrModel.finfo -> list AddrModel.finfo) (workspace : option fpath)
  (sig_of : str -> str) (lossy : list Z -> str) (show_float : Z -> list Z -> str) (is_float : str -> bool).
Let loader := server_load smap fs order X sort workspace sig_of lossy show_float is_float.
Variables (St : Type) (L : debugger St) (s : St) (p : str) (B : binary) (tables : list (N * list raw_entry)).
Hypotheses (Fits : debugger_fits L) (Tp : text p) (Op : open_binary smap fs order X (components p) = Ok B) (Hix : bi_index B = index_symbol_map X tables).
Let h := history X tables.

(** [rd functions ms::f] prints one line for each function of the binary whose name ends in the pattern, and no other. *)
Theorem functions_command_printed : forall ms f, let pattern := Base.join (st "::") (ms ++ [f]) in
  (forall g, In g (bi_made B) -> readable_file h g /\ well_formed g) ->
  Forall wf_segment (ms ++ [f]) -> ~ hash_like f -> text pattern ->
  (forall g d s u v, In g (bi_made B) -> In d (visible (units_of g)) -> linked h g d s -> In u (bf_units g) -> in_tree (bu_die u) d -> unit_view g u v -> settled v d) ->
  eventually (fun n k => forall r, BinaryModel.discover_functions n k B pattern = Ok r -> Forall (fun x => function_fits (function_info x)) r) ->
  eventually (fun n k => exists ys, NoDup (map sym_name ys) /\
    (forall y, In y ys <-> is_last (fun s => sym_name s = sym_name y) (functions_of h) y /\ names_function ms f (sym_name y)) /\
    exists ds, Forall2 (fun y d => exists debug, function_die h B y debug /\ presents debug y d) ys ds /\
      prints (loader n k) L p s (st "functions") [pattern] (listing (map (fun yd => listing_line (fst yd) (snd yd)) (combine ys ds)))).
Proof.
  intros ms f pattern Hm W Hh Tx St0 (n3 & Fr). destruct (functions_listed X tables B Hix Hm ms f W Hh) as (n1 & A). destruct (functions_answered X tables B Hix Hm ms f W Hh St0) as (n2 & N2).
  exists (n1 + n2 + n3)%nat. intros n Hn. destruct (N2 n ltac:(lia)) as (k0 & K). destruct (Fr n ltac:(lia)) as (k1 & Fk). exists (k0 + k1)%nat. intros k Hk. destruct (K k ltac:(lia)) as (r & E). specialize (Fk k ltac:(lia)). fold pattern in E.
  destruct (A n k r ltac:(lia) E) as (ys & Nd & M & F2). exists ys. split; [exact Nd|]. split; [exact M|]. exists r. split; [exact F2|].
  assert (Ld : loader n k p = Ok (debug_info sort smap workspace n k B X sig_of lossy show_float is_float)) by (unfold loader, server_load; rewrite Op; reflexivity).
  refine (one_answer (loader n k) L p s _ (st "functions") [pattern] (Complete (PFunctions (map function_info r))) Fits Tp Ld _ text_functions _ _ _ _ _).
  - discriminate.
  - apply Forall_cons; [exact Tx | apply Forall_nil].
  - change (Ret (respond PFunctions (rmap (map function_info) (BinaryModel.discover_functions n k B pattern))) = Ret (Ok (Complete (PFunctions (map function_info r))))). rewrite E. reflexivity.
  - cbn [server_fits payload_fits]. apply Forall_map. exact (Fk r E).
  - intros repr. rewrite functions_lines. f_equal. rewrite map_map. clear - F2. induction F2 as [|y d ys ds (debug & _ & P) _ IH]; [reflexivity|]. cbn [map combine fst snd]. f_equal; [|exact IH].
    destruct P as (P1 & P2 & P3 & P4 & _). unfold function_line, listing_line, function_info. cbn [fn_module fn_name fn_sig fn_callable]. rewrite P1, P4. reflexivity.
Qed.
(** [rd functions] alone: a line for every function, in the order of the displayed names. (Of several functions displayed
    alike only one: C108.) *)
Theorem all_functions_command_printed_partial :
  (forall g, In g (bi_made B) -> readable_file h g /\ well_formed g) ->
  (forall g d s u v, In g (bi_made B) -> In d (visible (units_of g)) -> linked h g d s -> In u (bf_units g) -> in_tree (bu_die u) d -> unit_view g u v -> settled v d) ->
  eventually (fun n k => forall m, BinaryModel.discover_all_functions n k B = Ok m -> Forall (fun x => function_fits (function_info (snd x))) m) ->
  let listed y := is_last (fun s => sym_name s = sym_name y) (functions_of h) y in
  eventually (fun n k => exists m : list (str * dfunction), increasing (map fst m) /\
    Forall (fun nf => exists y debug, listed y /\ sname_display (sym_name y) = fst nf /\ function_die h B y debug /\ presents debug y (snd nf)) m /\
    (forall y, listed y -> In (sname_display (sym_name y)) (map fst m)) /\
    prints (loader n k) L p s (st "functions") [] (listing (map (fun nf => function_line (function_info (snd nf))) m))).
Proof.
  intros Hm St0 (n3 & Fr) listed. destruct (all_functions_listed_partial X tables B Hix Hm) as (n1 & A). destruct (dies_known X tables B Hix Hm) as (n2 & N2).
  exists (n1 + n2 + n3)%nat. intros n Hn. destruct (N2 n ltac:(lia)) as (Gi & _ & K3). destruct (Fr n ltac:(lia)) as (k1 & Fk).
  destruct (all_answers X tables (function_dies n B)) as (k0 & K).
  { intros id name v x O. destruct (Gi _ _ _ _ O) as (Ge & d0 & N0). split; [exact Ge|]. destruct (K3 _ _ _ _ O) as (g & d & sy & u & Hg & Hd & Lk & Hu & T & V & ->).
    destruct (Hm g Hg) as (_ & _ & D & Aa). destruct (good_view g u v D (Aa u Hu) Hu V) as [_ En]. exists d. split; [split; [rewrite En; exact T | reflexivity]|]. exact (St0 g d sy u v Hg Hd Lk Hu T V). }
  exists (k0 + k1)%nat. intros k Hk. destruct (K k ltac:(lia)) as (m & E). specialize (Fk k ltac:(lia)). pose proof (all_sorted _ _ _ _ E) as So. rewrite <- Hix in E. change (BinaryModel.discover_all_functions n k B = Ok m) in E.
  destruct (A n k m ltac:(lia) E) as [P1 P2]. exists m. split; [now apply sorted_keys|]. split.
  { apply Forall_forall. intros [nm f] Hf. apply (P1 nm f). apply oget_in; [exact wo_str | exact So | exact Hf]. }
  split.
  { intros y Ly. destruct (P2 y Ly) as (f & O & _). apply (oget_some cmp_str) in O. destruct O as (k' & C & I). apply cmp_str_eq in C. rewrite C. apply (in_map fst _ _ I). }
  assert (Ld : loader n k p = Ok (debug_info sort smap workspace n k B X sig_of lossy show_float is_float)) by (unfold loader, server_load; rewrite Op; reflexivity).
  refine (one_answer (loader n k) L p s _ (st "functions") [] (Complete (PFunctions (map (fun x => function_info (snd x)) m))) Fits Tp Ld _ text_functions _ _ _ _ _).
  - discriminate.
  - apply Forall_nil.
  - change (Ret (respond PFunctions (rmap (fun m => map (fun p => function_info (snd p)) m) (BinaryModel.discover_all_functions n k B))) = Ret (Ok (Complete (PFunctions (map (fun x => function_info (snd x)) m))))). rewrite E. reflexivity.
  - cbn [server_fits payload_fits]. apply Forall_map. exact (Fk m E).
  - intros repr. rewrite functions_lines, map_map. reflexivity.
Qed.
Lemma method_lines repr name ms : printed repr (st "methods") (Complete (PMethods (MResult name (map method_info ms)))) = method_listing name ms.
Proof.
  rewrite methods_printed. cbn [mr_type mr_methods]. unfold method_listing. f_equal.
  assert (F : forall (g : minfo -> bool) (g' : dmethod -> bool) l, (forall m, g (method_info m) = g' m) -> filter g (map method_info l) = map method_info (filter g' l)).
  { intros g g' l Hg. induction l as [|m l IH]; [reflexivity|]. cbn [map filter]. rewrite Hg, IH. destruct (g' m); reflexivity. }
  rewrite (F _ (fun m => negb (dm_synthetic m))) by reflexivity. rewrite (F _ dm_synthetic) by reflexivity. f_equal.
  - destruct (filter (fun m => negb (dm_synthetic m)) ms) as [|x l]; [reflexivity|]. cbn [map]. f_equal. rewrite map_map. apply map_ext. reflexivity.
  - destruct (filter dm_synthetic ms) as [|x l]; [reflexivity|]. cbn [map]. f_equal. f_equal. rewrite map_map. apply map_ext. reflexivity.
Qed.
(** [rd methods root::path::id] of a type of the workspace: the methods C109 lists for the DIE C106 finds, one line each;
    the synthetic ones apart. *)
Theorem methods_command_printed_partial : forall w files root path id targs e args f u d scope spath v target,
  workspace = Some w -> selects (workspace_file smap w) (bi_files B) files -> Forall well_formed files -> apart files ->
  Forall well_formed (bi_made B) -> Forall well_formed (bi_files B) -> apart (bi_made B) ->
  ~ In root (map st ["std"; "core"; "alloc"; "hashbrown"]%string) -> Forall name_ok (root :: path) -> name_ok id -> Forall legible targs ->
  Forall (ordinary_member (root :: path)) (declared_in (root :: path) files) ->
  let name := id ++ args_text targs in
  let full := full_name (root :: path) name in
  first_of (fun x => is_type_die x /\ ParserSpec.named x name) (declared_in (root :: path) files) d -> In f files -> In f (bi_made B) -> In u (bf_units f) -> is_rust_cu (d_entry (bu_die u)) = true ->
  in_tree (bu_die u) d -> enclosed u d scope spath -> unit_view f u v -> resolves_fully v (h_of d) (TD target (Some (h_of d))) ->
  args <> [] -> Forall text args -> parse_expression (Base.join (st " ") args) = Ok e -> (exists q, e = EPath q) \/ (exists x q, e = EGeneric x q) -> display e = full -> text full ->
  exists k0, forall k, (k0 <= k)%nat -> exists n0, forall n l, (n0 <= n)%nat -> BinaryModel.discover_methods n k B X sig_of (TD target (Some (h_of d))) = Ok l -> Forall (fun m => method_fits (method_info m)) l ->
    prints (loader n k) L p s (st "methods") args (method_listing full l) /\
    exists direct traits built, l = concat direct ++ traits ++ built /\ DiscoverSpec.built_ins sig_of target built /\
      Forall2 (declared_methods X (bi_index B) target) (flat_map (scopes spath) (bi_files B)) direct /\
      (implemented_here X (bi_index B) target v scope traits \/ ~ followed u d scope spath /\ implemented_here X (bi_index B) target v (bu_die u) traits).
Proof.
  intros w files root path id targs e args f u d scope spath v target Hw Sel Wf Ap Wm Wb Am Ns Nr Ni Lg Om name full Fd Hf Hm Hu Ru T En V Rs Na Ta Pe Ke De Tf.
  destruct (workspace_type_found smap w B files Sel Wf Ap root path id targs Ns Nr Ni Lg Om) as [_ F]. cbv zeta in F. destruct (F f u d v (TD target (Some (h_of d))) Fd Hf Hu T V Rs) as (k0 & K).
  destruct (methods_listed_partial X B sig_of Wm Wb Am f u d scope spath v target Hm Hu Ru T En V) as (n1 & M).
  exists k0. intros k Hk. destruct (K k Hk) as (n2 & N2). exists (n1 + n2)%nat. intros n l Hn E Fr. assert (H1 : (n1 <= n)%nat) by (clear - Hn; lia). assert (H2 : (n2 <= n)%nat) by (clear - Hn; lia). split; [|exact (M n k l H1 E)]. specialize (N2 n H2).
  assert (Ld : loader n k p = Ok (debug_info sort smap workspace n k B X sig_of lossy show_float is_float)) by (unfold loader, server_load; rewrite Op; reflexivity).
  refine (one_answer (loader n k) L p s _ (st "methods") args (Complete (PMethods (MResult full (map method_info l)))) Fits Tp Ld _ text_methods Ta _ _ _ _).
  - discriminate.
  - destruct args as [|a args]; [contradiction|]. set (DB := debug_info sort smap workspace n k B X sig_of lossy show_float is_float).
    change (pbind (methods_command DB (Base.join (st " ") (a :: args))) (fun r => Ret (respond PMethods r)) = Ret (Ok (Complete (PMethods (MResult full (map method_info l)))))).
    assert (Ty : type_methods DB full "No type found matching" = Ok (MResult full (map method_info l))).
    { unfold type_methods, methods_of_type. change (g_type DB full) with (lookup_type_by_name smap workspace n k B full). rewrite Hw. unfold full, name in N2 |- *. rewrite N2.
      change (g_methods DB (TD target (Some (h_of d)))) with (BinaryModel.discover_methods n k B X sig_of (TD target (Some (h_of d)))). rewrite E. reflexivity. }
    unfold methods_command. rewrite Pe. destruct Ke as [(q & ->) | (x & q & ->)]; rewrite De, Ty; reflexivity.
  - cbn [server_fits payload_fits mr_type mr_methods]. split; [exact Tf|]. apply Forall_map. exact Fr.
  - intros repr. apply method_lines.
Qed.
End Commands.
Print Assumptions functions_command_printed.
Print Assumptions all_functions_command_printed_partial.
Print Assumptions methods_command_printed_partial.
