(** C114: calls of functions and methods, from the stored files and the stopped target to the call LLDB runs and the printed text. *)
From Coq Require Import Ascii String List ZArith NArith Lia Bool Arith Sorted Permutation.
From Coq Require Import ZifyBool ZifyNat ZifyN.
From Verif Require Import Base NumText OMap AddrModel AddrSpec SymModel SymSpec SymProofs SymProps PathModel LinesModel LinesProps DieModel DieSpec ModuleModel ParserSpec
  TypesModel ValueModel DataModel DataSpec DataProofs ParserModel ResolveModel ResolveSpec ResolveProps LocModel FnModel FnSpec FnProps SourceModel LoadModel LoadProps ParserProofs DiscoverModel DiscoverSpec DiscoverProofs DiscoverProps DiscoverFns BinaryModel BinarySpec BinaryProofs BinaryProps BinaryVars BinaryTypes BinaryDiscover BinaryMethods.
From Verif Require Import AccessModel ExprModel ProcModel ProcSpec IoDataModel EvalModel EvalSpec ServerModel ServerSpec ServerProofs ServerProps JsonModel WireModel WireProps ClientModel ClientSpec ClientProps ClientEvents
  SessionModel SessionSpec SessionProofs SessionProps RdProps ProcProofs FormatSpec FormatProps BinarySession BinarySpec AccessProps EvalProps PlainSpec PlainProofs BinaryEval.
From Verif Require Import DataModel ParserModel ValueModel Utf8.
Import ListNotations.
Open Scope Z_scope.

(** ** Specification *)
(** [passes e c sizes]: the argument [e] is passed as [c], a C type and a C expression, with the sizes of the structs its type
    mentions: a number as an unsigned long, a place by value, as a struct of the size of its type, and a place of a type of
    unknown size as its address. *)
Section Passes.
Variables (v : env) (u : bunit) (vars : list var) (b : Z) (floats : Z -> list Z -> str) (m : memory).
Inductive passes : expr -> (str * str) * list Z -> Prop :=
| pa_number n : 0 <= n -> passes (ENumber n) ((st "unsigned long", dec n), [])
| pa_block e a ty size : stands v u vars b floats m e a ty -> tsize ty = Ok (Some size) -> u64 size ->
    passes e ((st "struct Arg_" ++ dec size, st "*((struct Arg_" ++ dec size ++ st "*)" ++ hex a ++ st ")"), [size])
| pa_address e a ty : stands v u vars b floats m e a ty -> tsize ty = Ok None -> passes e ((st "void*", st "(void*)" ++ hex a), []).
End Passes.
(** The size of the result, where the function has one of known size. *)
Definition result_size (rt : option tdef) (n : option Z) : Prop := match rt with Some t => tsize t = Ok n | None => n = None end.
(** The function that the name [ms]::[f] means: the only one of the binary whose path ends in it. *)
Definition callee (h : list (bool * list N * symbol)) (ms : list str) (f : str) (y : symbol) : Prop :=
  forall y', is_last (fun s => sym_name s = sym_name y') (functions_of h) y' /\ names_function ms f (sym_name y') <-> y' = y.
(** The function symbol [y] is declared by the DIE [d] of the unit [u] of the file [f], with these parameters and this result. *)
Definition declares (h : list (bool * list N * symbol)) (B : binary) (y : symbol) (f : bfile) (u : bunit) (d : die) (v : env) (ps : list (option str * tdef)) (rt : option tdef) : Prop :=
  file_by_id B (sym_file y) = Some f /\ readable_file h f /\ (exists s, function_of h f (sym_name y) d s) /\ In u (bf_units f) /\ in_tree (bu_die u) d /\ unit_view f u v /\ types_resolve v d ps rt.
(** What is printed of the value [x] of the C expression: a result of unknown size as the number LLDB gives; another as the value of its
    type that the memory holds, after the call, where LLDB put it. *)
Inductive outcome {St} (L : debugger St) (v : env) (floats : Z -> list Z -> str) (x : evres) (s1 : St) (rt : option tdef) : option Z -> list str -> Prop :=
| out_number : returns x None (Simple (v_unsigned x) (st "usize")) -> outcome L v floats x s1 rt None [st "type: usize"; st "value: " ++ dec (v_unsigned x)]
| out_value n a t m w : returns x (Some n) (ComplexPtr a n (st "complex")) -> rt = Some t -> l_target L s1 = true -> l_process L s1 = true -> served (l_memory L s1) m ->
    found v floats m 8 a t w -> tidy w -> text (tname t) -> Forall text (shown w) ->
    outcome L v floats x s1 rt (Some n) [st "type: " ++ tname t; st "value: " ++ Base.join [lf] (shown w)].

(** ** Programs that change the target *)
Lemma hex_text n : text (hex n).
Proof.
  unfold hex. apply Forall_app. split; [txt|]. assert (G : forall k a acc, text acc -> text (hex_aux k a acc)).
  { induction k as [|k IH]; intros a acc T; [exact T|]. cbn [hex_aux]. cbv zeta. assert (T' : text (hex_digit (a mod 16) :: acc)).
    { apply Forall_cons; [|exact T]. pose proof (Z.mod_pos_bound a 16 ltac:(lia)). unfold hex_digit, scalar. destruct (Z.ltb_spec (a mod 16) 10); lia. }
    destruct (a / 16 =? 0); [exact T' | apply IH; exact T']. }
  apply G. apply Forall_nil.
Qed.
Lemma join_text (l : list str) : Forall text l -> text (Base.join [lf] l).
Proof.
  induction 1 as [|x l Hx Hl IH]; [apply Forall_nil|]. destruct l as [|y l]; [exact Hx|]. change (text (x ++ [lf] ++ Base.join [lf] (y :: l))).
  apply Forall_app. split; [exact Hx|]. apply Forall_app. split; [|exact IH]. apply Forall_cons; [unfold scalar, lf; lia | apply Forall_nil].
Qed.
Definition goes {St} (L : debugger St) {A} (p : ev A) (pc : option Z) (s : St) (a : A) (pc' : option Z) (s1 : St) : Prop :=
  exists t, exec (python_client L) (p pc) s = (t, (Ok a, pc'), s1) /\ Forall (fun x => request_fits (fst x)) t.
Lemma goes_bind {St} (L : debugger St) {A B} (p : ev A) (f : A -> ev B) pc s a pc1 s1 b pc2 s2 : goes L p pc s a pc1 s1 -> goes L (f a) pc1 s1 b pc2 s2 -> goes L (ebind p f) pc s b pc2 s2.
Proof.
  intros (t1 & E1 & F1) (t2 & E2 & F2). exists (t1 ++ t2). split; [|apply Forall_app; split; assumption]. unfold ebind. rewrite exec_bind, E1. cbn [fst snd]. rewrite E2. reflexivity.
Qed.
Lemma goes_lift {St} (L : debugger St) {A} r pc s (a : A) : r = Ok a -> goes L (elift r) pc s a pc s.
Proof. intros ->. exists []. split; [reflexivity | constructor]. Qed.
Lemma eruns_goes {St} (L : debugger St) {A} (p : ev A) pc s a pc' : eruns L s p pc a pc' -> goes L p pc s a pc' s.
Proof. exact (fun H => H). Qed.
Lemma goes_ret {St} (L : debugger St) {A} pc s (a : A) : goes L (eret a) pc s a pc s.
Proof. exists []. split; [reflexivity | constructor]. Qed.
Lemma goes_ask {St} (L : debugger St) {A} (q : request) (r : reply) (g : answer -> res A) pc s a s1 : request_fits q -> l_target L s = true -> l_process L s = true -> performs L s q r s1 -> g (Replied r) = Ok a ->
  goes L (eio (pbind (ask q) (fun x => Ret (g x)))) pc s a pc s1.
Proof.
  intros Q T P H G. exists [(q, Replied r)]. split; [|apply Forall_cons; [exact Q | apply Forall_nil]]. unfold eio, ask. cbn [pbind exec]. rewrite (events_are_not_refused St L s q r s1 Q T P H). cbn [exec]. rewrite G. reflexivity.
Qed.

Section One.
Context {St : Type} (L : debugger St) (s : St).
Hypotheses (HT : l_target L s = true) (HP : l_process L s = true) (HH : l_thread L s = true) (HF : l_frame L s = true).
Variables (m : memory) (floats : Z -> list Z -> str).
Hypothesis Hm : served (l_memory L s) m.
Variables (v : env) (u : bunit) (vars : list var) (b r base : Z).
Hypotheses (Ur : u64 r) (Rg : nth_register r (l_registers L s) = Some b).
(** An argument, converted. *)
Lemma argument_runs e c : passes v u vars b floats m e c -> exists x k0, c_argument x = fst c /\ (match ma_size x with Some n => [n] | None => [] end) = snd c /\ arg_fits x /\
  forall k D target, (k0 <= k)%nat -> answers_variables L s D u v vars (Some [OReg r]) base k -> knows floats D v k -> forall pc, at_pc L s pc -> exists pc', at_pc L s pc' /\ goes L (convert_arg D e (evaluate D e) target) pc s x pc' s.
Proof.
  assert (Place : forall e a ty size, stands v u vars b floats m e a ty -> tsize ty = Ok size -> exists k0, forall k D target, (k0 <= k)%nat -> answers_variables L s D u v vars (Some [OReg r]) base k -> knows floats D v k ->
     forall pc, at_pc L s pc -> exists pc', at_pc L s pc' /\ goes L (convert_arg D e (evaluate D e) target) pc s (MArg (hex a) APointer size) pc' s).
  { intros e' a ty size Sd Sz. destruct (stands_ref L s HT HP HH HF m floats Hm v u vars b r base Ur Rg e' a ty Sd) as (k0 & K0). exists k0. intros k D target Hk G Kn pc Hpc. destruct (K0 k D Hk G Kn) as [E _]. exists (Some (l_pc L s)). split; [right; reflexivity|].
    destruct (E pc Hpc) as (t & X & Ft).
    assert (Q : goes L (ematch (e_ref (evaluate D e')) (fun p => ebind (elift (tsize (snd p))) (fun q => eret (MArg (hex (fst p)) APointer q))) (ebind (e_val (evaluate D e')) (fun q => elift (fallback_arg D q)))) pc s (MArg (hex a) APointer size) (Some (l_pc L s)) s).
    { exists t. split; [|exact Ft]. unfold ematch. rewrite exec_bind, X. cbn [fst snd]. rewrite Sz. unfold ebind, elift, eret. cbn [pbind exec fst snd]. rewrite app_nil_r. reflexivity. }
    destruct Sd; exact Q. }
  intros [n Hn | e' a ty size Sd Sz Us | e' a ty Sd Sz].
  - exists (MArg (dec_nat n) AInteger None), 0%nat. assert (En : dec_nat n = dec n) by (unfold dec; destruct (Z.ltb_spec n 0); [lia | reflexivity]). rewrite En. cbn [c_argument ma_type ma_value ma_size fst snd]. split; [reflexivity|]. split; [reflexivity|]. split; [split; [apply dec_text | exact I]|].
    intros k D target _ _ _ pc Hpc. exists pc. split; [exact Hpc|]. cbn [convert_arg]. rewrite En. apply goes_ret.
  - destruct (Place e' a ty (Some size) Sd Sz) as (k0 & K0). exists (MArg (hex a) APointer (Some size)), k0. cbn [c_argument ma_type ma_value ma_size fst snd]. split; [reflexivity|]. split; [reflexivity|]. split; [split; [apply hex_text | exact Us]|]. exact K0.
  - destruct (Place e' a ty None Sd Sz) as (k0 & K0). exists (MArg (hex a) APointer None), k0. cbn [c_argument ma_type ma_value ma_size fst snd]. split; [reflexivity|]. split; [reflexivity|]. split; [split; [apply hex_text | exact I]|]. exact K0.
Qed.
Lemma arguments_run es cs : Forall2 (passes v u vars b floats m) es cs -> exists xs k0, map c_argument xs = map fst cs /\ sizes_of xs = flat_map snd cs /\ Forall arg_fits xs /\
  forall k D ps, (k0 <= k)%nat -> answers_variables L s D u v vars (Some [OReg r]) base k -> knows floats D v k -> forall pc, at_pc L s pc -> exists pc', at_pc L s pc' /\ goes L (convert_args D (map (fun a => (a, evaluate D a)) es) ps) pc s xs pc' s.
Proof.
  induction 1 as [|e c es cs P _ (xs & k1 & A1 & A2 & A3 & A4)].
  - exists [], 0%nat. split; [reflexivity|]. split; [reflexivity|]. split; [apply Forall_nil|]. intros k D ps _ _ _ pc Hpc. exists pc. split; [exact Hpc|]. cbn [map convert_args]. apply goes_ret.
  - destruct (argument_runs e c P) as (x & k0 & B1 & B2 & B3 & B4). exists (x :: xs), (k0 + k1)%nat. cbn [map]. unfold sizes_of in *. cbn [flat_map]. rewrite A1, A2, B1, B2. split; [reflexivity|]. split; [reflexivity|]. split; [apply Forall_cons; assumption|].
    intros k D ps Hk G Kn pc Hpc. cbn [convert_args fst snd]. destruct (B4 k D (match ps with p :: _ => Some (snd p) | [] => None end) ltac:(lia) G Kn pc Hpc) as (pc1 & H1 & R1). destruct (A4 k D (tl ps) ltac:(lia) G Kn pc1 H1) as (pc2 & H2 & R2).
    exists pc2. split; [exact H2|]. eapply goes_bind; [exact R1|]. eapply goes_bind; [exact R2|]. apply goes_ret.
Qed.
End One.
(** The result, shown. *)
Lemma outcome_shown {St} (L : debugger St) v floats x s1 rt rs lines : outcome L v floats x s1 rt rs lines -> value_fits x -> exists z value ty k0, returns x rs z /\ lines = [st "type: " ++ ty; st "value: " ++ value] /\ text value /\ text ty /\
  forall k D pc, (k0 <= k)%nat -> knows floats D v k -> goes L (eio (result_val D rt z)) pc s1 (EResult value ty) pc s1.
Proof.
  intros [R | n a t m w R -> T1 P1 M1 Fo Ti Tt Tw] Fx.
  - eexists _, (dec (v_unsigned x)), (st "usize"), 0%nat. split; [exact R|]. split; [reflexivity|]. split; [apply dec_text|]. split; [txt|]. intros k D pc _ _. exists []. split; [reflexivity | constructor].
  - destruct (found_reads L s1 T1 P1 m M1 floats v 8 a t w Fo) as (k1 & K1). eexists _, (Base.join [lf] (shown w)), (tname t), k1. split; [exact R|]. split; [reflexivity|]. split; [apply join_text; exact Tw|]. split; [exact Tt|]. intros k D pc Hk Kn. destruct (K1 k D Hk Kn) as (y & X1 & X2 & _).
    apply eruns_goes, eruns_io. cbn [result_val]. unfold pointer_to_result. eapply runs_bind; [unfold read_pointer; cbn [fst snd]; apply X1; rewrite (proj1 Kn); lia|]. eapply runs_bind; [specialize (X2 (fun y => y)); rewrite !map_type_id in X2; exact X2|]. rewrite (formatted_exactly_partial w Ti). apply runs_ret.
Qed.

Section Files.
Variables (smap : list (fpath * fpath)) (fs : fpath -> option stored) (order : list nat -> list nat) (X : externals)
  (sort : (AddrModel.finfo -> Z) -> list AddrModel.finfo -> list AddrModel.finfo) (workspace : option fpath)
  (sig_of : str -> str) (show_float : Z -> list Z -> str) (is_float : str -> bool).
Hypothesis Hsort : sorts sort.
Let loader := server_load smap fs order X sort workspace sig_of utf8_lossy show_float is_float.

(** [rd eval <text>] over a new connection to a server that loads the files: the lines printed, and the state [s1] the target is left in. *)
Definition prints_leaving {St} (L : debugger St) (s : St) (p : str) (n k : nat) (args : list str) (lines : list str) (s1 : St) : Prop :=
  exists w0, forall writes, (w0 <= writes)%nat ->
    (exists up down xs s2 e, connected (loader n k) L p [(st "eval", args)] s writes up down xs s2 e) /\
    (forall up down xs s2 e, connected (loader n k) L p [(st "eval", args)] s writes up down xs s2 e -> exists j, xs = [Ok j] /\ s2 = s1 /\ e = Closed /\
       forall repr, print_response repr (st "eval") (the_fields j) = lines).
Lemma goes_prints St (L : debugger St) s p B n k args e value ty pc s1 : debugger_fits L -> text p -> open_binary smap fs order X (components p) = Ok B ->
  args <> [] -> Forall text args -> parse_expression (Base.join (st " ") args) = Ok e ->
  let D := debug_info sort smap workspace n k B X sig_of utf8_lossy show_float is_float in
  goes L (e_val (evaluate D e)) None s (EResult value ty) pc s1 -> text value -> text ty -> prints_leaving L s p n k args [st "type: " ++ ty; st "value: " ++ value] s1.
Proof.
  intros Fits Tp Op Na Ta Pe DB (t & Ex & Ft) Tv Tt. set (m := Complete (PValue (EResult value ty))). assert (Fm : server_fits m) by (split; assumption).
  assert (Ex2 : exec (python_client L) (handle_command DB (st "eval") args) s = (t, Ok m, s1)).
  { unfold handle_command. rewrite str_eqb_refl. cbn [orb]. destruct args as [|a0 args]; [congruence|]. rewrite Pe, exec_bind, Ex. cbn [exec fst]. rewrite app_nil_r. reflexivity. }
  assert (Dl : dialogue L DB s [(st "eval", args)] [Ok (enc_server m)] s1 Closed).
  { eapply d_answered; [discriminate | split; [|exact Ta] | exact Ex2 | exact Ft | exact Fm | constructor]. cbn [fst]. txt. }
  destruct (session_end_to_end St L (loader n k) p DB s [(st "eval", args)] [Ok (enc_server m)] s1 Closed Fits Tp) as (w0 & W); [unfold loader, server_load; rewrite Op; reflexivity | exact Dl|].
  exists w0. intros writes Hw. destruct (W writes Hw) as [(up & down & E) U]. split; [eauto 10|]. intros up' down' xs' s2' e' C. destruct (U _ _ _ _ _ C) as (-> & -> & ->). eexists. split; [reflexivity|]. split; [reflexivity|]. split; [reflexivity|]. intros repr. apply value_printed. discriminate.
Qed.
(** The only function of a name, listed with its parameters and its result. *)
Lemma callee_listed B tables ms fn y f u d v ps rt : bi_index B = index_symbol_map X tables -> Forall well_formed (bi_made B) -> Forall wf_segment (ms ++ [fn]) -> ~ hash_like fn ->
  callee (history X tables) ms fn y -> declares (history X tables) B y f u d v ps rt ->
  exists k0, forall k, (k0 <= k)%nat -> exists n0, forall n, (n0 <= n)%nat -> exists g, BinaryModel.discover_functions n k B (Base.join (st "::") (ms ++ [fn])) = Ok [g] /\ df_addr g = sym_addr y /\ df_params g = ps /\ df_ret g = rt.
Proof.
  intros Hix Hmade W Hh Cy (Fi & Rf & (s & Fo) & Hu & T & V & (Fp & Hr)). rewrite Forall_forall in Hmade. pose proof (Hmade f (made_here B _ f Fi)) as Wf. destruct (file_dies X tables B Hix f Rf Wf) as (n0 & K).
  destruct (proj2 (Cy y) eq_refl) as [Ly Ny]. assert (Py : parsed (sym_name y)) by (apply (functions_parsed X tables); exact (proj1 (is_last_in _ _ _ Ly))).
  destruct (well_parts f Wf) as (_ & D & A).
  assert (Kp : exists k1, forall k, (k1 <= k)%nat -> mapM (fun p : option str * Z => t <- resolve_type k v (snd p) ;; Ok (fst p, t)) (declared_params d) = Ok ps).
  { clear - Fp. induction Fp as [|p q l l' [E [k1 R]] _ (k2 & IH)]; [exists 0%nat; reflexivity|]. exists (k1 + k2)%nat. intros k Hk. cbn [mapM]. rewrite (resolve_mono k1 k v _ _ ltac:(lia) R). cbn [bind]. rewrite IH by lia. cbn [bind]. rewrite <- E. destruct q. reflexivity. }
  assert (Kr : exists k1, forall k, (k1 <= k)%nat -> match ref_of At_type d with Some t => rmap Some (resolve_type k v t) | None => Ok None end = Ok rt).
  { destruct (ref_of At_type d) as [t|], rt as [ty|]; try contradiction Hr; [|exists 0%nat; reflexivity]. destruct Hr as [k1 R]. exists k1. intros k Hk. rewrite (resolve_mono k1 k v _ _ Hk R). reflexivity. }
  destruct Kp as (k1 & Kp). destruct Kr as (k2 & Kr). exists (k1 + k2)%nat. intros k Hk. exists n0. intros n Hn. destruct (K n Hn) as (_ & K2 & _). destruct (K2 (sym_name y) d s u Py Fo Hu T) as (v' & O & V').
  assert (v' = v) as -> by (destruct V as [na V], V' as [nb V']; rewrite <- (V (na + nb)%nat), <- (V' (na + nb)%nat) by lia; reflexivity).
  destruct (good_view f u v D (A u Hu) Hu V) as [Ge En].
  unfold BinaryModel.discover_functions, ix, DiscoverModel.discover_functions, sname_parse. rewrite Hix, (symbol_path_without_hash_partial ms fn W Hh). cbn [bind].
  match goal with |- context [filter ?g ?l] => set (ys := filter g l) end.
  assert (Ys : ys = [y]).
  { destruct (all_symbols_spec X tables) as [Nd S]. cbn zeta in Nd, S.
    assert (Iff : forall z, In z ys <-> z = y).
    { intros z. unfold ys. rewrite filter_In, S, matches_plain. cbn [module_path lookup_name]. rewrite <- (Cy z). reflexivity. }
    assert (N : NoDup ys) by (apply (NoDup_map_inv sym_name); apply NoDup_map_filter; exact Nd). clearbody ys. destruct ys as [|z [|z' l]].
    - exfalso. exact (proj2 (Iff y) eq_refl).
    - f_equal. apply Iff. left. reflexivity.
    - exfalso. inversion N as [|? ? N1 _]; subst. apply N1. left. rewrite (proj1 (Iff z) (or_introl eq_refl)). apply Iff. right. left. reflexivity. }
  rewrite Ys. cbn [mapM]. unfold discovered, debug_entry.
  assert (Gf : get_function (index_symbol_map X tables) (sym_name y) = Some y).
  { apply listed_is_found. destruct (all_symbols_spec X tables) as [_ S]. cbn zeta in S. apply S. exact Ly. }
  rewrite Gf. unfold function_dies. rewrite Fi, O. unfold create_function. change (e_off (d_entry d)) with (h_of d). rewrite (function_at v Ge (h_of d) d) by (split; [rewrite En; exact T | reflexivity]). cbn [bind info_of fi_params fi_ret].
  rewrite Kp by lia. cbn [bind]. rewrite Kr by lia. cbn [bind mapM]. eexists. split; [reflexivity|]. repeat split.
Qed.
(** Types declared in any unit of the binary can be resolved. *)
Lemma knows_unit n k B f u v : Forall well_formed (bi_made B) -> apart (bi_made B) -> In f (bi_made B) -> In u (bf_units f) -> unit_env n f u = v -> en_unit v = bu_die u ->
  knows show_float (debug_info sort smap workspace n k B X sig_of utf8_lossy show_float is_float) v k.
Proof.
  intros Hmade Hapart Hf Hu V Eu. split; [reflexivity|]. split; [reflexivity|]. split; [reflexivity|]. intros h t R. cbn [debug_info g_env i_resolve]. destruct (resolved_die v h t R) as (x & Tx & <-). rewrite Eu in Tx.
  rewrite (die_env_known B Hmade Hapart n f u x Hf Hu Tx), V. reflexivity.
Qed.
(** ** C114 *)
(** [rd eval name(arg, ...)], the name being that of one function of the binary and the arguments numbers and places of the stopped
    function's frame: LLDB evaluates one C expression, which calls the function at its address with the arguments; the printed lines
    are the declared type of the result and the lines of the value it returned. *)
Theorem function_call_printed_partial : forall St (L : debugger St) s p B tables,
  debugger_fits L -> l_target L s = true -> l_process L s = true -> l_thread L s = true -> l_frame L s = true -> text p ->
  open_binary smap fs order X (components p) = Ok B -> bi_index B = index_symbol_map X tables -> Forall well_formed (bi_made B) -> apart (bi_made B) ->
  forall m f u d v ps ls r b args ms fn es y f2 u2 d2 v2 qs rt cs rs ctext x s1 lines, served (l_memory L s) m -> stopped smap X L s B tables f u d v ps ls r b ->
  args <> [] -> Forall text args -> parse_expression (Base.join (st " ") args) = Ok (ECall (Base.join (st "::") (ms ++ [fn])) es) -> Forall wf_segment (ms ++ [fn]) -> ~ hash_like fn ->
  callee (history X tables) ms fn y -> declares (history X tables) B y f2 u2 d2 v2 qs rt -> 0 < sym_addr y < two64 -> List.length es = List.length qs ->
  Forall2 (passes v u (somes ps ++ somes ls) b show_float m) es cs -> result_size rt rs -> opt u64 rs ->
  says_call ctext (sym_addr y) (map fst cs) "void" (flat_map snd cs) rs -> l_eval L s ctext = (x, s1) -> outcome L v2 show_float x s1 rt rs lines ->
  exists k0, forall k, (k0 <= k)%nat -> exists n0, forall n, (n0 <= n)%nat -> prints_leaving L s p n k args lines s1.
Proof.
  intros St L s p B tables Fits HT HP HH HF Tp Op Hix Hmade Hapart m f u d v ps ls r b args ms fn es y f2 u2 d2 v2 qs rt cs rs ctext x s1 lines Hm Sp Na Ta Pe Wf Hh Cy De Ay Le Pa Sz Urs Sc Ev Ou.
  pose proof Sp as (sa & l & si & _ & _ & _ & Ur & Rg). destruct (stopped_answers smap X sort workspace sig_of show_float is_float Hsort St L s B tables f u d v ps ls r b Hix Hmade Hapart Sp) as (base & k1 & K1).
  destruct (callee_listed B tables ms fn y f2 u2 d2 v2 qs rt Hix Hmade Wf Hh Cy De) as (k2 & K2).
  destruct (arguments_run L s HT HP HH HF m show_float Hm v u (somes ps ++ somes ls) b r base Ur Rg es cs Pa) as (xs & k3 & A1 & A2 & A3 & A4).
  destruct (outcome_shown L v2 show_float x s1 rt rs lines Ou (df_eval L Fits s ctext x s1 Ev)) as (z & value & ty & k4 & R1 & -> & Tv & Tt & R2).
  destruct De as (Fi & _ & _ & Hu2 & _ & V2 & _). pose proof (made_here B _ f2 Fi) as Hf2. pose proof Hmade as Hmade'. rewrite Forall_forall in Hmade'. destruct (well_parts f2 (Hmade' f2 Hf2)) as (_ & D2 & Aa2). destruct (good_view f2 u2 v2 D2 (Aa2 u2 Hu2) Hu2 V2) as [_ En2]. destruct V2 as [nv V2].
  exists (k1 + k2 + k3 + k4)%nat. intros k Hk. destruct (K1 k ltac:(lia)) as (n1 & N1). destruct (K2 k ltac:(lia)) as (n2 & N2). exists (n1 + n2 + nv)%nat. intros n Hn. destruct (N1 n ltac:(lia)) as [Gv Kn]. destruct (N2 n ltac:(lia)) as (g & G1 & G2 & G3 & G4).
  set (DB := debug_info sort smap workspace n k B X sig_of utf8_lossy show_float is_float) in *.
  pose proof (knows_unit n k B f2 u2 v2 Hmade Hapart Hf2 Hu2 (V2 n ltac:(lia)) En2) as Kn2. fold DB in Kn2.
  destruct (A4 k DB qs ltac:(lia) Gv Kn None (or_introl eq_refl)) as (pc & _ & Ra).
  apply (goes_prints St L s p B n k args _ value ty pc s1 Fits Tp Op Na Ta Pe); [|exact Tv | exact Tt]. fold DB. cbn [evaluate e_val]. unfold function_val, call_function.
  apply (goes_bind L _ _ None s (g, z) pc s1 _ pc s1); [|cbn [fst snd]; rewrite G4; apply (R2 k DB pc ltac:(lia) Kn2)].
  eapply goes_bind; [apply goes_lift; unfold find_function; change (g_functions DB (Base.join (st "::") (ms ++ [fn]))) with (BinaryModel.discover_functions n k B (Base.join (st "::") (ms ++ [fn]))); rewrite G1; cbn [bind]; rewrite G2, G3, map_length; destruct (Z.eqb_spec (sym_addr y) 0); [lia|]; rewrite Le, Nat.eqb_refl; reflexivity|].
  eapply goes_bind; [rewrite G3; exact Ra|]. eapply goes_bind; [apply goes_lift; rewrite G4; unfold return_size; destruct rt as [t|]; [exact Sz | cbn in Sz; rewrite Sz; reflexivity]|].
  apply (goes_bind L _ _ pc s z pc s1 _ pc s1); [|apply goes_ret]. eapply goes_ask; [| exact HT | exact HP | |].
  - rewrite G2. cbn [request_fits]. split; [exact (conj (Z.lt_le_incl _ _ (proj1 Ay)) (proj2 Ay))|]. split; [exact A3 | exact Urs].
  - eapply p_function; [rewrite A1, A2, G2; exact Sc | exact Ev | exact R1].
  - reflexivity.
Qed.
(** But a place whose type is a user type nested in another one is not passed by value: its type is never resolved, so that its size is
    not known, and LLDB evaluates a call that gets the address of the place instead, whatever the declared size. *)
Theorem nested_argument_refuted : forall St (L : debugger St) s p B tables,
  debugger_fits L -> l_target L s = true -> l_process L s = true -> l_thread L s = true -> l_frame L s = true -> text p ->
  open_binary smap fs order X (components p) = Ok B -> bi_index B = index_symbol_map X tables -> Forall well_formed (bi_made B) -> apart (bi_made B) ->
  forall m f u d v ps ls r b args ms fn e a ty nm h t size y f2 u2 d2 v2 q rt rs ctext x s1 lines, served (l_memory L s) m -> stopped smap X L s B tables f u d v ps ls r b ->
  args <> [] -> Forall text args -> parse_expression (Base.join (st " ") args) = Ok (ECall (Base.join (st "::") (ms ++ [fn])) [e]) -> Forall wf_segment (ms ++ [fn]) -> ~ hash_like fn ->
  callee (history X tables) ms fn y -> declares (history X tables) B y f2 u2 d2 v2 [q] rt -> 0 < sym_addr y < two64 ->
  stands v u (somes ps ++ somes ls) b show_float m e a ty -> layOf ty = LAlias nm -> locOf ty = Some h -> resolves_fully v h t -> tsize t = Ok (Some size) -> result_size rt rs -> opt u64 rs ->
  says_call ctext (sym_addr y) [(st "void*", st "(void*)" ++ hex a)] "void" [] rs -> l_eval L s ctext = (x, s1) -> outcome L v2 show_float x s1 rt rs lines ->
  (exists k0, forall k, (k0 <= k)%nat -> exists n0, forall n, (n0 <= n)%nat -> prints_leaving L s p n k args lines s1) /\
  ~ says_call ctext (sym_addr y) [(st "struct Arg_" ++ dec size, st "*((struct Arg_" ++ dec size ++ st "*)" ++ hex a ++ st ")")] "void" [size] rs.
Proof.
  intros St L s p B tables Fits HT HP HH HF Tp Op Hix Hmade Hapart m f u d v ps ls r b args ms fn e a ty nm h t size y f2 u2 d2 v2 q rt rs ctext x s1 lines Hm Sp Na Ta Pe Wf Hh Cy De Ay Sd El _ _ _ Sz Urs Sc Ev Ou. split.
  - refine (function_call_printed_partial St L s p B tables Fits HT HP HH HF Tp Op Hix Hmade Hapart m f u d v ps ls r b args ms fn [e] y f2 u2 d2 v2 [q] rt [((st "void*", st "(void*)" ++ hex a), [])] rs ctext x s1 lines Hm Sp Na Ta Pe Wf Hh Cy De Ay eq_refl _ Sz Urs Sc Ev Ou).
    apply Forall2_cons; [|apply Forall2_nil]. apply (pa_address v u (somes ps ++ somes ls) b show_float m e a ty Sd). unfold tsize. rewrite El. reflexivity.
  - intros (defs' & F' & E'). destruct Sc as (defs & F & E). rewrite E in E'. change (distinct [size]) with [size] in F'. change (distinct []) with (@nil Z) in F. inversion F; subst defs. clear F E. inversion F' as [|d0 ? l0 ? D0 G0]; subst. inversion G0; subst. unfold defines in D0. subst d0.
    apply (f_equal (fun z => nth_error z 7)) in E'. destruct rs; cbn in E'; discriminate E'.
Qed.
(** [rd eval object.method(arg, ...)], the object being a place of the stopped function's frame and the method the first of that name on an
    object in the listing of its type (C109), not a built-in one: LLDB evaluates one C expression, which calls the method at its address
    with the address of the object before the arguments; the result is printed as that of a function. *)
Definition methods_are (B : binary) (ty : tdef) (l : list dmethod) : Prop :=
  exists k0, forall k, (k0 <= k)%nat -> exists n0, forall n, (n0 <= n)%nat -> BinaryModel.discover_methods n k B X sig_of ty = Ok l.
Theorem method_call_printed_partial : forall St (L : debugger St) s p B tables,
  debugger_fits L -> l_target L s = true -> l_process L s = true -> l_thread L s = true -> l_frame L s = true -> text p ->
  open_binary smap fs order X (components p) = Ok B -> bi_index B = index_symbol_map X tables -> Forall well_formed (bi_made B) -> apart (bi_made B) ->
  forall m f u d v ps ls r b args e a ty method es l me f2 u2 v2 cs rs ctext x s1 lines, served (l_memory L s) m -> stopped smap X L s B tables f u d v ps ls r b ->
  args <> [] -> Forall text args -> parse_expression (Base.join (st " ") args) = Ok (EMethodCall e method es) ->
  stands v u (somes ps ++ somes ls) b show_float m e a ty -> u64 a -> (forall names, built_in_names (layOf ty) names -> ~ In method names) ->
  methods_are B ty l -> first_of (fun q => on_object q /\ dm_name q = method) l me -> 0 < dm_addr me < two64 -> In f2 (bi_made B) -> In u2 (bf_units f2) -> unit_view f2 u2 v2 ->
  Forall2 (passes v u (somes ps ++ somes ls) b show_float m) es cs -> result_size (dm_ret me) rs -> opt u64 rs ->
  says_call ctext (dm_addr me) ((st "void*", st "(void*)" ++ hex a) :: map fst cs) "" (flat_map snd cs) rs -> l_eval L s ctext = (x, s1) -> outcome L v2 show_float x s1 (dm_ret me) rs lines ->
  exists k0, forall k, (k0 <= k)%nat -> exists n0, forall n, (n0 <= n)%nat -> prints_leaving L s p n k args lines s1.
Proof.
  intros St L s p B tables Fits HT HP HH HF Tp Op Hix Hmade Hapart m f u d v ps ls r b args e a ty method es l me f2 u2 v2 cs rs ctext x s1 lines Hm Sp Na Ta Pe Sd Ua Nb (k2 & K2) Fm Ay Hf2 Hu2 V2 Pa Sz Urs Sc Ev Ou.
  pose proof Sp as (sa & l' & si & _ & _ & _ & Ur & Rg). destruct (stopped_answers smap X sort workspace sig_of show_float is_float Hsort St L s B tables f u d v ps ls r b Hix Hmade Hapart Sp) as (base & k1 & K1).
  destruct (arguments_run L s HT HP HH HF m show_float Hm v u (somes ps ++ somes ls) b r base Ur Rg es cs Pa) as (xs & k3 & A1 & A2 & A3 & A4).
  destruct (outcome_shown L v2 show_float x s1 (dm_ret me) rs lines Ou (df_eval L Fits s ctext x s1 Ev)) as (z & value & vt & k4 & R1 & -> & Tv & Tt & R2).
  destruct (stands_ref L s HT HP HH HF m show_float Hm v u (somes ps ++ somes ls) b r base Ur Rg e a ty Sd) as (k5 & K5).
  pose proof Hmade as Hmade'. rewrite Forall_forall in Hmade'. destruct (well_parts f2 (Hmade' f2 Hf2)) as (_ & D2 & Aa2). destruct (good_view f2 u2 v2 D2 (Aa2 u2 Hu2) Hu2 V2) as [_ En2]. destruct V2 as [nv V2].
  exists (k1 + k2 + k3 + k4 + k5)%nat. intros k Hk. destruct (K1 k ltac:(lia)) as (n1 & N1). destruct (K2 k ltac:(lia)) as (n2 & N2). exists (n1 + n2 + nv)%nat. intros n Hn. destruct (N1 n ltac:(lia)) as [Gv Kn].
  set (DB := debug_info sort smap workspace n k B X sig_of utf8_lossy show_float is_float) in *.
  pose proof (knows_unit n k B f2 u2 v2 Hmade Hapart Hf2 Hu2 (V2 n ltac:(lia)) En2) as Kn2. fold DB in Kn2.
  destruct (K5 k DB ltac:(lia) Gv Kn) as [E5 _].
  destruct (A4 k DB (dm_params me) ltac:(lia) Gv Kn (Some (l_pc L s)) (or_intror eq_refl)) as (pc & _ & Ra).
  apply (goes_prints St L s p B n k args _ value vt pc s1 Fits Tp Op Na Ta Pe); [|exact Tv | exact Tt]. fold DB. cbn [evaluate e_val]. unfold method_val.
  eapply goes_bind; [exact (E5 None (or_introl eq_refl))|]. cbn [fst snd].
  assert (Sn : synthetic_name (layOf ty) method = false).
  { unfold synthetic_name. destruct (existsb (str_eqb method) (SynthModel.synthetic_methods (layOf ty))) eqn:Ex; [|reflexivity]. exfalso. apply existsb_exists in Ex. destruct Ex as (q & Iq & Q). apply str_eqb_eq in Q. subst q. revert Iq. apply Nb. destruct (layOf ty); reflexivity. }
  rewrite Sn. unfold call_method. apply (goes_bind L _ _ (Some (l_pc L s)) s (me, z) pc s1 _ pc s1); [|cbn [fst snd]; apply (R2 k DB pc ltac:(lia) Kn2)].
  apply (goes_bind L _ _ (Some (l_pc L s)) s me (Some (l_pc L s)) s _ pc s1).
  - apply goes_lift. unfold find_method. cbn [snd]. change (g_methods DB ty) with (BinaryModel.discover_methods n k B X sig_of ty). rewrite (N2 n ltac:(lia)). unfold rmap. cbn [bind].
    assert (Fi : find (fun q => str_eqb (dm_name q) method) (filter has_self l) = Some me).
    { destruct Fm as (l1 & l2 & -> & [[kk Hs] Hnm] & F1). rewrite filter_app. clear - Hs Hnm F1. induction F1 as [|q l1 Nq _ IH]; [cbn [filter app]; unfold has_self at 1; rewrite Hs; cbn [find]; rewrite Hnm, str_eqb_refl; reflexivity|].
      cbn [filter]. unfold has_self at 1. destruct (dm_self q) as [qs|] eqn:Eq; [|exact IH]. cbn [app find]. destruct (str_eqb (dm_name q) method) eqn:En; [|exact IH]. exfalso. apply Nq. split; [exists qs; exact Eq | apply str_eqb_eq; exact En]. }
    rewrite Fi. destruct (Z.eqb_spec (dm_addr me) 0); [lia | reflexivity].
  - eapply goes_bind; [exact Ra|]. eapply goes_bind; [apply goes_lift; unfold return_size; unfold result_size in Sz; destruct (dm_ret me) as [t|]; [exact Sz | rewrite Sz; reflexivity]|].
    apply (goes_bind L _ _ pc s z pc s1 _ pc s1); [|apply goes_ret]. eapply goes_ask; [| exact HT | exact HP | |].
    + cbn [request_fits fst snd]. split; [exact (conj (Z.lt_le_incl _ _ (proj1 Ay)) (proj2 Ay))|]. split; [exact Ua|]. split; [exact A3 | exact Urs].
    + cbn [fst snd]. eapply p_method; [rewrite A1, A2; exact Sc | exact Ev | exact R1].
    + reflexivity.
Qed.
End Files.
Print Assumptions function_call_printed_partial.
Print Assumptions method_call_printed_partial.
Print Assumptions nested_argument_refuted.
