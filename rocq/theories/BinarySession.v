(** From the stored files and the stopped target to the text that is printed (C105). *)
From Coq Require Import Ascii String List ZArith NArith Lia Bool Arith Permutation.
From Coq Require Import ZifyBool ZifyNat ZifyN.
From Verif Require Import Base NumText OMap AddrModel AddrSpec SymModel SymSpec SymProofs SymProps PathModel LinesModel LinesProps DieModel DieSpec ModuleModel ParserSpec
  TypesModel ValueModel DataModel DataSpec DataProofs ParserModel ResolveModel ResolveSpec LocModel FnModel FnSpec FnProps SourceModel LoadModel LoadProps ParserProofs BinaryModel BinarySpec BinaryProofs BinaryProps BinaryVars.
From Verif Require Import ExprModel ProcModel ProcSpec IoDataModel EvalModel EvalSpec ServerModel ServerSpec ServerProofs ServerProps JsonModel WireModel WireProps ClientModel ClientSpec ClientProps ClientEvents
  SessionModel SessionSpec SessionProofs SessionProps RdProps ProcProofs IoDataProofs EvalProofs EvalProps BinarySpec Utf8.
Import ListNotations.
Open Scope Z_scope.

(** server.rs 92-122: the server loads debug information for the path the client names: database.rs 126-129. *)
Definition server_load (smap : list (fpath * fpath)) (fs : fpath -> option stored) (order : list nat -> list nat) (X : externals)
    (sort : (AddrModel.finfo -> Z) -> list AddrModel.finfo -> list AddrModel.finfo) (workspace : option fpath)
    (sig_of : str -> str) (lossy : list Z -> str) (show_float : Z -> list Z -> str) (is_float : str -> bool) (n k : nat) (p : str) : res dbg :=
  B <- open_binary smap fs order X (components p) ;; Ok (debug_info sort smap workspace n k B X sig_of lossy show_float is_float).

(** ** Reading one integer variable *)
Section One.
Context {St : Type} (L : debugger St) (s : St).
Hypotheses (HT : l_target L s = true) (HP : l_process L s = true) (HH : l_thread L s = true) (HF : l_frame L s = true).
Lemma answers_frame : python_client L s GetFrameInfo = (Replied (FrameInfo (l_pc L s) (l_sp L s) (l_fp L s)), s).
Proof. rewrite client_body. cbn [body]. rewrite HT, HP, HH, HF. reflexivity. Qed.
Lemma answers_register r b : 0 <= r -> nth_register r (l_registers L s) = Some b -> python_client L s (ReadRegisterByIndex r) = (Replied (RegisterData b), s).
Proof. intros Hr H. rewrite client_body. cbn [body]. rewrite HT, HP, HH, HF. cbn [negb andb]. destruct (Z.ltb_spec r 0); [lia|]. rewrite H. reflexivity. Qed.
Lemma answers_memory a n d : l_memory L s a n = Some d -> python_client L s (ReadMemory a n) = (Replied (MemoryData d), s).
Proof. intros H. rewrite client_body. cbn [body]. rewrite HT, HP. cbn [negb andb]. rewrite H. reflexivity. Qed.
Definition integer_layout (l : layout) (w : Z) : Prop := l = LUInt w \/ l = LInt w.
Definition integer_name (l : layout) (w : Z) : str := (match l with LInt _ => st "i" | _ => st "u" end) ++ dec (8 * w).
Definition integer_value (l : layout) (w : Z) (d : list Z) : Z := match l with LInt _ => signed w (le d) | _ => le d end.
Lemma reads_integer D f a ty w d : g_fuel D = S f -> integer_layout (layOf ty) w -> In w [1; 2; 4; 8; 16] -> l_memory L s a w = Some d -> Z.of_nat (List.length d) = w ->
  exec (python_client L) (read_pointer D (a, ty)) s = ([(ReadMemory a w, Replied (MemoryData d))], Ok (VScalar (tname ty) (dec (integer_value (layOf ty) w d))), s).
Proof.
  intros Fu Il Iw Me Ln. unfold read_pointer. rewrite Fu. cbn [fst snd iread]. assert (Mz : mem_z w int_sizes = true) by (destruct Iw as [<-|[<-|[<-|[<-|[<-|[]]]]]]; reflexivity).
  unfold tname. destruct Il as [Il | Il]; rewrite Il; unfold iread_primitive, ibind, rdm, ask, lift, ret; cbn [pbind exec]; rewrite (answers_memory _ _ _ Me); unfold memory_of; cbn [pbind exec]; rewrite Mz; cbn [pbind exec bind];
    unfold le_unwrap; rewrite (proj2 (Z.eqb_eq _ _) Ln); reflexivity.
Qed.
Lemma integer_exec D name pl ty r b off w d :
  parse_expression name = Ok (EVariable name) -> g_variable D (l_pc L s) name = Ok (Some pl) ->
  vp_fb pl = Some [OReg r] -> vp_loc pl = Some [OFbreg off] -> vp_ty pl = Ok ty -> g_fuel D <> O ->
  0 <= r -> nth_register r (l_registers L s) = Some b -> integer_layout (layOf ty) w -> In w [1; 2; 4; 8; 16] ->
  l_memory L s ((b + off) mod two64) w = Some d -> Z.of_nat (List.length d) = w ->
  exec (python_client L) (handle_command D (st "eval") [name]) s =
  ([(GetFrameInfo, Replied (FrameInfo (l_pc L s) (l_sp L s) (l_fp L s))); (ReadRegisterByIndex r, Replied (RegisterData b)); (ReadMemory ((b + off) mod two64) w, Replied (MemoryData d))],
   Ok (Complete (PValue (EResult (dec (integer_value (layOf ty) w d)) (tname ty)))), s).
Proof.
  intros Pe Gv Fb Lo Ty Fu Hr Rg Il Iw Me Ln. unfold handle_command. rewrite str_eqb_refl. cbn [orb Base.join]. rewrite Pe. cbn [evaluate of_ref e_val].
  unfold ebind at 1. unfold variable_ref. unfold ebind at 1. unfold get_pc. cbn [pbind ask exec]. rewrite answers_frame. cbn [pbind exec fst snd]. unfold ebind at 1. unfold elift at 1. cbn [pbind exec fst snd]. rewrite Gv. cbn [fst snd pbind].
  unfold ebind at 1. unfold eio at 1. rewrite Fb, Lo. unfold iresolve_data_location. cbn [irun]. unfold iframe_base. cbn [irun]. unfold ibind, iregister, ask, lift, ret. cbn [pbind exec fst snd]. rewrite (answers_register r b Hr Rg). cbn [register_of pbind exec fst snd].
  assert (W : wrap (wrap (b + off)) = (b + off) mod two64) by (unfold wrap; rewrite Z.mod_mod by (unfold two64; lia); reflexivity). rewrite W. cbn [pbind exec fst snd]. unfold elift, ebind. rewrite Ty. cbn [pbind exec fst snd eret].
  destruct (g_fuel D) as [|f] eqn:Gf; [congruence|]. pose proof (reads_integer D f ((b + off) mod two64) ty w d Gf Il Iw Me Ln) as Rd.
  unfold eio, pointer_to_result, ibind. rewrite !exec_bind. match type of Rd with ?lhs = _ => match goal with |- context [exec ?c (read_pointer ?D0 ?p) s] => change (exec c (read_pointer D0 p) s) with lhs end end. rewrite Rd. cbn [pbind exec fst snd expand max_depth]. reflexivity.
Qed.
End One.

(** ** From files to text *)
Lemma dec_text z : text (dec z).
Proof.
  assert (G : forall n, 0 <= n -> text (dec_nat n)).
  { intros n H. pose proof (dec_nat_digits n H) as D. apply Forall_forall. intros c Hc. rewrite forallb_forall in D. specialize (D c Hc). unfold is_digit in D. unfold scalar. lia. }
  unfold dec. destruct (z <? 0) eqn:S; [constructor; [unfold scalar; cbn; lia|]|]; apply G; lia.
Qed.
Section Files.
Variables (smap : list (fpath * fpath)) (fs : fpath -> option stored) (order : list nat -> list nat) (X : externals)
  (sort : (AddrModel.finfo -> Z) -> list AddrModel.finfo -> list AddrModel.finfo) (workspace : option fpath)
  (sig_of : str -> str) (lossy : list Z -> str) (show_float : Z -> list Z -> str) (is_float : str -> bool).
Hypothesis Hsort : sorts sort.
Let loader := server_load smap fs order X sort workspace sig_of lossy show_float is_float.

(** The variable [x] in the target stopped in the function of its program counter: what the names of an expression mean. *)
Theorem variable_means_partial : forall St (c : client St) s B tables a sa l si f u d v ps ls r b x i, bi_index B = index_symbol_map X tables ->
  attributed smap (history X tables) B a sa l -> described smap (history X tables) B (sym_name sa) si f u d v ps ls ->
  bu_frame u (e_off (d_entry d)) = Some [OReg r] -> fst (c s (ReadRegisterByIndex r)) = Replied (RegisterData b) ->
  forall name, first_of (fun y => va_name y = Some name) (somes ps ++ somes ls) x -> shown_as v u b x i ->
  exists k0, forall k, (k0 <= k)%nat -> exists n0, forall n, (n0 <= n)%nat ->
  forall p, place c s (debug_info sort smap workspace n k B X sig_of lossy show_float is_float) a (EVariable name) p <-> vi_addr i = Some (fst p) /\ vi_ty i = snd p.
Proof.
  intros St c s B tables a sa l si f u d v ps ls r b x i Hix A D Fb R name F Sh.
  destruct (variable_found_partial X tables B Hix smap sort Hsort a sa l si f u d v ps ls (shown_regs c s) r b x i A D Fb) with (name := name) as (k0 & K); [cbn; unfold shown_register; rewrite R; reflexivity | exact F | exact Sh|].
  exists k0. intros k Hk. destruct (K k Hk) as (n0 & N). exists n0. intros n Hn. specialize (N n Hn). rewrite plan_agrees in N. apply bind_ok in N. destruct N as (o & Ev & E). destruct o as [pl|]; [|discriminate E].
  apply bind_ok in E. destruct E as ([y t] & Fo & E). injection E as <-. unfold follow in Fo. apply bind_ok in Fo. destruct Fo as (y' & Ra & Fo). apply bind_ok in Fo. destruct Fo as (t' & Ty & Fo). injection Fo as -> ->. cbn [vi_addr vi_ty].
  intros p. split.
  - intros H. inversion H as [x0 pl0 a0 t0 G Ra0 Ty0| | |]; subst. cbn [debug_info g_variable] in G. rewrite Ev in G. injection G as <-. rewrite Ra in Ra0. injection Ra0 as ->. rewrite Ty in Ty0. injection Ty0 as ->. auto.
  - intros [-> E]. destruct p as [pa pt]. cbn [fst snd] in *. subst pt. eapply pl_variable; [exact Ev | exact Ra | exact Ty].
Qed.

(** [rd eval x] in LLDB (sent as the command eval with the argument x, C97), stopped in the function of the program counter: what is printed is the
    type and the number of the variable's bytes in the target's memory. From the stored files, over the connection, for
    every memory content. *)
Theorem integer_variable_printed_partial : forall St (L : debugger St) s p B tables,
  debugger_fits L -> l_target L s = true -> l_process L s = true -> l_thread L s = true -> l_frame L s = true -> text p ->
  open_binary smap fs order X (components p) = Ok B -> bi_index B = index_symbol_map X tables ->
  forall sa l si f u d v ps ls r b x ty off w bytes name,
  attributed smap (history X tables) B (l_pc L s) sa l -> described smap (history X tables) B (sym_name sa) si f u d v ps ls ->
  bu_frame u (e_off (d_entry d)) = Some [OReg r] -> u64 r -> nth_register r (l_registers L s) = Some b ->
  first_of (fun y => va_name y = Some name) (somes ps ++ somes ls) x -> bu_loc u (va_die x) = Some [OFbreg off] -> complete_type v (va_ty x) ty ->
  integer_layout (layOf ty) w -> In w [1; 2; 4; 8; 16] -> l_memory L s ((b + off) mod two64) w = Some bytes -> Z.of_nat (List.length bytes) = w ->
  text name -> parse_expression name = Ok (EVariable name) ->
  exists k0, forall k, (k0 <= k)%nat -> exists n0, forall n, (n0 <= n)%nat -> exists w0, forall writes, (w0 <= writes)%nat ->
    (exists up down xs s2 e, connected (loader n k) L p [(st "eval", [name])] s writes up down xs s2 e) /\
    (forall up down xs s2 e, connected (loader n k) L p [(st "eval", [name])] s writes up down xs s2 e -> exists j, xs = [Ok j] /\ s2 = s /\ e = Closed /\
       forall repr, print_response repr (st "eval") (the_fields j) = [st "type: " ++ integer_name (layOf ty) w; st "value: " ++ dec (integer_value (layOf ty) w bytes)]).
Proof.
  intros St L s p B tables Fits HT HP HH HF Tp Op Hix sa l si f u d v ps ls r b x ty off w bytes name A D Fb Ur Rg F Lo Ct Il Iw Me Ln Tn Pe.
  set (i := VInfo name (Some ((b + off) mod two64)) ty).
  assert (Sh : shown_as v u b x i). { destruct F as (l1 & l2 & _ & Nx & _). split; [cbn; now rewrite Nx|]. split; [rewrite Lo; reflexivity | exact Ct]. }
  destruct (frame_known X tables B Hix smap sort Hsort (l_pc L s) sa l si f u d v ps ls A D) as (s' & k1 & K1). destruct (complete_known v (va_ty x) ty Ct) as (k2 & K2).
  exists (S (k1 + k2)). intros k Hk. destruct (K1 k ltac:(lia)) as (n0 & N). exists n0. intros n Hn. destruct (N n Hn) as [V Fr].
  set (DB := debug_info sort smap workspace n k B X sig_of lossy show_float is_float).
  assert (Gv : g_variable DB (l_pc L s) name = Ok (Some (VPlan (bu_frame u (e_off (d_entry d))) (sym_addr si) (bu_loc u (va_die x)) (Ok ty)))).
  { cbn [DB debug_info g_variable]. unfold variable_plan. rewrite Fr. cbn [bind fst snd]. apply (proj2 (ParserProofs.find_first (named_var name) _ _ x (fun y _ => named_var_iff name y))) in F. rewrite F, V, (K2 k) by lia. reflexivity. }
  assert (Gf : g_fuel DB <> O) by (cbn [DB debug_info g_fuel]; lia).
  pose proof (integer_exec L s HT HP HH HF DB name _ ty r b off w bytes Pe Gv Fb Lo eq_refl Gf ltac:(destruct Ur; lia) Rg Il Iw Me Ln) as Ex.
  assert (Tn2 : integer_name (layOf ty) w = tname ty) by (unfold integer_name, tname; destruct Il as [-> | ->]; cbn [display_name]; unfold usz; rewrite Z.mul_comm; reflexivity).
  set (m := Complete (PValue (EResult (dec (integer_value (layOf ty) w bytes)) (tname ty)))) in *.
  assert (Dl : dialogue L DB s [(st "eval", [name])] [Ok (enc_server m)] s Closed).
  { eapply d_answered; [discriminate | split; [|constructor; [exact Tn | constructor]] | exact Ex | | | constructor].
    - cbn [fst]. txt.
    - repeat (apply Forall_cons); cbn [fst request_fits]; auto. split; [pose proof (Z.mod_pos_bound (b + off) two64 ltac:(unfold two64; lia)); unfold u64; lia|]. unfold u64, two64. destruct Iw as [<-|[<-|[<-|[<-|[<-|[]]]]]]; lia.
    - cbn [m server_fits payload_fits er_value er_type]. split.
      + apply dec_text.
      + rewrite <- Tn2. unfold integer_name. apply Forall_app. split; [destruct (layOf ty); txt | apply dec_text]. }
  destruct (session_end_to_end St L (loader n k) p DB s [(st "eval", [name])] [Ok (enc_server m)] s Closed Fits Tp) as (w0 & W); [unfold loader, server_load; rewrite Op; reflexivity | exact Dl|].
  exists w0. intros writes Hw. destruct (W writes Hw) as [(up & down & E) U]. split; [eauto 10|]. intros up' down' xs' s2' e' C. destruct (U _ _ _ _ _ C) as (-> & -> & ->). eexists. repeat split; [reflexivity..|]. intros repr. rewrite Tn2. apply value_printed. discriminate.
Qed.
End Files.
Print Assumptions variable_means_partial.
Print Assumptions integer_variable_printed_partial.
