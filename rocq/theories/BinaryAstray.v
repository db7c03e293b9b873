(** C125: expressions that designate nothing, from the typed text to the printed error. *)
From Coq Require Import Ascii String List ZArith NArith Lia Bool Arith Sorted Permutation.
From Coq Require Import ZifyBool ZifyNat ZifyN.
From Verif Require Import Base NumText OMap AddrModel AddrSpec SymModel SymSpec SymProofs SymProps PathModel LinesModel LinesProps DieModel DieSpec ModuleModel ParserSpec
  TypesModel ValueModel DataModel DataSpec DataProofs ParserModel ResolveModel ResolveSpec ResolveProps LocModel FnModel FnSpec FnProps SourceModel LoadModel LoadProps ParserProofs BinaryModel BinarySpec BinaryProofs BinaryProps BinaryVars BinaryTypes BinaryMethods.
From Verif Require Import AccessModel ExprModel ProcModel ProcSpec IoDataModel EvalModel EvalSpec ServerModel ServerSpec ServerProofs ServerProps JsonModel WireModel WireProps ClientModel ClientSpec ClientProps ClientEvents
  SessionModel SessionSpec SessionProofs SessionProps RdProps ProcProofs FormatSpec FormatProps BinarySession BinarySpec AccessProps EvalProps PlainSpec PlainProofs BinaryEval BinaryCall.
From Verif Require Import DiscoverModel DiscoverSpec DiscoverProofs DiscoverProps DiscoverFns BinaryDiscover.
From Verif Require Import DataModel ParserModel ValueModel Utf8.
Import ListNotations.
Open Scope Z_scope.

(** ** Expressions that designate nothing *)
Section Astray.
Variables (v : env) (u : bunit) (vars : list var) (b : Z) (floats : Z -> list Z -> str) (m : memory) (no_function : str -> Prop).
Local Notation stands := (stands v u vars b floats m).
Local Notation numbers := (numbers v u vars b floats m).
Local Notation names := (names v u vars b floats m).
Local Notation key_is := (key_is v floats m).
(** Types without fields and without elements. Structs, tuples, enums, pointers of all kinds, and user types that are not resolved are
    left aside: fields and elements may be meant there (C110 has the findings about those the code refuses). *)
Definition no_fields (l : layout) : Prop := match l with LStruct _ _ _ _ | LTuple _ _ | LEnum _ _ _ _ | LReference _ _ | LPointer _ _ | LSmartPtr _ _ _ _ | LAlias _ => False | _ => True end.
Definition no_elements (l : layout) : Prop :=
  match l with LArray _ _ | LSlice _ _ _ | LVec _ _ _ _ | LMap _ _ _ | LStruct _ _ _ _ | LReference _ _ | LPointer _ _ | LSmartPtr _ _ _ _ | LAlias _ => False | _ => True end.
Inductive astray : expr -> Prop :=
| as_variable name : (forall x, In x vars -> va_name x <> Some name) -> astray (EVariable name)
| as_no_field e a ty n s al fl name : stands e a ty -> layOf ty = LStruct n s al fl -> (forall g, In g fl -> f_name g <> name) -> astray (EField e name)
| as_beyond_array e a ty t len e' i : stands e a ty -> layOf ty = LArray t len -> numbers e' i -> len <= i -> astray (EIndex e e')
| as_beyond_vec e a ty lo dpo co t base len e' i : stands e a ty -> layOf ty = LVec lo dpo co t -> u64 (a + lo) -> u64 (a + dpo) -> holds_uint m (a + lo) 8 len -> holds_uint m (a + dpo) 8 base ->
    numbers e' i -> len <= i -> astray (EIndex e e')
| as_no_key e a ty k vt mv l e' x : stands e a ty -> layOf ty = LMap k vt mv -> entries m a k vt mv l -> names e' x -> Forall (fun en => exists y, key_is k (fst en) y /\ y <> x) l -> astray (EIndex e e')
| as_fieldless e a ty name : stands e a ty -> no_fields (layOf ty) -> astray (EField e name)
| as_without_elements e a ty e' i : stands e a ty -> no_elements (layOf ty) -> numbers e' i -> astray (EIndex e e')
| as_no_function name args : no_function name -> astray (ECall name args)
| as_in_field e name : astray e -> astray (EField e name)
| as_in_base e e' : astray e -> astray (EIndex e e')
| as_in_index e a ty e' : stands e a ty -> astray e' -> astray (EIndex e e')
| as_in_paren e : astray e -> astray (EParen e)
| as_on_object e name args : astray e -> astray (EMethodCall e name args).
End Astray.

Section One.
Context {St : Type} (L : debugger St) (s : St).
Hypotheses (HT : l_target L s = true) (HP : l_process L s = true) (HH : l_thread L s = true) (HF : l_frame L s = true).
(** It ends with an error; the target is as before. *)
Definition errs {A} (p : ev A) (pc : option Z) : Prop :=
  exists t msg pc', exec (python_client L) (p pc) s = (t, (Err msg, pc'), s) /\ Forall (fun x => request_fits (fst x)) t /\ text (st msg).
Lemma errs_bind {A B} (p : ev A) (f : A -> ev B) pc : errs p pc -> errs (ebind p f) pc.
Proof. intros (t & msg & pc' & E & F & T). exists t, msg, pc'. split; [|split; assumption]. unfold ebind. rewrite exec_bind, E. cbn [fst snd exec]. rewrite app_nil_r. reflexivity. Qed.
Lemma errs_then {A B} (p : ev A) (f : A -> ev B) pc a pc' : eruns L s p pc a pc' -> errs (f a) pc' -> errs (ebind p f) pc.
Proof.
  intros (t1 & E1 & F1) (t2 & msg & pc2 & E2 & F2 & T). exists (t1 ++ t2), msg, pc2. split; [|split; [apply Forall_app; split; assumption | exact T]]. unfold ebind. rewrite exec_bind, E1. cbn [fst snd]. rewrite E2. reflexivity.
Qed.
Lemma errs_fail {A} msg pc : text (st msg) -> errs (@efail A msg) pc.
Proof. intros T. exists [], msg, pc. split; [reflexivity|]. split; [constructor | exact T]. Qed.
Lemma errs_lift {A} msg pc : text (st msg) -> errs (@elift A (Err msg)) pc.
Proof. exact (errs_fail msg pc). Qed.
(** The same of a step that talks to the client. *)
Definition ierrs {A} (p : io A) : Prop := exists t msg, exec (python_client L) p s = (t, Err msg, s) /\ Forall (fun x => request_fits (fst x)) t /\ text (st msg).
Lemma errs_io {A} (p : io A) pc : ierrs p -> errs (eio p) pc.
Proof. intros (t & msg & E & F & T). exists t, msg, pc. split; [|split; assumption]. unfold eio. rewrite exec_bind, E. cbn [exec]. rewrite app_nil_r. reflexivity. Qed.
Lemma ierrs_then {A B} (p : io A) (f : A -> io B) a : runs L s p a -> ierrs (f a) -> ierrs (ibind p f).
Proof.
  intros (t1 & E1 & F1) (t2 & msg & E2 & F2 & T). exists (t1 ++ t2), msg. split; [|split; [apply Forall_app; split; assumption | exact T]]. unfold ibind. rewrite exec_bind, E1. rewrite E2. reflexivity.
Qed.
Lemma ierrs_lift {A} msg : text (st msg) -> ierrs (@lift A (Err msg)).
Proof. intros T. exists [], msg. split; [reflexivity|]. split; [constructor | exact T]. Qed.
Variables (m : memory) (floats : Z -> list Z -> str).
Hypothesis Hm : served (l_memory L s) m.
Section Paths.
Variables (v : env) (u : bunit) (vars : list var) (b r base : Z) (no_function : str -> Prop).
Hypotheses (Ur : u64 r) (Rg : nth_register r (l_registers L s) = Some b).
(** What the debug information answers for names that are not declared. *)
Definition answers_nothing (D : dbg) : Prop :=
  (forall name, (forall x, In x vars -> va_name x <> Some name) -> g_variable D (l_pc L s) name = Ok None) /\
  (forall name, no_function name -> g_functions D name = Ok []).
Definition all_err (x : evs) : Prop := forall pc, at_pc L s pc -> errs (e_ref x) pc /\ errs (e_val x) pc /\ errs (e_int x) pc /\ errs (e_str x) pc.
Lemma all_of_ref D (p : ev tptr) : (forall pc, at_pc L s pc -> errs p pc) -> all_err (of_ref D p).
Proof. intros H pc Hpc. cbn [of_ref e_ref e_val e_int e_str]. repeat split; try apply errs_bind; apply H, Hpc. Qed.
Lemma not_any {A} pc : errs (@no A) pc.
Proof. apply errs_fail. txt. Qed.
Lemma astray_errs e : astray v u vars b floats m no_function e ->
  exists k0, forall k D, (k0 <= k)%nat -> answers_variables L s D u v vars (Some [OReg r]) base k -> knows floats D v k -> answers_nothing D -> all_err (evaluate D e).
Proof.
  pose proof (stands_ref L s HT HP HH HF m floats Hm v u vars b r base Ur Rg) as SR.
  pose proof (paths_run L s HT HP HH HF m floats Hm v u vars b r base Ur Rg) as (_ & NU & NA).
  induction 1 as [name Nv | e a ty n sz al fl name Sd El Nf | e a ty t len e' i Sd El Ni Hi | e a ty lo dpo co t q len e' i Sd El U1 U2 H1 H2 Ni Hi | e a ty kt vt mv l e' x Sd El En Nx Fk
    | e a ty name Sd Si | e a ty e' i Sd Si Ni | name args Nf | e name _ (k0 & IH) | e e' _ (k0 & IH) | e a ty e' Sd _ (k0 & IH) | e _ (k0 & IH) | e name args _ (k0 & IH)].
  - exists 0%nat. intros k D _ G Kn [Gn _]. cbn [evaluate]. apply all_of_ref. intros pc Hpc. unfold variable_ref.
    eapply errs_then; [apply (eruns_pc L s HT HP HH HF); exact Hpc|]. eapply errs_then; [apply eruns_lift; apply Gn; exact Nv|]. apply errs_fail. txt.
  - destruct (SR e a ty Sd) as (k0 & K). exists k0. intros k D Hk G Kn _. destruct (K k D Hk G Kn) as [E _]. cbn [evaluate]. apply all_of_ref. intros pc Hpc.
    eapply errs_then; [exact (E pc Hpc)|]. cbn [fst snd]. unfold get_struct_field. rewrite El.
    match goal with |- context [find ?q fl] => destruct (find q fl) as [g|] eqn:Fi end; [exfalso; apply find_some in Fi; destruct Fi as [I Q]; apply str_eqb_eq in Q; exact (Nf g I Q)|]. apply errs_lift. txt.
  - destruct (SR e a ty Sd) as (k0 & K). destruct (NU e' i Ni) as (k1 & K1). exists (k0 + k1)%nat. intros k D Hk G Kn _. destruct (K k D ltac:(lia) G Kn) as [E _]. specialize (K1 k D ltac:(lia) G Kn). cbn [evaluate]. apply all_of_ref. intros pc Hpc. unfold index_ref.
    eapply errs_then; [exact (E pc Hpc)|]. cbn [fst snd]. rewrite El. cbn [is_map]. eapply errs_then; [exact K1|]. apply errs_io. unfold iindex_int. rewrite El. destruct (Z.leb_spec len i); [|lia]. apply ierrs_lift. txt.
  - destruct (SR e a ty Sd) as (k0 & K). destruct (NU e' i Ni) as (k1 & K1). exists (k0 + k1)%nat. intros k D Hk G Kn _. destruct (K k D ltac:(lia) G Kn) as [E _]. specialize (K1 k D ltac:(lia) G Kn). cbn [evaluate]. apply all_of_ref. intros pc Hpc. unfold index_ref.
    eapply errs_then; [exact (E pc Hpc)|]. cbn [fst snd]. rewrite El. cbn [is_map]. eapply errs_then; [exact K1|]. apply errs_io. unfold iindex_int. rewrite El.
    eapply ierrs_then; [apply (runs_vec_info L s HT HP m Hm floats a lo dpo len q U1 U2 H1 H2)|]. cbn beta iota. destruct (Z.leb_spec len i); [|lia]. apply ierrs_lift. txt.
  - destruct (SR e a ty Sd) as (k0 & K). destruct (NA e' x Nx) as (Q & k1 & K1).
    assert (KF : exists k2, forall n D ty, (k2 <= n)%nat -> knows floats D v n -> forall f, (k2 <= f)%nat -> ierrs (ifind_key (g_env D) f kt vt (VScalar ty x) l)).
    { clear - Fk Q HT HP HH HF Hm. induction Fk as [|[ka' va'] l (y & (j' & t' & z' & Fz' & Dz') & Ny) _ (k1 & IH)].
      - exists 0%nat. intros n D ty _ _ f _. cbn [ifind_key]. apply ierrs_lift. txt.
      - cbn [fst] in Fz'. destruct (scalar_reads L s HT HP m floats Hm v j' ka' kt t' z' Fz') as (k0 & R). exists (k0 + k1)%nat. intros n D ty Hn K f Hf. cbn [ifind_key]. eapply ierrs_then; [apply (R n D ltac:(lia) K f); lia|]. cbn beta iota.
        cbn [values_equal]. change (ch """") with quote. rewrite (trim_denotes z' y Dz'), (trim_id x Q). replace (str_eqb x y) with false by (symmetry; apply str_eqb_neq; congruence). apply (IH n D ty); [lia | exact K | lia]. }
    destruct KF as (k2 & KF). exists (k0 + k1 + k2)%nat. intros k D Hk G Kn _. destruct (K k D ltac:(lia) G Kn) as [E _]. specialize (K1 k D ltac:(lia) G Kn). cbn [evaluate]. apply all_of_ref. intros pc Hpc. unfold index_ref.
    eapply errs_then; [exact (E pc Hpc)|]. cbn [fst snd]. rewrite El. cbn [is_map]. eapply errs_then; [exact K1|]. apply errs_io. unfold iindex_map. rewrite El.
    eapply ierrs_then; [apply (runs_entries L s HT HP m Hm a kt vt mv _ En)|]. cbn beta. apply (KF k D); [lia | exact Kn|]. rewrite (proj1 Kn). lia.
  - destruct (SR e a ty Sd) as (k0 & K). exists k0. intros k D Hk G Kn _. destruct (K k D Hk G Kn) as [E _]. cbn [evaluate]. apply all_of_ref. intros pc Hpc.
    eapply errs_then; [exact (E pc Hpc)|]. cbn [fst snd]. unfold get_struct_field. destruct (layOf ty); try contradiction Si; apply errs_lift; txt.
  - destruct (SR e a ty Sd) as (k0 & K). destruct (NU e' i Ni) as (k1 & K1). exists (k0 + k1)%nat. intros k D Hk G Kn _. destruct (K k D ltac:(lia) G Kn) as [E _]. specialize (K1 k D ltac:(lia) G Kn). cbn [evaluate]. apply all_of_ref. intros pc Hpc. unfold index_ref.
    eapply errs_then; [exact (E pc Hpc)|]. cbn [fst snd]. destruct (layOf ty) eqn:El; try contradiction Si; cbn [is_map]; (eapply errs_then; [exact K1|]); apply errs_io; unfold iindex_int; rewrite El; apply ierrs_lift; txt.
  - exists 0%nat. intros k D _ G Kn [_ Gf] pc Hpc. cbn [evaluate e_ref e_val e_int e_str]. unfold function_ref, function_val, call_function.
    assert (X : forall xs : list (expr * evs), @elift dfunction (find_function D name (List.length xs)) = elift (Err "Function not found")) by (intros xs; unfold find_function; rewrite (Gf name Nf); reflexivity).
    rewrite X. repeat split; try apply not_any; apply errs_bind, errs_bind, errs_lift; txt.
  - exists k0. intros k D Hk G Kn Gn. specialize (IH k D Hk G Kn Gn). cbn [evaluate]. apply all_of_ref. intros pc Hpc. apply errs_bind. apply (IH pc Hpc).
  - exists k0. intros k D Hk G Kn Gn. specialize (IH k D Hk G Kn Gn). cbn [evaluate]. apply all_of_ref. intros pc Hpc. unfold index_ref. apply errs_bind. apply (IH pc Hpc).
  - destruct (SR e a ty Sd) as (k1 & K). exists (k0 + k1)%nat. intros k D Hk G Kn Gn. specialize (IH k D ltac:(lia) G Kn Gn). destruct (K k D ltac:(lia) G Kn) as [E _]. cbn [evaluate]. apply all_of_ref. intros pc Hpc. unfold index_ref.
    eapply errs_then; [exact (E pc Hpc)|]. cbn [fst snd]. destruct (IH _ (here_pc L s)) as (_ & _ & Hi & Hs). destruct (is_map (layOf ty)); apply errs_bind; assumption.
  - exists k0. intros k D Hk G Kn Gn pc Hpc. destruct (IH k D Hk G Kn Gn pc Hpc) as (_ & Hv & Hi & Hs). cbn [evaluate e_ref e_val e_int e_str]. repeat split; try assumption. apply not_any.
  - exists k0. intros k D Hk G Kn Gn pc Hpc. destruct (IH k D Hk G Kn Gn pc Hpc) as (Hr & _). cbn [evaluate e_ref e_val e_int e_str]. unfold method_ref, method_val. repeat split; try apply not_any; apply errs_bind; exact Hr.
Qed.
End Paths.
End One.

(** An evaluation that ends with an error and leaves the target in the state [s1]. *)
Definition halts {St} (L : debugger St) {A} (p : ev A) (pc : option Z) (s s1 : St) : Prop :=
  exists t msg pc', exec (python_client L) (p pc) s = (t, (Err msg, pc'), s1) /\ Forall (fun x => request_fits (fst x)) t /\ text (st msg).
Lemma halts_bind {St} (L : debugger St) {A B} (p : ev A) (f : A -> ev B) pc s s1 : halts L p pc s s1 -> halts L (ebind p f) pc s s1.
Proof. intros (t & msg & pc' & E & F & T). exists t, msg, pc'. split; [|split; assumption]. unfold ebind. rewrite exec_bind, E. cbn [fst snd exec]. rewrite app_nil_r. reflexivity. Qed.
Lemma halts_then {St} (L : debugger St) {A B} (p : ev A) (f : A -> ev B) pc s a pc1 s1 s2 : goes L p pc s a pc1 s1 -> halts L (f a) pc1 s1 s2 -> halts L (ebind p f) pc s s2.
Proof.
  intros (t1 & E1 & F1) (t2 & msg & pc2 & E2 & F2 & T). exists (t1 ++ t2), msg, pc2. split; [|split; [apply Forall_app; split; assumption | exact T]]. unfold ebind. rewrite exec_bind, E1. cbn [fst snd]. rewrite E2. reflexivity.
Qed.
Lemma halts_ask {St} (L : debugger St) {A} (q : request) (r : answer) (g : answer -> res A) pc s msg s1 : request_fits q -> python_client L s q = (r, s1) -> g r = Err msg -> text (st msg) ->
  halts L (eio (pbind (ask q) (fun x => Ret (g x)))) pc s s1.
Proof. intros Q C G T. exists [(q, r)], msg, pc. split; [|split; [apply Forall_cons; [exact Q | apply Forall_nil] | exact T]]. unfold eio, ask. cbn [pbind exec]. rewrite C. cbn [exec]. rewrite G. reflexivity. Qed.

Section Files.
Variables (smap : list (fpath * fpath)) (fs : fpath -> option stored) (order : list nat -> list nat) (X : externals)
  (sort : (AddrModel.finfo -> Z) -> list AddrModel.finfo -> list AddrModel.finfo) (workspace : option fpath)
  (sig_of : str -> str) (show_float : Z -> list Z -> str) (is_float : str -> bool).
Hypothesis Hsort : sorts sort.
Local Notation prints := (prints smap fs order X sort workspace sig_of show_float is_float).
Local Notation stopped := (stopped smap X).

Lemma prints_error St (L : debugger St) s p B n k args e : debugger_fits L -> text p -> open_binary smap fs order X (components p) = Ok B ->
  args <> [] -> Forall text args -> parse_expression (Base.join (st " ") args) = Ok e ->
  errs L s (e_val (evaluate (debug_info sort smap workspace n k B X sig_of utf8_lossy show_float is_float) e)) None -> exists msg, prints L s p n k args [st "Error: " ++ msg].
Proof.
  intros Fits Tp Op Na Ta Pe (t & msg & pc & Ex & Ft & Tm). exists (st msg).
  destruct (prints_message smap fs order X sort workspace sig_of show_float is_float St L s p B n k args e (err_msg msg) t _ _ Fits Tp Op Na Ta Pe Ex eq_refl Ft Tm) as (j & -> & w0 & W).
  exists w0. intros writes Hw. destruct (W writes Hw) as [E U]. split; [exact E|]. intros up' down' xs' s2' e2 C. destruct (U _ _ _ _ _ C) as (-> & -> & ->). eexists. split; [reflexivity|]. split; [reflexivity|]. split; [reflexivity|]. intros repr. apply (error_printed repr (st "eval")).
Qed.
Lemma halts_prints St (L : debugger St) s p B n k args e s1 : debugger_fits L -> text p -> open_binary smap fs order X (components p) = Ok B ->
  args <> [] -> Forall text args -> parse_expression (Base.join (st " ") args) = Ok e ->
  halts L (e_val (evaluate (debug_info sort smap workspace n k B X sig_of utf8_lossy show_float is_float) e)) None s s1 ->
  exists msg, prints_leaving smap fs order X sort workspace sig_of show_float is_float L s p n k args [st "Error: " ++ msg] s1.
Proof.
  intros Fits Tp Op Na Ta Pe (t & msg & pc & Ex & Ft & Tm). exists (st msg). set (DB := debug_info sort smap workspace n k B X sig_of utf8_lossy show_float is_float) in *.
  assert (Dl : dialogue L DB s [(st "eval", args)] [Ok (enc_server (err_msg msg))] s1 Closed).
  { eapply d_answered; [discriminate | split; [|exact Ta] | | exact Ft | exact Tm | constructor].
    - cbn [fst]. txt.
    - unfold handle_command. rewrite str_eqb_refl. cbn [orb]. destruct args as [|a0 args]; [congruence|]. rewrite Pe, exec_bind, Ex. cbn [exec fst]. rewrite app_nil_r. reflexivity. }
  destruct (session_end_to_end St L (server_load smap fs order X sort workspace sig_of utf8_lossy show_float is_float n k) p DB s [(st "eval", args)] _ s1 Closed Fits Tp ltac:(unfold server_load; rewrite Op; reflexivity) Dl) as (w0 & W).
  exists w0. intros writes Hw. destruct (W writes Hw) as [(up & down & E) U]. split; [eauto 10|]. intros up' down' xs' s2' e2 C. destruct (U _ _ _ _ _ C) as (-> & -> & ->). eexists. split; [reflexivity|]. split; [reflexivity|]. split; [reflexivity|]. intros repr. apply (error_printed repr (st "eval")).
Qed.
(** A name that no function of the binary's symbols has. *)
Definition no_function (h : list (bool * list N * symbol)) (name : str) : Prop :=
  exists ms f, name = Base.join (st "::") (ms ++ [f]) /\ Forall wf_segment (ms ++ [f]) /\ ~ hash_like f /\ forall y, In y (functions_of h) -> ~ names_function ms f (sym_name y).
Lemma nothing_answered St (L : debugger St) s B tables f u d v ps ls r b : bi_index B = index_symbol_map X tables ->
  stopped L s B tables f u d v ps ls r b -> exists k0, forall k, (k0 <= k)%nat -> exists n0, forall n, (n0 <= n)%nat ->
  answers_nothing L s (somes ps ++ somes ls) (no_function (history X tables)) (debug_info sort smap workspace n k B X sig_of utf8_lossy show_float is_float).
Proof.
  intros Hix (sa & l & si & A & D & Fb & Ur & Rg). destruct (frame_known X tables B Hix smap sort Hsort (l_pc L s) sa l si f u d v ps ls A D) as (s' & k1 & K1).
  exists k1. intros k Hk. destruct (K1 k Hk) as (n0 & N). exists n0. intros n Hn. destruct (N n Hn) as [V Fr]. split.
  - intros name F. cbn [debug_info g_variable]. unfold variable_plan. rewrite Fr. cbn [bind fst snd].
    match goal with |- context [find ?q ?l] => destruct (find q l) as [x|] eqn:Fi end; [|reflexivity]. exfalso. apply find_some in Fi. destruct Fi as [I Q]. apply named_var_iff in Q. exact (F x I Q).
  - intros name (ms & fn & -> & W & Hh & Nf). cbn [debug_info g_functions]. unfold BinaryModel.discover_functions, ix, DiscoverModel.discover_functions, sname_parse. rewrite Hix, (symbol_path_without_hash_partial ms fn W Hh). cbn [bind].
    match goal with |- context [filter ?g ?l] => assert (Ys : filter g l = []) end.
    { match goal with |- filter ?g ?l = [] => destruct (filter g l) as [|y ys] eqn:Q end; [reflexivity|]. exfalso.
      assert (I : In y (y :: ys)) by (left; reflexivity). rewrite <- Q in I. apply filter_In in I. destruct I as [I1 I2]. rewrite matches_plain in I2. cbn [module_path lookup_name] in I2.
      destruct (all_symbols_spec X tables) as [_ S]. cbn zeta in S. apply S in I1. apply (Nf y); [apply (is_last_in _ _ _ I1) | exact I2]. }
    rewrite Ys. reflexivity.
Qed.
(** ** C125 *)
(** [rd eval <expression>], where the expression designates nothing (a name the function does not declare, a field its struct does not
    have, an element beyond the end, a key the map does not hold, a field or element of a number or text, a function the binary does not
    have, or an expression with such a part): an error, and nothing else, is printed, and the target is left as it is. The words of the error
    are not modelled: the message of the model stands for them (anyhow's text also quotes the expression). *)
Theorem mistake_reported : forall St (L : debugger St) s p B tables,
  debugger_fits L -> l_target L s = true -> l_process L s = true -> l_thread L s = true -> l_frame L s = true -> text p ->
  open_binary smap fs order X (components p) = Ok B -> bi_index B = index_symbol_map X tables -> Forall well_formed (bi_made B) -> apart (bi_made B) ->
  forall m f u d v ps ls r b args e, served (l_memory L s) m -> stopped L s B tables f u d v ps ls r b ->
  args <> [] -> Forall text args -> parse_expression (Base.join (st " ") args) = Ok e ->
  astray v u (somes ps ++ somes ls) b show_float m (no_function (history X tables)) e ->
  exists k0, forall k, (k0 <= k)%nat -> exists n0, forall n, (n0 <= n)%nat -> exists msg, prints L s p n k args [st "Error: " ++ msg].
Proof.
  intros St L s p B tables Fits HT HP HH HF Tp Op Hix Hmade Hapart m f u d v ps ls r b args e Hm Sp Na Ta Pe Ay.
  pose proof Sp as (sa & l & si & _ & _ & _ & Ur & Rg). destruct (stopped_answers smap X sort workspace sig_of show_float is_float Hsort St L s B tables f u d v ps ls r b Hix Hmade Hapart Sp) as (base & k1 & K1).
  destruct (nothing_answered St L s B tables f u d v ps ls r b Hix Sp) as (k2 & K2).
  destruct (astray_errs L s HT HP HH HF m show_float Hm v u (somes ps ++ somes ls) b r base (no_function (history X tables)) Ur Rg e Ay) as (k3 & K3).
  exists (k1 + k2 + k3)%nat. intros k Hk. destruct (K1 k ltac:(lia)) as (n1 & N1). destruct (K2 k ltac:(lia)) as (n2 & N2). exists (n1 + n2)%nat. intros n Hn.
  destruct (N1 n ltac:(lia)) as [Gv Kn]. specialize (N2 n ltac:(lia)). apply (prints_error St L s p B n k args e Fits Tp Op Na Ta Pe). apply (K3 k _ ltac:(lia) Gv Kn N2). left. reflexivity.
Qed.
(** Text that the parser refuses: the same, wherever the target is. *)
Theorem unreadable_expression_reported : forall St (L : debugger St) s p B args why, debugger_fits L -> text p -> open_binary smap fs order X (components p) = Ok B ->
  args <> [] -> Forall text args -> parse_expression (Base.join (st " ") args) = Err why -> text (st why) -> forall n k, prints L s p n k args [st "Error: " ++ st why].
Proof.
  intros St L s p B args why Fits Tp Op Na Ta Pe Tw n k. set (DB := debug_info sort smap workspace n k B X sig_of utf8_lossy show_float is_float).
  assert (Ex : exec (python_client L) (handle_command DB (st "eval") args) s = ([], Ok (err_msg why), s)).
  { unfold handle_command. rewrite str_eqb_refl. cbn [orb]. destruct args as [|a0 args]; [congruence|]. rewrite Pe. reflexivity. }
  assert (Dl : dialogue L DB s [(st "eval", args)] [Ok (enc_server (err_msg why))] s Closed).
  { eapply d_answered; [discriminate | split; [|exact Ta] | exact Ex | constructor | exact Tw | constructor]. cbn [fst]. txt. }
  destruct (session_end_to_end St L (server_load smap fs order X sort workspace sig_of utf8_lossy show_float is_float n k) p DB s [(st "eval", args)] [Ok (enc_server (err_msg why))] s Closed Fits Tp) as (w0 & W); [unfold server_load; rewrite Op; reflexivity | exact Dl|].
  exists w0. intros writes Hw. destruct (W writes Hw) as [(up & down & E) U]. split; [eauto 10|]. intros up' down' xs' s2' e2 C. destruct (U _ _ _ _ _ C) as (-> & -> & ->). eexists. split; [reflexivity|]. split; [reflexivity|]. split; [reflexivity|]. intros repr. apply (error_printed repr (st "eval")).
Qed.
(** A method the object's type does not have. *)
Theorem unknown_method_reported : forall St (L : debugger St) s p B tables,
  debugger_fits L -> l_target L s = true -> l_process L s = true -> l_thread L s = true -> l_frame L s = true -> text p ->
  open_binary smap fs order X (components p) = Ok B -> bi_index B = index_symbol_map X tables -> Forall well_formed (bi_made B) -> apart (bi_made B) ->
  forall m f u d v ps ls r b args e a ty method es l, served (l_memory L s) m -> stopped L s B tables f u d v ps ls r b ->
  args <> [] -> Forall text args -> parse_expression (Base.join (st " ") args) = Ok (EMethodCall e method es) ->
  stands v u (somes ps ++ somes ls) b show_float m e a ty -> (forall names, built_in_names (layOf ty) names -> ~ In method names) ->
  methods_are X sig_of B ty l -> (forall q, In q l -> on_object q -> dm_name q <> method) ->
  exists k0, forall k, (k0 <= k)%nat -> exists n0, forall n, (n0 <= n)%nat -> exists msg, prints L s p n k args [st "Error: " ++ msg].
Proof.
  intros St L s p B tables Fits HT HP HH HF Tp Op Hix Hmade Hapart m f u d v ps ls r b args e a ty method es l Hm Sp Na Ta Pe Sd Nb (k2 & K2) Nm.
  pose proof Sp as (sa & l' & si & _ & _ & _ & Ur & Rg). destruct (stopped_answers smap X sort workspace sig_of show_float is_float Hsort St L s B tables f u d v ps ls r b Hix Hmade Hapart Sp) as (base & k1 & K1).
  destruct (stands_ref L s HT HP HH HF m show_float Hm v u (somes ps ++ somes ls) b r base Ur Rg e a ty Sd) as (k5 & K5).
  exists (k1 + k2 + k5)%nat. intros k Hk. destruct (K1 k ltac:(lia)) as (n1 & N1). destruct (K2 k ltac:(lia)) as (n2 & N2). exists (n1 + n2)%nat. intros n Hn. destruct (N1 n ltac:(lia)) as [Gv Kn].
  destruct (K5 k _ ltac:(lia) Gv Kn) as [E5 _]. apply (prints_error St L s p B n k args _ Fits Tp Op Na Ta Pe). cbn [evaluate e_val]. unfold method_val.
  eapply errs_then; [exact (E5 None (or_introl eq_refl))|]. cbn [fst snd].
  assert (Sn : synthetic_name (layOf ty) method = false).
  { unfold synthetic_name. destruct (existsb (str_eqb method) (SynthModel.synthetic_methods (layOf ty))) eqn:Ex; [|reflexivity]. exfalso. apply existsb_exists in Ex. destruct Ex as (q & Iq & Q). apply str_eqb_eq in Q. subst q. revert Iq. apply Nb. destruct (layOf ty); reflexivity. }
  rewrite Sn. unfold call_method. apply errs_bind, errs_bind. unfold find_method. cbn [snd]. cbn [debug_info g_methods]. rewrite (N2 n ltac:(lia)). unfold rmap. cbn [bind].
  assert (Fi : find (fun q => str_eqb (dm_name q) method) (filter has_self l) = None).
  { match goal with |- ?x = None => destruct x as [q|] eqn:Q end; [|reflexivity]. exfalso. apply find_some in Q. destruct Q as [I Q]. apply filter_In in I. destruct I as [I H]. apply str_eqb_eq in Q. apply (Nm q I); [|exact Q]. unfold has_self in H. destruct (dm_self q) as [qs|] eqn:E; [exists qs; exact E | discriminate]. }
  rewrite Fi. apply errs_lift. txt.
Qed.
(** A function called with too few or too many arguments is not called. (A method is, [wrong_method_arity_refuted].) *)
Theorem wrong_arity_reported_partial : forall St (L : debugger St) s p B tables,
  debugger_fits L -> text p -> open_binary smap fs order X (components p) = Ok B -> bi_index B = index_symbol_map X tables -> Forall well_formed (bi_made B) -> apart (bi_made B) ->
  forall args ms fn es y f2 u2 d2 v2 qs rt, args <> [] -> Forall text args -> parse_expression (Base.join (st " ") args) = Ok (ECall (Base.join (st "::") (ms ++ [fn])) es) -> Forall wf_segment (ms ++ [fn]) -> ~ hash_like fn ->
  callee (history X tables) ms fn y -> declares (history X tables) B y f2 u2 d2 v2 qs rt -> List.length es <> List.length qs ->
  exists k0, forall k, (k0 <= k)%nat -> exists n0, forall n, (n0 <= n)%nat -> exists msg, prints L s p n k args [st "Error: " ++ msg].
Proof.
  intros St L s p B tables Fits Tp Op Hix Hmade Hapart args ms fn es y f2 u2 d2 v2 qs rt Na Ta Pe Wf Hh Cy De Le.
  destruct (callee_listed smap fs order X sort workspace sig_of show_float is_float B tables ms fn y f2 u2 d2 v2 qs rt Hix Hmade Wf Hh Cy De) as (k2 & K2).
  exists k2. intros k Hk. destruct (K2 k Hk) as (n0 & N). exists n0. intros n Hn. destruct (N n Hn) as (g & G1 & G2 & G3 & G4).
  apply (prints_error St L s p B n k args _ Fits Tp Op Na Ta Pe). cbn [evaluate e_val]. unfold function_val, call_function. apply errs_bind, errs_bind. unfold find_function. cbn [debug_info g_functions]. rewrite G1. cbn [bind]. rewrite G2, G3, map_length.
  destruct (sym_addr y =? 0); [apply errs_lift; txt|]. destruct (Nat.eqb_spec (List.length es) (List.length qs)); [contradiction|]. apply errs_lift. txt.
Qed.
(** A call that LLDB cannot carry out: an error is printed, and the target is as LLDB left it after evaluating the one expression of the call. *)
Theorem failed_call_reported : forall St (L : debugger St) s p B tables,
  debugger_fits L -> l_target L s = true -> l_process L s = true -> l_thread L s = true -> l_frame L s = true -> text p ->
  open_binary smap fs order X (components p) = Ok B -> bi_index B = index_symbol_map X tables -> Forall well_formed (bi_made B) -> apart (bi_made B) ->
  forall m f u d v ps ls r b args ms fn es y f2 u2 d2 v2 qs rt cs rs ctext x s1, served (l_memory L s) m -> stopped L s B tables f u d v ps ls r b ->
  args <> [] -> Forall text args -> parse_expression (Base.join (st " ") args) = Ok (ECall (Base.join (st "::") (ms ++ [fn])) es) -> Forall wf_segment (ms ++ [fn]) -> ~ hash_like fn ->
  callee (history X tables) ms fn y -> declares (history X tables) B y f2 u2 d2 v2 qs rt -> 0 < sym_addr y < two64 -> List.length es = List.length qs ->
  Forall2 (passes v u (somes ps ++ somes ls) b show_float m) es cs -> result_size rt rs -> opt u64 rs ->
  says_call ctext (sym_addr y) (map fst cs) "void" (flat_map snd cs) rs -> l_eval L s ctext = (x, s1) -> v_valid x = false \/ v_failed x = true ->
  exists k0, forall k, (k0 <= k)%nat -> exists n0, forall n, (n0 <= n)%nat -> exists msg,
    prints_leaving smap fs order X sort workspace sig_of show_float is_float L s p n k args [st "Error: " ++ msg] s1.
Proof.
  intros St L s p B tables Fits HT HP HH HF Tp Op Hix Hmade Hapart m f u d v ps ls r b args ms fn es y f2 u2 d2 v2 qs rt cs rs ctext x s1 Hm Sp Na Ta Pe Wf Hh Cy De Ay Le Pa Sz Urs Sc Ev Bad.
  pose proof Sp as (sa & l & si & _ & _ & _ & Ur & Rg). destruct (stopped_answers smap X sort workspace sig_of show_float is_float Hsort St L s B tables f u d v ps ls r b Hix Hmade Hapart Sp) as (base & k1 & K1).
  destruct (callee_listed smap fs order X sort workspace sig_of show_float is_float B tables ms fn y f2 u2 d2 v2 qs rt Hix Hmade Wf Hh Cy De) as (k2 & K2).
  destruct (arguments_run L s HT HP HH HF m show_float Hm v u (somes ps ++ somes ls) b r base Ur Rg es cs Pa) as (xs & k3 & A1 & A2 & A3 & A4).
  exists (k1 + k2 + k3)%nat. intros k Hk. destruct (K1 k ltac:(lia)) as (n1 & N1). destruct (K2 k ltac:(lia)) as (n2 & N2). exists (n1 + n2)%nat. intros n Hn. destruct (N1 n ltac:(lia)) as [Gv Kn]. destruct (N2 n ltac:(lia)) as (g & G1 & G2 & G3 & G4).
  set (DB := debug_info sort smap workspace n k B X sig_of utf8_lossy show_float is_float) in *.
  destruct (A4 k DB qs ltac:(lia) Gv Kn None (or_introl eq_refl)) as (pc & _ & Ra).
  apply (halts_prints St L s p B n k args _ s1 Fits Tp Op Na Ta Pe). fold DB. cbn [evaluate e_val]. unfold function_val, call_function. apply halts_bind.
  eapply halts_then; [apply goes_lift; unfold find_function; change (g_functions DB (Base.join (st "::") (ms ++ [fn]))) with (BinaryModel.discover_functions n k B (Base.join (st "::") (ms ++ [fn]))); rewrite G1; cbn [bind]; rewrite G2, G3, map_length; destruct (Z.eqb_spec (sym_addr y) 0); [lia|]; rewrite Le, Nat.eqb_refl; reflexivity|].
  eapply halts_then; [rewrite G3; exact Ra|]. eapply halts_then; [apply goes_lift; rewrite G4; unfold return_size; destruct rt as [t|]; [exact Sz | cbn in Sz; rewrite Sz; reflexivity]|].
  apply halts_bind. eapply (halts_ask L _ (Replied (ErrorReply (l_error L s1)))); [| | cbn beta iota; reflexivity | txt].
  - rewrite G2. cbn [request_fits]. split; [exact (conj (Z.lt_le_incl _ _ (proj1 Ay)) (proj2 Ay))|]. split; [exact A3 | exact Urs].
  - rewrite client_body, HT, HP. cbn [negb andb body]. rewrite p_args_enc. pose proof (call_expr_says (sym_addr y) [] "void" xs rs) as C. unfold call_args in C. cbn [map app] in C. rewrite A1, A2 in C. rewrite G2, (says_call_fun _ _ _ _ _ _ _ C Sc), Ev.
    destruct (call_result x rs) as [z|] eqn:R; [|reflexivity]. exfalso. apply call_result_returns in R. destruct R as (R1 & R2 & _). destruct Bad; congruence.
Qed.
(** The same of a method. *)
Theorem failed_method_reported : forall St (L : debugger St) s p B tables,
  debugger_fits L -> l_target L s = true -> l_process L s = true -> l_thread L s = true -> l_frame L s = true -> text p ->
  open_binary smap fs order X (components p) = Ok B -> bi_index B = index_symbol_map X tables -> Forall well_formed (bi_made B) -> apart (bi_made B) ->
  forall m f u d v ps ls r b args e a ty method es l me cs rs ctext x s1, served (l_memory L s) m -> stopped L s B tables f u d v ps ls r b ->
  args <> [] -> Forall text args -> parse_expression (Base.join (st " ") args) = Ok (EMethodCall e method es) ->
  stands v u (somes ps ++ somes ls) b show_float m e a ty -> u64 a -> (forall names, built_in_names (layOf ty) names -> ~ In method names) ->
  methods_are X sig_of B ty l -> first_of (fun q => on_object q /\ dm_name q = method) l me -> 0 < dm_addr me < two64 ->
  Forall2 (passes v u (somes ps ++ somes ls) b show_float m) es cs -> result_size (dm_ret me) rs -> opt u64 rs ->
  says_call ctext (dm_addr me) ((st "void*", st "(void*)" ++ hex a) :: map fst cs) "" (flat_map snd cs) rs -> l_eval L s ctext = (x, s1) -> v_valid x = false \/ v_failed x = true ->
  exists k0, forall k, (k0 <= k)%nat -> exists n0, forall n, (n0 <= n)%nat -> exists msg,
    prints_leaving smap fs order X sort workspace sig_of show_float is_float L s p n k args [st "Error: " ++ msg] s1.
Proof.
  intros St L s p B tables Fits HT HP HH HF Tp Op Hix Hmade Hapart m f u d v ps ls r b args e a ty method es l me cs rs ctext x s1 Hm Sp Na Ta Pe Sd Ua Nb (k2 & K2) Fm Ay Pa Sz Urs Sc Ev Bad.
  pose proof Sp as (sa & l' & si & _ & _ & _ & Ur & Rg). destruct (stopped_answers smap X sort workspace sig_of show_float is_float Hsort St L s B tables f u d v ps ls r b Hix Hmade Hapart Sp) as (base & k1 & K1).
  destruct (arguments_run L s HT HP HH HF m show_float Hm v u (somes ps ++ somes ls) b r base Ur Rg es cs Pa) as (xs & k3 & A1 & A2 & A3 & A4).
  destruct (stands_ref L s HT HP HH HF m show_float Hm v u (somes ps ++ somes ls) b r base Ur Rg e a ty Sd) as (k5 & K5).
  exists (k1 + k2 + k3 + k5)%nat. intros k Hk. destruct (K1 k ltac:(lia)) as (n1 & N1). destruct (K2 k ltac:(lia)) as (n2 & N2). exists (n1 + n2)%nat. intros n Hn. destruct (N1 n ltac:(lia)) as [Gv Kn].
  set (DB := debug_info sort smap workspace n k B X sig_of utf8_lossy show_float is_float) in *.
  destruct (K5 k DB ltac:(lia) Gv Kn) as [E5 _].
  destruct (A4 k DB (dm_params me) ltac:(lia) Gv Kn (Some (l_pc L s)) (or_intror eq_refl)) as (pc & _ & Ra).
  apply (halts_prints St L s p B n k args _ s1 Fits Tp Op Na Ta Pe). fold DB. cbn [evaluate e_val]. unfold method_val.
  eapply halts_then; [exact (E5 None (or_introl eq_refl))|]. cbn [fst snd].
  assert (Sn : synthetic_name (layOf ty) method = false).
  { unfold synthetic_name. destruct (existsb (str_eqb method) (SynthModel.synthetic_methods (layOf ty))) eqn:Ex; [|reflexivity]. exfalso. apply existsb_exists in Ex. destruct Ex as (q & Iq & Q). apply str_eqb_eq in Q. subst q. revert Iq. apply Nb. destruct (layOf ty); reflexivity. }
  rewrite Sn. unfold call_method. apply halts_bind.
  apply (halts_then L _ _ (Some (l_pc L s)) s me (Some (l_pc L s)) s s1).
  - apply goes_lift. unfold find_method. cbn [snd]. change (g_methods DB ty) with (BinaryModel.discover_methods n k B X sig_of ty). rewrite (N2 n ltac:(lia)). unfold rmap. cbn [bind].
    assert (Fi : find (fun q => str_eqb (dm_name q) method) (filter has_self l) = Some me).
    { destruct Fm as (l1 & l2 & -> & [[kk Hs] Hnm] & F1). rewrite filter_app. clear - Hs Hnm F1. induction F1 as [|q l1 Nq _ IH]; [cbn [filter app]; unfold has_self at 1; rewrite Hs; cbn [find]; rewrite Hnm, str_eqb_refl; reflexivity|].
      cbn [filter]. unfold has_self at 1. destruct (dm_self q) as [qs|] eqn:Eq; [|exact IH]. cbn [app find]. destruct (str_eqb (dm_name q) method) eqn:En; [|exact IH]. exfalso. apply Nq. split; [exists qs; exact Eq | apply str_eqb_eq; exact En]. }
    rewrite Fi. destruct (Z.eqb_spec (dm_addr me) 0); [lia | reflexivity].
  - eapply halts_then; [exact Ra|]. eapply halts_then; [apply goes_lift; unfold return_size; unfold result_size in Sz; destruct (dm_ret me) as [t|]; [exact Sz | rewrite Sz; reflexivity]|].
    apply halts_bind. eapply (halts_ask L _ (Replied (ErrorReply (l_error L s1)))); [| | cbn beta iota; reflexivity | txt].
    + cbn [request_fits fst snd]. split; [exact (conj (Z.lt_le_incl _ _ (proj1 Ay)) (proj2 Ay))|]. split; [exact Ua|]. split; [exact A3 | exact Urs].
    + rewrite client_body, HT, HP. cbn [negb andb body fst snd]. rewrite p_args_enc. pose proof (call_expr_says (dm_addr me) [a] "" xs rs) as C. unfold call_args in C. cbn [map app] in C. rewrite A1, A2 in C. rewrite (says_call_fun _ _ _ _ _ _ _ C Sc), Ev.
      destruct (call_result x rs) as [z|] eqn:R; [|reflexivity]. exfalso. apply call_result_returns in R. destruct R as (R1 & R2 & _). destruct Bad; congruence.
Qed.
(** Expressions that start at a variable. *)
Inductive from_variable : expr -> Prop :=
| fv_variable n : from_variable (EVariable n)
| fv_field e f : from_variable e -> from_variable (EField e f)
| fv_index e i : from_variable e -> from_variable (EIndex e i)
| fv_method e n args : from_variable e -> from_variable (EMethodCall e n args)
| fv_paren e : from_variable e -> from_variable (EParen e).
(** Without a target, a process, a thread or a frame there is no variable to look at: an error is printed. *)
Theorem no_frame_reported : forall St (L : debugger St) s p B args e, debugger_fits L -> text p -> open_binary smap fs order X (components p) = Ok B ->
  l_target L s && l_process L s && l_thread L s && l_frame L s = false -> args <> [] -> Forall text args -> parse_expression (Base.join (st " ") args) = Ok e -> from_variable e ->
  forall n k, exists msg, prints L s p n k args [st "Error: " ++ msg].
Proof.
  intros St L s p B args e Fits Tp Op Nf Na Ta Pe Fv n k. apply (prints_error St L s p B n k args e Fits Tp Op Na Ta Pe). set (D := debug_info _ _ _ _ _ _ _ _ _ _ _). clearbody D.
  assert (Gp : errs L s get_pc None).
  { exists [(GetFrameInfo, Replied (ErrorReply (l_error L s)))], "Unexpected response type for GetFrameInfo"%string, None. split; [|split; [apply Forall_cons; [exact I | apply Forall_nil] | txt]].
    unfold get_pc, ask. cbn [pbind exec]. rewrite client_body. cbn [body]. destruct (l_target L s), (l_process L s), (l_thread L s), (l_frame L s); try discriminate Nf; reflexivity. }
  assert (H : errs L s (e_ref (evaluate D e)) None /\ errs L s (e_val (evaluate D e)) None); [|apply H]. clear Pe.
  induction Fv as [x | e f _ [IH _] | e i _ [IH _] | e x xs _ [IH _] | e _ [IHr IHv]]; cbn [evaluate of_ref e_ref e_val].
  - unfold variable_ref. split; repeat apply errs_bind; exact Gp.
  - split; repeat apply errs_bind; exact IH.
  - unfold index_ref. split; repeat apply errs_bind; exact IH.
  - unfold method_ref, method_val. split; apply errs_bind; exact IH.
  - split; [apply not_any | exact IHv].
Qed.
End Files.
Print Assumptions mistake_reported.
Print Assumptions unreadable_expression_reported.
Print Assumptions unknown_method_reported.
Print Assumptions wrong_arity_reported_partial.
Print Assumptions failed_call_reported.
Print Assumptions failed_method_reported.
Print Assumptions no_frame_reported.
