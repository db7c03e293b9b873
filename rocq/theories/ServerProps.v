(** C43, C44 and what the commands answer. *)
From Coq Require Import Ascii String List ZArith Lia Bool.
From Verif Require Import Base NumText OMap TypesModel ValueModel DataModel AccessModel LocModel DiscoverModel ExprModel ExprProps ProcModel ProcSpec ProcProofs IoDataModel EvalModel EvalSpec EvalProofs EvalProps ServerModel ServerSpec ServerProofs.
Import ListNotations.
Open Scope Z_scope.

(** ** C43, C44: the protocol *)
(** Every connection, whatever the client sends and whichever writes fail, follows the grammar of [session]: each line
    read between commands is answered by exactly one final response, after that command's events; every event is followed by
    reading exactly one line; and nothing else is sent. *)
Theorem session_follows_protocol : forall load lines up e log,
  run_session load lines up = (e, log) -> e <> Budget -> session load e log /\ exists rest, lines = lines_read log ++ rest.
Proof.
  intros load lines up e log. unfold run_session, init.
  destruct (read_next (Conn lines up [])) as [r c] eqn:R. apply extends_read in R.
  assert (Fin : forall w d, extends (Conn lines up []) d w -> cn_log d = w /\ lines = lines_read w ++ cn_in d) by (intros w d [A B]; auto).
  destruct R as [(-> & _ & R)|[(m & -> & R)|(m & -> & R)]].
  - intros H _. injection H as <- <-. destruct (Fin _ _ R) as [-> E]. split; [apply s_eof | eauto].
  - destruct m as [p|cmd args|x].
    + destruct (load p) as [D|m|m|] eqn:Ld; cbn [rmap bind].
      * destruct (serve D _ c) as [e2 c2] eqn:S2. intros H Ne. injection H as <- <-. destruct (serve_conversation _ _ _ _ _ S2 Ne) as (ws & C & X).
        destruct (Fin _ _ (extends_trans _ _ _ _ _ R X)) as [-> E]. split; [eapply s_served; eassumption | eauto].
      * intros H _. injection H as <- <-. destruct (Fin _ _ R) as [-> E]. split; [eapply s_missing; eassumption | eauto].
      * intros H _. injection H as <- <-. destruct (Fin _ _ R) as [-> E]. split; [now apply s_broken | eauto].
      * intros H Ne. injection H as <- <-. congruence.
    + destruct (str_eqb cmd (st "shutdown")) eqn:Sh.
      * apply str_eqb_eq in Sh. subst cmd. destruct (write_message c (Complete PShutdown)) as [w c2] eqn:W. apply extends_write in W.
        destruct W as [[-> W]|(x & -> & W)]; destruct (Fin _ _ (extends_trans _ _ _ _ _ R W)) as [L E]; intros H _; injection H as <- <-; rewrite L; (split; [constructor | eauto]).
      * intros H _. injection H as <- <-. destruct (Fin _ _ R) as [-> E]. split; [apply s_refused; [discriminate | intros a F; injection F as -> _; rewrite str_eqb_refl in Sh; discriminate] | eauto].
    + intros H _. injection H as <- <-. destruct (Fin _ _ R) as [-> E]. split; [apply s_refused; discriminate | eauto].
  - intros H _. injection H as <- <-. destruct (Fin _ _ R) as [-> E]. split; [apply s_bad | eauto].
Qed.
Print Assumptions session_follows_protocol.
(** The loop itself always comes to an end. *)
Theorem session_ends : forall load lines up, (forall p D, load p = Ok D -> has_budget D) -> (forall p, load p <> Fuel) -> fst (run_session load lines up) <> Budget.
Proof.
  intros load lines up HB HL. unfold run_session, init.
  destruct (read_next (Conn lines up [])) as [r c] eqn:R. apply extends_read in R.
  destruct R as [(-> & _ & R)|[(m & -> & R)|(m & -> & R)]]; try discriminate.
  destruct m as [p|cmd args|x]; try discriminate.
  - destruct (load p) as [D|m|m|] eqn:Ld; cbn [rmap bind]; try discriminate; [|destruct (HL p Ld)].
    assert (L : (List.length (cn_in c) < S (List.length lines))%nat) by (destruct R as [_ R]; cbn [lines_read flat_map cn_in app] in R; rewrite R; cbn [List.length]; lia).
    pose proof (serve_budget D (S (List.length lines)) (HB _ _ Ld) c L) as B. destruct (serve D _ c) as [e2 c2]. exact B.
  - destruct (str_eqb cmd (st "shutdown")); [|discriminate]. destruct (write_message c (Complete PShutdown)) as [w c2] eqn:W. apply extends_write in W.
    destruct W as [[-> W]|(x & -> & W)]; discriminate.
Qed.
Print Assumptions session_ends.
(** Counted: in a connection that the client closes between commands, the final responses are as many as the lines read at
    top level, and every event was followed by one line of its own. *)
Lemma exchanges_count t ws : exchanges t ws -> responses ws = [] /\ (List.length (requests ws) = List.length (lines_read ws) + List.length (filter (fun w => match w with Eof => true | _ => false end) ws))%nat.
Proof.
  induction 1 as [|q a w t ws X _ [R C]]; [auto|]. unfold responses, requests, lines_read in *. rewrite !flat_map_app, filter_app, !app_length, R, C. inversion X; subst; cbn; split; auto; lia.
Qed.
Theorem one_response_each_partial : forall load log, session load Closed log -> exists p D turns,
  load p = Ok D /\ log = Got (Msg (Init p)) :: concat turns ++ [Eof] /\
  Forall (fun w => exists l m, hd_error w = Some (Got l) /\ responses w = [m] /\ last w Eof = Sent m /\ final m) turns /\
  List.length (responses log) = List.length turns.
Proof.
  intros load log H. inversion H as [p D e l Ld C| | | | | | |]; subst. destruct C as (turns & lst & F & S & ->). inversion S; subst.
  assert (G : Forall (fun w => exists l m, hd_error w = Some (Got l) /\ responses w = [m] /\ last w Eof = Sent m /\ final m) turns).
  { eapply Forall_impl; [|exact F]. intros w T. inversion T as [cmd args t xs m _ X _ Fm|e]; subst.
    - exists (Msg (Command cmd args)), m. split; [reflexivity|]. destruct (exchanges_count _ _ X) as [R _]. split; [|split; [|exact Fm]].
      + change (responses (xs ++ [Sent m]) = [m]). unfold responses in *. rewrite flat_map_app, R. destruct m; [destruct Fm | |]; reflexivity.
      + replace (Got (Msg (Command cmd args)) :: xs ++ [Sent m]) with ((Got (Msg (Command cmd args)) :: xs) ++ [Sent m]) by reflexivity. apply last_last.
    - exists Bad, (ErrorMsg e). repeat split. }
  exists p, D, turns. split; [exact Ld|]. split; [reflexivity|]. split; [exact G|].
  change (List.length (responses (concat turns ++ [Eof])) = List.length turns). unfold responses. rewrite flat_map_app. cbn [flat_map]. rewrite app_nil_r.
  clear - G. induction G as [|w turns (l & m & _ & R & _) _ IH]; [reflexivity|]. cbn [concat]. rewrite flat_map_app, app_length, IH. unfold responses in R. rewrite R. reflexivity.
Qed.
Print Assumptions one_response_each_partial.

(** ** Honest clients *)
Lemma replays_outcome {S A} (c : client S) s (p : prog A) t a : steady c s -> only looks p -> answers_as c s t -> replays p t a -> outcome c p s = a.
Proof.
  intros St. unfold outcome. intros O H R. revert O H. induction R as [a|q x k t a R IH]; intros O H; [reflexivity|]. destruct O as [Oq Ok]. inversion H as [|? ? Hx Ht]; subst. cbn [fst snd] in Hx.
  cbn [exec]. pose proof (St q Oq) as E. destruct (c s q) as [y s1]. cbn in Hx, E. subst y s1. specialize (IH (Ok x) Ht). destruct (exec c (k x) s) as [[t1 b] s2]. exact IH.
Qed.
Lemma permitted_looks D e q : no_calls e -> permitted D e q -> looks q.
Proof.
  intros H P. inversion P as [ | | |b m args t ms dm base xs sz Hp|f args df fs xs sz Hp|c args v k Hp Hc|c args v a d Hp Hc]; subst; try exact I.
  - destruct (H _ Hp).
  - destruct (H _ Hp).
  - specialize (H _ Hp). destruct Hc as [(b & m & ->)|(f & ->)]; destruct H.
  - specialize (H _ Hp). destruct Hc as [(b & m & ->)|(f & ->)]; destruct H.
Qed.
Lemma only_looks_val D e pc : no_calls e -> only looks (e_val (evaluate D e) pc) /\ only looks (e_ref (evaluate D e) pc).
Proof. intros H. destruct (all_permitted D e) as (A & B & _). split; eapply only_imp; try (intros q; apply (permitted_looks D e q H)); [apply B | apply A]. Qed.

Section Answers.
Context {S : Type} (c : client S) (s : S) (D : dbg) (pc sp fp : Z).
Hypothesis stopped : steady c s.
Hypothesis frame : fst (c s GetFrameInfo) = Replied (FrameInfo pc sp fp).

(** C79: [eval] and [print] of an expression without calls, with a client that answers events from a stopped target:
    the response is the value the expression stands for there -- and an error if it stands for none. *)
Theorem eval_answer_exact : forall cmd args e t m,
  cmd = st "eval" \/ cmd = st "print" -> args <> [] -> parse_expression (join (st " ") args) = Ok e -> no_calls e -> answers_as c s t ->
  replays (handle_command D cmd args) t (Ok m) ->
  (forall r, m = Complete (PValue r) <-> shows_as c s D pc e r) /\ ((forall r, ~ shows_as c s D pc e r) -> exists text, m = ErrorMsg text).
Proof.
  intros cmd args e t m C Na P N An R.
  destruct (evaluation_shows_the_target S c s D pc sp fp e stopped frame N) as [Sh _].
  assert (X : respond PValue (fst (outcome c (e_val (evaluate D e) None) s)) = Ok m).
  { assert (Y : outcome c (handle_command D cmd args) s = Ok m).
    { eapply replays_outcome; [exact stopped | | exact An | exact R]. unfold handle_command. assert ((str_eqb cmd (st "eval") || str_eqb cmd (st "print")) = true) as -> by (destruct C as [-> | ->]; reflexivity).
      destruct args as [|a args]; [congruence|]. rewrite P. apply only_bind; [apply (only_looks_val D e None N)|]. intros; exact I. }
    unfold handle_command in Y. assert ((str_eqb cmd (st "eval") || str_eqb cmd (st "print")) = true) as Z by (destruct C as [-> | ->]; reflexivity). rewrite Z in Y.
    destruct args as [|a args]; [congruence|]. rewrite P in Y. unfold outcome in *. rewrite exec_bind in Y. destruct (exec c (e_val (evaluate D e) None) s) as [[t1 b] s1]. exact Y. }
  destruct (fst (outcome c (e_val (evaluate D e) None) s)) as [r|x|x|] eqn:O; cbn in X; try discriminate; injection X as <-.
  - split.
    + intros r'. rewrite <- Sh. split; intros H; injection H as ->; reflexivity.
    + intros H. destruct (H r). apply Sh. reflexivity.
  - split; [|intros _; eexists; reflexivity]. intros r. rewrite <- Sh. split; discriminate.
Qed.

(** C80: [methods]. What is listed: the methods of a named type, or those with a self parameter of the type of a value. *)
Definition described (m : dmethod) : minfo :=
  MInfo (dm_name m) (dm_sig m) (Some (st "Method at address " ++ hex (dm_addr m))) (dm_callable m) (dm_synthetic m).
Definition is_local (v : str) : Prop := exists ty, fst (c s (GetVariableType v)) = Replied (VariableTypeResult (Some ty)).
Inductive named (input : str) : str -> Prop :=
| n_path segs : parse_expression input = Ok (EPath segs) -> named input (display (EPath segs))
| n_generic b args : parse_expression input = Ok (EGeneric b args) -> named input (display (EGeneric b args))
| n_word v : parse_expression input = Ok (EVariable v) -> ~ is_local v -> named input v
| n_text m : parse_expression input = Err m -> named input input.
Inductive valued (input : str) : expr -> Prop :=
| v_local v : parse_expression input = Ok (EVariable v) -> is_local v -> valued input (EVariable v)
| v_other e : parse_expression input = Ok e -> match e with EVariable _ | EPath _ | EGeneric _ _ => False | _ => True end -> valued input e.
Inductive lists_methods (input : str) : mresult -> Prop :=
| lm_type name t ms : named input name -> g_type D name = Ok (Some t) -> g_methods D t = Ok ms -> lists_methods input (MResult name (map described ms))
| lm_value e p all ms : valued input e -> place c s D pc e p -> g_methods D (snd p) = Ok all ->
    (forall m, In m ms <-> In m all /\ dm_self m <> None) -> ms = filter has_self all -> lists_methods input (MResult (tname (snd p)) (map described ms)).
Lemma is_variable_outcome v : exists b, outcome c (is_variable v) s = b /\ (b = true <-> is_local v).
Proof.
  unfold is_variable, outcome, is_local. cbn [pbind ask exec]. destruct (c s (GetVariableType v)) as [x s1]. cbn. eexists. split; [reflexivity|].
  destruct x as [[]|]; try (split; [discriminate | intros [ty F]; discriminate]). destruct type_name as [ty|]; [split; [intros _; exists ty; reflexivity | reflexivity] | split; [discriminate | intros [ty F]; discriminate]].
Qed.
Lemma type_methods_exact name x r : type_methods D name x = Ok r <-> exists t ms, g_type D name = Ok (Some t) /\ g_methods D t = Ok ms /\ r = MResult name (map described ms).
Proof.
  unfold type_methods, methods_of_type. destruct (g_type D name) as [[t|]|y|y|]; try (split; [discriminate | intros (t' & ms & E & _); discriminate]). destruct (g_methods D t) as [ms|y|y|] eqn:G; cbn [bind]; try (split; [discriminate | intros (t' & ms' & E & F & _); injection E as <-; congruence]).
  split; [intros H; injection H as <-; exists t, ms; auto | intros (t' & ms' & E & F & ->); injection E as <-; rewrite G in F; injection F as <-; reflexivity].
Qed.
Lemma pointer_methods_exact e r : no_calls e -> fst (outcome c (pointer_methods D e None) s) = Ok r <->
  exists p ms, place c s D pc e p /\ g_methods D (snd p) = Ok ms /\ r = MResult (tname (snd p)) (map described (filter has_self ms)).
Proof.
  intros N. destruct (places_are_found S c s D pc sp fp e stopped frame N) as [Pl Af]. unfold outcome, after in *. unfold pointer_methods. unfold ebind at 1. rewrite exec_bind.
  destruct (exec c (e_ref (evaluate D e) None) s) as [[t1 [r1 pc1]] s1]. cbn [fst snd] in *. subst s1. destruct r1 as [p|x|x|]; cbn [exec fst snd].
  - assert (Pp : place c s D pc e p) by now apply Pl. cbn [ebind elift eret pbind exec fst snd]. destruct (g_methods D (snd p)) as [ms|x|x|] eqn:G; cbn [rmap bind exec fst snd pbind].
    + split; [intros H; injection H as <-; exists p, ms; auto|]. intros (p' & ms' & P' & G' & ->). apply Pl in P'. injection P' as <-. rewrite G in G'. injection G' as <-. reflexivity.
    + split; [discriminate|]. intros (p' & ms' & P' & G' & _). apply Pl in P'. injection P' as <-. congruence.
    + split; [discriminate|]. intros (p' & ms' & P' & G' & _). apply Pl in P'. injection P' as <-. congruence.
    + split; [discriminate|]. intros (p' & ms' & P' & G' & _). apply Pl in P'. injection P' as <-. congruence.
  - split; [discriminate|]. intros (p' & ms' & P' & _). apply Pl in P'. discriminate.
  - split; [discriminate|]. intros (p' & ms' & P' & _). apply Pl in P'. discriminate.
  - split; [discriminate|]. intros (p' & ms' & P' & _). apply Pl in P'. discriminate.
Qed.
Lemma only_pointer_methods e : no_calls e -> only looks (pointer_methods D e None).
Proof. intros N. apply only_bind; [apply (only_looks_val D e None N)|]. intros [[p|x|x|] pc1]; cbn; try exact I. destruct (rmap _ _); exact I. Qed.
Lemma of_value_exact e r : no_calls e -> outcome c (pbind (pointer_methods D e None) (fun r => Ret (fst r))) s = Ok r <->
  exists p ms, place c s D pc e p /\ g_methods D (snd p) = Ok ms /\ r = MResult (tname (snd p)) (map described (filter has_self ms)).
Proof.
  intros N. rewrite <- pointer_methods_exact by exact N. unfold outcome. rewrite exec_bind. destruct (exec c (pointer_methods D e None) s) as [[t1 b] s1]. reflexivity.
Qed.
Lemma has_self_filter all m : In m (filter has_self all) <-> In m all /\ dm_self m <> None.
Proof. rewrite filter_In. unfold has_self. destruct (dm_self m); split; intros [A B]; split; auto; congruence. Qed.
Theorem methods_answer_exact : forall args t m,
  args <> [] -> (forall e, parse_expression (join (st " ") args) = Ok e -> no_calls e) -> answers_as c s t ->
  replays (handle_command D (st "methods") args) t (Ok m) ->
  (forall r, m = Complete (PMethods r) <-> lists_methods (join (st " ") args) r) /\ ((forall r, ~ lists_methods (join (st " ") args) r) -> exists text, m = ErrorMsg text).
Proof.
  intros args t m Na N An R. set (input := join (st " ") args) in *.
  assert (K : forall r, outcome c (methods_command D input) s = Ok r <-> lists_methods input r).
  { intros r. unfold methods_command. destruct (parse_expression input) as [e|x|x|] eqn:P.
    2:{ change (type_methods D input "Could not resolve as a type or expression" = Ok r <-> lists_methods input r). rewrite type_methods_exact. split.
        - intros (t0 & ms & T & G & ->). eapply lm_type; [eapply n_text; exact P | exact T | exact G].
        - intros L. inversion L as [name t0 ms Nm T G|e p all ms V]; subst; [inversion Nm; subst; try congruence; eauto 6 | inversion V; congruence]. }
    2:{ split; [discriminate|]. intros L. inversion L as [name t0 ms Nm T G|e p all ms V]; subst; [inversion Nm; congruence | inversion V; congruence]. }
    2:{ split; [discriminate|]. intros L. inversion L as [name t0 ms Nm T G|e p all ms V]; subst; [inversion Nm; congruence | inversion V; congruence]. }
    specialize (N e eq_refl).
    assert (Val : forall e, no_calls e -> parse_expression input = Ok e -> match e with EVariable _ | EPath _ | EGeneric _ _ => False | _ => True end ->
                  outcome c (pbind (pointer_methods D e None) (fun r => Ret (fst r))) s = Ok r <-> lists_methods input r).
    { clear e P N. intros e N P Sh. rewrite of_value_exact by exact N. split.
      - intros (p & ms & Pl & G & ->). eapply lm_value; [apply v_other; eassumption | exact Pl | exact G | apply has_self_filter | reflexivity].
      - intros L. inversion L as [name t0 ms Nm T G|e' p all ms V Pl G Mi Me]; subst.
        + inversion Nm as [segs Q|b0 a0 Q|v0 Q _|m0 Q]; subst; rewrite P in Q; try discriminate; injection Q as ->; destruct Sh.
        + inversion V as [v0 Q _|e0 Q _]; subst; rewrite P in Q; injection Q as ->; [destruct Sh|]. eauto. }
    destruct e as [v|segs|b ga|b f|b i|e|mm e|v|v|e|b mt l|f l]; try (apply Val; [exact N | exact P | exact Logic.I]).
    - destruct (is_variable_outcome v) as (b & Ob & Lb). pose proof (stopped (GetVariableType v) Logic.I) as St2.
      assert (E : outcome c (pbind (is_variable v) (fun b => if b then pbind (pointer_methods D (EVariable v) None) (fun r => Ret (fst r)) else Ret (type_methods D v "No type found matching"))) s
                = outcome c (if b then pbind (pointer_methods D (EVariable v) None) (fun r => Ret (fst r)) else Ret (type_methods D v "No type found matching")) s).
      { unfold outcome in *. rewrite exec_bind. unfold is_variable in *. cbn [pbind ask exec] in *. destruct (c s (GetVariableType v)) as [x s1]. cbn [fst snd] in *. subst s1 b.
        destruct (exec c _ s) as [[t2 b2] s2]. reflexivity. }
      rewrite E. destruct b.
      + rewrite of_value_exact by exact N. split.
        * intros (p & ms & Pl & G & ->). eapply lm_value; [apply v_local; [exact P | now apply Lb] | exact Pl | exact G | apply has_self_filter | reflexivity].
        * intros L. inversion L as [name t0 ms Nm T G|e' p all ms V Pl G Mi Me]; subst.
          -- inversion Nm as [segs Q|b0 a0 Q|v0 Q Nl|m0 Q]; subst; rewrite P in Q; try discriminate. injection Q as <-. destruct Nl. now apply Lb.
          -- inversion V as [v0 Q _|e0 Q Sh]; subst; rewrite P in Q; injection Q as <-; [eauto | destruct Sh].
      + cbn [outcome exec fst snd]. change (type_methods D v "No type found matching" = Ok r <-> lists_methods input r). rewrite type_methods_exact.
        assert (Nl : ~ is_local v) by (intros F; apply Lb in F; discriminate). split.
        * intros (t0 & ms & T & G & ->). eapply lm_type; [eapply n_word; eassumption | exact T | exact G].
        * intros L. inversion L as [name t0 ms Nm T G|e' p all ms V Pl G Mi Me]; subst.
          -- inversion Nm as [segs Q|b0 a0 Q|v0 Q _|m0 Q]; subst; rewrite P in Q; try discriminate. injection Q as ->. eauto.
          -- inversion V as [v0 Q F|e0 Q Sh]; subst; rewrite P in Q; injection Q as <-; [destruct (Nl F) | destruct Sh].
    - change (type_methods D (display (EPath segs)) "No type found matching" = Ok r <-> lists_methods input r). rewrite type_methods_exact. split.
      + intros (t0 & ms & T & G & ->). eapply lm_type; [eapply n_path; exact P | exact T | exact G].
      + intros L. inversion L as [name t0 ms Nm T G|e' p all ms V Pl G Mi Me]; subst.
        * inversion Nm as [segs0 Q|b0 a0 Q|v0 Q _|m0 Q]; subst; rewrite P in Q; try discriminate. injection Q as ->. eauto.
        * inversion V as [v0 Q F|e0 Q Sh]; subst; rewrite P in Q; [discriminate | injection Q as <-; destruct Sh].
    - change (type_methods D (display (EGeneric b ga)) "No type found matching" = Ok r <-> lists_methods input r). rewrite type_methods_exact. split.
      + intros (t0 & ms & T & G & ->). eapply lm_type; [eapply n_generic; exact P | exact T | exact G].
      + intros L. inversion L as [name t0 ms Nm T G|e' p all ms V Pl G Mi Me]; subst.
        * inversion Nm as [segs0 Q|b0 a0 Q|v0 Q _|m0 Q]; subst; rewrite P in Q; try discriminate. injection Q as -> ->. eauto.
        * inversion V as [v0 Q F|e0 Q Sh]; subst; rewrite P in Q; [discriminate | injection Q as <-; destruct Sh]. }
  assert (O : only looks (methods_command D input)).
  { unfold methods_command. destruct (parse_expression input) as [e|x|x|]; try exact I. specialize (N e eq_refl).
    assert (Val : only looks (pbind (pointer_methods D e None) (fun r => Ret (fst r)))) by (apply only_bind; [now apply only_pointer_methods | intros; exact I]).
    destruct e; try exact Val; try exact I. apply only_bind; [cbn; auto|]. intros []; [exact Val | exact I]. }
  assert (Y : outcome c (handle_command D (st "methods") args) s = Ok m).
  { eapply replays_outcome; [exact stopped | | exact An | exact R]. destruct args as [|a args]; [congruence|]. change (only looks (pbind (methods_command D input) (fun r => Ret (respond PMethods r)))). apply only_bind; [exact O | intros; exact I]. }
  destruct args as [|a args]; [congruence|]. change (outcome c (pbind (methods_command D input) (fun r => Ret (respond PMethods r))) s = Ok m) in Y.
  unfold outcome in Y, K. rewrite exec_bind in Y. destruct (exec c (methods_command D input) s) as [[t1 b] s1]. cbn [exec fst snd] in *.
  destruct b as [r|x|x|]; cbn in Y; try discriminate; injection Y as <-.
  - split.
    + intros r'. rewrite <- K. split; intros H; injection H as ->; reflexivity.
    + intros H. destruct (H r). apply K. reflexivity.
  - split; [|intros _; eexists; reflexivity]. intros r. rewrite <- K. split; discriminate.
Qed.
End Answers.
Print Assumptions eval_answer_exact.
Print Assumptions methods_answer_exact.

(** [functions] asks the client nothing: it lists what discovery finds, all of it without an argument, else for the first
    argument. *)
Definition listed (f : dfunction) : fninfo := FnInfo (df_name f) (df_full f) (df_sig f) (df_addr f) (df_callable f) (df_module f).
Theorem functions_answer_exact : forall D args t m, replays (handle_command D (st "functions") args) t (Ok m) ->
  t = [] /\
  (forall l, m = Complete (PFunctions l) <->
     match args with
     | [] => exists fs, g_all_functions D = Ok fs /\ l = map (fun e => listed (snd e)) fs
     | pattern :: _ => exists fs, g_functions D pattern = Ok fs /\ l = map listed fs
     end).
Proof.
  intros D args t m R. change (replays (Ret (respond PFunctions (functions_command D args))) t (Ok m)) in R. inversion R as [a E1 E2 E|]; subst. split; [reflexivity|].
  unfold functions_command in *. intros l. destruct args as [|pat args].
  - destruct (g_all_functions D) as [fs|x|x|]; cbn in E; try discriminate; injection E as <-.
    + split; [intros H; injection H as <-; eauto | intros (fs' & F & ->); injection F as <-; reflexivity].
    + split; [discriminate | intros (fs' & F & _); discriminate].
  - destruct (g_functions D pat) as [fs|x|x|]; cbn in E; try discriminate; injection E as <-.
    + split; [intros H; injection H as <-; eauto | intros (fs' & F & ->); injection F as <-; reflexivity].
    + split; [discriminate | intros (fs' & F & _); discriminate].
Qed.
Print Assumptions functions_answer_exact.
(** Anything else is answered by an error naming it, without events; so are the two commands that need an argument when
    it is missing. *)
Theorem unknown_commands_rejected : forall D cmd args t m, replays (handle_command D cmd args) t (Ok m) ->
  ~ In cmd [st "eval"; st "print"; st "methods"; st "functions"; st "shutdown"] -> t = [] /\ m = ErrorMsg (st "Unknown command: " ++ cmd).
Proof.
  intros D cmd args t m R N. unfold handle_command in R.
  assert (K : forall x, In x [st "eval"; st "print"; st "methods"; st "functions"; st "shutdown"] -> str_eqb cmd x = false) by (intros x I; apply str_eqb_neq; intros ->; auto).
  rewrite !K in R by (cbn; tauto). cbn in R. inversion R; subst. auto.
Qed.
Print Assumptions unknown_commands_rejected.
Theorem missing_argument_rejected : forall D cmd t m, In cmd [st "eval"; st "print"; st "methods"] -> replays (handle_command D cmd []) t m -> t = [] /\ exists text, m = Ok (ErrorMsg text).
Proof. intros D cmd t m I R. repeat destruct I as [<-|I]; try destruct I; cbn in R; inversion R; subst; (split; [reflexivity | eexists; reflexivity]). Qed.
Print Assumptions missing_argument_rejected.

(** ** A client that answers everything *)
Definition answer_line (a : answer) : line := match a with Replied r => Msg (EventResponse r) | Broken _ => Bad end.
Definition exchange_log (e : request * answer) : list wire := [Sent (Event (fst e)); Got (answer_line (snd e))].
(** Running a program over the wire against a client that answers as [c] does is running it against [c]. *)
Theorem scripted_client : forall S A (c : client S) (p : prog A) s t a s2 rest up log,
  exec c p s = (t, a, s2) -> Forall (fun e => exists r, snd e = Replied r) t ->
  exec send_event p (Conn (map (fun e => answer_line (snd e)) t ++ rest) (repeat true (List.length t) ++ up) log) =
    (t, a, Conn rest up (log ++ flat_map exchange_log t)).
Proof.
  intros S A c p. induction p as [x|q k IH]; intros s t a s2 rest up log; cbn [exec].
  - intros H _. injection H as <- <- <-. cbn. now rewrite app_nil_r.
  - destruct (c s q) as [x s1]. destruct (exec c (k x) s1) as [[t1 b] s3] eqn:E. intros H F. injection H as <- <- <-. inversion F as [|? ? [r Hr] F']; subst. cbn [snd] in Hr. subst x.
    cbn [map app List.length repeat answer_line snd]. unfold send_event at 1. cbn [write_message cn_up logged cn_in cn_log read_next].
    specialize (IH (Replied r) s1 t1 b s3 rest up ((log ++ [Sent (Event q)]) ++ [Got (Msg (EventResponse r))]) E F').
    unfold logged; cbn [cn_in cn_up cn_log] in *. rewrite IH. f_equal. f_equal. cbn [flat_map exchange_log fst snd]. rewrite <- !app_assoc. reflexivity.
Qed.
Print Assumptions scripted_client.
(** So a command sent by such a client is answered, with that outcome, and the session goes on. *)
Theorem command_answered : forall S (c : client S) s D cmd args t m s2 rest up log n,
  exec c (handle_command D cmd args) s = (t, Ok m, s2) -> Forall (fun e => exists r, snd e = Replied r) t -> cmd <> st "shutdown" ->
  serve D (Datatypes.S n) (Conn (Msg (Command cmd args) :: map (fun e => answer_line (snd e)) t ++ rest) (repeat true (Datatypes.S (List.length t)) ++ up) log) =
  serve D n (Conn rest up (log ++ [Got (Msg (Command cmd args))] ++ flat_map exchange_log t ++ [Sent m])).
Proof.
  intros S c s D cmd args t m s2 rest up log n E F N. cbn [serve read_next cn_in cn_up cn_log]. unfold logged at 1; cbn [cn_in cn_up cn_log].
  assert (U : repeat true (Datatypes.S (List.length t)) ++ up = repeat true (List.length t) ++ true :: up).
  { cbn [repeat]. rewrite repeat_cons, <- app_assoc. reflexivity. }
  rewrite U.
  rewrite (scripted_client _ _ c (handle_command D cmd args) s t (Ok m) s2 rest (true :: up) _ E F). cbn [write_message cn_up cn_in cn_log].
  assert (str_eqb cmd (st "shutdown") = false) as -> by now apply str_eqb_neq. unfold logged; cbn [cn_in cn_up cn_log]. rewrite <- !app_assoc. reflexivity.
Qed.
Print Assumptions command_answered.
