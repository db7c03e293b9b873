(** Properties C95-C97: whole sessions. *)
From Coq Require Import Ascii String List ZArith NArith Lia Bool.
From Coq Require Import ZifyBool ZifyNat ZifyN.
From Verif Require Import Base NumText Utf8 DataSpec ExprModel ProcModel ProcSpec EvalModel EvalSpec ServerModel ServerSpec ServerProofs ServerProps JsonModel WireModel WireProps ClientModel ClientSpec ClientProps ClientEvents SessionModel SessionSpec SessionProofs RdProps.
From Verif Require Import ProcProofs EvalProofs EvalProps Utf8.
Import ListNotations.
Open Scope Z_scope.

Section Exists.
Context {St : Type} (L : debugger St).
Hypothesis fits : debugger_fits L.
Definition received (ys : list smsg) : list (res json) := map (fun m => Ok (enc_server m)) ys.
Lemma loop_run {A} (p : prog A) : forall s t a s1, exec (python_client L) p s = (t, a, s1) -> forall msgs,
  event_loop L (received (asked t) ++ msgs) s = let '(x, rs, rest, s2) := event_loop L msgs s1 in (x, replies t ++ rs, rest, s2).
Proof.
  induction p as [v|q k IH]; intros s t a s1; cbn [exec].
  - intros H msgs; injection H as <- <- <-. cbn. destruct (event_loop L msgs s) as [[[x rs] rest] s2]. reflexivity.
  - destruct (client_replies L s q) as (r & s2 & E & _). rewrite E. destruct (exec _ (k (Replied r)) s2) as [[t1 b] s3] eqn:E1. intros H msgs; injection H as <- <- <-.
    cbn [asked map received app fst]. rewrite (loop_event L s q r s2 _ E). fold (asked t1). fold (received (asked t1)). rewrite (IH _ _ _ _ _ E1). destruct (event_loop L msgs s3) as [[[x rs] rest] s4]. reflexivity.
Qed.
Lemma answer_lines t : Forall (fun e => exists r, snd e = Replied r) t -> map (fun e => answer_line (snd e)) t = map Msg (map EventResponse (replies t)).
Proof. induction 1 as [|[q a] t [r H] F IH]; [reflexivity|]. cbn in H. subst a. cbn. now rewrite IH. Qed.
Lemma received_app a b : received (a ++ b) = received a ++ received b.
Proof. apply map_app. Qed.
Lemma dialogue_exists D s cmds xs s2 e : dialogue L D s cmds xs s2 e -> exists k0 ms ys,
  run_commands L cmds (received ys) s = (xs, ms, s2) /\ Forall server_fits ys /\
  forall k n log, (k0 <= k)%nat -> (List.length (lines_of (flat_map client_bytes ms)) < n)%nat ->
    exists c2, serve D n (Conn (lines_of (flat_map client_bytes ms)) (repeat true k) log) = (e, c2) /\ sent_bytes (cn_log c2) = sent_bytes log ++ flat_map server_bytes ys.
Proof.
  induction 1 as [s|s c args t m s1 cmds xs s2 e Nc Fc E Ft Fm D' (k0 & ms & ys & R & Fy & IH)|s c args t why s1 cmds Fc E Ft|s args cmds Fa].
  - exists O, [], []. split; [reflexivity|]. split; [constructor|]. intros k n log _ Hn. destruct n as [|n]; [lia|]. eexists. split; [reflexivity|]. cbn. rewrite sent_app. reflexivity.
  - pose proof (all_replied L _ _ _ _ _ E) as Ar. pose proof (replies_fit L fits _ _ _ _ _ E Ft) as Fr.
    exists (List.length t + S k0)%nat, (Command c args :: map EventResponse (replies t) ++ ms), (asked t ++ m :: ys). split; [|split].
    + cbn [run_commands]. rewrite received_app, (loop_run _ _ _ _ _ E). cbn [received map]. rewrite loop_final by (eapply response_final; eapply exec_replays; exact E). fold (received ys). rewrite R. rewrite app_nil_r. reflexivity.
    + apply Forall_app. split; [|constructor; assumption]. apply Forall_map. exact Ft.
    + intros k n log Hk Hn. cbn [flat_map] in *. rewrite flat_map_app in *. rewrite lines_of_cons in * by exact Fc. rewrite client_messages_arrive in * by (apply Forall_map; exact Fr).
      cbn [List.length] in Hn. rewrite app_length, !map_length in Hn. destruct n as [|n]; [lia|]. rewrite <- answer_lines by exact Ar.
      assert (repeat true k = repeat true (S (List.length t)) ++ repeat true (k - S (List.length t))) as -> by (rewrite <- repeat_app; f_equal; lia).
      rewrite (command_answered _ _ s D c args t m s1 _ _ log n E Ar Nc).
      edestruct (IH (k - S (List.length t))%nat n) as (c2 & -> & Lg); [lia | lia|]. exists c2. split; [reflexivity|]. rewrite Lg, !sent_app, sent_exchanges by exact Ar. cbn [sent_bytes flat_map app].
      rewrite flat_map_app, app_nil_r, <- !app_assoc. reflexivity.
  - pose proof (all_replied L _ _ _ _ _ E) as Ar. pose proof (replies_fit L fits _ _ _ _ _ E Ft) as Fr. destruct (run_lost L cmds s1) as [ms RL].
    exists (List.length t), (Command c args :: map EventResponse (replies t) ++ ms), (asked t). split; [|split].
    + cbn [run_commands]. rewrite <- (app_nil_r (received _)), (loop_run _ _ _ _ _ E). cbn [event_loop]. rewrite RL, app_nil_r. reflexivity.
    + apply Forall_map. exact Ft.
    + intros k n log Hk Hn. cbn [flat_map] in *. rewrite flat_map_app in *. rewrite lines_of_cons in * by exact Fc. rewrite client_messages_arrive in * by (apply Forall_map; exact Fr).
      destruct n as [|n]; [cbn in Hn; lia|]. rewrite <- answer_lines by exact Ar. cbn [serve read_next cn_in cn_up cn_log]. unfold logged. cbn [cn_in cn_up cn_log].
      assert (repeat true k = repeat true (List.length t) ++ repeat true (k - List.length t)) as -> by (rewrite <- repeat_app; f_equal; lia).
      rewrite (scripted_client _ _ _ _ s t (Panic why) s1 _ _ _ E Ar). eexists. split; [reflexivity|]. cbn [cn_log]. rewrite !sent_app, sent_exchanges by exact Ar. cbn. now rewrite app_nil_r.
  - destruct (run_lost L cmds s) as [ms RL]. exists 1%nat, (Command (st "shutdown") args :: ms), [Complete PShutdown]. split; [|split].
    + cbn [run_commands received map]. rewrite loop_final by exact I. rewrite RL. reflexivity.
    + constructor; [exact I | constructor].
    + intros k n log Hk Hn. destruct k as [|k]; [lia|]. cbn [flat_map] in *. rewrite lines_of_cons in * by (split; [txt | exact Fa]). destruct n as [|n]; [lia|].
      cbn [serve read_next cn_in cn_up cn_log]. unfold logged. cbn [cn_in cn_up cn_log]. rewrite shutdown_prog. cbn [exec write_message repeat cn_up cn_in cn_log]. unfold logged. cbn [cn_in cn_up cn_log]. rewrite str_eqb_refl.
      eexists. split; [reflexivity|]. cbn [cn_log]. rewrite !sent_app, <- !app_assoc. reflexivity.
Qed.
End Exists.

(** C95: for every debugger, every debug info and every sequence of commands, whatever LLDB answers: there is exactly one
    outcome of the two programs talking over the connection, and it is what the server's handling of the commands gives when
    run directly against LLDB: the commands' responses, in order; and after a panic or a shutdown, nothing. *)
Theorem session_end_to_end : forall St (L : debugger St) load p D s cmds xs s2 e,
  debugger_fits L -> text p -> load p = Ok D -> dialogue L D s cmds xs s2 e ->
  exists k0, forall k, (k0 <= k)%nat ->
    (exists up down, connected load L p cmds s k up down xs s2 e) /\
    (forall up down xs' s' e', connected load L p cmds s k up down xs' s' e' -> xs' = xs /\ s' = s2 /\ e' = e).
Proof.
  intros St L load p D s cmds xs s2 e F Tp Ld Dl.
  destruct (dialogue_exists L F D s cmds xs s2 e Dl) as (k1 & ms & ys & R & Fy & X). destruct (dialogue_unique L F D s cmds xs s2 e Dl) as (k2 & U).
  exists (k1 + k2)%nat. intros k Hk.
  assert (Run : forall ms, session load (flat_map client_bytes (Init p :: ms)) (repeat true k) =
    let '(e, c2) := serve D (S (S (List.length (lines_of (flat_map client_bytes ms))))) (Conn (lines_of (flat_map client_bytes ms)) (repeat true k) [Got (Msg (Init p))]) in (e, cn_log c2)).
  { intros ms'. unfold session, run_session. cbn [flat_map]. rewrite lines_of_cons by exact Tp. cbn [init read_next cn_in cn_up cn_log]. unfold logged. cbn [cn_in cn_up cn_log]. rewrite Ld. reflexivity. }
  split.
  - edestruct (X k (S (S (List.length (lines_of (flat_map client_bytes ms))))) [Got (Msg (Init p))]) as (c2 & Sv & Lg); [lia | lia|].
    exists (flat_map client_bytes (Init p :: ms)), (flat_map server_bytes ys). split.
    + unfold client_stream. rewrite server_messages_arrive by exact Fy. fold (received ys). rewrite R. reflexivity.
    + exists (cn_log c2). rewrite Run, Sv. split; [reflexivity|]. rewrite Lg. reflexivity.
  - intros up down xs' s' e' [Cl (log & Sv & Dn)]. unfold client_stream in Cl. destruct (run_commands L cmds (py_messages down) s) as [[xs1 ms1] s3] eqn:RC. injection Cl as <- <- <-.
    pose proof (Run ms1) as Rm. cbn [flat_map] in Rm. unfold client_stream in *. change (session load (client_bytes (Init p) ++ flat_map client_bytes ms1) (repeat true k) = (e', log)) in Sv. rewrite Rm in Sv. destruct (serve D _ _) as [e1 c2] eqn:Sv1. injection Sv as <- <-.
    eapply U in Sv1; [exact Sv1 | lia | exact RC | lia |]. subst down. reflexivity.
Qed.
Print Assumptions session_end_to_end.
(** The client looks without touching, whatever LLDB is. *)
Lemma client_steady : forall St (L : debugger St) s, steady (python_client L) s.
Proof.
  intros St L s q H. rewrite client_body. destruct (negb (l_target L s && l_process L s)); [reflexivity|].
  destruct q; try destruct H; cbn [body]; unfold or_refuse, refuse;
    repeat match goal with |- context [match ?x with _ => _ end] => match x with context [match _ with _ => _ end] => fail 1 | _ => destruct x end end; try reflexivity.
Qed.
(** Together with C79: what rd prints for a typed expression without calls is the value it stands for in the stopped
    target. *)
Theorem typed_value_shown : forall St (L : debugger St) D s line args x s2 e expr,
  l_target L s = true -> l_process L s = true -> l_thread L s = true -> l_frame L s = true ->
  typed line = Some (st "eval", args) -> args <> [] -> parse_expression (join (st " ") args) = Ok expr -> no_calls expr ->
  dialogue L D s [(st "eval", args)] [Ok x] s2 e ->
  (forall r, x = enc_server (Complete (PValue r)) <-> shows_as (python_client L) s D (l_pc L s) expr r) /\
  (forall r repr, shows_as (python_client L) s D (l_pc L s) expr r -> print_response repr (st "eval") (the_fields x) = [st "type: " ++ er_type r; st "value: " ++ er_value r]).
Proof.
  intros St L D s line args x s2 e expr HT HP HH HF Ty Na Pe Nc Dl.
  assert (Fr : fst (python_client L s GetFrameInfo) = Replied (FrameInfo (l_pc L s) (l_sp L s) (l_fp L s))) by (rewrite client_body; cbn [body]; rewrite HT, HP, HH, HF; reflexivity).
  pose proof (client_steady St L s) as Sd.
  assert (G : forall r, x = enc_server (Complete (PValue r)) <-> shows_as (python_client L) s D (l_pc L s) expr r).
  2:{ split; [exact G|]. intros r repr H. apply G in H. subst x. apply value_printed. discriminate. }
  intros r. inversion Dl as [|s0 c0 a0 t m s1 cmds xs0 s3 e0 Nd Fc E Ft Fm D'| |]; subst.
  assert (Ans : answers_as (python_client L) s t).
  { assert (O : only looks (handle_command D (st "eval") args)).
    { unfold handle_command. rewrite str_eqb_refl. cbn [orb]. destruct args as [|a args]; [congruence|]. rewrite Pe. apply only_bind; [apply (only_looks_val D expr None Nc)|]. intros; exact I. }
    clear - E O Sd. revert O t m s1 E. generalize (handle_command D (st "eval") args) as pr. intros pr. unfold answers_as.
    assert (G : forall t (a : res smsg) s1, only looks pr -> exec (python_client L) pr s = (t, a, s1) -> Forall (fun e => snd e = fst (python_client L s (fst e))) t); [|intros O t m s1 E; eapply G; eassumption].
    induction pr as [v|q k IH]; intros t a s1 O; cbn [exec].
    - intros H; injection H as <- <- <-. constructor.
    - destruct O as [Oq Ok]. pose proof (Sd q Oq) as Q. destruct (python_client L s q) as [x s2] eqn:Ec. cbn in Q. subst s2. destruct (exec _ (k x) s) as [[t1 b] s3] eqn:E1. intros H; injection H as <- <- <-.
      constructor; [cbn [fst snd]; now rewrite Ec | eapply IH; [apply Ok | exact E1]]. }
  destruct (eval_answer_exact (python_client L) s D (l_pc L s) (l_sp L s) (l_fp L s) Sd Fr (st "eval") args expr t m (or_introl eq_refl) Na Pe Nc Ans (exec_replays _ _ _ _ _ _ E)) as [A _].
  rewrite <- A. split; [|intros ->; reflexivity].
  intros H. destruct m as [q|pl|er]; try discriminate. destruct pl as [r0|r0|l|]; try discriminate. destruct r0 as [v0 t0]. destruct r as [v1 t1]. injection H as -> ->. reflexivity.
Qed.
Print Assumptions typed_value_shown.

(** C98, full claim: every command is answered, whatever became of the earlier ones. It is if no handling panics and the
    server is not told to shut down. *)
Theorem commands_answered_partial : forall St (L : debugger St) D s cmds xs s2 e, dialogue L D s cmds xs s2 e ->
  (forall c args s0 why, In (c, args) cmds -> c <> st "shutdown" /\ outcome (python_client L) (handle_command D c args) s0 <> Panic why) ->
  e = Closed /\ Forall2 (fun _ x => exists m, x = Ok (enc_server m) /\ final m) cmds xs.
Proof.
  intros St L D s cmds xs s2 e Dl. induction Dl as [s|s c args t m s1 cmds xs s2 e Nc Fc E Ft Fm D' IH|s c args t why s1 cmds Fc E Ft|s args cmds Fa]; intros H.
  - split; [reflexivity | constructor].
  - destruct IH as [-> IH]; [intros c0 a0 s0 why I; apply H; now right|]. split; [reflexivity|]. constructor; [|exact IH]. exists m. split; [reflexivity|]. eapply response_final. eapply exec_replays. exact E.
  - destruct (H c args s why (or_introl eq_refl)) as [_ N]. unfold outcome in N. rewrite E in N. cbn in N. contradiction.
  - destruct (H (st "shutdown") args s EmptyString (or_introl eq_refl)) as [N _]. contradiction.
Qed.
Print Assumptions commands_answered_partial.
