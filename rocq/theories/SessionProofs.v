(** Proofs about whole sessions. *)
From Coq Require Import Ascii String List ZArith NArith Lia Bool.
From Coq Require Import ZifyBool ZifyNat ZifyN.
From Verif Require Import Base NumText Utf8 DataSpec ExprModel ProcModel EvalModel ServerModel ServerSpec ServerProofs ServerProps JsonModel JsonProofs JsonProps WireModel WireProps ClientModel ClientSpec ClientProps ClientEvents SessionModel SessionSpec.
Import ListNotations.
Open Scope Z_scope.

(** ** Decoding of a stream, message by message *)
Lemma lossy_enough : forall n bs k, (List.length bs <= n)%nat -> (n <= k)%nat -> lossy_fuel k bs = lossy_fuel n bs.
Proof.
  induction n as [|n IH]; intros bs k Hn Hk.
  - destruct bs; [|cbn in Hn; lia]. destruct k; reflexivity.
  - destruct k as [|k]; [lia|]. cbn [lossy_fuel]. destruct bs as [|a r]; [reflexivity|]. cbn [List.length] in Hn.
    assert (E : forall r', (List.length r' <= List.length r)%nat -> lossy_fuel k r' = lossy_fuel n r') by (intros; apply IH; lia).
    repeat match goal with
      | |- context [match ?l with [] => _ | _ :: _ => _ end] => destruct l; cbn [List.length] in *
      | |- context [if ?b then _ else _] => destruct b
      end; try reflexivity; f_equal; apply E; cbn [List.length]; lia.
Qed.
Lemma lossy_app s bs : text s -> utf8_lossy (utf8 s ++ bs) = s ++ utf8_lossy bs.
Proof.
  intros H. unfold utf8_lossy. assert (G : forall k, (List.length (utf8 s ++ bs) <= k)%nat -> lossy_fuel k (utf8 s ++ bs) = s ++ lossy_fuel (List.length bs) bs); [|apply G; lia].
  induction H as [|c s Hc _ IH]; intros k Hk.
  - cbn [utf8 flat_map app] in *. apply lossy_enough; lia.
  - cbn [utf8 flat_map] in *. fold (utf8 s) in *. rewrite <- app_assoc in *. rewrite app_length in Hk. pose proof (utf8_char_nonempty c).
    destruct k as [|k]; [lia|]. rewrite lossy_step by exact Hc. cbn [app]. f_equal. apply IH. lia.
Qed.
Lemma py_messages_cons m bs : server_fits m -> py_messages (server_bytes m ++ bs) = Ok (enc_server m) :: py_messages bs.
Proof.
  intros Hm. unfold py_messages, server_bytes. pose proof (plain_server m Hm) as P.
  assert (E : (utf8 (to_string (enc_server m)) ++ [10]) ++ bs = utf8 (to_string (enc_server m) ++ [10%N]) ++ bs) by (unfold utf8; rewrite flat_map_app; reflexivity).
  rewrite E, lossy_app. 2:{ apply Forall_app. split; [|constructor; [unfold scalar; lia | constructor]]. apply write_text; [exact serde_text | txt | txt | exact P]. }
  rewrite <- app_assoc. cbn [app]. pose proof (json_one_line _ (plain_no_real _ P)) as [V _].
  rewrite py_line by exact V. cbn [map]. f_equal. unfold py_message.
  destruct (server_object m) as [l El]. destruct (obj_to_string l) as [s E2]. rewrite <- El in E2. rewrite E2, strip_line by reflexivity.
  destruct (json_text_roundtrip (enc_server m) P) as [R _]; [pose proof (depth_server m); lia|]. rewrite E2 in R. exact R.
Qed.
Lemma lines_of_cons m bs : client_fits m -> lines_of (client_bytes m ++ bs) = Msg m :: lines_of bs.
Proof. intros H. pose proof (client_messages_arrive [m] bs) as C. cbn [flat_map map app] in C. rewrite app_nil_r in C. apply C. constructor; [exact H | constructor]. Qed.

(** ** The client's answers *)
Lemma forall_concat {A} (P : A -> Prop) l : Forall (Forall P) l -> Forall P (concat l).
Proof. induction 1 as [|x l H F IH]; [constructor|]. cbn. apply Forall_app. auto. Qed.
Lemma call_result_fits v ret r : value_fits v -> opt u64 ret -> call_result v ret = Some r -> call_fits r.
Proof.
  intros (A & B & C & _) R H. unfold call_result in H. destruct (v_valid v && negb (v_failed v)); [|discriminate]. destruct ret as [n|].
  - destruct (_ =? invalid_address) in H; [discriminate|]. injection H as <-. split; [|split; [exact R | txt]]. destruct (v_unsigned v =? 0); [destruct (v_load v =? invalid_address)|]; assumption.
  - injection H as <-. split; [exact A | txt].
Qed.
Lemma nth_register_fits i sets v : Forall (Forall (fun r : str * Z * Z => u64 (snd (fst r)) /\ u64 (snd r))) sets -> nth_register i sets = Some v -> u64 v.
Proof.
  induction 1 as [|x sets H F IH]; cbn [nth_register]; [discriminate|]. destruct (nth_error x (Z.to_nat i)) as [y|] eqn:E; [|exact IH].
  intros K. injection K as <-. rewrite Forall_forall in H. apply H. eapply nth_error_In. exact E.
Qed.
Lemma body_fits {St} (L : debugger St) s q r s1 : debugger_fits L -> request_fits q -> body L s q = (r, s1) -> reply_fits r.
Proof.
  intros F Q. assert (R : forall s r s1, refuse L s = (r, s1) -> reply_fits r) by (intros ? ? ? H; injection H as <- _; apply (df_error L F)).
  destruct q; cbn [body].
  - destruct (l_memory L s address size) eqn:E; [|apply R]. intros H; injection H as <- _. exact (df_memory L F _ _ _ _ E).
  - destruct (negb _); [apply R|]. destruct (find _ _) as [x|] eqn:E; cbn [option_map or_refuse]; [|apply R]. intros H; injection H as <- _. apply find_some in E. destruct E as [E _].
    pose proof (forall_concat _ _ (df_registers L F s)) as G. rewrite Forall_forall in G. apply (G _ E).
  - destruct (negb _); [apply R|]. destruct (index <? 0); [apply R|]. destruct (nth_register index _) as [x|] eqn:E; cbn [option_map or_refuse]; [|apply R]. intros H; injection H as <- _.
    eapply nth_register_fits; [apply (df_registers L F) | exact E].
  - destruct (negb _); [apply R|]. intros H; injection H as <- _. apply (df_frame L F).
  - destruct (negb _); [apply R|]. intros H; injection H as <- _. destruct (df_thread L F s) as [A B]. split; [exact A|]. destruct (l_name L s); [exact I | exact B].
  - destruct (l_base L s) as [a|] eqn:E; cbn [option_map or_refuse]; [|apply R]. intros H; injection H as <- _. exact (df_base L F _ _ E).
  - destruct (l_eval L s expr) as [v s2] eqn:E. destruct (v_valid v); [|apply R]. intros H; injection H as <- _. apply (df_eval L F _ _ _ _ E).
  - destruct (all_some p_arg _) as [ps|]; [|apply R]. destruct (l_eval L s _) as [v s2] eqn:E. apply (df_eval L F) in E. destruct (call_result v _) as [x|] eqn:C; [|apply R]. intros H; injection H as <- _.
    cbn. eapply call_result_fits; [exact E | | exact C]. cbn in Q. tauto.
  - destruct (all_some p_arg _) as [ps|]; [|apply R]. destruct (l_eval L s _) as [v s2] eqn:E. apply (df_eval L F) in E. destruct (call_result v _) as [x|] eqn:C; [|apply R]. intros H; injection H as <- _.
    cbn. eapply call_result_fits; [exact E | | exact C]. cbn in Q. tauto.
  - intros H; injection H as <- _. cbn. destruct (l_thread L s && l_frame L s); [|exact I]. destruct (l_variable L s name) eqn:E; [exact (df_variable L F _ _ _ E) | exact I].
  - destruct (l_eval L s _) as [v s2] eqn:E. apply (df_eval L F) in E. destruct (_ && _); [|apply R]. intros H; injection H as <- _. apply E.
  - destruct (all_some py_int _) as [d|]; [|apply R]. destruct (forallb _ d); [|apply R]. destruct (l_write L s address d) as [[] s2]; [|apply R]. intros H; injection H as <- _. exact I.
Qed.
Lemma client_replies {St} (L : debugger St) s q : exists r s1, python_client L s q = (Replied r, s1) /\ (debugger_fits L -> request_fits q -> reply_fits r).
Proof.
  rewrite client_body. destruct (negb (l_target L s && l_process L s)).
  - eexists _, _. split; [reflexivity|]. intros F _. apply (df_error L F).
  - destruct (body L s q) as [r s1] eqn:E. exists r, s1. split; [reflexivity|]. intros F Q. eapply body_fits; eassumption.
Qed.
Lemma loop_event {St} (L : debugger St) s q r s1 msgs : python_client L s q = (Replied r, s1) ->
  event_loop L (Ok (enc_server (Event q)) :: msgs) s = let '(x, rs, rest, s2) := event_loop L msgs s1 in (x, r :: rs, rest, s2).
Proof.
  unfold python_client. destruct (enc_server (Event q)) as [| | | | | |fs] eqn:E; try discriminate. intros H. cbn [event_loop].
  assert (T : is_text (get "type" fs) "Event" = true).
  { injection E as <-. destruct q; try reflexivity. }
  rewrite T. destruct (handle_event L fs s) as [r' s']. injection H as <- <-. reflexivity.
Qed.
Lemma loop_final {St} (L : debugger St) s m msgs : final m -> event_loop L (Ok (enc_server m) :: msgs) s = (Ok (enc_server m), [], msgs, s).
Proof. destruct m as [q|p|e]; [intros [] | |]; intros _; reflexivity. Qed.

(** ** One command, seen from both ends *)
Definition replies (t : list (request * answer)) : list reply := flat_map (fun e => match snd e with Replied r => [r] | Broken _ => [] end) t.
Definition asked (t : list (request * answer)) : list smsg := map (fun e => Event (fst e)) t.
Lemma sent_app a b : sent_bytes (a ++ b) = sent_bytes a ++ sent_bytes b.
Proof. apply flat_map_app. Qed.
Lemma exec_log {A} (p : prog A) c t a c2 : exec send_event p c = (t, a, c2) -> exists ws, cn_log c2 = cn_log c ++ ws.
Proof. intros H. apply exec_exchanges in H. destruct H as (_ & ws & _ & E & _). eauto. Qed.
Lemma serve_log D : forall n c e c2, serve D n c = (e, c2) -> exists ws, cn_log c2 = cn_log c ++ ws.
Proof.
  induction n as [|n IH]; intros c e c2; cbn [serve]; [intros H; injection H as <- <-; exists []; now rewrite app_nil_r|].
  destruct (read_next c) as [r c1] eqn:R. apply extends_read in R. 
  assert (X1 : exists ws, cn_log c1 = cn_log c ++ ws) by (destruct R as [(_ & _ & E & _)|[(m & _ & E & _)|(m & _ & E & _)]]; eauto). destruct X1 as [w1 X1].
  assert (W : forall c m w c', write_message c m = (w, c') -> exists ws, cn_log c' = cn_log c ++ ws) by (intros ? ? ? ? H; apply extends_write in H; destruct H as [[_ [E _]]|(x & _ & E & _)]; eauto).
  assert (J : forall d e c2 ws, cn_log d = cn_log c ++ ws -> serve D n d = (e, c2) -> exists ws, cn_log c2 = cn_log c ++ ws).
  { intros d e' c' ws E H. apply IH in H. destruct H as [ws' H]. rewrite H, E, <- app_assoc. eauto. }
  destruct R as [(-> & _ & _)|[(m & -> & _)|(m & -> & _)]].
  - intros H; injection H as <- <-. eauto.
  - destruct m as [p|cmd args|x]; try (intros H; injection H as <- <-; eauto).
    destruct (exec send_event (handle_command D cmd args) c1) as [[t a] c3] eqn:E. apply exec_log in E. destruct E as [w3 E].
    assert (X3 : cn_log c3 = cn_log c ++ (w1 ++ w3)) by (rewrite E, X1, <- !app_assoc; reflexivity).
    destruct a; try (intros H; injection H as <- <-; eauto). destruct (write_message c3 _) as [w c4] eqn:Wr. apply W in Wr. destruct Wr as [w4 Wr].
    assert (X4 : cn_log c4 = cn_log c ++ ((w1 ++ w3) ++ w4)) by (rewrite Wr, X3, <- !app_assoc; reflexivity).
    destruct w; try (intros H; injection H as <- <-; eauto). destruct (str_eqb cmd (st "shutdown")); [intros H; injection H as <- <-; eauto|]. apply J with (1 := X4).
  - destruct (write_message c1 _) as [w c4] eqn:Wr. apply W in Wr. destruct Wr as [w4 Wr]. assert (X4 : cn_log c4 = cn_log c ++ (w1 ++ w4)) by (rewrite Wr, X1, <- !app_assoc; reflexivity).
    destruct w; try (intros H; injection H as <- <-; eauto). apply J with (1 := X4).
Qed.
Lemma send_event_log ins u log q ans c1 : send_event (Conn ins (true :: u) log) q = (ans, c1) -> exists w, cn_log c1 = log ++ Sent (Event q) :: w.
Proof.
  unfold send_event, write_message, read_next, logged. cbn [cn_in cn_up cn_log]. destruct ins as [|[m|] ins].
  - intros H. injection H as <- <-. cbn. rewrite <- app_assoc. cbn. eauto.
  - destruct m; intros H; injection H as <- <-; cbn; rewrite <- app_assoc; cbn; eauto.
  - intros H. injection H as <- <-. cbn. rewrite <- app_assoc. cbn. eauto.
Qed.
Section Joint.
Context {St : Type} (L : debugger St).
Hypothesis fits : debugger_fits L.
Lemma joint {A} (p : prog A) : forall s t a s1, exec (python_client L) p s = (t, a, s1) -> Forall (fun x => request_fits (fst x)) t ->
  forall Y x rs rest s', event_loop L (py_messages Y) s = (x, rs, rest, s') ->
  forall tail up log t2 a2 c2 ws, exec send_event p (Conn (lines_of (flat_map client_bytes (map EventResponse rs) ++ tail)) (repeat true (List.length t) ++ up) log) = (t2, a2, c2) ->
  sent_bytes (cn_log c2 ++ ws) = sent_bytes log ++ Y ->
  a2 = a /\ exists rs' Y', rs = replies t ++ rs' /\ event_loop L (py_messages Y') s1 = (x, rs', rest, s') /\ Y = flat_map server_bytes (asked t) ++ Y' /\
    c2 = Conn (lines_of (flat_map client_bytes (map EventResponse rs') ++ tail)) up (log ++ flat_map exchange_log t).
Proof.
  induction p as [v|q k IH]; intros s t a s1 H F Y x rs rest s' HL tail up log t2 a2 c2 ws HS HY.
  - cbn [exec] in H, HS. injection H as <- <- <-. injection HS as <- <- <-. split; [reflexivity|]. exists rs, Y. cbn. rewrite app_nil_r. auto.
  - cbn [exec] in H. destruct (client_replies L s q) as (r & s2 & E & R). rewrite E in H. destruct (exec (python_client L) (k (Replied r)) s2) as [[t1 b] s3] eqn:E1. injection H as <- <- <-.
    inversion F as [|? ? Fq F']; subst. cbn [fst] in Fq. specialize (R fits Fq).
    cbn [exec List.length repeat app] in HS. destruct (send_event (Conn _ (true :: _) log) q) as [ans c1] eqn:S1.
    destruct (exec send_event (k ans) c1) as [[t3 b3] c3] eqn:E2. injection HS as <- <- <-.
    assert (Pre : exists w2, cn_log c3 = log ++ Sent (Event q) :: w2).
    { apply exec_log in E2. destruct E2 as [w E2]. destruct (send_event_log _ _ _ _ _ _ S1) as [w1 S2]. rewrite E2, S2, <- app_assoc. cbn [app]. eauto. }
    destruct Pre as [w2 Pre]. rewrite Pre, <- app_assoc, sent_app in HY. apply app_inv_head in HY. cbn [app sent_bytes flat_map] in HY. subst Y.
    rewrite py_messages_cons in HL by exact Fq. rewrite (loop_event L s q r s2 _ E) in HL.
    set (Y1 := flat_map _ (w2 ++ ws)) in *. destruct (event_loop L (py_messages Y1) s2) as [[[x1 rs1] rest1] s4] eqn:HL1. injection HL as <- <- <- <-.
    cbn [map flat_map] in S1. rewrite <- app_assoc in S1. rewrite lines_of_cons in S1 by exact R. 
    unfold send_event, write_message, read_next, logged in S1. cbn [cn_in cn_up cn_log] in S1. injection S1 as <- <-.
    edestruct (IH (Replied r) s2 t1 b s3 E1 F' Y1 x1 rs1 rest1 s4 HL1 tail up _ t3 b3 c3 ws E2) as (-> & rs' & Y' & -> & G & E3 & ->).
    { rewrite Pre. replace ((log ++ Sent (Event q) :: w2) ++ ws) with (log ++ [Sent (Event q)] ++ (w2 ++ ws)) by (rewrite <- !app_assoc; reflexivity).
      rewrite !sent_app. subst Y1. rewrite <- !app_assoc. do 2 f_equal. rewrite flat_map_app. reflexivity. }
    split; [reflexivity|]. exists rs', Y'. split; [reflexivity|]. split; [exact G|]. split; [cbn [asked map flat_map fst]; rewrite <- app_assoc; f_equal; exact E3|].
    f_equal. rewrite <- !app_assoc. reflexivity.
Qed.
Lemma exec_replays {S A} (c : client S) (p : prog A) : forall s t a s1, exec c p s = (t, a, s1) -> replays p t a.
Proof.
  induction p as [v|q k IH]; intros s t a s1; cbn [exec].
  - intros H; injection H as <- <- <-. constructor.
  - destruct (c s q) as [x s2]. destruct (exec c (k x) s2) as [[t1 b] s3] eqn:E. intros H; injection H as <- <- <-. constructor. eapply IH. exact E.
Qed.
Lemma run_lost : forall cmds s, exists ms, run_commands L cmds [] s = (map (fun _ => lost) cmds, ms, s).
Proof. induction cmds as [|[c args] cmds IH]; intros s; [eexists; reflexivity|]. destruct (IH s) as [ms E]. cbn [run_commands event_loop]. rewrite E. eexists. reflexivity. Qed.
Lemma shutdown_prog D args : handle_command D (st "shutdown") args = Ret (Ok (Complete PShutdown)).
Proof. reflexivity. Qed.
Lemma sent_one log m w : sent_bytes (log ++ Sent m :: w) = sent_bytes log ++ server_bytes m ++ sent_bytes w.
Proof. rewrite sent_app. reflexivity. Qed.
Lemma sent_exchanges t : Forall (fun e => exists r, snd e = Replied r) t -> sent_bytes (flat_map exchange_log t) = flat_map server_bytes (asked t).
Proof. induction 1 as [|[q a] t _ F IH]; [reflexivity|]. cbn [flat_map exchange_log asked map fst snd app]. change (sent_bytes (Sent (Event q) :: Got (answer_line a) :: flat_map exchange_log t)) with (server_bytes (Event q) ++ sent_bytes (flat_map exchange_log t)). rewrite IH. reflexivity. Qed.
Lemma all_replied {A} (p : prog A) : forall s t a s1, exec (python_client L) p s = (t, a, s1) -> Forall (fun e => exists r, snd e = Replied r) t.
Proof.
  induction p as [v|q k IH]; intros s t a s1; cbn [exec].
  - intros H; injection H as <- <- <-. constructor.
  - destruct (client_replies L s q) as (r & s2 & -> & _). destruct (exec _ (k (Replied r)) s2) as [[t1 b] s3] eqn:E. intros H; injection H as <- <- <-. constructor; [cbn; eauto | eapply IH; exact E].
Qed.
Lemma replies_fit {A} (p : prog A) : forall s t a s1, exec (python_client L) p s = (t, a, s1) -> Forall (fun x => request_fits (fst x)) t -> Forall reply_fits (replies t).
Proof.
  induction p as [v|q k IH]; intros s t a s1; cbn [exec].
  - intros H; injection H as <- <- <-. constructor.
  - destruct (client_replies L s q) as (r & s2 & -> & R). destruct (exec _ (k (Replied r)) s2) as [[t1 b] s3] eqn:E. intros H; injection H as <- <- <-. intros F. inversion F; subst.
    cbn [replies flat_map snd app]. constructor; [apply R; assumption | eapply IH; eassumption].
Qed.
Lemma dialogue_unique D s cmds xs s2 e : dialogue L D s cmds xs s2 e -> exists k0, forall k Y xs' ms s' n log e' c2, (k0 <= k)%nat ->
  run_commands L cmds (py_messages Y) s = (xs', ms, s') -> (List.length (lines_of (flat_map client_bytes ms)) < n)%nat ->
  serve D n (Conn (lines_of (flat_map client_bytes ms)) (repeat true k) log) = (e', c2) -> sent_bytes (cn_log c2) = sent_bytes log ++ Y ->
  xs' = xs /\ s' = s2 /\ e' = e.
Proof.
  induction 1 as [s|s c args t m s1 cmds xs s2 e Nc Fc E Ft Fm D' [k0 IH]|s c args t why s1 cmds Fc E Ft|s args cmds Fa].
  - exists O. intros k Y xs' ms s' n log e' c2 _ R Hn S _. injection R as <- <- <-. destruct n as [|n]; [lia|]. cbn in S. injection S as <- <-. auto.
  - exists (List.length t + S k0)%nat. intros k Y xs' ms s' n log e' c2 Hk R Hn S Hs. cbn [run_commands] in R.
    destruct (event_loop L (py_messages Y) s) as [[[x rs] rest] s3] eqn:HL. destruct (run_commands L cmds rest s3) as [[xs1 ms1] s4] eqn:HR. injection R as <- <- <-.
    cbn [flat_map] in *. rewrite lines_of_cons in * by exact Fc. cbn [List.length] in Hn. destruct n as [|n]; [lia|]. cbn [serve read_next cn_in cn_up cn_log] in S. unfold logged in S. cbn [cn_in cn_up cn_log] in S.
    rewrite flat_map_app in S, Hn.
    destruct (exec send_event _ _) as [[t2 a2] c3] eqn:Ex.
    assert (Hk' : repeat true k = repeat true (List.length t) ++ true :: repeat true (k - List.length t - 1)%nat) by (change (true :: repeat true (k - List.length t - 1)) with (repeat true (Datatypes.S (k - List.length t - 1))); rewrite <- repeat_app; f_equal; lia).
    rewrite Hk' in Ex. clear Hk'. set (k' := (k - List.length t - 1)%nat) in *.
    assert (Lg : exists w, cn_log c2 = cn_log c3 ++ w).
    { destruct a2 as [m'| | |]; [|injection S as <- <-; exists []; now rewrite app_nil_r ..].
      destruct (write_message c3 m') as [w c4] eqn:W. apply extends_write in W.
      assert (W' : exists u, cn_log c4 = cn_log c3 ++ u) by (destruct W as [[_ [W _]]|(y & _ & W & _)]; eauto). destruct W' as [u W'].
      destruct w; try (injection S as <- <-; eauto). destruct (str_eqb c (st "shutdown")); [injection S as <- <-; eauto|].
      apply serve_log in S. destruct S as [u2 S]. rewrite S, W', <- app_assoc. eauto. }
    destruct Lg as [w Lg]. assert (Hs2 : sent_bytes (cn_log c3 ++ w) = sent_bytes (log ++ [Got (Msg (Command c args))]) ++ Y) by (rewrite <- Lg, Hs, sent_app; cbn; now rewrite app_nil_r).
    destruct (joint _ s t (Ok m) s1 E Ft Y x rs rest s3 HL (flat_map client_bytes ms1) (true :: repeat true k') _ t2 a2 c3 w Ex Hs2) as (-> & rs' & Y' & -> & HL' & -> & ->).
    cbn [write_message cn_up cn_in cn_log] in S. unfold logged in S. cbn [cn_in cn_up cn_log] in S.
    assert (str_eqb c (st "shutdown") = false) as Q by now apply str_eqb_neq. rewrite Q in S.
    pose proof (response_final _ _ _ _ _ (exec_replays _ _ _ _ _ _ E)) as Fin.
    assert (HY : exists Y2, Y' = server_bytes m ++ Y2).
    { pose proof (serve_log _ _ _ _ _ S) as [u Lu]. cbn [cn_log] in Lu. rewrite Lu, <- !app_assoc in Hs. cbn [app] in Hs. rewrite sent_app in Hs. apply app_inv_head in Hs.
      change (sent_bytes (flat_map exchange_log t ++ Sent m :: u) = flat_map server_bytes (asked t) ++ Y') in Hs. rewrite sent_one, sent_exchanges in Hs by (eapply all_replied; exact E).
      apply app_inv_head in Hs. eauto. }
    destruct HY as [Y2 ->]. rewrite py_messages_cons in HL' by exact Fm. rewrite loop_final in HL' by exact Fin. injection HL' as <- <- <- <-. cbn [map flat_map app] in S.
    assert (Hn' : (List.length (lines_of (flat_map client_bytes ms1)) < n)%nat).
    { rewrite app_nil_r in Hn. rewrite client_messages_arrive in Hn; [rewrite app_length in Hn; lia|]. apply Forall_map. eapply replies_fit; eassumption. }
    destruct (IH k' Y2 xs1 ms1 s4 n _ e' c2 ltac:(subst k'; lia) HR Hn' S) as (-> & -> & ->); [|auto].
    rewrite Hs, !sent_app, sent_exchanges by (eapply all_replied; exact E). cbn [sent_bytes flat_map]. rewrite !app_nil_r, <- !app_assoc. reflexivity.
  - exists (List.length t). intros k Y xs' ms s' n log e' c2 Hk R Hn S Hs. cbn [run_commands] in R.
    destruct (event_loop L (py_messages Y) s) as [[[x rs] rest] s3] eqn:HL. destruct (run_commands L cmds rest s3) as [[xs1 ms1] s4] eqn:HR. injection R as <- <- <-.
    cbn [flat_map] in *. rewrite lines_of_cons in * by exact Fc. cbn [List.length] in Hn. destruct n as [|n]; [lia|]. cbn [serve read_next cn_in cn_up cn_log] in S. unfold logged in S. cbn [cn_in cn_up cn_log] in S.
    rewrite flat_map_app in S, Hn.
    destruct (exec send_event _ _) as [[t2 a2] c3] eqn:Ex.
    assert (Hk' : repeat true k = repeat true (List.length t) ++ repeat true (k - List.length t)%nat) by (rewrite <- repeat_app; f_equal; lia).
    rewrite Hk' in Ex. clear Hk'. set (k' := (k - List.length t)%nat) in *.
    assert (Lg : exists w, cn_log c2 = cn_log c3 ++ w).
    { destruct a2 as [m'| | |]; [|injection S as <- <-; exists []; now rewrite app_nil_r ..].
      destruct (write_message c3 m') as [w c4] eqn:W. apply extends_write in W.
      assert (W' : exists u, cn_log c4 = cn_log c3 ++ u) by (destruct W as [[_ [W _]]|(y & _ & W & _)]; eauto). destruct W' as [u W'].
      destruct w; try (injection S as <- <-; eauto). destruct (str_eqb c (st "shutdown")); [injection S as <- <-; eauto|].
      apply serve_log in S. destruct S as [u2 S]. rewrite S, W', <- app_assoc. eauto. }
    destruct Lg as [w Lg]. assert (Hs2 : sent_bytes (cn_log c3 ++ w) = sent_bytes (log ++ [Got (Msg (Command c args))]) ++ Y) by (rewrite <- Lg, Hs, sent_app; cbn; now rewrite app_nil_r).
    destruct (joint _ s t (Panic why) s1 E Ft Y x rs rest s3 HL (flat_map client_bytes ms1) (repeat true k') _ t2 a2 c3 w Ex Hs2) as (-> & rs' & Y' & -> & HL' & -> & ->).
    injection S as <- <-. cbn [cn_log] in Hs. rewrite !sent_app, sent_exchanges in Hs by (eapply all_replied; exact E). rewrite <- !app_assoc in Hs. apply app_inv_head in Hs. cbn [sent_bytes flat_map app] in Hs.
    rewrite <- (app_nil_r (flat_map server_bytes (asked t))) in Hs at 1. apply app_inv_head in Hs. subst Y'. injection HL' as <- <- <- <-.
    destruct (run_lost cmds s1) as [ms2 RL]. rewrite RL in HR. injection HR as <- <- <-. auto.
  - exists 1%nat. intros k Y xs' ms s' n log e' c2 Hk R Hn S Hs. cbn [run_commands] in R.
    destruct (event_loop L (py_messages Y) s) as [[[x rs] rest] s3] eqn:HL. destruct (run_commands L cmds rest s3) as [[xs1 ms1] s4] eqn:HR. injection R as <- <- <-.
    destruct k as [|k]; [lia|]. cbn [flat_map] in *. rewrite lines_of_cons in * by (split; [txt | exact Fa]). destruct n as [|n]; [lia|]. 
    cbn [serve read_next cn_in cn_up cn_log] in S. unfold logged in S. cbn [cn_in cn_up cn_log] in S. rewrite shutdown_prog in S. cbn [exec write_message repeat cn_up cn_in cn_log] in S. unfold logged in S. cbn [cn_in cn_up cn_log] in S. rewrite str_eqb_refl in S.
    injection S as <- <-. cbn [cn_log] in Hs. rewrite !sent_app, <- !app_assoc in Hs. apply app_inv_head in Hs. cbn [sent_bytes flat_map app] in Hs.
    subst Y. rewrite py_messages_cons in HL by exact I. rewrite loop_final in HL by exact I. injection HL as <- <- <- <-.
    destruct (run_lost cmds s) as [ms2 RL]. change (py_messages []) with (@nil (res json)) in HR. rewrite RL in HR. injection HR as <- <- <-. auto.
Qed.
End Joint.
