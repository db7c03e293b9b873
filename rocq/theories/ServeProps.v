(** C117, C118: several connections at once, in every order their lines may arrive; stopping the server. *)
From Coq Require Import Ascii String List ZArith NArith Lia Bool Arith.
From Verif Require Import Base NumText Utf8 ProcModel ExprModel ExprLexProofs EvalModel ServerModel WireModel ServeModel.
Import ListNotations.
Open Scope Z_scope.

(** ** Specification *)
(** What connection [i] itself was sent, in order: its lines (each with the files as they were when it arrived), and
    whether it was closed. *)
Inductive input := Line (load : str -> res dbg) (l : line) | Hangup.
Definition inputs (i : nat) (evs : list event) : list input :=
  flat_map (fun e => match e with
    | Arrives j load l => if (j =? i)%nat then [Line load l] else []
    | HangsUp j => if (j =? i)%nat then [Hangup] else []
    | _ => [] end) evs.
Definition connections (evs : list event) : nat := List.length (filter (fun e => match e with Connects _ => true | _ => false end) evs).
(** A connection alone. *)
Definition alone (up : list bool) (xs : list input) : thread :=
  fold_left (fun t x => match x with Line load l => receive load t (Some l) | Hangup => receive (fun _ => Err "unused") t None end) xs (Thread Starting up []).

(** ** A connection alone is a session *)
Lemma hang_proceed D cmd load : forall p up log, receive load (proceed false D cmd p (Conn [] up log)) None = proceed true D cmd p (Conn [] up log).
Proof.
  induction p as [r|q k IH]; intros up log.
  - cbn [proceed]. destruct r as [m| | |]; try reflexivity. unfold write_message. cbn [cn_up]. destruct up as [|[] u]; try reflexivity. destruct (str_eqb cmd (st "shutdown")); reflexivity.
  - cbn [proceed]. unfold write_message. cbn [cn_up]. destruct up as [|[] u]; try apply IH. reflexivity.
Qed.
Lemma done_stays load e u l x : receive load (Thread (Done e) u l) x = Thread (Done e) u l.
Proof. reflexivity. Qed.
Definition fed (t : thread) (ls : list line) : thread := fold_left (fun t l => receive (fun _ => Err "unused") t (Some l)) ls t.
Lemma fed_done e u l ls : fed (Thread (Done e) u l) ls = Thread (Done e) u l.
Proof. induction ls as [|x ls IH]; [reflexivity | exact IH]. Qed.
Definition hung (t : thread) : thread := receive (fun _ => Err "unused") t None.
Lemma load_unused load load' t x : th_phase t <> Starting -> receive load t x = receive load' t x.
Proof. intros H. unfold receive. destruct (th_phase t); [contradiction | reflexivity..]. Qed.
(** What [serve] does after the command's program has come to an end. *)
Definition finish (D : dbg) (cmd : str) (a : res smsg) (c2 : conn) : thread :=
  match a with
  | Ok response =>
      match write_message c2 response with
      | (Ok _, c3) => if str_eqb cmd (st "shutdown") then in_phase (Done Exited) c3 else hung (fed (Thread (Ready D) (cn_up c3) (cn_log c3)) (cn_in c3))
      | (Err m, c3) => in_phase (Done (Aborted m)) c3
      | (Panic m, c3) => in_phase (Done (Panicked m)) c3
      | (Fuel, c3) => in_phase (Done Budget) c3
      end
  | Err m => in_phase (Done (Aborted m)) c2
  | Panic m => in_phase (Done (Panicked m)) c2
  | Fuel => in_phase (Done Budget) c2
  end.
Lemma proceed_finish D cmd : forall p lines up log, hung (fed (proceed false D cmd p (Conn [] up log)) lines) =
  let '(_, a, c2) := exec send_event p (Conn lines up log) in finish D cmd a c2.
Proof.
  induction p as [r|q k IH]; intros lines up log.
  - cbn [proceed exec finish]. destruct r as [m|m|m|]; cbn [finish]; try (unfold in_phase; now rewrite fed_done).
    unfold write_message. cbn [cn_up cn_in cn_log]. destruct up as [|[] u]; try (unfold in_phase; now rewrite fed_done).
    destruct (str_eqb cmd (st "shutdown")); [unfold in_phase; now rewrite fed_done | reflexivity].
  - cbn [proceed exec]. unfold send_event at 1, write_message, logged. cbn [cn_up cn_in cn_log].
    destruct up as [|[] u]; cbn [cn_up cn_in cn_log].
    + rewrite (IH (Broken "write failed") lines [] _). destruct (exec send_event (k (Broken "write failed")) _) as [[t a] c2]. reflexivity.
    + unfold read_next, logged. cbn [cn_in cn_up cn_log]. destruct lines as [|l lines].
      * cbn [fed fold_left]. unfold hung at 1, in_phase, receive, logged. cbn [th_phase th_up th_log is_closed answer_of note cn_in cn_up cn_log].
        rewrite <- (hang_proceed D cmd (fun _ => Err "unused")). pose proof (IH (Broken "Client disconnected while waiting for event response") [] u ((log ++ [Sent (Event q)]) ++ [Eof])) as Q. cbn [fed fold_left] in Q. unfold hung in Q. rewrite Q.
        destruct (exec send_event (k _) _) as [[t a] c2]. reflexivity.
      * cbn [fed fold_left]. change (fold_left (fun t l => receive (fun _ => Err "unused") t (Some l)) lines) with (fun t => fed t lines). cbv beta.
        unfold in_phase. unfold receive at 1, logged. cbn [th_phase th_up th_log is_closed note cn_in cn_up cn_log].
        destruct l as [[p|c args|r]|]; cbn [answer_of]; rewrite IH; destruct (exec send_event (k _) _) as [[t a] c2]; reflexivity.
    + rewrite (IH (Broken "write failed") lines u _). destruct (exec send_event (k (Broken "write failed")) _) as [[t a] c2]. reflexivity.
Qed.
Lemma serve_fed D : forall n lines up log, (List.length lines < n)%nat ->
  hung (fed (Thread (Ready D) up log) lines) = let '(e, c) := serve D n (Conn lines up log) in in_phase (Done e) c.
Proof.
  induction n as [|n IH]; intros lines up log L; [lia|]. cbn [serve]. unfold read_next, logged. cbn [cn_in cn_up cn_log]. destruct lines as [|l lines]; [reflexivity|]. cbn [List.length] in L.
  cbn [fed fold_left]. change (fold_left (fun t l => receive (fun _ => Err "unused") t (Some l)) lines) with (fun t => fed t lines). cbv beta.
  unfold receive at 1, logged. cbn [th_phase th_up th_log note cn_in cn_up cn_log]. destruct l as [[p|c args|r]|].
  - unfold in_phase. now rewrite fed_done.
  - rewrite proceed_finish. destruct (exec send_event (handle_command D c args) (Conn lines up (log ++ [Got (Msg (Command c args))]))) as [[t a] c2] eqn:E.
    assert (Le : (List.length (cn_in c2) <= List.length lines)%nat).
    { revert E. generalize (handle_command D c args) as p, (log ++ [Got (Msg (Command c args))]) as lg, up as up'. clear. intros p. revert t a c2 lines.
      induction p as [r|q k IH]; intros t a c2 lines lg up' E; [injection E as _ _ <-; reflexivity|]. cbn [exec] in E.
      destruct (send_event (Conn lines up' lg) q) as [x c1] eqn:S. destruct (exec send_event (k x) c1) as [[t1 a1] c3] eqn:E1. injection E as _ _ <-. destruct c1 as [in1 up1 log1]. specialize (IH x _ _ _ _ _ _ E1).
      assert (Le : (List.length in1 <= List.length lines)%nat); [|lia]. clear - S. unfold send_event, write_message, read_next, logged in S. cbn [cn_in cn_up cn_log] in S.
      destruct up' as [|[] u]; [injection S as _ <- _ _; lia | | injection S as _ <- _ _; lia]. destruct lines as [|l lines]; [injection S as _ <- _ _; cbn; lia|].
      destruct l as [[]|]; injection S as _ <- _ _; cbn; lia. }
    unfold finish. destruct a as [response|m|m|]; try reflexivity. unfold write_message, logged. destruct c2 as [in2 up2 log2]. cbn [cn_in cn_up cn_log] in *.
    destruct up2 as [|[] u2]; try reflexivity. destruct (str_eqb c (st "shutdown")); [reflexivity|]. cbn [cn_in cn_up cn_log]. apply IH. lia.
  - unfold in_phase. now rewrite fed_done.
  - unfold write_message, logged. cbn [cn_in cn_up cn_log]. destruct up as [|[] u]; try (unfold in_phase; now rewrite fed_done). unfold in_phase at 1. cbn [cn_up cn_log]. apply IH. lia.
Qed.
Lemma fed_lines : forall ls t, th_phase t <> Starting -> fold_left (fun t x => match x with Line load l => receive load t (Some l) | Hangup => receive (fun _ => Err "unused") t None end) (map (fun p => Line (fst p) (snd p)) ls ++ [Hangup]) t = hung (fed t (map snd ls)).
Proof.
  induction ls as [|[load l] ls IH]; intros t H; [reflexivity|]. cbn [map app fold_left fst snd fed].
  rewrite (load_unused load (fun _ => Err "unused") t (Some l) H). apply IH.
  assert (P : forall p b D cmd c, th_phase (proceed b D cmd p c) <> Starting).
  { induction p as [r|q k IHp]; intros b D cmd c; cbn [proceed].
    - destruct r; try discriminate. unfold write_message. destruct (cn_up c) as [|[] u]; try discriminate. destruct (str_eqb cmd (st "shutdown")); [discriminate|]. destruct b; discriminate.
    - unfold write_message. destruct (cn_up c) as [|[] u]; try apply IHp. destruct b; [apply IHp | discriminate]. }
  unfold receive. destruct (th_phase t) as [|D|D cmd k|e] eqn:E; [contradiction | | apply P | now rewrite E].
  destruct l as [[p|c args|r]|]; try discriminate; [apply P|]. unfold write_message. cbn [cn_up]. destruct (cn_up _) as [|[] u]; discriminate.
Qed.
(** A connection that is sent these lines and then closed goes the way of C43 and C44: whatever else the server does. *)
Theorem connection_is_session : forall up load l ls, let t := alone up (Line load l :: map (fun p => Line (fst p) (snd p)) ls ++ [Hangup]) in
  run_session load (l :: map snd ls) up = (match th_phase t with Done e => e | _ => Budget end, th_log t) /\ exists e, th_phase t = Done e.
Proof.
  intros up load l ls. cbv zeta. unfold alone. cbn [fold_left].
  assert (G : forall e c, fold_left (fun t x => match x with Line load l => receive load t (Some l) | Hangup => receive (fun _ => Err "unused") t None end) (map (fun p => Line (fst p) (snd p)) ls ++ [Hangup]) (in_phase (Done e) c) = in_phase (Done e) c).
  { intros e c. rewrite fed_lines by (cbn; discriminate). unfold in_phase. now rewrite fed_done. }
  unfold run_session, init, read_next. cbn [cn_in cn_up cn_log]. unfold receive, logged. cbn [th_phase th_up th_log note cn_in cn_up cn_log app].
  destruct l as [[p|cmd args|r]|].
  - destruct (load p) as [D|m|m|]; cbn [rmap bind]; try (rewrite G; split; [reflexivity | eexists; reflexivity]).
    rewrite fed_lines by (cbn; discriminate). unfold in_phase at 1 2 3. cbn [cn_up cn_log]. rewrite (serve_fed D (S (List.length (Msg (Init p) :: map snd ls)))) by (cbn [List.length]; lia).
    cbn [app]. destruct (serve D _ _) as [e c]. split; [reflexivity | eexists; reflexivity].
  - destruct (str_eqb cmd (st "shutdown")); [|rewrite G; split; [reflexivity | eexists; reflexivity]].
    unfold write_message, logged. cbn [cn_in cn_up cn_log]. destruct up as [|[] u]; rewrite G; (split; [reflexivity | eexists; reflexivity]).
  - rewrite G. split; [reflexivity | eexists; reflexivity].
  - rewrite G. split; [reflexivity | eexists; reflexivity].
Qed.
Print Assumptions connection_is_session.

(** ** Every schedule *)
Lemma run_app a b : run (a ++ b) = fold_left step b (run a).
Proof. apply fold_left_app. Qed.
Lemma stopped_stays s evs : sv_running s = false -> fold_left step evs s = s.
Proof. intros H. induction evs as [|e evs IH]; [reflexivity|]. cbn [fold_left]. unfold step at 2. rewrite H. exact IH. Qed.
(** After the server has stopped nothing is read or written any more. *)
Theorem stopped_server_is_silent : forall before after, sv_running (run before) = false -> run (before ++ after) = run before.
Proof. intros before after H. rewrite run_app. now apply stopped_stays. Qed.
Print Assumptions stopped_server_is_silent.
Lemma set_nth_same {A} (l : list A) i a b : nth_error l i = Some b -> nth_error (set_nth i a l) i = Some a.
Proof. revert i. induction l as [|x l IH]; intros [|i] H; try discriminate; [reflexivity | exact (IH i H)]. Qed.
Lemma set_nth_other {A} (l : list A) i j a : i <> j -> nth_error (set_nth i a l) j = nth_error l j.
Proof. revert i j. induction l as [|x l IH]; intros [|i] [|j] H; try reflexivity; [contradiction|]. cbn. apply IH. congruence. Qed.
Lemma set_nth_length {A} (l : list A) i a : List.length (set_nth i a l) = List.length l.
Proof. revert i. induction l as [|x l IH]; intros [|i]; cbn; auto. Qed.
(** The server ran through all of [evs] (it may have stopped at the last of them). *)
Definition ran_through (evs : list event) : Prop := forall a x b, evs = a ++ x :: b -> sv_running (run a) = true.
Lemma ran_prefix a b : ran_through (a ++ b) -> ran_through a.
Proof. intros H c x d ->. rewrite <- app_assoc in H. exact (H c x (d ++ b) eq_refl). Qed.
Lemma running_ran evs : sv_running (run evs) = true -> ran_through evs.
Proof. intros H a x b ->. destruct (sv_running (run a)) eqn:E; [reflexivity|]. rewrite run_app, stopped_stays in H by exact E. congruence. Qed.
Lemma threads_counted evs : ran_through evs -> List.length (sv_threads (run evs)) = connections evs.
Proof.
  induction evs as [|x evs IH] using rev_ind; [reflexivity|]. intros H. specialize (IH (ran_prefix _ _ H)). pose proof (H evs x [] eq_refl) as R.
  rewrite run_app. cbn [fold_left]. unfold step. rewrite R. unfold connections in *. rewrite filter_app, app_length, <- IH.
  assert (F : forall i load y, List.length (sv_threads (feed (run evs) i load y)) = List.length (sv_threads (run evs))).
  { intros i load y. unfold feed. destruct (nth_error (sv_threads (run evs)) i); [apply set_nth_length | reflexivity]. }
  destruct x; cbn [filter List.length]; [cbn [sv_threads]; rewrite app_length; reflexivity | cbn; lia | rewrite F; lia | rewrite F; lia].
Qed.
(** C117. Whatever the other connections send and however their lines come in between, a connection has sent and
    received exactly what it would have alone. *)
Theorem connections_isolated : forall e1 up e2, ran_through (e1 ++ Connects up :: e2) ->
  nth_error (sv_threads (run (e1 ++ Connects up :: e2))) (connections e1) = Some (alone up (inputs (connections e1) e2)).
Proof.
  intros e1 up e2. induction e2 as [|x e2 IH] using rev_ind; intros H.
  - pose proof (H e1 _ [] eq_refl) as R. rewrite run_app. cbn [fold_left]. unfold step. rewrite R. cbn [sv_threads]. rewrite <- (threads_counted e1 (ran_prefix _ _ H)), nth_error_app2, Nat.sub_diag by lia. reflexivity.
  - replace (e1 ++ Connects up :: e2 ++ [x]) with ((e1 ++ Connects up :: e2) ++ [x]) in * by (rewrite <- app_assoc; reflexivity).
    specialize (IH (ran_prefix _ _ H)). pose proof (H _ x [] eq_refl) as R. set (s := run (e1 ++ Connects up :: e2)) in *. set (i := connections e1) in *.
    rewrite run_app. cbn [fold_left]. fold s. unfold step. rewrite R. unfold inputs. rewrite flat_map_app. unfold alone. rewrite fold_left_app. fold (inputs i e2). fold (alone up (inputs i e2)).
    destruct x as [u| |j load l|j]; cbn [flat_map app fold_left].
    + cbn [sv_threads]. rewrite nth_error_app1; [exact IH|]. apply nth_error_Some. congruence.
    + exact IH.
    + unfold feed. destruct (Nat.eqb_spec j i) as [-> | Nj].
      * rewrite IH. cbn [sv_threads app fold_left]. rewrite (set_nth_same _ _ _ _ IH). reflexivity.
      * cbn [app fold_left]. destruct (nth_error (sv_threads s) j) eqn:E; [|exact IH]. cbn [sv_threads]. rewrite set_nth_other by exact Nj. exact IH.
    + unfold feed. destruct (Nat.eqb_spec j i) as [-> | Nj].
      * rewrite IH. cbn [sv_threads app fold_left]. rewrite (set_nth_same _ _ _ _ IH). reflexivity.
      * cbn [app fold_left]. destruct (nth_error (sv_threads s) j) eqn:E; [|exact IH]. cbn [sv_threads]. rewrite set_nth_other by exact Nj. exact IH.
Qed.
Print Assumptions connections_isolated.
(** Consequence: a connection that has sent its lines and closed has had the session of C43/C44. *)
Theorem interleaved_session : forall e1 up e2 load l ls, ran_through (e1 ++ Connects up :: e2) ->
  inputs (connections e1) e2 = Line load l :: map (fun p => Line (fst p) (snd p)) ls ++ [Hangup] ->
  exists t e, nth_error (sv_threads (run (e1 ++ Connects up :: e2))) (connections e1) = Some t /\ th_phase t = Done e /\ run_session load (l :: map snd ls) up = (e, th_log t).
Proof.
  intros e1 up e2 load l ls H E. pose proof (connections_isolated e1 up e2 H) as I. rewrite E in I. destruct (connection_is_session up load l ls) as [S [e P]].
  eexists _, e. split; [exact I|]. split; [exact P|]. rewrite S, P. reflexivity.
Qed.
Print Assumptions interleaved_session.

(** ** Stopping *)
Lemma proceed_exits : forall p b D cmd c, th_phase (proceed b D cmd p c) = Done Exited -> cmd = st "shutdown".
Proof.
  induction p as [r|q k IH]; intros b D cmd c; cbn [proceed].
  - destruct r; try discriminate. unfold write_message. destruct (cn_up c) as [|[] u]; try discriminate. destruct (str_eqb cmd (st "shutdown")) eqn:E; [intros _; now apply str_eqb_eq | destruct b; discriminate].
  - unfold write_message. destruct (cn_up c) as [|[] u]; try apply IH. destruct b; [apply IH | discriminate].
Qed.
(** No connection is waiting for an answer while handling shutdown: that command asks nothing. *)
Definition sane (t : thread) : Prop := match th_phase t with Asking _ cmd _ => cmd <> st "shutdown" | _ => True end.
Lemma shutdown_program D args : handle_command D (st "shutdown") args = Ret (Ok (Complete PShutdown)).
Proof. reflexivity. Qed.
Lemma proceed_sane : forall p b D cmd c, cmd <> st "shutdown" -> sane (proceed b D cmd p c).
Proof.
  induction p as [r|q k IH]; intros b D cmd c N; cbn [proceed].
  - destruct r; try exact I. unfold write_message. destruct (cn_up c) as [|[] u]; try exact I. destruct (str_eqb cmd (st "shutdown")); [exact I | destruct b; exact I].
  - unfold write_message. destruct (cn_up c) as [|[] u]; try (apply IH; exact N). destruct b; [apply IH; exact N | exact N].
Qed.
Lemma receive_sane load t x : sane t -> sane (receive load t x) /\ (th_phase (receive load t x) = Done Exited -> th_phase t = Done Exited \/ exists args, x = Some (Msg (Command (st "shutdown") args))).
Proof.
  intros S. unfold receive. destruct (th_phase t) as [|D|D cmd k|e] eqn:E.
  - destruct x as [[[p|cmd args|r]|]|]; try (split; [exact I | discriminate]).
    + destruct (load p); split; try exact I; discriminate.
    + destruct (str_eqb cmd (st "shutdown")) eqn:Q; [|split; [exact I | discriminate]]. apply str_eqb_eq in Q. subst cmd.
      unfold write_message. destruct (cn_up _) as [|[] u]; (split; [exact I|]); try discriminate. intros _. right. eauto.
  - destruct x as [[[p|cmd args|r]|]|]; try (split; [exact I | discriminate]).
    + destruct (str_eqb cmd (st "shutdown")) eqn:Q.
      * apply str_eqb_eq in Q. subst cmd. rewrite shutdown_program. cbn [proceed]. unfold write_message. destruct (cn_up _) as [|[] u]; (split; [exact I|]); try discriminate. intros _. right. eauto.
      * assert (N : cmd <> st "shutdown") by (intros ->; discriminate Q). split; [now apply proceed_sane|]. intros H. apply proceed_exits in H. contradiction.
    + unfold write_message. destruct (cn_up _) as [|[] u]; (split; [exact I | discriminate]).
  - unfold sane in S. rewrite E in S. split; [now apply proceed_sane|]. intros H. apply proceed_exits in H. contradiction.
  - split; [exact S|]. intros H. left. congruence.
Qed.
(** C118. The server stops only when accepting fails or a client asks it to: no error, panic or disconnection of a
    connection stops it, in any schedule. *)
Theorem stops_only_when_asked : forall evs, sv_running (run evs) = false ->
  In AcceptFails evs \/ exists i load args, In (Arrives i load (Msg (Command (st "shutdown") args))) evs.
Proof.
  intros evs. assert (G : (forall t, In t (sv_threads (run evs)) -> sane t) /\ (sv_running (run evs) = true -> forall t, In t (sv_threads (run evs)) -> th_phase t <> Done Exited) /\
    (sv_running (run evs) = false -> In AcceptFails evs \/ exists i load args, In (Arrives i load (Msg (Command (st "shutdown") args))) evs)); [|apply G].
  induction evs as [|x evs (A & N & C)] using rev_ind; [split; [intros t [] | split; [intros _ t [] | discriminate]]|].
  rewrite run_app. cbn [fold_left]. set (s := run evs) in *. unfold step. destruct (sv_running s) eqn:R.
  2: { split; [exact A|]. split; [congruence|]. intros _. destruct (C eq_refl) as [H|(i & load & args & H)]; [left; apply in_or_app; auto | right; exists i, load, args; apply in_or_app; auto]. }
  assert (F : forall i load y, let s' := feed s i load y in (forall t, In t (sv_threads s') -> sane t) /\ (sv_running s' = true -> forall t, In t (sv_threads s') -> th_phase t <> Done Exited) /\
    (sv_running s' = false -> exists args, y = Some (Msg (Command (st "shutdown") args)))).
  { intros i load y. unfold feed. destruct (nth_error (sv_threads s) i) as [t0|] eqn:E; cbv zeta; [|split; [exact A | split; [intros _; apply N; reflexivity | rewrite R; discriminate]]].
    pose proof (nth_error_In _ _ E) as H0. destruct (receive_sane load t0 y (A t0 H0)) as [S X]. cbn [sv_threads sv_running].
    assert (M : forall t, In t (set_nth i (receive load t0 y) (sv_threads s)) -> t = receive load t0 y \/ In t (sv_threads s)).
    { intros t. generalize (receive load t0 y) as r. intros r. clear. revert i. generalize (sv_threads s) as l. induction l as [|a l IH]; intros i H; [destruct i; contradiction|]. destruct i as [|i]; destruct H as [<- | H]; auto; [right; right; exact H | right; left; reflexivity|]. destruct (IH i H) as [Q | Q]; [left; exact Q | right; right; exact Q]. }
    split; [intros t Ht; destruct (M t Ht) as [-> |]; auto|]. split.
    - unfold exited. intros Q t Ht P. destruct (M t Ht) as [-> | Hi]; [rewrite P in Q; discriminate Q | exact (N eq_refl t Hi P)].
    - unfold exited. intros Q. destruct (th_phase (receive load t0 y)) as [| | |e] eqn:P; try discriminate Q. destruct e; try discriminate Q. destruct (X eq_refl) as [Y|Y]; [destruct (N eq_refl t0 H0 Y) | exact Y]. }
  destruct x as [u| |i load l|i].
  - cbn [sv_threads sv_running]. split; [|split; [|discriminate]].
    + intros t Ht. apply in_app_or in Ht. destruct Ht as [Ht | [<- | []]]; [auto | exact I].
    + intros _ t Ht. apply in_app_or in Ht. destruct Ht as [Ht | [<- | []]]; [apply N; auto | discriminate].
  - cbn [sv_threads sv_running]. split; [exact A|]. split; [discriminate|]. intros _. left. apply in_or_app. right. left. reflexivity.
  - destruct (F i load (Some l)) as (F1 & F2 & F3). split; [exact F1|]. split; [exact F2|]. intros Q. destruct (F3 Q) as [args Y]. injection Y as ->. right. exists i, load, args. apply in_or_app. right. left. reflexivity.
  - destruct (F i (fun _ => Err "unused") None) as (F1 & F2 & F3). split; [exact F1|]. split; [exact F2|]. intros Q. destruct (F3 Q) as [args Y]. discriminate Y.
Qed.
Print Assumptions stops_only_when_asked.
