(** C129: whether somebody reads what the server writes to its own standard output and error. *)
From Coq Require Import Ascii String List ZArith Lia Bool.
From Verif Require Import Base NumText Utf8 TypesModel ExprModel ProcModel IoDataModel EvalModel EvalExample ServerModel ServerSpec ServerProofs ServerExample OutModel.
Import ListNotations.
Open Scope Z_scope.

(** ** Words of the statements *)
(** Somebody reads everything. *)
Definition read_all : list nat -> bool := fun _ => true.
Definition bytes (l : list nat) : nat := list_sum l.
(** A pipe nobody reads: up to [low] bytes are taken for sure, and never more than [high]. *)
Definition unread (takes : list nat -> bool) (low high : nat) : Prop :=
  forall l, ((bytes l <= low)%nat -> takes l = true) /\ ((high < bytes l)%nat -> takes l = false).
(** [more] was added to what had gone over the wire. *)
Definition cut_short (log whole : list wire) : Prop := exists more, whole = log ++ more.

Section Props.
Variable frame : str -> list Z.
Variable dying : string -> list Z.
Variable lib : conn -> list nat.
Notation session := (session_out frame dying lib).

(** What is written before is kept. *)
Definition grown (s s' : said) : Prop := exists x y, to_out s' = to_out s ++ x /\ to_err s' = to_err s ++ y.
Lemma grown_refl s : grown s s.
Proof. exists [], []. now rewrite !app_nil_r. Qed.
Lemma grown_trans a b c : grown a b -> grown b c -> grown a c.
Proof. intros (x & y & A & B) (u & v & C & D). exists (x ++ u), (y ++ v). rewrite C, D, A, B, !app_assoc. auto. Qed.
Lemma say_grown takes l s s' : say takes l s = Some s' -> grown s s'.
Proof. unfold say. destruct (takes _); [|discriminate]. intros H. injection H as <-. exists l, []. cbn. now rewrite app_nil_r. Qed.
Lemma say_read l s : say read_all l s = Some (Said (to_out s ++ l) (to_err s)).
Proof. reflexivity. Qed.
Lemma grown_bytes s s' : grown s s' -> (bytes (to_out s) <= bytes (to_out s'))%nat /\ (bytes (to_err s) <= bytes (to_err s'))%nat.
Proof. intros (x & y & -> & ->). unfold bytes. rewrite !list_sum_app. lia. Qed.

Lemma serve_grown takes_out takes_err D n : forall c s f c' s', serve_out frame dying lib takes_out takes_err D n c s = (f, c', s') -> grown s s'.
Proof.
  assert (P : forall m c s f c' s', panics dying takes_err m c s = (f, c', s') -> grown s s').
  { unfold panics. intros m c s f c' s'. destruct (takes_err _); intros H; injection H as <- <- <-; [|apply grown_refl]. eexists [], _. cbn. rewrite app_nil_r. split; reflexivity. }
  induction n as [|n IH]; intros c s f c' s'; cbn [serve_out]; [intros H; injection H as <- <- <-; apply grown_refl|].
  destruct (read_next c) as [[[m|]|m|m|] c1]; try (intros H; injection H as <- <- <-; apply grown_refl); [| |apply P].
  - destruct m as [p|cmd args|r]; try (intros H; injection H as <- <- <-; apply grown_refl).
    destruct (exec send_event (tells frame D cmd args) c1) as [[? t] ?]. destruct (exec send_event (handle_command D cmd args) c1) as [[? a] c2].
    destruct (say takes_out _ s) as [s1|] eqn:Sy; [|intros H; injection H as <- <- <-; apply grown_refl]. apply say_grown in Sy.
    destruct a as [resp|m|m|]; try (intros H; injection H as <- <- <-; exact Sy); [|intros H; eapply grown_trans; [exact Sy | eapply P; exact H]].
    destruct (write_message c2 resp) as [[|m|m|] c3]; try (intros H; injection H as <- <- <-; exact Sy); [|intros H; eapply grown_trans; [exact Sy | eapply P; exact H]].
    destruct (str_eqb cmd (st "shutdown")); [intros H; injection H as <- <- <-; exact Sy|]. intros H. eapply grown_trans; [exact Sy | eapply IH; exact H].
  - destruct (say takes_out _ s) as [s1|] eqn:Sy; [|intros H; injection H as <- <- <-; apply grown_refl]. apply say_grown in Sy.
    destruct (write_message c1 (err_msg m)) as [[|m2|m2|] c3]; try (intros H; injection H as <- <- <-; exact Sy); intros H; (eapply grown_trans; [exact Sy|]); [eapply IH; exact H | eapply P; exact H].
Qed.
(** With a reader the server is that of ServerModel. *)
Lemma serve_read D n : forall c s, exists s', serve_out frame dying lib read_all read_all D n c s = (Ended (fst (serve D n c)), snd (serve D n c), s').
Proof.
  induction n as [|n IH]; intros c s; cbn [serve_out serve]; [eexists; reflexivity|].
  destruct (read_next c) as [[[m|]|m|m|] c1]; try (eexists; reflexivity).
  - destruct m as [p|cmd args|r]; try (eexists; reflexivity).
    destruct (exec send_event (tells frame D cmd args) c1) as [[? t] ?]. destruct (exec send_event (handle_command D cmd args) c1) as [[? a] c2]. rewrite say_read.
    destruct a as [resp|m|m|]; try (eexists; reflexivity). destruct (write_message c2 resp) as [[|m|m|] c3]; try (eexists; reflexivity). destruct (str_eqb cmd (st "shutdown")); [eexists; reflexivity | apply IH].
  - rewrite say_read. destruct (write_message c1 (err_msg m)) as [[|m2|m2|] c3]; try (eexists; reflexivity). apply IH.
Qed.
Lemma serve_log D n : forall c, exists more, cn_log (snd (serve D n c)) = cn_log c ++ more.
Proof.
  assert (Q : forall c a b, (exists x, cn_log a = cn_log c ++ x) -> (exists y, cn_log b = cn_log a ++ y) -> exists z, cn_log b = cn_log c ++ z).
  { intros c a b [x X] [y Y]. exists (x ++ y). rewrite Y, X. symmetry. apply app_assoc. }
  induction n as [|n IH]; intros c; cbn [serve]; [exists []; now rewrite app_nil_r|].
  destruct (read_next c) as [r c1] eqn:R. assert (R1 : exists x, cn_log c1 = cn_log c ++ x) by (apply extends_read in R; destruct R as [(_ & _ & [R _])|[(? & _ & [R _])|(? & _ & [R _])]]; eexists; exact R).
  destruct r as [[m|]|m|m|]; cbn [snd]; try exact R1.
  - destruct m as [p|cmd args|rr]; try exact R1. destruct (exec send_event (handle_command D cmd args) c1) as [[t a] c2] eqn:X. apply exec_exchanges in X. destruct X as (_ & ws & _ & [X _]).
    assert (R2 : exists x, cn_log c2 = cn_log c ++ x) by (eapply Q; [exact R1 | eexists; exact X]).
    destruct a as [resp|m|m|]; try exact R2. destruct (write_message c2 resp) as [w c3] eqn:W.
    assert (R3 : exists x, cn_log c3 = cn_log c ++ x) by (apply extends_write in W; destruct W as [[_ [W _]]|(? & _ & [W _])]; (eapply Q; [exact R2 | eexists; exact W])).
    destruct w; try exact R3. destruct (str_eqb cmd (st "shutdown")); [exact R3|]. eapply Q; [exact R3 | apply IH].
  - destruct (write_message c1 (err_msg m)) as [w c3] eqn:W.
    assert (R3 : exists x, cn_log c3 = cn_log c ++ x) by (apply extends_write in W; destruct W as [[_ [W _]]|(? & _ & [W _])]; (eapply Q; [exact R1 | eexists; exact W])).
    destruct w; try exact R3. eapply Q; [exact R3 | apply IH].
Qed.

Section Pipes.
Variables takes_out takes_err : list nat -> bool.
Variables low_out high_out low_err high_err : nat.
Hypothesis Po : unread takes_out low_out high_out.
Hypothesis Pe : unread takes_err low_err high_err.
(** The same, or it hangs: what went over the wire is cut short, and more than the pipes take for sure was to be written. *)
Definition same_or_hangs (w l : fate * conn * said) : Prop :=
  l = w \/ fst (fst l) = Hanging /\ cut_short (cn_log (snd (fst l))) (cn_log (snd (fst w))) /\ ((low_out < bytes (to_out (snd w)))%nat \/ (low_err < bytes (to_err (snd w)))%nat).
Lemma panics_two m c s : same_or_hangs (panics dying read_all m c s) (panics dying takes_err m c s).
Proof.
  unfold panics. cbn [read_all]. destruct (takes_err _) eqn:T; [left; reflexivity|]. right. split; [reflexivity|]. split; [exists []; cbn; now rewrite app_nil_r|]. right.
  cbn [snd to_err]. destruct (Nat.le_gt_cases (bytes (to_err (Said (to_out s) (to_err s ++ [List.length (dying m)])))) low_err) as [L | L]; [|exact L].
  apply (proj1 (Pe _)) in L. cbn [to_err] in L, T. congruence.
Qed.
Lemma serve_two D n : forall c s, same_or_hangs (serve_out frame dying lib read_all read_all D n c s) (serve_out frame dying lib takes_out takes_err D n c s).
Proof.
  induction n as [|n IH]; intros c s; [left; reflexivity|].
  pose proof (serve_log D (S n) c) as Lg. destruct (serve_read D (S n) c s) as [sw Ew]. pose proof (serve_grown _ _ _ _ _ _ _ _ _ Ew) as Gw. revert Lg Ew Gw. cbn [serve_out serve].
  destruct (read_next c) as [[[m|]|m|m|] c1] eqn:R; try (left; reflexivity); [| | intros _ _ _; apply panics_two].
  - destruct m as [p|cmd args|rr]; try (left; reflexivity).
    destruct (exec send_event (tells frame D cmd args) c1) as [[? t] ?]. destruct (exec send_event (handle_command D cmd args) c1) as [[? a] c2] eqn:X. rewrite say_read. set (s1 := Said (to_out s ++ lib c1 ++ line_of t) (to_err s)).
    unfold say at 1. fold s1. destruct (takes_out (to_out s1)) eqn:T.
    + intros _ _ _. destruct a as [resp|m|m|]; try (left; reflexivity); [|apply panics_two]. destruct (write_message c2 resp) as [[|m|m|] c3]; try (left; reflexivity); [|apply panics_two].
      destruct (str_eqb cmd (st "shutdown")); [left; reflexivity | apply IH].
    + intros _ _ _. right. split; [reflexivity|].
      assert (B : (low_out < bytes (to_out s1))%nat) by (destruct (Nat.le_gt_cases (bytes (to_out s1)) low_out) as [L|L]; [apply (proj1 (Po _)) in L; congruence | exact L]).
      cbn [fst snd]. destruct a as [resp|m|m|]; try (split; [exists []; cbn; now rewrite app_nil_r | left; exact B]).
      destruct (write_message c2 resp) as [w c3] eqn:W.
      assert (R3 : cut_short (cn_log c2) (cn_log c3)) by (apply extends_write in W; destruct W as [[_ [W _]]|(? & _ & [W _])]; eexists; exact W).
      destruct w as [|m|m|]; try (split; [exact R3 | left; exact B]). destruct (str_eqb cmd (st "shutdown")); [split; [exact R3 | left; exact B]|].
      destruct (serve_read D n c3 s1) as [s2 E2]. rewrite E2. pose proof (grown_bytes _ _ (serve_grown _ _ _ _ _ _ _ _ _ E2)) as [G _]. cbn [fst snd].
      split; [|left; lia]. destruct R3 as [x R3]. destruct (serve_log D n c3) as [y Y]. exists (x ++ y). rewrite Y, R3. symmetry. apply app_assoc.
  - rewrite say_read. set (s1 := Said (to_out s ++ [List.length (frame (st "Failed to read message: " ++ st m))]) (to_err s)). unfold say at 1. fold s1. destruct (takes_out (to_out s1)) eqn:T.
    + intros _ _ _. destruct (write_message c1 (err_msg m)) as [[|m2|m2|] c3]; try (left; reflexivity); [apply IH | apply panics_two].
    + intros _ _ _. right. split; [reflexivity|].
      assert (B : (low_out < bytes (to_out s1))%nat) by (destruct (Nat.le_gt_cases (bytes (to_out s1)) low_out) as [L|L]; [apply (proj1 (Po _)) in L; congruence | exact L]).
      cbn [fst snd]. destruct (write_message c1 (err_msg m)) as [w c3] eqn:W.
      assert (R3 : cut_short (cn_log c1) (cn_log c3)) by (apply extends_write in W; destruct W as [[_ [W _]]|(? & _ & [W _])]; eexists; exact W).
      destruct w as [|m2|m2|]; try (split; [exact R3 | left; exact B]).
      destruct (serve_read D n c3 s1) as [s2 E2]. rewrite E2. pose proof (grown_bytes _ _ (serve_grown _ _ _ _ _ _ _ _ _ E2)) as [G _]. cbn [fst snd].
      split; [|left; lia]. destruct R3 as [x R3]. destruct (serve_log D n c3) as [y Y]. exists (x ++ y). rewrite Y, R3. symmetry. apply app_assoc.
Qed.
End Pipes.

(** ** The theorems *)
(** When somebody reads it, what the server writes about itself changes nothing: the session is the one of ServerModel. *)
Theorem watched_server : forall load lines up s, exists s', session read_all read_all load lines up s = (Ended (fst (run_session load lines up)), snd (run_session load lines up), s').
Proof.
  intros load lines up s. unfold session_out, run_session. destruct (init load (Conn lines up [])) as [[[D|]|m|m|] c]; try (eexists; reflexivity).
  destruct (serve_read D (S (List.length lines)) c s) as [s' ->]. exists s'. destruct (serve D (S (List.length lines)) c). reflexivity.
Qed.
(** When nobody does, every session either is the same or hangs at some point, and it is the same as long as what the
    server writes, before and during the session, fits into the pipes. *)
Theorem unwatched_server_partial : forall takes_out takes_err low_out high_out low_err high_err load lines up s e log s',
  unread takes_out low_out high_out -> unread takes_err low_err high_err ->
  session read_all read_all load lines up s = (e, log, s') ->
  ((bytes (to_out s') <= low_out)%nat -> (bytes (to_err s') <= low_err)%nat -> session takes_out takes_err load lines up s = (e, log, s')) /\
  (session takes_out takes_err load lines up s = (e, log, s') \/
   exists log' s'', session takes_out takes_err load lines up s = (Hanging, log', s'') /\ cut_short log' log).
Proof.
  intros takes_out takes_err low_out high_out low_err high_err load lines up s e log s' Po Pe. unfold session_out.
  assert (K : forall w l : fate * conn * said, same_or_hangs low_out low_err w l -> (let '(f, c, z) := w in (f, cn_log c, z)) = (e, log, s') ->
    ((bytes (to_out s') <= low_out)%nat -> (bytes (to_err s') <= low_err)%nat -> (let '(f, c, z) := l in (f, cn_log c, z)) = (e, log, s')) /\
    ((let '(f, c, z) := l in (f, cn_log c, z)) = (e, log, s') \/ exists log' s'', (let '(f, c, z) := l in (f, cn_log c, z)) = (Hanging, log', s'') /\ cut_short log' log)).
  { intros w l [-> | (Hf & Hc & Hb)] E; [split; [intros _ _; exact E | left; exact E]|]. destruct w as [[fw cw] zw]. destruct l as [[fl cl] zl]. cbn [fst snd] in *. injection E as <- <- <-. subst fl. split.
    - intros A B. exfalso. lia.
    - right. exists (cn_log cl), zl. split; [reflexivity | exact Hc]. }
  destruct (init load (Conn lines up [])) as [[[D|]|m|m|] c]; try (intros E; split; [intros _ _; exact E | left; exact E]).
  - apply K. eapply serve_two; eassumption.
  - apply K. eapply panics_two; eassumption.
Qed.

(** ** Where it fails *)
Definition failing : line := cmd "methods" ["1"]%string.
Lemma failing_answered D : exists m, forall c1, exec send_event (handle_command D (st "methods") [st "1"]) c1 = ([], Ok (err_msg m), c1).
Proof. eexists. intros c1. reflexivity. Qed.
Lemma failing_told D : exists m, forall c1, exec send_event (tells frame D (st "methods") [st "1"]) c1 = ([], frame m, c1).
Proof. eexists. intros c1. reflexivity. Qed.
Hypothesis frame_some : forall m, frame m <> [].
Lemma failing_round takes_out takes_err D n c s rest ups : cn_in c = failing :: rest -> cn_up c = true :: ups ->
  exists add m, (1 <= bytes add)%nat /\ serve_out frame dying lib takes_out takes_err D (S n) c s =
    match say takes_out add s with
    | None => (Hanging, Conn rest (true :: ups) (cn_log c ++ [Got failing]), s)
    | Some s1 => serve_out frame dying lib takes_out takes_err D n (Conn rest ups (cn_log c ++ [Got failing; Sent (err_msg m)])) s1
    end.
Proof.
  intros E1 E2. destruct (failing_answered D) as [m A]. destruct (failing_told D) as [x T].
  set (c1 := Conn rest (true :: ups) (cn_log c ++ [Got failing])). exists (lib c1 ++ line_of (frame x)), m. split.
  - unfold bytes. rewrite list_sum_app. pose proof (frame_some x) as F. destruct (frame x); [congruence|]. cbn. lia.
  - cbn [serve_out]. unfold read_next. rewrite E1, E2. unfold failing at 1. unfold cmd. change (logged (Conn rest (true :: ups) (cn_log c)) (Got failing)) with c1. change (map st ["1"%string]) with [st "1"]. rewrite A, T.
    destruct (say takes_out (lib c1 ++ line_of (frame x)) s); [|reflexivity]. unfold write_message, c1, logged. cbn [cn_in cn_up cn_log].
    change (str_eqb (st "methods") (st "shutdown")) with false. cbn iota. rewrite <- app_assoc. reflexivity.
Qed.
Lemma watched_rounds D k : forall n c s, cn_in c = repeat failing k -> cn_up c = repeat true k -> exists log s', serve_out frame dying lib read_all read_all D (S (k + n)) c s = (Ended Closed, Conn [] [] (cn_log c ++ log), s') /\ List.length (responses log) = k.
Proof.
  induction k as [|k IH]; intros n c s E1 E2.
  - exists [Eof], s. split; [|reflexivity]. cbn [serve_out]. unfold read_next, logged. rewrite E1, E2. reflexivity.
  - cbn [repeat] in E1, E2. destruct (failing_round read_all read_all D (S (k + n)) c s _ _ E1 E2) as (add & m & _ & E). change (S (S k + n)) with (S (S (k + n))). rewrite E, say_read.
    edestruct (IH n (Conn (repeat failing k) (repeat true k) (cn_log c ++ [Got failing; Sent (err_msg m)]))) as (log & s' & Q & L); [reflexivity | reflexivity|]. rewrite Q. cbn [cn_log].
    exists ([Got failing; Sent (err_msg m)] ++ log), s'. rewrite <- app_assoc. split; [reflexivity|]. cbn. f_equal. exact L.
Qed.
Lemma unwatched_rounds takes_out takes_err low high D (Po : unread takes_out low high) k : forall n c s, cn_in c = repeat failing (S k) -> cn_up c = repeat true (S k) -> (high < bytes (to_out s) + S k)%nat ->
  exists c' log s', serve_out frame dying lib takes_out takes_err D (S (k + n)) c s = (Hanging, c', s') /\ cn_log c' = cn_log c ++ log /\ (List.length (responses log) <= k)%nat.
Proof.
  induction k as [|k IH]; intros n c s E1 E2 H; cbn [repeat] in E1, E2.
  - destruct (failing_round takes_out takes_err D n c s _ _ E1 E2) as (add & m & B & E). change (S (0 + n)) with (S n). rewrite E. unfold say. replace (takes_out _) with false.
    + eexists _, [Got failing], _. split; [reflexivity|]. split; [reflexivity|]. cbn. lia.
    + symmetry. apply (proj2 (Po _)). cbn [to_out]. unfold bytes in *. rewrite list_sum_app. lia.
  - destruct (failing_round takes_out takes_err D (S (k + n)) c s _ _ E1 E2) as (add & m & B & E). change (S (S k + n)) with (S (S (k + n))). rewrite E. unfold say.
    destruct (takes_out _); [|eexists _, [Got failing], _; split; [reflexivity|]; split; [reflexivity | cbn; lia]].
    edestruct (IH n (Conn (failing :: repeat failing k) (true :: repeat true k) (cn_log c ++ [Got failing; Sent (err_msg m)])) (Said (to_out s ++ add) (to_err s))) as (c' & log & s' & Q & Lg & L); [reflexivity | reflexivity | |].
    + cbn [to_out]. unfold bytes in *. rewrite list_sum_app. lia.
    + rewrite Q. exists c', ([Got failing; Sent (err_msg m)] ++ log), s'. split; [reflexivity|]. split; [rewrite Lg; cbn [cn_log]; now rewrite <- app_assoc|]. cbn. apply le_n_S. exact L.
Qed.
(** However large the pipes: the same failing command, often enough. With a reader each is answered; without one the
    server hangs at one of them, before answering it. *)
Theorem unwatched_server_refuted : forall takes_out takes_err low high s, unread takes_out low high ->
  let lines := hello :: repeat failing (S high) in let up := repeat true (S high) in
  (exists log s', session read_all read_all load0 lines up s = (Ended Closed, log, s') /\ List.length (responses log) = S high) /\
  (exists log s', session takes_out takes_err load0 lines up s = (Hanging, log, s') /\ (List.length (responses log) < S high)%nat).
Proof.
  intros takes_out takes_err low high s Po lines up.
  assert (I : init load0 (Conn lines up []) = (Ok (Some dbg0), Conn (repeat failing (S high)) up [Got hello])) by reflexivity.
  unfold session_out. rewrite I. replace (List.length lines) with (S (S high)) by (unfold lines; cbn [List.length]; now rewrite repeat_length). split.
  - destruct (watched_rounds dbg0 (S high) 1 (Conn (repeat failing (S high)) up [Got hello]) s eq_refl eq_refl) as (log & s' & E & L). replace (S (S high + 1)) with (S (S (S high))) in E by lia. rewrite E. cbn [cn_log].
    exists ([Got hello] ++ log), s'. split; [reflexivity | exact L].
  - destruct (unwatched_rounds takes_out takes_err low high dbg0 Po high 2 (Conn (repeat failing (S high)) up [Got hello]) s eq_refl eq_refl) as (c' & log & s' & E & Lg & L); [lia|].
    replace (S (high + 2)) with (S (S (S high))) in E by lia. rewrite E, Lg. exists ([Got hello] ++ log), s'. split; [reflexivity|]. change (responses ([Got hello] ++ log)) with (responses log). lia.
Qed.
End Props.
Print Assumptions watched_server.
Print Assumptions unwatched_server_partial.
Print Assumptions unwatched_server_refuted.

(** ** The hypotheses are met *)
(** A pipe of 20 bytes, lines of a fixed prefix and the message: one failing command is too much for it; bad lines and
    panics are counted as well. *)
Definition frame0 (m : str) : list Z := utf8 (st "ERROR " ++ m) ++ [10].
Definition dying0 (why : string) : list Z := utf8 (st why).
Definition small_pipe (l : list nat) : bool := (bytes l <=? 100)%nat.
Example small_pipe_unread : unread small_pipe 100 100.
Proof. intros l. unfold small_pipe. split; intros H; [apply Nat.leb_le | apply Nat.leb_gt]; exact H. Qed.
Example quiet_session :
  let lines := [hello; cmd "frobnicate" []; failing] in
  exists log, session_out frame0 dying0 (fun _ => []) read_all read_all load0 lines writes (Said [] []) = (Ended Closed, log, Said [70%nat] []) /\
    session_out frame0 dying0 (fun _ => []) small_pipe small_pipe load0 lines writes (Said [] []) = (Ended Closed, log, Said [70%nat] []) /\
    session_out frame0 dying0 (fun _ => []) small_pipe small_pipe load0 lines writes (Said [40%nat] []) = (Hanging, firstn 4 log, Said [40%nat] []).
Proof. eexists. split; [vm_compute; reflexivity|]. split; vm_compute; reflexivity. Qed.
(** A panic whose message nobody takes leaves the connection open. *)
Example panic_hangs :
  let lines := [hello; Msg (Command (st "eval") [st """" ++ [233%N] ++ st """"])] in
  (exists why log s, session_out frame0 dying0 (fun _ => []) read_all read_all load0 lines writes (Said [] []) = (Ended (Panicked why), log, s)) /\
  (exists log s, session_out frame0 dying0 (fun _ => []) small_pipe small_pipe load0 lines writes (Said [] [90%nat]) = (Hanging, log, s)).
Proof. split; [eexists; eexists; eexists; vm_compute; reflexivity | eexists; eexists; vm_compute; reflexivity]. Qed.
