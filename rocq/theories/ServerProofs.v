(** The server follows the protocol. *)
From Coq Require Import Ascii String List ZArith Lia Bool.
From Verif Require Import Base NumText ProcModel ProcSpec ProcProofs DiscoverModel ExprModel EvalModel ServerModel ServerSpec.
Import ListNotations.
Open Scope Z_scope.

(** [extends c c2 ws]: between the two states [ws] went over the wire. *)
Definition extends (c c2 : conn) (ws : list wire) : Prop :=
  cn_log c2 = cn_log c ++ ws /\ cn_in c = lines_read ws ++ cn_in c2.
Lemma extends_trans a b c u v : extends a b u -> extends b c v -> extends a c (u ++ v).
Proof. intros [A1 A2] [B1 B2]. unfold extends, lines_read in *. rewrite flat_map_app, B1, A1, A2, B2, !app_assoc. auto. Qed.
Lemma extends_read c r c2 : read_next c = (r, c2) ->
  (r = Ok None /\ cn_in c = [] /\ extends c c2 [Eof]) \/ (exists m, r = Ok (Some m) /\ extends c c2 [Got (Msg m)]) \/ (exists m, r = Err m /\ extends c c2 [Got Bad]).
Proof.
  unfold read_next. destruct (cn_in c) as [|l rest] eqn:E; intros H; injection H as <- <-.
  - left. split; [reflexivity|]. split; [reflexivity|]. split; cbn; [reflexivity | now rewrite E].
  - right. destruct l as [m|]; [left; exists m | right; eexists]; (split; [reflexivity|]); split; cbn; [reflexivity | exact E | reflexivity | exact E].
Qed.
Lemma extends_write c m w c2 : write_message c m = (w, c2) ->
  (w = Ok tt /\ extends c c2 [Sent m]) \/ (exists x, w = Err x /\ extends c c2 [Unsent m]).
Proof.
  unfold write_message. destruct (cn_up c) as [|[] u] eqn:E; intros H; injection H as <- <-; [right; eexists | left | right; eexists]; (split; [reflexivity|]); split; reflexivity.
Qed.
Lemma send_event_exchange c q a c2 : send_event c q = (a, c2) -> exists w, exchange q a w /\ extends c c2 w.
Proof.
  unfold send_event. destruct (write_message c (Event q)) as [w c1] eqn:W. apply extends_write in W. destruct W as [[-> W]|(x & -> & W)].
  - destruct (read_next c1) as [r c3] eqn:R. apply extends_read in R. destruct R as [(-> & _ & R)|[(m & -> & R)|(m & -> & R)]]; pose proof (extends_trans _ _ _ _ _ W R) as X.
    + intros H; injection H as <- <-. eexists. split; [apply x_closed | exact X].
    + destruct m; intros H; injection H as <- <-; (eexists; split; [|exact X]); [apply x_other | apply x_other | apply x_reply]; discriminate.
    + intros H; injection H as <- <-. eexists. split; [apply x_bad | exact X].
  - intros H; injection H as <- <-. eexists. split; [apply x_unsent | exact W].
Qed.
Lemma exec_exchanges {A} (p : prog A) c t a c2 : exec send_event p c = (t, a, c2) -> replays p t a /\ exists ws, exchanges t ws /\ extends c c2 ws.
Proof.
  revert c t c2. induction p as [x|q k IH]; intros c t c2; cbn [exec].
  - intros H; injection H as <- <- <-. split; [constructor|]. exists []. split; [constructor|]. split; cbn; [now rewrite app_nil_r | reflexivity].
  - destruct (send_event c q) as [x c1] eqn:S1. destruct (exec send_event (k x) c1) as [[t1 b] c3] eqn:E. intros H; injection H as <- <- <-.
    apply send_event_exchange in S1. destruct S1 as (w & X & W). apply IH in E. destruct E as (R & ws & Xs & Ws).
    split; [now constructor|]. exists (w ++ ws). split; [now constructor | now apply extends_trans with c1].
Qed.
Lemma replays_exec {S A} (c : client S) (p : prog A) s : replays p (events c p s) (outcome c p s).
Proof.
  unfold events, outcome. revert s. induction p as [a|q k IH]; intros s; cbn [exec]; [constructor|]. destruct (c s q) as [x s1]. specialize (IH x s1). destruct (exec c (k x) s1) as [[t a] s2]. now constructor.
Qed.
Lemma replays_fun {A} (p : prog A) t a b : replays p t a -> replays p t b -> a = b.
Proof. intros H. induction H; intros K; inversion K; subst; auto. Qed.

Lemma response_final D cmd args : forall t m, replays (handle_command D cmd args) t (Ok m) -> final m.
Proof.
  assert (L : forall A (f : A -> payload) (r : res A) m, respond f r = Ok m -> final m).
  { intros A f [a|e|e|] m H; cbn in H; try discriminate; injection H as <-; exact I. }
  assert (B : forall A B (p : prog B) (f : B -> A) (g : A -> res smsg) t m, (forall a m, g a = Ok m -> final m) -> replays (pbind p (fun r => Ret (g (f r)))) t (Ok m) -> final m).
  { intros A B p f g t m Hg. revert t. induction p as [x|q k IH]; intros t H; cbn [pbind] in H; inversion H; subst; [eapply Hg; eassumption | eapply IH; eassumption]. }
  intros t m. unfold handle_command. destruct (_ || _).
  - destruct args as [|a args]; [intros H; inversion H; subst; exact I|]. destruct (parse_expression _) as [e|x|x|]; [| intros H; inversion H; subst; exact I ..].
    intros H. eapply (B _ _ _ fst (respond PValue)); [|exact H]. intros; eapply L; eassumption.
  - destruct (str_eqb cmd (st "methods")).
    + destruct args as [|a args]; [intros H; inversion H; subst; exact I|]. intros H. eapply (B _ _ _ (fun x => x) (respond PMethods)); [|exact H]. intros; eapply L; eassumption.
    + destruct (str_eqb cmd (st "functions")); [intros H; inversion H; subst; eapply L; eassumption|]. destruct (str_eqb cmd (st "shutdown")); intros H; inversion H; subst; exact I.
Qed.
Lemma response_not_err D cmd args t m : ~ replays (handle_command D cmd args) t (Err m).
Proof.
  assert (L : forall A (f : A -> payload) (r : res A) m, respond f r <> Err m) by (intros A f [a|e|e|] x; discriminate).
  assert (B : forall A B (p : prog B) (f : B -> A) (g : A -> res smsg) t m, (forall a m, g a <> Err m) -> ~ replays (pbind p (fun r => Ret (g (f r)))) t (Err m)).
  { intros A B p f g t0 m0 Hg. revert t0. induction p as [x|q k IH]; intros t0 H; cbn [pbind] in H; inversion H; subst; [eapply Hg; eassumption | eapply IH; eassumption]. }
  unfold handle_command. destruct (_ || _).
  - destruct args as [|a args]; [intros H; inversion H|]. destruct (parse_expression _) as [e|x|x|]; [| intros H; inversion H ..].
    apply (B _ _ _ fst (respond PValue)). apply L.
  - destruct (str_eqb cmd (st "methods")).
    + destruct args as [|a args]; [intros H; inversion H|]. apply (B _ _ _ (fun x => x) (respond PMethods)). apply L.
    + destruct (str_eqb cmd (st "functions")); [intros H; inversion H; subst; eapply L; eassumption|]. destruct (str_eqb cmd (st "shutdown")); intros H; inversion H.
Qed.
Lemma shutdown_response D args t m : replays (handle_command D (st "shutdown") args) t m -> m = Ok (Complete PShutdown) /\ t = [].
Proof. intros H. change (replays (Ret (Ok (Complete PShutdown))) t m) in H. inversion H; subst. auto. Qed.

(** Reading consumes the lines: [n] rounds are enough. *)
Lemma serve_conversation D n : forall c e c2, serve D n c = (e, c2) -> e <> Budget ->
  exists ws, conversation D e ws /\ extends c c2 ws.
Proof.
  induction n as [|n IH]; intros c e c2; cbn [serve]; [intros H; injection H as <- <-; congruence|].
  destruct (read_next c) as [r c1] eqn:R. apply extends_read in R. destruct R as [(-> & _ & R)|[(m & -> & R)|(m & -> & R)]].
  - intros H _. injection H as <- <-. exists [Eof]. split; [|exact R]. exists [], [Eof]. repeat split; [constructor | constructor].
  - destruct m as [p|cmd args|r].
    + intros H _. injection H as <- <-. eexists. split; [|exact R]. exists [], [Got (Msg (Init p))]. repeat split; constructor.
    + destruct (exec send_event (handle_command D cmd args) c1) as [[t a] c3] eqn:X. apply exec_exchanges in X. destruct X as (Rp & xs & Xs & X).
      pose proof (extends_trans _ _ _ _ _ R X) as Y. cbn [app] in Y. destruct a as [m|m|m|].
      * pose proof (response_final _ _ _ _ _ Rp) as F. destruct (write_message c3 m) as [w c4] eqn:W. apply extends_write in W. destruct W as [[-> W]|(x & -> & W)]; pose proof (extends_trans _ _ _ _ _ Y W) as Z; cbn [app] in Z.
        -- destruct (str_eqb cmd (st "shutdown")) eqn:Sh.
           ++ apply str_eqb_eq in Sh. subst cmd. destruct (shutdown_response _ _ _ _ Rp) as [E ->]. injection E as ->. inversion Xs; subst.
              intros H _. injection H as <- <-. eexists. split; [|exact Z]. eexists [], _. repeat split; [constructor | apply stop_shutdown].
           ++ apply str_eqb_neq in Sh. intros H Ne. destruct (IH _ _ _ H Ne) as (ws & (turns & last & Ft & St & ->) & K).
              pose proof (extends_trans _ _ _ _ _ Z K) as Q. eexists. split; [|exact Q].
              exists ((Got (Msg (Command cmd args)) :: xs ++ [Sent m]) :: turns), last. split; [constructor; [eapply turn_command; eassumption | exact Ft]|]. split; [exact St|]. cbn [concat]. rewrite <- app_assoc. reflexivity.
        -- intros H _. injection H as <- <-. eexists. split; [|exact Z]. eexists [], _. split; [constructor|]. split; [eapply stop_unsent; eassumption | reflexivity].
      * destruct (response_not_err _ _ _ _ _ Rp).
      * intros H _. injection H as <- <-. eexists. split; [|exact Y]. eexists [], _. split; [constructor|]. split; [eapply stop_panic; eassumption | reflexivity].
      * intros H Ne. injection H as <- <-. congruence.
    + intros H _. injection H as <- <-. eexists. split; [|exact R]. exists [], [Got (Msg (EventResponse r))]. repeat split; constructor.
  - destruct (write_message c1 (err_msg m)) as [w c3] eqn:W. apply extends_write in W. destruct W as [[-> W]|(x & -> & W)]; pose proof (extends_trans _ _ _ _ _ R W) as Z; cbn [app] in Z.
    + intros H Ne. destruct (IH _ _ _ H Ne) as (ws & (turns & last & Ft & St & ->) & K). pose proof (extends_trans _ _ _ _ _ Z K) as Q. eexists. split; [|exact Q].
      exists ([Got Bad; Sent (err_msg m)] :: turns), last. split; [constructor; [constructor | exact Ft]|]. split; [exact St | reflexivity].
    + intros H _. injection H as <- <-. eexists. split; [|exact Z]. eexists [], _. split; [constructor|]. split; [apply stop_bad | reflexivity].
Qed.
(** The model's own budget: it is used up only inside an evaluation. *)
Definition has_budget (D : dbg) : Prop := forall cmd args t, ~ replays (handle_command D cmd args) t Fuel.
Lemma serve_budget D n : has_budget D -> forall c, (List.length (cn_in c) < n)%nat -> fst (serve D n c) <> Budget.
Proof.
  intros HB. induction n as [|n IH]; intros c L; [lia|]. cbn [serve].
  destruct (read_next c) as [r c1] eqn:R. apply extends_read in R. destruct R as [(-> & _ & R)|[(m & -> & R)|(m & -> & R)]].
  - discriminate.
  - destruct R as [_ R]. cbn in R. rewrite R in L. cbn in L. destruct m as [p|cmd args|r]; try discriminate.
    destruct (exec send_event (handle_command D cmd args) c1) as [[t a] c3] eqn:X. apply exec_exchanges in X. destruct X as (Rp & xs & Xs & _ & X).
    assert (Q : (List.length (cn_in c3) < n)%nat) by (rewrite X in L; rewrite app_length in L; lia).
    destruct a as [m|m|m|]; try discriminate; [|destruct (HB _ _ _ Rp)].
    destruct (write_message c3 m) as [w c4] eqn:W. apply extends_write in W. destruct W as [[-> [_ W]]|(x & -> & W)]; [|discriminate]. cbn in W.
    destruct (str_eqb cmd (st "shutdown")); [discriminate|]. apply IH. now rewrite <- W.
  - destruct R as [_ R]. cbn in R. rewrite R in L. cbn in L.
    destruct (write_message c1 (err_msg m)) as [w c3] eqn:W. apply extends_write in W. destruct W as [[-> [_ W]]|(x & -> & W)]; [|discriminate]. cbn in W. apply IH. rewrite <- W. lia.
Qed.
