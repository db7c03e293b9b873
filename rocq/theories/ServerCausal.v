(** What the server sends depends only on what it has read so far. *)
From Coq Require Import Ascii String List ZArith Lia Bool.
From Verif Require Import Base NumText ProcModel ProcSpec ProcProofs DiscoverModel ExprModel EvalModel ServerModel ServerSpec ServerProofs.
Import ListNotations.
Open Scope Z_scope.

Definition grows (c c2 : conn) : Prop := exists ws, cn_log c2 = cn_log c ++ ws.
Lemma grows_refl c : grows c c.
Proof. exists []. now rewrite app_nil_r. Qed.
Lemma grows_trans a b c : grows a b -> grows b c -> grows a c.
Proof. intros [u A] [v B]. exists (u ++ v). rewrite B, A, app_assoc. reflexivity. Qed.
Lemma extends_grows c c2 ws : extends c c2 ws -> grows c c2.
Proof. intros [H _]. now exists ws. Qed.
Lemma grows_read c : grows c (snd (read_next c)).
Proof. destruct (read_next c) as [r c2] eqn:R. apply extends_read in R. destruct R as [(_ & _ & R)|[(m & _ & R)|(m & _ & R)]]; eapply extends_grows; exact R. Qed.
Lemma grows_write c m : grows c (snd (write_message c m)).
Proof. destruct (write_message c m) as [w c2] eqn:W. apply extends_write in W. destruct W as [[_ W]|(x & _ & W)]; eapply extends_grows; exact W. Qed.
Lemma grows_event c q : grows c (snd (send_event c q)).
Proof. destruct (send_event c q) as [a c2] eqn:W. apply send_event_exchange in W. destruct W as (w & _ & W). eapply extends_grows; exact W. Qed.
Lemma grows_exec {A} (p : prog A) c : grows c (snd (exec send_event p c)).
Proof. destruct (exec send_event p c) as [[t a] c2] eqn:W. apply exec_exchanges in W. destruct W as (_ & w & _ & W). eapply extends_grows; exact W. Qed.
Lemma grows_serve D n : forall c, grows c (snd (serve D n c)).
Proof.
  induction n as [|n IH]; intros c; cbn [serve]; [apply grows_refl|].
  pose proof (grows_read c) as G. destruct (read_next c) as [r c1]. cbn [snd] in G. destruct r as [[[p|cmd args|rp]|]|m|m|]; cbn [snd]; try exact G.
  - pose proof (grows_exec (handle_command D cmd args) c1) as G2. destruct (exec send_event (handle_command D cmd args) c1) as [[t a] c2]. cbn [snd] in G2.
    destruct a as [m|m|m|]; cbn [snd]; try exact (grows_trans _ _ _ G G2).
    pose proof (grows_write c2 m) as G3. destruct (write_message c2 m) as [w c3]. cbn [snd] in G3. pose proof (grows_trans _ _ _ (grows_trans _ _ _ G G2) G3) as G4.
    destruct w; cbn [snd]; try exact G4. destruct (str_eqb cmd (st "shutdown")); [exact G4|]. exact (grows_trans _ _ _ G4 (IH c3)).
  - pose proof (grows_write c1 (err_msg m)) as G3. destruct (write_message c1 (err_msg m)) as [w c3]. cbn [snd] in G3. pose proof (grows_trans _ _ _ G G3) as G4.
    destruct w; cbn [snd]; try exact G4. exact (grows_trans _ _ _ G4 (IH c3)).
Qed.

(** Two runs of the server whose clients send the same at first: the second sends [more] where the first closes. *)
Section Two.
Variable more : list line.
Definition same (c c' : conn) : Prop := ~ In Eof (cn_log c) /\ cn_log c' = cn_log c /\ cn_in c' = cn_in c ++ more /\ cn_up c' = cn_up c.
Definition parted (c c' : conn) : Prop := In Eof (cn_log c) /\ exists z, cn_log c' = before_eof (cn_log c) ++ z.
Lemma before_in l ws : In Eof l -> before_eof (l ++ ws) = before_eof l.
Proof. induction l as [|w l IH]; [easy|]. intros [->|I]; [reflexivity|]. cbn. destruct w; [| reflexivity | |]; now rewrite IH. Qed.
Lemma before_out l ws : ~ In Eof l -> before_eof (l ++ ws) = l ++ before_eof ws.
Proof. induction l as [|w l IH]; [easy|]. intros N. cbn. destruct w; try (rewrite IH; [reflexivity | intros I; apply N; now right]). destruct N. now left. Qed.
Lemma parted_grows c c' d d' : parted c c' -> grows c d -> grows c' d' -> parted d d'.
Proof.
  intros [I [z Z]] [u U] [v V]. split; [rewrite U; apply in_or_app; now left|]. exists (z ++ v). rewrite V, Z, U, before_in by exact I. now rewrite app_assoc.
Qed.
Lemma two_read c c' : same c c' -> (fst (read_next c) = fst (read_next c') /\ same (snd (read_next c)) (snd (read_next c'))) \/ parted (snd (read_next c)) (snd (read_next c')).
Proof.
  intros (N & L & I & U). unfold read_next. rewrite I. destruct (cn_in c) as [|l rest]; cbn [app].
  - right. destruct more as [|l rest]; cbn [snd logged cn_log cn_in cn_up]; (split; [cbn; apply in_or_app; right; now left|]); cbn; rewrite L, before_out by exact N; cbn; rewrite app_nil_r; eauto.
  - left. split; [reflexivity|]. cbn. split; [intros E; apply in_app_or in E; destruct E as [E|[E|[]]]; [now apply N | discriminate]|]. rewrite L, U. auto.
Qed.
Lemma two_write c c' m : same c c' -> fst (write_message c m) = fst (write_message c' m) /\ same (snd (write_message c m)) (snd (write_message c' m)).
Proof.
  intros (N & L & I & U). unfold write_message. rewrite U. destruct (cn_up c) as [|[] u] eqn:E; cbn; (split; [reflexivity|]); (split; [intros F; apply in_app_or in F; destruct F as [F|[F|[]]]; [now apply N | discriminate]|]); cbn; rewrite L; split; try reflexivity; split; try exact I; try reflexivity. now rewrite U, E.
Qed.
Lemma two_event c c' q : same c c' -> (fst (send_event c q) = fst (send_event c' q) /\ same (snd (send_event c q)) (snd (send_event c' q))) \/ parted (snd (send_event c q)) (snd (send_event c' q)).
Proof.
  intros H. unfold send_event. destruct (two_write c c' (Event q) H) as [E K]. destruct (write_message c (Event q)) as [w c1]. destruct (write_message c' (Event q)) as [w' c1']. cbn [fst snd] in E, K. subst w'.
  destruct w; [|left; auto ..]. destruct (two_read c1 c1' K) as [[E2 K2]|K2]; destruct (read_next c1) as [r c2]; destruct (read_next c1') as [r' c2']; cbn [fst snd] in *.
  - subst r'. left. destruct r as [[[]|]| | |]; auto.
  - right. destruct r as [[[]|]| | |]; destruct r' as [[[]|]| | |]; cbn [snd]; exact K2.
Qed.
Lemma two_exec {A} (p : prog A) : forall c c', same c c' ->
  (fst (exec send_event p c) = fst (exec send_event p c') /\ same (snd (exec send_event p c)) (snd (exec send_event p c'))) \/ parted (snd (exec send_event p c)) (snd (exec send_event p c')).
Proof.
  induction p as [a|q k IH]; intros c c' H; cbn [exec]; [left; auto|]. destruct (two_event c c' q H) as [[E K]|K].
  - destruct (send_event c q) as [x c1]. destruct (send_event c' q) as [x' c1']. cbn [fst snd] in E, K. subst x'. destruct (IH x c1 c1' K) as [[E2 K2]|K2].
    + left. destruct (exec send_event (k x) c1) as [[t a] c2]. destruct (exec send_event (k x) c1') as [[t' a'] c2']. cbn [fst snd] in *. injection E2 as -> ->. auto.
    + right. destruct (exec send_event (k x) c1) as [[t a] c2]. destruct (exec send_event (k x) c1') as [[t' a'] c2']. exact K2.
  - right. destruct (send_event c q) as [x c1]. destruct (send_event c' q) as [x' c1']. cbn [snd] in K.
    pose proof (grows_exec (k x) c1) as G. pose proof (grows_exec (k x') c1') as G'.
    destruct (exec send_event (k x) c1) as [[t a] c2]. destruct (exec send_event (k x') c1') as [[t' a'] c2']. cbn [snd] in *. eapply parted_grows; eassumption.
Qed.
Lemma reads_shrink c : match fst (read_next c) with Ok None => True | _ => (List.length (cn_in (snd (read_next c))) < List.length (cn_in c))%nat end.
Proof. unfold read_next. destruct (cn_in c) as [|[m|] rest]; cbn; [exact Logic.I | lia | lia]. Qed.
Lemma writes_keep c m : cn_in (snd (write_message c m)) = cn_in c.
Proof. unfold write_message. destruct (cn_up c) as [|[] u]; reflexivity. Qed.
Lemma exec_shrinks {A} (p : prog A) c : (List.length (cn_in (snd (exec send_event p c))) <= List.length (cn_in c))%nat.
Proof. destruct (exec send_event p c) as [[t a] c2] eqn:W. apply exec_exchanges in W. destruct W as (_ & w & _ & _ & W). cbn. rewrite W, app_length. lia. Qed.
Lemma two_serve D n : forall n' c c', same c c' -> (List.length (cn_in c) < n)%nat -> (List.length (cn_in c') < n')%nat ->
  (fst (serve D n c) = fst (serve D n' c') /\ same (snd (serve D n c)) (snd (serve D n' c'))) \/ parted (snd (serve D n c)) (snd (serve D n' c')).
Proof.
  induction n as [|n IH]; intros n' c c' H L L'; [lia|]. destruct n' as [|n']; [lia|].
  pose proof (grows_serve D (Datatypes.S n) c) as G. pose proof (grows_serve D (Datatypes.S n') c') as G'.
  assert (P : parted (snd (read_next c)) (snd (read_next c')) -> parted (snd (serve D (Datatypes.S n) c)) (snd (serve D (Datatypes.S n') c'))).
  { intros P. clear IH G G' H L L'. revert P. cbn [serve]. destruct (read_next c) as [r c1]. destruct (read_next c') as [r' c1']. cbn [snd]. intros P.
    assert (X : forall (r : res (option cmsg)) (k : nat) (d : conn), grows d (snd match r with
      | Ok None => (Closed, d)
      | Ok (Some m) => match m with
          | Command cmd args => let '(_, a, c2) := exec send_event (handle_command D cmd args) d in
              match a with
              | Ok response => let '(w, c3) := write_message c2 response in
                  match w with
                  | Ok _ => if str_eqb cmd (st "shutdown") then (Exited, c3) else serve D k c3
                  | Err m => (Aborted m, c3) | Panic m => (Panicked m, c3) | Fuel => (Budget, c3)
                  end
              | Err m => (Aborted m, c2) | Panic m => (Panicked m, c2) | Fuel => (Budget, c2)
              end
          | Init _ => (Aborted "Unexpected init message in existing session", d)
          | EventResponse _ => (Aborted "Unexpected EventResponse message in existing session", d)
          end
      | Err e => let '(w, c2) := write_message d (err_msg e) in
          match w with Ok _ => serve D k c2 | Err m => (Aborted m, c2) | Panic m => (Panicked m, c2) | Fuel => (Budget, c2) end
      | Panic m => (Panicked m, d)
      | Fuel => (Budget, d)
      end)).
    { clear. intros r k d. destruct r as [[[p|cmd args|rp]|]|e|e|]; try apply grows_refl.
      - pose proof (grows_exec (handle_command D cmd args) d) as G2. destruct (exec send_event (handle_command D cmd args) d) as [[t a] c2]. cbn [snd] in G2.
        destruct a as [x|x|x|]; cbn [snd]; try exact G2.
        pose proof (grows_write c2 x) as G3. destruct (write_message c2 x) as [w c3]. cbn [snd] in G3. pose proof (grows_trans _ _ _ G2 G3) as G4.
        destruct w; cbn [snd]; try exact G4. destruct (str_eqb cmd (st "shutdown")); [exact G4|]. exact (grows_trans _ _ _ G4 (grows_serve D k c3)).
      - pose proof (grows_write d (err_msg e)) as G3. destruct (write_message d (err_msg e)) as [w c3]. cbn [snd] in G3.
        destruct w; cbn [snd]; try exact G3. exact (grows_trans _ _ _ G3 (grows_serve D k c3)). }
    eapply parted_grows; [exact P | apply X | apply X]. }
  destruct (two_read c c' H) as [[E K]|K]; [|right; now apply P]. clear P G G'. cbn [serve].
  pose proof (reads_shrink c) as Sh. pose proof (reads_shrink c') as Sh'.
  destruct (read_next c) as [r c1]. destruct (read_next c') as [r' c1']. cbn [fst snd] in E, K, Sh, Sh'. subst r'.
  destruct r as [[[p|cmd args|rp]|]|m|m|]; try (left; split; [reflexivity | exact K]).
  - destruct (two_exec (handle_command D cmd args) c1 c1' K) as [[E2 K2]|K2].
    + pose proof (exec_shrinks (handle_command D cmd args) c1) as Q. pose proof (exec_shrinks (handle_command D cmd args) c1') as Q'.
      destruct (exec send_event (handle_command D cmd args) c1) as [[t a] c2]. destruct (exec send_event (handle_command D cmd args) c1') as [[t' a'] c2']. cbn [fst snd] in *. injection E2 as -> ->.
      destruct a' as [m|m|m|]; try (left; split; [reflexivity | exact K2]).
      destruct (two_write c2 c2' m K2) as [E3 K3]. pose proof (writes_keep c2 m) as W. pose proof (writes_keep c2' m) as W'. destruct (write_message c2 m) as [w c3]. destruct (write_message c2' m) as [w' c3']. cbn [fst snd] in *. subst w'.
      destruct w; try (left; split; [reflexivity | exact K3]). destruct (str_eqb cmd (st "shutdown")); [left; split; [reflexivity | exact K3]|].
      apply IH; [exact K3 | rewrite W; lia | rewrite W'; lia].
    + right. destruct (exec send_event (handle_command D cmd args) c1) as [[t a] c2]. destruct (exec send_event (handle_command D cmd args) c1') as [[t' a'] c2']. cbn [snd] in K2.
      assert (X : forall (a : res smsg) (k : nat) (d : conn), grows d (snd match a with
              | Ok response => let '(w, c3) := write_message d response in
                  match w with
                  | Ok _ => if str_eqb cmd (st "shutdown") then (Exited, c3) else serve D k c3
                  | Err m => (Aborted m, c3) | Panic m => (Panicked m, c3) | Fuel => (Budget, c3)
                  end
              | Err m => (Aborted m, d) | Panic m => (Panicked m, d) | Fuel => (Budget, d)
              end)).
      { clear. intros a k d. destruct a as [x|x|x|]; try apply grows_refl. pose proof (grows_write d x) as G3. destruct (write_message d x) as [w c3]. cbn [snd] in G3.
        destruct w; cbn [snd]; try exact G3. destruct (str_eqb cmd (st "shutdown")); [exact G3|]. exact (grows_trans _ _ _ G3 (grows_serve D k c3)). }
      eapply parted_grows; [exact K2 | apply X | apply X].
  - destruct (two_write c1 c1' (err_msg m) K) as [E3 K3]. pose proof (writes_keep c1 (err_msg m)) as W. pose proof (writes_keep c1' (err_msg m)) as W'. destruct (write_message c1 (err_msg m)) as [w c3]. destruct (write_message c1' (err_msg m)) as [w' c3']. cbn [fst snd] in *. subst w'.
    destruct w; try (left; split; [reflexivity | exact K3]). apply IH; [exact K3 | rewrite W; lia | rewrite W'; lia].
Qed.
End Two.

(** Whatever a client goes on to send, the server's side of the conversation up to there is the same; and if the server
    stopped before it needed another line, nothing changes at all. *)
Theorem session_causal : forall load lines more up e log e' log',
  run_session load lines up = (e, log) -> run_session load (lines ++ more) up = (e', log') ->
  (exists z, log' = before_eof log ++ z) /\ (~ In Eof log -> e' = e /\ log' = log).
Proof.
  intros load lines more up e log e' log' H H'.
  assert (Q : forall x x' : ending, forall c c', (x, cn_log c) = (e, log) -> (x', cn_log c') = (e', log') -> (x = x' /\ same more c c') \/ parted c c' -> (exists z, log' = before_eof log ++ z) /\ (~ In Eof log -> e' = e /\ log' = log)).
  { intros x x' c c' A B [[-> (N & L & _)]|[I P]]; injection A as -> <-; injection B as <- <-.
    - rewrite L. split; [|auto]. pose proof (before_out _ [] N) as X. cbn [before_eof] in X. rewrite !app_nil_r in X. rewrite X. exists []. now rewrite app_nil_r.
    - split; [exact P | intros N; destruct (N I)]. }
  unfold run_session, init in *.
  assert (S0 : same more (Conn lines up []) (Conn (lines ++ more) up [])) by (repeat split; intros []).
  pose proof (two_read more _ _ S0) as T. pose proof (reads_shrink (Conn lines up [])) as Sh. pose proof (reads_shrink (Conn (lines ++ more) up [])) as Sh'.
  destruct (read_next (Conn lines up [])) as [r c1] eqn:R. destruct (read_next (Conn (lines ++ more) up [])) as [r' c1'] eqn:R'. cbn [fst snd] in *. destruct T as [[<- K]|K].
  - destruct r as [[[p|cmd args|rp]|]|m|m|].
    + destruct (load p) as [D|m|m|]; cbn [rmap bind] in *; try (eapply Q; [exact H | exact H' | left; split; [reflexivity | exact K]]).
      destruct (two_serve more D (Datatypes.S (List.length lines)) (Datatypes.S (List.length (lines ++ more))) c1 c1' K) as [[E2 K2]|K2]; [cbn in Sh; lia | cbn in Sh'; lia | |];
        destruct (serve D (Datatypes.S (List.length lines)) c1) as [x c2]; destruct (serve D (Datatypes.S (List.length (lines ++ more))) c1') as [x' c2']; cbn [fst snd] in *; eapply Q; eauto.
    + destruct (str_eqb cmd (st "shutdown")); [|eapply Q; [exact H | exact H' | left; split; [reflexivity | exact K]]].
      destruct (two_write more c1 c1' (Complete PShutdown) K) as [E3 K3]. destruct (write_message c1 (Complete PShutdown)) as [w c3]. destruct (write_message c1' (Complete PShutdown)) as [w' c3']. cbn [fst snd] in *. subst w'.
      destruct w; eapply Q; [exact H | exact H' | auto | exact H | exact H' | auto | exact H | exact H' | auto | exact H | exact H' | auto].
    + eapply Q; [exact H | exact H' | auto].
    + eapply Q; [exact H | exact H' | auto].
    + eapply Q; [exact H | exact H' | auto].
    + eapply Q; [exact H | exact H' | auto].
    + eapply Q; [exact H | exact H' | auto].
  - (* the first client closes at once *)
    destruct lines as [|l lines]; [|exfalso; unfold read_next in R; cbn in R; injection R as <- <-; destruct K as [I _]; cbn in I; destruct I as [I|[]]; discriminate].
    cbn in R. injection R as <- <-. cbn in H. injection H as <- <-. cbn. split; [now exists log' | intros N; destruct N; now left].
Qed.
Print Assumptions session_causal.
