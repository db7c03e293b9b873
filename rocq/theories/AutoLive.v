(** C123, the other direction: the server is started whenever it is needed, is given its time, and is used as soon as it
    answers. *)
From Coq Require Import Ascii String List ZArith NArith Lia Bool.
From Verif Require Import Base NumText JsonModel WireModel ClientModel AutoModel AutoProps.
Import ListNotations.
Open Scope Z_scope.

Definition upA : act -> Prop := fun x => x = Probed Up.
Section Live.
Context {W : Type}.
Variable M : machine W.
Variable C : config.
Lemma running_up w r t w1 : server_running M w = (r, t, w1) -> (In (Probed Up) t -> r = true) /\ (r = true -> In (Probed Up) t) /\ probes t = 1%nat.
Proof.
  unfold server_running. destruct (m_probe M w) as [p w0]. destruct p; intros E; inj E; cbn [In probes].
  - split; [reflexivity|]. split; [intros _; left; reflexivity | reflexivity].
  - split; [intros [H | []]; discriminate H|]. split; [discriminate | reflexivity].
  - split; [intros [H | [H | []]]; discriminate H|]. split; [discriminate | reflexivity].
Qed.
Lemma printed_not_up l : ~ In (Probed Up) (map Printed l).
Proof. intros H. apply in_map_iff in H. destruct H as (s & H & _). discriminate H. Qed.
Lemma probes_printed l : probes (map Printed l) = O.
Proof. induction l; auto. Qed.
Lemma await_live n : forall w r t w1, await M n w = (r, t, w1) -> (In (Probed Up) t -> r = Some true) /\ (In (Probed Up) t \/ In (Polled true) t \/ probes t = n).
Proof.
  induction n as [|n IH]; intros w r t w1 E.
  - cbn [await] in E. unfold jret in E. inj E. split; [intros [] | right; right; reflexivity].
  - cbn [await] in E. unfold jbind at 1 in E. destruct (server_running M w) as [[up t0] w0] eqn:E0. destruct (running_up _ _ _ _ E0) as (U1 & U2 & U3). destruct up.
    + unfold jbind, jprint, jret in E. inj E. split; [reflexivity|]. left. apply in_or_app. left. exact (U2 eq_refl).
    + destruct (m_poll M w0) as [[out|] w2].
      * rewrite jprints_run in E. inj E. split; [|right; left; apply in_or_app; right; left; reflexivity].
        intros H. apply in_app_or in H. destruct H as [H | [H | H]]; [specialize (U1 H); discriminate U1 | discriminate H | contradiction (printed_not_up _ H)].
      * destruct (await M n w2) as [[r2 t2] w3] eqn:E2. destruct (IH _ _ _ _ E2) as (A & B). inj E. split.
        -- intros H. apply in_app_or in H. destruct H as [H | [H | H]]; [specialize (U1 H); discriminate U1 | discriminate H | exact (A H)].
        -- destruct B as [B | [B | B]]; [left; apply in_or_app; right; right; exact B | right; left; apply in_or_app; right; right; exact B|]. right; right. rewrite probes_app, U3. cbn [probes]. lia.
Qed.
Lemma give_up_live w r t w1 : give_up M w = (r, t, w1) -> ~ In (Probed Up) t /\ probes t = O.
Proof.
  unfold give_up. destruct (m_collect M w) as [[out|] w0].
  - rewrite jprints_run. intros E. inj E. split; [intros [H | H]; [discriminate H | exact (printed_not_up _ H)] | cbn [probes]; apply probes_printed].
  - intros E. inj E. split; [intros H; repeat destruct H as [H | H]; try discriminate H; exact H | reflexivity].
Qed.
Lemma start_live w r t w1 : start_server M C w = (r, t, w1) -> (In (Probed Up) t -> r = true) /\ (r = true -> In (Probed Up) t) /\
  (In (Probed Up) t \/ (exists e, In (Printed (st "Error starting server: " ++ e)) t) \/ exists a b, t = a ++ Spawned (server_command M C) :: b) /\
  (forall a cmd b, never spawn a -> t = a ++ Spawned cmd :: b -> In (Probed Up) b \/ In (Polled true) b \/ probes b = 10%nat).
Proof.
  unfold start_server, jbind at 1. destruct (server_running M w) as [[up t0] w0] eqn:E0. destruct (running_up _ _ _ _ E0) as (U1 & U2 & U3).
  destruct (running_run M w up t0 w0 E0) as (p & u & Et0 & Pu & Hp). assert (Nt0 : never spawn t0) by (rewrite Et0; apply idle_probe, Pu). destruct up.
  - unfold jret. intros E. inj E. rewrite app_nil_r. split; [reflexivity|]. split; [exact U2|]. split; [left; exact (U2 eq_refl)|]. intros a cmd b _ Ht. exfalso. apply (Nt0 (Spawned cmd)); [rewrite Ht; apply in_or_app; right; left; reflexivity | eexists; reflexivity].
  - unfold jbind at 1. rewrite jprints_run. unfold jbind at 1. unfold jprint at 1.
    assert (Nn : never spawn (map Printed (cargo_note M))) by (apply prints_only_never; [apply prints_map | noP]). pose proof (printed_not_up (cargo_note M)) as Nn2. set (note := map Printed (cargo_note M)) in *. clearbody note.
    assert (N0 : ~ In (Probed Up) t0) by (intros H; specialize (U1 H); discriminate U1). set (line := Printed (st "Starting Rudy server on " ++ address C ++ st "...")).
    destruct (m_spawn M (server_command M C) w0) as [[e|] w2].
    + intros E. inj E. assert (Nu : ~ In (Probed Up) (t0 ++ note ++ [line] ++ [Printed (st "Error starting server: " ++ e)])).
      { intros H. apply in_app_or in H. destruct H as [H | H]; [exact (N0 H)|]. apply in_app_or in H. destruct H as [H | [H | [H | []]]]; [exact (Nn2 H) | discriminate H | discriminate H]. }
      split; [intros H; contradiction (Nu H)|]. split; [discriminate|]. split; [right; left; exists e; apply in_or_app; right; apply in_or_app; right; right; left; reflexivity|].
      intros a cmd b _ Ht. exfalso. assert (N : never spawn (t0 ++ note ++ [line] ++ [Printed (st "Error starting server: " ++ e)])) by (apply never_app; split; [exact Nt0|]; apply never_app; split; [exact Nn|]; repeat (apply never_cons; split; [no|]); apply never_nil).
      apply (N (Spawned cmd)); [rewrite Ht; apply in_or_app; right; left; reflexivity | eexists; reflexivity].
    + unfold jbind. destruct (await M 10 w2) as [[ra ta] wa] eqn:Ea. destruct (await_live 10 _ _ _ _ Ea) as (A & B). destruct (await_run M 10 _ _ _ _ Ea) as (_ & _ & Ta & _).
      assert (G : exists b, (let '(b, u0, w5) := match ra with Some b => jret b | None => fun w3 => let '(_, t1, w4) := jprint (st "Failed to start Rudy server - timeout waiting for server to respond") w3 in let '(b, u1, w5) := give_up M w4 in (b, t1 ++ u1, w5) end wa in (b, ta ++ u0, w5)) = b) by eauto.
      destruct G as ([[rb tb] wb] & Eb). rewrite Eb. intros E. inj E.
      assert (Q : (In (Probed Up) tb -> rb = true) /\ (rb = true -> In (Probed Up) tb) /\ (In (Probed Up) tb \/ In (Polled true) tb \/ probes tb = 10%nat)).
      { destruct ra as [[|]|].
        - unfold jret in Eb. inj Eb. rewrite app_nil_r. split; [reflexivity|]. split; [intros _|exact B]. destruct (Ta eq_refl) as (x & y & -> & _). apply in_or_app. right. left. reflexivity.
        - unfold jret in Eb. inj Eb. rewrite app_nil_r. split; [intros H; specialize (A H); discriminate A|]. split; [discriminate | exact B].
        - unfold jprint in Eb. destruct (give_up M wa) as [[rg tg] wg] eqn:Eg. destruct (give_up_live _ _ _ _ Eg) as (G1 & G2). destruct (give_up_run M _ _ _ _ Eg) as (-> & _). inj Eb. split; [|split; [discriminate|]].
          + intros H. apply in_app_or in H. destruct H as [H | [H | H]]; [specialize (A H); discriminate A | discriminate H | contradiction (G1 H)].
          + destruct B as [B | [B | B]]; [left; apply in_or_app; left; exact B | right; left; apply in_or_app; left; exact B|]. right; right. rewrite probes_app, B. cbn [app probes]. rewrite G2. reflexivity. }
      destruct Q as (Q1 & Q2 & Q3). split; [|split; [|split]].
      * intros H. apply in_app_or in H. destruct H as [H | H]; [contradiction (N0 H)|]. apply in_app_or in H. destruct H as [H | [H | [H | H]]]; [contradiction (Nn2 H) | discriminate H | discriminate H | exact (Q1 H)].
      * intros H. apply in_or_app; right; apply in_or_app; right; right; right. exact (Q2 H).
      * right; right. exists (t0 ++ note ++ [line]), tb. rewrite <- !app_assoc. reflexivity.
      * intros a cmd b Na Ht. assert (Ht2 : (t0 ++ note ++ [line]) ++ Spawned (server_command M C) :: tb = a ++ Spawned cmd :: b) by (rewrite <- Ht, <- !app_assoc; reflexivity).
        destruct (first_unique spawn _ _ _ _ _ _ Ht2) as (_ & _ & <-); [eexists; reflexivity | eexists; reflexivity | | exact Na | exact Q3].
        change (never spawn (t0 ++ note ++ [line])). apply never_app; split; [exact Nt0|]; apply never_app; split; [exact Nn|]. apply never_cons; split; [no | apply never_nil].
Qed.
Lemma connection_live dir file w r t w1 : connection M C None (Some (Some (dir, file))) w = (r, t, w1) ->
  (In (Probed Up) t -> exists ok, In (Connected (dir ++ st "/" ++ file) ok) t /\ (ok = true -> r = Some (dir ++ st "/" ++ file))) /\
  (auto C = true -> In (Probed Up) t \/ (exists e, In (Printed (st "Error starting server: " ++ e)) t) \/ exists cmd, In (Spawned cmd) t) /\
  (forall a cmd b, never spawn a -> t = a ++ Spawned cmd :: b -> In (Probed Up) b \/ In (Polled true) b \/ probes b = 10%nat).
Proof.
  unfold connection. unfold jbind at 1. destruct (server_running M w) as [[up t0] w0] eqn:E0. destruct (running_up _ _ _ _ E0) as (U1 & U2 & U3).
  destruct (running_run M w up t0 w0 E0) as (p & u & Et0 & Pu & Hp). assert (Nt0 : never spawn t0) by (rewrite Et0; apply idle_probe, Pu).
  unfold jbind at 1. destruct up.
  - unfold jret at 1. destruct (m_connect M _ w0) as [ok w2]. intros E. inj E. split; [|split].
    + intros _. exists ok. split; [apply in_or_app; right; left; reflexivity | intros ->; reflexivity].
    + intros _. left. apply in_or_app. left. exact (U2 eq_refl).
    + intros a cmd b _ Ht. exfalso. assert (N : never spawn (t0 ++ [] ++ [Connected (dir ++ st "/" ++ file) ok])) by (apply never_app; split; [exact Nt0|]; apply never_cons; split; [no | apply never_nil]).
      apply (N (Spawned cmd)); [rewrite Ht; apply in_or_app; right; left; reflexivity | eexists; reflexivity].
  - assert (N0 : ~ In (Probed Up) t0) by (intros H; specialize (U1 H); discriminate U1). destruct (auto C).
    + unfold jbind at 1. unfold jprint at 1. destruct (start_server M C w0) as [[go t1] w2] eqn:Es. destruct (start_live _ _ _ _ Es) as (S1 & S2 & S3 & S4). 
      assert (Fin : forall z, (forall x, In x z -> ~ spawn x) -> probes z = O ->
        ((exists e, In (Printed (st "Error starting server: " ++ e)) (t0 ++ ([Printed start_note] ++ t1) ++ z)) \/ (exists cmd, In (Spawned cmd) (t0 ++ ([Printed start_note] ++ t1) ++ z)) \/ In (Probed Up) (t0 ++ ([Printed start_note] ++ t1) ++ z)) /\
        (forall a cmd b, never spawn a -> t0 ++ ([Printed start_note] ++ t1) ++ z = a ++ Spawned cmd :: b -> In (Probed Up) b \/ In (Polled true) b \/ probes b = 10%nat)).
      { intros z Nz Pz. split.
        - destruct S3 as [S3 | [[e S3] | (a & b & ->)]].
          + right; right. apply in_or_app; right. apply in_or_app; left. right. exact S3.
          + left. exists e. apply in_or_app; right. apply in_or_app; left. right. exact S3.
          + right; left. exists (server_command M C). apply in_or_app; right. apply in_or_app; left. right. apply in_elt.
        - intros a cmd b Na Ht. assert (Hc : In (Spawned cmd) t1).
          { assert (Hi : In (Spawned cmd) (t0 ++ ([Printed start_note] ++ t1) ++ z)) by (rewrite Ht; apply in_or_app; right; left; reflexivity).
            apply in_app_or in Hi. destruct Hi as [Hi | Hi]; [exfalso; apply (Nt0 _ Hi); eexists; reflexivity|]. apply in_app_or in Hi. destruct Hi as [[Hi | Hi] | Hi]; [discriminate Hi | exact Hi | exfalso; apply (Nz _ Hi); eexists; reflexivity]. }
          destruct (start_run M C _ _ _ _ Es) as (_ & _ & _ & _ & [Ns | (a1 & b1 & -> & Na1 & Nb1 & _)]); [exfalso; apply (Ns _ Hc); eexists; reflexivity|].
          assert (Ht2 : (t0 ++ [Printed start_note] ++ a1) ++ Spawned (server_command M C) :: (b1 ++ z) = a ++ Spawned cmd :: b) by (rewrite <- Ht, <- !app_assoc; reflexivity).
          destruct (first_unique spawn _ _ _ _ _ _ Ht2) as (_ & _ & <-); [eexists; reflexivity | eexists; reflexivity | | exact Na|].
          { change (never spawn (t0 ++ [Printed start_note] ++ a1)). apply never_app; split; [exact Nt0|]. apply never_app; split; [apply never_cons; split; [no | apply never_nil] | exact Na1]. }
          destruct (S4 a1 _ b1 Na1 eq_refl) as [Q | [Q | Q]]; [left; apply in_or_app; left; exact Q | right; left; apply in_or_app; left; exact Q | right; right; rewrite probes_app, Q, Pz; reflexivity]. }
      destruct go.
      * destruct (m_connect M _ w2) as [ok w3]. intros E. inj E. assert (Nz : forall x, In x [Connected (dir ++ st "/" ++ file) ok] -> ~ spawn x) by (intros x [<- | []]; no). destruct (Fin _ Nz eq_refl) as [F1 F2]. split; [|split; [intros _; tauto | exact F2]].
        intros _. exists ok. split; [apply in_or_app; right; apply in_or_app; right; left; reflexivity | intros ->; reflexivity].
      * unfold jret. intros E. inj E. assert (Nz : forall x : act, In x [] -> ~ spawn x) by (intros x []). destruct (Fin _ Nz eq_refl) as [F1 F2]. split; [|split; [intros _; tauto | exact F2]].
        intros H. exfalso. apply in_app_or in H. destruct H as [H | H]; [exact (N0 H)|]. rewrite app_nil_r in H. destruct H as [H | H]; [discriminate H|]. specialize (S1 H). discriminate S1.
    + unfold jbind at 1. unfold jprint at 1, jret. intros E. inj E. split; [|split; [discriminate|]].
      * intros H. exfalso. apply in_app_or in H. destruct H as [H | H]; [exact (N0 H)|]. cbn [app In] in H. destruct H as [H | []]. discriminate H.
      * intros a cmd b _ Ht. exfalso. assert (N : never spawn (t0 ++ ([Printed off_note] ++ []) ++ [])) by (apply never_app; split; [exact Nt0|]; apply never_cons; split; [no | apply never_nil]).
        apply (N (Spawned cmd)); [rewrite Ht; apply in_or_app; right; left; reflexivity | eexists; reflexivity].
Qed.
End Live.

(** ** C123 *)
(** With automatic starting on and the server never answering, a server is started — or the reason why it cannot be is shown. *)
Theorem server_is_started : forall W (M : machine W) C repr dir file line w r t w1 cmd args, commanded M C repr None (Some (Some (dir, file))) line w r t w1 -> typed line = Some (cmd, args) ->
  switched_on (autostart C) -> ~ In (Probed Up) t -> (exists c, In (Spawned c) t) \/ exists e, In (st "Error starting server: " ++ e) (shown t).
Proof.
  intros W M C repr dir file line w r t w1 cmd args H Ty On Dn. destruct (rd_run M C repr _ _ line w r t w1 H) as [(Q & _) | (cmd' & args' & t0 & w0 & use & _ & Ec & H2)]; [congruence|].
  destruct (connection_live M C dir file w use t0 w0 Ec) as (_ & L & _). specialize (L (proj2 (auto_switched C) On)).
  assert (In0 : forall a, In a t0 -> In a t) by (intros a Ha; destruct use; [destruct H2 as (out & -> & _) | destruct H2 as (-> & _)]; apply in_or_app; left; exact Ha).
  destruct L as [L | [[e L] | [c L]]]; [contradiction (Dn (In0 _ L)) | right; exists e | left; exists c; exact (In0 _ L)].
  specialize (In0 _ L). clear - In0. induction t as [|a t IH]; [destruct In0|]. destruct In0 as [-> | Hi]; [left; reflexivity|]. destruct a; cbn [shown]; auto. right. auto.
Qed.
Print Assumptions server_is_started.
(** As soon as the server answers — at once, or after it has been started — a connection to it is made for the executable of
    the target, and if that can be made the command is sent. *)
Theorem answering_server_used : forall W (M : machine W) C repr dir file line w r t w1 cmd args, commanded M C repr None (Some (Some (dir, file))) line w r t w1 -> typed line = Some (cmd, args) ->
  In (Probed Up) t -> exists ok, In (Connected (dir ++ st "/" ++ file) ok) t /\ (ok = true -> r = Some (dir ++ st "/" ++ file) /\ In (Sent cmd args) t).
Proof.
  intros W M C repr dir file line w r t w1 cmd args H Ty Up0. destruct (rd_run M C repr _ _ line w r t w1 H) as [(Q & _) | (cmd' & args' & t0 & w0 & use & Ty2 & Ec & H2)]; [congruence|].
  rewrite Ty in Ty2. injection Ty2 as <- <-. destruct (connection_live M C dir file w use t0 w0 Ec) as (L & _ & _).
  assert (U0 : In (Probed Up) t0).
  { destruct use; [destruct H2 as (out & -> & _) | destruct H2 as (-> & _)]; apply in_app_or in Up0; destruct Up0 as [Q | Q]; try exact Q; exfalso.
    - destruct Q as [Q | Q]; [discriminate Q | exact (printed_not_up _ Q)].
    - destruct Q as [Q | []]. discriminate Q. }
  destruct (L U0) as (ok & Hc & Ho). exists ok. split.
  - destruct use; [destruct H2 as (out & -> & _) | destruct H2 as (-> & _)]; apply in_or_app; left; exact Hc.
  - intros E. specialize (Ho E). rewrite Ho in H2. destruct H2 as (out & -> & -> & _). split; [reflexivity|]. apply in_or_app. right. left. reflexivity.
Qed.
Print Assumptions answering_server_used.
(** A started server is looked for until it answers, until its process has ended, or ten times. *)
Theorem server_given_time : forall W (M : machine W) C repr conn target line w r t w1 a cmd b, commanded M C repr conn target line w r t w1 -> t = a ++ Spawned cmd :: b ->
  In (Probed Up) b \/ In (Polled true) b \/ probes b = 10%nat.
Proof.
  intros W M C repr conn target line w r t w1 a cmd b H Ht. destruct (server_started_if_needed _ M C repr conn target line w r t w1 a cmd b H Ht) as (-> & _ & _ & _ & Na & Nb).
  destruct (rd_run M C repr _ _ line w r t w1 H) as [(_ & (I0 & _) & _) | (cmd' & args' & t0 & w0 & use & _ & Ec & H2)].
  - exfalso. apply (I0 (Spawned cmd)); [rewrite Ht; apply in_or_app; right; left; reflexivity | eexists; reflexivity].
  - assert (Z : exists z, t = t0 ++ z /\ never spawn z /\ probes z = O).
    { destruct use; [destruct H2 as (out & -> & _) | destruct H2 as (-> & _)]; eexists; (split; [reflexivity|]); split.
      - apply tail_quiet; [noP | no].
      - cbn [probes]. apply probes_printed.
      - apply never_cons; split; [no | apply never_nil].
      - reflexivity. }
    destruct Z as (z & Ez & Nz & Pz). assert (Hc : In (Spawned cmd) t0).
    { assert (Hi : In (Spawned cmd) t) by (rewrite Ht; apply in_or_app; right; left; reflexivity). rewrite Ez in Hi. apply in_app_or in Hi. destruct Hi as [Hi | Hi]; [exact Hi|]. exfalso. apply (Nz _ Hi). eexists; reflexivity. }
    apply in_split in Hc. destruct Hc as (a0 & b0 & E0). assert (Ht2 : a0 ++ Spawned cmd :: (b0 ++ z) = a ++ Spawned cmd :: b) by (rewrite <- Ht, Ez, E0, <- app_assoc; reflexivity).
    assert (Na0 : never spawn a0).
    { destruct (connection_run M C None target w use t0 w0 Ec) as (_ & _ & [Ns | (_ & a1 & b1 & E1 & Na1 & Nb1 & _)] & _).
      - exfalso. apply (Ns (Spawned cmd)); [rewrite E0; apply in_or_app; right; left; reflexivity | eexists; reflexivity].
      - destruct (server_started_if_needed _ M C repr None target line w r t w1 a0 cmd (b0 ++ z) H) as (_ & _ & _ & _ & Q & _); [rewrite Ez, E0, <- app_assoc; reflexivity | exact Q]. }
    destruct (first_unique spawn _ _ _ _ _ _ Ht2) as (_ & _ & <-); [eexists; reflexivity | eexists; reflexivity | exact Na0 | exact Na|].
    destruct target as [[[dir file]|]|].
    + destruct (connection_live M C dir file w use t0 w0 Ec) as (_ & _ & L). destruct (L a0 cmd b0 Na0 E0) as [Q | [Q | Q]]; [left; apply in_or_app; left; exact Q | right; left; apply in_or_app; left; exact Q | right; right; rewrite probes_app, Q, Pz; reflexivity].
    + exfalso. unfold connection, jbind, jprint, jret in Ec. inj Ec. destruct a0 as [|x [|]]; discriminate E0.
    + exfalso. unfold connection, jbind, jprint, jret in Ec. inj Ec. destruct a0 as [|x [|]]; discriminate E0.
Qed.
Print Assumptions server_given_time.
