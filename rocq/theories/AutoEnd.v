(** C123: what is shown when the started server does not come up. *)
From Coq Require Import Ascii String List ZArith NArith Lia Bool.
From Verif Require Import Base NumText JsonModel WireModel ClientModel AutoModel AutoProps AutoLive.
Import ListNotations.
Open Scope Z_scope.

(** ** Specification *)
(** The lines shown for one output of the process: none if there was none. *)
Definition part (label text : str) (l : list str) : Prop := text = [] /\ l = [] \/ text <> [] /\ l = [label ++ text].
(** The lines shown for what the process has written. *)
Definition told (out : str * str) (l : list str) : Prop := exists o e, l = o ++ e /\ part (st "stdout: ") (fst out) o /\ part (st "stderr: ") (snd out) e.
Definition failed_line : str := (27%N :: st "[91m") ++ st "Rudy server failed to start!" ++ (27%N :: st "[0m").
Definition polledA : act -> Prop := fun x => x = Polled true.
Definition collecting : act -> Prop := fun x => exists f, x = Collected f.

Lemma elt_app {A} (x y a : list A) e b : x ++ y = a ++ e :: b -> (exists b', x = a ++ e :: b' /\ b = b' ++ y) \/ (exists a', a = x ++ a' /\ y = a' ++ e :: b).
Proof.
  revert a. induction x as [|z x IH]; intros a H; [right; exists a; auto|]. destruct a as [|q a]; cbn in H.
  - injection H as -> <-. left. exists x. auto.
  - injection H as -> H. destruct (IH a H) as [(b1 & -> & ->) | (a2 & -> & ->)]; [left; exists b1; auto | right; exists a2; auto].
Qed.
Lemma elt_never P (x y a : list act) e b : never P x -> P e -> x ++ y = a ++ e :: b -> exists a', a = x ++ a' /\ y = a' ++ e :: b.
Proof. intros N Pe H. destruct (elt_app _ _ _ _ _ H) as [(b' & -> & _) | H']; [exfalso; apply (N e); [apply in_elt | exact Pe] | exact H']. Qed.
Lemma output_told out : told out (output_lines out).
Proof.
  destruct out as [o e]. unfold output_lines. cbn [fst snd]. eexists _, _. split; [reflexivity|]. cbn [fst snd].
  split; [destruct o | destruct e]; solve [left; auto | right; split; [discriminate | reflexivity]].
Qed.

Section End.
Context {W : Type}.
Variable M : machine W.
Variable C : config.
(** What follows the discovery that the process has ended. *)
Definition after_end (b : list act) : Prop := exists w0 out l, fst (m_poll M w0) = Some out /\ told out l /\ b = map Printed (failed_line :: l).
(** What follows the end of the waiting. *)
Definition after_wait (f : bool) (b : list act) : Prop :=
  (f = true /\ exists w0 out l, fst (m_collect M w0) = Some out /\ told out l /\ b = map Printed l) \/
  (f = false /\ b = [Killed; Printed (st "Server process did not respond, killed it")]).
Lemma running_plain w r t w1 : server_running M w = (r, t, w1) -> never polledA t /\ never collecting t.
Proof.
  unfold server_running. destruct (m_probe M w) as [p w0]. destruct p; intros E; inj E; split; repeat (apply never_cons; split; [unfold polledA, collecting; intros H; try discriminate H; destruct H; discriminate|]); apply never_nil.
Qed.
Lemma printed_plain l : never polledA (map Printed l) /\ never collecting (map Printed l).
Proof. split; (apply prints_only_never; [apply prints_map|]); intros s H; [discriminate H | destruct H; discriminate]. Qed.
Lemma await_end n : forall w r t w1, await M n w = (r, t, w1) -> never collecting t /\
  (forall a b, t = a ++ Polled true :: b -> r = Some false /\ after_end b).
Proof.
  induction n as [|n IH]; intros w r t w1 E.
  - cbn [await] in E. unfold jret in E. inj E. split; [apply never_nil|]. intros [|] b H; discriminate H.
  - cbn [await] in E. unfold jbind at 1 in E. destruct (server_running M w) as [[up t0] w0] eqn:E0. destruct (running_plain _ _ _ _ E0) as [P0 C0]. destruct up.
    + unfold jbind, jprint, jret in E. inj E. destruct (printed_plain [st "Rudy server started successfully"]) as [P1 C1]. split; [apply never_app; auto|].
      intros a b H. exfalso. assert (N : never polledA (t0 ++ map Printed [st "Rudy server started successfully"])) by (apply never_app; auto). apply (N (Polled true)); [|reflexivity]. change (map Printed [st "Rudy server started successfully"]) with ([Printed (st "Rudy server started successfully")] ++ []). rewrite H. apply in_elt.
    + destruct (m_poll M w0) as [[out|] w2] eqn:Ep.
      * rewrite jprints_run in E. inj E. split; [apply never_app; split; [exact C0|]; apply never_cons; split; [intros [f Hf]; discriminate Hf | apply printed_plain]|].
        intros a b H. destruct (elt_never polledA _ _ _ _ _ P0 eq_refl H) as (a' & -> & H2).
        destruct (first_unique polledA [] a' _ _ _ _ H2) as (_ & _ & <-); [reflexivity | reflexivity | intros z [] | |].
        { intros z Hz Pz. destruct a' as [|q a']; [destruct Hz|]. injection H2 as <- H2. apply (proj1 (printed_plain (esc "[91m" "Rudy server failed to start!" :: output_lines out)) (Polled true)); [cbn [map]; rewrite H2; apply in_elt | reflexivity]. }
        split; [reflexivity|]. exists w0, out, (output_lines out). rewrite Ep. split; [reflexivity|]. split; [apply output_told | reflexivity].
      * destruct (await M n w2) as [[r2 t2] w3] eqn:E2. destruct (IH _ _ _ _ E2) as [C2 P2]. inj E. split; [apply never_app; split; [exact C0|]; apply never_cons; split; [intros [f Hf]; discriminate Hf | exact C2]|].
        intros a b H. destruct (elt_never polledA _ _ _ _ _ P0 eq_refl H) as (a' & -> & H2). destruct a' as [|q a']; [discriminate H2|]. injection H2 as _ H2. exact (P2 a' b H2).
Qed.
Lemma give_up_end w r t w1 : give_up M w = (r, t, w1) -> never polledA t /\ exists f b, t = Collected f :: b /\ never collecting b /\ after_wait f b.
Proof.
  unfold give_up. destruct (m_collect M w) as [[out|] w0] eqn:Ec.
  - rewrite jprints_run. intros E. inj E. destruct (printed_plain (output_lines out)) as [P1 C1]. split; [apply never_cons; split; [discriminate | exact P1]|].
    exists true, (map Printed (output_lines out)). split; [reflexivity|]. split; [exact C1|]. left. split; [reflexivity|]. exists w, out, (output_lines out). rewrite Ec. split; [reflexivity|]. split; [apply output_told | reflexivity].
  - intros E. inj E. split; [repeat (apply never_cons; split; [discriminate|]); apply never_nil|]. exists false. eexists. split; [reflexivity|]. split; [|right; auto].
    repeat (apply never_cons; split; [intros [f Hf]; discriminate Hf|]). apply never_nil.
Qed.
Definition timeout_line : str := st "Failed to start Rudy server - timeout waiting for server to respond".
(** Both, for anything done on the way to a connection. *)
Definition ends (r : bool) (t : list act) : Prop :=
  (forall a b, t = a ++ Polled true :: b -> r = false /\ after_end b) /\
  (forall a f b, t = a ++ Collected f :: b -> r = false /\ after_wait f b /\ never polledA a /\ exists a', a = a' ++ [Printed timeout_line]).
Lemma ends_plain r t : never polledA t -> never collecting t -> ends r t.
Proof. intros P Q. split; intros; exfalso; [apply (P (Polled true)) | apply (Q (Collected f))]; try (subst t; apply in_elt); [reflexivity | eexists; reflexivity]. Qed.
Lemma ends_after r t u : never polledA t -> never collecting t -> ends r u -> ends r (t ++ u).
Proof.
  intros P Q [U1 U2]. split.
  - intros a b H. destruct (elt_never polledA _ _ _ _ _ P eq_refl H) as (a' & -> & H2). exact (U1 a' b H2).
  - intros a f b H. destruct (elt_never collecting _ _ _ _ _ Q (ex_intro _ f eq_refl) H) as (a' & -> & H2). destruct (U2 a' f b H2) as (R & A & N & x & ->). split; [exact R|]. split; [exact A|].
    split; [apply never_app; auto|]. exists (t ++ x). rewrite app_assoc. reflexivity.
Qed.
Lemma start_end w r t w1 : start_server M C w = (r, t, w1) -> ends r t.
Proof.
  unfold start_server, jbind at 1. destruct (server_running M w) as [[up t0] w0] eqn:E0. destruct (running_plain _ _ _ _ E0) as [P0 C0]. destruct up.
  - unfold jret. intros E. inj E. rewrite app_nil_r. apply ends_plain; auto.
  - unfold jbind at 1. rewrite jprints_run. unfold jbind at 1. unfold jprint at 1. destruct (printed_plain (cargo_note M)) as [P1 C1]. set (note := map Printed (cargo_note M)) in *. clearbody note.
    set (line := Printed (st "Starting Rudy server on " ++ address C ++ st "...")). destruct (m_spawn M (server_command M C) w0) as [[e|] w2].
    + intros E. inj E. apply ends_after; auto. apply ends_after; auto. destruct (printed_plain [st "Starting Rudy server on " ++ address C ++ st "..."; st "Error starting server: " ++ e]) as [P2 C2]. apply ends_plain; [exact P2 | exact C2].
    + unfold jbind. destruct (await M 10 w2) as [[ra ta] wa] eqn:Ea. destruct (await_end 10 _ _ _ _ Ea) as (Ca & Pa).
      assert (G : exists b, (let '(b, u0, w5) := match ra with Some b => jret b | None => fun w3 => let '(_, t1, w4) := jprint (st "Failed to start Rudy server - timeout waiting for server to respond") w3 in let '(b, u1, w5) := give_up M w4 in (b, t1 ++ u1, w5) end wa in (b, ta ++ u0, w5)) = b) by eauto.
      destruct G as ([[rb tb] wb] & Eb). rewrite Eb. intros E. inj E. apply ends_after; auto. apply ends_after; auto. apply (ends_after rb [line]); [apply never_cons; split; [discriminate | apply never_nil] | apply never_cons; split; [intros [f Hf]; discriminate Hf | apply never_nil]|].
      apply (ends_after rb [Spawned (server_command M C)]); [apply never_cons; split; [discriminate | apply never_nil] | apply never_cons; split; [intros [f Hf]; discriminate Hf | apply never_nil]|].
      destruct ra as [b0|].
      * unfold jret in Eb. inj Eb. rewrite app_nil_r. split.
        -- intros a b H. destruct (Pa a b H) as [R A]. injection R as ->. auto.
        -- intros a f b H. exfalso. apply (Ca (Collected f)); [rewrite H; apply in_elt | eexists; reflexivity].
      * assert (Np : never polledA ta) by (intros x Hx ->; apply in_split in Hx; destruct Hx as (x1 & x2 & Hx); destruct (Pa x1 x2 Hx) as [R _]; discriminate R).
        unfold jprint in Eb. destruct (give_up M wa) as [[rg tg] wg] eqn:Eg. destruct (give_up_end _ _ _ _ Eg) as (Pg & f0 & b0 & -> & Cb & Aw). destruct (give_up_run M _ _ _ _ Eg) as (-> & _). inj Eb.
        apply ends_after; auto. split.
        -- intros a b H. exfalso. assert (N : never polledA ([Printed timeout_line] ++ Collected f0 :: b0)) by (apply never_app; split; [apply never_cons; split; [discriminate | apply never_nil] | exact Pg]). apply (N (Polled true)); [|reflexivity].
           change (In (Polled true) ([Printed (st "Failed to start Rudy server - timeout waiting for server to respond")] ++ Collected f0 :: b0)). rewrite H. apply in_elt.
        -- intros a f b H. assert (H2 : [Printed timeout_line] ++ Collected f0 :: b0 = a ++ Collected f :: b) by exact H. clear H.
           assert (Na : forall z, In z a -> ~ collecting z).
           { intros z Hz Cz. destruct a as [|q a]; [destruct Hz|]. injection H2 as <- H2. destruct Hz as [<- | Hz]; [destruct Cz; discriminate|]. destruct a as [|q a]; [destruct Hz|]. cbn in H2. injection H2 as <- H2. apply (Cb (Collected f)); [rewrite H2; apply in_elt | eexists; reflexivity]. }
           destruct (first_unique collecting [Printed timeout_line] a _ _ _ _ H2) as (<- & Ef & <-); [eexists; reflexivity | eexists; reflexivity | intros z [<- | []] [? Q]; discriminate Q | exact Na |]. injection Ef as <-.
           split; [reflexivity|]. split; [exact Aw|]. split; [apply never_cons; split; [discriminate | apply never_nil]|]. exists []. reflexivity.
Qed.
Lemma connection_end conn target w r t w1 : connection M C conn target w = (r, t, w1) ->
  (forall a b, t = a ++ Polled true :: b -> r = None /\ after_end b) /\
  (forall a f b, t = a ++ Collected f :: b -> r = None /\ after_wait f b /\ never polledA a /\ exists a', a = a' ++ [Printed timeout_line]).
Proof.
  assert (Plain : forall (r : option str) t, never polledA t -> never collecting t -> (forall a b, t = a ++ Polled true :: b -> r = None /\ after_end b) /\
    (forall a f b, t = a ++ Collected f :: b -> r = None /\ after_wait f b /\ never polledA a /\ exists a', a = a' ++ [Printed timeout_line])).
  { intros r0 t0 P Q. split; intros; exfalso; [apply (P (Polled true)) | apply (Q (Collected f))]; try (subst t0; apply in_elt); [reflexivity | eexists; reflexivity]. }
  unfold connection. destruct target as [[[dir file]|]|].
  - destruct conn as [q|]; [unfold jret; intros E; inj E; apply Plain; apply never_nil|]. unfold jbind at 1. destruct (server_running M w) as [[up t0] w0] eqn:E0. destruct (running_plain _ _ _ _ E0) as [P0 C0].
    unfold jbind at 1. destruct up.
    + unfold jret at 1. destruct (m_connect M _ w0) as [ok w2]. intros E. inj E. apply Plain; apply never_app; (split; [assumption|]); apply never_cons; (split; [|apply never_nil]); [discriminate | intros [f Hf]; discriminate Hf].
    + destruct (auto C).
      * unfold jbind at 1. unfold jprint at 1. destruct (start_server M C w0) as [[go t1] w2] eqn:Es. pose proof (start_end _ _ _ _ Es) as He.
        assert (He2 : ends go (t0 ++ [Printed start_note] ++ t1)). { apply ends_after; auto. apply (ends_after go [Printed start_note]); [apply never_cons; split; [discriminate | apply never_nil] | apply never_cons; split; [intros [f Hf]; discriminate Hf | apply never_nil] | exact He]. }
        destruct go.
        -- assert (Np : never polledA (t0 ++ [Printed start_note] ++ t1)) by (intros x Hx ->; apply in_split in Hx; destruct Hx as (x1 & x2 & Hx); destruct (proj1 He2 x1 x2 Hx) as [R _]; discriminate R).
           assert (Nc : never collecting (t0 ++ [Printed start_note] ++ t1)) by (intros x Hx [f ->]; apply in_split in Hx; destruct Hx as (x1 & x2 & Hx); destruct (proj2 He2 x1 f x2 Hx) as [R _]; discriminate R).
           apply never_app in Np. destruct Np as [_ Np]. apply never_app in Nc. destruct Nc as [_ Nc]. destruct (m_connect M _ w2) as [ok w3]. intros E. inj E.
           apply Plain; apply never_app; (split; [assumption|]); apply never_app; (split; [assumption|]); apply never_cons; (split; [|apply never_nil]); [discriminate | intros [f Hf]; discriminate Hf].
        -- unfold jret. intros E. inj E. rewrite app_nil_r. destruct He2 as [H1 H2]. split.
           ++ intros a b H. destruct (H1 a b H) as [_ A]. auto.
           ++ intros a f b H. destruct (H2 a f b H) as [_ A]. auto.
      * unfold jbind at 1. unfold jprint at 1, jret. intros E. inj E. apply Plain; apply never_app; (split; [assumption|]); apply never_cons; (split; [|apply never_nil]); [discriminate | intros [f Hf]; discriminate Hf].
  - unfold jbind, jprint, jret. intros E. inj E. apply Plain; apply never_cons; (split; [|apply never_nil]); [discriminate | intros [f Hf]; discriminate Hf].
  - unfold jbind, jprint, jret. intros E. inj E. apply Plain; apply never_cons; (split; [|apply never_nil]); [discriminate | intros [f Hf]; discriminate Hf].
Qed.
End End.

(** ** C123 *)
Definition not_sent : str := st "Failed to connect to Rudy server".
Lemma idle_no_end t : (forall x, In x t -> x <> Polled true /\ forall f, x <> Collected f) -> never polledA t /\ never collecting t.
Proof. intros H. split; intros x Hx; [intros Q; destruct (H x Hx) as [N _]; exact (N Q) | intros [f Q]; destruct (H x Hx) as [_ N]; exact (N f Q)]. Qed.
Lemma rd_plain W (M : machine W) C repr conn target line w r t w1 : typed line = None -> commanded M C repr conn target line w r t w1 -> never polledA t /\ never collecting t.
Proof.
  intros Ty H. unfold commanded, rd in H. unfold typed in Ty. destruct (py_split line) as [|word args] eqn:Sp.
  - unfold jbind in H. rewrite jprints_run in H. unfold jret in H. inj H. rewrite app_nil_r. apply printed_plain.
  - cbv zeta in H. destruct (str_eqb (shortcode word) (st "status")) eqn:Q.
    + unfold jbind in H. destruct (server_running M w) as [[up t0] w0] eqn:E0. destruct (running_plain M _ _ _ _ E0) as [P0 C0]. unfold jprint, jret in H. inj H.
      split; apply never_app; (split; [assumption|]); apply never_app; (split; [|apply never_nil]); apply never_cons; (split; [|apply never_nil]); [discriminate | intros [f Hf]; discriminate Hf].
    + exfalso. clear - Ty Q. revert Ty. cbv zeta. try rewrite Q. discriminate.
Qed.
(** If the started process ends before it answers, this and everything the process has written are shown, nothing more is
    tried, and the command is reported as not sent. *)
Theorem end_of_server_reported : forall W (M : machine W) C repr conn target line w r t w1 a b, commanded M C repr conn target line w r t w1 -> t = a ++ Polled true :: b ->
  r = None /\ exists w0 out l, fst (m_poll M w0) = Some out /\ told out l /\ b = map Printed (failed_line :: l ++ [not_sent]).
Proof.
  intros W M C repr conn target line w r t w1 a b H Ht. destruct (rd_run M C repr conn target line w r t w1 H) as [(Ty & _) | (cmd & args & t0 & w0 & use & Ty & Ec & H2)].
  - exfalso. destruct (rd_plain W M C repr conn target line w r t w1 Ty H) as [P _]. apply (P (Polled true)); [rewrite Ht; apply in_elt | reflexivity].
  - destruct (connection_end M C conn target w use t0 w0 Ec) as [E1 _]. destruct use as [p|].
    + exfalso. destruct H2 as (out & Et & _). assert (N0 : never polledA t0) by (intros x Hx ->; apply in_split in Hx; destruct Hx as (x1 & x2 & Hx); destruct (E1 x1 x2 Hx) as [R _]; discriminate R).
      assert (N : never polledA t) by (rewrite Et; apply never_app; split; [exact N0|]; apply never_cons; split; [discriminate | apply printed_plain]). apply (N (Polled true)); [rewrite Ht; apply in_elt | reflexivity].
    + destruct H2 as (Et & Er & _). rewrite Et in Ht. destruct (elt_app _ _ _ _ _ Ht) as [(b' & E & ->) | (a' & _ & E)].
      * destruct (E1 a b' E) as (_ & w2 & out & l & Po & Tl & ->). split.
        -- rewrite Er. destruct conn as [q|]; [|reflexivity]. exfalso. clear - Ec E. unfold connection in Ec. destruct target as [[[dir file]|]|]; unfold jbind, jprint, jret in Ec; apply triple_eq in Ec; destruct Ec as (Q & Q2 & _); rewrite <- Q2 in E; destruct a as [|? [|]]; discriminate E.
        -- exists w2, out, l. split; [exact Po|]. split; [exact Tl|]. change (failed_line :: l ++ [not_sent]) with ((failed_line :: l) ++ [not_sent]). rewrite map_app. reflexivity.
      * exfalso. destruct a' as [|x [|]]; discriminate E.
Qed.
Print Assumptions end_of_server_reported.
(** If the started process neither answers nor ends in its time, this is shown; then either it has ended after all, and what it
    has written is shown, or it is killed, and this is shown. Nothing more is tried, and the command is reported as not sent. *)
Theorem slow_server_reported : forall W (M : machine W) C repr conn target line w r t w1 a f b, commanded M C repr conn target line w r t w1 -> t = a ++ Collected f :: b ->
  r = None /\ never polledA a /\ (exists a', a = a' ++ [Printed (st "Failed to start Rudy server - timeout waiting for server to respond")]) /\
  (f = true -> exists w0 out l, fst (m_collect M w0) = Some out /\ told out l /\ b = map Printed (l ++ [not_sent])) /\
  (f = false -> b = [Killed; Printed (st "Server process did not respond, killed it"); Printed not_sent]).
Proof.
  intros W M C repr conn target line w r t w1 a f b H Ht. destruct (rd_run M C repr conn target line w r t w1 H) as [(Ty & _) | (cmd & args & t0 & w0 & use & Ty & Ec & H2)].
  - exfalso. destruct (rd_plain W M C repr conn target line w r t w1 Ty H) as [_ P]. apply (P (Collected f)); [rewrite Ht; apply in_elt | eexists; reflexivity].
  - destruct (connection_end M C conn target w use t0 w0 Ec) as [_ E1]. destruct use as [p|].
    + exfalso. destruct H2 as (out & Et & _). assert (N0 : never collecting t0) by (intros x Hx [f0 ->]; apply in_split in Hx; destruct Hx as (x1 & x2 & Hx); destruct (E1 x1 f0 x2 Hx) as [R _]; discriminate R).
      assert (N : never collecting t) by (rewrite Et; apply never_app; split; [exact N0|]; apply never_cons; split; [intros [? Q]; discriminate Q | apply printed_plain]). apply (N (Collected f)); [rewrite Ht; apply in_elt | eexists; reflexivity].
    + destruct H2 as (Et & Er & _). rewrite Et in Ht. destruct (elt_app _ _ _ _ _ Ht) as [(b' & E & ->) | (a' & _ & E)].
      * destruct (E1 a f b' E) as (_ & Aw & Np & Ex). split.
        -- rewrite Er. destruct conn as [q|]; [|reflexivity]. exfalso. clear - Ec E. unfold connection in Ec. destruct target as [[[dir file]|]|]; unfold jbind, jprint, jret in Ec; apply triple_eq in Ec; destruct Ec as (Q & Q2 & _); rewrite <- Q2 in E; destruct a as [|? [|]]; discriminate E.
        -- split; [exact Np|]. split; [exact Ex|]. destruct Aw as [(-> & w2 & out & l & Po & Tl & ->) | (-> & ->)]; (split; [intros Q; try discriminate Q | intros Q; try discriminate Q]).
           ++ exists w2, out, l. split; [exact Po|]. split; [exact Tl|]. rewrite map_app. reflexivity.
           ++ reflexivity.
      * exfalso. destruct a' as [|x [|]]; discriminate E.
Qed.
Print Assumptions slow_server_reported.

(** ** A machine that meets the hypotheses: the process ends at once, with a message. *)
Definition broken : machine unit :=
  Machine unit (fun w => (Down, w)) (fun _ => true) (fun _ w => (None, w)) (fun w => (Some ([], st "address in use"), w)) (fun w => (None, w)) (fun w => w)
    (fun _ w => (false, w)) (fun _ _ _ w => (Ok (JObj []), w)).
Example ended_at_once : exists a, commanded broken settings (fun _ => []) None target0 (st "p x") tt None (a ++ Polled true :: map Printed [failed_line; st "stderr: address in use"; not_sent]) tt.
Proof.
  destruct (rd broken settings (fun _ => []) None target0 (st "p x") tt) as [[r t] w] eqn:E. vm_compute in E.
  eexists [_; _; _; _; _; _]. vm_compute. reflexivity.
Qed.
Example killed_after_wait : exists t w a b, commanded (slow 100) settings (fun _ => []) None target0 (st "p x") None None t w /\ t = a ++ Collected false :: b.
Proof.
  destruct (rd (slow 100) settings (fun _ => []) None target0 (st "p x") None) as [[r t] w] eqn:E. exists t, w. vm_compute in E. injection E as <- <- <-.
  assert (H : forall (u : list act), In (Collected false) u -> exists a b, u = a ++ Collected false :: b) by (intros u Hu; apply in_split in Hu; destruct Hu as (a & b & ->); eauto).
  match goal with |- context [?u = _ ++ _] => destruct (H u) as (a & b & Hab); [vm_compute; tauto|] end. exists a, b. split; [vm_compute; reflexivity | exact Hab].
Qed.
