(** C123: rd starts the server when it is needed, and only then. *)
From Coq Require Import Ascii String List ZArith NArith Lia Bool.
From Verif Require Import Base NumText JsonModel WireModel ClientModel AutoModel.
Import ListNotations.
Open Scope Z_scope.

(** ** Specification: kinds of actions *)
Definition spawn (a : act) : Prop := exists cmd, a = Spawned cmd.
Definition probing (a : act) : Prop := exists r, a = Probed r.
Definition connecting (a : act) : Prop := exists p ok, a = Connected p ok.
Definition sending (a : act) : Prop := exists cmd args, a = Sent cmd args.
Definition never (P : act -> Prop) (t : list act) : Prop := forall a, In a t -> ~ P a.
(** The process has ended, or has been killed. *)
Definition over (a : act) : Prop := a = Polled true \/ a = Collected true \/ a = Killed.
(** The last thing learnt about the server is that it answers. *)
Definition answering (t : list act) : Prop := exists a b, t = a ++ Probed Up :: b /\ never probing b.
Fixpoint probes (t : list act) : nat := match t with [] => 0 | Probed _ :: t' => S (probes t') | _ :: t' => probes t' end.
Fixpoint shown (t : list act) : list str := match t with [] => [] | Printed s :: t' => s :: shown t' | _ :: t' => shown t' end.
(** The settings that switch automatic starting on. *)
Definition same_letter (a b : char) : Prop := a = b \/ ((97 <= b <= 122)%N /\ a = (b - 32)%N).
Definition switched_on (s : option str) : Prop :=
  s = None \/ exists v w, s = Some v /\ In w (map st ["1"; "true"; "on"; "yes"]%string) /\ Forall2 same_letter v w.
(** The command line of the server for an address. *)
Definition serves (h : str) (p : Z) (cmd : list str) : Prop :=
  exists program, cmd = program ++ [st "start"; st "--port"; dec p; st "--host"; h] /\
    (program = [st "rudy-lldb-server"] \/ program = map st ["cargo"; "run"; "-p"; "rudy-lldb"; "--bin"; "rudy-lldb-server"; "--"]%string).

(** ** Lists of actions *)
Lemma never_app P t u : never P (t ++ u) <-> never P t /\ never P u.
Proof. unfold never. split; [intros H; split; intros a Ha; apply H, in_or_app; auto | intros [H1 H2] a Ha; apply in_app_or in Ha; destruct Ha; auto]. Qed.
Lemma never_cons P a t : never P (a :: t) <-> ~ P a /\ never P t.
Proof. unfold never. cbn [In]. split; [intros H; split; [apply H; auto | intros b Hb; apply H; auto] | intros [H1 H2] b [<- | Hb]; auto]. Qed.
Lemma never_nil P : never P [].
Proof. intros a []. Qed.
Lemma probes_app t u : probes (t ++ u) = (probes t + probes u)%nat.
Proof. induction t as [|[] t IH]; cbn; rewrite ?IH; reflexivity. Qed.
Lemma shown_app t u : shown (t ++ u) = shown t ++ shown u.
Proof. induction t as [|[] t IH]; cbn; rewrite ?IH; reflexivity. Qed.
Lemma never_probes t : never probing t -> probes t = O.
Proof. induction t as [|a t IH]; intros H; [reflexivity|]. apply never_cons in H. destruct H as [H1 H2]. destruct a; cbn; auto. contradiction H1. eexists; reflexivity. Qed.
Lemma answering_more t u : answering t -> never probing u -> answering (t ++ u).
Proof. intros (a & b & -> & N) Nu. exists a, (b ++ u). split; [rewrite <- app_assoc; reflexivity | apply never_app; auto]. Qed.
Lemma answering_after t u : answering u -> answering (t ++ u).
Proof. intros (a & b & -> & N). exists (t ++ a), b. split; [rewrite <- app_assoc; reflexivity | exact N]. Qed.
Lemma first_unique {A} (P : A -> Prop) (a a' b b' : list A) x y : a ++ x :: b = a' ++ y :: b' -> P x -> P y -> (forall z, In z a -> ~ P z) -> (forall z, In z a' -> ~ P z) -> a = a' /\ x = y /\ b = b'.
Proof.
  revert a'. induction a as [|z a IH]; intros a' E Px Py Na Na'; destruct a' as [|z' a']; cbn in E; injection E as E1 E2.
  - auto.
  - subst z'. contradiction (Na' x (or_introl eq_refl) Px).
  - subst z. contradiction (Na y (or_introl eq_refl) Py).
  - subst z'. destruct (IH a' E2 Px Py) as (-> & -> & ->); [intros q Hq; apply Na; right; exact Hq | intros q Hq; apply Na'; right; exact Hq | auto].
Qed.

Lemma triple_eq {A B D} (a a' : A) (b b' : B) (d d' : D) : (a, b, d) = (a', b', d') -> a = a' /\ b = b' /\ d = d'.
Proof. intros E. injection E as -> -> ->. auto. Qed.
Ltac inj E := apply triple_eq in E; destruct E as (<- & <- & <-).

(** ** Actions that only print, look or wait *)
Definition prints_only (t : list act) : Prop := forall a, In a t -> exists s, a = Printed s.
Lemma prints_only_never P t : prints_only t -> (forall s, ~ P (Printed s)) -> never P t.
Proof. intros H N a Ha. destruct (H a Ha) as [s ->]. apply N. Qed.
Ltac noH H := unfold spawn, probing, connecting, sending, over in H; repeat match type of H with exists _, _ => destruct H as [? H] | _ \/ _ => destruct H as [H | H] end; discriminate H.
Ltac no := let H := fresh in intros H; noH H.
Ltac noP := let s := fresh in let H := fresh in intros s H; noH H.

Section Rd.
Context {W : Type}.
Variable M : machine W.
Variable C : config.
Lemma jprints_run (l : list str) : forall w : W, jprints l w = (tt, map Printed l, w).
Proof. induction l as [|s l IH]; intros w; [reflexivity|]. cbn [jprints]. unfold jbind, jprint. rewrite IH. reflexivity. Qed.
Lemma prints_map (l : list str) : prints_only (map Printed l).
Proof. intros a H. apply in_map_iff in H. destruct H as (s & <- & _). eauto. Qed.
Lemma running_run w r t w1 : server_running M w = (r, t, w1) ->
  exists p u, t = Probed p :: u /\ prints_only u /\ (r = true <-> p = Up).
Proof.
  unfold server_running. destruct (m_probe M w) as [[| |e] w0]; intros E; injection E as <- <- <-.
  - exists Up, []. split; [reflexivity|]. split; [intros a []|]. tauto.
  - exists Down, []. split; [reflexivity|]. split; [intros a []|]. split; discriminate.
  - exists (Broken e). eexists. split; [reflexivity|]. split; [intros a [<- | []]; eauto|]. split; discriminate.
Qed.
Lemma down_never p u r : prints_only u -> (r = true <-> p = Up) -> r = false -> never (fun a => a = Probed Up) (Probed p :: u).
Proof. intros H R ->. apply never_cons. split; [intros E; injection E as ->; destruct R as [_ R]; discriminate (R eq_refl)|]. apply prints_only_never; [exact H | noP]. Qed.
(** Nothing is started, connected or sent. *)
Definition idle (t : list act) : Prop := never spawn t /\ never connecting t /\ never sending t.
Lemma idle_app t u : idle t -> idle u -> idle (t ++ u).
Proof. intros (A & B & D) (A' & B' & D'). repeat apply conj; apply never_app; auto. Qed.
Lemma idle_prints t : prints_only t -> idle t.
Proof. intros H. repeat apply conj; (apply prints_only_never; [exact H | noP]). Qed.
Lemma idle_cons a t : ~ spawn a -> ~ connecting a -> ~ sending a -> idle t -> idle (a :: t).
Proof. intros A B D (A' & B' & D'). repeat apply conj; apply never_cons; auto. Qed.
Lemma idle_probe p u : prints_only u -> idle (Probed p :: u).
Proof. intros H. apply idle_cons; [no | no | no | apply idle_prints, H]. Qed.

Lemma await_run n : forall w r t w1, await M n w = (r, t, w1) ->
  idle t /\ (probes t <= n)%nat /\ (r = Some true -> answering t) /\ (r = Some false -> In (Polled true) t).
Proof.
  induction n as [|n IH]; intros w r t w1 E; cbn [await] in E.
  - unfold jret in E. injection E as <- <- <-. repeat apply conj; try apply never_nil; try discriminate. cbn. lia.
  - unfold jbind in E. destruct (server_running M w) as [[up t0] w0] eqn:E0. destruct (running_run w up t0 w0 E0) as (p & u & -> & Pu & Hp). destruct up.
    + unfold jprint, jret in E. cbv beta iota in E. injection E as <- <- <-. change ([Printed (st "Rudy server started successfully")] ++ []) with [Printed (st "Rudy server started successfully")]. assert (p = Up) as -> by tauto. split; [apply (idle_app (Probed Up :: u)); [apply idle_probe, Pu | apply idle_prints; intros a [<- | []]; eauto]|].
      split; [cbn [app probes]; rewrite probes_app, (never_probes u) by (apply prints_only_never; [exact Pu | noP]); cbn; lia|]. split; [|discriminate]. intros _.
      exists [], (u ++ [Printed (st "Rudy server started successfully")]). split; [reflexivity|]. apply never_app. split; [apply prints_only_never; [exact Pu | noP] | apply never_cons; split; [no | apply never_nil]].
    + destruct (m_poll M w0) as [[out|] w2].
      * rewrite jprints_run in E. match type of E with context [map Printed ?x] => generalize dependent x end. intros l E. injection E as <- <- <-. split; [apply (idle_app (Probed p :: u)); [apply idle_probe, Pu | apply idle_cons; [no | no | no | apply idle_prints, prints_map]]|].
        split; [cbn [app probes]; rewrite probes_app, (never_probes u) by (apply prints_only_never; [exact Pu | noP]); cbn [probes]; rewrite never_probes by (apply prints_only_never; [apply prints_map | noP]); lia|].
        split; [discriminate|]. intros _. right. apply in_or_app. right. left. reflexivity.
      * destruct (await M n w2) as [[r1 t1] w3] eqn:E1. injection E as <- <- <-. destruct (IH _ _ _ _ E1) as (I1 & P1 & T1 & F1).
        split; [apply (idle_app (Probed p :: u)); [apply idle_probe, Pu | apply idle_cons; [no | no | no | exact I1]]|].
        split; [cbn [app probes]; rewrite probes_app, (never_probes u) by (apply prints_only_never; [exact Pu | noP]); cbn [probes]; lia|].
        split; [intros H; apply (answering_after (Probed p :: u)), (answering_after [Polled false]); auto | intros H; right; apply in_or_app; right; right; auto].
Qed.
Lemma give_up_run w r t w1 : give_up M w = (r, t, w1) -> r = false /\ idle t /\ never probing t /\ exists a, In a t /\ over a.
Proof.
  unfold give_up. destruct (m_collect M w) as [[out|] w0].
  - rewrite jprints_run. intros E. injection E as <- <- <-. split; [reflexivity|]. split; [apply idle_cons; [no | no | no | apply idle_prints, prints_map]|]. split; [apply never_cons; split; [no | apply prints_only_never; [apply prints_map | noP]]|].
    exists (Collected true). split; [left; reflexivity | unfold over; auto].
  - intros E. injection E as <- <- <-. split; [reflexivity|]. split; [repeat (apply idle_cons; [no | no | no|]); repeat apply conj; apply never_nil|]. split; [repeat (apply never_cons; split; [no|]); apply never_nil|].
    exists Killed. split; [right; left; reflexivity | unfold over; auto].
Qed.
Lemma command_serves : serves (host C) (port C) (server_command M C).
Proof. unfold server_command. eexists. split; [reflexivity|]. destruct (m_which M _); [left; reflexivity|]. destruct (m_which M _); [right | left]; reflexivity. Qed.

(** How starting goes: at most one process, only after the server was found not to answer, none left after a failure. *)
Lemma start_run w r t w1 : start_server M C w = (r, t, w1) ->
  never connecting t /\ never sending t /\ (probes t <= 11)%nat /\ (r = true -> answering t) /\
  (never spawn t \/
   exists a b, t = a ++ Spawned (server_command M C) :: b /\ never spawn a /\ never spawn b /\ never (fun x => x = Probed Up) a /\ (r = false -> exists x, In x b /\ over x)).
Proof.
  unfold start_server, jbind at 1. destruct (server_running M w) as [[up t0] w0] eqn:E0. destruct (running_run w up t0 w0 E0) as (p & u & -> & Pu & Hp).
  assert (Nu : never probing u) by (apply prints_only_never; [exact Pu | noP]). destruct (idle_probe p u Pu) as (I1 & I2 & I3). destruct up.
  - unfold jret. intros E. inj E. rewrite app_nil_r. assert (p = Up) as -> by tauto. split; [exact I2|]. split; [exact I3|]. split; [cbn; rewrite (never_probes u Nu); lia|]. split; [intros _; exists [], u; split; [reflexivity | exact Nu] | left; exact I1].
  - unfold jbind at 1. rewrite jprints_run. unfold jbind at 1. unfold jprint at 1.
    assert (Pn : forall l, prints_only l -> never connecting l /\ never sending l /\ never probing l /\ never spawn l /\ never (fun x => x = Probed Up) l) by (intros l Hl; repeat apply conj; (apply prints_only_never; [exact Hl | noP])).
    destruct (Pn _ (prints_map (cargo_note M))) as (N1 & N2 & N3 & N4 & N5). set (note := map Printed (cargo_note M)) in *. clearbody note.
    destruct (m_spawn M (server_command M C) w0) as [[e|] w2].
    + intros E. inj E. repeat apply conj.
      * apply never_app. split; [exact I2|]. apply never_app. split; [exact N1|]. repeat (apply never_cons; split; [no|]). apply never_nil.
      * apply never_app. split; [exact I3|]. apply never_app. split; [exact N2|]. repeat (apply never_cons; split; [no|]). apply never_nil.
      * rewrite !probes_app, (never_probes note N3). cbn. rewrite (never_probes u Nu). lia.
      * discriminate.
      * left. apply never_app. split; [exact I1|]. apply never_app. split; [exact N4|]. repeat (apply never_cons; split; [no|]). apply never_nil.
    + unfold jbind. destruct (await M 10 w2) as [[ra ta] wa] eqn:Ea. destruct (await_run 10 _ _ _ _ Ea) as ((A1 & A2 & A3) & Pa & Ta & Fa).
      assert (G : exists b, (let '(b, u0, w5) := match ra with Some b => jret b | None => fun w3 => let '(_, t1, w4) := jprint (st "Failed to start Rudy server - timeout waiting for server to respond") w3 in let '(b, u1, w5) := give_up M w4 in (b, t1 ++ u1, w5) end wa in (b, ta ++ u0, w5)) = b) by eauto.
      destruct G as ([[rb tb] wb] & Eb). rewrite Eb. intros E. inj E.
      assert (Q : never connecting tb /\ never sending tb /\ (probes tb <= 10)%nat /\ never spawn tb /\ (rb = true -> answering tb) /\ (rb = false -> exists x, In x tb /\ over x)).
      { destruct ra as [[|]|].
        - unfold jret in Eb. inj Eb. rewrite app_nil_r. repeat apply conj; auto. discriminate.
        - unfold jret in Eb. inj Eb. rewrite app_nil_r. repeat apply conj; auto; [discriminate|]. intros _. exists (Polled true). split; [auto | unfold over; auto].
        - unfold jprint in Eb. destruct (give_up M wa) as [[rg tg] wg] eqn:Eg. destruct (give_up_run _ _ _ _ Eg) as (-> & (G1 & G2 & G3) & Gp & x & Gx & Go). inj Eb. repeat apply conj.
          + apply never_app. split; [exact A2|]. apply never_cons. split; [no | exact G2].
          + apply never_app. split; [exact A3|]. apply never_cons. split; [no | exact G3].
          + rewrite !probes_app, (never_probes tg Gp). change (probes [Printed (st "Failed to start Rudy server - timeout waiting for server to respond")]) with O. lia.
          + apply never_app. split; [exact A1|]. apply never_cons. split; [no | exact G1].
          + discriminate.
          + intros _. exists x. split; [apply in_or_app; right; right; exact Gx | exact Go]. }
      destruct Q as (B1 & B2 & B3 & B4 & B5 & B6). repeat apply conj.
      * apply never_app. split; [exact I2|]. apply never_app. split; [exact N1|]. repeat (apply never_cons; split; [no|]). exact B1.
      * apply never_app. split; [exact I3|]. apply never_app. split; [exact N2|]. repeat (apply never_cons; split; [no|]). exact B2.
      * rewrite !probes_app, (never_probes note N3). cbn. rewrite (never_probes u Nu). lia.
      * intros H. apply answering_after, answering_after, (answering_after [_]), (answering_after [_]), B5, H.
      * right. exists ((Probed p :: u) ++ note ++ [Printed (st "Starting Rudy server on " ++ address C ++ st "...")]), tb. split; [rewrite <- !app_assoc; reflexivity|].
        split; [apply never_app; split; [exact I1|]; apply never_app; split; [exact N4|]; apply never_cons; split; [no | apply never_nil]|]. split; [exact B4|].
        split; [apply never_app; split; [exact (down_never p u false Pu Hp eq_refl)|]; apply never_app; split; [exact N5|]; apply never_cons; split; [discriminate | apply never_nil]|]. exact B6.
Qed.

Definition found_down (t : list act) : Prop := (exists p, In (Probed p) t) /\ never (fun x => x = Probed Up) t.
Lemma connection_run conn target w r t w1 : connection M C conn target w = (r, t, w1) ->
  never sending t /\ (probes t <= 12)%nat /\
  match conn with
  | Some q => never spawn t /\ never probing t /\ never connecting t /\ (r = Some q \/ r = None)
  | None =>
      (never spawn t \/
       auto C = true /\ exists a b, t = a ++ Spawned (server_command M C) :: b /\ never spawn a /\ never spawn b /\ found_down a /\ (In (Probed Up) b \/ exists x, In x b /\ over x)) /\
      (never connecting t /\ r = None \/
       exists dir file a ok, target = Some (Some (dir, file)) /\ t = a ++ [Connected (dir ++ st "/" ++ file) ok] /\ never connecting a /\ answering a /\ r = if ok then Some (dir ++ st "/" ++ file) else None)
  end.
Proof.
  unfold connection. assert (One : forall s, prints_only [Printed s]) by (intros s a [<- | []]; eauto).
  assert (Bad : forall s, (jbind (jprint s) (fun _ : unit => jret None) w : option str * list act * W) = (r, t, w1) -> never sending t /\ (probes t <= 12)%nat /\
     match conn with Some q => never spawn t /\ never probing t /\ never connecting t /\ (r = Some q \/ r = None) | None => (never spawn t \/ auto C = true /\ exists a b, t = a ++ Spawned (server_command M C) :: b /\ never spawn a /\ never spawn b /\ found_down a /\ (In (Probed Up) b \/ exists x, In x b /\ over x)) /\
      (never connecting t /\ r = None \/ exists dir file a ok, target = Some (Some (dir, file)) /\ t = a ++ [Connected (dir ++ st "/" ++ file) ok] /\ never connecting a /\ answering a /\ r = if ok then Some (dir ++ st "/" ++ file) else None) end).
  { intros s E. unfold jbind, jprint, jret in E. inj E. destruct (idle_prints _ (One s)) as (A & B & D). change ([Printed s] ++ []) with [Printed s]. split; [exact D|]. split; [cbn; lia|]. destruct conn as [q|].
    - split; [exact A|]. split; [apply prints_only_never; [apply One | noP]|]. split; [exact B | right; reflexivity].
    - split; [left; exact A | left; split; [exact B | reflexivity]]. }
  destruct target as [[[dir file]|]|]; [|exact (Bad _)|exact (Bad _)]. clear Bad. cbv zeta. destruct conn as [q|].
  - unfold jret. intros E. inj E. split; [apply never_nil|]. split; [cbn; lia|]. repeat apply conj; try apply never_nil. left; reflexivity.
  - unfold jbind at 1. destruct (server_running M w) as [[up t0] w0] eqn:E0. destruct (running_run w up t0 w0 E0) as (p & u & -> & Pu & Hp).
    assert (Nu : never probing u) by (apply prints_only_never; [exact Pu | noP]). destruct (idle_probe p u Pu) as (I1 & I2 & I3).
    assert (Last : forall go t1 w2, never sending t1 -> (probes t1 <= 11)%nat -> never connecting t1 -> (go = true -> answering ((Probed p :: u) ++ t1)) ->
       (never spawn t1 \/ auto C = true /\ exists a b, t1 = a ++ Spawned (server_command M C) :: b /\ never spawn a /\ never spawn b /\ never (fun x => x = Probed Up) ((Probed p :: u) ++ a) /\ (In (Probed Up) b \/ exists x, In x b /\ over x)) ->
       (let '(b, u0, w3) := (let '(b, u1, w4) := (if go then fun w2 => let '(ok, w3) := m_connect M (dir ++ st "/" ++ file) w2 in ((if ok then Some (dir ++ st "/" ++ file) else None), [Connected (dir ++ st "/" ++ file) ok], w3) else jret None) w2 in (b, t1 ++ u1, w4)) in (b, (Probed p :: u) ++ u0, w3)) = (r, t, w1) ->
       never sending t /\ (probes t <= 12)%nat /\
       (never spawn t \/ auto C = true /\ exists a b, t = a ++ Spawned (server_command M C) :: b /\ never spawn a /\ never spawn b /\ found_down a /\ (In (Probed Up) b \/ exists x, In x b /\ over x)) /\
       (never connecting t /\ r = None \/ exists dir0 file0 a ok, Some (Some (dir, file)) = Some (Some (dir0, file0)) /\ t = a ++ [Connected (dir0 ++ st "/" ++ file0) ok] /\ never connecting a /\ answering a /\ r = if ok then Some (dir0 ++ st "/" ++ file0) else None)).
    { intros go t1 w2 S1 P1 K1 G1 Sp E. assert (Pb : probes ((Probed p :: u) ++ t1) = S (probes t1)) by (rewrite probes_app; cbn [probes]; rewrite (never_probes u Nu); reflexivity).
      assert (Hs : forall z, never spawn z -> (never spawn ((Probed p :: u) ++ t1 ++ z) \/ auto C = true /\ exists a b, (Probed p :: u) ++ t1 ++ z = a ++ Spawned (server_command M C) :: b /\ never spawn a /\ never spawn b /\ found_down a /\ (In (Probed Up) b \/ exists x, In x b /\ over x))).
      { intros z Nz. destruct Sp as [Sp | (Au & a & b & -> & Na & Nb & Nd & Ob)]; [left; apply never_app; split; [exact I1 | apply never_app; split; assumption]|]. right. split; [exact Au|].
        exists ((Probed p :: u) ++ a), (b ++ z). split; [rewrite <- !app_assoc; reflexivity|]. split; [apply never_app; auto|]. split; [apply never_app; auto|]. split; [split; [exists p; left; reflexivity | exact Nd]|].
        destruct Ob as [Ob | (x & Hx & Ox)]; [left; apply in_or_app; auto | right; exists x; split; [apply in_or_app; auto | exact Ox]]. }
      destruct go.
      - destruct (m_connect M (dir ++ st "/" ++ file) w2) as [ok w3]. inj E. split; [apply never_app; split; [exact I3|]; apply never_app; split; [exact S1 | apply never_cons; split; [no | apply never_nil]]|].
        split; [rewrite app_assoc, probes_app, Pb; change (probes [Connected (dir ++ st "/" ++ file) ok]) with O; lia|]. split; [apply Hs, never_cons; split; [no | apply never_nil]|].
        right. exists dir, file, ((Probed p :: u) ++ t1), ok. split; [reflexivity|]. split; [rewrite <- app_assoc; reflexivity|]. split; [apply never_app; auto|]. split; [exact (G1 eq_refl) | reflexivity].
      - unfold jret in E. inj E. rewrite app_nil_r. split; [apply never_app; auto|]. split; [rewrite Pb; lia|]. split; [specialize (Hs [] (never_nil _)); rewrite app_nil_r in Hs; exact Hs|]. left. split; [apply never_app; auto | reflexivity]. }
    unfold jbind at 1. destruct up.
    + unfold jret at 1. intros E. apply (Last true [] w0) in E; [exact E | apply never_nil | cbn; lia | apply never_nil | | left; apply never_nil]. intros _. rewrite app_nil_r. assert (p = Up) as -> by tauto. exists [], u. split; [reflexivity | exact Nu].
    + destruct (auto C) eqn:Au.
      * unfold jbind at 1. unfold jprint at 1. destruct (start_server M C w0) as [[go t1] w2] eqn:Es. destruct (start_run _ _ _ _ Es) as (K1 & S1 & P1 & G1 & Sp). intros E. apply (Last go ([Printed start_note] ++ t1) w2) in E; [exact E| | | | |].
        -- apply never_app. split; [apply never_cons; split; [no | apply never_nil] | exact S1].
        -- rewrite probes_app. change (probes [Printed start_note]) with O. lia.
        -- apply never_app. split; [apply never_cons; split; [no | apply never_nil] | exact K1].
        -- intros H. apply answering_after, answering_after, G1, H.
        -- destruct Sp as [Sp | (a & b & -> & Na & Nb & Nd & Ob)]; [left; apply never_app; split; [apply never_cons; split; [no | apply never_nil] | exact Sp]|]. right. split; [reflexivity|].
           exists ([Printed start_note] ++ a), b. split; [rewrite <- !app_assoc; reflexivity|]. split; [apply never_app; split; [apply never_cons; split; [no | apply never_nil] | exact Na]|]. split; [exact Nb|]. split.
           ++ apply never_app. split; [exact (down_never p u false Pu Hp eq_refl)|]. apply never_app. split; [apply never_cons; split; [discriminate | apply never_nil] | exact Nd].
           ++ destruct go; [|right; exact (Ob eq_refl)]. left. destruct (G1 eq_refl) as (x & y & E2 & Ny). assert (Hi : In (Probed Up) (a ++ Spawned (server_command M C) :: b)) by (rewrite E2; apply in_or_app; right; left; reflexivity).
              apply in_app_or in Hi. destruct Hi as [Hi | [Hi | Hi]]; [contradiction (Nd _ Hi eq_refl) | discriminate Hi | exact Hi].
      * unfold jbind at 1. unfold jprint at 1, jret at 1. intros E. apply (Last false ([Printed off_note] ++ []) w0) in E; [exact E| | | | |].
        -- apply never_cons. split; [no | apply never_nil].
        -- cbn. lia.
        -- apply never_cons. split; [no | apply never_nil].
        -- discriminate.
        -- left. apply never_cons. split; [no | apply never_nil].
Qed.
Lemma same_letter_lower v w : map lower_char v = w -> Forall (fun c => ~ (65 <= c <= 90)%N) w -> Forall2 same_letter v w.
Proof.
  intros <-. induction v as [|c v IH]; intros H; constructor; inversion H; subst; [|auto]. unfold lower_char in *. destruct ((65 <=? c) && (c <=? 90))%N eqn:E; [|left; reflexivity].
  apply andb_true_iff in E. destruct E as [E1 E2]. apply N.leb_le in E1, E2. right. lia.
Qed.
Lemma letters_lower v w : Forall2 same_letter v w -> Forall (fun c => ~ (65 <= c <= 90)%N) w -> map lower_char v = w.
Proof.
  induction 1 as [|a b v w Hs F IH]; intros H; [reflexivity|]. inversion H; subst. cbn [map]. f_equal; [|auto]. unfold lower_char. destruct Hs as [-> | [Hb ->]].
  - destruct ((65 <=? b) && (b <=? 90))%N eqn:E; [|reflexivity]. apply andb_true_iff in E. destruct E as [E1 E2]. apply N.leb_le in E1, E2. lia.
  - assert (((65 <=? b - 32) && (b - 32 <=? 90))%N = true) as -> by (apply andb_true_iff; split; apply N.leb_le; lia). lia.
Qed.
Lemma words_lower w : In w (map st ["1"; "true"; "on"; "yes"]%string) -> Forall (fun c => ~ (65 <= c <= 90)%N) w.
Proof. intros H. repeat destruct H as [<- | H]; [..|destruct H]; apply Forall_forall; intros c Hc; cbn in Hc; repeat destruct Hc as [<- | Hc]; try destruct Hc; lia. Qed.
Lemma auto_switched : auto C = true <-> switched_on (autostart C).
Proof.
  unfold auto, switched_on, is_truthy. destruct (autostart C) as [v|].
  - rewrite existsb_exists. split.
    + intros (w & Hw & E). right. apply str_eqb_eq in E. exists v, w. split; [reflexivity|]. split; [exact Hw|]. apply same_letter_lower; [exact E | exact (words_lower w Hw)].
    + intros [E | (v' & w & E & Hw & F)]; [discriminate E|]. injection E as <-. exists w. split; [exact Hw|]. apply str_eqb_eq. apply letters_lower; [exact F | exact (words_lower w Hw)].
  - split; [left; reflexivity | reflexivity].
Qed.

Variable repr : json -> str.
Lemma rd_run conn target line w r t w1 : rd M C repr conn target line w = (r, t, w1) ->
  (typed line = None /\ idle t /\ (probes t <= 1)%nat /\ r = conn) \/
  exists cmd args t0 w0 use, typed line = Some (cmd, args) /\ connection M C conn target w = (use, t0, w0) /\
    match use with
    | None => t = t0 ++ [Printed (st "Failed to connect to Rudy server")] /\ r = conn /\ w1 = w0
    | Some p => exists out, t = t0 ++ Sent cmd args :: map Printed out /\ r = Some p /\ (forall fs w2, m_send M p cmd args w0 = (Ok (JObj fs), w2) -> out = print_response repr cmd fs /\ w1 = w2)
    end.
Proof.
  unfold rd, typed. destruct (py_split line) as [|v args].
  - unfold jbind. rewrite jprints_run. unfold jret. intros E. inj E. left. split; [reflexivity|]. rewrite app_nil_r. split; [apply idle_prints, prints_map|]. split; [rewrite never_probes by (apply prints_only_never; [apply prints_map | noP]); lia | reflexivity].
  - destruct (str_eqb (shortcode v) (st "status")).
    + unfold jbind at 1. destruct (server_running M w) as [[up t0] w0] eqn:E0. destruct (running_run w up t0 w0 E0) as (p & u & -> & Pu & Hp). unfold jbind, jprint, jret. intros E. inj E. left. split; [reflexivity|].
      assert (Ps : forall s, prints_only ([Printed s] ++ [])) by (intros s a [<- | []]; eauto). split; [apply idle_app; [apply idle_probe, Pu | apply idle_prints, Ps]|].
      split; [rewrite !probes_app; cbn [probes]; rewrite (never_probes u) by (apply prints_only_never; [exact Pu | noP]); destruct up; cbn; lia | reflexivity].
    + unfold jbind at 1. destruct (connection M C conn target w) as [[use t0] w0] eqn:Ec. intros E. right. exists (shortcode v), args, t0, w0, use. split; [reflexivity|]. split; [reflexivity|]. destruct use as [p|].
      * destruct (m_send M p (shortcode v) args w0) as [x w2] eqn:Em. rewrite jprints_run in E. match type of E with context [map Printed ?o] => exists o end. inj E. split; [reflexivity|]. split; [reflexivity|].
        intros fs w3 Q. injection Q as -> ->. split; reflexivity.
      * unfold jbind, jprint, jret in E. inj E. split; [reflexivity|]. split; reflexivity.
Qed.
End Rd.

(** ** C123 *)
Definition commanded {W} (M : machine W) C repr conn target line w r t w1 : Prop := rd M C repr conn target line w = (r, t, w1).
Lemma tail_quiet out cmd args : forall P, (forall s, ~ P (Printed s)) -> ~ P (Sent cmd args) -> never P (Sent cmd args :: map Printed out).
Proof. intros P N1 N2. apply never_cons. split; [exact N2|]. apply prints_only_never; [apply prints_map | exact N1]. Qed.
Lemma commanded_split {W} (M : machine W) C repr conn target line w r t w1 : commanded M C repr conn target line w r t w1 ->
  idle t /\ r = conn \/ exists use t0 w0 u, connection M C conn target w = (use, t0, w0) /\ t = t0 ++ u /\ never spawn u /\ never probing u /\ never connecting u /\ (never sending u /\ r = conn /\ use = None \/ exists p, r = Some p /\ use = Some p).
Proof.
  intros H. destruct (rd_run M C repr conn target line w r t w1 H) as [(_ & I0 & _ & E0) | (cmd & args & t0 & w0 & use & _ & Ec & H2)]; [left; split; assumption|]. right. destruct use as [p|].
  - destruct H2 as (out & -> & -> & _). exists (Some p), t0, w0, (Sent cmd args :: map Printed out). split; [exact Ec|]. split; [reflexivity|]. split; [apply tail_quiet; [noP | no]|]. split; [apply tail_quiet; [noP | no]|]. split; [apply tail_quiet; [noP | no]|]. right. eauto.
  - destruct H2 as (-> & -> & _). exists None, t0, w0, [Printed (st "Failed to connect to Rudy server")]. split; [exact Ec|]. split; [reflexivity|]. split; [apply never_cons; split; [no | apply never_nil]|]. split; [apply never_cons; split; [no | apply never_nil]|]. split; [apply never_cons; split; [no | apply never_nil]|].
    left. split; [apply never_cons; split; [no | apply never_nil] | split; reflexivity].
Qed.
(** A server is started only when there is no connection, automatic starting is on, and the server was looked for and did not
    answer; with the configured address, and once. *)
Theorem server_started_if_needed : forall W (M : machine W) C repr conn target line w r t w1 a cmd b, commanded M C repr conn target line w r t w1 -> t = a ++ Spawned cmd :: b ->
  conn = None /\ switched_on (autostart C) /\ found_down a /\ serves (host C) (port C) cmd /\ never spawn a /\ never spawn b.
Proof.
  intros W M C repr conn target line w r t w1 a cmd b H Ht. destruct (commanded_split M C repr conn target line w r t w1 H) as [[(I1 & _) _] | (use & t0 & w0 & u & Ec & Eu & U1 & U2 & U3 & _)].
  - exfalso. apply (I1 (Spawned cmd)); [rewrite Ht; apply in_or_app; right; left; reflexivity | eexists; reflexivity].
  - destruct (connection_run M C conn target w use t0 w0 Ec) as (_ & _ & K). destruct conn as [q|].
    + exfalso. destruct K as (K & _). assert (N : never spawn t) by (rewrite Eu; apply never_app; auto). apply (N (Spawned cmd)); [rewrite Ht; apply in_or_app; right; left; reflexivity | eexists; reflexivity].
    + destruct K as [[K | (Au & a0 & b0 & -> & Na & Nb & Fd & _)] _].
      * exfalso. assert (N : never spawn t) by (rewrite Eu; apply never_app; auto). apply (N (Spawned cmd)); [rewrite Ht; apply in_or_app; right; left; reflexivity | eexists; reflexivity].
      * rewrite Eu in Ht. rewrite <- app_assoc in Ht. cbn [app] in Ht.
        assert (Na2 : never spawn a).
        { intros x Hx [c ->]. apply in_split in Hx. destruct Hx as (x1 & x2 & ->). rewrite <- app_assoc in Ht. cbn [app] in Ht.
          assert (Q : never spawn x1 \/ ~ never spawn x1) by (destruct (existsb (fun z => match z with Spawned _ => true | _ => false end) x1) eqn:Q; [right; intros N; apply existsb_exists in Q; destruct Q as ([] & Q1 & Q2); try discriminate; apply (N _ Q1); eexists; reflexivity | left; intros z Hz [d ->]; assert (R : existsb (fun z => match z with Spawned _ => true | _ => false end) x1 = true) by (apply existsb_exists; eexists; split; [exact Hz | reflexivity]); congruence]).
          destruct Q as [Q | Q].
          - destruct (first_unique spawn a0 x1 (b0 ++ u) (x2 ++ Spawned cmd :: b) (Spawned (server_command M C)) (Spawned c) Ht) as (_ & _ & E3); [eexists; reflexivity | eexists; reflexivity | exact Na | exact Q|].
            assert (N : never spawn (b0 ++ u)) by (apply never_app; auto). rewrite E3 in N. apply (N (Spawned cmd)); [apply in_or_app; right; left; reflexivity | eexists; reflexivity].
          - apply Q. intros z Hz Sz. assert (Hz2 : In z (a0 ++ Spawned (server_command M C) :: b0 ++ u)) by (rewrite Ht; apply in_or_app; left; exact Hz).
            apply in_split in Hz. destruct Hz as (y1 & y2 & ->). rewrite <- app_assoc in Ht. cbn [app] in Ht.
            assert (L : forall l, length (filter (fun z => match z with Spawned _ => true | _ => false end) l) = O <-> never spawn l).
            { clear. induction l as [|x l IH]; [split; [intros _; apply never_nil | reflexivity]|]. rewrite never_cons. destruct x; cbn; try (rewrite IH; split; [intros G; split; [no | exact G] | tauto]). split; [discriminate|]. intros [G _]. contradiction G. eexists; reflexivity. }
            assert (Len : length (filter (fun z => match z with Spawned _ => true | _ => false end) (a0 ++ Spawned (server_command M C) :: b0 ++ u)) = 1%nat).
            { rewrite filter_app, app_length. cbn [filter]. rewrite filter_app. cbn [length]. rewrite app_length. rewrite (proj2 (L a0) Na), (proj2 (L b0) Nb), (proj2 (L u) U1). reflexivity. }
            rewrite Ht in Len. destruct Sz as [d ->]. rewrite filter_app, app_length in Len. cbn [filter] in Len. rewrite filter_app in Len. cbn [filter length] in Len. rewrite app_length in Len. cbn [length] in Len. lia. }
        destruct (first_unique spawn a0 a (b0 ++ u) b (Spawned (server_command M C)) (Spawned cmd) Ht) as (-> & E2 & <-); [eexists; reflexivity | eexists; reflexivity | exact Na | exact Na2|]. injection E2 as <-.
        split; [reflexivity|]. split; [apply auto_switched, Au|]. split; [exact Fd|]. split; [apply command_serves|]. split; [exact Na2 | apply never_app; auto].
Qed.
Print Assumptions server_started_if_needed.
Lemma spawn_in {W} (M : machine W) C repr conn target line w r t w1 a cmd b : commanded M C repr conn target line w r t w1 -> t = a ++ Spawned cmd :: b ->
  In (Probed Up) b \/ exists x, In x b /\ over x.
Proof.
  intros H Ht. destruct (server_started_if_needed W M C repr conn target line w r t w1 a cmd b H Ht) as (-> & _ & _ & _ & Na & _).
  assert (Hin : In (Spawned cmd) t) by (rewrite Ht; apply in_or_app; right; left; reflexivity).
  destruct (commanded_split M C repr None target line w r t w1 H) as [[(I1 & _) _] | (use & t0 & w0 & u & Ec & Eu & U1 & U2 & U3 & _)]; [contradiction (I1 _ Hin); eexists; reflexivity|].
  destruct (connection_run M C None target w use t0 w0 Ec) as (_ & _ & K & _). destruct K as [K | (_ & a0 & b0 & -> & Na0 & _ & _ & O)].
  - exfalso. assert (N : never spawn t) by (rewrite Eu; apply never_app; auto). apply (N _ Hin). eexists; reflexivity.
  - rewrite Eu in Ht. rewrite <- app_assoc in Ht. cbn [app] in Ht.
    destruct (first_unique spawn a0 a (b0 ++ u) b (Spawned (server_command M C)) (Spawned cmd) Ht) as (-> & _ & <-); [eexists; reflexivity | eexists; reflexivity | exact Na0 | exact Na|].
    destruct O as [O | (x & Hx & Ox)]; [left; apply in_or_app; auto | right; exists x; split; [apply in_or_app; auto | exact Ox]].
Qed.
(** A server that was started either came up, or has ended or been killed by the time the command is done. *)
Theorem no_server_left_behind : forall W (M : machine W) C repr conn target line w r t w1 a cmd b, commanded M C repr conn target line w r t w1 -> t = a ++ Spawned cmd :: b ->
  In (Probed Up) b \/ In (Polled true) b \/ In (Collected true) b \/ In Killed b.
Proof.
  intros W M C repr conn target line w r t w1 a cmd b H Ht. destruct (spawn_in M C repr conn target line w r t w1 a cmd b H Ht) as [O | (x & Hx & [-> | [-> | ->]])]; auto.
Qed.
Print Assumptions no_server_left_behind.
(** A connection is made only to a server that has just answered, for the selected target, and once. *)
Theorem connected_to_answering_server : forall W (M : machine W) C repr conn target line w r t w1 a p ok b, commanded M C repr conn target line w r t w1 -> t = a ++ Connected p ok :: b ->
  conn = None /\ answering a /\ never connecting a /\ never connecting b /\ exists dir file, target = Some (Some (dir, file)) /\ p = dir ++ st "/" ++ file.
Proof.
  intros W M C repr conn target line w r t w1 a p ok b H Ht. assert (Hin : In (Connected p ok) t) by (rewrite Ht; apply in_or_app; right; left; reflexivity).
  destruct (commanded_split M C repr conn target line w r t w1 H) as [[(_ & I1 & _) _] | (use & t0 & w0 & u & Ec & Eu & U1 & U2 & U3 & _)]; [contradiction (I1 _ Hin); eexists _, _; reflexivity|].
  destruct (connection_run M C conn target w use t0 w0 Ec) as (_ & _ & K). destruct conn as [q|].
  - exfalso. destruct K as (_ & _ & K & _). assert (N : never connecting t) by (rewrite Eu; apply never_app; auto). apply (N _ Hin). eexists _, _; reflexivity.
  - destruct K as [_ [[K _] | (dir & file & a0 & ok0 & Et & -> & Na & An & _)]].
    + exfalso. assert (N : never connecting t) by (rewrite Eu; apply never_app; auto). apply (N _ Hin). eexists _, _; reflexivity.
    + rewrite Eu in Ht. rewrite <- app_assoc in Ht. cbn [app] in Ht. assert (Na2 : never connecting a).
      { intros x Hx Cx. pose proof Hx as Hx0. apply in_split in Hx. destruct Hx as (x1 & x2 & ->). rewrite <- app_assoc in Ht. cbn [app] in Ht.
        assert (L : forall l, length (filter (fun z => match z with Connected _ _ => true | _ => false end) l) = O <-> never connecting l).
        { clear. induction l as [|x l IH]; [split; [intros _; apply never_nil | reflexivity]|]. rewrite never_cons. destruct x; cbn; try (rewrite IH; split; [intros G; split; [no | exact G] | tauto]). split; [discriminate|]. intros [G _]. contradiction G. eexists _, _; reflexivity. }
        assert (Len : length (filter (fun z => match z with Connected _ _ => true | _ => false end) (a0 ++ Connected (dir ++ st "/" ++ file) ok0 :: u)) = 1%nat).
        { rewrite filter_app, app_length. cbn [filter length]. rewrite (proj2 (L a0) Na), (proj2 (L u) U3). reflexivity. }
        rewrite Ht in Len. destruct Cx as (d & o & ->). rewrite filter_app, app_length in Len. cbn [filter] in Len. rewrite filter_app in Len. cbn [filter length] in Len. rewrite app_length in Len. cbn [length] in Len. lia. }
      destruct (first_unique connecting a0 a u b (Connected (dir ++ st "/" ++ file) ok0) (Connected p ok) Ht) as (-> & E2 & <-); [eexists _, _; reflexivity | eexists _, _; reflexivity | exact Na | exact Na2|]. injection E2 as <- <-.
      split; [reflexivity|]. split; [exact An|]. split; [exact Na2|]. split; [exact U3|]. exists dir, file. split; [exact Et | reflexivity].
Qed.
Print Assumptions connected_to_answering_server.
(** Commands are sent on the connection there was, or on one just made for the selected target. *)
Theorem sent_on_connection : forall W (M : machine W) C repr conn target line w r t w1 cmd args, commanded M C repr conn target line w r t w1 -> In (Sent cmd args) t ->
  typed line = Some (cmd, args) /\ exists p, r = Some p /\ (conn = Some p \/ conn = None /\ In (Connected p true) t).
Proof.
  intros W M C repr conn target line w r t w1 cmd args H Hin. destruct (rd_run M C repr conn target line w r t w1 H) as [(_ & (_ & _ & I0) & _) | (cmd0 & args0 & t0 & w0 & use & Ty & Ec & H2)]; [contradiction (I0 _ Hin); eexists _, _; reflexivity|].
  destruct (connection_run M C conn target w use t0 w0 Ec) as (S0 & _ & K). destruct use as [p|].
  - destruct H2 as (out & -> & -> & _). apply in_app_or in Hin. destruct Hin as [Hin | [Hin | Hin]]; [contradiction (S0 _ Hin); eexists _, _; reflexivity | | apply in_map_iff in Hin; destruct Hin as (x & Q & _); discriminate Q].
    injection Hin as -> ->. split; [exact Ty|]. exists p. split; [reflexivity|]. destruct conn as [q|]; [destruct K as (_ & _ & _ & [E | E]); [left; congruence | discriminate E]|].
    right. split; [reflexivity|]. destruct K as [_ [[_ E] | (dir & file & a & ok & _ & -> & _ & _ & E)]]; [discriminate E|]. destruct ok; [|discriminate E]. injection E as ->. apply in_or_app. left. apply in_or_app. right. left. reflexivity.
  - destruct H2 as (-> & _). apply in_app_or in Hin. destruct Hin as [Hin | [Hin | []]]; [contradiction (S0 _ Hin); eexists _, _; reflexivity | discriminate Hin].
Qed.
Print Assumptions sent_on_connection.
(** Either the command is sent, or it is reported that it was not. *)
Theorem unsent_reported : forall W (M : machine W) C repr conn target line w r t w1 cmd args, commanded M C repr conn target line w r t w1 -> typed line = Some (cmd, args) ->
  In (Sent cmd args) t \/ exists before, shown t = before ++ [st "Failed to connect to Rudy server"].
Proof.
  intros W M C repr conn target line w r t w1 cmd args H Ty. destruct (rd_run M C repr conn target line w r t w1 H) as [(Q & _) | (cmd0 & args0 & t0 & w0 & use & Ty2 & Ec & H2)]; [congruence|]. rewrite Ty in Ty2. injection Ty2 as <- <-. destruct use as [p|].
  - destruct H2 as (out & -> & _). left. apply in_or_app. right. left. reflexivity.
  - destruct H2 as (-> & _). right. exists (shown t0). apply shown_app.
Qed.
Print Assumptions unsent_reported.
(** What is answered is shown, and nothing else, when there is a connection. *)
Theorem answer_shown : forall W (M : machine W) C repr p dir file line w cmd args fs w1, typed line = Some (cmd, args) -> m_send M p cmd args w = (Ok (JObj fs), w1) ->
  commanded M C repr (Some p) (Some (Some (dir, file))) line w (Some p) (Sent cmd args :: map Printed (print_response repr cmd fs)) w1.
Proof.
  intros W M C repr p dir file line w cmd args fs w1 Ty E. unfold commanded. destruct (rd M C repr (Some p) (Some (Some (dir, file))) line w) as [[r t] w2] eqn:Er.
  destruct (rd_run M C repr _ _ line w r t w2 Er) as [(Q & _) | (cmd0 & args0 & t0 & w0 & use & Ty2 & Ec & H2)]; [congruence|]. rewrite Ty in Ty2. injection Ty2 as <- <-. cbn in Ec. unfold jret in Ec. injection Ec as <- <- <-.
  destruct H2 as (out & -> & -> & H2). destruct (H2 fs w1 E) as [-> ->]. reflexivity.
Qed.
Print Assumptions answer_shown.
(** rd alone and rd status start nothing, connect to nothing and send nothing; no command looks for the server more than
    twelve times. *)
Theorem looking_only : forall W (M : machine W) C repr conn target line w r t w1, commanded M C repr conn target line w r t w1 ->
  (probes t <= 12)%nat /\ (typed line = None -> never spawn t /\ never connecting t /\ never sending t /\ r = conn /\ (probes t <= 1)%nat).
Proof.
  intros W M C repr conn target line w r t w1 H. destruct (rd_run M C repr conn target line w r t w1 H) as [(Q & (I1 & I2 & I3) & P & E) | (cmd & args & t0 & w0 & use & Ty & Ec & H2)].
  - split; [lia|]. intros _. auto.
  - split; [|congruence]. destruct (connection_run M C conn target w use t0 w0 Ec) as (_ & P & _). destruct use as [p|].
    + destruct H2 as (out & -> & _). rewrite probes_app. change (probes (Sent cmd args :: map Printed out)) with (probes (map Printed out)). rewrite (never_probes (map Printed out)) by (apply prints_only_never; [apply prints_map | noP]). lia.
    + destruct H2 as (-> & _). rewrite probes_app. change (probes [Printed (st "Failed to connect to Rudy server")]) with O. lia.
Qed.
Print Assumptions looking_only.
(** Blank lines show the usage; status says whether the server answers. *)
Theorem status_reported : forall W (M : machine W) C repr conn target line w r t w1 word args, commanded M C repr conn target line w r t w1 -> py_split line = word :: args -> word = st "s" \/ word = st "status" ->
  (fst (m_probe M w) = Up -> shown t = [st "Rudy server is running on " ++ host C ++ st ":" ++ dec (port C)]) /\
  (fst (m_probe M w) <> Up -> exists before, shown t = before ++ [st "Rudy server is not running"]).
Proof.
  intros W M C repr conn target line w r t w1 word args H Sp Wd. unfold commanded, rd in H. rewrite Sp in H. assert (Q : str_eqb (shortcode word) (st "status") = true) by (destruct Wd as [-> | ->]; reflexivity). cbv zeta in H. rewrite Q in H.
  unfold server_running, jbind, jprint, jret in H. destruct (m_probe M w) as [[| |e] w0]; cbn [fst].
  - inj H. split; [intros _; reflexivity | congruence].
  - inj H. split; [discriminate|]. intros _. exists []. reflexivity.
  - inj H. split; [discriminate|]. intros _. eexists [_]. reflexivity.
Qed.
Print Assumptions status_reported.

(** ** Several commands *)
Fixpoint rds {W} (M : machine W) C repr (conn : option str) (lines : list (option (option (str * str)) * str)) (w : W) : option str * list act * W :=
  match lines with
  | [] => (conn, [], w)
  | (target, line) :: rest => let '(c1, t, w1) := rd M C repr conn target line w in let '(c2, u, w2) := rds M C repr c1 rest w1 in (c2, t ++ u, w2)
  end.
Lemma connection_stays {W} (M : machine W) C repr lines : forall q w r t w1, rds M C repr (Some q) lines w = (r, t, w1) -> r = Some q /\ never connecting t /\ never spawn t.
Proof.
  induction lines as [|[target line] rest IH]; intros q w r t w1 E; cbn [rds] in E.
  - injection E as <- <- <-. repeat apply conj; try apply never_nil. reflexivity.
  - destruct (rd M C repr (Some q) target line w) as [[c1 t1] w2] eqn:E1. destruct (rds M C repr c1 rest w2) as [[c2 t2] w3] eqn:E2. inj E.
    assert (Q : c1 = Some q /\ never connecting t1 /\ never spawn t1).
    { destruct (commanded_split M C repr (Some q) target line w c1 t1 w2 E1) as [[(I1 & I2 & _) Ic] | (use & t0 & w0 & u & Ec & -> & U1 & _ & U3 & R)]; [auto|].
      destruct (connection_run M C (Some q) target w use t0 w0 Ec) as (_ & _ & K1 & _ & K3 & K). split; [|split; apply never_app; auto]. destruct R as [(_ & R & _) | (p & -> & ->)]; [exact R|]. destruct K as [K | K]; [exact K | discriminate K]. }
    destruct Q as (-> & Q1 & Q2). destruct (IH _ _ _ _ _ E2) as (-> & Q3 & Q4). split; [reflexivity|]. split; apply never_app; auto.
Qed.
(** Once connected, rd keeps to its connection: in a whole session no second connection is made and no server started. *)
Theorem one_connection : forall W (M : machine W) C repr conn lines w r t w1 a p b, rds M C repr conn lines w = (r, t, w1) -> t = a ++ Connected p true :: b ->
  r = Some p /\ never connecting b /\ never spawn b.
Proof.
  intros W M C repr conn lines. revert conn. induction lines as [|[target line] rest IH]; intros conn w r t w1 a p b E Ht; cbn [rds] in E.
  - injection E as <- <- <-. destruct a; discriminate Ht.
  - destruct (rd M C repr conn target line w) as [[c1 t1] w2] eqn:E1. destruct (rds M C repr c1 rest w2) as [[c2 t2] w3] eqn:E2. apply triple_eq in E. destruct E as (<- & Et & <-).
    assert (D : (exists b1, t1 = a ++ Connected p true :: b1 /\ b = b1 ++ t2) \/ exists a2, a = t1 ++ a2 /\ t2 = a2 ++ Connected p true :: b).
    { subst t. clear - Ht. revert a Ht. induction t1 as [|x t1 IH]; intros a Ht; [right; exists a; auto|]. destruct a as [|y a]; cbn in Ht.
      - injection Ht as -> <-. left. exists t1. auto.
      - injection Ht as -> Ht. destruct (IH a Ht) as [(b1 & -> & ->) | (a2 & -> & ->)]; [left; exists b1; auto | right; exists a2; auto]. }
    destruct D as [(b1 & D1 & ->) | (a2 & -> & D2)]; [|eapply IH; eassumption].
    destruct (connected_to_answering_server W M C repr conn target line w c1 t1 w2 a p true b1 E1 D1) as (-> & _ & _ & Nb & _).
    assert (Q : c1 = Some p /\ never spawn b1).
    { destruct (commanded_split M C repr None target line w c1 t1 w2 E1) as [[(_ & I2 & _) _] | (use & t0 & w0 & u & Ec & Eu & U1 & _ & U3 & R)].
      - exfalso. apply (I2 (Connected p true)); [rewrite D1; apply in_or_app; right; left; reflexivity | eexists _, _; reflexivity].
      - destruct (connection_run M C None target w use t0 w0 Ec) as (_ & _ & _ & K). destruct K as [[K _] | (dir & file & a0 & ok & _ & -> & Na & _ & Eo)].
        + exfalso. assert (N : never connecting t1) by (rewrite Eu; apply never_app; auto). apply (N (Connected p true)); [rewrite D1; apply in_or_app; right; left; reflexivity | eexists _, _; reflexivity].
        + destruct (connected_to_answering_server W M C repr None target line w c1 t1 w2 a p true b1 E1 D1) as (_ & _ & Na2 & _). rewrite Eu, <- app_assoc in D1. cbn [app] in D1.
          destruct (first_unique connecting a0 a u b1 (Connected (dir ++ st "/" ++ file) ok) (Connected p true) D1) as (_ & Ep & <-); [eexists _, _; reflexivity | eexists _, _; reflexivity | exact Na | exact Na2|].
          injection Ep as <- ->. subst use. destruct R as [(_ & _ & R) | (p' & -> & R)]; [discriminate R|]. split; [symmetry; exact R | exact U1]. }
    destruct Q as (-> & Nsp). destruct (connection_stays M C repr rest p w2 _ _ _ E2) as (-> & N1 & N2). split; [reflexivity|]. split; apply never_app; auto.
Qed.
Print Assumptions one_connection.

(** ** What does not hold: a server that has ended is not started again *)
(** A machine where nothing answers and nothing can be sent. *)
Definition dead : machine unit :=
  Machine unit (fun w => (Down, w)) (fun _ => true) (fun _ w => (None, w)) (fun w => (None, w)) (fun w => (None, w)) (fun w => w) (fun _ w => (false, w))
          (fun _ _ _ w => (Err "Server closed connection", w)).
Definition settings : config := Config (st "127.0.0.1") 5737 None.
Theorem server_restarted_refuted : forall p dir file, exists t, commanded dead settings (fun _ => []) (Some p) (Some (Some (dir, file))) (st "p x") tt (Some p) t tt /\
  fst (m_probe dead tt) = Down /\ switched_on (autostart settings) /\ never spawn t /\ shown t = [st "Command failed: Server closed connection"].
Proof.
  intros p dir file. exists [Sent (st "print") [st "x"]; Printed (st "Command failed: Server closed connection")]. split; [vm_compute; reflexivity|]. split; [reflexivity|]. split; [left; reflexivity|].
  split; [repeat (apply never_cons; split; [no|]); apply never_nil | reflexivity].
Qed.
Print Assumptions server_restarted_refuted.

(** ** Machines that meet the hypotheses *)
(** The server comes up after being started; [w] counts what was done to the machine, [k]: when it answers. *)
Definition slow (k : nat) : machine (option nat) :=
  Machine (option nat)
    (fun w => match w with Some n => (if (k <=? n)%nat then Up else Down, Some (S n)) | None => (Down, None) end)
    (fun s => str_eqb s (st "cargo")) (fun _ _ => (None, Some O)) (fun w => (None, w)) (fun w => (None, w)) (fun _ => None)
    (fun _ w => (match w with Some _ => true | None => false end, w)) (fun _ _ _ w => (Ok (JObj [(st "type", JStr (st "Complete")); (st "result", JStr (st "7"))]), w)).
Definition target0 : option (option (str * str)) := Some (Some (st "/tmp", st "prog")).
Example started_and_connected : exists t w, commanded (slow 2) settings (fun _ => []) None target0 (st "p x") None (Some (st "/tmp/prog")) t w /\ In (Connected (st "/tmp/prog") true) t /\ In (Sent (st "print") [st "x"]) t /\
  probes t = 5%nat /\ In (Spawned (map st ["cargo"; "run"; "-p"; "rudy-lldb"; "--bin"; "rudy-lldb-server"; "--"; "start"; "--port"; "5737"; "--host"; "127.0.0.1"]%string)) t /\
  exists before, shown t = before ++ [st "7"].
Proof.
  destruct (rd (slow 2) settings (fun _ => []) None target0 (st "p x") None) as [[r t] w] eqn:E. exists t, w. vm_compute in E. injection E as <- <- <-.
  split; [vm_compute; reflexivity|]. split; [vm_compute; tauto|]. split; [vm_compute; tauto|]. split; [reflexivity|]. split; [vm_compute; tauto|]. eexists [_; _; _; _]. reflexivity.
Qed.
(** It never comes up: killed after twelve looks, and said so. *)
Example killed : exists t w, commanded (slow 100) settings (fun _ => []) None target0 (st "p x") None None t w /\ In Killed t /\ probes t = 12%nat /\ never connecting t.
Proof.
  destruct (rd (slow 100) settings (fun _ => []) None target0 (st "p x") None) as [[r t] w] eqn:E. exists t, w. vm_compute in E. injection E as <- <- <-.
  split; [vm_compute; reflexivity|]. split; [vm_compute; tauto|]. split; [reflexivity|]. repeat (apply never_cons; split; [no|]). apply never_nil.
Qed.
