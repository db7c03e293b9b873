(** C118: `rudy-lldb stop`, and the server it is for, in every schedule. *)
From Coq Require Import Ascii String List ZArith NArith Lia Bool Arith.
From Verif Require Import Base NumText Utf8 ProcModel ExprModel ExprLexProofs EvalModel ServerModel WireModel ServeModel ServeProps.
Import ListNotations.
Open Scope Z_scope.

(** ** The message *)
Theorem stop_message : lines_of stop_bytes = [Msg (Command (st "shutdown") [])].
Proof. vm_compute. reflexivity. Qed.
Print Assumptions stop_message.

(** ** Where it is sent *)
(** An IPv4 address as people write it. *)
Definition dotted (a b c d : Z) : str := dec a ++ st "." ++ dec b ++ st "." ++ dec c ++ st "." ++ dec d.
Definition octets : list Z := map Z.of_nat (seq 0 256).
Lemma octets_all n : 0 <= n < 256 -> In n octets.
Proof. intros H. unfold octets. apply in_map_iff. exists (Z.to_nat n). split; [lia|]. apply in_seq. lia. Qed.
(** Up to three digits without superfluous zeros are the decimal writing of a number, and no other text is. *)
Definition d3 : list char := map N.of_nat (seq 48 10).
Definition plain3 : list str := [[48%N]] ++ flat_map (fun a => if (a =? 48)%N then [] else [[a]] ++ flat_map (fun b => [[a; b]] ++ map (fun c => [a; b; c]) d3) d3) d3.
Lemma d3_all c : is_digit c = true -> In c d3.
Proof.
  unfold is_digit. intros H. apply andb_true_iff in H. destruct H as [A B]. apply N.leb_le in A. apply N.leb_le in B.
  unfold d3. apply in_map_iff. exists (N.to_nat c). split; [apply N2Nat.id|]. apply in_seq. lia.
Qed.
Lemma plain3_dec : forallb (fun ds => str_eqb (dec (digits_value 10 ds)) ds) plain3 = true.
Proof. vm_compute. reflexivity. Qed.
Lemma plain3_all ds : forallb is_digit ds = true -> ds <> [] -> (List.length ds <= 3)%nat -> ((1 < List.length ds)%nat -> hd 0%N ds <> 48%N) -> In ds plain3.
Proof.
  intros D N L Z. unfold plain3. destruct ds as [|a [|b [|c [|e r]]]]; cbn [List.length forallb hd] in *; try lia; try contradiction.
  - destruct (N.eqb_spec a 48) as [-> | A]; [left; reflexivity|]. right. apply in_flat_map. exists a. apply andb_true_iff in D. split; [apply d3_all; tauto|].
    destruct (N.eqb_spec a 48); [contradiction|]. left. reflexivity.
  - assert (A : a <> 48%N) by (apply Z; lia). right. apply in_flat_map. exists a. rewrite !andb_true_iff in D. split; [apply d3_all; tauto|].
    destruct (N.eqb_spec a 48); [contradiction|]. right. apply in_flat_map. exists b. split; [apply d3_all; tauto | left; reflexivity].
  - assert (A : a <> 48%N) by (apply Z; lia). right. apply in_flat_map. exists a. rewrite !andb_true_iff in D. split; [apply d3_all; tauto|].
    destruct (N.eqb_spec a 48); [contradiction|]. right. apply in_flat_map. exists b. split; [apply d3_all; tauto|]. right. apply in_map_iff. exists c. split; [reflexivity | apply d3_all; tauto].
Qed.
Lemma dec_digits n : 0 <= n -> forallb is_digit (dec n) = true.
Proof. intros H. unfold dec. destruct (Z.ltb_spec n 0); [lia|]. now apply dec_nat_digits. Qed.
Lemma dec_value n : 0 <= n -> digits_value 10 (dec n) = n.
Proof. intros H. unfold dec. destruct (Z.ltb_spec n 0); [lia|]. now apply dec_nat_value. Qed.
Lemma dec_nonempty n : 0 <= n -> dec n <> [].
Proof. intros H. unfold dec. destruct (Z.ltb_spec n 0); [lia|]. apply dec_nat_nonempty. Qed.
Definition stops (r : str) : Prop := match r with c :: _ => is_digit c = false | [] => True end.
Lemma octet_reads n r : 0 <= n < 256 -> stops r -> octet (dec n ++ r) = Some (n, r).
Proof.
  intros H S. unfold octet, read_number. rewrite (span_exact is_digit (dec n) r (dec_digits n (proj1 H)) S).
  assert (F : forallb (fun n => negb (List.length (dec n) =? 0)%nat && negb (3 <? List.length (dec n))%nat && negb ((1 <? List.length (dec n))%nat && match dec n with c :: _ => (c =? 48)%N | [] => false end)) octets = true) by (vm_compute; reflexivity).
  rewrite forallb_forall in F. specialize (F n (octets_all n H)). rewrite !andb_true_iff, !negb_true_iff in F. destruct F as [[A B] C]. rewrite A, B. cbn [negb andb]. rewrite C.
  cbv zeta. rewrite (dec_value n (proj1 H)). destruct (Z.leb_spec n 255); [reflexivity | lia].
Qed.
Lemma read_number_inv max k z s v r : read_number max k z s = Some (v, r) -> exists ds, s = ds ++ r /\ forallb is_digit ds = true /\ ds <> [] /\ v = digits_value 10 ds /\ v <= max /\ stops r /\
  (forall n, k = Some n -> (List.length ds <= n)%nat) /\ (z = false -> (1 < List.length ds)%nat -> hd 0%N ds <> 48%N).
Proof.
  unfold read_number. destruct (span is_digit s) as [ds rest] eqn:E. intros H. exists ds.
  pose proof (span_app is_digit s) as P1. pose proof (span_all is_digit s) as P2. pose proof (span_stop is_digit s) as P3. rewrite E in *. cbn [fst snd] in *.
  destruct (Nat.eqb_spec (List.length ds) 0) as [|N]; [discriminate|].
  destruct (match k with Some k => (k <? List.length ds)%nat | None => false end) eqn:K; [discriminate|].
  destruct (negb z && (1 <? List.length ds)%nat && match ds with c :: _ => (c =? 48)%N | [] => false end) eqn:Z0; [discriminate|]. cbv zeta in H.
  destruct (Z.leb_spec (digits_value 10 ds) max) as [M|M]; [|discriminate]. injection H as <- <-.
  split; [now rewrite P1|]. split; [exact P2|]. split; [intros ->; apply N; reflexivity|]. split; [reflexivity|]. split; [exact M|]. split; [exact P3|]. split.
  - intros n ->. apply Nat.ltb_ge in K. exact K.
  - intros -> L. cbn [negb] in Z0. apply Nat.ltb_lt in L. rewrite L in Z0. cbn [andb] in Z0. destruct ds as [|c ds]; [contradiction N; reflexivity|]. cbn [hd]. now apply N.eqb_neq.
Qed.
Lemma octet_inv s v r : octet s = Some (v, r) -> s = dec v ++ r /\ 0 <= v < 256.
Proof.
  intros H. apply read_number_inv in H. destruct H as (ds & -> & D & N & -> & M & _ & L & Z). 
  assert (I : In ds plain3) by (apply plain3_all; auto). pose proof plain3_dec as P. rewrite forallb_forall in P. specialize (P ds I). apply str_eqb_eq in P. split; [now rewrite P|].
  assert (G : forallb (fun ds => 0 <=? digits_value 10 ds) plain3 = true) by (vm_compute; reflexivity). rewrite forallb_forall in G. specialize (G ds I). apply Z.leb_le in G. lia.
Qed.
Lemma read_char_inv c s r : read_char c s = Some r -> s = c :: r.
Proof. destruct s as [|d s]; [discriminate|]. cbn. destruct (N.eqb_spec d c) as [->|]; [congruence | discriminate]. Qed.
Lemma then_octet_inv l s l' r : then_octet (l, s) = Some (l', r) -> exists v, l' = l ++ [v] /\ s = ch "." :: dec v ++ r /\ 0 <= v < 256.
Proof.
  unfold then_octet. cbn [fst snd]. destruct (read_char (ch ".") s) as [t|] eqn:E; [|discriminate]. apply read_char_inv in E. destruct (octet t) as [[v r0]|] eqn:O; [|discriminate].
  intros H. injection H as <- <-. apply octet_inv in O. destruct O as [-> V]. exists v. auto.
Qed.
Lemma then_octet_reads l v r : 0 <= v < 256 -> stops r -> then_octet (l, ch "." :: dec v ++ r) = Some (l ++ [v], r).
Proof. intros V S. unfold then_octet. cbn [fst snd]. unfold read_char. rewrite N.eqb_refl. now rewrite (octet_reads v r V S). Qed.
(** Every address of four numbers is understood: the message goes there. *)
Lemma dotted_read a b c d p : 0 <= a < 256 -> 0 <= b < 256 -> 0 <= c < 256 -> 0 <= d < 256 -> 0 <= p < 65536 -> ipv4_socket (dotted a b c d ++ st ":" ++ dec p) = Some ([a; b; c; d], p).
Proof.
  intros A B C D P. unfold dotted, ipv4_socket. change (st ".") with [ch "."]. change (st ":") with [ch ":"]. rewrite <- !app_assoc. cbn [app].
  rewrite octet_reads by (exact A || reflexivity). cbn [obind fst snd].
  rewrite then_octet_reads by (exact B || reflexivity). cbn [obind fst snd app].
  rewrite then_octet_reads by (exact C || reflexivity). cbn [obind fst snd app].
  rewrite then_octet_reads by (exact D || reflexivity). cbn [obind fst snd app].
  unfold read_char. rewrite N.eqb_refl. cbn [obind]. unfold read_number.
  pose proof (span_exact is_digit (dec p) [] (dec_digits p (proj1 P)) I) as E. rewrite app_nil_r in E. rewrite E.
  pose proof (dec_nonempty p (proj1 P)) as N. destruct (Nat.eqb_spec (List.length (dec p)) 0) as [Z|_]; [destruct (dec p); [contradiction N; reflexivity | discriminate Z]|].
  cbn [negb andb]. cbv zeta. rewrite (dec_value p (proj1 P)). destruct (Z.leb_spec p 65535); [reflexivity | lia].
Qed.
Lemma last_colon (x y : str) : forall (h k : str), h ++ ch ":" :: x = k ++ ch ":" :: y -> forallb is_digit x = true -> forallb is_digit y = true -> h = k /\ x = y.
Proof.
  induction h as [|c h IH]; intros [|e k] E X Y; cbn [app] in E.
  - injection E as ->. auto.
  - injection E as <- ->. rewrite forallb_app in X. cbn [forallb] in X. change (is_digit (ch ":")) with false in X. rewrite andb_false_r in X. discriminate X.
  - injection E as -> E. rewrite <- E in Y. rewrite forallb_app in Y. cbn [forallb] in Y. change (is_digit (ch ":")) with false in Y. rewrite andb_false_r in Y. discriminate Y.
  - injection E as <- E. destruct (IH k E X Y) as [-> ->]. auto.
Qed.
(** And nothing else. *)
Lemma dotted_only host p l q : 0 <= p -> ipv4_socket (host ++ st ":" ++ dec p) = Some (l, q) -> exists a b c d, host = dotted a b c d /\ l = [a; b; c; d] /\ q = p /\ 0 <= a < 256 /\ 0 <= b < 256 /\ 0 <= c < 256 /\ 0 <= d < 256.
Proof.
  intros P H. unfold ipv4_socket in H. destruct (octet _) as [[a r1]|] eqn:O; [|discriminate]. apply octet_inv in O. destruct O as [E0 A]. cbn [obind fst snd] in H.
  destruct (then_octet ([a], r1)) as [[l1 r2]|] eqn:O; [|discriminate]. apply then_octet_inv in O. destruct O as (b & -> & -> & B). cbn [obind fst snd] in H.
  destruct (then_octet (_, r2)) as [[l1 r3]|] eqn:O; [|discriminate]. apply then_octet_inv in O. destruct O as (c & -> & -> & C). cbn [obind fst snd] in H.
  destruct (then_octet (_, r3)) as [[l1 r4]|] eqn:O; [|discriminate]. apply then_octet_inv in O. destruct O as (d & -> & -> & D). cbn [obind fst snd] in H.
  destruct (read_char (ch ":") r4) as [r5|] eqn:O; [|discriminate]. apply read_char_inv in O. subst r4. cbn [obind] in H.
  destruct (read_number 65535 None true r5) as [[v r6]|] eqn:O; [|discriminate]. cbn [obind fst snd] in H. destruct r6; [|discriminate]. injection H as <- <-.
  apply read_number_inv in O. destruct O as (ds & -> & G & _ & -> & _). rewrite app_nil_r in E0.
  exists a, b, c, d. assert (Q : host = dotted a b c d /\ dec p = ds).
  { apply last_colon; [|apply dec_digits; exact P | exact G]. change (st ":") with [ch ":"] in E0. cbn [app] in E0. rewrite E0. unfold dotted. change (st ".") with [ch "."]. repeat (rewrite <- !app_assoc; cbn [app]). reflexivity. }
  destruct Q as [-> <-]. rewrite (dec_value p P). cbn [app]. repeat apply conj; auto; tauto.
Qed.

(** ** Specification: what stop does, and to whom *)
Theorem stop_reaches_partial : forall v6 connects a b c d p, 0 <= a < 256 -> 0 <= b < 256 -> 0 <= c < 256 -> 0 <= d < 256 -> 0 <= p < 65536 ->
  connects ([a; b; c; d], p) = true -> stop_server v6 connects true (dotted a b c d) p = (Ok tt, Some stop_bytes).
Proof. intros v6 connects a b c d p A B C D P H. unfold stop_server, socket_addr. rewrite dotted_read by assumption. now rewrite H. Qed.
Print Assumptions stop_reaches_partial.
(** What is sent is sent to the address that was given: to no other, and not without a connection. *)
Theorem stop_only_there : forall v6 connects writes host p o bs, 0 <= p -> stop_server v6 connects writes host p = (o, Some bs) ->
  bs = stop_bytes /\ o = Ok tt /\ writes = true /\
  ((exists a b c d, host = dotted a b c d /\ connects ([a; b; c; d], p) = true) \/ exists r x, host = ch "[" :: r /\ v6 (host ++ st ":" ++ dec p) = Some x /\ connects x = true).
Proof.
  intros v6 connects writes host p o bs P H. unfold stop_server in H. destruct (socket_addr v6 _) as [x|] eqn:E; [|discriminate H].
  destruct (connects x) eqn:C; [|discriminate H]. destruct writes; [|discriminate H]. injection H as <- <-. repeat apply conj; try reflexivity.
  unfold socket_addr in E. destruct (ipv4_socket _) as [[l q]|] eqn:I4.
  - injection E as <-. apply dotted_only in I4; [|exact P]. destruct I4 as (a & b & c & d & -> & -> & -> & _). left. exists a, b, c, d. auto.
  - right. destruct host as [|h host]; [discriminate E|]. cbn [app] in E. destruct (N.eqb_spec h (ch "[")) as [-> | _]; [|discriminate E]. exists host, x. auto.
Qed.
Print Assumptions stop_only_there.
(** Success is reported only when the whole message was written to a connection; without one, or when it cannot be
    written, an error is. *)
Theorem stop_success_sent : forall v6 connects writes host p o, stop_server v6 connects writes host p = (Ok tt, o) -> o = Some stop_bytes /\ writes = true /\ exists x, connects x = true.
Proof.
  intros v6 connects writes host p o H. unfold stop_server in H. destruct (socket_addr v6 _) as [x|]; [|discriminate H].
  destruct (connects x) eqn:C; [|discriminate H]. destruct writes; [|discriminate H]. injection H as <-. repeat apply conj; try reflexivity. now exists x.
Qed.
Print Assumptions stop_success_sent.
Theorem stop_unsent_reported : forall v6 connects writes host p r, stop_server v6 connects writes host p = (r, None) -> exists e, r = Err e.
Proof.
  intros v6 connects writes host p r H. unfold stop_server in H. destruct (socket_addr v6 _) as [x|]; [|injection H as <-; eauto].
  destruct (connects x); [|injection H as <-; eauto]. destruct writes; [discriminate H | injection H as <-; eauto].
Qed.
Print Assumptions stop_unsent_reported.
(** The defect: a host name (start takes them: TcpListener::bind resolves its address) is never accepted, whatever is
    listening. *)
Theorem host_names_refused : forall v6 connects writes host p, 0 <= p -> (forall a b c d, host <> dotted a b c d) -> hd 0%N host <> ch "[" ->
  stop_server v6 connects writes host p = (Err "invalid socket address syntax", None).
Proof.
  intros v6 connects writes host p P N B. unfold stop_server, socket_addr. destruct (ipv4_socket _) as [[l q]|] eqn:E.
  - apply dotted_only in E; [|exact P]. destruct E as (a & b & c & d & Q & _). destruct (N _ _ _ _ Q).
  - destruct host as [|h host]; [reflexivity|]. cbn [app hd] in *. destruct (N.eqb_spec h (ch "[")); [contradiction | reflexivity].
Qed.
Print Assumptions host_names_refused.
Theorem stop_by_name_refuted : ~ (forall v6 connects host, (exists x, connects x = true) -> fst (stop_server v6 connects true host 5737) = Ok tt).
Proof.
  intros H. specialize (H (fun _ => None) (fun _ => true) (st "localhost") (ex_intro _ ([], 0) eq_refl)). vm_compute in H. discriminate H.
Qed.
Print Assumptions stop_by_name_refuted.

(** ** The server that gets the message *)
Lemma fresh_thread s up : nth_error (sv_threads s ++ [Thread Starting up []]) (List.length (sv_threads s)) = Some (Thread Starting up []).
Proof. rewrite nth_error_app2, Nat.sub_diag by lia. reflexivity. Qed.
(** C118. Whatever has happened before, and whatever the other connections do between the connection being made and the
    message arriving: the server stops, and nothing later starts it again or is answered. *)
Theorem stop_stops : forall e1 up e2 load args after, let i := connections e1 in
  ran_through (e1 ++ Connects (true :: up) :: e2) -> inputs i e2 = [] -> sv_running (run (e1 ++ Connects (true :: up) :: e2)) = true ->
  let s := run (e1 ++ Connects (true :: up) :: e2 ++ Arrives i load (Msg (Command (st "shutdown") args)) :: after) in
  sv_running s = false /\ exists t, nth_error (sv_threads s) i = Some t /\ th_phase t = Done Exited /\ th_log t = [Got (Msg (Command (st "shutdown") args)); Sent (Complete PShutdown)].
Proof.
  intros e1 up e2 load args after i R N S. cbv zeta. pose proof (connections_isolated e1 (true :: up) e2 R) as T. fold i in T. rewrite N in T. cbn [alone fold_left] in T.
  replace (e1 ++ Connects (true :: up) :: e2 ++ Arrives i load (Msg (Command (st "shutdown") args)) :: after) with (((e1 ++ Connects (true :: up) :: e2) ++ [Arrives i load (Msg (Command (st "shutdown") args))]) ++ after) by (rewrite <- !app_assoc; reflexivity).
  set (before := e1 ++ Connects (true :: up) :: e2) in *.
  assert (Q : run (before ++ [Arrives i load (Msg (Command (st "shutdown") args))]) = Server (set_nth i (Thread (Done Exited) up [Got (Msg (Command (st "shutdown") args)); Sent (Complete PShutdown)]) (sv_threads (run before))) false).
  { rewrite run_app. cbn [fold_left]. unfold step. rewrite S. unfold feed. rewrite T. reflexivity. }
  rewrite stopped_server_is_silent by (rewrite Q; reflexivity). rewrite Q. cbn [sv_running sv_threads]. split; [reflexivity|].
  eexists. split; [exact (set_nth_same _ _ _ _ T)|]. split; reflexivity.
Qed.
Print Assumptions stop_stops.
(** The same by a client with a session open (the LLDB command [rd shutdown] is sent on it), when no command of its own is
    being handled. *)
Theorem shutdown_in_session : forall evs i D up log load args after, sv_running (run evs) = true -> nth_error (sv_threads (run evs)) i = Some (Thread (Ready D) (true :: up) log) ->
  sv_running (run (evs ++ Arrives i load (Msg (Command (st "shutdown") args)) :: after)) = false.
Proof.
  intros evs i D up log load args after R T. change (Arrives i load (Msg (Command (st "shutdown") args)) :: after) with ([Arrives i load (Msg (Command (st "shutdown") args))] ++ after). rewrite app_assoc.
  assert (Q : sv_running (run (evs ++ [Arrives i load (Msg (Command (st "shutdown") args))])) = false).
  { rewrite run_app. cbn [fold_left]. unfold step. rewrite R. unfold feed. rewrite T. reflexivity. }
  rewrite stopped_server_is_silent; exact Q.
Qed.
Print Assumptions shutdown_in_session.
(** The defect: stop has returned success; the server, unable to send its answer (stop closes its side at once), goes on. *)
Theorem stop_effective_refuted : ~ (forall up connects, connects ([127; 0; 0; 1], 5737) = true -> fst (stop_server (fun _ => None) connects true (st "127.0.0.1") 5737) = Ok tt /\
  forall load, sv_running (run (Connects up :: map (Arrives 0 load) (lines_of stop_bytes))) = false).
Proof. intros H. destruct (H [false] (fun _ => true) eq_refl) as [_ G]. specialize (G (fun _ => Err "none")). rewrite stop_message in G. vm_compute in G. discriminate G. Qed.
Print Assumptions stop_effective_refuted.
(** Exactly then: the server stops if and only if its answer can be written. *)
Theorem stop_exactly : forall e1 up load args, sv_running (run (e1 ++ [Connects up])) = true ->
  sv_running (run (e1 ++ [Connects up; Arrives (connections e1) load (Msg (Command (st "shutdown") args))])) = negb (hd false up).
Proof.
  intros e1 up load args R. pose proof (running_ran _ R) as G. pose proof (connections_isolated e1 up [] G) as T.
  change [Connects up; Arrives (connections e1) load (Msg (Command (st "shutdown") args))] with ([Connects up] ++ [Arrives (connections e1) load (Msg (Command (st "shutdown") args))]). rewrite app_assoc, run_app. cbn [fold_left]. unfold step. rewrite R. unfold feed. rewrite T.
  cbn [sv_running]. destruct up as [|[] u]; reflexivity.
Qed.
Print Assumptions stop_exactly.
