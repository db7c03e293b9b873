(** The invariant of the shared database. *)
From Coq Require Import Ascii String List ZArith NArith Lia Bool Arith.
From Verif Require Import Base OMap Utf8 SymModel PathModel LinesModel DieModel LocModel SourceModel LoadModel BinaryModel CacheModel CacheSpec.
Import ListNotations.
Open Scope nat_scope.

Lemma lookup_cons {A} i j (a : A) l : lookup i ((j, a) :: l) = if Nat.eqb j i then Some a else lookup i l.
Proof. unfold lookup. cbn. now destruct (Nat.eqb j i). Qed.
Lemma nth_error_snoc {A} (l : list A) a i x : nth_error (l ++ [a]) i = Some x -> nth_error l i = Some x \/ (i = List.length l /\ x = a).
Proof.
  intros H. destruct (Nat.lt_ge_cases i (List.length l)) as [Hi | Hi].
  - left. now rewrite nth_error_app1 in H.
  - right. rewrite nth_error_app2 in H by exact Hi. destruct (i - List.length l) as [|k] eqn:E; cbn in H; [injection H as <-; split; [lia|reflexivity]|]. destruct k; discriminate H.
Qed.
Lemma nth_error_keep {A} (l l' : list A) i x : nth_error l i = Some x -> nth_error (l ++ l') i = Some x.
Proof. intros H. rewrite nth_error_app1; [exact H|]. apply nth_error_Some. now rewrite H. Qed.
Lemma nth_error_last {A} (l : list A) a : nth_error (l ++ [a]) (List.length l) = Some a.
Proof. rewrite nth_error_app2 by lia. now rewrite Nat.sub_diag. Qed.

Section Cache.
Variable smap : list (fpath * fpath).
Variable disk : nat -> fpath -> option stored.
Variable order : list nat -> list nat.
Variable X : externals.
Variables K V : Type.
Variable same_key : K -> K -> bool.
Variable body : K -> query K V.
Hypothesis keys : forall a b, same_key a b = true -> a = b.
Notation db := (db K V).
Notation means := (means K V body).

Definition extends (s S : db) : Prop :=
  now s <= now S /\
  (forall i x, nth_error (db_files s) i = Some x -> nth_error (db_files S) i = Some x) /\
  (forall i x, nth_error (db_debug s) i = Some x -> nth_error (db_debug S) i = Some x) /\
  (forall i x, nth_error (db_binaries s) i = Some x -> nth_error (db_binaries S) i = Some x) /\
  (forall i x, lookup i (db_loads s) = Some x -> lookup i (db_loads S) = Some x) /\
  (forall i x, lookup i (db_indexes s) = Some x -> lookup i (db_indexes S) = Some x).
Lemma extends_refl s : extends s s.
Proof. clear. unfold extends. intuition. Qed.
Lemma extends_trans a b c : extends a b -> extends b c -> extends a c.
Proof. clear. unfold extends. intros (A1 & A2 & A3 & A4 & A5 & A6) (B1 & B2 & B3 & B4 & B5 & B6). split; [lia|]. intuition. Qed.

Definition listed_in (s : db) (from : nat) (e : debug_file * nat) : Prop :=
  exists f i, nth_error (db_debug s) (snd e) = Some (f, db_reloc (fst e)) /\ nth_error (db_files s) f = Some i /\ in_file i = db_file (fst e) /\ from <= in_read i.
Definition described (s : db) (b : nat) (x : dindex) : Prop :=
  exists f0 i0, nth_error (db_binaries s) b = Some f0 /\ nth_error (db_files s) f0 = Some i0 /\
  let own := DebugFile 0 (in_file i0) false in
  exists t, in_read i0 <= t /\
  (((forall o, load smap (disk t) (in_file i0) <> Ok o) /\ x = DIndex empty_index [] []) \/
   exists o objs, load smap (disk t) (in_file i0) = Ok o /\ List.length objs = List.length (ob_objects o) /\
     (forall i y, nth_error (ob_objects o) i = Some y -> exists t', in_read i0 <= t' /\
        nth_error objs i = Some (option_map (fun f => DebugFile (object_id i) f true) (object_file smap (disk t') y))) /\
     ix_symbols x = index_symbol_map X (found_tables order objs o) /\
     map fst (ix_made x) = own :: somes objs /\
     ix_listed x = list_objects objs [((fst (in_file i0), None), own)] /\
     Forall (listed_in s (in_read i0)) (ix_made x)).
Definition agrees (s : db) (b : nat) (y : lay) (us : N -> list bunit) : Prop :=
  forall x, lookup b (db_indexes s) = Some x -> y = lay_of x /\
  forall i, match number_of x i with
            | None => us i = []
            | Some d => forall f rl r, nth_error (db_debug s) d = Some (f, rl) -> lookup f (db_loads s) = Some r -> us i = units_read r
            end.
Definition ok (s : db) : Prop :=
  (forall f r, lookup f (db_loads s) = Some r -> exists i t, nth_error (db_files s) f = Some i /\ in_read i <= t /\ r = load smap (disk t) (in_file i)) /\
  (forall b x, lookup b (db_indexes s) = Some x -> described s b x) /\
  (forall d f rl, nth_error (db_debug s) d = Some (f, rl) -> exists i, nth_error (db_files s) f = Some i) /\
  (forall b f, nth_error (db_binaries s) b = Some f -> exists i, nth_error (db_files s) f = Some i /\ snd (in_file i) = None) /\
  (forall f i, nth_error (db_files s) f = Some i -> in_read i < now s) /\
  (forall b key v, In (b, key, v) (db_memo s) -> forall y us, agrees s b y us -> means y us (body key) v).

Lemma listed_ext s S from e : extends s S -> listed_in s from e -> listed_in S from e.
Proof. intros (_ & A2 & A3 & _) (f & i & H1 & H2 & H3 & H4). exists f, i. auto. Qed.
Lemma described_ext s S b x : extends s S -> described s b x -> described S b x.
Proof.
  intros E (f0 & i0 & H1 & H2 & t & Ht & H). pose proof E as (_ & A2 & _ & A4 & _). exists f0, i0. split; [auto|]. split; [auto|]. exists t. split; [exact Ht|].
  destruct H as [H | (o & objs & L & N & Ho & Hs & Hm & Hl & Hf)]; [left; exact H | right]. exists o, objs. repeat (split; [assumption|]).
  revert Hf. apply Forall_impl. intros e. now apply listed_ext.
Qed.
Lemma agrees_ext s S b y us : extends s S -> agrees S b y us -> agrees s b y us.
Proof.
  intros (_ & _ & A3 & _ & A5 & A6) H x Hx. destruct (H x (A6 _ _ Hx)) as [Hy Hu]. split; [exact Hy|]. intros i. specialize (Hu i). destruct (number_of x i); [|exact Hu].
  intros f rl r Hd Hl. exact (Hu f rl r (A3 _ _ Hd) (A5 _ _ Hl)).
Qed.
Lemma memo_ext s S : extends s S -> ok s -> db_memo S = db_memo s -> forall b key v, In (b, key, v) (db_memo S) -> forall y us, agrees S b y us -> means y us (body key) v.
Proof. intros E (_ & _ & _ & _ & _ & M) -> b key v H y us A. exact (M b key v H y us (agrees_ext s S b y us E A)). Qed.

Lemma tick_ok s : ok s -> let S := Db (Datatypes.S (now s)) (db_files s) (db_debug s) (db_binaries s) (db_loads s) (db_indexes s) (db_memo s) in ok S /\ extends s S.
Proof.
  intros H S. assert (E : extends s S) by (unfold extends, S; cbn; intuition lia). split; [|exact E]. pose proof H as (K1 & K2 & K3 & K4 & K5 & K6).
  split; [exact K1|]. split; [intros b x Hx; apply (described_ext s S b x E), K2, Hx|]. split; [exact K3|]. split; [exact K4|].
  split; [intros f i Hf; specialize (K5 f i Hf); unfold S; cbn; lia|]. exact (memo_ext s S E H eq_refl).
Qed.
Lemma new_file_ok s i : ok s -> in_read i = now s ->
  let S := Db (Datatypes.S (now s)) (db_files s ++ [i]) (db_debug s) (db_binaries s) (db_loads s) (db_indexes s) (db_memo s) in ok S /\ extends s S.
Proof.
  intros H Hi S. assert (E : extends s S) by (unfold extends, S; cbn; intuition (try lia); now apply nth_error_keep). split; [|exact E]. pose proof H as (K1 & K2 & K3 & K4 & K5 & K6).
  pose proof E as (_ & A2 & _).
  split; [intros f r Hf; destruct (K1 f r Hf) as (j & t & Hj & Ht & Hr); exists j, t; auto|].
  split; [intros b x Hx; apply (described_ext s S b x E), K2, Hx|].
  split; [intros d f rl Hd; destruct (K3 d f rl Hd) as (j & Hj); exists j; auto|].
  split; [intros b f Hb; destruct (K4 b f Hb) as (j & Hj & Hn); exists j; auto|].
  split; [|exact (memo_ext s S E H eq_refl)].
  intros f j Hf. unfold S in *. cbn in *. apply nth_error_snoc in Hf. destruct Hf as [Hf | [_ ->]]; [specialize (K5 f j Hf); lia | lia].
Qed.
Lemma build_ok p m s r s1 : op_build smap disk K V p m s = (r, s1) -> ok s -> ok s1 /\ extends s s1 /\
  match r with
  | Some f => nth_error (db_files s1) f = Some (Input (remap_path smap p, m) (now s)) /\ build smap (disk (now s)) p m = Some (remap_path smap p, m)
  | None => build smap (disk (now s)) p m = None
  end.
Proof.
  unfold op_build, build. intros E H. destruct (disk (now s) (remap_path smap p)) as [x|] eqn:D; injection E as <- <-.
  - destruct (new_file_ok s (Input (remap_path smap p, m) (now s)) H eq_refl) as [H1 H2]. split; [exact H1|]. split; [exact H2|]. split; [|reflexivity]. apply nth_error_last.
  - destruct (tick_ok s H) as [H1 H2]. auto.
Qed.
Lemma debug_file_ok f rl s d s1 : op_debug_file K V f rl s = (d, s1) -> ok s -> (exists i, nth_error (db_files s) f = Some i) -> ok s1 /\ extends s s1 /\ nth_error (db_debug s1) d = Some (f, rl) /\ db_files s1 = db_files s.
Proof.
  unfold op_debug_file. intros E H Hf. injection E as <- <-. set (S := Db _ _ _ _ _ _ _). assert (E : extends s S) by (unfold extends, S; cbn; intuition (try lia); now apply nth_error_keep).
  pose proof H as (K1 & K2 & K3 & K4 & K5 & K6). pose proof E as (_ & _ & A3 & _). split; [|split; [exact E|split; [apply nth_error_last|reflexivity]]].
  split; [exact K1|]. split; [intros b x Hx; apply (described_ext s S b x E), K2, Hx|].
  split. { intros d f' rl' Hd. unfold S in Hd. cbn in Hd. apply nth_error_snoc in Hd. destruct Hd as [Hd | [_ Hd]]; [exact (K3 d f' rl' Hd)|]. injection Hd as -> ->. exact Hf. }
  split; [exact K4|]. split; [exact K5|]. exact (memo_ext s S E H eq_refl).
Qed.
Lemma load_ok f i s r s1 : op_load smap disk K V f s = (r, s1) -> ok s -> nth_error (db_files s) f = Some i -> ok s1 /\ extends s s1 /\ lookup f (db_loads s1) = Some r /\ (exists t, in_read i <= t /\ r = load smap (disk t) (in_file i)) /\ db_debug s1 = db_debug s /\ db_files s1 = db_files s.
Proof.
  unfold op_load. intros E H Hf. pose proof H as (K1 & K2 & K3 & K4 & K5 & K6). destruct (lookup f (db_loads s)) as [r0|] eqn:L.
  - injection E as <- <-. split; [exact H|]. split; [apply extends_refl|]. split; [exact L|]. split; [|auto]. destruct (K1 f r0 L) as (j & t & Hj & Ht & Hr). rewrite Hf in Hj. injection Hj as <-. exists t. auto.
  - rewrite Hf in E. injection E as <- <-. set (S := Db _ _ _ _ _ _ _).
    assert (E : extends s S).
    { unfold extends, S. cbn [now db_files db_debug db_binaries db_loads db_indexes]. repeat (split; [solve [lia | auto]|]). split; [|auto]. intros j x Hj. rewrite lookup_cons. destruct (Nat.eqb f j) eqn:Ej; [|exact Hj]. apply Nat.eqb_eq in Ej. subst j. congruence. }
    split; [|split; [exact E|split; [|split; [|auto]]]].
    + split. { intros j r' Hj. unfold S in Hj. cbn [db_loads] in Hj. rewrite lookup_cons in Hj. destruct (Nat.eqb f j) eqn:Ej; [|exact (K1 j r' Hj)]. apply Nat.eqb_eq in Ej. subst j. injection Hj as <-. exists i, (now s). split; [exact Hf|]. split; [|reflexivity]. specialize (K5 f i Hf). lia. }
      split; [intros b x Hx; apply (described_ext s S b x E), K2, Hx|]. split; [exact K3|]. split; [exact K4|]. split; [intros g j Hg; specialize (K5 g j Hg); unfold S; cbn; lia|]. exact (memo_ext s S E H eq_refl).
    + unfold S. cbn [db_loads]. rewrite lookup_cons, Nat.eqb_refl. reflexivity.
    + exists (now s). split; [|reflexivity]. specialize (K5 f i Hf). lia.
Qed.
Lemma object_file_ok y s r s1 : op_object_file smap disk K V y s = (r, s1) -> ok s -> ok s1 /\ extends s s1 /\
  match r with Some f => exists i, nth_error (db_files s1) f = Some i /\ in_read i = now s /\ object_file smap (disk (now s)) y = Some (in_file i) | None => object_file smap (disk (now s)) y = None end.
Proof.
  unfold op_object_file, object_file. intros E H. destruct (utf8_text (fst y)) as [p|]; [|injection E as <- <-; split; [exact H|split; [apply extends_refl|reflexivity]]].
  assert (B : forall m, op_build smap disk K V (components p) m s = (r, s1) -> ok s1 /\ extends s s1 /\
    match r with Some f => exists i, nth_error (db_files s1) f = Some i /\ in_read i = now s /\ build smap (disk (now s)) (components p) m = Some (in_file i) | None => build smap (disk (now s)) (components p) m = None end).
  { intros m Em. destruct (build_ok _ _ _ _ _ Em H) as (H1 & H2 & H3). split; [exact H1|]. split; [exact H2|]. destruct r as [f|]; [|exact H3]. destruct H3 as [H3 H4]. eexists. split; [exact H3|]. cbn. auto. }
  destruct (snd y) as [m|]; [|exact (B None E)]. destruct (utf8_text m) as [t|]; [exact (B (Some t) E)|]. injection E as <- <-. split; [exact H|split; [apply extends_refl|reflexivity]].
Qed.
Lemma objects_ok from l : forall i s r s1, op_objects smap disk K V i l s = (r, s1) -> ok s -> from <= now s -> ok s1 /\ extends s s1 /\ List.length r = List.length l /\
  (forall j y, nth_error l j = Some y -> exists t, from <= t /\ nth_error (map (option_map fst) r) j = Some (option_map (fun f => DebugFile (object_id (i + j)) f true) (object_file smap (disk t) y))) /\
  Forall (listed_in s1 from) (somes r).
Proof.
  induction l as [|y l IH]; intros i s r s1 E H Hf; cbn [op_objects] in E.
  - injection E as <- <-. split; [exact H|]. split; [apply extends_refl|]. split; [reflexivity|]. split; [intros [|j] z Hz; discriminate Hz|constructor].
  - destruct (op_object_file smap disk K V y s) as [f s2] eqn:Ef. destruct (object_file_ok _ _ _ _ Ef H) as (H2 & E2 & Hr). destruct f as [f|].
    + destruct Hr as (x & Hx & Hn & Ho). destruct (op_debug_file K V f true s2) as [d s3] eqn:Ed. destruct (debug_file_ok _ _ _ _ _ Ed H2 (ex_intro _ x Hx)) as (H3 & E3 & Hd & Fs).
      destruct (op_objects smap disk K V (S i) l s3) as [r' s4] eqn:Er. injection E as <- <-. pose proof (proj1 E2) as N2. pose proof (proj1 E3) as N3.
      destruct (IH (S i) s3 r' s4 Er H3 ltac:(lia)) as (H4 & E4 & Hl & Hj & Hm). split; [exact H4|]. split; [exact (extends_trans _ _ _ E2 (extends_trans _ _ _ E3 E4))|]. split; [cbn; now rewrite Hl|]. split.
      * intros [|j] z Hz; cbn in Hz.
        -- injection Hz as <-. exists (now s). split; [exact Hf|]. cbn. rewrite Nat.add_0_r, Ho. cbn. unfold file_at. now rewrite Hx.
        -- destruct (Hj j z Hz) as (t & Ht & Hjt). exists t. split; [exact Ht|]. cbn [map nth_error]. now rewrite Nat.add_succ_r.
      * cbn [somes flat_map app]. constructor; [|exact Hm]. pose proof E4 as (_ & A2 & A3 & _). pose proof E3 as (_ & B2 & _). exists f, x. cbn. split; [apply A3, Hd|]. split; [apply A2, B2, Hx|]. unfold file_at. rewrite Hx. split; [reflexivity|]. lia.
    + destruct (op_objects smap disk K V (S i) l s2) as [r' s4] eqn:Er. injection E as <- <-. pose proof (proj1 E2) as N2.
      destruct (IH (S i) s2 r' s4 Er H2 ltac:(lia)) as (H4 & E4 & Hl & Hj & Hm). split; [exact H4|]. split; [exact (extends_trans _ _ _ E2 E4)|]. split; [cbn; now rewrite Hl|]. split; [|exact Hm].
      intros [|j] z Hz; cbn in Hz.
      * injection Hz as <-. exists (now s). split; [exact Hf|]. cbn. now rewrite Hr.
      * destruct (Hj j z Hz) as (t & Ht & Hjt). exists t. split; [exact Ht|]. cbn [map nth_error]. now rewrite Nat.add_succ_r.
Qed.
Lemma somes_map {A C} (g : A -> C) l : map g (somes l) = somes (map (option_map g) l).
Proof. induction l as [|[a|] l IH]; [reflexivity| |exact IH]. change (map g (somes (Some a :: l))) with (g a :: map g (somes l)). now rewrite IH. Qed.
Lemma symbol_map_ok b s x s1 : op_index_symbol_map smap disk order X K V b s = (x, s1) -> ok s -> nth_error (db_binaries s) b <> None -> ok s1 /\ extends s s1 /\ described s1 b x.
Proof.
  unfold op_index_symbol_map. intros E H Hb. destruct (nth_error (db_binaries s) b) as [f0|] eqn:B; [|congruence]. pose proof H as (_ & _ & _ & K4 & K5 & _). destruct (K4 b f0 B) as (i0 & Hi & Hn).
  destruct (op_load smap disk K V f0 s) as [r s2] eqn:El. destruct (load_ok _ _ _ _ _ El H Hi) as (H2 & E2 & Hl & (t & Ht & Hr) & Hd2 & Hf2). pose proof E2 as (N2 & A2 & _ & A4 & _).
  assert (F : (forall o, r <> Ok o) -> (DIndex empty_index [] [], s2) = (x, s1) -> ok s1 /\ extends s s1 /\ described s1 b x).
  { intros NO Ex. injection Ex as <- <-. split; [exact H2|]. split; [exact E2|]. exists f0, i0. split; [auto|]. split; [auto|]. exists t. split; [exact Ht|]. left. split; [|reflexivity]. intros o. rewrite <- Hr. apply NO. }
  destruct r as [o|e|e| ]; try (apply F; [intros o; discriminate | exact E]). clear F.
  destruct (op_debug_file K V f0 false s2) as [d s3] eqn:Ed. destruct (debug_file_ok _ _ _ _ _ Ed H2 (ex_intro _ i0 (A2 _ _ Hi))) as (H3 & E3 & Hd & Fs). pose proof E3 as (N3 & B2 & _ & B4 & _).
  destruct (op_objects smap disk K V 0 (ob_objects o) s3) as [made s4] eqn:Eo. specialize (K5 f0 i0 Hi).
  destruct (objects_ok (in_read i0) _ _ _ _ _ Eo H3 ltac:(lia)) as (H4 & E4 & Hlen & Hobj & Hm). pose proof E4 as (_ & C2 & C3 & C4 & _). injection E as <- <-.
  split; [exact H4|]. split; [exact (extends_trans _ _ _ E2 (extends_trans _ _ _ E3 E4))|].
  assert (Fa : file_at K V s f0 = in_file i0) by (unfold file_at; now rewrite Hi).
  exists f0, i0. split; [auto|]. split; [auto|]. exists t. split; [exact Ht|]. right. exists o, (map (option_map fst) made). rewrite Fa. cbn [ix_symbols ix_made ix_listed].
  split; [now symmetry|]. split; [now rewrite map_length|]. split; [exact Hobj|]. split; [reflexivity|]. split; [cbn [map fst]; now rewrite somes_map|]. split; [reflexivity|].
  constructor; [|exact Hm]. exists f0, i0. cbn. split; [apply C3, Hd|]. auto.
Qed.
Lemma read_ok l : forall s s1, op_read smap disk K V l s = s1 -> ok s -> ok s1 /\ extends s s1.
Proof.
  induction l as [|d l IH]; intros s s1 E H; cbn [op_read] in E; [subst s1; split; [exact H|apply extends_refl]|].
  destruct (nth_error (db_debug s) d) as [[f rl]|] eqn:D; [|exact (IH _ _ E H)]. pose proof H as (_ & _ & K3 & _). destruct (K3 d f rl D) as (i & Hi).
  destruct (op_load smap disk K V f s) as [r s2] eqn:El. destruct (load_ok _ _ _ _ _ El H Hi) as (H2 & E2 & _). destruct (IH _ _ E H2) as [H3 E3]. split; [exact H3|exact (extends_trans _ _ _ E2 E3)].
Qed.
Lemma index_ok b s x s1 : op_index smap disk order X K V b s = (x, s1) -> ok s -> nth_error (db_binaries s) b <> None -> ok s1 /\ extends s s1 /\ lookup b (db_indexes s1) = Some x.
Proof.
  unfold op_index. intros E H Hb. destruct (lookup b (db_indexes s)) as [x0|] eqn:L; [injection E as <- <-; split; [exact H|split; [apply extends_refl|exact L]]|].
  destruct (op_index_symbol_map smap disk order X K V b s) as [x0 s2] eqn:Es. destruct (symbol_map_ok _ _ _ _ Es H Hb) as (H2 & E2 & D2).
  destruct (read_ok _ _ _ eq_refl H2 : _ /\ extends s2 (op_read smap disk K V (flat_map (fun e => match number_of x0 (db_id (snd e)) with Some d => [d] | None => [] end) (ix_listed x0)) s2)) as [H3 E3].
  set (s3 := op_read smap disk K V _ s2) in *. injection E as <- <-. set (S := Db _ _ _ _ _ _ _).
  assert (N3 : lookup b (db_indexes s3) = None).
  { assert (I2 : db_indexes s2 = db_indexes s).
    { clear - Es. unfold op_index_symbol_map in Es. destruct (nth_error (db_binaries s) b) as [f|]; [|now injection Es as _ <-].
      assert (LD : forall f s, db_indexes (snd (op_load smap disk K V f s)) = db_indexes s) by (intros g z; unfold op_load; now destruct (lookup g (db_loads z))).
      destruct (op_load smap disk K V f s) as [r z] eqn:El. specialize (LD f s). rewrite El in LD. cbn in LD.
      destruct r as [o|e|e| ]; try (injection Es as _ <-; exact LD). cbn [op_debug_file] in Es. set (z1 := Db _ _ _ _ _ _ _) in Es. assert (I1 : db_indexes z1 = db_indexes s) by exact LD.
      assert (OB : forall l i z r z', op_objects smap disk K V i l z = (r, z') -> db_indexes z' = db_indexes z).
      { assert (OF : forall y z r z', op_object_file smap disk K V y z = (r, z') -> db_indexes z' = db_indexes z).
        { intros y w r w'. unfold op_object_file, op_build. destruct (utf8_text (fst y)); [|now intros [= _ <-]]. destruct (snd y) as [m|]; [destruct (utf8_text m); [|now intros [= _ <-]]|]; destruct (disk (now w) _); now intros [= _ <-]. }
        induction l as [|y l IH]; intros i w r w' E; cbn [op_objects] in E; [now injection E as _ <-|]. destruct (op_object_file smap disk K V y w) as [g w1] eqn:Eg. apply OF in Eg. destruct g as [g|].
        - cbn [op_debug_file] in E. destruct (op_objects smap disk K V (S i) l _) as [r2 w2] eqn:E2. injection E as _ <-. rewrite (IH _ _ _ _ E2). exact Eg.
        - destruct (op_objects smap disk K V (S i) l w1) as [r2 w2] eqn:E2. injection E as _ <-. rewrite (IH _ _ _ _ E2). exact Eg. }
      destruct (op_objects smap disk K V 0 (ob_objects o) z1) as [made z4] eqn:Eo. injection Es as _ <-. rewrite (OB _ _ _ _ _ Eo). exact I1. }
    assert (I3 : forall l z, db_indexes (op_read smap disk K V l z) = db_indexes z).
    { clear. induction l as [|d l IH]; intros z; cbn [op_read]; [reflexivity|]. destruct (nth_error (db_debug z) d) as [[f rl]|]; rewrite IH; [|reflexivity]. unfold op_load. now destruct (lookup f (db_loads z)). }
    unfold s3. now rewrite I3, I2. }
  assert (E4 : extends s3 S).
  { unfold extends, S. cbn [now db_files db_debug db_binaries db_loads db_indexes]. repeat (split; [solve [lia | auto]|]). intros j y Hj. rewrite lookup_cons. destruct (Nat.eqb b j) eqn:Ej; [|exact Hj]. apply Nat.eqb_eq in Ej. subst j. congruence. }
  assert (L4 : lookup b (db_indexes S) = Some x0) by (unfold S; cbn [db_indexes]; now rewrite lookup_cons, Nat.eqb_refl).
  split; [|split; [exact (extends_trans _ _ _ E2 (extends_trans _ _ _ E3 E4))|exact L4]]. pose proof H3 as (K1 & K2 & K3 & K4 & K5 & K6).
  split; [exact K1|]. split. { intros b' y Hy. unfold S in Hy. cbn [db_indexes] in Hy. rewrite lookup_cons in Hy. destruct (Nat.eqb b b') eqn:Eb; [|exact (described_ext s3 S b' y E4 (K2 b' y Hy))].
    apply Nat.eqb_eq in Eb. subst b'. injection Hy as <-. exact (described_ext s3 S b x0 E4 (described_ext s2 s3 b x0 E3 D2)). }
  split; [exact K3|]. split; [exact K4|]. split; [exact K5|]. exact (memo_ext s3 S E4 H3 eq_refl).
Qed.
Lemma units_ok b i s us s1 : op_units smap disk order X K V b i s = (us, s1) -> ok s -> nth_error (db_binaries s) b <> None -> ok s1 /\ extends s s1 /\ forall y u, agrees s1 b y u -> u i = us.
Proof.
  unfold op_units. intros E H Hb. destruct (op_index smap disk order X K V b s) as [x s2] eqn:Ex. destruct (index_ok _ _ _ _ Ex H Hb) as (H2 & E2 & L).
  assert (Q : forall d, number_of x i = Some d -> exists f rl j, nth_error (db_debug s2) d = Some (f, rl) /\ nth_error (db_files s2) f = Some j).
  { intros d Hd. pose proof H2 as (_ & K2 & K3 & _). destruct (K2 b x L) as (f0 & i0 & _ & _ & t & _ & D). unfold number_of in Hd. destruct (find _ (ix_made x)) as [e|] eqn:Fe; [|discriminate Hd]. cbn in Hd. injection Hd as <-. apply find_some in Fe. destruct Fe as [Fe _].
    destruct D as [[_ ->] | (o & objs & _ & _ & _ & _ & _ & _ & D)]; [destruct Fe|]. rewrite Forall_forall in D. destruct (D e Fe) as (f & j & D1 & D2 & _). eauto. }
  destruct (number_of x i) as [d|] eqn:Nd.
  - destruct (Q d eq_refl) as (f & rl & j & Hd & Hj). rewrite Hd in E. destruct (op_load smap disk K V f s2) as [r s3] eqn:El. injection E as <- <-. destruct (load_ok _ _ _ _ _ El H2 Hj) as (H3 & E3 & Hl & _ & Hdd & _).
    split; [exact H3|]. split; [exact (extends_trans _ _ _ E2 E3)|]. intros y u A. pose proof E3 as (_ & _ & _ & _ & _ & A6). destruct (A x (A6 _ _ L)) as [_ U]. specialize (U i). rewrite Nd in U. apply (U f rl r); [now rewrite Hdd|exact Hl].
  - injection E as <- <-. split; [exact H2|]. split; [exact E2|]. intros y u A. destruct (A x L) as [_ U]. specialize (U i). now rewrite Nd in U.
Qed.
Lemma valid_ext s S b : extends s S -> nth_error (db_binaries s) b <> None -> nth_error (db_binaries S) b <> None.
Proof. intros (_ & _ & _ & A4 & _) H. destruct (nth_error (db_binaries s) b) as [f|] eqn:E; [|congruence]. rewrite (A4 _ _ E). discriminate. Qed.

Lemma remembered_in b key s v : remembered K V same_key b key s = Some v -> In (b, key, v) (db_memo s).
Proof.
  unfold remembered. destruct (find _ (db_memo s)) as [[[b' k'] v']|] eqn:F; [|discriminate]. cbn. intros [= <-]. apply find_some in F. destruct F as [F E]. cbn in E. apply andb_true_iff in E. destruct E as [E1 E2]. apply Nat.eqb_eq in E1. apply keys in E2. now subst.
Qed.
Lemma remember_ok b key v s : ok s -> (forall y us, agrees s b y us -> means y us (body key) v) -> ok (remember K V b key v s) /\ extends s (remember K V b key v s).
Proof.
  intros H M. assert (E : extends s (remember K V b key v s)) by (unfold extends, remember; cbn; intuition). split; [|exact E]. pose proof H as (K1 & K2 & K3 & K4 & K5 & K6).
  split; [exact K1|]. split; [intros c x Hx; apply (described_ext s _ c x E), K2, Hx|]. split; [exact K3|]. split; [exact K4|]. split; [exact K5|].
  intros b' key' v' [[= <- <- <-] | Hi] y us A; [apply M; exact (agrees_ext _ _ _ _ _ E A)|]. exact (K6 _ _ _ Hi y us (agrees_ext _ _ _ _ _ E A)).
Qed.
(** One computation. *)
Lemma exec_ok n : forall b q s v s1, exec smap disk order X K V same_key body n b q s = Some (v, s1) -> ok s -> nth_error (db_binaries s) b <> None ->
  ok s1 /\ extends s s1 /\ forall y us, agrees s1 b y us -> means y us q v.
Proof.
  induction n as [n IHn] using lt_wf_ind. intros b q. induction q as [v0|k IH|i k IH|key k IH]; intros s v s1 E H Hb; destruct n as [|n]; cbn [exec] in E.
  1, 2: injection E as <- <-; (split; [exact H|split; [apply extends_refl|constructor]]).
  1, 2: destruct (op_index smap disk order X K V b s) as [x s2] eqn:Ex; destruct (index_ok _ _ _ _ Ex H Hb) as (H2 & E2 & L); destruct (IH (lay_of x) s2 v s1 E H2 (valid_ext _ _ _ E2 Hb)) as (H3 & E3 & M);
    (split; [exact H3|split; [exact (extends_trans _ _ _ E2 E3)|]]); intros y us A; constructor; pose proof E3 as (_ & _ & _ & _ & _ & A6); destruct (A x (A6 _ _ L)) as [-> _]; now apply M.
  1, 2: destruct (op_units smap disk order X K V b i s) as [us0 s2] eqn:Eu; destruct (units_ok _ _ _ _ _ Eu H Hb) as (H2 & E2 & U); destruct (IH us0 s2 v s1 E H2 (valid_ext _ _ _ E2 Hb)) as (H3 & E3 & M);
    (split; [exact H3|split; [exact (extends_trans _ _ _ E2 E3)|]]); intros y us A; constructor; rewrite (U y us (agrees_ext _ _ _ _ _ E3 A)); now apply M.
  - destruct (remembered K V same_key b key s) as [x|] eqn:R; [|discriminate E]. destruct (IH x s v s1 E H Hb) as (H3 & E3 & M). split; [exact H3|]. split; [exact E3|]. intros y us A. apply m_call with x; [|now apply M].
    pose proof H as (_ & _ & _ & _ & _ & K6). exact (K6 _ _ _ (remembered_in _ _ _ _ R) y us (agrees_ext _ _ _ _ _ E3 A)).
  - destruct (remembered K V same_key b key s) as [x|] eqn:R.
    + destruct (IH x s v s1 E H Hb) as (H3 & E3 & M). split; [exact H3|]. split; [exact E3|]. intros y us A. apply m_call with x; [|now apply M].
      pose proof H as (_ & _ & _ & _ & _ & K6). exact (K6 _ _ _ (remembered_in _ _ _ _ R) y us (agrees_ext _ _ _ _ _ E3 A)).
    + destruct (exec smap disk order X K V same_key body n b (body key) s) as [[x s2]|] eqn:Eb; [|discriminate E]. destruct (IHn n ltac:(lia) _ _ _ _ _ Eb H Hb) as (H2 & E2 & M2).
      destruct (remember_ok b key x s2 H2 M2) as [H3 E3]. pose proof (extends_trans _ _ _ E2 E3) as E23. destruct (IH x _ v s1 E H3 (valid_ext _ _ _ E23 Hb)) as (H4 & E4 & M4).
      split; [exact H4|]. split; [exact (extends_trans _ _ _ E23 E4)|]. intros y us A. apply m_call with x; [|now apply M4]. apply M2. exact (agrees_ext _ _ _ _ _ (extends_trans _ _ _ E3 E4) A).
Qed.
End Cache.
