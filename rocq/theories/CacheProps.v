(** Answers through the shared database. *)
From Coq Require Import Ascii String List ZArith NArith Lia Bool Arith.
From Verif Require Import Base OMap Utf8 SymModel PathModel LinesModel DieModel LocModel SourceModel LoadModel BinaryModel CacheModel CacheSpec CacheProofs.
Import ListNotations.
Open Scope nat_scope.

(** ** The lists of debug files *)
Lemma insert_in (d x : debug_file) f k : forall m, In (k, x) (oinsert cmp_file f d m) -> x = d \/ exists k', In (k', x) m.
Proof.
  induction m as [|[k' v'] m IH]; cbn [oinsert]; [intros [[= <- <-] | []]; now left|].
  destruct (cmp_file f k').
  - intros [[= <- <-] | H]; [now left | right; exists k; now right].
  - intros [[= <- <-] | H]; [now left | right; exists k; exact H].
  - intros [[= <- <-] | H]; [right; exists k'; now left|]. destruct (IH H) as [-> | (k2 & H2)]; [now left | right; exists k2; now right].
Qed.
Lemma listed_from x : forall l m k, In (k, x) (list_objects l m) -> In x (somes l) \/ exists k', In (k', x) m.
Proof.
  induction l as [|[d|] l IH]; intros m k H; cbn [list_objects] in H; [right; now exists k | | exact (IH _ _ H)].
  destruct (IH _ _ H) as [H1 | (k' & H1)]; [left; now right|]. destruct (insert_in _ _ _ _ _ H1) as [-> | H2]; [left; now left | now right].
Qed.
Lemma some_in {A} (l : list (option A)) a : In a (somes l) <-> exists i, nth_error l i = Some (Some a).
Proof.
  induction l as [|[b|] l IH]; split.
  - intros [].
  - intros ([|i] & H); discriminate H.
  - change (somes (Some b :: l)) with (b :: somes l). intros [<- | H]; [now exists 0|]. apply IH in H. destruct H as (i & H). now exists (S i).
  - change (somes (Some b :: l)) with (b :: somes l). intros ([|i] & H); [injection H as ->; now left|]. right. apply IH. now exists i.
  - intros H. apply IH in H. destruct H as (i & H). now exists (S i).
  - intros ([|i] & H); [discriminate H|]. change (In a (somes l)). apply IH. now exists i.
Qed.
Lemma ids_apart (l : list (option debug_file)) : forall k, (forall i d, nth_error l i = Some (Some d) -> db_id d = object_id (k + i)) -> NoDup (map db_id (somes l)) /\ forall d, In d (somes l) -> (object_id k <= db_id d)%N.
Proof.
  unfold object_id. induction l as [|[d|] l IH]; intros k H.
  - split; [constructor | intros d []].
  - change (somes (Some d :: l)) with (d :: somes l). destruct (IH (S k)) as [H1 H2]. { intros i e He. rewrite (H (S i) e He). f_equal. lia. }
    pose proof (H 0 d eq_refl) as H0. split.
    + cbn [map]. constructor; [|exact H1]. intros Hi. apply in_map_iff in Hi. destruct Hi as (e & He & Hi). specialize (H2 e Hi). lia.
    + intros e [<- | Hi]; [lia|]. specialize (H2 e Hi). lia.
  - destruct (IH (S k)) as [H1 H2]. { intros i e He. rewrite (H (S i) e He). f_equal. lia. }
    split; [exact H1|]. intros e Hi. specialize (H2 e Hi). lia.
Qed.
Lemma find_map {A C} (p : C -> bool) (g : A -> C) l : find p (map g l) = option_map g (find (fun a => p (g a)) l).
Proof. induction l as [|a l IH]; cbn; [reflexivity|]. destruct (p (g a)); [reflexivity | exact IH]. Qed.
Lemma find_unique {A} (g : A -> N) l a : NoDup (map g l) -> In a l -> find (fun x => N.eqb (g x) (g a)) l = Some a.
Proof.
  induction l as [|b l IH]; [intros _ [] |]. intros N [<- | H]; cbn; [now rewrite N.eqb_refl|]. cbn in N. inversion N as [|? ? Nb Nl]; subst.
  destruct (N.eqb (g b) (g a)) eqn:E; [|now apply IH]. exfalso. apply N.eqb_eq in E. apply Nb. rewrite E. now apply in_map.
Qed.
Lemma Forall2_map_r {A C} (P : A -> C -> Prop) (g : A -> C) l : (forall a, In a l -> P a (g a)) -> Forall2 P l (map g l).
Proof. induction l as [|a l IH]; intros H; cbn; constructor; [apply H; now left | apply IH; intros b Hb; apply H; now right]. Qed.
Lemma Forall2_map_both {A C D} (P : C -> D -> Prop) (f : A -> C) (g : A -> D) l : (forall a, In a l -> P (f a) (g a)) -> Forall2 P (map f l) (map g l).
Proof. induction l as [|a l IH]; intros H; cbn; constructor; [apply H; now left | apply IH; intros b Hb; apply H; now right]. Qed.

Section Cache.
Variable smap : list (fpath * fpath).
Variable disk : nat -> fpath -> option stored.
Variable order : list nat -> list nat.
Variable X : externals.
Variables K V : Type.
Variable same_key : K -> K -> bool.
Variable body : K -> query K V.
Hypothesis keys : forall a b, same_key a b = true -> a = b.
Notation db := (db K V).
Notation ok := (ok smap disk order X K V body).
Notation extends := (extends K V).
Notation agrees := (agrees K V).
Notation exec := (exec smap disk order X K V same_key body).
Notation run := (run smap disk order X K V same_key body).
Notation step := (step smap disk order X K V same_key body).

Lemma empty_ok : ok empty_db.
Proof. repeat split; cbn; try (intros; discriminate); try (intros b f H; destruct b; discriminate H); try (intros b f H; destruct f; discriminate H). - intros d f rl H. destruct d; discriminate H. - intros b key v []. Qed.
Lemma connect_ok p s o s1 : op_connect smap disk K V p s = (o, s1) -> ok s -> ok s1 /\ extends s s1 /\
  match o with
  | Opened b => disk (now s) (remap_path smap p) <> None /\ b = List.length (db_binaries s) /\ exists f, nth_error (db_binaries s1) b = Some f /\ nth_error (db_files s1) f = Some (Input (remap_path smap p, None) (now s))
  | Refused => disk (now s) (remap_path smap p) = None
  | _ => False
  end.
Proof.
  unfold op_connect. intros E H. destruct (op_build smap disk K V p None s) as [r s2] eqn:B. destruct (build_ok _ _ _ _ _ _ body _ _ _ _ _ B H) as (H2 & E2 & R).
  assert (D : (build smap (disk (now s)) p None = None -> disk (now s) (remap_path smap p) = None) /\ (forall f, build smap (disk (now s)) p None = Some f -> disk (now s) (remap_path smap p) <> None)).
  { unfold build. destruct (disk (now s) (remap_path smap p)); split; congruence. }
  destruct r as [f|]; injection E as <- <-; [|split; [exact H2|split; [exact E2|now apply D]]]. destruct R as [Hf Hb]. set (S := Db _ _ _ _ _ _ _).
  assert (E3 : extends s2 S) by (unfold CacheProofs.extends, S; cbn; intuition; now apply nth_error_keep). pose proof H2 as (K1 & K2 & K3 & K4 & K5 & K6).
  assert (L : db_binaries s2 = db_binaries s) by (clear - B; unfold op_build in B; destruct (disk (now s) _); now injection B as _ <-).
  split; [|split; [exact (extends_trans _ _ _ _ _ E2 E3)|split; [exact (proj2 D _ Hb)|split; [now rewrite L|exists f; split; [apply nth_error_last|exact Hf]]]]].
  split; [exact K1|]. split; [intros b x Hx; apply (described_ext _ _ _ _ _ _ s2 S b x E3), K2, Hx|]. split; [exact K3|].
  split. { intros b g Hg. unfold S in Hg. cbn in Hg. apply nth_error_snoc in Hg. destruct Hg as [Hg | [_ ->]]; [exact (K4 b g Hg)|]. eexists. split; [exact Hf|reflexivity]. }
  split; [exact K5|]. exact (memo_ext _ _ _ _ _ _ _ s2 S E3 H2 eq_refl).
Qed.
Lemma step_ok n e s o s1 : step n e s = Some (o, s1) -> ok s -> ok s1 /\ extends s s1 /\ match e, o with Asks b q, Answered v => forall y us, agrees s1 b y us -> means K V body y us q v | _, _ => True end.
Proof.
  destruct e as [p|b q]; cbn [CacheModel.step]; intros E H.
  - injection E as E. destruct (connect_ok _ _ _ _ E H) as (H1 & H2 & _). auto.
  - destruct (nth_error (db_binaries s) b) as [f|] eqn:B; [|injection E as <- <-; split; [exact H|split; [apply extends_refl|exact I]]].
    destruct (exec n b q s) as [[v s2]|] eqn:Q; [|discriminate E]. injection E as <- <-. apply (exec_ok _ _ _ _ _ _ _ _ keys _ _ _ _ _ _ Q H). now rewrite B.
Qed.
Lemma run_ok n es : forall s os s1, run n es s = Some (os, s1) -> ok s -> ok s1 /\ extends s s1 /\
  forall j b q v, nth_error es j = Some (Asks b q) -> nth_error os j = Some (Answered v) -> forall y us, agrees s1 b y us -> means K V body y us q v.
Proof.
  induction es as [|e es IH]; intros s os s1 E H; cbn [CacheModel.run] in E.
  - injection E as <- <-. split; [exact H|]. split; [apply extends_refl|]. intros [|j] b q v Hj; discriminate Hj.
  - destruct (step n e s) as [[o s2]|] eqn:Es; [|discriminate E]. destruct (run n es s2) as [[os2 s3]|] eqn:Er; [|discriminate E]. injection E as <- <-.
    destruct (step_ok _ _ _ _ _ Es H) as (H2 & E2 & M). destruct (IH _ _ _ Er H2) as (H3 & E3 & A). split; [exact H3|]. split; [exact (extends_trans _ _ _ _ _ E2 E3)|].
    intros [|j] b q v Hj Ho y us G; cbn in Hj, Ho; [|exact (A j b q v Hj Ho y us G)]. injection Hj as ->. injection Ho as ->. apply M. exact (agrees_ext _ _ _ _ _ _ _ E3 G).
Qed.
Lemma run_app n es1 : forall es2 s os s1, run n (es1 ++ es2) s = Some (os, s1) -> exists os1 os2 s2, run n es1 s = Some (os1, s2) /\ run n es2 s2 = Some (os2, s1) /\ os = os1 ++ os2 /\ List.length os1 = List.length es1.
Proof.
  induction es1 as [|e es1 IH]; intros es2 s os s1 E; cbn [app CacheModel.run] in *; [exists [], os, s; auto|].
  destruct (step n e s) as [[o s2]|]; [|discriminate E]. destruct (run n (es1 ++ es2) s2) as [[os3 s3]|] eqn:Er; [|discriminate E]. injection E as <- <-.
  destruct (IH _ _ _ _ Er) as (os1 & os2 & s4 & R1 & R2 & -> & L). exists (o :: os1), os2, s4. rewrite R1. cbn. auto.
Qed.

(** ** What a connection has seen *)
Lemma read_loads l : forall s d f rl, ok s -> In d l -> nth_error (db_debug s) d = Some (f, rl) -> exists r, lookup f (db_loads (op_read smap disk K V l s)) = Some r.
Proof.
  induction l as [|e l IH]; intros s d f rl H Hi Hd; [destruct Hi|]. cbn [op_read]. pose proof H as (_ & _ & K3 & _).
  destruct Hi as [-> | Hi].
  - rewrite Hd. destruct (K3 _ _ _ Hd) as (i & Hf). destruct (op_load smap disk K V f s) as [r s2] eqn:El. destruct (load_ok _ _ _ _ _ _ body _ _ _ _ _ El H Hf) as (H2 & E2 & L & _). cbn [snd].
    destruct (read_ok smap disk order X K V body l s2 _ eq_refl H2) as [_ (_ & _ & _ & _ & A5 & _)]. exists r. exact (A5 _ _ L).
  - destruct (nth_error (db_debug s) e) as [[g rg]|] eqn:Eg; [|exact (IH s d f rl H Hi Hd)]. destruct (K3 _ _ _ Eg) as (i & Hf). destruct (op_load smap disk K V g s) as [r s2] eqn:El. destruct (load_ok _ _ _ _ _ _ body _ _ _ _ _ El H Hf) as (H2 & E2 & _).
    apply (IH s2 d f rl H2 Hi). now apply E2.
Qed.
Lemma seen s b f0 from p : ok s -> nth_error (db_binaries s) b = Some f0 -> nth_error (db_files s) f0 = Some (Input (remap_path smap p, None) from) ->
  exists B, sighted smap disk order X from p B /\ agrees s b (layout_of B) (units_in B).
Proof.
  intros H Hb Hf. destruct (op_index smap disk order X K V b s) as [x s1] eqn:Ex. destruct (index_ok _ _ _ _ _ _ body _ _ _ _ Ex H ltac:(congruence)) as (H1 & E1 & L1).
  set (s2 := op_read smap disk K V (map snd (ix_made x)) s1). destruct (read_ok smap disk order X K V body _ s1 s2 eq_refl H1) as [H2 E2]. pose proof (extends_trans _ _ _ _ _ E1 E2) as E.
  pose proof E as (_ & A2 & _ & A4 & _). pose proof H2 as (K1 & K2 & K3 & _ & _ & _). pose proof E2 as (_ & _ & B3 & _ & _ & B6). pose proof (B6 _ _ L1) as L2.
  set (us := fun i => match number_of x i with Some d => match nth_error (db_debug s2) d with Some (f, _) => match lookup f (db_loads s2) with Some r => units_read r | None => [] end | None => [] end | None => [] end).
  set (bf := fun d => BFile (db_id d) (db_reloc d) (us (db_id d))).
  set (B := Binary (ix_symbols x) (map (fun e => bf (fst e)) (ix_made x)) (map (fun e => bf (snd e)) (ix_listed x))).
  assert (EL : layout_of B = lay_of x) by (unfold layout_of, lay_of, B; cbn; now rewrite !map_map).
  assert (EU : forall i, units_in B i = us i).
  { intros i. unfold units_in, B. cbn [bi_made]. rewrite find_map. cbn [bf bf_id]. unfold us at 1. unfold us. unfold number_of. destruct (find (fun a => N.eqb (db_id (fst a)) i) (ix_made x)) as [e|] eqn:F; cbn [option_map bf_units bf]; [|reflexivity].
    unfold us, number_of. apply find_some in F as F'. destruct F' as [_ F']. apply N.eqb_eq in F'. rewrite F', F. reflexivity. }
  exists B. split.
  - destruct (K2 b x L2) as (g & i0 & G1 & G2 & t & Ht & D). rewrite (A4 _ _ Hb) in G1. injection G1 as <-. rewrite (A2 _ _ Hf) in G2. injection G2 as <-. cbn [in_file in_read fst] in *.
    exists t. split; [exact Ht|]. destruct D as [[N ->] | (o & objs & Lo & Hlen & Hobj & Hs & Hm & Hl & Hf2)]; [left; split; [exact N|reflexivity]|]. right. exists o, objs. split; [exact Lo|]. split; [exact Hlen|]. split; [exact Hobj|]. split; [exact Hs|].
    assert (ID : forall i d, nth_error objs i = Some (Some d) -> db_id d = object_id (0 + i)).
    { intros i d Hd. destruct (nth_error (ob_objects o) i) as [y|] eqn:Ey. 2:{ exfalso. apply nth_error_None in Ey. rewrite <- Hlen in Ey. apply nth_error_None in Ey. congruence. }
      destruct (Hobj i y Ey) as (t' & _ & Hn). rewrite Hn in Hd. destruct (object_file smap (disk t') y); [|discriminate Hd]. cbn in Hd. injection Hd as <-. reflexivity. }
    destruct (ids_apart objs 0 ID) as [ND GE].
    assert (NDm : NoDup (map (fun e => db_id (fst e)) (ix_made x))).
    { rewrite <- map_map, Hm. cbn [map db_id]. constructor; [|exact ND]. intros Hi. apply in_map_iff in Hi. destruct Hi as (d & Hd & Hi). specialize (GE d Hi). unfold object_id in GE. lia. }
    assert (EB : forall e, In e (ix_made x) -> exists t', from <= t' /\ bf (fst e) = bfile_of smap (disk t') (fst e)).
    { intros e He. rewrite Forall_forall in Hf2. destruct (Hf2 e He) as (f & i & F1 & F2 & F3 & F4). cbn [in_read] in F4.
      assert (Hd : nth_error (db_debug s1) (snd e) = Some (f, db_reloc (fst e))).
      { pose proof H1 as (_ & J2 & _). destruct (J2 b x L1) as (g1 & i1 & _ & _ & t1 & _ & D1). destruct D1 as [[_ ->] | (o1 & objs1 & _ & _ & _ & _ & _ & _ & D1)]; [destruct He|]. rewrite Forall_forall in D1. destruct (D1 e He) as (f1 & j1 & Q1 & _). pose proof (B3 _ _ Q1) as Q2. rewrite F1 in Q2. injection Q2 as <-. exact Q1. }
      destruct (read_loads (map snd (ix_made x)) s1 (snd e) f _ H1 (in_map snd _ _ He) Hd) as (r & Hr). fold s2 in Hr. destruct (K1 f r Hr) as (j & t' & Hj & Ht' & ->). rewrite F2 in Hj. injection Hj as <-.
      exists t'. split; [lia|]. unfold bf, bfile_of, us, number_of. rewrite (find_unique (fun e => db_id (fst e)) (ix_made x) e NDm He). cbn [option_map]. rewrite F1, Hr, F3. reflexivity. }
    split.
    + cbn [bi_made B]. rewrite <- Hm. apply Forall2_map_both. intros e He. destruct (EB e He) as (t' & T1 & T2). exists t'. auto.
    + cbn [bi_files B]. rewrite <- Hl. apply Forall2_map_r. intros e He. split; [|reflexivity].
      assert (Hin : In (snd e) (map fst (ix_made x))).
      { rewrite Hm. rewrite Hl in He. destruct e as [k d]. destruct (listed_from d _ _ _ He) as [Hd | (k' & [[= <- <-] | []])]; [now right | now left]. }
      apply in_map_iff in Hin. destruct Hin as (e' & He' & Hi). rewrite <- He'. exact (in_map (fun e0 : debug_file * nat => bf (fst e0)) _ _ Hi).
  - apply (agrees_ext _ _ s s2 b _ _ E). intros x' Hx'. rewrite L2 in Hx'. injection Hx' as <-. split; [exact EL|]. intros i. rewrite EU. unfold us. destruct (number_of x i) as [d|]; [|reflexivity].
    intros f rl r Hd Hr. now rewrite Hd, Hr.
Qed.

(** Every answer is that of a computation on the files as they were when the connection first read each of them: whatever
    was asked before, by whomever, and however the files have changed since. *)
Theorem answers_from_first_readings : forall n before p after os0 s0 outs s b,
  run n before empty_db = Some (os0, s0) -> run n (before ++ Connects p :: after) empty_db = Some (outs, s) -> nth_error outs (List.length before) = Some (Opened b) ->
  exists B, sighted smap disk order X (now s0) p B /\
  forall j q v, nth_error (before ++ Connects p :: after) j = Some (Asks b q) -> nth_error outs j = Some (Answered v) -> yields K V body B q v.
Proof.
  intros n before p after os0 s0 outs s b R0 R Hb. destruct (run_app _ _ _ _ _ _ R) as (os1 & os2 & s1 & R1 & R2 & -> & L). rewrite R0 in R1. injection R1 as <- <-.
  destruct (run_ok _ _ _ _ _ R empty_ok) as (HS & _ & M). destruct (run_ok _ _ _ _ _ R0 empty_ok) as (H0 & _ & _).
  cbn [CacheModel.run CacheModel.step] in R2. destruct (op_connect smap disk K V p s0) as [o s2] eqn:C. destruct (run n after s2) as [[os3 s3]|] eqn:R3; [|discriminate R2]. injection R2 as <- <-.
  rewrite nth_error_app2 in Hb by lia. rewrite L, Nat.sub_diag in Hb. cbn in Hb. injection Hb as ->. destruct (connect_ok _ _ _ _ C H0) as (H2 & _ & _ & _ & f & Bf & Ff).
  destruct (run_ok _ _ _ _ _ R3 H2) as (_ & E3 & _). pose proof E3 as (_ & A2 & _ & A4 & _). destruct (seen s3 b f (now s0) p HS (A4 _ _ Bf) (A2 _ _ Ff)) as (B & HB & HA).
  exists B. split; [exact HB|]. intros j q v Hj Ho. exact (M j b q v Hj Ho _ _ HA).
Qed.

(** ** Files that no longer change *)
Lemma tables_same fs objs o : (forall i y, nth_error (ob_objects o) i = Some y -> nth_error objs i = Some (option_map (fun f => DebugFile (object_id i) f true) (object_file smap fs y))) -> List.length objs = List.length (ob_objects o) ->
  found_tables order objs o = symbol_tables smap fs order o.
Proof.
  intros H L. unfold found_tables, symbol_tables, object_symbols. f_equal. apply flat_map_ext. intros i. destruct (nth_error (ob_objects o) i) as [y|] eqn:E.
  - rewrite (H i y E). cbn. now destruct (object_file smap fs y).
  - assert (nth_error objs i = None) as ->; [|reflexivity]. apply nth_error_None. rewrite L. now apply nth_error_None.
Qed.
Lemma made_same fs : forall l k objs, (forall i y, nth_error l i = Some y -> nth_error objs i = Some (option_map (fun f => DebugFile (object_id (k + i)) f true) (object_file smap fs y))) -> List.length objs = List.length l ->
  somes objs = made_objects smap fs k l /\ forall m, list_objects objs m = add_objects smap fs k l m.
Proof.
  induction l as [|y l IH]; intros k objs H L; destruct objs as [|x objs]; try discriminate L; [split; reflexivity|].
  pose proof (H 0 y eq_refl) as H0. cbn in H0. injection H0 as ->. rewrite Nat.add_0_r. destruct (IH (S k) objs) as [I1 I2]; [intros i z Hz; rewrite (H (S i) z Hz : nth_error objs i = _); now rewrite Nat.add_succ_r | now injection L|].
  cbn [made_objects add_objects list_objects]. destruct (object_file smap fs y) as [f|]; cbn [option_map db_file].
  - change (somes (Some ?d :: objs)) with (d :: somes objs). rewrite I1. split; [reflexivity|]. intros m. apply I2.
  - split; [exact I1 | exact I2].
Qed.
Lemma sighted_same fs from p B : sighted smap disk order X from p B -> (forall t, from <= t -> disk t = fs) -> fs (remap_path smap p) <> None -> open_binary smap fs order X p = Ok B.
Proof.
  intros (t & Ht & H) C E. unfold open_binary, build. destruct (fs (remap_path smap p)) as [z|] eqn:Ez; [|congruence]. cbn [db_file] in H. rewrite (C t Ht) in H.
  destruct H as [[N ->] | (o & objs & Lo & Hlen & Hobj & Hs & Hm & Hl)].
  - destruct (LoadModel.load smap fs (remap_path smap p, None)) as [o|e|e| ] eqn:El; try reflexivity. now destruct (N o).
  - rewrite Lo. destruct B as [bi bm bl]. cbn [bi_index bi_made bi_files] in *.
    assert (Hobj' : forall i y, nth_error (ob_objects o) i = Some y -> nth_error objs i = Some (option_map (fun f => DebugFile (object_id i) f true) (object_file smap fs y))).
    { intros i y Hy. destruct (Hobj i y Hy) as (t' & Ht' & Hn). now rewrite (C t' Ht') in Hn. }
    rewrite (tables_same fs objs o Hobj' Hlen) in Hs. destruct (made_same fs (ob_objects o) 0 objs Hobj' Hlen) as [S1 S2].
    assert (Hm' : bm = map (bfile_of smap fs) (DebugFile 0 (remap_path smap p, None) false :: somes objs)).
    { clear - Hm C. induction Hm as [|d f l l' (t' & Ht' & ->) _ IH]; cbn; [reflexivity|]. now rewrite IH, (C t' Ht'). }
    assert (ND : NoDup (map db_id (DebugFile 0 (remap_path smap p, None) false :: somes objs))).
    { assert (ID : forall i d, nth_error objs i = Some (Some d) -> db_id d = object_id (0 + i)).
      { intros i d Hd. destruct (nth_error (ob_objects o) i) as [y|] eqn:Ey. 2:{ exfalso. apply nth_error_None in Ey. rewrite <- Hlen in Ey. apply nth_error_None in Ey. congruence. }
        rewrite (Hobj' i y Ey) in Hd. destruct (object_file smap fs y); [|discriminate Hd]. cbn in Hd. injection Hd as <-. reflexivity. }
      destruct (ids_apart objs 0 ID) as [ND GE]. cbn [map db_id]. constructor; [|exact ND]. intros Hi. apply in_map_iff in Hi. destruct Hi as (d & Hd & Hi). specialize (GE d Hi). unfold object_id in GE. lia. }
    assert (Hl' : bl = map (fun e => bfile_of smap fs (snd e)) (list_objects objs [((remap_path smap p, None), DebugFile 0 (remap_path smap p, None) false)])).
    { rewrite Hm' in Hl. pose proof (fun x k => listed_from x objs [((remap_path smap p, None), DebugFile 0 (remap_path smap p, None) false)] k) as IN. revert Hl IN.
      generalize (list_objects objs [((remap_path smap p, None), DebugFile 0 (remap_path smap p, None) false)]) as l. intros l Hl IN.
      assert (IN' : forall e, In e l -> In (snd e) (DebugFile 0 (remap_path smap p, None) false :: somes objs)).
      { intros [k d] He. destruct (IN d k He) as [Hd | (k' & [[= <- <-] | []])]; [now right | now left]. }
      clear IN. induction Hl as [|e f l l' [Hi Hid] _ IH]; [reflexivity|]. cbn [map]. rewrite <- IH by (intros e' He'; apply IN'; now right). f_equal.
      apply in_map_iff in Hi. destruct Hi as (d & <- & Hd). cbn [bfile_of bf_id] in Hid.
      pose proof (IN' e (or_introl eq_refl)) as He. pose proof (find_unique db_id _ _ ND Hd) as F1. pose proof (find_unique db_id _ _ ND He) as F2. rewrite Hid in F1. rewrite F1 in F2. now injection F2 as ->. }
    rewrite Hs, Hm', Hl', S1, S2. reflexivity.
Qed.

Lemma means_fun y us q v : means K V body y us q v -> forall v', means K V body y us q v' -> v' = v.
Proof.
  induction 1 as [v|k v _ IH|i k v _ IH|key k x v _ IH1 _ IH2]; intros v' H; inversion H; subst; auto. apply IH2. match goal with A : means K V body y us (body key) ?z |- _ => now rewrite (IH1 z A) in * end.
Qed.
Lemma whole_means f B : (forall g, In g (bi_made B) \/ In g (bi_files B) -> units_in B (bf_id g) = bf_units g) -> yields K V body B (whole K V f) (f B).
Proof.
  intros H. unfold yields, whole. constructor. cbn [l_made l_files l_symbols layout_of].
  assert (G : forall l k v, (forall g, In g l -> units_in B (bf_id g) = bf_units g) -> means K V body (layout_of B) (units_in B) (k l) v -> means K V body (layout_of B) (units_in B) (gather K V (map (fun g => (bf_id g, bf_reloc g)) l) k) v).
  { induction l as [|g l IH]; intros k v Hg Hk; cbn [map gather]; [exact Hk|]. constructor. apply IH; [intros g' Hg'; apply Hg; now right|]. rewrite (Hg g (or_introl eq_refl)). destruct g. exact Hk. }
  apply G; [intros g Hg; apply H; now left|]. apply G; [intros g Hg; apply H; now right|]. destruct B. constructor.
Qed.
Lemma opened_apart fs p B : open_binary smap fs order X p = Ok B -> forall g, In g (bi_made B) \/ In g (bi_files B) -> units_in B (bf_id g) = bf_units g.
Proof.
  unfold open_binary, build. destruct (fs (remap_path smap p)); [|discriminate]. destruct (LoadModel.load smap fs (remap_path smap p, None)) as [o|e|e| ]; intros [= <-]; cbn [bi_made bi_files]; try (intros g [[] | []]).
  set (own := DebugFile 0 (remap_path smap p, None) false). set (objs := map (fun e => option_map (fun f => DebugFile (object_id (fst e)) f true) (object_file smap fs (snd e))) (combine (seq 0 (List.length (ob_objects o))) (ob_objects o))).
  assert (L : List.length objs = List.length (ob_objects o)) by (unfold objs; rewrite map_length, combine_length, seq_length; apply Nat.min_id).
  assert (N : forall l k i y, nth_error l i = Some y -> nth_error (map (fun e => option_map (fun f => DebugFile (object_id (fst e)) f true) (object_file smap fs (snd e))) (combine (seq k (List.length l)) l)) i = Some (option_map (fun f => DebugFile (object_id (k + i)) f true) (object_file smap fs y))).
  { induction l as [|z l IH]; intros k [|i] y Hy; try discriminate Hy; cbn in *; [injection Hy as ->; now rewrite Nat.add_0_r|]. rewrite (IH (S k) i y Hy). now rewrite Nat.add_succ_r. }
  destruct (made_same fs (ob_objects o) 0 objs (N (ob_objects o) 0) L) as [S1 S2].
  assert (ND : NoDup (map db_id (own :: somes objs))).
  { assert (ID : forall i d, nth_error objs i = Some (Some d) -> db_id d = object_id (0 + i)).
    { intros i d Hd. destruct (nth_error (ob_objects o) i) as [y|] eqn:Ey. 2:{ exfalso. apply nth_error_None in Ey. rewrite <- L in Ey. apply nth_error_None in Ey. congruence. }
      rewrite (N (ob_objects o) 0 i y Ey : nth_error objs i = _) in Hd. destruct (object_file smap fs y); [|discriminate Hd]. cbn in Hd. injection Hd as <-. reflexivity. }
    destruct (ids_apart objs 0 ID) as [ND GE]. cbn [map db_id]. constructor; [|exact ND]. intros Hi. apply in_map_iff in Hi. destruct Hi as (d & Hd & Hi). specialize (GE d Hi). unfold object_id in GE. unfold own in Hd. cbn in Hd. lia. }
  intros g Hg. rewrite <- S1 in *.
  assert (exists d, In d (own :: somes objs) /\ g = bfile_of smap fs d) as (d & Hd & ->).
  { destruct Hg as [Hg | Hg]; [apply (in_map_iff (bfile_of smap fs) (own :: somes objs)) in Hg; destruct Hg as (d & <- & Hd); eauto|]. apply in_map_iff in Hg. destruct Hg as ([k d] & <- & Hg). unfold files_of in Hg. rewrite <- S2 in Hg. cbn [snd fst] in *. exists d. split; [|reflexivity].
    destruct (listed_from d _ _ _ Hg) as [Hd | (k' & [[= <- <-] | []])]; [now right | now left]. }
  unfold units_in. cbn [bi_made]. change (bfile_of smap fs own :: map (bfile_of smap fs) (somes objs)) with (map (bfile_of smap fs) (own :: somes objs)). rewrite find_map. cbn [bfile_of bf_id]. rewrite (find_unique db_id _ d ND Hd). reflexivity.
Qed.
(** From the moment the files no longer change, a new connection is answered from the files as they are. *)
Theorem answers_of_unchanged_files : forall n before p after os0 s0 outs s fs,
  run n before empty_db = Some (os0, s0) -> run n (before ++ Connects p :: after) empty_db = Some (outs, s) -> (forall t, now s0 <= t -> disk t = fs) ->
  (fs (remap_path smap p) = None /\ nth_error outs (List.length before) = Some Refused) \/
  exists b B, nth_error outs (List.length before) = Some (Opened b) /\ open_binary smap fs order X p = Ok B /\
    (forall j q v, nth_error (before ++ Connects p :: after) j = Some (Asks b q) -> nth_error outs j = Some (Answered v) -> yields K V body B q v) /\
    (forall j f v, nth_error (before ++ Connects p :: after) j = Some (Asks b (whole K V f)) -> nth_error outs j = Some (Answered v) -> v = f B).
Proof.
  intros n before p after os0 s0 outs s fs R0 R C. pose proof R as R'. destruct (run_app _ _ _ _ _ _ R) as (os1 & os2 & s1 & R1 & R2 & -> & L). rewrite R0 in R1. injection R1 as <- <-. destruct (run_ok _ _ _ _ _ R0 empty_ok) as (H0 & _ & _).
  cbn [CacheModel.run CacheModel.step] in R2. destruct (op_connect smap disk K V p s0) as [o s2] eqn:Co. destruct (run n after s2) as [[os3 s3]|] eqn:R3; [|discriminate R2]. injection R2 as <- <-.
  assert (No : nth_error (os0 ++ o :: os3) (List.length before) = Some o) by (rewrite nth_error_app2 by lia; now rewrite L, Nat.sub_diag).
  destruct (connect_ok _ _ _ _ Co H0) as (H2 & _ & Ho). destruct o as [b| |v|]; [ | | destruct Ho | destruct Ho].
  - right. destruct Ho as [H _]. rewrite (C _ (le_n _)) in H. destruct (answers_from_first_readings n before p after os0 s0 _ _ b R0 R' No) as (B & HB & HA). exists b, B. split; [exact No|]. pose proof (sighted_same fs _ _ _ HB C H) as OB. split; [exact OB|]. split; [exact HA|].
    intros j f v Hj Hv. exact (means_fun _ _ _ _ (whole_means f B (opened_apart fs p B OB)) _ (HA j _ v Hj Hv)).
  - left. rewrite (C _ (le_n _)) in Ho. auto.
Qed.
(** Every question that ends is answered. *)
Lemma exec_more n : forall m b q s r, n <= m -> exec n b q s = Some r -> exec m b q s = Some r.
Proof.
  induction n as [n IHn] using lt_wf_ind. intros m b q. induction q as [v0|k IH|i k IH|key k IH]; intros s r Hm E; destruct n as [|n], m as [|m]; try lia; cbn [CacheModel.exec] in *; try exact E.
  1, 2: destruct (op_index smap disk order X K V b s) as [x s2]; exact (IH _ _ _ Hm E).
  1, 2: destruct (op_units smap disk order X K V b i s) as [x s2]; exact (IH _ _ _ Hm E).
  - destruct (remembered K V same_key b key s); [exact (IH _ _ _ Hm E)|discriminate E].
  - destruct (remembered K V same_key b key s); [exact (IH _ _ _ Hm E)|]. destruct (exec n b (body key) s) as [[x s2]|] eqn:Eb; [|discriminate E]. rewrite (IHn n ltac:(lia) m _ _ _ _ ltac:(lia) Eb). exact (IH _ _ _ Hm E).
Qed.
Lemma exec_ends b q : ends K V body q -> forall s, exists n r, exec n b q s = Some r.
Proof.
  induction 1 as [v|k _ IH|i k _ IH|key k _ IH1 _ IH2]; intros s.
  - exists 0. cbn. eauto.
  - destruct (op_index smap disk order X K V b s) as [x s2] eqn:E. destruct (IH (lay_of x) s2) as (n & r & H). exists n, r. destruct n; cbn [CacheModel.exec]; now rewrite E.
  - destruct (op_units smap disk order X K V b i s) as [x s2] eqn:E. destruct (IH x s2) as (n & r & H). exists n, r. destruct n; cbn [CacheModel.exec]; now rewrite E.
  - destruct (remembered K V same_key b key s) as [x|] eqn:R.
    + destruct (IH2 x s) as (n & r & H). exists n, r. destruct n; cbn [CacheModel.exec]; now rewrite R.
    + destruct (IH1 s) as (n1 & [x s1] & H1). destruct (IH2 x (remember K V b key x s1)) as (n2 & r & H2). exists (S (n1 + n2)), r. cbn [CacheModel.exec]. rewrite R, (exec_more n1 (n1 + n2) _ _ _ _ ltac:(lia) H1). exact (exec_more n2 (S (n1 + n2)) _ _ _ _ ltac:(lia) H2).
Qed.
Theorem questions_answered : forall es, Forall (fun e => match e with Asks _ q => ends K V body q | _ => True end) es ->
  exists n0, forall n, n0 <= n -> exists outs s, run n es empty_db = Some (outs, s) /\ List.length outs = List.length es.
Proof.
  intros es H. generalize (empty_db : db). induction H as [|e es He _ IH]; intros s0; [exists 0; intros n _; cbn; eauto|].
  assert (exists n1 o s1, forall n, n1 <= n -> step n e s0 = Some (o, s1)) as (n1 & o & s1 & H1).
  { destruct e as [p|b q]; [exists 0; destruct (op_connect smap disk K V p s0) as [o s1] eqn:E; exists o, s1; intros n _; cbn [CacheModel.step]; now rewrite E|]. cbn [CacheModel.step]. destruct (nth_error (db_binaries s0) b); [|exists 0; eauto].
    destruct (exec_ends b q He s0) as (n3 & [v s1] & E). exists n3, (Answered v), s1. intros m Hm. now rewrite (exec_more n3 m _ _ _ _ Hm E). }
  destruct (IH s1) as (n2 & H2). exists (n1 + n2). intros n Hn. destruct (H2 n ltac:(lia)) as (outs & s2 & R & L). exists (o :: outs), s2. cbn [CacheModel.run]. rewrite (H1 n ltac:(lia)), R. cbn. auto.
Qed.
End Cache.
