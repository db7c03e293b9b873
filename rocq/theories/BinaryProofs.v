(** Lemmas for the queries over a binary. *)
From Coq Require Import Ascii String List ZArith NArith Lia Bool Arith.
From Verif Require Import Base NumText OMap Utf8 AddrModel SymModel SymSpec SymProofs SymProps PathModel LinesModel LinesProps DieModel DieSpec DieProofs ModuleModel ModuleSpec ModuleProofs ModuleProps
  TypesModel ParserModel ParserSpec ParserProofs ResolveModel ResolveSpec LocModel FnModel FnSpec FnProofs FnProps SourceModel LoadModel BinaryModel BinarySpec.
Import ListNotations.
Open Scope Z_scope.

Lemma is_last_fun {A} (P : A -> Prop) l x y : is_last P l x -> is_last P l y -> x = y.
Proof.
  intros (b & a & E & Px & N) (b' & a' & E' & Py & N'). rewrite E in E'. clear E. revert b' E'. induction b as [|z b IH]; intros [|z' b'] E'; cbn in E'.
  - now injection E'.
  - injection E' as -> E'. exfalso. apply (N y); [rewrite E'; apply in_or_app; right; left; reflexivity | exact Py].
  - injection E' as -> E'. exfalso. apply (N' x); [rewrite <- E'; apply in_or_app; right; left; reflexivity | exact Px].
  - injection E' as _ E'. exact (IH b' E').
Qed.
Lemma is_last_in {A} (P : A -> Prop) l x : is_last P l x -> In x l /\ P x.
Proof. intros (b & a & -> & Px & _). split; [apply in_or_app; right; left; reflexivity | exact Px]. Qed.
Lemma last_with_app {A} (f : A -> bool) b x a : f x = true -> (forall y, In y a -> f y = false) -> last_with f (b ++ x :: a) = Some x.
Proof.
  intros Hx Ha. unfold last_with. rewrite fold_left_app. cbn [fold_left]. rewrite Hx. clear Hx. induction a as [|y a IH]; [reflexivity|]. cbn [fold_left]. rewrite (Ha y (or_introl eq_refl)). apply IH. intros z Hz. apply Ha. now right.
Qed.
Lemma last_with_none {A} (f : A -> bool) l : (forall y, In y l -> f y = false) -> last_with f l = None.
Proof. unfold last_with. induction l as [|y l IH]; intros H; [reflexivity|]. cbn [fold_left]. rewrite (H y (or_introl eq_refl)). apply IH. intros z Hz. apply H. now right. Qed.
Lemma last_with_some {A} (f : A -> bool) l x : last_with f l = Some x -> In x l /\ f x = true.
Proof.
  unfold last_with. assert (G : forall r, fold_left (fun r x => if f x then Some x else r) l r = Some x -> r = Some x \/ In x l /\ f x = true).
  { induction l as [|y l IH]; intros r H; [left; exact H|]. cbn [fold_left] in H. destruct (IH _ H) as [E | [I E]]; [|right; split; [now right | exact E]]. destruct (f y) eqn:Fy; [|left; exact E]. injection E as ->. right. split; [now left | exact Fy]. }
  intros H. destruct (G None H) as [E | E]; [discriminate | exact E].
Qed.
Lemma history_parsed X tables e : In e (history X tables) -> parsed (sym_name (snd e)).
Proof.
  unfold history. intros H. apply in_flat_map in H. destruct H as ([i es] & _ & H). apply in_flat_map in H. destruct H as (r & _ & H). unfold entry_event in H. destruct (raw_name r) as [raw|]; [|destruct H].
  destruct (demangle_symbol X raw) as [d| | |] eqn:D; [destruct H as [<-|[]]; eapply demangle_parsed; exact D | destruct H..].
Qed.
Lemma functions_parsed X tables s : In s (functions_of (history X tables)) -> parsed (sym_name s).
Proof. unfold functions_of. intros H. apply in_map_iff in H. destruct H as (e & <- & H). apply filter_In in H. eapply history_parsed. apply H. Qed.

Section Facts.
Variables (X : externals) (tables : list (N * list raw_entry)) (B : binary).
Hypothesis Hix : bi_index B = index_symbol_map X tables.
Let h := history X tables.

Lemma symbols_known f e : In e h -> sym_file (snd e) = bf_id f ->
  exists syms, symbols_in B f = Some syms /\ forall raw s, oget cmp_raw raw syms = Some s <-> exists b, is_last (fun e => sym_file (snd e) = bf_id f /\ snd (fst e) = raw) h (b, raw, s).
Proof.
  intros He Hf. unfold symbols_in, ix. rewrite Hix. destruct (oget N.compare (bf_id f) (ix_by_file (index_symbol_map X tables))) as [syms|] eqn:G.
  - exists syms. split; [reflexivity|]. intros raw s. pose proof (file_symbol_spec X tables (bf_id f) raw) as F. cbv zeta in F. unfold getf in F. rewrite G in F. destruct (oget cmp_raw raw syms) as [y|].
    + destruct F as ([[b raw'] y'] & E & L). cbn in E. subst y'. assert (raw' = raw) by (apply is_last_in in L; apply L). subst raw'. split.
      * intros H. injection H as <-. exists b. exact L.
      * intros (b' & L'). pose proof (is_last_fun _ _ _ _ L L') as E. now injection E as _ ->.
    + split; [discriminate|]. intros (b & L). apply is_last_in in L. destruct L as [L1 L2]. exfalso. exact (F _ L1 L2).
  - exfalso. pose proof (file_symbol_spec X tables (bf_id f) (snd (fst e))) as F. cbv zeta in F. unfold getf in F. rewrite G in F. exact (F e He (conj Hf eq_refl)).
Qed.
Lemma symbols_spec f syms : symbols_in B f = Some syms ->
  forall raw s, oget cmp_raw raw syms = Some s <-> exists b, is_last (fun e => sym_file (snd e) = bf_id f /\ snd (fst e) = raw) h (b, raw, s).
Proof.
  unfold symbols_in, ix. rewrite Hix. intros G raw s. pose proof (file_symbol_spec X tables (bf_id f) raw) as F. cbv zeta in F. unfold getf in F. rewrite G in F. destruct (oget cmp_raw raw syms) as [y|].
  - destruct F as ([[b raw'] y'] & E & L). cbn in E. subst y'. assert (raw' = raw) by (apply is_last_in in L; apply L). subst raw'. split.
    + intros H. injection H as <-. exists b. exact L.
    + intros (b' & L'). pose proof (is_last_fun _ _ _ _ L L') as E. now injection E as _ ->.
  - split; [discriminate|]. intros (b & L). apply is_last_in in L. destruct L as [L1 L2]. exfalso. exact (F _ L1 L2).
Qed.
Lemma linked_symbol_spec f syms d s : (forall raw s, oget cmp_raw raw syms = Some s <-> exists b, is_last (fun e => sym_file (snd e) = bf_id f /\ snd (fst e) = raw) h (b, raw, s)) ->
  linked_symbol (bf_reloc f) syms d = Some s <-> linked h f d s.
Proof.
  intros Hs. unfold linked_symbol, linked. split.
  - destruct (e_tag (d_entry d)) eqn:T; try discriminate. destruct (get_attr (d_entry d) At_linkage_name) as [[]|] eqn:G; try discriminate. match goal with |- match ?o with _ => _ end = _ -> _ => destruct o as [l|] end; [|discriminate].
    intros H. apply Hs in H. destruct H as [b H]. exists b. eexists. exists l. repeat split; eauto.
  - intros (b & raw & l & T & G & E & L). rewrite T, G. apply Hs. subst raw. eauto.
Qed.
Lemma in_linked f syms d s : (forall raw s, oget cmp_raw raw syms = Some s <-> exists b, is_last (fun e => sym_file (snd e) = bf_id f /\ snd (fst e) = raw) h (b, raw, s)) ->
  In (d, s) (linked_functions (bf_reloc f) syms (units_of f)) <-> In d (visible (units_of f)) /\ linked h f d s.
Proof.
  intros Hs. unfold linked_functions. rewrite in_flat_map. split.
  - intros (x & Hx & H). destruct (linked_symbol (bf_reloc f) syms x) as [y|] eqn:L; [|destruct H]. destruct H as [H|[]]. injection H as -> ->. split; [exact Hx|]. now apply (linked_symbol_spec f syms).
  - intros [Hd L]. exists d. split; [exact Hd|]. apply (linked_symbol_spec f syms d s Hs) in L. rewrite L. left. reflexivity.
Qed.
Lemma utoks_units f : map utoks (bf_units f) = units_toks (map (fun u => (bu_die u, bu_pad u)) (bf_units f)).
Proof. unfold units_toks. rewrite map_map. reflexivity. Qed.
Lemma indexed_functions f syms0 : symbols_in B f = Some syms0 -> readable_file h f ->
  exists n0 fs, (forall n, (n0 <= n)%nat -> functions_in n B f = fs) /\
    (forall name d s, function_of h f name d s -> oget cmp_sname name (fs_functions fs) = Some (data_of (d, s))) /\
    (forall name, parsed name -> (forall d s, In d (visible (units_of f)) -> linked h f d s -> sym_name s <> name) -> oget cmp_sname name (fs_functions fs) = None) /\
    (forall a, In a (fs_addresses fs) <-> exists d s, In d (visible (units_of f)) /\ linked h f d s /\ In a (address_of (d, s))) /\
    (exists syms, symbols_in B f = Some syms) /\
    osorted cmp_sname (fs_functions fs) /\
    (forall k v, In (k, v) (fs_functions fs) -> exists d s, linked h f d s /\ cmp_sname k (sym_name s) = Eq /\ In d (visible (units_of f)) /\ v = data_of (d, s)).
Proof.
  intros S1 (R1 & R2 & R3). pose proof (symbols_spec f syms0 S1) as S2. set (syms := syms0) in *.
  assert (R : readable_units (bf_reloc f) syms (map fst (map (fun u => (bu_die u, bu_pad u)) (bf_units f)))).
  { rewrite map_map. change (map (fun x => fst (bu_die x, bu_pad x)) (bf_units f)) with (units_of f). split; [exact R1|]. split; [exact R2|]. apply Forall_forall. intros [d s] Hd. cbn [fst snd]. apply (in_linked f syms d s S2) in Hd. destruct Hd as [Hd L]. destruct (range_of d) as [[lo hi]|] eqn:Q; [|exact I]. exact (R3 d s lo hi Hd L Q). }
  destruct (function_index_exact_partial _ _ _ R) as (n0 & fs & F). rewrite <- utoks_units in F. rewrite map_map in F. change (map (fun x => fst (bu_die x, bu_pad x)) (bf_units f)) with (units_of f) in F.
  assert (Srt : osorted cmp_sname (fs_functions fs)).
  { destruct R as (Q1 & Q2 & Q3). destruct (walk_rust_file (bf_reloc f) syms (map (fun u => (bu_die u, bu_pad u)) (bf_units f))) with (s := FState [] []) as (n1 & W).
    - apply Forall_map in Q1. exact Q1.
    - rewrite Forall_forall in *. intros d Hd. split; [exact (Q2 d Hd)|]. intros y Hy. apply (Q3 (d, y)). unfold linked_functions. apply in_flat_map. exists d. split; [exact Hd|]. rewrite Hy. left. reflexivity.
    - destruct (F (n0 + n1)%nat ltac:(lia)) as (F1 & _). unfold function_index in F1. rewrite utoks_units, W in F1 by lia. injection F1 as <-. rewrite fold_add. apply (fold_index _ (FState [] []) I). }
  exists n0, fs. split; [|split; [|split; [|split; [|split; [|split]]]]].
  - intros n Hn. unfold functions_in. rewrite S1. destruct (F n Hn) as (-> & _ & _). reflexivity.
  - intros name d s (b & a & E & L & N & U). destruct (F n0 (le_n _)) as (_ & G & _). rewrite G. pose proof L as L'. apply (linked_symbol_spec f syms d s S2) in L.
    unfold linked_functions. rewrite E, flat_map_app. cbn [flat_map]. rewrite L. cbn [app]. rewrite last_with_app; [reflexivity | |].
    + unfold same_name. cbn [snd]. rewrite N. rewrite (wo_refl _ wo_sname). reflexivity.
    + intros [d' s'] H. apply in_flat_map in H. destruct H as (x & Hx & H). destruct (linked_symbol (bf_reloc f) syms x) as [y|] eqn:Ly; [|destruct H]. destruct H as [H|[]]. injection H as -> ->. unfold same_name. cbn [snd].
      destruct (cmp_sname name (sym_name s')) eqn:C; [|reflexivity|reflexivity]. exfalso. apply (linked_symbol_spec f syms d' s' S2) in Ly. apply (U d' s' Hx Ly). symmetry. destruct L' as (b1 & r1 & l1 & _ & _ & _ & I1). destruct Ly as (b2 & r2 & l2 & _ & _ & _ & I2).
      apply is_last_in in I1. apply is_last_in in I2. apply parsed_inj; [rewrite <- N; exact (history_parsed X tables _ (proj1 I1)) | exact (history_parsed X tables _ (proj1 I2)) | exact C].
  - intros name P N. destruct (F n0 (le_n _)) as (_ & G & _). rewrite G. rewrite last_with_none; [reflexivity|]. intros [d s] H. apply (in_linked f syms d s S2) in H. destruct H as [Hd L]. unfold same_name. cbn [snd]. destruct (cmp_sname name (sym_name s)) eqn:C; [|reflexivity|reflexivity].
    exfalso. apply (N d s Hd L). symmetry. destruct L as (b2 & r2 & l2 & _ & _ & _ & I2). apply is_last_in in I2. apply parsed_inj; [exact P | exact (history_parsed X tables _ (proj1 I2)) | exact C].
  - intros a. destruct (F n0 (le_n _)) as (_ & _ & A). rewrite A, in_flat_map. split.
    + intros ([d s] & H & Ha). apply (in_linked f syms d s S2) in H. exists d, s. tauto.
    + intros (d & s & Hd & L & Ha). exists (d, s). split; [apply (in_linked f syms d s S2); auto | exact Ha].
  - eauto.
  - exact Srt.
  - intros k v Hk. apply (oget_in cmp_sname wo_sname _ _ _ Srt) in Hk. destruct (F n0 (le_n _)) as (_ & G & _). rewrite G in Hk. destruct (last_with (same_name k) (linked_functions (bf_reloc f) syms (units_of f))) as [[d s]|] eqn:Lw; [|discriminate].
    cbn [option_map] in Hk. injection Hk as <-. apply last_with_some in Lw. destruct Lw as [L1 L2]. apply (in_linked f syms d s S2) in L1. exists d, s. split; [apply L1|]. split; [|split; [apply L1 | reflexivity]]. unfold same_name in L2. cbn [snd] in L2. destruct (cmp_sname k (sym_name s)); [reflexivity | discriminate | discriminate].
Qed.
Lemma functions_known f e : In e h -> sym_file (snd e) = bf_id f -> readable_file h f ->
  exists n0 fs, (forall n, (n0 <= n)%nat -> functions_in n B f = fs) /\
    (forall name d s, function_of h f name d s -> oget cmp_sname name (fs_functions fs) = Some (data_of (d, s))) /\
    (forall name, parsed name -> (forall d s, In d (visible (units_of f)) -> linked h f d s -> sym_name s <> name) -> oget cmp_sname name (fs_functions fs) = None) /\
    (forall a, In a (fs_addresses fs) <-> exists d s, In d (visible (units_of f)) /\ linked h f d s /\ In a (address_of (d, s))) /\
    (exists syms, symbols_in B f = Some syms) /\
    osorted cmp_sname (fs_functions fs) /\
    (forall k v, In (k, v) (fs_functions fs) -> exists d s, linked h f d s /\ cmp_sname k (sym_name s) = Eq /\ In d (visible (units_of f)) /\ v = data_of (d, s)).
Proof. intros He Hf R. destruct (symbols_known f e He Hf) as (syms & S1 & _). exact (indexed_functions f syms S1 R). Qed.
End Facts.

Lemma holds_spec o u : holds o u = true <-> exists d, in_tree (bu_die u) d /\ e_off (d_entry d) = o.
Proof.
  unfold holds. rewrite existsb_exists. split; intros (d & H & E); exists d; [apply subtrees_in in H; apply Z.eqb_eq in E | split; [now apply subtrees_in | now apply Z.eqb_eq]]. auto.
Qed.
Lemma unit_at_spec f u d : distinct_dies f -> In u (bf_units f) -> in_tree (bu_die u) d -> unit_at f (e_off (d_entry d)) = Some u.
Proof.
  intros D Hu Hd. unfold unit_at. destruct (find (holds (e_off (d_entry d))) (bf_units f)) as [w|] eqn:E.
  - apply find_some in E. destruct E as [Hw H]. apply holds_spec in H. destruct H as (d' & I' & E). destruct (D w u d' d Hw Hu I' Hd E) as [-> _]. reflexivity.
  - apply (find_none _ _ E) in Hu. rewrite (proj2 (holds_spec _ u)) in Hu; [discriminate | eauto].
Qed.
Lemma position_of_spec f u d : distinct_dies f -> In u (bf_units f) -> in_tree (bu_die u) d ->
  exists i, position_of (e_off (d_entry d)) (bf_units f) 0 = Some i /\ nth_error (bf_units f) i = Some u.
Proof.
  intros D Hu Hd.
  assert (G : forall us k, (forall w, In w us -> In w (bf_units f)) -> In u us -> exists i, position_of (e_off (d_entry d)) us k = Some (k + i)%nat /\ nth_error us i = Some u).
  { induction us as [|w us IH]; intros k Sub H; [destruct H|]. cbn [position_of]. destruct (holds (e_off (d_entry d)) w) eqn:E.
    - apply holds_spec in E. destruct E as (d' & I' & E). destruct (D w u d' d (Sub w (or_introl eq_refl)) Hu I' Hd E) as [-> _]. exists 0%nat. split; [f_equal; lia | reflexivity].
    - destruct H as [-> | H]; [rewrite (proj2 (holds_spec _ u)) in E; [discriminate | eauto]|]. destruct (IH (S k) (fun w H => Sub w (or_intror H)) H) as (i & E1 & E2). exists (S i). split; [rewrite E1; f_equal; lia | exact E2]. }
  destruct (G (bf_units f) 0%nat (fun w H => H) Hu) as (i & E & N). exists i. auto.
Qed.
Lemma visible_unit f d : In d (visible (units_of f)) -> exists u, In u (bf_units f) /\ in_tree (bu_die u) d.
Proof.
  unfold visible, units_of. intros H. apply in_flat_map in H. destruct H as (x & Hx & H). apply in_map_iff in Hx. destruct Hx as (u & <- & Hu). exists u. split; [exact Hu|]. destruct (is_rust (bu_die u)); [|destruct H].
  apply in_flat_map in H. destruct H as (c & Hc & H). apply shown_in in H. eapply in_kid; eassumption.
Qed.
Lemma good_view f u v : distinct_dies f -> readable_attrs u -> In u (bf_units f) -> unit_view f u v -> good_env v /\ en_unit v = bu_die u.
Proof.
  intros D A Hu [n0 V]. specialize (V n0 (le_n _)). subst v. unfold unit_env. split; [|reflexivity]. split; cbn [en_unit].
  - intros d1 d2 H1 H2 E. exact (proj2 (D u u d1 d2 Hu Hu H1 H2 E)).
  - exact A.
Qed.
Lemma table_entry_row smap u v5 es zero rows r :
  row_file (LProg v5 (map (file_entry_to_path smap (bu_comp u)) es) (option_map (file_entry_to_path smap (bu_comp u)) zero) rows) r =
  option_map (file_entry_to_path smap (bu_comp u)) (table_entry v5 es zero (r_file r)).
Proof.
  unfold row_file, table_entry. cbn [lp_v5 lp_files lp_comp]. destruct v5; [apply nth_error_map|]. destruct (r_file r =? 0); [reflexivity | apply nth_error_map].
Qed.
Lemma unit_file_spec smap u i : unit_file smap u i = decl_path smap u i.
Proof.
  unfold unit_file, decl_path, view_unit, sunit_of. cbn [u_prog su_table su_comp]. destruct (bu_lines u) as [[[[v5 es] zero] rows]|] eqn:E; [|reflexivity]. rewrite (table_entry_row smap u v5 es zero rows). cbn [r_file].
  destruct (table_entry v5 es zero i) as [e|]; cbn [option_map]; [destruct (file_entry_to_path smap (bu_comp u) e); reflexivity | reflexivity].
Qed.
Lemma located_spec smap u x l : LinesModel.address_to_location (view_unit smap (sunit_of u)) x = Some l <-> located smap u x l.
Proof.
  unfold LinesModel.address_to_location, view_unit, sunit_of, located. cbn [u_prog su_table su_comp]. destruct (bu_lines u) as [[[[v5 es] zero] rows]|] eqn:E.
  2: { split; [discriminate|]. intros (v5 & es & zero & rows & before & r & after & e & p & line & H & _). discriminate. }
  cbn [lp_rows]. set (P := LProg _ _ _ _).
  assert (Ans : forall q, LinesProps.answers P x q <-> r_end q = false /\ r_addr q = x /\ r_line q <> None /\ table_entry v5 es zero (r_file q) <> None).
  { intros q. unfold LinesProps.answers, P. rewrite (table_entry_row smap u v5 es zero rows q). destruct (table_entry v5 es zero (r_file q)); cbn [option_map]; intuition congruence. }
  split.
  - intros H. pose proof (find_row_spec P x rows) as F. rewrite H in F. destruct F as (b & r & a & -> & A & N & (p & line & G1 & G2 & ->)). unfold P in G1. rewrite (table_entry_row smap u v5 es zero _ r) in G1.
    destruct (table_entry v5 es zero (r_file r)) as [e|] eqn:T; [|discriminate]. cbn in G1. injection G1 as G1. exists v5, es, zero, (b ++ r :: a), b, r, a, e, p, line. destruct A as (A1 & A2 & _). repeat (split; [first [reflexivity | assumption]|]).
    intros q Hq. rewrite <- Ans. now apply N.
  - intros (v5' & es' & zero' & rows' & b & r & a & e & p & line & Q & -> & R1 & R2 & R3 & T & G & -> & N). injection Q as <- <- <- ->. clear E.
    assert (A : LinesProps.answers P x r) by (apply (proj2 (Ans r)); rewrite T, R3; split; [exact R1|]; split; [exact R2|]; split; discriminate).
    assert (N' : forall q, In q b -> ~ LinesProps.answers P x q) by (intros q Hq; rewrite Ans; now apply N).
    assert (Rf : row_file P r = Some (Some p)) by (unfold P; rewrite table_entry_row, T; cbn; now rewrite G).
    clearbody P.
    assert (First : forall b' r' a', b ++ r :: a = b' ++ r' :: a' -> LinesProps.answers P x r' -> (forall q, In q b' -> ~ LinesProps.answers P x q) -> r' = r).
    { clear - A N'. induction b as [|q b IH]; intros [|q' b'] r' a' H A' M; cbn in H.
      - now injection H.
      - injection H as H0 _. exfalso. apply (M q' (or_introl eq_refl)). rewrite <- H0. exact A.
      - injection H as H0 _. exfalso. apply (N' q (or_introl eq_refl)). rewrite H0. exact A'.
      - injection H as _ H. apply (IH (fun z Hz => N' z (or_intror Hz)) b' r' a' H A'). intros z Hz. apply M. now right. }
    pose proof (find_row_spec P x (b ++ r :: a)) as F. destruct (find_row P x (b ++ r :: a)) as [l|].
    + destruct F as (b' & r' & a' & H & A' & M & (p' & line' & G1 & G2 & ->)). rewrite (First b' r' a' H A' M) in *. rewrite Rf in G1. injection G1 as <-. rewrite R3 in G2. injection G2 as <-. reflexivity.
    + exfalso. destruct F as [F | (b' & r' & a' & H & A' & M & G1)]; [apply (F r); [apply in_or_app; right; left; reflexivity | exact A]|]. rewrite (First b' r' a' H A' M) in *. congruence.
Qed.
Lemma reported_ext v f g c o : (forall i, f i = g i) -> reported v f c o -> reported v g c o.
Proof.
  intros E H. inversion H as [x Hx | Hn | t n m Ht Hs | t ty fv l Ht Hr Hf Hl Hn]; subst; [apply rep_var | now apply rep_untyped | now apply (rep_unresolved v g c t n m) | eapply rep_unplaced; eauto].
  - destruct Hx as (A & C & D & F). split; [exact A|]. split; [exact C|]. split; [|exact F]. destruct (va_loc x) as [[p l]|]; [|exact D]. destruct D as (i & D1 & D2 & D3). exists i. rewrite <- E. auto.
  - intros i p Hi. rewrite <- E. now apply Hn.
Qed.
Lemma view_exists f u : good_file (root_length (bf_units f)) (units_of f) -> exists v, unit_view f u v.
Proof.
  intros G. destruct (die_module_is_enclosing_namespace_partial (root_length (bf_units f)) (map (fun u => (bu_die u, bu_pad u)) (bf_units f))) as (n0 & ranges & mods & M & _).
  { rewrite map_map. exact G. }
  exists (Env (bu_die u) ranges parse_name), n0. intros n Hn. unfold unit_env, file_modules. specialize (M n Hn). unfold file_toks in M. rewrite map_map in M. change (map utoks (bf_units f)) with (map (fun x => unit_toks (fst (bu_die x, bu_pad x)) (snd (bu_die x, bu_pad x))) (bf_units f)). rewrite M. reflexivity.
Qed.
