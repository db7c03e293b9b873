(** C107: source positions of a binary, from the stored files. *)
From Coq Require Import Ascii String List ZArith NArith Lia Bool.
From Verif Require Import Base NumText OMap Utf8 AddrModel AddrSpec SymModel SymSpec SymProofs SymProps PathModel LinesModel LinesProps DieModel DieSpec ModuleModel ModuleSpec TypesModel
  ParserModel ParserSpec ResolveModel FnModel FnSpec FnProps SourceModel SourceProps LoadModel BinaryModel BinarySpec BinaryProofs BinaryTypes.
Import ListNotations.
Open Scope Z_scope.

(** A line table of a Rust unit of the file lists the source [p]. *)
Definition mentions (smap : list (fpath * fpath)) (f : bfile) (p : path) : Prop :=
  exists u v5 es zero rows e, In u (bf_units f) /\ is_rust_cu (d_entry (bu_die u)) = true /\ bu_lines u = Some (v5, es, zero, rows) /\
    In e es /\ file_entry_to_path smap (bu_comp u) e = Some p.
(** The source meant by a request: the path itself when it is mentioned, else the first mentioned path that ends with it. *)
Definition requested (smap : list (fpath * fpath)) (files : list bfile) (file p : path) : Prop :=
  (exists f, In f files /\ mentions smap f p) /\ suffix_of file p /\ (p = file \/
   (forall f, In f files -> ~ mentions smap f file) /\ forall f q, In f files -> mentions smap f q -> suffix_of file q -> cmp_path p q <> Gt).
(** The unit has code: its address ranges can be read and are not empty. *)
Definition has_code (u : bunit) : Prop := exists r, to_range (e_ranges (d_entry (bu_die u))) = Ok (Some r).
(** [p]:[line] has code at the address [a]: a row of the line table of a unit of the file says so, the function of the
    symbol [s] contains the row's address, and [a] is where that part of the function is loaded. *)
Definition line_code (smap : list (fpath * fpath)) (h : list (bool * list N * symbol)) (f : bfile) (p : path) (line a : Z) : Prop :=
  exists u v5 es zero rows r e d s lo hi, In u (bf_units f) /\ has_code u /\ bu_lines u = Some (v5, es, zero, rows) /\
    In r rows /\ r_end r = false /\ r_line r = Some line /\ table_entry v5 es zero (r_file r) = Some e /\ file_entry_to_path smap (bu_comp u) e = Some p /\
    In d (visible (units_of f)) /\ linked h f d s /\ range_of d = Some (lo, hi) /\ lo <= r_addr r < hi /\ a = sym_addr s + (r_addr r - lo).
(** Ordinary line tables: DWARF 4 or earlier, files numbered from 1 and listed once, addresses and lines of 64 bits. *)
Definition ordinary_lines (smap : list (fpath * fpath)) (h : list (bool * list N * symbol)) (f : bfile) : Prop :=
  (forall u v5 es zero rows, In u (bf_units f) -> bu_lines u = Some (v5, es, zero, rows) ->
     v5 = false /\ (forall r, In r rows -> 1 <= r_file r) /\
     (forall i j x y p, nth_error es i = Some x -> nth_error es j = Some y -> file_entry_to_path smap (bu_comp u) x = Some p -> file_entry_to_path smap (bu_comp u) y = Some p -> i = j) /\
     (forall r l, In r rows -> r_line r = Some l -> l < u64_last) /\
     (forall r d s lo hi, In r rows -> In d (visible (units_of f)) -> linked h f d s -> range_of d = Some (lo, hi) ->
        0 <= sym_addr s /\ 0 <= lo /\ 0 <= r_addr r /\ sym_addr s + r_addr r < two64)) /\
  Forall (fun u => is_rust_cu (d_entry (bu_die u)) = true) (bf_units f).

Section Lines.
Variables (X : externals) (tables : list (N * list raw_entry)) (B : binary).
Hypothesis Hix : bi_index B = index_symbol_map X tables.
Let h := history X tables.
Variable smap : list (fpath * fpath).
Variable sort : (AddrModel.finfo -> Z) -> list AddrModel.finfo -> list AddrModel.finfo.
Hypothesis Hsort : sorts sort.

Lemma funcs_known f : readable_file h f -> exists n0, forall n, (n0 <= n)%nat ->
  (d_indexed (view_file smap (sfile_of n B f)) = true \/ forall d s, In d (visible (units_of f)) -> ~ linked h f d s) /\
  forall fi, In fi (d_funcs (view_file smap (sfile_of n B f))) <->
    exists d s lo hi, In d (visible (units_of f)) /\ linked h f d s /\ range_of d = Some (lo, hi) /\
      fi = {| absolute_start := sym_addr s; absolute_end := sym_addr s + hi - lo; relative_start := lo; relative_end := hi; f_file := Z.of_N (bf_id f); f_name := full_path (sym_name s) |}.
Proof.
  intros R. destruct (symbols_in B f) as [syms|] eqn:Sy.
  - destruct (indexed_functions X tables B Hix f syms Sy R) as (n0 & fs & E1 & _ & _ & Ad & _). exists n0. intros n Hn. unfold view_file, sfile_of. cbn [d_indexed sf_indexed d_funcs sf_funcs]. rewrite Sy, (E1 n Hn). split; [left; reflexivity|].
    intros fi. rewrite in_map_iff. split.
    + intros (a & <- & H). apply Ad in H. destruct H as (d & s & Hd & L & Ha). unfold address_of in Ha. cbn [fst snd] in Ha. destruct (range_of d) as [[lo hi]|] eqn:Q; [|destruct Ha]. destruct Ha as [<- | []]. exists d, s, lo, hi. auto.
    + intros (d & s & lo & hi & Hd & L & Q & ->). exists (AInfo (sym_addr s) (sym_addr s + hi - lo) lo hi (sym_name s)). split; [reflexivity|]. apply Ad. exists d, s. split; [exact Hd|]. split; [exact L|]. unfold address_of. cbn [fst snd]. rewrite Q. left. reflexivity.
  - assert (N : forall d s, In d (visible (units_of f)) -> ~ linked h f d s).
    { intros d s _ (b & raw & link & _ & _ & _ & L). apply is_last_in in L. destruct L as [L1 [L2 _]]. destruct (symbols_known X tables B Hix f _ L1 L2) as (syms & S1 & _). congruence. }
    exists 0%nat. intros n _. split; [right; exact N|]. intros fi. unfold view_file, sfile_of, functions_in. cbn [d_funcs sf_funcs]. rewrite Sy. cbn [fs_addresses map]. split; [intros [] | intros (d & s & lo & hi & Hd & L & _); destruct (N d s Hd L)].
Qed.
Lemma lists_mentions n f p : lists smap (sfile_of n B f) p <-> mentions smap f p.
Proof.
  unfold lists, mentions. split.
  - intros (u & v5 & es & z & rows & e & Hu & _ & R & T & He & Ep). cbn [sfile_of sf_units] in Hu. apply in_map_iff in Hu. destruct Hu as (b & <- & Hb). exists b, v5, es, z, rows, e. cbn in R, T, Ep. auto 10.
  - intros (u & v5 & es & z & rows & e & Hu & R & T & He & Ep). exists (sunit_of u), v5, es, z, rows, e. cbn [sfile_of sf_units sunit_of su_root su_rust su_table su_comp]. repeat split; auto. now apply in_map.
Qed.
Lemma both (P P2 Q Q2 : Prop) : (P <-> P2) -> (Q <-> Q2) -> (P /\ Q <-> P2 /\ Q2).
Proof. tauto. Qed.
Lemma designates_requested n files file p : designates smap (map (sfile_of n B) files) file p <-> requested smap files file p.
Proof.
  unfold designates, requested. apply both; [|apply and_iff_compat_l, or_iff_compat_l, both].
  - split; [intros (g & Hg & L) | intros (f & Hf & L)].
    + apply in_map_iff in Hg. destruct Hg as (f & <- & Hf). exists f. split; [exact Hf | now apply (lists_mentions n)].
    + exists (sfile_of n B f). split; [now apply in_map | now apply lists_mentions].
  - split; [intros N f Hf L; apply (N (sfile_of n B f)); [now apply in_map | now apply lists_mentions] | intros N g Hg L; apply in_map_iff in Hg; destruct Hg as (f & <- & Hf); apply (N f Hf); now apply (lists_mentions n)].
  - split; [intros N f q Hf L; apply (N (sfile_of n B f)); [now apply in_map | now apply lists_mentions] | intros N g q Hg L; apply in_map_iff in Hg; destruct Hg as (f & <- & Hf); apply (N f q Hf); now apply (lists_mentions n)].
Qed.
Lemma has_range_code u : has_range (view_unit smap (sunit_of u)) = true <-> has_code u.
Proof. unfold has_range, has_code. cbn [view_unit sunit_of u_ranges su_ranges]. destruct (to_range (e_ranges (d_entry (bu_die u)))) as [[r|]| | |]; split; try discriminate; try (intros (r' & E); discriminate); eauto. Qed.
Lemma file_lines f : readable_file h f -> ordinary_lines smap h f -> exists n0, forall n, (n0 <= n)%nat ->
  rust_only (sfile_of n B f) /\ ordinary_file (view_file smap (sfile_of n B f)) /\
  forall p l a, (d_indexed (view_file smap (sfile_of n B f)) = true /\ code_at (view_file smap (sfile_of n B f)) p l a) <-> line_code smap h f p l a.
Proof.
  intros R (O & Rs). destruct (funcs_known f R) as (n0 & K). exists n0. intros n Hn. destruct (K n Hn) as [K1 K2].
  assert (Pr : forall u q, In u (d_units (view_file smap (sfile_of n B f))) -> u_prog u = Some q -> exists b v5 es zero rows, In b (bf_units f) /\ u = view_unit smap (sunit_of b) /\ bu_lines b = Some (v5, es, zero, rows) /\
    q = LProg v5 (map (file_entry_to_path smap (bu_comp b)) es) (option_map (file_entry_to_path smap (bu_comp b)) zero) rows).
  { intros u q Hu Q. cbn [view_file d_units sfile_of sf_units] in Hu. rewrite map_map in Hu. apply in_map_iff in Hu. destruct Hu as (b & <- & Hb). cbn [view_unit u_prog sunit_of su_table su_comp] in Q. destruct (bu_lines b) as [[[[v5 es] zero] rows]|] eqn:E; [|discriminate]. injection Q as <-. exists b, v5, es, zero, rows. auto. }
  split; [|split].
  - unfold rust_only. cbn [sfile_of sf_units]. apply Forall_map. eapply Forall_impl; [|exact Rs]. intros u Hu. cbn. auto.
  - split; [|split].
    + intros u q Hu Q. destruct (Pr u q Hu Q) as (b & v5 & es & zero & rows & Hb & -> & E & ->). destruct (O b v5 es zero rows Hb E) as (O1 & O2 & O3 & _). split; [exact O1|]. split; [exact O2|]. cbn [lp_files].
      intros i j g Hi Hj. rewrite nth_error_map in Hi, Hj. destruct (nth_error es i) as [x|] eqn:Ei; [|discriminate]. destruct (nth_error es j) as [y|] eqn:Ej; [|discriminate]. cbn in Hi, Hj. injection Hi as Hi. injection Hj as Hj. exact (O3 i j x y g Ei Ej Hi Hj).
    + intros u q r fi Hu Q Hr Hf. destruct (Pr u q Hu Q) as (b & v5 & es & zero & rows & Hb & -> & E & ->). destruct (O b v5 es zero rows Hb E) as (_ & _ & _ & _ & O5). apply K2 in Hf. destruct Hf as (d & s & lo & hi & Hd & L & Rg & ->). cbn [absolute_start relative_start]. exact (O5 r d s lo hi Hr Hd L Rg).
    + intros u q r l Hu Q Hr. destruct (Pr u q Hu Q) as (b & v5 & es & zero & rows & Hb & -> & E & ->). destruct (O b v5 es zero rows Hb E) as (_ & _ & _ & O4 & _). now apply O4.
  - intros p l a. split.
    + intros [_ (u & q & r & fi & Hu & Hr & Q & Ir & E1 & E2 & E3 & Hf & C & ->)]. destruct (Pr u q Hu Q) as (b & v5 & es & zero & rows & Hb & -> & E & ->). apply K2 in Hf. destruct Hf as (d & s & lo & hi & Hd & L & Rg & ->). cbn [absolute_start relative_start relative_end] in *.
      rewrite (table_entry_row smap b v5 es zero rows r) in E3. destruct (table_entry v5 es zero (r_file r)) as [e|] eqn:T; [|discriminate]. cbn in E3. injection E3 as E3.
      exists b, v5, es, zero, rows, r, e, d, s, lo, hi. repeat (split; [first [assumption | now apply has_range_code | reflexivity]|]). reflexivity.
    + intros (u & v5 & es & zero & rows & r & e & d & s & lo & hi & Hu & Hc & E & Hr & E1 & E2 & T & Ep & Hd & L & Rg & C & ->). split; [destruct K1 as [K1 | K1]; [exact K1 | destruct (K1 d s Hd L)]|].
      exists (view_unit smap (sunit_of u)), (LProg v5 (map (file_entry_to_path smap (bu_comp u)) es) (option_map (file_entry_to_path smap (bu_comp u)) zero) rows), r.
      eexists. split; [cbn [view_file d_units sfile_of sf_units]; rewrite map_map; now apply (in_map (fun x => view_unit smap (sunit_of x)))|]. split; [now apply has_range_code|]. split; [cbn [view_unit u_prog sunit_of su_table su_comp]; rewrite E; reflexivity|]. split; [exact Hr|]. split; [exact E1|]. split; [exact E2|].
      split; [rewrite table_entry_row, T; cbn; now rewrite Ep|]. split; [apply K2; exists d, s, lo, hi; split; [exact Hd|]; split; [exact L|]; split; [exact Rg | reflexivity]|]. cbn [absolute_start relative_start relative_end]. auto.
Qed.

(** The address answered for FILE:LINE is that of code of the source meant, of the nearest line at or after LINE with
    code in any debug file; none is answered exactly when there is no such source or no such line. *)
Theorem source_line_located_partial : forall file line, 0 <= line ->
  (forall f, In f (bi_files B) -> readable_file h f /\ ordinary_lines smap h f) ->
  exists n0, forall n, (n0 <= n)%nat -> exists o, find_address sort smap n B file line = Ok o /\
  match o with
  | Some a => exists p l f, requested smap (bi_files B) (components file) p /\ line <= l /\ In f (bi_files B) /\ line_code smap h f p l a /\
      forall f' l' b, In f' (bi_files B) -> line_code smap h f' p l' b -> line <= l' -> l <= l'
  | None => (forall f p, In f (bi_files B) -> mentions smap f p -> ~ suffix_of (components file) p) \/
      exists p, requested smap (bi_files B) (components file) p /\ forall f l b, In f (bi_files B) -> line_code smap h f p l b -> l < line
  end.
Proof.
  intros file line Hl Files.
  assert (K : exists n0, forall n, (n0 <= n)%nat -> forall f, In f (bi_files B) -> rust_only (sfile_of n B f) /\ ordinary_file (view_file smap (sfile_of n B f)) /\
    forall p l a, (d_indexed (view_file smap (sfile_of n B f)) = true /\ code_at (view_file smap (sfile_of n B f)) p l a) <-> line_code smap h f p l a).
  { induction (bi_files B) as [|f l IH]; [exists 0%nat; intros n _ f []|]. destruct (IH (fun g Hg => Files g (or_intror Hg))) as (n1 & I1). destruct (Files f (or_introl eq_refl)) as [R O]. destruct (file_lines f R O) as (n2 & I2).
    exists (n1 + n2)%nat. intros n Hn g [<- | Hg]; [apply I2; lia | apply I1; [lia | exact Hg]]. }
  destruct K as (n0 & K). exists n0. intros n Hn. specialize (K n Hn).
  assert (CA : forall p l a, code_anywhere (map (view_file smap) (map (sfile_of n B) (bi_files B))) p l a <-> exists f, In f (bi_files B) /\ line_code smap h f p l a).
  { intros p l a. unfold code_anywhere. rewrite map_map. split.
    - intros (g & Hg & C). apply in_map_iff in Hg. destruct Hg as (f & <- & Hf). exists f. split; [exact Hf|]. now apply (K f Hf).
    - intros (f & Hf & C). exists (view_file smap (sfile_of n B f)). split; [now apply (in_map (fun x => view_file smap (sfile_of n B x)))|]. now apply (K f Hf). }
  destruct (line_found_anywhere_partial smap sort (map (sfile_of n B) (bi_files B)) file line Hsort Hl) as (o & E & M).
  - apply Forall_map. apply Forall_forall. intros f Hf. apply (K f Hf).
  - apply Forall_map. apply Forall_forall. intros f Hf. apply (K f Hf).
  - exists o. split; [exact E|]. destruct o as [a|].
    + destruct M as (p & l & D & L & C & Mi). apply CA in C. destruct C as (f & Hf & C). exists p, l, f. split; [now apply (designates_requested n)|]. split; [exact L|]. split; [exact Hf|]. split; [exact C|].
      intros f' l' b Hf' C' L'. apply (Mi l' b); [apply CA; eauto | exact L'].
    + destruct M as [M | (p & D & M)]; [left | right].
      * intros f p Hf Me. apply (M (sfile_of n B f)); [now apply in_map | now apply lists_mentions].
      * exists p. split; [now apply (designates_requested n)|]. intros f l b Hf C. apply (M l b). apply CA. eauto.
Qed.
End Lines.
Print Assumptions source_line_located_partial.
