(** C35, C36, C37, C51, C52: source lines and addresses. *)
From Coq Require Import Ascii String List ZArith NArith Bool Lia Permutation.
From Coq Require Import ZifyBool ZifyNat ZifyN.
From Verif Require Import Base OMap AddrModel AddrSpec AddrProofs AddrProps SymModel SymSpec SymProofs SymProps PathModel PathProps LinesModel.
Import ListNotations.
Open Scope Z_scope.

(** C51. The range of a unit is the smallest interval that covers all of its ranges. *)
Theorem unit_range_is_hull : forall rs,
  match to_range (Ok rs) with
  | Ok (Some (lo, hi)) =>
      (forall r, In r rs -> lo <= fst r /\ snd r <= hi) /\ (exists r, In r rs /\ fst r = lo) /\ (exists r, In r rs /\ snd r = hi)
  | Ok None => rs = []
  | _ => False
  end.
Proof.
  intros rs. unfold to_range. cbn [bind].
  assert (G : forall rs acc, match acc with
      | (Some l, Some h) => exists lo hi, fold_left range_step rs acc = (Some lo, Some hi) /\ lo <= l /\ h <= hi /\
          (forall r, In r rs -> lo <= fst r /\ snd r <= hi) /\ (lo = l \/ exists r, In r rs /\ fst r = lo) /\ (hi = h \/ exists r, In r rs /\ snd r = hi)
      | _ => True end).
  { induction rs0 as [|r rs0 IH]; intros [[l|] [h|]]; try exact I.
    - exists l, h. cbn. repeat split; auto; try lia; intros ? [].
    - cbn [fold_left range_step]. specialize (IH (Some (if fst r <? l then fst r else l), Some (if h <? snd r then snd r else h))). cbv beta iota in IH.
      replace (if fst r <? l then Some (fst r) else Some l) with (Some (if fst r <? l then fst r else l)) by (destruct (fst r <? l); reflexivity).
      replace (if h <? snd r then Some (snd r) else Some h) with (Some (if h <? snd r then snd r else h)) by (destruct (h <? snd r); reflexivity).
      destruct IH as (lo & hi & F & H1 & H2 & H3 & H4 & H5). exists lo, hi. split; [exact F|].
      destruct (fst r <? l) eqn:Q1; destruct (h <? snd r) eqn:Q2; (split; [lia|]; split; [lia|]; split; [intros x [<- | Hx]; [lia | apply H3; exact Hx]|]);
        (split; [destruct H4 as [-> | (x & X1 & X2)]; [(left; reflexivity) || (right; exists r; split; [left; reflexivity | reflexivity]) | right; exists x; split; [right; exact X1 | exact X2]]
                | destruct H5 as [-> | (x & X1 & X2)]; [(left; reflexivity) || (right; exists r; split; [left; reflexivity | reflexivity]) | right; exists x; split; [right; exact X1 | exact X2]]]). }
  destruct rs as [|r rs]; [reflexivity|]. cbn [fold_left range_step]. specialize (G rs (Some (fst r), Some (snd r))). cbv beta iota in G.
  destruct G as (lo & hi & F & H1 & H2 & H3 & H4 & H5). rewrite F. split; [intros x [<- | Hx]; [lia | apply H3; exact Hx]|].
  split; [destruct H4 as [-> | (x & X1 & X2)]; [exists r; split; [left; reflexivity | reflexivity] | exists x; split; [right; exact X1 | exact X2]]
         | destruct H5 as [-> | (x & X1 & X2)]; [exists r; split; [left; reflexivity | reflexivity] | exists x; split; [right; exact X1 | exact X2]]].
Qed.
Print Assumptions unit_range_is_hull.
Example hull_example : to_range (Ok [(64, 80); (16, 32); (48, 128)]) = Ok (Some (16, 128)).
Proof. reflexivity. Qed.

(** C36. The row that answers for an address: not an end of sequence, at exactly that address, with a line and a
    file. *)
Definition answers (p : lprog) (a : Z) (r : row) : Prop :=
  r_end r = false /\ r_addr r = a /\ r_line r <> None /\ row_file p r <> None.
Definition row_location (p : lprog) (r : row) (l : sloc) : Prop :=
  exists f line, row_file p r = Some (Some f) /\ r_line r = Some line /\ l = (f, line, if r_col r =? 0 then None else Some (r_col r)).
Lemma find_row_spec p a rows :
  match find_row p a rows with
  | Some l => exists before r after, rows = before ++ r :: after /\ answers p a r /\ (forall x, In x before -> ~ answers p a x) /\ row_location p r l
  | None => (forall r, In r rows -> ~ answers p a r) \/
            exists before r after, rows = before ++ r :: after /\ answers p a r /\ (forall x, In x before -> ~ answers p a x) /\ row_file p r = Some None
  end.
Proof.
  induction rows as [|r rows IH]; [left; intros ? []|]. cbn [find_row].
  assert (Skip : ~ answers p a r -> match find_row p a rows with
    | Some l => exists before r' after, r :: rows = before ++ r' :: after /\ answers p a r' /\ (forall x, In x before -> ~ answers p a x) /\ row_location p r' l
    | None => (forall r', In r' (r :: rows) -> ~ answers p a r') \/
        exists before r' after, r :: rows = before ++ r' :: after /\ answers p a r' /\ (forall x, In x before -> ~ answers p a x) /\ row_file p r' = Some None end).
  { intros N. destruct (find_row p a rows) as [l|].
    - destruct IH as (b & x & c & -> & H2 & H3 & H4). exists (r :: b), x, c. repeat split; auto; [apply H2.. |]. intros y [<- | Hy]; auto.
    - destruct IH as [IH | (b & x & c & -> & H2 & H3 & H4)]; [left; intros y [<- | Hy]; auto|].
      right. exists (r :: b), x, c. repeat split; auto; [apply H2.. |]. intros y [<- | Hy]; auto. }
  destruct (r_end r) eqn:Q1. { apply Skip. intros (H & _). congruence. }
  destruct (r_addr r =? a) eqn:Q2; [|apply Skip; intros (_ & H & _); lia].
  destruct (r_line r) as [line|] eqn:Q3; [|apply Skip; intros (_ & _ & H & _); congruence].
  destruct (row_file p r) as [[f|]|] eqn:Q4; [| |apply Skip; intros (_ & _ & _ & H); congruence].
  - exists [], r, rows. split; [reflexivity|]. split; [repeat split; [exact Q1 | lia | congruence | congruence]|]. split; [intros ? []|].
    exists f, line. repeat split; auto.
  - right. exists [], r, rows. split; [reflexivity|]. split; [repeat split; [exact Q1 | lia | congruence | congruence]|]. split; [intros ? [] | exact Q4].
Qed.
Theorem address_to_line_exact_partial : forall u p a, u_prog u = Some p ->
  (forall l, address_to_location u a = Some l ->
     exists before r after, lp_rows p = before ++ r :: after /\ answers p a r /\ (forall x, In x before -> ~ answers p a x) /\ row_location p r l) /\
  (Forall (fun f => f <> None) (lp_files p) -> lp_comp p <> Some None -> address_to_location u a = None ->
     forall r, In r (lp_rows p) -> ~ answers p a r).
Proof.
  intros u p a Hu. unfold address_to_location. rewrite Hu. pose proof (find_row_spec p a (lp_rows p)) as S. split.
  - intros l Hl. rewrite Hl in S. exact S.
  - intros HF HC HN. rewrite HN in S. destruct S as [S | (b & r & c & _ & _ & _ & S)]; [exact S|]. exfalso.
    unfold row_file in S. rewrite Forall_forall in HF.
    destruct (lp_v5 p); [apply nth_error_In in S; apply HF in S; congruence|].
    destruct (r_file r =? 0); [congruence | apply nth_error_In in S; apply HF in S; congruence].
Qed.
Print Assumptions address_to_line_exact_partial.
(** Addresses between two rows have no location, although the first row covers them. *)
Theorem mid_row_address_refuted : exists u p before r1 r2,
  u_prog u = Some p /\ lp_rows p = before ++ [r1; r2] /\ r_end r1 = false /\ r_line r1 <> None /\ r_addr r1 < r_addr r2 /\
  (exists a, r_addr r1 < a < r_addr r2 /\ address_to_location u a = None) /\ address_to_location u (r_addr r1) <> None.
Proof.
  set (p := LProg false [Some [CName (st "m.rs")]] None [Row 16 1 (Some 3) 0 false; Row 24 1 (Some 4) 0 true]).
  exists (CUnit (Ok [(16, 24)]) (Some p)), p, [], (Row 16 1 (Some 3) 0 false), (Row 24 1 (Some 4) 0 true).
  repeat split; try (cbn; lia || discriminate). exists 20. split; [cbn; lia | reflexivity].
Qed.
Print Assumptions mid_row_address_refuted.

(** C35. [file:line] has code at (absolute) address [a] in debug file [d]: a row of a unit with an address range
    says so, and a function contains it. *)
Definition code_at (d : dfile) (file : path) (line a : Z) : Prop :=
  exists u p r f, In u (d_units d) /\ has_range u = true /\ u_prog u = Some p /\ In r (lp_rows p) /\
    r_end r = false /\ r_line r = Some line /\ row_file p r = Some (Some file) /\
    In f (d_funcs d) /\ relative_start f <= r_addr r < relative_end f /\ a = absolute_start f + (r_addr r - relative_start f).
(** Ordinary line tables: before DWARF 5, file indices start at 1, no path twice. *)
Definition ordinary (p : lprog) : Prop :=
  lp_v5 p = false /\ (forall r, In r (lp_rows p) -> 1 <= r_file r) /\
  (forall i j f, nth_error (lp_files p) i = Some (Some f) -> nth_error (lp_files p) j = Some (Some f) -> i = j).
Definition u64_last : Z := 18446744073709551615.
Definition ordinary_file (d : dfile) : Prop :=
  (forall u p, In u (d_units d) -> u_prog u = Some p -> ordinary p) /\
  (forall u p r f, In u (d_units d) -> u_prog u = Some p -> In r (lp_rows p) -> In f (d_funcs d) ->
     0 <= absolute_start f /\ 0 <= relative_start f /\ 0 <= r_addr r /\ absolute_start f + r_addr r < two64) /\
  (forall u p r l, In u (d_units d) -> u_prog u = Some p -> In r (lp_rows p) -> r_line r = Some l -> l < u64_last).

Section Scan.
  Variable sort : (finfo -> Z) -> list finfo -> list finfo.
  Hypothesis Hsort : sorts sort.

  Definition cand (funcs : list finfo) (idx : Z) (r : row) (l a : Z) : Prop :=
    r_end r = false /\ r_file r = idx /\ r_line r = Some l /\
    exists f, In f funcs /\ relative_start f <= r_addr r < relative_end f /\ a = absolute_start f + (r_addr r - relative_start f).
  Definition safe (funcs : list finfo) (rows : list row) : Prop :=
    forall r f, In r rows -> In f funcs -> 0 <= absolute_start f /\ 0 <= relative_start f /\ 0 <= r_addr r /\ absolute_start f + r_addr r < two64.

  Lemma query_rel_spec funcs a :
    match query_address (address_tree_new sort funcs) a false with
    | [] => forall f, In f funcs -> ~ (relative_start f <= a < relative_end f)
    | f :: _ => In f funcs /\ relative_start f <= a < relative_end f
    end.
  Proof.
    destruct (address_lookup_exact sort funcs a false Hsort) as [H1 (rest & HP & H2)].
    destruct (query_address _ a false) as [|f l].
    - intros f Hf. apply (H2 f). apply (Permutation_in _ HP) in Hf. exact Hf.
    - split; [|exact (H1 f (or_introl eq_refl))]. apply (Permutation_in _ (Permutation_sym HP)). left. reflexivity.
  Qed.

  Lemma scan_rows_spec funcs idx target rows : forall best, safe funcs rows ->
    exists stop best', scan_rows sort funcs idx target rows best = Ok (stop, best') /\
      (best' = best \/ exists r l a, In r rows /\ cand funcs idx r l a /\ target <= l /\ best' = Some (a, l - target)) /\
      (forall r l a, In r rows -> cand funcs idx r l a -> target <= l -> exists b d, best' = Some (b, d) /\ d <= l - target) /\
      (forall b d, best = Some (b, d) -> exists b' d', best' = Some (b', d') /\ d' <= Z.max d 0) /\
      (stop = true -> exists b, best' = Some (b, 0)).
  Proof.
    induction rows as [|r rows IH]; intros best HS.
    - exists false, best. split; [reflexivity|]. split; [left; reflexivity|]. split; [intros ? ? ? []|]. split; [intros b d ->; exists b, d; split; [reflexivity | lia]|discriminate].
    - assert (HS' : safe funcs rows) by (intros x f Hx; apply HS; right; exact Hx).
      assert (Skip : (forall l a, cand funcs idx r l a -> target <= l -> exists b d, best = Some (b, d) /\ (d <= l - target)) ->
        exists stop best', scan_rows sort funcs idx target rows best = Ok (stop, best') /\
          (best' = best \/ exists r' l a, In r' (r :: rows) /\ cand funcs idx r' l a /\ target <= l /\ best' = Some (a, l - target)) /\
          (forall r' l a, In r' (r :: rows) -> cand funcs idx r' l a -> target <= l -> exists b d, best' = Some (b, d) /\ d <= l - target) /\
          (forall b d, best = Some (b, d) -> exists b' d', best' = Some (b', d') /\ d' <= Z.max d 0) /\
          (stop = true -> exists b, best' = Some (b, 0))).
      { intros HN. destruct (IH best HS') as (stop & best' & E & H1 & H2 & H3 & H4). exists stop, best'. split; [exact E|].
        split; [destruct H1 as [H1 | (x & l & a & X1 & X2)]; [left; exact H1 | right; exists x, l, a; split; [right; exact X1 | exact X2]]|].
        split; [|split; [exact H3 | exact H4]].
        intros x l a [<- | Hx] C L; [|apply (H2 x l a Hx C L)]. destruct (HN l a C L) as (b & d & Hb & Hd).
        destruct (H3 b d Hb) as (b' & d' & Hb' & Hd'). exists b', d'. split; [exact Hb' | lia]. }
      cbn [scan_rows]. destruct (r_end r) eqn:Q1. { apply Skip. intros l a (C & _). congruence. }
      destruct (r_file r =? idx) eqn:Q2; [|apply Skip; intros l a (_ & C & _); lia].
      destruct (r_line r) as [line|] eqn:Q3; [|apply Skip; intros l a (_ & _ & C & _); congruence].
      destruct (line <? target) eqn:Q4. { apply Skip. intros l a (_ & _ & C & _) L. rewrite Q3 in C. injection C as <-. lia. }
      destruct (match best with None => true | Some (_, d) => line - target <? d end) eqn:Q5.
      2:{ apply Skip. intros l a (_ & _ & C & _) L. rewrite Q3 in C. injection C as <-. destruct best as [[b d]|]; [|discriminate]. exists b, d. split; [reflexivity | lia]. }
      pose proof (query_rel_spec funcs (r_addr r)) as QS. destruct (query_address _ (r_addr r) false) as [|f fs].
      { apply Skip. intros l a (_ & _ & _ & f & F1 & F2 & _). exfalso. exact (QS f F1 F2). }
      destruct QS as [F1 F2]. destruct (HS r f (or_introl eq_refl) F1) as (A1 & A0 & A2 & A3).
      unfold add64, sub64, u64_ok, bind.
      replace ((0 <=? absolute_start f + r_addr r) && (absolute_start f + r_addr r <? two64)) with true by lia.
      replace ((0 <=? absolute_start f + r_addr r - relative_start f) && (absolute_start f + r_addr r - relative_start f <? two64)) with true by lia.
      replace (absolute_start f + r_addr r - relative_start f) with (absolute_start f + (r_addr r - relative_start f)) by lia.
      assert (C : cand funcs idx r line (absolute_start f + (r_addr r - relative_start f))).
      { split; [exact Q1|]. split; [lia|]. split; [exact Q3|]. exists f. auto. }
      destruct (line - target =? 0) eqn:Q7.
      + eexists true, _. split; [reflexivity|].
        split. { right. exists r, line, (absolute_start f + (r_addr r - relative_start f)). split; [left; reflexivity|]. split; [exact C|]. split; [lia|]. do 2 f_equal. lia. }
        split; [intros x l a _ _ L; eexists _, 0; split; [reflexivity | lia]|].
        split; [intros b d _; eexists _, 0; split; [reflexivity | lia]|]. intros _. eexists. reflexivity.
      + destruct (IH (Some (absolute_start f + (r_addr r - relative_start f), line - target)) HS') as (stop & best' & E & H1 & H2 & H3 & H4).
        exists stop, best'. split; [exact E|]. destruct (H3 _ _ eq_refl) as (b' & d' & Hb' & Hd').
        split. { right. destruct H1 as [H1 | (x & l & a & X1 & X2)]; [exists r, line, (absolute_start f + (r_addr r - relative_start f)); split; [left; reflexivity | split; [exact C | split; [lia | exact H1]]]
                | exists x, l, a; split; [right; exact X1 | exact X2]]. }
        split. { intros x l a [<- | Hx] C' L; [|apply (H2 x l a Hx C' L)]. exists b', d'. split; [exact Hb'|].
                 destruct C' as (_ & _ & C' & _). rewrite Q3 in C'. injection C' as <-. lia. }
        split; [|exact H4]. intros b d Hb. exists b', d'. split; [exact Hb'|]. rewrite Hb in Q5. lia.
  Qed.

  (** Lookup of the file index. *)
  Lemma file_index_spec f fs : forall i,
    match file_index fs f i with
    | Some k => exists n, nth_error fs n = Some (Some f) /\ k = i + Z.of_nat n + 1
    | None => forall n, nth_error fs n <> Some (Some f)
    end.
  Proof.
    induction fs as [|x fs IH]; intros i; cbn [file_index]; [intros [|n]; discriminate|].
    assert (P : match x with Some y => path_eqb y f | None => false end = true <-> x = Some f).
    { destruct x as [y|]; [|split; discriminate]. unfold path_eqb. rewrite fpath_eqb_eq. split; congruence. }
    destruct (match x with Some y => path_eqb y f | None => false end).
    - exists 0%nat. split; [cbn; f_equal; apply P; reflexivity | lia].
    - specialize (IH (i + 1)). destruct (file_index fs f (i + 1)).
      + destruct IH as (n & H & ->). exists (S n). split; [exact H | lia].
      + intros [|n]; [cbn; intros H; injection H as H; apply P in H; discriminate | apply IH].
  Qed.

  Definition code_in (funcs : list finfo) (us : list cunit) (file : path) (line a : Z) : Prop :=
    exists u p r f, In u us /\ u_prog u = Some p /\ In r (lp_rows p) /\
      r_end r = false /\ r_line r = Some line /\ row_file p r = Some (Some file) /\
      In f funcs /\ relative_start f <= r_addr r < relative_end f /\ a = absolute_start f + (r_addr r - relative_start f).
  Definition good_units (funcs : list finfo) (us : list cunit) : Prop :=
    forall u p, In u us -> u_prog u = Some p -> ordinary p /\ safe funcs (lp_rows p).

  Lemma scan_units_spec funcs file target us : forall best, good_units funcs us ->
    exists best', scan_units sort funcs file target us best = Ok best' /\
      (best' = best \/ exists l a, code_in funcs us file l a /\ target <= l /\ best' = Some (a, l - target)) /\
      (forall l a, code_in funcs us file l a -> target <= l -> exists b d, best' = Some (b, d) /\ d <= l - target) /\
      (forall b d, best = Some (b, d) -> exists b' d', best' = Some (b', d') /\ d' <= Z.max d 0).
  Proof.
    induction us as [|u us IH]; intros best HG.
    - exists best. split; [reflexivity|]. split; [left; reflexivity|]. split; [intros l a (u & ? & ? & ? & [] & _)|].
      intros b d ->. exists b, d. split; [reflexivity | lia].
    - assert (HG' : good_units funcs us) by (intros x p Hx; apply HG; right; exact Hx).
      assert (Mono : forall l a, code_in funcs us file l a -> code_in funcs (u :: us) file l a).
      { intros l a (x & p & r & f & H & R). exists x, p, r, f. split; [right; exact H | exact R]. }
      assert (Skip : (forall p r, u_prog u = Some p -> In r (lp_rows p) -> row_file p r <> Some (Some file)) ->
        exists best', scan_units sort funcs file target us best = Ok best' /\
          (best' = best \/ exists l a, code_in funcs (u :: us) file l a /\ target <= l /\ best' = Some (a, l - target)) /\
          (forall l a, code_in funcs (u :: us) file l a -> target <= l -> exists b d, best' = Some (b, d) /\ d <= l - target) /\
          (forall b d, best = Some (b, d) -> exists b' d', best' = Some (b', d') /\ d' <= Z.max d 0)).
      { intros HN. destruct (IH best HG') as (best' & E & H1 & H2 & H3). exists best'. split; [exact E|].
        split; [destruct H1 as [H1 | (l & a & C & R)]; [left; exact H1 | right; exists l, a; split; [apply Mono; exact C | exact R]]|].
        split; [|exact H3]. intros l a (x & p & r & f & [<- | Hx] & R) L.
        - exfalso. apply (HN p r); tauto.
        - apply (H2 l a); [exists x, p, r, f; split; [exact Hx | exact R] | exact L]. }
      assert (InRoot : forall p n, u_prog u = Some p -> nth_error (lp_files p) n = Some (Some file) -> existsb (path_eqb file) (root_files u) = true).
      { intros p n Hp Hn. apply existsb_exists. exists file. split; [|apply fpath_eqb_eq; reflexivity]. unfold root_files. rewrite Hp.
        apply in_flat_map. exists (Some file). split; [eapply nth_error_In; exact Hn | left; reflexivity]. }
      assert (RowIdx : forall p r, u_prog u = Some p -> In r (lp_rows p) -> row_file p r = Some (Some file) -> 1 <= r_file r /\ nth_error (lp_files p) (Z.to_nat (r_file r - 1)) = Some (Some file)).
      { intros p r Hp Hr HF. destruct (HG u p (or_introl eq_refl) Hp) as [(O1 & O2 & _) _]. unfold row_file in HF. rewrite O1 in HF.
        pose proof (O2 r Hr). replace (r_file r =? 0) with false in HF by lia. split; [lia | exact HF]. }
      cbn [scan_units]. destruct (existsb (path_eqb file) (root_files u)) eqn:Q1.
      2:{ apply Skip. intros p r Hp Hr HF. destruct (RowIdx p r Hp Hr HF) as [_ H]. pose proof (InRoot p _ Hp H). congruence. }
      destruct (u_prog u) as [p|] eqn:Q2.
      2:{ unfold root_files in Q1. rewrite Q2 in Q1. discriminate. }
      pose proof (file_index_spec file (lp_files p) 0) as FI. destruct (file_index (lp_files p) file 0) as [idx|].
      2:{ apply Skip. intros p' r Hp Hr HF. assert (p' = p) by congruence. subst p'. destruct (RowIdx p r eq_refl Hr HF) as [_ H]. exact (FI _ H). }
      destruct FI as (n & Hn & ->). destruct (HG u p (or_introl eq_refl) Q2) as [(O1 & O2 & O3) HS].
      assert (Cand : forall r l a, In r (lp_rows p) -> (cand funcs (0 + Z.of_nat n + 1) r l a <->
          r_end r = false /\ r_line r = Some l /\ row_file p r = Some (Some file) /\ exists f, In f funcs /\ relative_start f <= r_addr r < relative_end f /\ a = absolute_start f + (r_addr r - relative_start f))).
      { intros r l a Hr. unfold cand. split.
        - intros (C1 & C2 & C3 & C4). split; [exact C1|]. split; [exact C3|]. split; [|exact C4]. unfold row_file. rewrite O1.
          replace (r_file r =? 0) with false by lia. replace (Z.to_nat (r_file r - 1)) with n by lia. exact Hn.
        - intros (C1 & C2 & C3 & C4). split; [exact C1|]. split; [|split; [exact C2 | exact C4]].
          destruct (RowIdx p r eq_refl Hr C3) as [R1 R2]. pose proof (O3 _ _ _ Hn R2). lia. }
      destruct (scan_rows_spec funcs (0 + Z.of_nat n + 1) target (lp_rows p) best HS) as (stop & b1 & E1 & S1 & S2 & S3 & S4).
      rewrite E1. cbn [bind].
      assert (Src1 : b1 = best \/ exists l a, code_in funcs (u :: us) file l a /\ target <= l /\ b1 = Some (a, l - target)).
      { destruct S1 as [S1 | (r & l & a & R & C & L & B)]; [left; exact S1|]. right. exists l, a. split; [|split; [exact L | exact B]].
        apply Cand in C; [|exact R]. destruct C as (C1 & C2 & C3 & f & C4). exists u, p, r, f. split; [left; reflexivity|]. tauto. }
      assert (Min1 : forall l a, code_in funcs [u] file l a -> target <= l -> exists b d, b1 = Some (b, d) /\ d <= l - target).
      { intros l a (x & p' & r & f & [<- | []] & Hp & Hr & R) L. rewrite Q2 in Hp. injection Hp as <-. apply (S2 r l a Hr); [|exact L].
        apply Cand; [exact Hr|]. destruct R as (R1 & R2 & R3 & R4). split; [exact R1|]. split; [exact R2|]. split; [exact R3|]. exists f. exact R4. }
      destruct stop.
      + destruct (S4 eq_refl) as [b0 B0]. exists b1. split; [reflexivity|]. split; [exact Src1|].
        split; [intros l a C L; exists b0, 0; split; [exact B0 | lia]|]. intros b d _. exists b0, 0. split; [exact B0 | lia].
      + destruct (IH b1 HG') as (b2 & E2 & T1 & T2 & T3). exists b2. split; [exact E2|].
        split. { destruct T1 as [-> | (l & a & C & R)]; [exact Src1 | right; exists l, a; split; [apply Mono; exact C | exact R]]. }
        split.
        * intros l a (x & p' & r & f & [<- | Hx] & R) L.
          -- destruct (Min1 l a) as (b & d & B & D); [exists u, p', r, f; split; [left; reflexivity | exact R] | exact L|].
             destruct (T3 b d B) as (b' & d' & B' & D'). exists b', d'. split; [exact B' | lia].
          -- apply (T2 l a); [exists x, p', r, f; split; [exact Hx | exact R] | exact L].
        * intros b d B. destruct (S3 b d B) as (b' & d' & B' & D'). destruct (T3 b' d' B') as (b'' & d'' & B'' & D''). exists b'', d''. split; [exact B'' | ].
          lia.
  Qed.
End Scan.

(** C35, one debug file. *)
Theorem line_to_address_nearest_partial : forall sort d file target, sorts sort -> ordinary_file d ->
  exists o, location_to_address sort d file target = Ok o /\
  match o with
  | Some (a, dist) => 0 <= dist /\ code_at d file (target + dist) a /\ (forall l b, code_at d file l b -> target <= l -> target + dist <= l)
  | None => forall l b, code_at d file l b -> l < target
  end.
Proof.
  intros sort d file target HS (O1 & O2 & O3).
  assert (HG : good_units (d_funcs d) (roots d)).
  { intros u p Hu Hp. unfold roots in Hu. apply filter_In in Hu. destruct Hu as [Hu _]. split; [exact (O1 u p Hu Hp)|].
    intros r f Hr Hf. exact (O2 u p r f Hu Hp Hr Hf). }
  assert (Iff : forall l a, code_in (d_funcs d) (roots d) file l a <-> code_at d file l a).
  { intros l a. unfold code_in, code_at, roots. split; intros (u & p & r & f & H).
    - exists u, p, r, f. rewrite filter_In in H. tauto.
    - exists u, p, r, f. rewrite filter_In. tauto. }
  destruct (scan_units_spec sort HS (d_funcs d) file target (roots d) None HG) as (o & E & H1 & H2 & _).
  exists o. split; [exact E|]. destruct o as [[a dist]|].
  - destruct H1 as [H1 | (l & a' & C & L & B)]; [discriminate|]. injection B as <- ->. split; [lia|].
    replace (target + (l - target)) with l by lia. split; [apply Iff; exact C|].
    intros l' b C' L'. destruct (H2 l' b) as (b' & d' & B' & D'); [apply Iff; exact C' | exact L'|]. injection B' as <- <-. lia.
  - intros l b C. destruct (Z_lt_ge_dec l target) as [|G]; [assumption|]. destruct (H2 l b) as (b' & d' & B' & _); [apply Iff; exact C | lia | discriminate].
Qed.
Print Assumptions line_to_address_nearest_partial.

(** C35, all debug files that mention the file. *)
Definition code_anywhere (ds : list dfile) (file : path) (line a : Z) : Prop := exists d, In d ds /\ d_indexed d = true /\ code_at d file line a.
Theorem position_lookup_nearest_partial : forall sort sources file target ds,
  sorts sort -> 0 <= target -> find (fun e => path_eqb (fst e) file) sources = Some (file, ds) -> Forall ordinary_file ds ->
  exists o, lookup_position sort sources file target = Ok o /\
  match o with
  | Some a => exists line, target <= line /\ code_anywhere ds file line a /\ (forall l b, code_anywhere ds file l b -> target <= l -> line <= l)
  | None => forall l b, code_anywhere ds file l b -> l < target
  end.
Proof.
  intros sort sources file target ds HS HT HF HO. unfold lookup_position. rewrite HF. cbn [snd]. clear HF.
  assert (G : forall ds best, Forall ordinary_file ds -> (forall b c, best = Some (b, c) -> 0 < c < u64_last) ->
    exists o, scan_files sort file target ds best = Ok o /\
    match o with
    | Some a => exists dist, 0 <= dist /\ (best = Some (a, dist) \/ code_anywhere ds file (target + dist) a) /\
        (forall b c, best = Some (b, c) -> dist <= c) /\ (forall l b, code_anywhere ds file l b -> target <= l -> target + dist <= l)
    | None => best = None /\ forall l b, code_anywhere ds file l b -> l < target
    end).
  { clear HO ds. induction ds as [|d ds IH]; intros best HO HB.
    - exists (option_map fst best). split; [reflexivity|]. destruct best as [[b c]|]; cbn.
      + exists c. pose proof (HB b c eq_refl). split; [lia|]. split; [left; reflexivity|]. split; [intros b' c' B; injection B as <- <-; lia|]. intros l b' (x & [] & _).
      + split; [reflexivity|]. intros l b (x & [] & _).
    - inversion HO as [|? ? HO1 HO2]; subst. cbn [scan_files].
      assert (Skip : (d_indexed d = true -> forall l b, code_at d file l b -> l < target) ->
        exists o, scan_files sort file target ds best = Ok o /\
        match o with
        | Some a => exists dist, 0 <= dist /\ (best = Some (a, dist) \/ code_anywhere (d :: ds) file (target + dist) a) /\
            (forall b c, best = Some (b, c) -> dist <= c) /\ (forall l b, code_anywhere (d :: ds) file l b -> target <= l -> target + dist <= l)
        | None => best = None /\ forall l b, code_anywhere (d :: ds) file l b -> l < target
        end).
      { intros HN. destruct (IH best HO2 HB) as (o & E & H). exists o. split; [exact E|]. destruct o as [a|].
        - destruct H as (dist & P1 & P2 & P3 & P4). exists dist. split; [exact P1|]. split; [destruct P2 as [P2 | (x & X1 & X2)]; [left; exact P2 | right; exists x; split; [right; exact X1 | exact X2]]|].
          split; [exact P3|]. intros l b (x & [<- | Hx] & X1 & X2) L; [specialize (HN X1 l b X2); lia | apply (P4 l b); [exists x; auto | exact L]].
        - destruct H as [P1 P2]. split; [exact P1|]. intros l b (x & [<- | Hx] & X1 & X2); [exact (HN X1 l b X2) | apply (P2 l b); exists x; auto]. }
      destruct (d_indexed d) eqn:QI; [|apply Skip; discriminate].
      destruct (line_to_address_nearest_partial sort d file target HS HO1) as (o1 & E1 & H1). rewrite E1. cbn [bind].
      destruct o1 as [[a dist]|]; [|apply Skip; intros _; exact H1].
      destruct H1 as (D0 & C1 & M1).
      assert (DL : dist < u64_last).
      { destruct C1 as (u & p & r & f & U1 & U2 & U3 & U4 & U5 & U6 & _). destruct HO1 as (_ & _ & O3). specialize (O3 u p r _ U1 U3 U4 U6). lia. }
      set (closest := match best with Some (_, c) => c | None => _ end).
      assert (CL : match best with Some (_, c) => closest = c | None => closest = u64_last end) by (unfold closest; destruct best as [[? ?]|]; reflexivity).
      assert (Here : code_anywhere (d :: ds) file (target + dist) a) by (exists d; split; [left; reflexivity | split; [exact QI | exact C1]]).
      assert (HereMin : forall l b, code_anywhere (d :: ds) file l b -> target <= l -> target + dist <= l \/ code_anywhere ds file l b).
      { intros l b (x & [<- | Hx] & X1 & X2) L; [left; exact (M1 l b X2 L) | right; exists x; auto]. }
      assert (Up : forall l b, code_anywhere ds file l b -> code_anywhere (d :: ds) file l b) by (intros l b (x & X & Y); exists x; split; [right; exact X | exact Y]).
      destruct (dist =? 0) eqn:QD.
      + assert (dist = 0) by lia. subst dist. assert (0 <? closest = true).
        { destruct best as [[b c]|]; [specialize (HB b c eq_refl); lia | unfold u64_last in CL; lia]. }
        rewrite H. exists (Some a). split; [reflexivity|]. exists 0. split; [lia|]. split; [right; exact Here|].
        split; [intros b c B; specialize (HB b c B); lia|]. intros l b _ L. lia.
      + destruct (dist <? closest) eqn:QC.
        * destruct (IH (Some (a, dist)) HO2) as (o & E & H). { intros b c B. injection B as <- <-. lia. }
          exists o. split; [exact E|]. destruct o as [a2|]; [|destruct H; discriminate].
          destruct H as (dist2 & P1 & P2 & P3 & P4). exists dist2. pose proof (P3 a dist eq_refl). split; [exact P1|].
          split. { right. destruct P2 as [P2 | P2]; [injection P2 as <- <-; exact Here | apply Up; exact P2]. }
          split. { intros b c B. rewrite B in CL. lia. }
          intros l b C L. destruct (HereMin l b C L) as [X | X]; [lia | exact (P4 l b X L)].
        * destruct (IH best HO2 HB) as (o & E & H). exists o. split; [exact E|].
          destruct best as [[b0 c0]|]; [|lia].
          destruct o as [a2|]; [|destruct H; discriminate].
          destruct H as (dist2 & P1 & P2 & P3 & P4). exists dist2. pose proof (P3 b0 c0 eq_refl). split; [exact P1|].
          split; [destruct P2 as [P2 | P2]; [left; exact P2 | right; apply Up; exact P2]|]. split; [exact P3|].
          intros l b C L. destruct (HereMin l b C L) as [X | X]; [lia | exact (P4 l b X L)]. }
  destruct (G ds None HO) as (o & E & H); [discriminate|]. exists o. split; [exact E|]. destruct o as [a|].
  - destruct H as (dist & P1 & [P2 | P2] & _ & P4); [discriminate|]. exists (target + dist). split; [lia|]. split; [exact P2 | exact P4].
  - exact (proj2 H).
Qed.
Print Assumptions position_lookup_nearest_partial.
(** A file nobody mentions has no address. *)
Theorem unknown_source_file : forall sort sources file target, find (fun e => path_eqb (fst e) file) sources = None ->
  lookup_position sort sources file target = Ok None.
Proof. intros sort sources file target H. unfold lookup_position. rewrite H. reflexivity. Qed.
Print Assumptions unknown_source_file.

(** DWARF 5 file indices start at 0, but the search always adds one: lines of one file resolve to the code of
    another. *)
Definition ex_fn (s e : Z) (n : string) : finfo :=
  {| absolute_start := 4096 + s; absolute_end := 4096 + e; relative_start := s; relative_end := e; f_file := 0; f_name := st n |}.
Definition ex_prog (v5 : bool) : lprog :=
  LProg v5 [Some [CName (st "a.rs")]; Some [CName (st "b.rs")]] None
    [Row 16 (if v5 then 0 else 1) (Some 3) 0 false; Row 32 (if v5 then 1 else 2) (Some 7) 5 false; Row 48 1 None 0 true].
Definition ex_dfile (v5 : bool) : dfile :=
  DFile [CUnit (Ok [(16, 48)]) (Some (ex_prog v5))] [ex_fn 16 32 "f"; ex_fn 32 48 "g"] [(st "f", 0%nat); (st "g", 0%nat)] true.
Theorem line_to_address_refuted : exists d file line a wrong,
  location_to_address isort d file line = Ok (Some (wrong, 4)) /\ code_at d file line a /\ wrong <> a /\
  forall l, ~ code_at d file l wrong.
Proof.
  exists (ex_dfile true), [CName (st "a.rs")], 3, 4112, 4128. split; [vm_compute; reflexivity|]. split; [|split; [lia|]].
  - exists (CUnit (Ok [(16, 48)]) (Some (ex_prog true))), (ex_prog true), (Row 16 0 (Some 3) 0 false), (ex_fn 16 32 "f").
    cbn. repeat split; try lia; auto.
  - intros l (u & p & r & f & [<- | []] & _ & P & R & X & L & F & [<- | [<- | []]] & C & A); cbn in P; injection P as <-;
      destruct R as [<- | [<- | [<- | []]]]; cbn in *; try discriminate; lia.
Qed.
Print Assumptions line_to_address_refuted.
Lemma ex_ordinary : ordinary_file (ex_dfile false).
Proof.
  split; [|split].
  - intros u p [<- | []] P. cbn in P. injection P as <-. split; [reflexivity|]. split.
    + intros r [<- | [<- | [<- | []]]]; cbn; lia.
    + intros [|[|[|i]]] [|[|[|j]]] f; cbn; congruence.
  - intros u p r f [<- | []] P. cbn in P. injection P as <-. intros [<- | [<- | [<- | []]]] [<- | [<- | []]]; cbn; unfold two64; lia.
  - intros u p r l [<- | []] P. cbn in P. injection P as <-. intros [<- | [<- | [<- | []]]] L; cbn in L; try discriminate; injection L as <-; unfold u64_last; lia.
Qed.
Example line_example : sorts isort /\ ordinary_file (ex_dfile false) /\
  location_to_address isort (ex_dfile false) [CName (st "a.rs")] 2 = Ok (Some (4112, 1)) /\
  location_to_address isort (ex_dfile false) [CName (st "b.rs")] 7 = Ok (Some (4128, 0)) /\
  location_to_address isort (ex_dfile false) [CName (st "b.rs")] 8 = Ok None.
Proof. split; [exact isort_sorts|]. split; [exact ex_ordinary|]. vm_compute. auto. Qed.

(** C61. The source file a request designates: an indexed path equal to it, otherwise one that ends with it. *)
Definition suffix_of (file p : path) : Prop := exists pre, p = pre ++ file.
Lemma path_ends_with_spec p s : path_ends_with p s = true <-> suffix_of s p.
Proof.
  unfold path_ends_with, path_eqb, suffix_of. rewrite andb_true_iff, Nat.leb_le, fpath_eqb_eq. split.
  - intros [L E]. exists (firstn (length p - length s) p). rewrite <- E at 2. symmetry. apply firstn_skipn.
  - intros (pre & ->). rewrite app_length. split; [lia|]. replace (length pre + length s - length s)%nat with (length pre + 0)%nat by lia.
    rewrite skipn_app, Nat.add_0_r, skipn_all2 by lia. rewrite Nat.sub_diag. reflexivity.
Qed.
Theorem source_file_designated : forall sources file,
  match choose_source sources file with
  | Some f => In f (map fst sources) /\ suffix_of file f /\ (In file (map fst sources) -> f = file) /\
      (~ In file (map fst sources) -> exists before after, map fst sources = before ++ f :: after /\ forall g, In g before -> ~ suffix_of file g)
  | None => forall f, In f (map fst sources) -> ~ suffix_of file f
  end.
Proof.
  intros sources file. unfold choose_source. destruct (existsb _ sources) eqn:Q.
  - apply existsb_exists in Q. destruct Q as (e & He & Q). apply fpath_eqb_eq in Q. subst file.
    split; [apply in_map; exact He|]. split; [exists []; reflexivity|]. split; [reflexivity|]. intros N. destruct N. apply in_map. exact He.
  - assert (NI : ~ In file (map fst sources)).
    { intros H. apply in_map_iff in H. destruct H as (e & <- & He). assert (T : existsb (fun x => path_eqb (fst x) (fst e)) sources = true).
      { apply existsb_exists. exists e. split; [exact He | apply fpath_eqb_eq; reflexivity]. } congruence. }
    destruct (find _ sources) as [e|] eqn:F.
    + assert (Q2 : exists l1 l2, sources = l1 ++ e :: l2 /\ forall x, In x l1 -> path_ends_with (fst x) file = false).
      { clear Q NI. revert F. induction sources as [|x l IH]; [discriminate|]. cbn [find]. destruct (path_ends_with (fst x) file) eqn:E.
        - intros F. injection F as ->. exists [], l. split; [reflexivity | intros x []].
        - intros F. destruct (IH F) as (l1 & l2 & -> & A). exists (x :: l1), l2. split; [reflexivity|]. intros y [<- | Hy]; [exact E | exact (A y Hy)]. }
      destruct Q2 as (l1 & l2 & Es & Bf). apply find_some in F. destruct F as [He F]. split; [apply in_map; exact He|]. split; [apply path_ends_with_spec in F; exact F|]. split; [intros H; contradiction|].
      intros _. exists (map fst l1), (map fst l2). split; [rewrite Es, map_app; reflexivity|]. intros g Hg Sg. apply in_map_iff in Hg. destruct Hg as (x & <- & Hx). apply path_ends_with_spec in Sg. rewrite (Bf x Hx) in Sg. discriminate.
    + intros f Hf (pre & ->). apply in_map_iff in Hf. destruct Hf as (e & Q1 & He). pose proof (find_none _ _ F e He) as N. cbv beta in N.
      assert (T : path_ends_with (fst e) file = true) by (apply path_ends_with_spec; rewrite Q1; exists pre; reflexivity). congruence.
Qed.
Print Assumptions source_file_designated.
(** A request by suffix is answered with the code of exactly one indexed file. *)
Theorem source_request_answered_partial : forall sort sources file line o, sorts sort -> 0 <= line ->
  NoDup (map fst sources) -> (forall f ds, In (f, ds) sources -> Forall ordinary_file ds) ->
  find_address_from_source_location sort sources file line = Ok o ->
  match o with
  | Some a => exists f ds l, In (f, ds) sources /\ suffix_of file f /\ line <= l /\ code_anywhere ds f l a /\
      forall l' b, code_anywhere ds f l' b -> line <= l' -> l <= l'
  | None => (forall f, In f (map fst sources) -> ~ suffix_of file f) \/
      exists f ds, In (f, ds) sources /\ suffix_of file f /\ forall l b, code_anywhere ds f l b -> l < line
  end.
Proof.
  intros sort sources file line o HS HL ND HO H. unfold find_address_from_source_location in H.
  pose proof (source_file_designated sources file) as D. destruct (choose_source sources file) as [f|].
  - destruct D as (D1 & D2 & _). apply in_map_iff in D1. destruct D1 as ([f' ds] & Q & He). cbn in Q. subst f'.
    assert (FF : find (fun e => path_eqb (fst e) f) sources = Some (f, ds)).
    { destruct (find _ sources) as [[g es]|] eqn:F.
      - apply find_some in F. destruct F as [Hg F]. cbn in F. apply fpath_eqb_eq in F. subst g. f_equal. f_equal.
        clear - ND He Hg. induction sources as [|[x y] l IH]; [destruct He|]. cbn in ND. inversion ND; subst.
        destruct He as [He | He], Hg as [Hg | Hg]; try congruence.
        + injection He as -> ->. exfalso. apply H1. apply in_map_iff. exists (f, es). auto.
        + injection Hg as -> ->. exfalso. apply H1. apply in_map_iff. exists (f, ds). auto.
        + apply IH; auto.
      - pose proof (find_none _ _ F _ He) as N. cbn in N. assert (T : path_eqb f f = true) by (apply fpath_eqb_eq; reflexivity). unfold path_eqb in *; rewrite T in N; discriminate. }
    destruct (position_lookup_nearest_partial sort sources f line ds HS HL FF (HO f ds He)) as (o' & E & P). rewrite E in H. injection H as <-.
    destruct o' as [a|].
    + destruct P as (l & P1 & P2 & P3). exists f, ds, l. auto.
    + right. exists f, ds. auto.
  - injection H as <-. left. exact D.
Qed.
Print Assumptions source_request_answered_partial.

(** C37. *)
Definition unambiguous (d : dfile) : Prop :=
  (forall f, In f (d_funcs d) -> absolute_end f - absolute_start f = relative_end f - relative_start f) /\
  (forall f g a, In f (d_funcs d) -> In g (d_funcs d) -> covers true a f -> covers true a g -> f = g) /\
  (forall f u p r, In f (d_funcs d) -> In u (d_units d) -> u_prog u = Some p -> In r (lp_rows p) -> r_end r = false ->
     relative_start f <= r_addr r < relative_end f -> unit_of d (f_name f) = Some u) /\
  (forall u p r s, In u (d_units d) -> u_prog u = Some p -> In r (lp_rows p) -> In s (lp_rows p) ->
     answers p (r_addr r) r -> answers p (r_addr r) s -> r_line s = r_line r /\ row_file p s = row_file p r).
Lemma query_abs_spec sort funcs a f : sorts sort -> (In f (query_address (address_tree_new sort funcs) a true) <-> In f funcs /\ covers true a f).
Proof.
  intros HS. destruct (address_lookup_exact sort funcs a true HS) as [H1 (rest & HP & H2)]. split.
  - intros H. split; [|exact (H1 f H)]. apply (Permutation_in _ (Permutation_sym HP)). apply in_or_app. left. exact H.
  - intros [Hf C]. apply (Permutation_in _ HP) in Hf. apply in_app_or in Hf. destruct Hf as [Hf | Hf]; [exact Hf | exfalso; exact (H2 f Hf C)].
Qed.
Theorem line_address_roundtrip_partial : forall sort d file line a, sorts sort -> ordinary_file d -> unambiguous d ->
  location_to_address sort d file line = Ok (Some (a, 0)) ->
  (exists name col, In (name, (file, line, col)) (address_to_locations sort d a)) /\
  (forall name f l col, In (name, (f, l, col)) (address_to_locations sort d a) -> f = file /\ l = line).
Proof.
  intros sort d file line a HS HO (U1 & U2 & U3 & U4) H.
  destruct (line_to_address_nearest_partial sort d file line HS HO) as (o & E & P). rewrite H in E. injection E as <-.
  destruct P as (_ & C & _). rewrite Z.add_0_r in C. destruct C as (u & p & r & f & C1 & C2 & C3 & C4 & C5 & C6 & C7 & C8 & C9 & C10).
  pose proof (U3 f u p r C8 C1 C3 C4 C5 C9) as HU.
  assert (Cov : covers true a f) by (unfold covers, lo, hi; specialize (U1 f C8); lia).
  assert (Rel : relative_start f + (a - absolute_start f) = r_addr r) by lia.
  assert (Ans : answers p (r_addr r) r) by (unfold answers; split; [exact C5 | split; [reflexivity | split; congruence]]).
  assert (Loc : exists col, address_to_location u (r_addr r) = Some (file, line, col)).
  { unfold address_to_location. rewrite C3. pose proof (find_row_spec p (r_addr r) (lp_rows p)) as S.
    destruct (find_row p (r_addr r) (lp_rows p)) as [l|].
    - destruct S as (b & s & c & S1 & S2 & _ & (ff & ll & S3 & S4 & ->)).
      assert (Hs : In s (lp_rows p)) by (rewrite S1; apply in_or_app; right; left; reflexivity).
      destruct (U4 u p r s C1 C3 C4 Hs Ans S2) as [V1 V2]. rewrite S4, C6 in V1. rewrite S3, C7 in V2. injection V1 as ->. injection V2 as ->. eexists. reflexivity.
    - exfalso. destruct S as [S | (b & s & c & S1 & S2 & _ & S3)]; [exact (S r C4 Ans)|].
      assert (Hs : In s (lp_rows p)) by (rewrite S1; apply in_or_app; right; left; reflexivity).
      destruct (U4 u p r s C1 C3 C4 Hs Ans S2) as [_ V2]. congruence. }
  destruct Loc as [col Loc]. split.
  - exists (f_name f), col. unfold address_to_locations. apply in_flat_map. exists f. split; [apply query_abs_spec; [exact HS | split; [exact C8 | exact Cov]]|].
    rewrite HU, Rel, Loc. left. reflexivity.
  - intros name f' l c Hin. unfold address_to_locations in Hin. apply in_flat_map in Hin. destruct Hin as (g & Hg & Hin).
    apply query_abs_spec in Hg; [|exact HS]. destruct Hg as [Hg1 Hg2]. assert (g = f) by (exact (U2 g f a Hg1 C8 Hg2 Cov)). subst g.
    rewrite HU, Rel, Loc in Hin. destruct Hin as [Hin | []]. injection Hin as _ <- <- _. split; reflexivity.
Qed.
Print Assumptions line_address_roundtrip_partial.
(** Two rows at one address: the first line wins and the second does not come back. *)
Theorem roundtrip_ambiguous_refuted : exists d file line a,
  ordinary_file d /\ location_to_address isort d file line = Ok (Some (a, 0)) /\
  address_to_locations isort d a = [(st "f", (file, line - 1, None))].
Proof.
  set (p := LProg false [Some [CName (st "a.rs")]] None [Row 16 1 (Some 3) 0 false; Row 16 1 (Some 4) 0 false; Row 32 1 None 0 true]).
  exists (DFile [CUnit (Ok [(16, 48)]) (Some p)] [ex_fn 16 32 "f"] [(st "f", 0%nat)] true), [CName (st "a.rs")], 4, 4112.
  split; [|split; vm_compute; reflexivity]. split; [|split].
  - intros u q [<- | []] P. cbn in P. injection P as <-. split; [reflexivity|]. split.
    + intros r [<- | [<- | [<- | []]]]; cbn; lia.
    + intros [|[|i]] [|[|j]] f; cbn; try congruence; destruct i; discriminate || destruct j; discriminate.
  - intros u q r f [<- | []] P. cbn in P. injection P as <-. intros [<- | [<- | [<- | []]]] [<- | []]; cbn; unfold two64; lia.
  - intros u q r l [<- | []] P. cbn in P. injection P as <-. intros [<- | [<- | [<- | []]]] L; cbn in L; try discriminate; injection L as <-; unfold u64_last; lia.
Qed.
Print Assumptions roundtrip_ambiguous_refuted.
Example roundtrip_example : unambiguous (ex_dfile false) /\ address_to_locations isort (ex_dfile false) 4128 = [(st "g", ([CName (st "b.rs")], 7, Some 5))].
Proof.
  split; [|vm_compute; reflexivity]. split; [|split; [|split]].
  - intros f [<- | [<- | []]]; reflexivity.
  - intros f g a [<- | [<- | []]] [<- | [<- | []]]; unfold covers; cbn; intros; try reflexivity; lia.
  - intros f u p r [<- | [<- | []]] [<- | []] P; cbn in P; injection P as <-; intros _ _ _; reflexivity.
  - intros u p r s [<- | []] P. cbn in P. injection P as <-. unfold answers. intros [<- | [<- | [<- | []]]] [<- | [<- | [<- | []]]]; cbn; intros A B; try (split; reflexivity); destruct A as (A1 & A2 & _), B as (B1 & B2 & _); try discriminate; lia.
Qed.

(** C52. *)
Theorem address_lookup_sound : forall sort ix files a name loc, sorts sort ->
  lookup_address sort ix files a = Some (name, loc) ->
  exists n d f u, files n = Some d /\ In f (d_funcs d) /\ f_name f = name /\ absolute_start f <= a < absolute_end f /\
    unit_of d name = Some u /\ address_to_location u (relative_start f + (a - absolute_start f)) = Some loc.
Proof.
  intros sort ix files a name loc HS H. unfold lookup_address in H.
  destruct (rev (find_all_by_address sort ix files a)) as [|x l] eqn:R; [discriminate|]. injection H as ->.
  assert (Hin : In (name, loc) (find_all_by_address sort ix files a)) by (apply in_rev; rewrite R; left; reflexivity).
  unfold find_all_by_address in Hin. destruct (function_at_address ix a) as [[b syms]|]; [|destruct Hin].
  apply in_flat_map in Hin. destruct Hin as (n & _ & Hin). destruct (files n) as [d|] eqn:F; [|destruct Hin].
  destruct (d_indexed d); [|destruct Hin]. unfold address_to_locations in Hin. apply in_flat_map in Hin. destruct Hin as (f & Hf & Hin).
  apply query_abs_spec in Hf; [|exact HS]. destruct Hf as [Hf C]. destruct (unit_of d (f_name f)) as [u|] eqn:U; [|destruct Hin].
  destruct (address_to_location u _) as [l'|] eqn:AL; [|destruct Hin]. destruct Hin as [Hin | []]. injection Hin as <- <-.
  exists n, d, f, u. repeat split; auto; apply C.
Qed.
Print Assumptions address_lookup_sound.
Lemma unique_in l : forall seen x, In x l -> ~ In x seen -> In x (unique seen l).
Proof.
  induction l as [|y l IH]; intros seen x H N; [destruct H|]. cbn [unique]. destruct (existsb (N.eqb y) seen) eqn:Q.
  - apply existsb_exists in Q. destruct Q as (z & Hz & Q). apply N.eqb_eq in Q. subst z.
    destruct H as [<- | H]; [contradiction | apply IH; assumption].
  - destruct H as [<- | H]; [left; reflexivity|]. destruct (N.eq_dec y x) as [-> | D]; [left; reflexivity|].
    right. apply IH; [exact H|]. intros [-> | H']; [congruence | contradiction].
Qed.
(** Complete for functions whose debug file owns the nearest symbol at or below the address. *)
Theorem address_lookup_complete_partial : forall sort X syms files a s d f u loc, sorts sort ->
  let ix := index_symbol_map X syms in
  let fs := functions_of (history X syms) in
  In s fs -> sym_addr s <= a -> (forall s', In s' fs -> sym_addr s' <= a -> sym_addr s' <= sym_addr s) ->
  files (sym_file s) = Some d -> d_indexed d = true -> In f (d_funcs d) -> absolute_start f <= a < absolute_end f ->
  unit_of d (f_name f) = Some u -> address_to_location u (relative_start f + (a - absolute_start f)) = Some loc ->
  lookup_address sort ix files a <> None.
Proof.
  intros sort X syms files a s d f u loc HS ix fs Hs La Near Hd Hi Hf C Hu Hl.
  assert (Hin : In (f_name f, loc) (find_all_by_address sort ix files a)).
  { unfold find_all_by_address. pose proof (symbol_at_address_nearest X syms a) as N. cbv zeta in N. fold ix in N. fold fs in N.
    destruct (function_at_address ix a) as [[b ss]|]; [|specialize (N s Hs); lia].
    destruct N as (N1 & (s2 & N2 & N3) & N4 & N5). assert (b = sym_addr s) by (specialize (N5 s Hs La); specialize (Near s2 N2); lia).
    apply in_flat_map. exists (sym_file s). split.
    - apply unique_in; [|intros []]. apply in_map. rewrite N4. apply filter_In. split; [exact Hs | lia].
    - rewrite Hd, Hi. unfold address_to_locations. apply in_flat_map. exists f. split; [apply query_abs_spec; [exact HS | split; [exact Hf | exact C]]|].
      rewrite Hu, Hl. left. reflexivity. }
  unfold lookup_address. apply in_rev in Hin. destruct (rev _) as [|x l]; [destruct Hin | discriminate].
Qed.
Print Assumptions address_lookup_complete_partial.
(** A function of one file around a function of another: after the inner one ends, the outer one is not found. *)
Definition outer_file : dfile :=
  DFile [CUnit (Ok [(0, 256)]) (Some (LProg false [Some [CName (st "a.rs")]] None [Row 0 1 (Some 1) 0 false; Row 128 1 (Some 9) 0 false]))]
    [ex_fn 0 256 "f"] [(st "f", 0%nat)] true.
Definition inner_file : dfile :=
  DFile [CUnit (Ok [(64, 96)]) (Some (LProg false [Some [CName (st "b.rs")]] None [Row 64 1 (Some 1) 0 false]))] [ex_fn 64 96 "g"] [(st "g", 0%nat)] true.
Definition two_files (n : N) : option dfile := if N.eqb n 0 then Some outer_file else if N.eqb n 1 then Some inner_file else None.
Theorem address_lookup_complete_refuted : exists syms a f loc u,
  let ix := index_symbol_map plain_externals syms in
  In f (d_funcs outer_file) /\ absolute_start f <= a < absolute_end f /\ unit_of outer_file (f_name f) = Some u /\
  address_to_location u (relative_start f + (a - absolute_start f)) = Some loc /\
  lookup_address isort ix two_files a = None.
Proof.
  exists [(0%N, [mk_raw (Some (st "f::h01")) 4096 true]); (1%N, [mk_raw (Some (st "g::h02")) 4160 true])], 4224, (ex_fn 0 256 "f"), ([CName (st "a.rs")], 9, None).
  eexists. cbv zeta. split; [left; reflexivity|]. split; [cbn; lia|]. split; [reflexivity|]. split; [reflexivity|]. vm_compute. reflexivity.
Qed.
Print Assumptions address_lookup_complete_refuted.
Example address_lookup_example2 :
  let ix := index_symbol_map plain_externals [(0%N, [mk_raw (Some (st "f::h01")) 4096 true]); (1%N, [mk_raw (Some (st "g::h02")) 4160 true])] in
  lookup_address isort ix two_files 4160 = Some (st "g", ([CName (st "b.rs")], 1, None)) /\
  lookup_address isort ix two_files 4096 = Some (st "f", ([CName (st "a.rs")], 1, None)).
Proof. vm_compute. auto. Qed.
