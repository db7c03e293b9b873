(** The type-name parser terminates: with the fuel [parse_type] gives it, it never runs out, never panics, and what it
    leaves is a suffix of what it was given. *)
From Coq Require Import Ascii String List ZArith NArith Lia Bool.
From Verif Require Import Base NumText TypesModel TypeTextModel.
Import ListNotations.
Open Scope nat_scope.

Lemma trees_size_app a b : trees_size (a ++ b) = trees_size a + trees_size b.
Proof. induction a as [|t a IH]; [reflexivity|]. cbn [app]. unfold trees_size in *. cbn [fold_right]. rewrite IH. lia. Qed.
Lemma trees_size_cons t a : trees_size (t :: a) = tree_size t + trees_size a.
Proof. reflexivity. Qed.
Lemma tree_size_pos t : 1 <= tree_size t.
Proof. destruct t; cbn [tree_size]; lia. Qed.
Lemma tree_size_group d ts : tree_size (TG d ts) = S (trees_size ts).
Proof. reflexivity. Qed.

Definition fine {A} (p : pars A) (ts : list tree) : Prop :=
  (exists a pre r, p ts = Ok (a, r) /\ ts = pre ++ r) \/ exists m, p ts = Err m.
Definition shrinks {A} (p : pars A) (ts : list tree) : Prop :=
  (exists a pre r, p ts = Ok (a, r) /\ ts = pre ++ r /\ pre <> []) \/ exists m, p ts = Err m.

Lemma shrinks_fine {A} (p : pars A) ts : shrinks p ts -> fine p ts.
Proof. intros [(a & pre & r & H & E & _)|H]; [left; eauto 6 | right; exact H]. Qed.
Lemma fine_ok {A} (p : pars A) ts a r : fine p ts -> p ts = Ok (a, r) -> exists pre, ts = pre ++ r.
Proof. intros [(a' & pre & r' & H & E)|[m H]] H'; rewrite H in H'; [injection H' as <- <-; eauto | discriminate]. Qed.
Lemma shrinks_ok {A} (p : pars A) ts a r : shrinks p ts -> p ts = Ok (a, r) -> exists pre, ts = pre ++ r /\ pre <> [].
Proof. intros [(a' & pre & r' & H & E & N)|[m H]] H'; rewrite H in H'; [injection H' as <- <-; eauto | discriminate]. Qed.

Lemma fine_ret {A} (a : A) ts : fine (p_ret a) ts.
Proof. left. exists a, [], ts. split; reflexivity. Qed.
Lemma shrinks_punct c ts : shrinks (p_punct c) ts.
Proof.
  unfold p_punct. destruct ts as [|[] r]; try (right; eexists; reflexivity).
  unfold shrinks. destruct (N.eqb c c0); [|right; eexists; reflexivity].
  left. exists tt, [TP c0 joint], r. repeat split. discriminate.
Qed.
Lemma shrinks_joint c ts : shrinks (p_joint c) ts.
Proof.
  unfold p_joint. destruct ts as [|[| | c0 j|] r]; try (right; eexists; reflexivity). destruct j; [|right; eexists; reflexivity].
  unfold shrinks. destruct (N.eqb c c0); [|right; eexists; reflexivity].
  left. exists tt, [TP c0 true], r. repeat split. discriminate.
Qed.
Lemma shrinks_kw k ts : shrinks (p_kw k) ts.
Proof.
  unfold p_kw. destruct ts as [|[] r]; try (right; eexists; reflexivity).
  unfold shrinks. destruct (str_eqb k s); [|right; eexists; reflexivity].
  left. exists tt, [TId s], r. repeat split. discriminate.
Qed.
Lemma shrinks_ident ts : shrinks p_ident ts.
Proof.
  unfold p_ident. destruct ts as [|[] r]; try (right; eexists; reflexivity).
  left. exists s, [TId s], r. repeat split. discriminate.
Qed.
Lemma shrinks_usize ts : shrinks p_usize ts.
Proof.
  unfold p_usize. destruct ts as [|[] r]; try (right; eexists; reflexivity).
  unfold shrinks. destruct (parse_u64 s) as [z|]; [|right; eexists; reflexivity].
  left. exists z, [TLit s], r. repeat split. discriminate.
Qed.
Lemma fine_alt {A} (p q : pars A) ts : fine p ts -> fine q ts -> fine (p_alt p q) ts.
Proof.
  unfold p_alt. intros [(a & pre & r & H & E)|[m H]] Hq; unfold fine; rewrite H; [left; eauto 6 | exact Hq].
Qed.
Lemma shrinks_alt {A} (p q : pars A) ts : shrinks p ts -> shrinks q ts -> shrinks (p_alt p q) ts.
Proof.
  unfold p_alt. intros [(a & pre & r & H & E & N)|[m H]] Hq; unfold shrinks; rewrite H; [left; eauto 7 | exact Hq].
Qed.
Lemma fine_seq {A B} (p : pars A) (q : A -> pars B) ts :
  fine p ts -> (forall a pre r, ts = pre ++ r -> fine (q a) r) -> fine (p_seq p q) ts.
Proof.
  unfold p_seq. intros [(a & pre & r & H & E)|[m H]] Hq; unfold fine; rewrite H; cbn [bind]; [|right; eauto].
  destruct (Hq a pre r E) as [(b & pre' & r' & H' & E')|[m H']]; rewrite H'; [|right; eauto].
  left. exists b, (pre ++ pre'), r'. split; [reflexivity|]. rewrite E, E', app_assoc. reflexivity.
Qed.
Lemma shrinks_seq {A B} (p : pars A) (q : A -> pars B) ts :
  shrinks p ts -> (forall a pre r, ts = pre ++ r -> pre <> [] -> fine (q a) r) -> shrinks (p_seq p q) ts.
Proof.
  unfold p_seq. intros [(a & pre & r & H & E & N)|[m H]] Hq; unfold shrinks; rewrite H; cbn [bind]; [|right; eauto].
  destruct (Hq a pre r E N) as [(b & pre' & r' & H' & E')|[m H']]; rewrite H'; [|right; eauto].
  left. exists b, (pre ++ pre'), r'. split; [reflexivity|]. split; [rewrite E, E', app_assoc; reflexivity|].
  intros H0. apply app_eq_nil in H0. tauto.
Qed.
Lemma seq_shrinks {A B} (p : pars A) (q : A -> pars B) ts :
  fine p ts -> (forall a pre r, ts = pre ++ r -> shrinks (q a) r) -> shrinks (p_seq p q) ts.
Proof.
  unfold p_seq. intros [(a & pre & r & H & E)|[m H]] Hq; unfold shrinks; rewrite H; cbn [bind]; [|right; eauto].
  destruct (Hq a pre r E) as [(b & pre' & r' & H' & E' & N)|[m H']]; rewrite H'; [|right; eauto].
  left. exists b, (pre ++ pre'), r'. split; [reflexivity|]. split; [rewrite E, E', app_assoc; reflexivity|].
  intros H0. apply app_eq_nil in H0. tauto.
Qed.
Lemma fine_opt {A} (p : pars A) ts : fine p ts -> fine (p_opt p) ts.
Proof.
  unfold p_opt. intros [(a & pre & r & H & E)|[m H]]; unfold fine; rewrite H; left.
  - exists (Some a), pre, r. split; [reflexivity | exact E].
  - exists None, [], ts. split; reflexivity.
Qed.
Lemma shrinks_group {A} d (p : pars A) ts :
  (forall d' inner r, ts = TG d' inner :: r -> fine p inner) -> shrinks (p_group d p) ts.
Proof.
  unfold p_group. intros Hp. destruct ts as [|[] r]; try (right; eexists; reflexivity).
  unfold shrinks. destruct (delim_eqb d d0); [|right; eexists; reflexivity].
  destruct (Hp d0 ts r eq_refl) as [(a & pre & r' & H & E)|[m H]]; rewrite H; cbn [bind]; [|right; eauto].
  destruct r'; [|right; eexists; reflexivity].
  left. exists a, [TG d0 ts], r. repeat split. discriminate.
Qed.

Lemma fine_delimited_n {A} (p : pars A) (d : pars unit) n ts : length ts < n ->
  (forall pre r, ts = pre ++ r -> fine p r) -> (forall r, shrinks d r) -> fine (p_delimited_n n p d) ts.
Proof.
  revert ts. induction n as [|n IH]; intros ts Hn Hp Hd; [lia|]. unfold fine. cbn [p_delimited_n].
  destruct (Hp [] ts eq_refl) as [(a & pre & r & H & E)|[m H]]; rewrite H.
  2:{ left. exists [], [], ts. split; reflexivity. }
  destruct (Hd r) as [(u & pre' & r' & H' & E' & N)|[m H']]; rewrite H'.
  2:{ left. exists [a], pre, r. split; [reflexivity | exact E]. }
  destruct (IH r') as [(l & pre2 & r2 & H2 & E2)|[m H2]].
  - rewrite E, E', !app_length in Hn. assert (length pre' <> 0) by (destruct pre'; [congruence | discriminate]). lia.
  - intros q0 q1 Hq. apply (Hp (pre ++ pre' ++ q0) q1). rewrite E, E', Hq, <- !app_assoc. reflexivity.
  - exact Hd.
  - rewrite H2. cbn [bind]. left. exists (a :: l), (pre ++ pre' ++ pre2), r2. split; [reflexivity|].
    rewrite E, E', E2, <- !app_assoc. reflexivity.
  - rewrite H2. cbn [bind]. right. eauto.
Qed.
Lemma fine_delimited {A} (p : pars A) (d : pars unit) ts :
  (forall pre r, ts = pre ++ r -> fine p r) -> (forall r, shrinks d r) -> fine (p_delimited p d) ts.
Proof. intros. unfold p_delimited, fine. apply fine_delimited_n; auto. Qed.
Lemma fine_many_n {A} (p : pars A) n ts : length ts < n ->
  (forall pre r, ts = pre ++ r -> shrinks p r) -> fine (p_many_n n p) ts.
Proof.
  revert ts. induction n as [|n IH]; intros ts Hn Hp; [lia|]. unfold fine. cbn [p_many_n].
  destruct (Hp [] ts eq_refl) as [(a & pre & r & H & E & N)|[m H]]; rewrite H.
  2:{ left. exists [], [], ts. split; reflexivity. }
  destruct (IH r) as [(l & pre2 & r2 & H2 & E2)|[m H2]].
  - rewrite E, app_length in Hn. assert (length pre <> 0) by (destruct pre; [congruence | discriminate]). lia.
  - intros q0 q1 Hq. apply (Hp (pre ++ q0) q1). rewrite E, Hq, <- !app_assoc. reflexivity.
  - rewrite H2. cbn [bind]. left. exists (a :: l), (pre ++ pre2), r2. split; [reflexivity|].
    rewrite E, E2, <- !app_assoc. reflexivity.
  - rewrite H2. cbn [bind]. right. eauto.
Qed.
Lemma fine_many {A} (p : pars A) ts : (forall pre r, ts = pre ++ r -> shrinks p r) -> fine (p_many p) ts.
Proof. intros. unfold p_many, fine. apply fine_many_n; auto. Qed.
Lemma shrinks_pathsep ts : shrinks p_pathsep ts.
Proof. apply shrinks_seq; [apply shrinks_joint|]. intros. apply shrinks_fine, shrinks_punct. Qed.

Lemma size_suffix ts pre r : ts = pre ++ r -> pre <> [] -> trees_size r < trees_size ts.
Proof.
  intros -> N. rewrite trees_size_app. destruct pre as [|t pre]; [congruence|]. rewrite trees_size_cons.
  pose proof (tree_size_pos t). lia.
Qed.
Lemma size_suffix_le ts pre r : ts = pre ++ r -> trees_size r <= trees_size ts.
Proof. intros ->. rewrite trees_size_app. lia. Qed.

Lemma angle_total n ts : trees_size ts < n -> shrinks (p_angle n) ts.
Proof.
  revert ts. induction n as [|n IH]; intros ts Hn; [lia|]. unfold shrinks. cbn [p_angle].
  apply shrinks_seq; [apply shrinks_punct|]. intros _ pre r E N.
  pose proof (size_suffix _ _ _ E N).
  apply fine_seq.
  - apply fine_many. intros pre' r' E'. apply shrinks_alt.
    + destruct r' as [|[] r']; try (right; eexists; reflexivity).
      * left. exists [TId s], [TId s], r'. repeat split. discriminate.
      * left. exists [TLit s], [TLit s], r'. repeat split. discriminate.
      * unfold shrinks. destruct (_ || _); [right; eexists; reflexivity|]. left. exists [TP c joint], [TP c joint], r'.
        repeat split. discriminate.
      * left. exists [TG d ts0], [TG d ts0], r'. repeat split. discriminate.
    + apply IH. pose proof (size_suffix_le _ _ _ E'). lia.
  - intros l pre' r' E'. apply fine_seq; [apply shrinks_fine, shrinks_punct|]. intros. apply fine_ret.
Qed.

Lemma fine_seq_s {A B} (p : pars A) (q : A -> pars B) ts :
  shrinks p ts -> (forall a pre r, ts = pre ++ r -> trees_size r < trees_size ts -> fine (q a) r) -> fine (p_seq p q) ts.
Proof.
  intros Hp Hq. apply shrinks_fine, shrinks_seq; [exact Hp|]. intros a pre r E N. apply (Hq a pre r E).
  eapply size_suffix; eassumption.
Qed.
Lemma shrinks_seq_s {A B} (p : pars A) (q : A -> pars B) ts :
  shrinks p ts -> (forall a pre r, ts = pre ++ r -> trees_size r < trees_size ts -> fine (q a) r) -> shrinks (p_seq p q) ts.
Proof.
  intros Hp Hq. apply shrinks_seq; [exact Hp|]. intros a pre r E N. apply (Hq a pre r E).
  eapply size_suffix; eassumption.
Qed.
Lemma fine_delimited_s {A} (p : pars A) (d : pars unit) ts :
  (forall r, trees_size r <= trees_size ts -> fine p r) -> (forall r, shrinks d r) -> fine (p_delimited p d) ts.
Proof. intros Hp Hd. apply fine_delimited; [|exact Hd]. intros pre r E. apply Hp. eapply size_suffix_le; exact E. Qed.
Lemma fine_seq_le {A B} (p : pars A) (q : A -> pars B) ts :
  fine p ts -> (forall a r, trees_size r <= trees_size ts -> fine (q a) r) -> fine (p_seq p q) ts.
Proof. intros Hp Hq. apply fine_seq; [exact Hp|]. intros a pre r E. apply Hq. eapply size_suffix_le; exact E. Qed.
Lemma shrinks_group_s {A} d (p : pars A) ts :
  (forall inner, trees_size inner < trees_size ts -> fine p inner) -> shrinks (p_group d p) ts.
Proof.
  intros Hp. apply shrinks_group. intros d' inner r ->. apply Hp. rewrite trees_size_cons, tree_size_group. lia.
Qed.

Section Total.
Variable pt : pars ty.
Variable n : nat.
Hypothesis Hpt : forall ts, S (trees_size ts) < n -> fine pt ts.

Lemma gargs_total ts : trees_size ts < n -> shrinks (p_gargs pt n) ts.
Proof.
  intros Hn. unfold p_gargs. apply shrinks_alt.
  - apply shrinks_seq_s; [apply shrinks_punct|]. intros _ pre r E Hr. apply fine_seq_le.
    + apply fine_delimited_s; [|intros; apply shrinks_punct]. intros r' Hr'. apply Hpt. lia.
    + intros. apply fine_seq_le; [apply shrinks_fine, shrinks_punct|]. intros. apply fine_ret.
  - apply shrinks_seq_s; [apply angle_total; exact Hn|]. intros. apply fine_ret.
Qed.
Lemma shim_total ts : shrinks p_shim ts.
Proof.
  apply shrinks_group. intros. apply shrinks_fine, shrinks_group. intros. apply shrinks_fine, shrinks_seq; [apply shrinks_kw|].
  intros. apply fine_seq; [apply shrinks_fine, shrinks_punct|]. intros. apply shrinks_fine, shrinks_kw.
Qed.
Lemma segment_total ts : trees_size ts < n -> shrinks (p_path_segment pt n) ts.
Proof.
  intros Hn. unfold p_path_segment, p_segment. repeat apply shrinks_alt.
  - apply shrinks_seq_s; [apply shrinks_ident|]. intros id pre r E Hr.
    apply fine_seq_le; [apply fine_opt, shrinks_fine, gargs_total; lia|]. intros g r' Hr'.
    apply fine_seq_le; [apply fine_opt, shrinks_fine, shim_total|]. intros. apply fine_ret.
  - apply shrinks_seq; [apply angle_total; exact Hn|]. intros. apply fine_ret.
  - apply shrinks_seq; [apply shrinks_group; intros; apply shrinks_fine, shrinks_kw|]. intros. apply fine_ret.
  - apply shrinks_seq; [apply shrinks_group; intros; apply shrinks_fine, shrinks_seq; [apply shrinks_kw|]|].
    + intros. apply fine_seq; [apply shrinks_fine, shrinks_punct|]. intros. apply shrinks_fine, shrinks_usize.
    + intros. apply fine_ret.
Qed.
Lemma path_total ts : trees_size ts < n -> fine (p_path pt n) ts.
Proof.
  intros Hn. unfold p_path. apply fine_seq; [|intros; apply fine_ret].
  apply fine_delimited_s; [|intros; apply shrinks_pathsep]. intros r Hr. apply shrinks_fine, segment_total. lia.
Qed.

Lemma step_total ts : trees_size ts < n -> fine (p_type_step pt n) ts.
Proof.
  intros Hn. unfold p_type_step.
  apply fine_alt.
  { unfold p_slice. apply fine_seq_s; [apply shrinks_punct|]. intros _ pre r E Hr.
    apply fine_seq_le; [|intros; apply fine_ret]. apply shrinks_fine, shrinks_group_s. intros inner Hi. apply Hpt. lia. }
  apply fine_alt.
  { unfold p_strslice. apply fine_seq_s; [apply shrinks_punct|]. intros.
    apply fine_seq_le; [apply shrinks_fine, shrinks_kw|]. intros. apply fine_ret. }
  apply fine_alt.
  { unfold p_ref. apply fine_seq_s; [apply shrinks_punct|]. intros _ pre r E Hr.
    apply fine_seq_le; [apply fine_opt, shrinks_fine, shrinks_kw|]. intros m r' Hr'.
    apply fine_seq_le; [|intros; apply fine_ret]. apply Hpt. lia. }
  apply fine_alt.
  { apply fine_seq_s; [apply shrinks_punct|]. intros. apply fine_ret. }
  apply fine_alt.
  { unfold p_array. apply shrinks_fine, shrinks_group_s. intros inner Hi. apply fine_seq_le; [apply Hpt; lia|].
    intros t r Hr. apply fine_seq_le; [|intros; apply fine_ret]. apply fine_opt, fine_seq_s; [apply shrinks_punct|].
    intros _ pre2 r2 E2 Hr2. apply fine_alt.
    - apply fine_seq; [apply shrinks_fine, shrinks_usize|]. intros. apply fine_ret.
    - apply fine_seq; [apply Hpt; lia|]. intros. apply fine_ret. }
  apply fine_alt.
  { unfold p_fn. apply fine_seq_le; [apply fine_opt, shrinks_fine, shrinks_kw|]. intros u r0 H0.
    apply fine_seq_s; [apply shrinks_kw|]. intros _ pre1 r1 E1 H1. apply fine_seq_le.
    - apply shrinks_fine, shrinks_group_s. intros inner Hi. apply fine_delimited_s; [|intros; apply shrinks_punct].
      intros r3 H3. apply Hpt. lia.
    - intros args r2 H2. apply fine_seq_le; [|intros; apply fine_ret]. apply fine_opt.
      apply fine_seq_s; [apply shrinks_joint|]. intros _ pre3 r3 E3 H3.
      apply fine_seq_s; [apply shrinks_punct|]. intros _ pre4 r4 E4 H4. apply Hpt. lia. }
  apply fine_alt.
  { unfold p_dyn. apply fine_seq_s; [apply shrinks_kw|]. intros _ pre r E Hr.
    apply fine_seq_le; [|intros; apply fine_ret]. apply fine_delimited_s; [|intros; apply shrinks_punct].
    intros r' Hr'. apply Hpt. lia. }
  apply fine_alt.
  { unfold p_tuple. apply fine_alt; [|apply fine_alt].
    - apply shrinks_fine, shrinks_group. intros. apply fine_ret.
    - apply shrinks_fine, shrinks_group_s. intros inner Hi. apply fine_seq_le; [|intros; apply fine_ret].
      apply fine_seq_le; [apply Hpt; lia|]. intros.
      apply fine_seq_le; [apply fine_opt, shrinks_fine, shrinks_punct|]. intros. apply fine_ret.
    - apply shrinks_fine, shrinks_group_s. intros inner Hi.
      assert (Hm : fine (p_many (p_type_comma pt)) inner).
      { apply fine_many. intros pre' r' E'. apply seq_shrinks; [apply Hpt; pose proof (size_suffix_le _ _ _ E'); lia|]. intros.
        apply shrinks_seq; [apply shrinks_punct|]. intros. apply fine_ret. }
      apply fine_seq_le.
      * destruct Hm as [(l & pre & r' & H & E')|[m H]]; unfold fine; rewrite H; cbn [bind].
        -- destruct l; [right; eexists; reflexivity | left; do 3 eexists; split; [reflexivity | exact E']].
        -- right. eauto.
      * intros l r' Hr'. apply fine_seq_le; [|intros; apply fine_ret]. apply fine_seq_le; [apply Hpt; lia|].
        intros. apply fine_seq; [apply fine_opt, shrinks_fine, shrinks_punct|]. intros. apply fine_ret. }
  apply fine_alt.
  { unfold p_ptr. apply fine_seq_s; [apply shrinks_punct|]. intros _ pre r E Hr. apply fine_seq_le.
    - apply fine_alt; (apply fine_seq; [apply shrinks_fine, shrinks_kw | intros; apply fine_ret]).
    - intros m r' Hr'. apply fine_seq; [|intros; apply fine_ret]. apply Hpt. lia. }
  apply path_total. exact Hn.
Qed.
End Total.

Lemma type_total n ts : S (trees_size ts) < n -> fine (p_type n) ts.
Proof.
  revert ts. induction n as [|n IH]; intros ts Hn; [lia|].
  change (fine (p_type_step (p_type n) n) ts). apply step_total; [|lia]. intros us Hus. apply IH. lia.
Qed.

Lemma lx_total s w : (exists ls, lx s w = Ok ls) \/ exists m, lx s w = Panic m.
Proof.
  revert w. induction s as [|c s IH]; intros w; cbn [lx]; [left; eauto|].
  destruct (is_word c); [apply IH|].
  assert (G : forall f : list lexeme -> list lexeme, (exists ls, rmap f (lx s []) = Ok ls) \/ exists m, rmap f (lx s []) = Panic m).
  { intros f. destruct (IH []) as [[ls ->]|[m ->]]; cbn; eauto. }
  destruct (is_space c); [apply G|]. destruct (is_punct c); [apply G|].
  destruct (open_of c); [apply G|]. destruct (close_of c); [apply G|]. right. eauto.
Qed.
Lemma build_total ls acc stk : (exists ts, build ls acc stk = Ok ts) \/ exists m, build ls acc stk = Panic m.
Proof.
  revert acc stk. induction ls as [|l ls IH]; intros acc stk; cbn [build].
  - destruct stk; eauto.
  - destruct l; try apply IH. destruct stk as [|[d' acc'] stk]; [right; eauto|]. destruct (delim_eqb d d'); [apply IH | right; eauto].
Qed.

(** The parser terminates on every text: the model's recursion budget is never used up. *)
Theorem parse_type_terminates s : parse_type s <> Fuel.
Proof.
  unfold parse_type, tokenize. destruct (lx_total s []) as [[ls ->]|[m ->]]; [|discriminate]. cbn [bind].
  destruct (build_total ls [] []) as [[ts ->]|[m ->]]; [|discriminate]. cbn [bind].
  destruct (type_total (S (S (trees_size ts))) ts ltac:(lia)) as [(t & pre & r & -> & E)|[m ->]]; cbn [bind]; [|discriminate].
  destruct r; discriminate.
Qed.
(** On text that can be split into tokens there is no panic either: the answer is a type or an error. *)
Theorem parse_type_no_panic s ts : tokenize s = Ok ts -> (exists t, parse_type s = Ok t) \/ exists m, parse_type s = Err m.
Proof.
  intros H. unfold parse_type. rewrite H. cbn [bind].
  destruct (type_total (S (S (trees_size ts))) ts ltac:(lia)) as [(t & pre & r & -> & E)|[m ->]]; cbn [bind]; [|right; eauto].
  destruct r; [left; eauto | right; eauto].
Qed.
