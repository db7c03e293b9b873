From Coq Require Import List ZArith Lia Bool Sorted.
From Verif Require Import Base DieModel DieSpec DieProofs DieProps ModuleModel ModuleSpec.
Import ListNotations.
Open Scope Z_scope.

Inductive tiles : list mrange -> Z -> Z -> Prop :=
| tiles_nil a : tiles [] a a
| tiles_cons r l b : mr_start r < mr_end r -> tiles l (mr_end r) b -> tiles (r :: l) (mr_start r) b.
Lemma tiles_le l a b : tiles l a b -> a <= b.
Proof. induction 1; lia. Qed.
Lemma tiles_app l m a b c : tiles l a b -> tiles m b c -> tiles (l ++ m) a c.
Proof. induction 1; cbn; intros H2; [exact H2 | constructor; auto]. Qed.
Lemma tiles_one r a : mr_start r = a -> a < mr_end r -> tiles [r] a (mr_end r).
Proof. intros <- H. constructor; [exact H | constructor]. Qed.
Lemma tiles_in l a b r : tiles l a b -> In r l -> a <= mr_start r /\ mr_start r < mr_end r /\ mr_end r <= b.
Proof.
  induction 1 as [|r0 l b H1 H2 IH]; intros Hin; [destruct Hin|]. destruct Hin as [<- | Hin]; [pose proof (tiles_le _ _ _ H2); lia|].
  destruct (IH Hin) as (I1 & I2 & I3). lia.
Qed.
Definition path_at (l : list mrange) (o : Z) (p : list str) : Prop := exists r, In r l /\ mr_start r <= o < mr_end r /\ mr_path r = p.
Lemma path_at_app1 l m o p : path_at l o p -> path_at (l ++ m) o p.
Proof. intros (r & H & H2). exists r. split; [apply in_or_app; left; exact H | exact H2]. Qed.
Lemma path_at_app2 l m o p : path_at m o p -> path_at (l ++ m) o p.
Proof. intros (r & H & H2). exists r. split; [apply in_or_app; right; exact H | exact H2]. Qed.

Lemma paths_eq p e k : paths p (Die e k) = (e, path_in p e) :: paths_list (path_in p e) (match k with Some l => l | None => [] end).
Proof. destruct k; reflexivity. Qed.
Lemma paths_entries p d : map fst (paths p d) = entries d.
Proof.
  revert p. induction d as [e k IH] using die_ind2. intros p. rewrite paths_eq, entries_eq. cbn. f_equal. unfold paths_list, entries_list.
  destruct k as [l|]; [|reflexivity]. specialize (IH l eq_refl). induction IH as [|x l Hx _ IHl]; [reflexivity|].
  cbn. rewrite map_app, Hx. f_equal. exact IHl.
Qed.
Lemma paths_list_entries p l : map fst (paths_list p l) = entries_list l.
Proof. unfold paths_list, entries_list. induction l as [|x l IH]; [reflexivity|]. cbn. rewrite map_app, paths_entries, IH. reflexivity. Qed.
Lemma paths_flat p d : Forall (fun x => is_namespace x = false) (entries d) -> forall x q, In (x, q) (paths p d) -> q = p.
Proof.
  induction d as [e k IH] using die_ind2. intros HF x q H. rewrite entries_eq in HF. inversion HF as [|? ? He Hk]; subst.
  rewrite paths_eq in H. assert (PI : path_in p e = p) by (unfold path_in; rewrite He; reflexivity). rewrite PI in H.
  destruct H as [H | H]; [injection H as <- <-; reflexivity|]. destruct k as [l|]; [|destruct H].
  unfold paths_list in H. apply in_flat_map in H. destruct H as (c & Hc & H). specialize (IH l eq_refl). rewrite Forall_forall in IH.
  apply (IH c Hc) with (x := x); [|exact H]. rewrite Forall_forall in *. intros y Hy. apply Hk. apply in_flat_map. exists c. auto.
Qed.
Lemma namespaces_app a b : namespaces (a ++ b) = namespaces a ++ namespaces b.
Proof. unfold namespaces. rewrite filter_app, map_app. reflexivity. Qed.
Lemma namespaces_flat l : Forall (fun x => is_namespace x = false) (map fst l) -> namespaces l = [].
Proof. unfold namespaces. induction l as [|[e p] l IH]; intros H; [reflexivity|]. cbn in *. inversion H; subst. rewrite H2. apply IH. assumption. Qed.

Definition add_all (ns : list (list str * Z)) (m : module) : module := fold_left (fun m x => add_entry (fst x) (snd x) m) ns m.
Lemma add_all_app a b m : add_all (a ++ b) m = add_all b (add_all a m).
Proof. apply fold_left_app. Qed.

Definition gap (o : Z) (l : list die) (after : option Z) : Prop := match next_of l after with Some x => o < x | None => True end.
Definition walked (l : list die) (after : option Z) (b b' : builder) : Prop := exists N T,
  b_ranges b' = b_ranges b ++ N /\ tiles N (b_last b) (b_last b') /\ b_stack b' = b_stack b ++ T /\ (after <> None -> T = []) /\
  (forall nx, after = Some nx -> b_last b' <= nx) /\
  (b_last b' = b_last b \/ (exists x, In x (entries_list l) /\ e_off x = b_last b') \/ after = Some (b_last b')) /\
  (forall x p, In (x, p) (paths_list (stack_path (b_stack b)) l) -> (e_off x < b_last b' -> path_at N (e_off x) p) /\ (b_last b' <= e_off x -> p = stack_path (b_stack b'))) /\
  (forall o, b_last b <= o -> gap o l after -> (o < b_last b' -> path_at N o (stack_path (b_stack b))) /\ (b_last b' <= o -> stack_path (b_stack b) = stack_path (b_stack b'))) /\
  b_modules b' = add_all (namespaces (paths_list (stack_path (b_stack b)) l)) (b_modules b).

Definition ready (l : list die) (after : option Z) (b : builder) : Prop :=
  b_stack b <> [] /\ Forall ns_tree l /\ StronglySorted by_offset (entries_list l) /\
  (forall x, In x (entries_list l) -> b_last b <= e_off x) /\
  (forall nx, after = Some nx -> b_last b <= nx /\ forall x, In x (entries_list l) -> e_off x < nx).

Lemma walked_nil after b : (forall nx, after = Some nx -> b_last b <= nx) -> walked [] after b b.
Proof.
  intros H. exists [], []. rewrite !app_nil_r. split; [reflexivity|]. split; [constructor|]. split; [reflexivity|]. split; [reflexivity|].
  split; [exact H|]. split; [left; reflexivity|]. split; [intros x p []|]. split; [|reflexivity]. intros o Ho _. split; [lia | reflexivity].
Qed.
Lemma ss_app {A} (R : A -> A -> Prop) l m : StronglySorted R (l ++ m) -> StronglySorted R l /\ StronglySorted R m /\ forall x y, In x l -> In y m -> R x y.
Proof.
  induction l as [|a l IH]; cbn; intros H.
  - repeat split; [constructor | exact H | intros x y []].
  - inversion H as [|? ? H1 H2]; subst. destruct (IH H1) as (I1 & I2 & I3). rewrite Forall_forall in H2. repeat split.
    + constructor; [exact I1|]. apply Forall_forall. intros x Hx. apply H2. apply in_or_app. left. exact Hx.
    + exact I2.
    + intros x y [<- | Hx] Hy; [apply H2; apply in_or_app; right; exact Hy | apply I3; assumption].
Qed.
Lemma head_in d : In (d_entry d) (entries d).
Proof. destruct d as [e k]. rewrite entries_eq. left. reflexivity. Qed.
Lemma head_first d x : StronglySorted by_offset (entries d) -> In x (entries d) -> e_off (d_entry d) <= e_off x.
Proof.
  destruct d as [e k]. rewrite entries_eq. intros H Hx. inversion H; subst. rewrite Forall_forall in H3. destruct Hx as [<- | Hx]; [cbn; lia|].
  specialize (H3 x Hx). unfold by_offset in H3. cbn. lia.
Qed.
Lemma walked_cons x y l after b b1 b2 : ready (x :: y :: l) after b ->
  walked [x] (Some (e_off (d_entry y))) b b1 -> walked (y :: l) after b1 b2 -> walked (x :: y :: l) after b b2.
Proof.
  intros (R0 & R1 & R2 & R3 & R4) (N1 & T1 & A1 & A2 & A3 & A4 & A5 & A6 & A7 & A8 & A9) (N2 & T2 & B1 & B2 & B3 & B4 & B5 & B6 & B7 & B8 & B9).
  assert (T1 = []) by (apply A4; discriminate). subst T1. rewrite app_nil_r in A3. rewrite A3 in B3, B7, B8, B9.
  pose proof (tiles_le _ _ _ A2) as LE1. pose proof (tiles_le _ _ _ B2) as LE2. specialize (A5 _ eq_refl).
  change (entries_list (x :: y :: l)) with (entries x ++ entries_list (y :: l)) in *.
  destruct (ss_app _ _ _ R2) as (S1 & S2 & S3).
  exists (N1 ++ N2), T2. split; [rewrite B1, A1, app_assoc; reflexivity|]. split; [exact (tiles_app _ _ _ _ _ A2 B2)|].
  split; [exact B3|]. split; [exact B4|]. split; [exact B5|]. split; [|split; [|split]].
  - destruct B6 as [E | [(z & H1 & H2) | E]]; [|right; left; exists z; split; [apply in_or_app; right; exact H1 | exact H2] | right; right; exact E].
    rewrite E. destruct A6 as [E1 | [(z & H1 & H2) | E1]]; [left; exact E1 | right; left; exists z; split; [|exact H2] |].
    + unfold entries_list in H1. cbn in H1. rewrite app_nil_r in H1. apply in_or_app. left. exact H1.
    + injection E1 as E1. right. left. exists (d_entry y). split; [apply in_or_app; right; unfold entries_list; cbn; apply in_or_app; left; apply head_in | lia].
  - intros z p Hz. unfold paths_list in Hz. cbn [flat_map] in Hz. apply in_app_or in Hz. destruct Hz as [Hz | Hz].
    + assert (Hz' : In (z, p) (paths_list (stack_path (b_stack b)) [x])) by (unfold paths_list; cbn; rewrite app_nil_r; exact Hz).
      destruct (A7 z p Hz') as [P1 P2]. assert (Hzin : In z (entries x)) by (rewrite <- (paths_entries (stack_path (b_stack b)) x); exact (in_map fst _ _ Hz)).
      assert (GZ : gap (e_off z) (y :: l) after) by (unfold gap; cbn [next_of]; apply (S3 z (d_entry y) Hzin); unfold entries_list; cbn; apply in_or_app; left; apply head_in).
      split.
      * intros HL. destruct (Z_lt_dec (e_off z) (b_last b1)) as [Hlt | Hge]; [apply path_at_app1; apply P1; exact Hlt|].
        apply path_at_app2. rewrite (P2 ltac:(lia)), A3. apply (B8 (e_off z)); [lia | exact GZ | exact HL].
      * intros HL. rewrite (P2 ltac:(lia)), A3. apply (B8 (e_off z)); [lia | exact GZ | exact HL].
    + destruct (B7 z p) as [P1 P2]; [unfold paths_list; cbn [flat_map]; exact Hz|]. split; [intros HL; apply path_at_app2; apply P1; exact HL | exact P2].
  - intros o Ho Go. unfold gap in Go. cbn [next_of] in Go. destruct (A8 o Ho Go) as [P1 P2].
    assert (GZ : gap o (y :: l) after) by (unfold gap; cbn [next_of]; pose proof (S3 (d_entry x) (d_entry y) (head_in x) ltac:(unfold entries_list; cbn; apply in_or_app; left; apply head_in)) as SS; unfold by_offset in SS; lia).
    split.
    + intros HL. destruct (Z_lt_dec o (b_last b1)) as [Hlt | Hge]; [apply path_at_app1; apply P1; exact Hlt|]. apply path_at_app2. apply (B8 o); [lia | exact GZ | exact HL].
    + intros HL. apply (B8 o); [lia | exact GZ | exact HL].
  - rewrite B9, A9. unfold paths_list. cbn [flat_map]. rewrite app_nil_r, (namespaces_app (paths _ x)), add_all_app. reflexivity.
Qed.
Lemma stack_last (s : list (str * Z)) : s <> [] -> exists a n d, s = a ++ [(n, d)] /\ rev s = (n, d) :: rev a.
Proof.
  intros H. destruct (exists_last H) as (a & [n d] & ->). exists a, n, d. split; [reflexivity|]. rewrite rev_app_distr. reflexivity.
Qed.
Lemma stack_path_snoc s n d : s <> [] -> stack_path (s ++ [(n, d)]) = stack_path s ++ [n].
Proof. intros H. destruct s as [|x s]; [contradiction|]. unfold stack_path. cbn. rewrite map_app. reflexivity. Qed.

Lemma list_walked_of l :
  Forall (fun d => forall after b, ready [d] after b -> exists b', tree_walk module_visitor d after b = (b', true) /\ walked [d] after b b') l ->
  forall after b, ready l after b -> exists b', list_walk module_visitor l after b = (b', true) /\ walked l after b b'.
Proof.
  intros F.
  induction F as [|x l Hx Hl IHl]; intros after b R.
    - exists b. split; [reflexivity|]. apply walked_nil. intros nx E. apply R. exact E.
    - cbn [list_walk]. destruct l as [|y l].
      + cbn [next_of]. destruct (Hx after b R) as (b' & E & W). rewrite E. exists b'. auto.
      + cbn [next_of]. destruct R as (R0 & R1 & R2 & R3 & R4). pose proof R2 as R2'. change (entries_list (x :: y :: l)) with (entries x ++ entries_list (y :: l)) in R2', R3, R4.
        destruct (ss_app _ _ _ R2') as (S1 & S2 & S3). inversion R1 as [|? ? Rx Rl]; subst.
        assert (Ex : entries_list [x] = entries x) by (unfold entries_list; cbn; apply app_nil_r).
        assert (Hy : In (d_entry y) (entries_list (y :: l))) by (unfold entries_list; cbn; apply in_or_app; left; apply head_in).
        assert (RX : ready [x] (Some (e_off (d_entry y))) b).
        { unfold ready. rewrite Ex. repeat split; auto.
          - intros z Hz. apply R3. apply in_or_app. left. exact Hz.
          - injection H as <-. apply R3. apply in_or_app. right. exact Hy.
          - injection H as <-. intros z Hz. exact (S3 z _ Hz Hy). }
        destruct (Hx _ b RX) as (b1 & E1 & W1). rewrite E1.
        pose proof W1 as (N1 & T1 & A1 & A2 & A3 & A4 & A5 & A6 & _). assert (T1 = []) by (apply A4; discriminate). subst T1. rewrite app_nil_r in A3.
        specialize (A5 _ eq_refl).
        assert (RL : ready (y :: l) after b1).
        { unfold ready. rewrite A3. split; [exact R0|]. split; [exact Rl|]. split; [exact S2|].
          assert (FY : forall z, In z (entries_list (y :: l)) -> e_off (d_entry y) <= e_off z).
          { intros z Hz. unfold entries_list in Hz, S2. cbn in Hz, S2. destruct (ss_app _ _ _ S2) as (Q1 & _ & Q3). apply in_app_or in Hz. destruct Hz as [Hz | Hz].
            - apply head_first; assumption.
            - pose proof (Q3 (d_entry y) z (head_in y) Hz) as Q. unfold by_offset in Q. lia. }
          split; [intros z Hz; specialize (FY z Hz); lia|]. intros nx En. destruct (R4 nx En) as [_ R4']. split.
          - specialize (R4' (d_entry y) ltac:(apply in_or_app; right; exact Hy)). lia.
          - intros z Hz. apply R4'. apply in_or_app. right. exact Hz. }
        destruct (IHl after b1 RL) as (b2 & E2 & W2). exists b2. split; [exact E2|].
        exact (walked_cons x y l after b b1 b2 (conj R0 (conj R1 (conj R2 (conj R3 R4)))) W1 W2).
Qed.

Lemma tree_walked d : forall after b, ready [d] after b -> exists b', tree_walk module_visitor d after b = (b', true) /\ walked [d] after b b'.
Proof.
  induction d as [e kids IH] using die_ind2. intros after b R. rewrite tree_walk_eq. cbn [module_visitor v_pre v_post].
  set (l := match kids with Some l => l | None => [] end) in *.
  assert (IHL : forall after b, ready l after b -> exists b', list_walk module_visitor l after b = (b', true) /\ walked l after b b').
  { assert (F : Forall (fun d => forall after b, ready [d] after b -> exists b', tree_walk module_visitor d after b = (b', true) /\ walked [d] after b b') l)
      by (subst l; destruct kids as [l|]; [exact (IH l eq_refl) | constructor]).
    exact (list_walked_of l F). }
  clear IH. destruct R as (R0 & R1 & R2 & R3 & R4). inversion R1 as [|? ? NT _]; subst. unfold entries_list in R2, R3, R4. cbn [flat_map] in R2, R3, R4. rewrite app_nil_r in R2, R3, R4.
  rewrite entries_eq in R2, R3, R4. fold l in R2, R3, R4. inversion R2 as [|? ? S1 S2]; subst. rewrite Forall_forall in S2. unfold by_offset in S2.
  assert (Hoff : b_last b <= e_off e) by (apply R3; left; reflexivity).
  unfold ns_pre, close. cbn [module_visitor v_post]. unfold ns_post.
  inversion NT as [? ? NS NM FK | ? ? NS FK]; subst; fold l in FK; unfold is_namespace in NS.
  - (* a namespace *)
    destruct (e_tag e) eqn:TG; try discriminate. clear NS.
    assert (NAME : exists name, get_string_attr e At_name = Ok (Some name) /\ path_in (stack_path (b_stack b)) e = stack_path (b_stack b) ++ [name]).
    { unfold get_string_attr, path_in, is_namespace, name_of in *. rewrite TG. destruct (get_attr e At_name) as [[[s|]| | | | | |]|]; try contradiction. exists s. auto. }
    destruct NAME as (name & GN & PI). rewrite GN.
    destruct (stack_last _ R0) as (sa & sn & sd & SE & SR). rewrite SR.
    set (b1 := if b_last b <? e_off e then _ else b).
    assert (B1 : exists N0, b_ranges b1 = b_ranges b ++ N0 /\ tiles N0 (b_last b) (e_off e) /\ b_last b1 = e_off e /\ b_stack b1 = b_stack b /\ b_modules b1 = b_modules b /\
               forall o, b_last b <= o < e_off e -> path_at N0 o (stack_path (b_stack b))).
    { subst b1. destruct (b_last b <? e_off e) eqn:Q.
      - eexists [_]. cbn. split; [reflexivity|]. split; [apply tiles_one with (r := MRange (stack_path (b_stack b)) sd (b_last b) (e_off e)); cbn; lia|]. repeat split.
        intros o Ho. eexists. split; [left; reflexivity|]. cbn. auto.
      - exists []. rewrite app_nil_r. assert (b_last b = e_off e) by lia. split; [reflexivity|]. split; [rewrite <- H; constructor|]. repeat split; [exact H|]. intros o Ho. lia. }
    destruct B1 as (N0 & C1 & C2 & C3 & C4 & C5 & C6). rewrite C4, C5.
    set (st := b_stack b ++ [(name, e_off e)]). set (bk := Builder (b_ranges b1) _ (b_last b1) st).
    assert (SP : stack_path st = stack_path (b_stack b) ++ [name]) by (apply stack_path_snoc; exact R0).
    assert (RK : ready l after bk).
    { unfold ready. subst bk. cbn. rewrite C3. split; [subst st; destruct (b_stack b); discriminate|]. split; [exact FK|]. split; [exact S1|]. split.
      - intros z Hz. specialize (S2 z Hz). lia.
      - intros nx En. destruct (R4 nx En) as [_ R4']. split; [specialize (R4' e (or_introl eq_refl)); lia | intros z Hz; apply R4'; right; exact Hz]. }
    destruct (IHL after bk RK) as (b2 & E2 & W2). rewrite E2.
    destruct W2 as (N1 & T1 & A1 & A2 & A3 & A4 & A5 & A6 & A7 & A8 & A9). subst bk. cbn [b_ranges b_last b_stack b_modules] in *.
    rewrite C3 in A2, A6, A8. rewrite SP in A7, A8, A9.
    pose proof (tiles_le _ _ _ A2) as LE2.
    assert (PE : forall z p, In (z, p) (paths_list (stack_path (b_stack b)) [Die e kids]) -> (z = e /\ p = stack_path (b_stack b) ++ [name]) \/ In (z, p) (paths_list (stack_path (b_stack b) ++ [name]) l)).
    { intros z p Hz. unfold paths_list in Hz. cbn [flat_map] in Hz. rewrite app_nil_r, paths_eq, PI in Hz. fold l in Hz. destruct Hz as [Hz | Hz]; [injection Hz as <- <-; left; auto | right; exact Hz]. }
    assert (GE : gap (e_off e) l after).
    { unfold gap. destruct l as [|y l']; cbn [next_of].
      - destruct after as [nx|]; [|exact I]. destruct (R4 nx eq_refl) as [_ R4']. apply R4'. left. reflexivity.
      - apply S2. unfold entries_list. cbn. apply in_or_app. left. apply head_in. }
    assert (MOD : b_modules b2 = add_all (namespaces (paths_list (stack_path (b_stack b)) [Die e kids])) (b_modules b)).
    { rewrite A9. unfold paths_list at 2. cbn [flat_map]. rewrite app_nil_r, paths_eq, PI. fold l. unfold namespaces at 2. cbn [filter fst]. unfold is_namespace at 1. rewrite TG. cbn [map fst snd]. reflexivity. }
    destruct after as [nx|].
    + (* something follows: the namespace is closed *)
      assert (T1 = []) by (apply A4; discriminate). subst T1. rewrite app_nil_r in A3. rewrite A3. subst st. rewrite rev_app_distr. cbn [rev app].
      rewrite rev_involutive. specialize (A5 nx eq_refl).
      set (b' := if b_last b2 <? nx then _ else _). exists b'. split; [reflexivity|].
      assert (B' : exists N2, b_ranges b' = b_ranges b2 ++ N2 /\ tiles N2 (b_last b2) nx /\ b_last b' = nx /\ b_stack b' = b_stack b /\ b_modules b' = b_modules b2 /\
               forall o, b_last b2 <= o < nx -> path_at N2 o (stack_path (b_stack b) ++ [name])).
      { subst b'. destruct (b_last b2 <? nx) eqn:Q.
        - eexists [_]. cbn. split; [reflexivity|]. split; [apply tiles_one with (r := MRange (stack_path (b_stack b) ++ [name]) (e_off e) (b_last b2) nx); cbn; lia|]. repeat split.
          intros o Ho. eexists. split; [left; reflexivity|]. cbn. auto.
        - exists []. cbn. rewrite app_nil_r. assert (b_last b2 = nx) by lia. split; [reflexivity|]. split; [rewrite <- H; constructor|]. repeat split; [exact H|]. intros o Ho. lia. }
      destruct B' as (N2 & D1 & D2 & D3 & D4 & D5 & D6).
      assert (LTN : forall z p, In (z, p) (paths_list (stack_path (b_stack b)) [Die e kids]) -> e_off z < nx).
      { intros z p Hz. destruct (R4 nx eq_refl) as [_ R4']. apply R4'. destruct (PE z p Hz) as [[-> _] | Hz']; [left; reflexivity | right]. rewrite <- (paths_list_entries (stack_path (b_stack b) ++ [name]) l). exact (in_map fst _ _ Hz'). }
      exists (N0 ++ N1 ++ N2), []. rewrite app_nil_r. split; [rewrite D1, A1, C1, <- !app_assoc; reflexivity|].
      split; [rewrite D3; apply (tiles_app _ _ _ _ _ C2); exact (tiles_app _ _ _ _ _ A2 D2)|].
      split; [exact D4|]. split; [reflexivity|]. split; [intros nx' E; injection E as <-; lia|].
      split; [right; right; f_equal; lia|]. split; [|split].
      * intros z p Hz. rewrite D3. split; [|specialize (LTN z p Hz); lia]. intros _.
        destruct (PE z p Hz) as [[-> ->] | Hz'].
        -- destruct (A8 (e_off e) (Z.le_refl _) GE) as [P1 P2]. destruct (Z_lt_dec (e_off e) (b_last b2)) as [Hl | Hg].
           ++ apply path_at_app2, path_at_app1. apply P1. exact Hl.
           ++ apply path_at_app2, path_at_app2. apply D6. specialize (LTN e _ Hz). lia.
        -- destruct (A7 z p Hz') as [P1 P2]. destruct (Z_lt_dec (e_off z) (b_last b2)) as [Hl | Hg].
           ++ apply path_at_app2, path_at_app1. apply P1. exact Hl.
           ++ apply path_at_app2, path_at_app2. rewrite (P2 ltac:(lia)), A3, stack_path_snoc by exact R0. apply D6. specialize (LTN z p Hz). lia.
      * intros o Ho Go. unfold gap in Go. cbn [next_of d_entry] in Go. rewrite D3. split; [intros _; apply path_at_app1; apply C6; lia|].
        destruct (R4 nx eq_refl) as [_ R4']. specialize (R4' e (or_introl eq_refl)). lia.
      * rewrite D5. exact MOD.
    + (* nothing follows in the unit: the namespace stays open *)
      exists b2. split; [reflexivity|]. exists (N0 ++ N1), ((name, e_off e) :: T1).
      split; [rewrite A1, C1, app_assoc; reflexivity|]. split; [exact (tiles_app _ _ _ _ _ C2 A2)|].
      split; [rewrite A3; subst st; rewrite <- app_assoc; reflexivity|]. split; [congruence|]. split; [discriminate|].
      split; [|split; [|split; [|exact MOD]]].
      * right. left. unfold entries_list. cbn [flat_map]. rewrite app_nil_r, entries_eq. fold l.
        destruct A6 as [E | [(z & H1 & H2) | E]]; [exists e; split; [left; reflexivity | lia] | exists z; split; [right; exact H1 | exact H2] | discriminate].
      * intros z p Hz. destruct (PE z p Hz) as [[-> ->] | Hz'].
        -- destruct (A8 (e_off e) (Z.le_refl _) GE) as [P1 P2]. split; [intros HL; apply path_at_app2; apply P1; exact HL | exact P2].
        -- destruct (A7 z p Hz') as [P1 P2]. split; [intros HL; apply path_at_app2; apply P1; exact HL | exact P2].
      * intros o Ho Go. unfold gap in Go. cbn [next_of d_entry] in Go. split; [intros _; apply path_at_app1; apply C6; lia | lia].
  - (* any other entry *)
    assert (PF : forall z p, In (z, p) (paths_list (stack_path (b_stack b)) [Die e kids]) -> p = stack_path (b_stack b)).
    { intros z p Hz. unfold paths_list in Hz. cbn [flat_map] in Hz. rewrite app_nil_r in Hz. apply (paths_flat _ (Die e kids)) with (x := z); [|exact Hz].
      rewrite entries_eq. constructor; [exact NS | exact FK]. }
    assert (W : walked [Die e kids] after b b).
    { exists [], []. rewrite !app_nil_r. split; [reflexivity|]. split; [constructor|]. split; [reflexivity|]. split; [reflexivity|].
      split; [intros nx En; apply (R4 nx En)|]. split; [left; reflexivity|]. split; [|split].
      - intros z p Hz. split; [|intros _; exact (PF z p Hz)]. intros HL. exfalso.
        assert (In z (e :: entries_list l)) by (subst l; rewrite <- entries_eq, <- (paths_entries (stack_path (b_stack b))); unfold paths_list in Hz; cbn [flat_map] in Hz; rewrite app_nil_r in Hz; exact (in_map fst _ _ Hz)).
        specialize (R3 z H). lia.
      - intros o Ho _. split; [lia | reflexivity].
      - rewrite namespaces_flat; [reflexivity|]. rewrite paths_list_entries. unfold entries_list. cbn [flat_map]. rewrite app_nil_r, entries_eq. constructor; [exact NS | exact FK]. }
    exists b. destruct (e_tag e) eqn:TG; try discriminate; cbn [fst snd]; (split; [reflexivity | exact W]).
Qed.

Lemma list_walked l after b : ready l after b -> exists b', list_walk module_visitor l after b = (b', true) /\ walked l after b b'.
Proof. apply list_walked_of. apply Forall_forall. intros d _. apply tree_walked. Qed.

(** One Rust unit. *)
Definition unit_paths (d : die) : list (entry * list str) := paths [] d.
Lemma unit_walked ulen d pad b : good_unit ulen d -> is_rust_cu (d_entry d) = true ->
  exists n0 b' N, (forall n, (n0 <= n)%nat -> walk_unit (module_cu ulen) module_visitor n (unit_toks d pad) b = Some (b', true)) /\
    b_ranges b' = b_ranges b ++ N /\ tiles N (e_off (d_entry d)) (e_off (d_entry d) + ulen (d_entry d)) /\
    (forall x p, In (x, p) (unit_paths d) -> path_at N (e_off x) p) /\
    b_modules b' = add_all (namespaces (unit_paths d)) (b_modules b).
Proof.
  intros (G1 & G2 & G3 & G4) HR. destruct (walk_unit_refines (module_cu ulen) module_visitor d pad b G1) as (n0 & H).
  destruct d as [e k]. cbn [d_entry d_kids] in *. cbn [module_cu cu_pre cu_post] in H. rewrite HR in H.
  set (l := match k with Some l => l | None => [] end). assert (KL : d_kids (Die e k) = l) by (destruct k; reflexivity). 
  set (b0 := Builder (b_ranges b) (b_modules b) (e_off e) [([], e_off e)]) in *.
  rewrite entries_eq in G3, G4. fold l in G3, G4. inversion G3 as [|? ? S1 S2]; subst. rewrite Forall_forall in S2. unfold by_offset in S2.
  assert (FK : Forall ns_tree l) by (subst l; destruct k; exact G2).
  assert (R : ready l None b0).
  { unfold ready. subst b0. cbn. split; [discriminate|]. split; [exact FK|]. split; [exact S1|]. split; [intros x Hx; specialize (S2 x Hx); lia | discriminate]. }
  destruct (list_walked l None b0 R) as (b1 & E & W). replace (match k with Some l0 => l0 | None => [] end) with l in H by reflexivity.
  assert (E' : list_walk module_visitor (match k with Some l0 => l0 | None => [] end) None b0 = (b1, true)) by exact E.
  destruct W as (N & T & A1 & A2 & A3 & _ & _ & A6 & A7 & A8 & A9). subst b0. cbn [b_ranges b_last b_stack b_modules] in *.
  assert (LT : b_last b1 < e_off e + ulen e).
  { destruct A6 as [-> | [(z & H1 & <-) | X]]; [apply G4; left; reflexivity | apply G4; right; exact H1 | discriminate]. }
  assert (NSE : is_namespace e = false) by (unfold is_namespace; rewrite G1; reflexivity).
  exists n0. eexists. exists (N ++ [MRange (stack_path (b_stack b1)) (e_off e) (b_last b1) (e_off e + ulen e)]).
  split; [intros n Hn; rewrite H by exact Hn; destruct k as [l0|]; cbn [d_kids] in *; [subst l; rewrite E; reflexivity | cbn in E; injection E as <-; reflexivity]|].
  cbn [b_ranges b_modules]. split; [rewrite A1, app_assoc; reflexivity|].
  split; [apply (tiles_app _ _ _ _ _ A2); apply tiles_one with (r := MRange (stack_path (b_stack b1)) (e_off e) (b_last b1) (e_off e + ulen e)); cbn; lia|].
  assert (FIN : forall o, b_last b1 <= o -> o < e_off e + ulen e -> path_at [MRange (stack_path (b_stack b1)) (e_off e) (b_last b1) (e_off e + ulen e)] o (stack_path (b_stack b1))).
  { intros o H1 H2. eexists. split; [left; reflexivity|]. cbn. auto. }
  unfold unit_paths. rewrite paths_eq. unfold path_in. rewrite NSE. fold l. split.
  - intros x p [Hx | Hx].
    + injection Hx as <- <-. assert (GE : gap (e_off e) l None) by (unfold gap; destruct l as [|y l']; cbn [next_of]; [exact I | apply S2; unfold entries_list; cbn; apply in_or_app; left; apply head_in]).
      destruct (A8 (e_off e) (Z.le_refl _) GE) as [P1 P2]. destruct (Z_lt_dec (e_off e) (b_last b1)) as [Hl | Hg].
      * apply path_at_app1. exact (P1 Hl).
      * apply path_at_app2. eexists. split; [left; reflexivity|]. cbn [mr_start mr_end mr_path]. split; [pose proof (G4 e (or_introl eq_refl)); lia | symmetry; exact (P2 ltac:(lia))].
    + destruct (A7 x p Hx) as [P1 P2]. destruct (Z_lt_dec (e_off x) (b_last b1)) as [Hl | Hg].
      * apply path_at_app1. exact (P1 Hl).
      * apply path_at_app2. rewrite (P2 ltac:(lia)). apply FIN; [lia|]. apply G4. right. rewrite <- (paths_list_entries [] l). exact (in_map fst _ _ Hx).
  - rewrite A9. unfold namespaces at 2. cbn [filter fst]. rewrite NSE. reflexivity.
Qed.
Lemma unit_skipped ulen d pad b : good_unit ulen d -> is_rust_cu (d_entry d) = false ->
  exists n0, forall n, (n0 <= n)%nat -> walk_unit (module_cu ulen) module_visitor n (unit_toks d pad) b = Some (b, true).
Proof.
  intros (G1 & _) HR. destruct (walk_unit_refines (module_cu ulen) module_visitor d pad b G1) as (n0 & H). exists n0. intros n Hn. rewrite H by exact Hn.
  cbn [module_cu cu_pre cu_post]. rewrite HR. reflexivity.
Qed.

(** The whole file. *)
Definition file_toks (ds : list (die * nat)) : list (list tok) := map (fun x => unit_toks (fst x) (snd x)) ds.
Definition rust_paths (ds : list die) : list (entry * list str) := flat_map (fun d => if is_rust_cu (d_entry d) then unit_paths d else []) ds.
Definition ahead (x y : mrange) : Prop := mr_end x <= mr_start y.
Lemma tiles_sorted l a b : tiles l a b -> StronglySorted ahead l /\ (forall r, In r l -> a <= mr_start r /\ mr_start r < mr_end r <= b).
Proof.
  intros H. split; [|intros r Hr; destruct (tiles_in l a b r H Hr) as (H1 & H2 & H3); lia].
  induction H as [|r l b H1 H2 IH]; constructor; [exact IH|]. apply Forall_forall. intros y Hy. destruct (tiles_in _ _ _ _ H2 Hy) as (I1 & _). exact I1.
Qed.
Lemma file_walked ulen : forall ds b, good_file ulen (map fst ds) ->
  exists n0 b' N, (forall n, (n0 <= n)%nat -> walk_file (module_cu ulen) module_visitor n (file_toks ds) b = Some (b', true)) /\
    b_ranges b' = b_ranges b ++ N /\ StronglySorted ahead N /\
    (forall r, In r N -> (forall lo, (match ds with d :: _ => lo <= e_off (d_entry (fst d)) | [] => True end) -> lo <= mr_start r) /\ mr_start r < mr_end r /\
        exists d, In d (map fst ds) /\ is_rust_cu (d_entry d) = true /\ e_off (d_entry d) <= mr_start r /\ mr_end r <= e_off (d_entry d) + ulen (d_entry d)) /\
    (forall x p, In (x, p) (rust_paths (map fst ds)) -> path_at N (e_off x) p) /\
    b_modules b' = add_all (namespaces (rust_paths (map fst ds))) (b_modules b).
Proof.
  induction ds as [|[d pad] ds IH]; intros b G.
  - exists 0%nat, b, []. rewrite app_nil_r. split; [reflexivity|]. split; [reflexivity|]. split; [constructor|]. split; [intros r []|]. split; [intros x p []|]. reflexivity.
  - cbn [map fst good_file] in G. destruct G as (G1 & G2 & G3).
    assert (UP : forall x, In x (entries d) -> e_off (d_entry d) <= e_off x < e_off (d_entry d) + ulen (d_entry d))
      by (destruct G1 as (_ & _ & S & B); intros x Hx; split; [apply head_first; assumption | apply B; exact Hx]).
    assert (NX : match ds with d' :: _ => e_off (d_entry d) + ulen (d_entry d) <= e_off (d_entry (fst d')) | [] => True end) by (destruct ds as [|[d' pad'] ds]; exact G2).
    pose proof (UP _ (head_in d)) as HU.
    destruct (is_rust_cu (d_entry d)) eqn:RC.
    + destruct (unit_walked ulen d pad b G1 RC) as (n1 & b1 & N1 & A1 & A2 & A3 & A4 & A5). destruct (IH b1 G3) as (n2 & b2 & N2 & B1 & B2 & B3 & B4 & B5 & B6).
      exists (n1 + n2)%nat, b2, (N1 ++ N2). destruct (tiles_sorted _ _ _ A3) as [TS TR].
      assert (SEP : forall r, In r N2 -> e_off (d_entry d) + ulen (d_entry d) <= mr_start r) by (intros r Hr; apply (B4 r Hr); exact NX).
      split; [intros n Hn; cbn [file_toks map walk_file fst snd]; rewrite A1 by lia; apply B1; lia|].
      split; [rewrite B2, A2, app_assoc; reflexivity|]. split; [|split; [|split]].
      * clear - TS B3 TR SEP. induction N1 as [|r N1 IH]; cbn; [exact B3|]. inversion TS; subst. rewrite Forall_forall in H2. constructor.
        -- apply IH; [assumption|]. intros y Hy. apply TR. right. exact Hy.
        -- apply Forall_forall. intros y Hy. apply in_app_or in Hy. destruct Hy as [Hy | Hy]; [apply H2; exact Hy|].
           specialize (SEP y Hy). specialize (TR r (or_introl eq_refl)). unfold ahead. lia.
      * intros r Hr. apply in_app_or in Hr. destruct Hr as [Hr | Hr].
        -- specialize (TR r Hr). split; [intros lo Hlo; cbn in Hlo; lia|]. split; [lia|]. exists d. split; [left; reflexivity|]. split; [exact RC | lia].
        -- destruct (B4 r Hr) as (_ & C2 & (d' & C3 & C4)). specialize (SEP r Hr). split; [intros lo Hlo; cbn in Hlo; lia|]. split; [exact C2|]. exists d'. split; [right; exact C3 | exact C4].
      * intros x p Hx. unfold rust_paths in Hx. cbn [map fst flat_map] in Hx. rewrite RC in Hx. apply in_app_or in Hx. destruct Hx as [Hx | Hx]; [apply path_at_app1; auto | apply path_at_app2; apply B5; exact Hx].
      * rewrite B6, A5. unfold rust_paths. cbn [map fst flat_map]. rewrite RC, namespaces_app, add_all_app. reflexivity.
    + destruct (unit_skipped ulen d pad b G1 RC) as (n1 & A1). destruct (IH b G3) as (n2 & b2 & N2 & B1 & B2 & B3 & B4 & B5 & B6).
      exists (n1 + n2)%nat, b2, N2. split; [intros n Hn; cbn [file_toks map walk_file fst snd]; rewrite A1 by lia; apply B1; lia|].
      split; [exact B2|]. split; [exact B3|]. split; [|split].
      * intros r Hr. destruct (B4 r Hr) as (C1 & C2 & (d' & C3 & C4)). split; [|split; [exact C2|]].
        -- intros lo Hlo. cbn in Hlo. apply C1. destruct ds as [|d2 ds]; [exact I|]. lia.
        -- exists d'. split; [right; exact C3 | exact C4].
      * intros x p Hx. unfold rust_paths in Hx. cbn [map fst flat_map] in Hx. rewrite RC in Hx. apply B5. exact Hx.
      * rewrite B6. unfold rust_paths. cbn [map fst flat_map]. rewrite RC. reflexivity.
Qed.
Lemma ahead_sorted l : StronglySorted ahead l -> (forall r, In r l -> mr_start r < mr_end r) -> StronglySorted (fun x y => mr_start x < mr_start y) l.
Proof.
  induction 1 as [|x l H IH F]; intros P; [constructor|]. constructor; [apply IH; intros r Hr; apply P; right; exact Hr|]. rewrite Forall_forall in *.
  intros y Hy. specialize (F y Hy). specialize (P x (or_introl eq_refl)). unfold ahead in F. lia.
Qed.
Lemma sort_sorted l : StronglySorted (fun x y => mr_start x < mr_start y) l -> sort_ranges l = l.
Proof.
  induction 1 as [|x l H IH F]; [reflexivity|]. cbn [sort_ranges fold_right]. unfold sort_ranges in IH. rewrite IH. destruct l as [|y l]; [reflexivity|].
  cbn. inversion F; subst. replace (mr_start x <=? mr_start y) with true by lia. reflexivity.
Qed.
Lemma insert_perm r l : forall x, In x (insert_range r l) <-> x = r \/ In x l.
Proof.
  induction l as [|y l IH]; intros x; cbn; [intuition congruence|]. destruct (mr_start r <=? mr_start y); cbn; [intuition congruence|]. rewrite IH. intuition congruence.
Qed.
Lemma sort_in l x : In x (sort_ranges l) <-> In x l.
Proof. induction l as [|y l IH]; cbn; [tauto|]. unfold sort_ranges in IH. rewrite insert_perm, IH. intuition congruence. Qed.
Definition start_le (a b : mrange) : Prop := mr_start a <= mr_start b.
Lemma sort_is_sorted l : StronglySorted start_le (sort_ranges l).
Proof.
  induction l as [|y l IH]; cbn; [constructor|]. unfold sort_ranges in IH.
  assert (forall m, StronglySorted start_le m -> StronglySorted start_le (insert_range y m)).
  { induction m as [|z m IHm]; intros Hm; cbn; [repeat constructor|]. inversion Hm; subst. destruct (mr_start y <=? mr_start z) eqn:Q.
    - constructor; [exact Hm|]. constructor; [unfold start_le; lia|]. rewrite Forall_forall in *. intros w Hw. specialize (H2 w Hw). unfold start_le in *. lia.
    - constructor; [apply IHm; assumption|]. apply Forall_forall. intros w Hw. apply insert_perm in Hw. rewrite Forall_forall in H2. destruct Hw as [-> | Hw]; [unfold start_le; lia | apply H2; exact Hw]. }
  apply H. exact IH.
Qed.
Lemma take_while_sorted o l : StronglySorted start_le l -> forall r, In r (take_while (fun r => mr_start r <=? o) l) <-> In r l /\ mr_start r <= o.
Proof.
  induction 1 as [|x l H IH F]; intros r; cbn; [tauto|]. rewrite Forall_forall in F. destruct (mr_start x <=? o) eqn:Q; cbn.
  - rewrite IH. split; [intros [<- | []]; split; auto; lia | intros [[<- | Hr] Ho]; auto].
  - split; [intros []|]. intros [[<- | Hr] Ho]; [lia | specialize (F r Hr); unfold start_le in F; lia].
Qed.
Lemma take_while_ss o l : StronglySorted start_le l -> StronglySorted start_le (take_while (fun r => mr_start r <=? o) l).
Proof.
  induction 1 as [|x l H IH F]; cbn; [constructor|]. destruct (mr_start x <=? o); [|constructor]. constructor; [exact IH|]. rewrite Forall_forall in *.
  intros r Hr. apply F. clear - Hr. induction l as [|y l IHl]; cbn in Hr; [destruct Hr|]. destruct (mr_start y <=? o); [|destruct Hr]. destruct Hr as [<- | Hr]; [left; reflexivity | right; auto].
Qed.
Lemma find_rev_last (f : mrange -> bool) l : StronglySorted start_le l ->
  match find f (rev l) with Some r => In r l /\ f r = true /\ forall s, In s l -> f s = true -> start_le s r | None => forall r, In r l -> f r = false end.
Proof.
  induction 1 as [|x l H IH F]; cbn; [intros r []|].
  assert (FA : forall a b, find f (a ++ b) = match find f a with Some r => Some r | None => find f b end) by (induction a as [|y a IHa]; intros b; cbn; [reflexivity | destruct (f y); [reflexivity | apply IHa]]).
  rewrite FA. rewrite Forall_forall in F. destruct (find f (rev l)) as [r|].
  - destruct IH as (I1 & I2 & I3). split; [right; exact I1|]. split; [exact I2|]. intros s [<- | Hs] Q; [apply F; exact I1 | apply I3; assumption].
  - cbn. destruct (f x) eqn:Q.
    + split; [left; reflexivity|]. split; [exact Q|]. intros s [<- | Hs] Q2; [unfold start_le; lia | rewrite (IH s Hs) in Q2; discriminate].
    + intros s [<- | Hs]; [exact Q | apply IH; exact Hs].
Qed.
