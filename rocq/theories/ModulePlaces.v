(** The namespace recorded for each range of DIEs (modules.rs 94-230: the DIE kept with a range), for C109. *)
From Coq Require Import List ZArith Lia Bool Sorted.
From Verif Require Import Base DieModel DieSpec DieProofs DieProps ModuleModel ModuleSpec ModuleProofs ModuleProps.
Import ListNotations.
Open Scope Z_scope.

(** The innermost namespace around a DIE: its path and its offset (the unit's root outside namespaces). *)
Definition spot_in (q : list str * Z) (e : entry) : list str * Z :=
  if is_namespace e then (fst q ++ [match name_of e with Some s => s | None => [] end], e_off e) else q.
Fixpoint spots (q : list str * Z) (d : die) : list (entry * (list str * Z)) :=
  match d with
  | Die e kids => (e, spot_in q e) ::
      match kids with
      | Some l => (fix go l := match l with [] => [] | x :: l' => spots (spot_in q e) x ++ go l' end) l
      | None => []
      end
  end.
Definition spots_list (q : list str * Z) (l : list die) : list (entry * (list str * Z)) := flat_map (spots q) l.
Lemma spots_eq p e k : spots p (Die e k) = (e, spot_in p e) :: spots_list (spot_in p e) (match k with Some l => l | None => [] end).
Proof. destruct k; reflexivity. Qed.
Lemma spots_entries p d : map fst (spots p d) = entries d.
Proof.
  revert p. induction d as [e k IH] using die_ind2. intros p. rewrite spots_eq, entries_eq. cbn. f_equal. unfold spots_list, entries_list.
  destruct k as [l|]; [|reflexivity]. specialize (IH l eq_refl). induction IH as [|x l Hx _ IHl]; [reflexivity|].
  cbn. rewrite map_app, Hx. f_equal. exact IHl.
Qed.
Lemma spots_list_entries p l : map fst (spots_list p l) = entries_list l.
Proof. unfold spots_list, entries_list. induction l as [|x l IH]; [reflexivity|]. cbn. rewrite map_app, spots_entries, IH. reflexivity. Qed.
Lemma spots_flat p d : Forall (fun x => is_namespace x = false) (entries d) -> forall x q, In (x, q) (spots p d) -> q = p.
Proof.
  induction d as [e k IH] using die_ind2. intros HF x q H. rewrite entries_eq in HF. inversion HF as [|? ? He Hk]; subst.
  rewrite spots_eq in H. assert (PI : spot_in p e = p) by (unfold spot_in; rewrite He; reflexivity). rewrite PI in H.
  destruct H as [H | H]; [injection H as <- <-; reflexivity|]. destruct k as [l|]; [|destruct H].
  unfold spots_list in H. apply in_flat_map in H. destruct H as (c & Hc & H). specialize (IH l eq_refl). rewrite Forall_forall in IH.
  apply (IH c Hc) with (x := x); [|exact H]. rewrite Forall_forall in *. intros y Hy. apply Hk. apply in_flat_map. exists c. auto.
Qed.
Definition spot_at (l : list mrange) (o : Z) (q : list str * Z) : Prop := exists r, In r l /\ mr_start r <= o < mr_end r /\ (mr_path r, mr_die r) = q.
Lemma spot_at_app1 l m o p : spot_at l o p -> spot_at (l ++ m) o p.
Proof. intros (r & H & H2). exists r. split; [apply in_or_app; left; exact H | exact H2]. Qed.
Lemma spot_at_app2 l m o p : spot_at m o p -> spot_at (l ++ m) o p.
Proof. intros (r & H & H2). exists r. split; [apply in_or_app; right; exact H | exact H2]. Qed.
Definition spot (s : list (str * Z)) : list str * Z := (stack_path s, snd (last s ([], 0))).
Lemma spot_snoc s n d : s <> [] -> spot (s ++ [(n, d)]) = (stack_path s ++ [n], d).
Proof. intros H. unfold spot. rewrite stack_path_snoc by exact H. rewrite last_last. reflexivity. Qed.

Definition placed (l : list die) (after : option Z) (b b' : builder) : Prop := exists N T,
  b_ranges b' = b_ranges b ++ N /\ tiles N (b_last b) (b_last b') /\ b_stack b' = b_stack b ++ T /\ (after <> None -> T = []) /\
  (forall nx, after = Some nx -> b_last b' <= nx) /\
  (b_last b' = b_last b \/ (exists x, In x (entries_list l) /\ e_off x = b_last b') \/ after = Some (b_last b')) /\
  (forall x p, In (x, p) (spots_list (spot (b_stack b)) l) -> (e_off x < b_last b' -> spot_at N (e_off x) p) /\ (b_last b' <= e_off x -> p = spot (b_stack b'))) /\
  (forall o, b_last b <= o -> gap o l after -> (o < b_last b' -> spot_at N o (spot (b_stack b))) /\ (b_last b' <= o -> spot (b_stack b) = spot (b_stack b'))).

Lemma placed_nil after b : (forall nx, after = Some nx -> b_last b <= nx) -> placed [] after b b.
Proof.
  intros H. exists [], []. rewrite !app_nil_r. split; [reflexivity|]. split; [constructor|]. split; [reflexivity|]. split; [reflexivity|].
  split; [exact H|]. split; [left; reflexivity|]. split; [intros x p []|]. intros o Ho _. split; [lia | reflexivity].
Qed.
Lemma placed_cons x y l after b b1 b2 : ready (x :: y :: l) after b ->
  placed [x] (Some (e_off (d_entry y))) b b1 -> placed (y :: l) after b1 b2 -> placed (x :: y :: l) after b b2.
Proof.
  intros (R0 & R1 & R2 & R3 & R4) (N1 & T1 & A1 & A2 & A3 & A4 & A5 & A6 & A7 & A8) (N2 & T2 & B1 & B2 & B3 & B4 & B5 & B6 & B7 & B8).
  assert (T1 = []) by (apply A4; discriminate). subst T1. rewrite app_nil_r in A3. rewrite A3 in B3, B7, B8.
  pose proof (tiles_le _ _ _ A2) as LE1. pose proof (tiles_le _ _ _ B2) as LE2. specialize (A5 _ eq_refl).
  change (entries_list (x :: y :: l)) with (entries x ++ entries_list (y :: l)) in *.
  destruct (ss_app _ _ _ R2) as (S1 & S2 & S3).
  exists (N1 ++ N2), T2. split; [rewrite B1, A1, app_assoc; reflexivity|]. split; [exact (tiles_app _ _ _ _ _ A2 B2)|].
  split; [exact B3|]. split; [exact B4|]. split; [exact B5|]. split; [|split].
  - destruct B6 as [E | [(z & H1 & H2) | E]]; [|right; left; exists z; split; [apply in_or_app; right; exact H1 | exact H2] | right; right; exact E].
    rewrite E. destruct A6 as [E1 | [(z & H1 & H2) | E1]]; [left; exact E1 | right; left; exists z; split; [|exact H2] |].
    + unfold entries_list in H1. cbn in H1. rewrite app_nil_r in H1. apply in_or_app. left. exact H1.
    + injection E1 as E1. right. left. exists (d_entry y). split; [apply in_or_app; right; unfold entries_list; cbn; apply in_or_app; left; apply head_in | lia].
  - intros z p Hz. unfold spots_list in Hz. cbn [flat_map] in Hz. apply in_app_or in Hz. destruct Hz as [Hz | Hz].
    + assert (Hz' : In (z, p) (spots_list (spot (b_stack b)) [x])) by (unfold spots_list; cbn; rewrite app_nil_r; exact Hz).
      destruct (A7 z p Hz') as [P1 P2]. assert (Hzin : In z (entries x)) by (rewrite <- (spots_entries (spot (b_stack b)) x); exact (in_map fst _ _ Hz)).
      assert (GZ : gap (e_off z) (y :: l) after) by (unfold gap; cbn [next_of]; apply (S3 z (d_entry y) Hzin); unfold entries_list; cbn; apply in_or_app; left; apply head_in).
      split.
      * intros HL. destruct (Z_lt_dec (e_off z) (b_last b1)) as [Hlt | Hge]; [apply spot_at_app1; apply P1; exact Hlt|].
        apply spot_at_app2. rewrite (P2 ltac:(lia)), A3. apply (B8 (e_off z)); [lia | exact GZ | exact HL].
      * intros HL. rewrite (P2 ltac:(lia)), A3. apply (B8 (e_off z)); [lia | exact GZ | exact HL].
    + destruct (B7 z p) as [P1 P2]; [unfold spots_list; cbn [flat_map]; exact Hz|]. split; [intros HL; apply spot_at_app2; apply P1; exact HL | exact P2].
  - intros o Ho Go. unfold gap in Go. cbn [next_of] in Go. destruct (A8 o Ho Go) as [P1 P2].
    assert (GZ : gap o (y :: l) after) by (unfold gap; cbn [next_of]; pose proof (S3 (d_entry x) (d_entry y) (head_in x) ltac:(unfold entries_list; cbn; apply in_or_app; left; apply head_in)) as SS; unfold by_offset in SS; lia).
    split.
    + intros HL. destruct (Z_lt_dec o (b_last b1)) as [Hlt | Hge]; [apply spot_at_app1; apply P1; exact Hlt|]. apply spot_at_app2. apply (B8 o); [lia | exact GZ | exact HL].
    + intros HL. apply (B8 o); [lia | exact GZ | exact HL].
Qed.
Lemma list_placed_of l :
  Forall (fun d => forall after b, ready [d] after b -> exists b', tree_walk module_visitor d after b = (b', true) /\ placed [d] after b b') l ->
  forall after b, ready l after b -> exists b', list_walk module_visitor l after b = (b', true) /\ placed l after b b'.
Proof.
  intros F.
  induction F as [|x l Hx Hl IHl]; intros after b R.
    - exists b. split; [reflexivity|]. apply placed_nil. intros nx E. apply R. exact E.
    - cbn [list_walk]. destruct l as [|y l].
      + cbn [next_of]. destruct (Hx after b R) as (b' & E & W). rewrite E. exists b'. auto.
      + cbn [next_of]. destruct R as (R0 & R1 & R2 & R3 & R4). pose proof R2 as R2'. change (entries_list (x :: y :: l)) with (entries x ++ entries_list (y :: l)) in R2', R3, R4.
        destruct (ss_app _ _ _ R2') as (S1 & S2 & S3). inversion R1 as [|? ? Rx Rl]; subst.
        assert (Ex : entries_list [x] = entries x) by (unfold entries_list; cbn; apply app_nil_r).
        assert (Hy : In (d_entry y) (entries_list (y :: l))) by (unfold entries_list; cbn; apply in_or_app; left; apply head_in).
        assert (RX : ready [x] (Some (e_off (d_entry y))) b).
        { unfold ready. rewrite Ex. repeat split; auto.
          - intros z Hz. apply R3. apply in_or_app. left. exact Hz.
          - injection H as <-. apply R3. apply in_or_app. right. exact Hy.
          - injection H as <-. intros z Hz. exact (S3 z _ Hz Hy). }
        destruct (Hx _ b RX) as (b1 & E1 & W1). rewrite E1.
        pose proof W1 as (N1 & T1 & A1 & A2 & A3 & A4 & A5 & A6 & _). assert (T1 = []) by (apply A4; discriminate). subst T1. rewrite app_nil_r in A3.
        specialize (A5 _ eq_refl).
        assert (RL : ready (y :: l) after b1).
        { unfold ready. rewrite A3. split; [exact R0|]. split; [exact Rl|]. split; [exact S2|].
          assert (FY : forall z, In z (entries_list (y :: l)) -> e_off (d_entry y) <= e_off z).
          { intros z Hz. unfold entries_list in Hz, S2. cbn in Hz, S2. destruct (ss_app _ _ _ S2) as (Q1 & _ & Q3). apply in_app_or in Hz. destruct Hz as [Hz | Hz].
            - apply head_first; assumption.
            - pose proof (Q3 (d_entry y) z (head_in y) Hz) as Q. unfold by_offset in Q. lia. }
          split; [intros z Hz; specialize (FY z Hz); lia|]. intros nx En. destruct (R4 nx En) as [_ R4']. split.
          - specialize (R4' (d_entry y) ltac:(apply in_or_app; right; exact Hy)). lia.
          - intros z Hz. apply R4'. apply in_or_app. right. exact Hz. }
        destruct (IHl after b1 RL) as (b2 & E2 & W2). exists b2. split; [exact E2|].
        exact (placed_cons x y l after b b1 b2 (conj R0 (conj R1 (conj R2 (conj R3 R4)))) W1 W2).
Qed.

Lemma tree_placed d : forall after b, ready [d] after b -> exists b', tree_walk module_visitor d after b = (b', true) /\ placed [d] after b b'.
Proof.
  induction d as [e kids IH] using die_ind2. intros after b R. rewrite tree_walk_eq. cbn [module_visitor v_pre v_post].
  set (l := match kids with Some l => l | None => [] end) in *.
  assert (IHL : forall after b, ready l after b -> exists b', list_walk module_visitor l after b = (b', true) /\ placed l after b b').
  { assert (F : Forall (fun d => forall after b, ready [d] after b -> exists b', tree_walk module_visitor d after b = (b', true) /\ placed [d] after b b') l)
      by (subst l; destruct kids as [l|]; [exact (IH l eq_refl) | constructor]).
    exact (list_placed_of l F). }
  clear IH. destruct R as (R0 & R1 & R2 & R3 & R4). inversion R1 as [|? ? NT _]; subst. unfold entries_list in R2, R3, R4. cbn [flat_map] in R2, R3, R4. rewrite app_nil_r in R2, R3, R4.
  rewrite entries_eq in R2, R3, R4. fold l in R2, R3, R4. inversion R2 as [|? ? S1 S2]; subst. rewrite Forall_forall in S2. unfold by_offset in S2.
  assert (Hoff : b_last b <= e_off e) by (apply R3; left; reflexivity).
  unfold ns_pre, close. cbn [module_visitor v_post]. unfold ns_post.
  inversion NT as [? ? NS NM FK | ? ? NS FK]; subst; fold l in FK; unfold is_namespace in NS.
  - (* a namespace *)
    destruct (e_tag e) eqn:TG; try discriminate. clear NS.
    assert (NAME : exists name, get_string_attr e At_name = Ok (Some name) /\ spot_in (spot (b_stack b)) e = (stack_path (b_stack b) ++ [name], e_off e)).
    { unfold get_string_attr, spot_in, is_namespace, name_of, spot in *. rewrite TG. destruct (get_attr e At_name) as [[[s|]| | | | | |]|]; try contradiction. exists s. auto. }
    destruct NAME as (name & GN & PI). rewrite GN.
    destruct (stack_last _ R0) as (sa & sn & sd & SE & SR). rewrite SR.
    set (b1 := if b_last b <? e_off e then _ else b).
    assert (B1 : exists N0, b_ranges b1 = b_ranges b ++ N0 /\ tiles N0 (b_last b) (e_off e) /\ b_last b1 = e_off e /\ b_stack b1 = b_stack b /\ b_modules b1 = b_modules b /\
               forall o, b_last b <= o < e_off e -> spot_at N0 o (spot (b_stack b))).
    { subst b1. destruct (b_last b <? e_off e) eqn:Q.
      - eexists [_]. cbn. split; [reflexivity|]. split; [apply tiles_one with (r := MRange (stack_path (b_stack b)) sd (b_last b) (e_off e)); cbn; lia|]. repeat split.
        intros o Ho. eexists. split; [left; reflexivity|]. cbn. split; [exact Ho|]. unfold spot. rewrite SE, last_last. reflexivity.
      - exists []. rewrite app_nil_r. assert (b_last b = e_off e) by lia. split; [reflexivity|]. split; [rewrite <- H; constructor|]. repeat split; [exact H|]. intros o Ho. lia. }
    destruct B1 as (N0 & C1 & C2 & C3 & C4 & C5 & C6). rewrite C4, C5.
    set (st := b_stack b ++ [(name, e_off e)]). set (bk := Builder (b_ranges b1) _ (b_last b1) st).
    assert (SP : spot st = (stack_path (b_stack b) ++ [name], e_off e)) by (apply spot_snoc; exact R0).
    assert (RK : ready l after bk).
    { unfold ready. subst bk. cbn. rewrite C3. split; [subst st; destruct (b_stack b); discriminate|]. split; [exact FK|]. split; [exact S1|]. split.
      - intros z Hz. specialize (S2 z Hz). lia.
      - intros nx En. destruct (R4 nx En) as [_ R4']. split; [specialize (R4' e (or_introl eq_refl)); lia | intros z Hz; apply R4'; right; exact Hz]. }
    destruct (IHL after bk RK) as (b2 & E2 & W2). rewrite E2.
    destruct W2 as (N1 & T1 & A1 & A2 & A3 & A4 & A5 & A6 & A7 & A8). subst bk. cbn [b_ranges b_last b_stack b_modules] in *.
    rewrite C3 in A2, A6, A8. rewrite SP in A7, A8.
    pose proof (tiles_le _ _ _ A2) as LE2.
    assert (PE : forall z p, In (z, p) (spots_list (spot (b_stack b)) [Die e kids]) -> (z = e /\ p = (stack_path (b_stack b) ++ [name], e_off e)) \/ In (z, p) (spots_list ((stack_path (b_stack b) ++ [name], e_off e)) l)).
    { intros z p Hz. unfold spots_list in Hz. cbn [flat_map] in Hz. rewrite app_nil_r, spots_eq, PI in Hz. fold l in Hz. destruct Hz as [Hz | Hz]; [injection Hz as <- <-; left; auto | right; exact Hz]. }
    assert (GE : gap (e_off e) l after).
    { unfold gap. destruct l as [|y l']; cbn [next_of].
      - destruct after as [nx|]; [|exact I]. destruct (R4 nx eq_refl) as [_ R4']. apply R4'. left. reflexivity.
      - apply S2. unfold entries_list. cbn. apply in_or_app. left. apply head_in. }
    destruct after as [nx|].
    + (* something follows: the namespace is closed *)
      assert (T1 = []) by (apply A4; discriminate). subst T1. rewrite app_nil_r in A3. rewrite A3. subst st. rewrite rev_app_distr. cbn [rev app].
      rewrite rev_involutive. specialize (A5 nx eq_refl).
      set (b' := if b_last b2 <? nx then _ else _). exists b'. split; [reflexivity|].
      assert (B' : exists N2, b_ranges b' = b_ranges b2 ++ N2 /\ tiles N2 (b_last b2) nx /\ b_last b' = nx /\ b_stack b' = b_stack b /\ b_modules b' = b_modules b2 /\
               forall o, b_last b2 <= o < nx -> spot_at N2 o ((stack_path (b_stack b) ++ [name], e_off e))).
      { subst b'. destruct (b_last b2 <? nx) eqn:Q.
        - eexists [_]. cbn. split; [reflexivity|]. split; [apply tiles_one with (r := MRange (stack_path (b_stack b) ++ [name]) (e_off e) (b_last b2) nx); cbn; lia|]. repeat split.
          intros o Ho. eexists. split; [left; reflexivity|]. cbn. auto.
        - exists []. cbn. rewrite app_nil_r. assert (b_last b2 = nx) by lia. split; [reflexivity|]. split; [rewrite <- H; constructor|]. repeat split; [exact H|]. intros o Ho. lia. }
      destruct B' as (N2 & D1 & D2 & D3 & D4 & D5 & D6).
      assert (LTN : forall z p, In (z, p) (spots_list (spot (b_stack b)) [Die e kids]) -> e_off z < nx).
      { intros z p Hz. destruct (R4 nx eq_refl) as [_ R4']. apply R4'. destruct (PE z p Hz) as [[-> _] | Hz']; [left; reflexivity | right]. rewrite <- (spots_list_entries ((stack_path (b_stack b) ++ [name], e_off e)) l). exact (in_map fst _ _ Hz'). }
      exists (N0 ++ N1 ++ N2), []. rewrite app_nil_r. split; [rewrite D1, A1, C1, <- !app_assoc; reflexivity|].
      split; [rewrite D3; apply (tiles_app _ _ _ _ _ C2); exact (tiles_app _ _ _ _ _ A2 D2)|].
      split; [exact D4|]. split; [reflexivity|]. split; [intros nx' E; injection E as <-; lia|].
      split; [right; right; f_equal; lia|]. split.
      * intros z p Hz. rewrite D3. split; [|specialize (LTN z p Hz); lia]. intros _.
        destruct (PE z p Hz) as [[-> ->] | Hz'].
        -- destruct (A8 (e_off e) (Z.le_refl _) GE) as [P1 P2]. destruct (Z_lt_dec (e_off e) (b_last b2)) as [Hl | Hg].
           ++ apply spot_at_app2, spot_at_app1. apply P1. exact Hl.
           ++ apply spot_at_app2, spot_at_app2. apply D6. specialize (LTN e _ Hz). lia.
        -- destruct (A7 z p Hz') as [P1 P2]. destruct (Z_lt_dec (e_off z) (b_last b2)) as [Hl | Hg].
           ++ apply spot_at_app2, spot_at_app1. apply P1. exact Hl.
           ++ apply spot_at_app2, spot_at_app2. rewrite (P2 ltac:(lia)), A3, spot_snoc by exact R0. apply D6. specialize (LTN z p Hz). lia.
      * intros o Ho Go. unfold gap in Go. cbn [next_of d_entry] in Go. rewrite D3. split; [intros _; apply spot_at_app1; apply C6; lia|].
        destruct (R4 nx eq_refl) as [_ R4']. specialize (R4' e (or_introl eq_refl)). lia.
    + (* nothing follows in the unit: the namespace stays open *)
      exists b2. split; [reflexivity|]. exists (N0 ++ N1), ((name, e_off e) :: T1).
      split; [rewrite A1, C1, app_assoc; reflexivity|]. split; [exact (tiles_app _ _ _ _ _ C2 A2)|].
      split; [rewrite A3; subst st; rewrite <- app_assoc; reflexivity|]. split; [congruence|]. split; [discriminate|].
      split; [|split].
      * right. left. unfold entries_list. cbn [flat_map]. rewrite app_nil_r, entries_eq. fold l.
        destruct A6 as [E | [(z & H1 & H2) | E]]; [exists e; split; [left; reflexivity | lia] | exists z; split; [right; exact H1 | exact H2] | discriminate].
      * intros z p Hz. destruct (PE z p Hz) as [[-> ->] | Hz'].
        -- destruct (A8 (e_off e) (Z.le_refl _) GE) as [P1 P2]. split; [intros HL; apply spot_at_app2; apply P1; exact HL | exact P2].
        -- destruct (A7 z p Hz') as [P1 P2]. split; [intros HL; apply spot_at_app2; apply P1; exact HL | exact P2].
      * intros o Ho Go. unfold gap in Go. cbn [next_of d_entry] in Go. split; [intros _; apply spot_at_app1; apply C6; lia | lia].
  - (* any other entry *)
    assert (PF : forall z p, In (z, p) (spots_list (spot (b_stack b)) [Die e kids]) -> p = spot (b_stack b)).
    { intros z p Hz. unfold spots_list in Hz. cbn [flat_map] in Hz. rewrite app_nil_r in Hz. apply (spots_flat _ (Die e kids)) with (x := z); [|exact Hz].
      rewrite entries_eq. constructor; [exact NS | exact FK]. }
    assert (W : placed [Die e kids] after b b).
    { exists [], []. rewrite !app_nil_r. split; [reflexivity|]. split; [constructor|]. split; [reflexivity|]. split; [reflexivity|].
      split; [intros nx En; apply (R4 nx En)|]. split; [left; reflexivity|]. split.
      - intros z p Hz. split; [|intros _; exact (PF z p Hz)]. intros HL. exfalso.
        assert (In z (e :: entries_list l)) by (subst l; rewrite <- entries_eq, <- (spots_entries (spot (b_stack b))); unfold spots_list in Hz; cbn [flat_map] in Hz; rewrite app_nil_r in Hz; exact (in_map fst _ _ Hz)).
        specialize (R3 z H). lia.
      - intros o Ho _. split; [lia | reflexivity]. }
    exists b. destruct (e_tag e) eqn:TG; try discriminate; cbn [fst snd]; (split; [reflexivity | exact W]).
Qed.

Lemma list_placed l after b : ready l after b -> exists b', list_walk module_visitor l after b = (b', true) /\ placed l after b b'.
Proof. apply list_placed_of. apply Forall_forall. intros d _. apply tree_placed. Qed.


(** One Rust unit: each DIE lies in a range with its module path; the DIE of that range is the enclosing namespace, except
    in the last range of the unit, where it is the unit's root. *)
Definition unit_spots (d : die) : list (entry * (list str * Z)) := spots ([], e_off (d_entry d)) d.
Definition range_for (d : die) (N : list mrange) : Prop := forall x q, In (x, q) (unit_spots d) ->
  exists r, In r N /\ mr_start r <= e_off x < mr_end r /\ mr_path r = fst q /\
    (mr_die r = snd q \/ mr_die r = e_off (d_entry d) /\ forall y q', In (y, q') (unit_spots d) -> e_off x <= e_off y -> q' = q).
Lemma unit_placed ulen d pad b : good_unit ulen d -> is_rust_cu (d_entry d) = true ->
  exists n0 b' N, (forall n, (n0 <= n)%nat -> walk_unit (module_cu ulen) module_visitor n (unit_toks d pad) b = Some (b', true)) /\
    b_ranges b' = b_ranges b ++ N /\ range_for d N.
Proof.
  intros (G1 & G2 & G3 & G4) HR. destruct (walk_unit_refines (module_cu ulen) module_visitor d pad b G1) as (n0 & H).
  destruct d as [e k]. cbn [d_entry d_kids] in *. cbn [module_cu cu_pre cu_post] in H. rewrite HR in H.
  set (l := match k with Some l => l | None => [] end). assert (KL : d_kids (Die e k) = l) by (destruct k; reflexivity).
  set (b0 := Builder (b_ranges b) (b_modules b) (e_off e) [([], e_off e)]) in *.
  rewrite entries_eq in G3, G4. fold l in G3, G4. inversion G3 as [|? ? S1 S2]; subst. rewrite Forall_forall in S2. unfold by_offset in S2.
  assert (FK : Forall ns_tree l) by (subst l; destruct k; exact G2).
  assert (R : ready l None b0).
  { unfold ready. subst b0. cbn. split; [discriminate|]. split; [exact FK|]. split; [exact S1|]. split; [intros x Hx; specialize (S2 x Hx); lia | discriminate]. }
  destruct (list_placed l None b0 R) as (b1 & E & W). replace (match k with Some l0 => l0 | None => [] end) with l in H by reflexivity.
  assert (E' : list_walk module_visitor (match k with Some l0 => l0 | None => [] end) None b0 = (b1, true)) by exact E.
  destruct W as (N & T & A1 & A2 & A3 & _ & _ & A6 & A7 & A8). subst b0. cbn [b_ranges b_last b_stack b_modules] in *.
  assert (LT : b_last b1 < e_off e + ulen e).
  { destruct A6 as [-> | [(z & H1 & <-) | X]]; [apply G4; left; reflexivity | apply G4; right; exact H1 | discriminate]. }
  assert (NSE : is_namespace e = false) by (unfold is_namespace; rewrite G1; reflexivity).
  exists n0. eexists. exists (N ++ [MRange (stack_path (b_stack b1)) (e_off e) (b_last b1) (e_off e + ulen e)]).
  split; [intros n Hn; rewrite H by exact Hn; destruct k as [l0|]; cbn [d_kids] in *; [subst l; rewrite E; reflexivity | cbn in E; injection E as <-; reflexivity]|].
  cbn [b_ranges]. split; [rewrite A1, app_assoc; reflexivity|].
  assert (S0 : spot [([], e_off e)] = ([], e_off e)) by reflexivity. rewrite S0 in A7, A8.
  assert (GE : gap (e_off e) l None) by (unfold gap; destruct l as [|y l']; cbn [next_of]; [exact I | apply S2; unfold entries_list; cbn; apply in_or_app; left; apply head_in]).
  assert (US : unit_spots (Die e k) = (e, ([], e_off e)) :: spots_list ([], e_off e) l) by (unfold unit_spots; rewrite spots_eq; unfold spot_in; cbn [d_entry]; rewrite NSE; reflexivity).
  assert (IN : forall x q, In (x, q) (unit_spots (Die e k)) -> e_off x < e_off e + ulen e /\ (e_off x < b_last b1 -> spot_at N (e_off x) q) /\ (b_last b1 <= e_off x -> q = spot (b_stack b1))).
  { intros x q Hx. rewrite US in Hx. destruct Hx as [Hx | Hx].
    - injection Hx as <- <-. split; [apply G4; left; reflexivity|]. exact (A8 (e_off e) (Z.le_refl _) GE).
    - split; [apply G4; right; rewrite <- (spots_list_entries ([], e_off e) l); exact (in_map fst _ _ Hx)|]. exact (A7 x q Hx). }
  intros x q Hx. destruct (IN x q Hx) as (I0 & I1 & I2). destruct (Z_lt_dec (e_off x) (b_last b1)) as [Hl | Hg].
  - destruct (I1 Hl) as (r & R1 & R2 & <-). exists r. split; [apply in_or_app; left; exact R1|]. split; [exact R2|]. split; [reflexivity | left; reflexivity].
  - eexists. split; [apply in_or_app; right; left; reflexivity|]. cbn [mr_start mr_end mr_path mr_die d_entry]. split; [lia|]. rewrite (I2 ltac:(lia)). split; [reflexivity|]. right. split; [reflexivity|].
    intros y q' Hy L. destruct (IN y q' Hy) as (_ & _ & J2). exact (J2 ltac:(lia)).
Qed.
Lemma file_placed ulen : forall ds b, good_file ulen (map fst ds) ->
  exists n0 b' N, (forall n, (n0 <= n)%nat -> walk_file (module_cu ulen) module_visitor n (file_toks ds) b = Some (b', true)) /\
    b_ranges b' = b_ranges b ++ N /\ forall d, In d (map fst ds) -> is_rust_cu (d_entry d) = true -> range_for d N.
Proof.
  induction ds as [|[d pad] ds IH]; intros b G.
  - exists 0%nat, b, []. rewrite app_nil_r. split; [reflexivity|]. split; [reflexivity|]. intros d [].
  - cbn [map fst good_file] in G. destruct G as (G1 & G2 & G3). destruct (is_rust_cu (d_entry d)) eqn:RC.
    + destruct (unit_placed ulen d pad b G1 RC) as (n1 & b1 & N1 & A1 & A2 & A3). destruct (IH b1 G3) as (n2 & b2 & N2 & B1 & B2 & B3).
      exists (n1 + n2)%nat, b2, (N1 ++ N2). split; [intros n Hn; cbn [file_toks map walk_file fst snd]; rewrite A1 by lia; apply B1; lia|]. split; [rewrite B2, A2, app_assoc; reflexivity|].
      intros d' [<- | Hd] R x q Hx; [destruct (A3 x q Hx) as (r & Hr & Q) | destruct (B3 d' Hd R x q Hx) as (r & Hr & Q)]; exists r; (split; [apply in_or_app; auto | exact Q]).
    + destruct (unit_skipped ulen d pad b G1 RC) as (n1 & A1). destruct (IH b G3) as (n2 & b2 & N2 & B1 & B2 & B3).
      exists (n1 + n2)%nat, b2, N2. split; [intros n Hn; cbn [file_toks map walk_file fst snd]; rewrite A1 by lia; apply B1; lia|]. split; [exact B2|].
      intros d' [<- | Hd] R; [cbn in R; congruence | exact (B3 d' Hd R)].
Qed.
(** The range found for a DIE. *)
Theorem die_range_found : forall ulen ds, good_file ulen (map fst ds) ->
  exists n0 ranges mods, (forall n, (n0 <= n)%nat -> module_index ulen n (file_toks ds) = Some (ranges, mods)) /\
    forall d x q, In d (map fst ds) -> is_rust_cu (d_entry d) = true -> In (x, q) (unit_spots d) ->
      exists r, find_by_offset ranges (e_off x) = Some r /\ mr_path r = fst q /\
        (mr_die r = snd q \/ mr_die r = e_off (d_entry d) /\ forall y q', In (y, q') (unit_spots d) -> e_off x <= e_off y -> q' = q).
Proof.
  intros ulen ds G. destruct (file_walked ulen ds new_builder G) as (n0 & b & N & H1 & H2 & H3 & H4 & _). destruct (file_placed ulen ds new_builder G) as (m0 & b2 & N2 & P1 & P2 & P3).
  assert (E : b2 = b) by (pose proof (H1 (n0 + m0)%nat ltac:(lia)) as Q1; rewrite (P1 (n0 + m0)%nat ltac:(lia)) in Q1; injection Q1 as ->; reflexivity). subst b2.
  rewrite H2 in P2. cbn [new_builder b_ranges app] in H2, P2. subst N2. exists n0, N, (b_modules b).
  assert (SN : sort_ranges N = N) by (apply sort_sorted, ahead_sorted; [exact H3 | intros r Hr; apply (H4 r Hr)]).
  split; [intros n Hn; unfold module_index; rewrite H1 by exact Hn; rewrite H2, SN; reflexivity|].
  assert (UN : forall r s o, In r N -> In s N -> contains r o -> contains s o -> r = s).
  { intros r s o Hr Hs Cr Cs. unfold contains in *. clear - H3 Hr Hs Cr Cs. induction H3 as [|x l H IH F]; [destruct Hr|]. rewrite Forall_forall in F. unfold ahead in F.
    destruct Hr as [<- | Hr], Hs as [<- | Hs]; [reflexivity | specialize (F s Hs); lia | specialize (F r Hr); lia | apply IH; assumption]. }
  intros d x q Hd HR Hx. destruct (P3 d Hd HR x q Hx) as (r & Hr & C & Q). pose proof (module_lookup_innermost N (e_off x)) as L. rewrite SN in L. destruct (find_by_offset N (e_off x)) as [s|].
  - destruct L as (L1 & L2 & _). rewrite (UN s r (e_off x) L1 Hr L2 C). exists r. split; [reflexivity | exact Q].
  - exfalso. exact (L r Hr C).
Qed.
Print Assumptions die_range_found.
