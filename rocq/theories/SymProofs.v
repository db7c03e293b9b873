From Coq Require Import Ascii String List ZArith NArith Bool Arith Lia.
From Coq Require Import ZifyBool ZifyNat ZifyN.
From Verif Require Import Base NumText ExprModel OMap SymModel SymSpec.
Import ListNotations.
Open Scope Z_scope.

Ltac inv H := inversion H; subst; clear H.

(** ** parse_symbol *)
Lemma depth_after_app d a b : depth_after d (a ++ b) = depth_after (depth_after d a) b.
Proof. revert d. induction a as [|c a IH]; intros d; simpl; [reflexivity | apply IH]. Qed.
Definition spacish (cur : str) : bool := match cur with [] => true | _ => ends_with_space cur end.

Fixpoint spaces_ok (prev : bool) (s : str) : bool :=
  match s with
  | [] => true
  | c :: r => negb (N.eqb c 10 || N.eqb c 13 || N.eqb c 9) && negb (N.eqb c 32 && prev)
              && spaces_ok (N.eqb c 32) r
  end.
Fixpoint colons_ok (d : Z) (s : str) : bool :=
  match s with
  | [] => true
  | c :: r => negb (N.eqb c 58 && (d =? 0))
              && colons_ok (if N.eqb c 60 then d + 1 else if N.eqb c 62 then d - 1 else d) r
  end.

Lemma spacish_app cur c : spacish (cur ++ [c]) = N.eqb c 32.
Proof.
  unfold spacish, ends_with_space. rewrite rev_app_distr. simpl. destruct cur; reflexivity.
Qed.

Lemma split_segment s : forall rest d cur segs,
  colons_ok d s = true -> spaces_ok (spacish cur) s = true ->
  split_symbol (s ++ rest) d cur segs = split_symbol rest (depth_after d s) (cur ++ s) segs.
Proof.
  induction s as [|c s IH]; intros rest d cur segs Hc Hs; [rewrite app_nil_r; reflexivity|].
  cbn [colons_ok spaces_ok] in Hc, Hs.
  apply andb_true_iff in Hc. destruct Hc as [Hc1 Hc2].
  apply andb_true_iff in Hs. destruct Hs as [Hs12 Hs3]. apply andb_true_iff in Hs12. destruct Hs12 as [Hs1 Hs2].
  assert (Hpush : forall d', colons_ok d' s = true ->
     split_symbol (s ++ rest) d' (cur ++ [c]) segs = split_symbol rest (depth_after d' s) (cur ++ c :: s) segs).
  { intros d' Hd'. rewrite IH; [|exact Hd'|rewrite spacish_app; exact Hs3].
    rewrite <- app_assoc. reflexivity. }
  cbn [app split_symbol depth_after].
  destruct (N.eqb c 60) eqn:E60; [apply Hpush; exact Hc2|].
  destruct (N.eqb c 62) eqn:E62; [apply Hpush; exact Hc2|].
  assert (N.eqb c 58 && (d =? 0) = false) as -> by (destruct (N.eqb c 58 && (d =? 0)); [discriminate|reflexivity]).
  assert (N.eqb c 10 || N.eqb c 13 || N.eqb c 9 = false) as Hw by (destruct (N.eqb c 10 || N.eqb c 13 || N.eqb c 9); [discriminate|reflexivity]).
  rewrite Hw. cbn [orb]. destruct (N.eqb c 32) eqn:E32; [|apply Hpush; exact Hc2].
  cbn in Hs2. apply N.eqb_eq in E32. subst c.
  destruct cur as [|x cur]; [discriminate|]. cbn [spacish] in Hs2.
  destruct (ends_with_space (x :: cur)); [discriminate|]. apply Hpush; exact Hc2.
Qed.

Lemma colons_nested_ok s : forall d, (forall a b, s = a ++ [58%N] ++ b -> depth_after d a <> 0) -> colons_ok d s = true.
Proof.
  induction s as [|c s IH]; intros d H; [reflexivity|]. cbn [colons_ok]. apply andb_true_iff. split.
  - destruct (N.eqb c 58) eqn:E; [|reflexivity]. apply N.eqb_eq in E. subst.
    specialize (H [] s eq_refl). simpl in *. lia.
  - apply IH. intros a b Hs. specialize (H (c :: a) b). simpl in H. apply H. rewrite Hs. reflexivity.
Qed.

Lemma colons_ok_nested s : colons_ok 0 s = true -> colons_nested s.
Proof.
  unfold colons_nested. change (colons_ok 0 s = true -> forall a b, s = a ++ [58%N] ++ b -> depth_after 0 a <> 0).
  assert (Hg : forall d, colons_ok d s = true -> forall a b, s = a ++ [58%N] ++ b -> depth_after d a <> 0); [|apply Hg].
  induction s as [|c s IH]; intros d H a b Hs.
  - destruct a; discriminate.
  - cbn [colons_ok] in H. apply andb_true_iff in H. destruct H as [H1 H2].
    destruct a as [|x a]; simpl in Hs; injection Hs as -> Hs.
    + simpl. rewrite N.eqb_refl in H1. simpl in H1. lia.
    + simpl. exact (IH _ H2 a b Hs).
Qed.
Lemma spaces_ok_normal s : forall p, spaces_ok p s = true -> forall a b, s <> a ++ [32; 32]%N ++ b.
Proof.
  induction s as [|c s IH]; intros p H a b Hs; [destruct a; discriminate|].
  cbn [spaces_ok] in H. apply andb_true_iff in H. destruct H as [H1 H2].
  destruct a as [|x a]; simpl in Hs; injection Hs as -> Hs; [|exact (IH _ H2 a b Hs)].
  subst s. cbn in H2. discriminate.
Qed.
Definition chars_ok (s : str) : bool := forallb (fun c => negb (N.eqb c 9 || N.eqb c 10 || N.eqb c 13)) s.
Lemma chars_ok_spec s : chars_ok s = true -> forall c, In c s -> c <> 9%N /\ c <> 10%N /\ c <> 13%N.
Proof. unfold chars_ok. rewrite forallb_forall. intros H c Hc. specialize (H c Hc). lia. Qed.

Lemma trim_start_head c s : trim_start (c :: s) = c :: s -> is_whitespace c = false.
Proof.
  simpl. destruct (is_whitespace c); [|reflexivity]. intros H.
  assert (Hl : forall t, (length (trim_start t) <= length t)%nat).
  { induction t as [|x t IH]; simpl; [lia|]. destruct (is_whitespace x); simpl; lia. }
  specialize (Hl s). rewrite H in Hl. simpl in Hl. lia.
Qed.
Lemma trim_start_len s : (length (trim_start s) <= length s)%nat.
Proof. induction s as [|x s IH]; simpl; [lia|]. destruct (is_whitespace x); simpl; lia. Qed.
Lemma trim_start_id s : trim s = s -> trim_start s = s.
Proof.
  unfold trim. intros H. destruct s as [|c s]; [reflexivity|].
  destruct (is_whitespace c) eqn:E; [|simpl; rewrite E; reflexivity].
  exfalso. assert (Hl : (length (rev (trim_start (rev (trim_start (c :: s))))) <= length s)%nat).
  { rewrite rev_length. etransitivity; [apply trim_start_len|]. rewrite rev_length. simpl. rewrite E. apply trim_start_len. }
  rewrite H in Hl. simpl in Hl. lia.
Qed.

Lemma spaces_normal_ok s : spaces_normal s -> spaces_ok true s = true.
Proof.
  intros [Ht [Hc Hd]].
  assert (Hgen : forall p, (p = true -> match s with c :: _ => c <> 32%N | [] => True end) -> spaces_ok p s = true).
  { clear Ht. revert Hc Hd. induction s as [|c s IH]; intros Hc Hd p Hp; [reflexivity|].
    cbn [spaces_ok]. apply andb_true_iff. split; [apply andb_true_iff; split|].
    - specialize (Hc c (or_introl eq_refl)). lia.
    - destruct p; [|rewrite andb_false_r; reflexivity]. specialize (Hp eq_refl). simpl in Hp. lia.
    - apply IH.
      + intros x Hx. apply Hc. right. exact Hx.
      + intros a b H. apply (Hd (c :: a) b). rewrite H. reflexivity.
      + intros E. apply N.eqb_eq in E. subst c. destruct s as [|x s]; [exact I|].
        intros ->. apply (Hd [] s). reflexivity. }
  apply Hgen. intros _. destruct s as [|c s]; [exact I|]. apply trim_start_id, trim_start_head in Ht.
  intros ->. discriminate.
Qed.

Lemma wf_segment_split s rest segs : wf_segment s ->
  split_symbol (s ++ rest) 0 [] segs = split_symbol rest 0 s segs.
Proof.
  intros [_ [H1 [H2 H3]]]. rewrite split_segment.
  - rewrite H2. reflexivity.
  - apply colons_nested_ok. exact H1.
  - apply spaces_normal_ok. exact H3.
Qed.

Lemma split_join l : forall s segs, wf_segment s -> Forall wf_segment l ->
  split_symbol (join (st "::") (s :: l)) 0 [] segs = segs ++ s :: l.
Proof.
  induction l as [|t l IH]; intros s segs Hs Hl.
  - cbn [join]. rewrite <- (app_nil_r s) at 1. rewrite wf_segment_split by exact Hs.
    cbn [split_symbol push_segment]. destruct s as [|c s]; [destruct Hs; congruence|].
    unfold push_segment. destruct Hs as [_ [_ [_ [Ht _]]]]. rewrite Ht. reflexivity.
  - inv Hl. change (join (st "::") (s :: t :: l)) with (s ++ st "::" ++ join (st "::") (t :: l)).
    rewrite wf_segment_split by exact Hs. cbn [app st list_ascii_of_string map].
    change (N_of_ascii ":") with 58%N. cbn [split_symbol N.eqb Pos.eqb andb Z.eqb].
    rewrite IH by assumption. destruct s as [|c s]; [destruct Hs; congruence|].
    unfold push_segment. destruct Hs as [_ [_ [_ [Ht _]]]]. rewrite Ht. rewrite <- app_assoc. reflexivity.
Qed.

Lemma looks_like_hash_spec s : looks_like_hash s = true <-> hash_like s.
Proof.
  unfold looks_like_hash, hash_like. destruct s as [|c s].
  - split; [discriminate | intros [ds [H _]]; discriminate].
  - rewrite andb_true_iff, N.eqb_eq, forallb_forall. split.
    + intros [-> H]. exists s. split; [reflexivity|]. apply Forall_forall. exact H.
    + intros [ds [H1 H2]]. injection H1 as -> ->. split; [reflexivity|]. rewrite Forall_forall in H2. exact H2.
Qed.

Lemma parse_symbol_plain ms f : Forall wf_segment (ms ++ [f]) -> ~ hash_like f ->
  parse_symbol (join (st "::") (ms ++ [f])) = Ok (ms, f, None).
Proof.
  intros Hw Hh. unfold parse_symbol.
  destruct (ms ++ [f]) as [|s l] eqn:E; [destruct ms; discriminate|].
  inv Hw. rewrite split_join by assumption. cbn [app]. rewrite <- E, rev_app_distr. cbn [rev app].
  destruct (looks_like_hash f) eqn:El; [apply looks_like_hash_spec in El; tauto|].
  rewrite rev_involutive. reflexivity.
Qed.

Lemma hash_like_chars h : hash_like h -> forall c, In c h -> c <> 58%N /\ c <> 60%N /\ c <> 62%N /\ is_whitespace c = false.
Proof.
  intros [ds [-> H]] c [<-|Hc]; [repeat split; discriminate|].
  rewrite Forall_forall in H. specialize (H c Hc). unfold is_hexdigit, is_digit, is_whitespace in *. lia.
Qed.
Lemma trim_start_nows s : (forall c, In c s -> is_whitespace c = false) -> trim_start s = s.
Proof. destruct s as [|c s]; intros H; [reflexivity|]. simpl. rewrite (H c (or_introl eq_refl)). reflexivity. Qed.
Lemma depth_flat s d : (forall c, In c s -> c <> 60%N /\ c <> 62%N) -> depth_after d s = d.
Proof.
  revert d. induction s as [|c s IH]; intros d H; [reflexivity|]. simpl.
  destruct (H c (or_introl eq_refl)) as [H1 H2]. apply N.eqb_neq in H1, H2. rewrite H1, H2.
  apply IH. intros x Hx. apply H. right. exact Hx.
Qed.
Lemma simple_segment s : s <> [] -> (forall c, In c s -> c <> 58%N /\ c <> 60%N /\ c <> 62%N /\ is_whitespace c = false) ->
  wf_segment s.
Proof.
  intros Hne H. split; [exact Hne|]. split; [|split].
  - intros a b Hs. exfalso. destruct (H 58%N) as [Hx _]; [|congruence]. rewrite Hs. apply in_or_app. right. left. reflexivity.
  - apply depth_flat. intros c Hc. specialize (H c Hc). tauto.
  - split; [|split].
    + unfold trim. rewrite (trim_start_nows s) by (intros c Hc; apply H; exact Hc).
      rewrite trim_start_nows; [apply rev_involutive|]. intros c Hc. apply in_rev in Hc. apply H. exact Hc.
    + intros c Hc. destruct (H c Hc) as [_ [_ [_ Hw]]]. repeat split; intros ->; discriminate.
    + intros a b Hs. destruct (H 32%N) as [_ [_ [_ Hw]]]; [|discriminate]. rewrite Hs. apply in_or_app. right. left. reflexivity.
Qed.
Lemma hash_wf h : hash_like h -> wf_segment h.
Proof.
  intros H. apply simple_segment; [destruct H as [ds [-> _]]; discriminate | apply hash_like_chars; exact H].
Qed.

Lemma parse_symbol_hash ms f h : Forall wf_segment (ms ++ [f]) -> hash_like h ->
  parse_symbol (join (st "::") (ms ++ [f; h])) = Ok (ms, f, Some h).
Proof.
  intros Hw Hh. unfold parse_symbol.
  assert (Hw2 : Forall wf_segment (ms ++ [f; h])).
  { apply Forall_app in Hw. destruct Hw as [H1 H2]. apply Forall_app. split; [exact H1|].
    inv H2. constructor; [assumption|]. constructor; [apply hash_wf; exact Hh | constructor]. }
  destruct (ms ++ [f; h]) as [|s l] eqn:E; [destruct ms; discriminate|].
  inv Hw2. rewrite split_join by assumption. cbn [app]. rewrite <- E, rev_app_distr. cbn [rev app].
  apply looks_like_hash_spec in Hh. rewrite Hh. rewrite rev_involutive. reflexivity.
Qed.

(** ** Orders on names *)
Lemma wo_sname : wo cmp_sname.
Proof. apply wo_on, wo_pair; [apply wo_str|]. apply wo_pair; [apply wo_list, wo_str | apply wo_str]. Qed.
Lemma cmp_sname_eq a b : cmp_sname a b = Eq ->
  lookup_name a = lookup_name b /\ module_path a = module_path b /\ full_path a = full_path b.
Proof.
  unfold cmp_sname, cmp_on, cmp_pair. simpl. intros H.
  destruct (cmp_str (lookup_name a) (lookup_name b)) eqn:E1; simpl in H; try discriminate.
  destruct (cmp_list cmp_str (module_path a) (module_path b)) eqn:E2; simpl in H; try discriminate.
  split; [apply cmp_str_eq; exact E1|]. split; [|apply cmp_str_eq; exact H].
  eapply cmp_list_eq; [apply cmp_str_eq | exact E2].
Qed.
Lemma parsed_full n : parsed n -> sname_parse (full_path n) = Ok n.
Proof.
  intros [path H]. pose proof H as H'. unfold sname_parse in H.
  destruct (parse_symbol path) as [[[ms f] h]| | |]; try discriminate. injection H as <-. exact H'.
Qed.
Lemma parsed_inj a b : parsed a -> parsed b -> cmp_sname a b = Eq -> a = b.
Proof.
  intros Ha Hb H. apply parsed_full in Ha, Hb. apply cmp_sname_eq in H. destruct H as [_ [_ H]].
  rewrite H in Ha. congruence.
Qed.
Lemma demangle_parsed X raw d : demangle_symbol X raw = Ok d -> parsed d.
Proof.
  unfold demangle_symbol. destruct (from_utf8 X raw) as [name|]; [|discriminate].
  destruct (try_demangle X _) as [p|]; [|discriminate]. intros H. exists p. exact H.
Qed.

(** ** The index invariant *)
Definition sname_is (n : sname) (s : symbol) : bool :=
  match cmp_sname (sym_name s) n with Eq => true | _ => false end.
Definition last_such {A} (p : A -> bool) (l : list A) : option A := find p (rev l).

Lemma last_such_snoc {A} (p : A -> bool) l x :
  last_such p (l ++ [x]) = if p x then Some x else last_such p l.
Proof. unfold last_such. rewrite rev_app_distr. reflexivity. Qed.

Lemma last_such_spec {A} (p : A -> bool) (P : A -> Prop) l : (forall x, In x l -> (p x = true <-> P x)) ->
  match last_such p l with
  | Some s => is_last P l s
  | None => forall x, In x l -> ~ P x
  end.
Proof.
  unfold last_such. induction l as [|x l IH] using rev_ind; intros H; [intros ? []|].
  rewrite rev_app_distr. cbn [rev app find].
  assert (Hx : p x = true <-> P x) by (apply H, in_or_app; right; left; reflexivity).
  destruct (p x) eqn:E.
  - exists l, []. split; [reflexivity|]. split; [tauto | intros ? []].
  - assert (Hl : forall y, In y l -> (p y = true <-> P y)) by (intros y Hy; apply H, in_or_app; left; exact Hy).
    specialize (IH Hl). assert (Hnx : ~ P x) by (intros Hp; apply Hx in Hp; discriminate).
    destruct (find p (rev l)) as [s|].
    + destruct IH as [b [a [-> [H1 H2]]]]. exists b, (a ++ [x]). split; [rewrite <- app_assoc; reflexivity|].
      split; [exact H1|]. intros y Hy. apply in_app_or in Hy. destruct Hy as [Hy|[<-|[]]]; auto.
    + intros y Hy. apply in_app_or in Hy. destruct Hy as [Hy|[<-|[]]]; auto.
Qed.

Definition get2 (m : omap str (omap sname symbol)) (n : sname) : option symbol :=
  match oget cmp_str (lookup_name n) m with None => None | Some i => oget cmp_sname n i end.

(** [m] holds the symbols [l], grouped by lookup name. *)
Record grouped (m : omap str (omap sname symbol)) (l : list symbol) : Prop := {
  g_sorted : osorted cmp_str m;
  g_inner : forall k i, oget cmp_str k m = Some i ->
              osorted cmp_sname i /\ i <> [] /\
              forall n s, In (n, s) i -> n = sym_name s /\ lookup_name n = k /\ parsed n;
  g_get : forall n, get2 m n = last_such (sname_is n) l;
  g_parsed : forall s, In s l -> parsed (sym_name s)
}.

Lemma grouped_nil : grouped [] [].
Proof. constructor; simpl; try discriminate; auto; intros ? []. Qed.

Lemma sname_eq_lookup a b : cmp_sname a b = Eq -> cmp_str (lookup_name a) (lookup_name b) = Eq.
Proof. intros H. apply cmp_sname_eq in H. destruct H as [-> _]. apply cmp_str_refl. Qed.

Lemma oinsert_nonempty {K V} (cmp : K -> K -> comparison) k (v : V) m : oinsert cmp k v m <> [].
Proof. destruct m as [|[k0 v0] m]; simpl; [discriminate|]. destruct (cmp k k0); discriminate. Qed.

Lemma grouped_step m l s : grouped m l -> parsed (sym_name s) ->
  grouped (oupdate cmp_str (lookup_name (sym_name s)) [] (oinsert cmp_sname (sym_name s) s) m) (l ++ [s]).
Proof.
  intros [G1 G2 G3 G4] Hp. set (d := sym_name s) in *.
  assert (Hbase : match oget cmp_str (lookup_name d) m with Some i => i | None => [] end
      = match oget cmp_str (lookup_name d) m with Some i => i | None => @nil (sname * symbol) end) by reflexivity.
  set (base := match oget cmp_str (lookup_name d) m with Some i => i | None => [] end) in *.
  assert (Hs : osorted cmp_sname base).
  { unfold base. destruct (oget cmp_str (lookup_name d) m) as [i|] eqn:E; [apply (G2 _ _ E) | exact I]. }
  constructor.
  - apply oupdate_sorted; [apply wo_str | exact G1].
  - intros k i H. rewrite (oget_update cmp_str wo_str) in H by exact G1.
    destruct (cmp_str k (lookup_name d)) eqn:E; [|apply G2; exact H|apply G2; exact H].
    injection H as <-. apply cmp_str_eq in E. subst k. fold base.
    split; [apply oinsert_sorted; [apply wo_sname | exact Hs]|].
    split; [apply oinsert_nonempty|].
    intros n s' Hin.
    assert (Hold : forall n s', In (n, s') base -> n = sym_name s' /\ lookup_name n = lookup_name d /\ parsed n).
    { intros n0 s0 H0. unfold base in H0. destruct (oget cmp_str (lookup_name d) m) as [i|] eqn:E; [|destruct H0].
      apply (proj2 (proj2 (G2 _ _ E))). exact H0. }
    (* an entry is the new one, possibly under the stored equal key, or an old one *)
    assert (Hcase : (n = d /\ s' = s) \/ In (n, s') base \/ (exists s0, In (n, s0) base /\ cmp_sname d n = Eq /\ s' = s)).
    { clear - Hin Hs. induction base as [|[k0 v0] b IH]; simpl in Hin.
      - destruct Hin as [Hin|[]]. injection Hin as <- <-. auto.
      - destruct Hs as [Hs1 Hs2]. destruct (cmp_sname d k0) eqn:E; simpl in Hin.
        + destruct Hin as [Hin|Hin].
          * injection Hin as <- <-. right. right. exists v0. simpl. auto.
          * right. left. simpl. auto.
        + destruct Hin as [Hin|Hin]; [injection Hin as <- <-; auto|]. right. left. simpl. auto.
        + destruct Hin as [Hin|Hin]; [right; left; simpl; auto|].
          destruct (IH Hs2 Hin) as [H|[H|[s0 [H1 H2]]]]; [auto|right; left; simpl; auto|].
          right. right. exists s0. simpl. auto. }
    destruct Hcase as [[-> ->]|[H|[s0 [H1 [H2 ->]]]]].
    + repeat split. exact Hp.
    + apply Hold. exact H.
    + destruct (Hold _ _ H1) as [_ [Hl Hpn]]. assert (n = d) as -> by (symmetry; apply parsed_inj; assumption).
      repeat split. exact Hp.
  - intros n. unfold get2. rewrite (oget_update cmp_str wo_str) by exact G1.
    rewrite last_such_snoc. unfold sname_is at 1. fold d.
    specialize (G3 n). unfold get2 in G3.
    destruct (cmp_str (lookup_name n) (lookup_name d)) eqn:E.
    + fold base. rewrite (oget_insert cmp_sname wo_sname) by exact Hs.
      rewrite (wo_opp _ wo_sname n d). destruct (cmp_sname n d) eqn:E2; simpl; try reflexivity.
      * rewrite <- G3. apply cmp_str_eq in E. rewrite E. unfold base.
        destruct (oget cmp_str (lookup_name d) m); reflexivity.
      * rewrite <- G3. apply cmp_str_eq in E. rewrite E. unfold base.
        destruct (oget cmp_str (lookup_name d) m); reflexivity.
    + rewrite G3. rewrite (wo_opp _ wo_sname n d). destruct (cmp_sname n d) eqn:E2; simpl; try reflexivity.
      apply sname_eq_lookup in E2. congruence.
    + rewrite G3. rewrite (wo_opp _ wo_sname n d). destruct (cmp_sname n d) eqn:E2; simpl; try reflexivity.
      apply sname_eq_lookup in E2. congruence.
  - intros s' Hin. apply in_app_or in Hin. destruct Hin as [Hin|[<-|[]]]; auto.
Qed.

Lemma grouped_in m l k i : grouped m l -> oget cmp_str k m = Some i ->
  forall n s, In (n, s) i <-> lookup_name n = k /\ parsed n /\ is_last (fun s => sym_name s = n) l s.
Proof.
  intros [G1 G2 G3 G4] Hk n s. destruct (G2 _ _ Hk) as [Hs [_ Hi]].
  assert (Hlast : parsed n -> match last_such (sname_is n) l with
            | Some s => is_last (fun s => sym_name s = n) l s
            | None => forall x, In x l -> ~ sym_name x = n end).
  { intros Hp. apply last_such_spec. intros x Hx. unfold sname_is. split.
    - destruct (cmp_sname (sym_name x) n) eqn:E; try discriminate. intros _. apply parsed_inj; auto.
    - intros ->. rewrite (wo_refl _ wo_sname). reflexivity. }
  split.
  - intros Hin. destruct (Hi _ _ Hin) as [H1 [H2 H3]]. split; [exact H2|]. split; [exact H3|].
    specialize (G3 n). unfold get2 in G3. rewrite H2, Hk in G3.
    rewrite (oget_in cmp_sname wo_sname _ _ _ Hs Hin) in G3.
    specialize (Hlast H3). rewrite <- G3 in Hlast. exact Hlast.
  - intros [H1 [H2 [b [a [-> [H3 H4]]]]]].
    specialize (G3 n). unfold get2 in G3. rewrite H1, Hk in G3.
    assert (Hf : last_such (sname_is n) (b ++ s :: a) = Some s).
    { specialize (Hlast H2). destruct (last_such (sname_is n) (b ++ s :: a)) as [s'|].
      - f_equal. destruct Hlast as [b' [a' [Heq [H5 H6]]]].
        (* both are the last *)
        clear - Heq H3 H4 H5 H6. revert b' Heq. induction b as [|x b IH]; intros b' Heq.
        + destruct b' as [|y b']; simpl in Heq; injection Heq as -> Heq; [reflexivity|].
          exfalso. apply (H4 s'); [rewrite Heq; apply in_or_app; right; left; reflexivity | exact H5].
        + destruct b' as [|y b']; simpl in Heq; injection Heq as -> Heq; [|eapply IH; exact Heq].
          exfalso. apply (H6 s); [rewrite <- Heq; apply in_or_app; right; left; reflexivity | exact H3].
      - exfalso. apply (Hlast s); [apply in_or_app; right; left; reflexivity | exact H3]. }
    rewrite Hf in G3. apply (oget_some cmp_sname) in G3. destruct G3 as [n' [E Hin]].
    destruct (Hi _ _ Hin) as [_ [_ Hp']]. rewrite (parsed_inj n n' H2 Hp' E). exact Hin.
Qed.

Lemma grouped_none m l k : grouped m l ->
  (oget cmp_str k m = None <-> forall s, In s l -> lookup_name (sym_name s) <> k).
Proof.
  intros G. pose proof G as [G1 G2 G3 G4]. split.
  - intros Hk s Hs Hl. specialize (G3 (sym_name s)). unfold get2 in G3. rewrite Hl, Hk in G3.
    symmetry in G3.
    pose proof (last_such_spec (sname_is (sym_name s)) (fun x => sname_is (sym_name s) x = true) l ltac:(tauto)) as H.
    rewrite G3 in H. apply (H s Hs). unfold sname_is. rewrite (wo_refl _ wo_sname). reflexivity.
  - intros H. destruct (oget cmp_str k m) as [i|] eqn:E; [|reflexivity]. exfalso.
    destruct (G2 _ _ E) as [_ [Hne Hi]]. destruct i as [|[n s] i]; [congruence|].
    pose proof (proj1 (grouped_in m l k _ G E n s) (or_introl eq_refl)) as [H1 [_ [b [a [-> [H2 _]]]]]].
    apply (H s); [apply in_or_app; right; left; reflexivity|]. rewrite H2. exact H1.
Qed.

Definition addr_is (a : Z) (s : symbol) : bool := sym_addr s =? a.
Record by_addr (m : omap Z (list symbol)) (l : list symbol) : Prop := {
  a_sorted : osorted Z.compare m;
  a_get : forall a, oget Z.compare a m = match filter (addr_is a) l with [] => None | x => Some x end
}.
Lemma by_addr_nil : by_addr [] [].
Proof. constructor; simpl; auto. Qed.
Lemma by_addr_step m l s : by_addr m l ->
  by_addr (oupdate Z.compare (sym_addr s) [] (fun x => x ++ [s]) m) (l ++ [s]).
Proof.
  intros [A1 A2]. constructor; [apply oupdate_sorted; [apply wo_Z | exact A1]|].
  intros a. rewrite (oget_update Z.compare wo_Z) by exact A1. rewrite filter_app. cbn [filter].
  unfold addr_is at 2. destruct (Z.compare_spec a (sym_addr s)) as [E|E|E].
  - subst a. rewrite Z.eqb_refl, A2. destruct (filter (addr_is (sym_addr s)) l) as [|x y]; reflexivity.
  - assert (sym_addr s =? a = false) as -> by lia. rewrite app_nil_r. apply A2.
  - assert (sym_addr s =? a = false) as -> by lia. rewrite app_nil_r. apply A2.
Qed.

Definition raw_is (f : N) (raw : list N) (e : bool * list N * symbol) : bool :=
  N.eqb (sym_file (snd e)) f && match cmp_raw (snd (fst e)) raw with Eq => true | _ => false end.
Definition getf (m : omap N (omap (list N) symbol)) (f : N) (raw : list N) : option symbol :=
  match oget N.compare f m with None => None | Some i => oget cmp_raw raw i end.
Record by_file (m : omap N (omap (list N) symbol)) (h : list (bool * list N * symbol)) : Prop := {
  f_sorted : osorted N.compare m;
  f_inner : forall f i, oget N.compare f m = Some i -> osorted cmp_raw i;
  f_get : forall f raw, getf m f raw = option_map snd (last_such (raw_is f raw) h)
}.
Lemma wo_raw : wo cmp_raw.
Proof. apply wo_list, wo_N. Qed.
Lemma by_file_nil : by_file [] [].
Proof. constructor; simpl; auto; discriminate. Qed.
Lemma by_file_default m h f : by_file m h -> by_file (oupdate N.compare f [] (fun x => x) m) h.
Proof.
  intros [F1 F2 F3]. constructor.
  - apply oupdate_sorted; [apply wo_N | exact F1].
  - intros g i H. rewrite (oget_update N.compare wo_N) in H by exact F1.
    destruct (N.compare_spec g f) as [E|E|E]; [|eapply F2; exact H|eapply F2; exact H].
    subst. destruct (oget N.compare f m) eqn:E2; injection H as <-; [eapply F2; exact E2 | exact I].
  - intros g raw. rewrite <- F3. unfold getf. rewrite (oget_update N.compare wo_N) by exact F1.
    destruct (N.compare_spec g f) as [E|E|E]; [|reflexivity|reflexivity].
    subst. destruct (oget N.compare f m); reflexivity.
Qed.
Lemma by_file_step m h b raw s : by_file m h ->
  by_file (oupdate N.compare (sym_file s) [] (oinsert cmp_raw raw s) m) (h ++ [(b, raw, s)]).
Proof.
  intros [F1 F2 F3].
  assert (Hs : osorted cmp_raw (match oget N.compare (sym_file s) m with Some i => i | None => [] end)).
  { destruct (oget N.compare (sym_file s) m) eqn:E; [eapply F2; exact E | exact I]. }
  constructor.
  - apply oupdate_sorted; [apply wo_N | exact F1].
  - intros g i H. rewrite (oget_update N.compare wo_N) in H by exact F1.
    destruct (N.compare_spec g (sym_file s)) as [E|E|E]; [|eapply F2; exact H|eapply F2; exact H].
    injection H as <-. apply oinsert_sorted; [apply wo_raw | exact Hs].
  - intros g r. unfold getf. rewrite (oget_update N.compare wo_N) by exact F1.
    rewrite last_such_snoc. unfold raw_is at 1. cbn [fst snd].
    specialize (F3 g r). unfold getf in F3.
    destruct (N.compare_spec g (sym_file s)) as [E|E|E].
    + subst g. rewrite N.eqb_refl. cbn [andb]. rewrite (oget_insert cmp_raw wo_raw) by exact Hs.
      rewrite (wo_opp _ wo_raw r raw). destruct (cmp_raw r raw); simpl; try reflexivity;
        rewrite <- F3; destruct (oget N.compare (sym_file s) m); reflexivity.
    + assert (N.eqb (sym_file s) g = false) as -> by lia. exact F3.
    + assert (N.eqb (sym_file s) g = false) as -> by lia. exact F3.
Qed.

Definition others_of (h : list (bool * list N * symbol)) : list symbol :=
  map snd (filter (fun e => negb (fst (fst e))) h).

Record indexed (ix : symbol_index) (h : list (bool * list N * symbol)) : Prop := {
  i_functions : grouped (ix_functions ix) (functions_of h);
  i_symbols : grouped (ix_symbols ix) (others_of h);
  i_file : by_file (ix_by_file ix) h;
  i_addr : by_addr (ix_by_address ix) (functions_of h)
}.

Lemma indexed_entry X f ix h e : indexed ix h -> indexed (index_entry X f ix e) (h ++ entry_event X f e).
Proof.
  intros [I1 I2 I3 I4]. unfold index_entry, entry_event.
  destruct (raw_name e) as [raw|]; [|rewrite app_nil_r; constructor; assumption].
  destruct (demangle_symbol X raw) as [d| | |] eqn:E; try (rewrite app_nil_r; constructor; assumption).
  apply demangle_parsed in E.
  set (s := mk_symbol d (raw_addr e) f).
  unfold functions_of, others_of in *.
  destruct (raw_is_function e); constructor; cbn [ix_functions ix_symbols ix_by_file ix_by_address]; unfold functions_of, others_of;
    rewrite ?filter_app, ?map_app; cbn [filter fst negb map snd]; rewrite ?app_nil_r; try assumption.
  - apply (grouped_step _ _ s); [exact I1 | exact E].
  - apply (by_file_step _ _ _ raw s). exact I3.
  - apply (by_addr_step _ _ s). exact I4.
  - apply (grouped_step _ _ s); [exact I2 | exact E].
  - apply (by_file_step _ _ _ raw s). exact I3.
Qed.

Lemma indexed_all X files : indexed (index_symbol_map X files) (history X files).
Proof.
  assert (Hes : forall f es ix h, indexed ix h ->
    indexed (fold_left (index_entry X f) es ix) (h ++ flat_map (entry_event X f) es)).
  { intros f. induction es as [|e es IH]; intros ix h Hi; simpl; [rewrite app_nil_r; exact Hi|].
    rewrite app_assoc. apply IH, indexed_entry. exact Hi. }
  assert (Hfs : forall fs ix h, indexed ix h ->
    indexed (fold_left (fun ix '(f, es) => index_file X f es ix) fs ix) (h ++ history X fs)).
  { induction fs as [|[f es] fs IH]; intros ix h Hi; simpl; [rewrite app_nil_r; exact Hi|].
    rewrite app_assoc. apply IH. unfold index_file. apply Hes.
    destruct Hi as [I1 I2 I3 I4]. constructor; try assumption. apply by_file_default. exact I3. }
  apply (Hfs files empty_index []). constructor; [apply grouped_nil|apply grouped_nil|apply by_file_nil|apply by_addr_nil].
Qed.

(** ** Lookups *)
Lemma function_at_address_spec X files a :
  let fs := functions_of (history X files) in
  match function_at_address (index_symbol_map X files) a with
  | Some (b, syms) =>
      b <= a /\ (exists s, In s fs /\ sym_addr s = b)
      /\ syms = filter (fun s => sym_addr s =? b) fs
      /\ forall s, In s fs -> sym_addr s <= a -> sym_addr s <= b
  | None => forall s, In s fs -> a < sym_addr s
  end.
Proof.
  intros fs. pose proof (i_addr _ _ (indexed_all X files)) as [A1 A2]. fold fs in A2.
  unfold function_at_address. set (m := ix_by_address (index_symbol_map X files)) in *.
  pose proof (last_le_spec Z.compare wo_Z a m A1) as H.
  assert (Hin : forall s, In s fs -> exists l, In (sym_addr s, l) m).
  { intros s Hs. specialize (A2 (sym_addr s)).
    assert (Hne : In s (filter (addr_is (sym_addr s)) fs)).
    { apply filter_In. split; [exact Hs|]. unfold addr_is. lia. }
    destruct (filter (addr_is (sym_addr s)) fs) as [|x l]; [destruct Hne|].
    apply (oget_some Z.compare) in A2. destruct A2 as [k [E Hk]]. apply Z.compare_eq in E. subst k. eauto. }
  destruct (last_le Z.compare a m) as [[b l]|].
  - destruct H as [H1 [H2 H3]]. pose proof (oget_in Z.compare wo_Z _ _ _ A1 H1) as Hb.
    rewrite A2 in Hb. split; [rewrite Z.compare_gt_iff in H2; lia|].
    destruct (filter (addr_is b) fs) as [|x l'] eqn:E; [discriminate|]. injection Hb as <-.
    split; [|split].
    + exists x. assert (Hx : In x (filter (addr_is b) fs)) by (rewrite E; left; reflexivity).
      apply filter_In in Hx. destruct Hx as [Hx1 Hx2]. unfold addr_is in Hx2. split; [exact Hx1 | lia].
    + symmetry. exact E.
    + intros s Hs Ha. destruct (Hin s Hs) as [l Hl]. specialize (H3 _ _ Hl).
      rewrite !Z.compare_gt_iff in H3. lia.
  - intros s Hs. destruct (Hin s Hs) as [l Hl]. specialize (H _ _ Hl). apply Z.compare_gt_iff in H. lia.
Qed.

Lemma get_function_spec X files n : parsed n ->
  let fs := functions_of (history X files) in
  match get_function (index_symbol_map X files) n with
  | Some s => is_last (fun s => sym_name s = n) fs s
  | None => forall s, In s fs -> sym_name s <> n
  end.
Proof.
  intros Hn fs. pose proof (i_functions _ _ (indexed_all X files)) as [G1 G2 G3 G4]. fold fs in G3, G4.
  specialize (G3 n). unfold get2 in G3. unfold get_function. rewrite G3.
  apply last_such_spec. intros x Hx. unfold sname_is. split.
  - destruct (cmp_sname (sym_name x) n) eqn:E; try discriminate. intros _. apply parsed_inj; auto.
  - intros ->. rewrite (wo_refl _ wo_sname). reflexivity.
Qed.

Lemma by_lookup_spec X files name :
  let fs := functions_of (history X files) in
  match get_functions_by_lookup_name (index_symbol_map X files) name with
  | Some m => m <> [] /\ forall n s, In (n, s) m <->
       lookup_name n = name /\ is_last (fun s => sym_name s = n) fs s
  | None => forall s, In s fs -> lookup_name (sym_name s) <> name
  end.
Proof.
  intros fs. pose proof (i_functions _ _ (indexed_all X files)) as G. fold fs in G.
  unfold get_functions_by_lookup_name.
  destruct (oget cmp_str name (ix_functions (index_symbol_map X files))) as [m|] eqn:E.
  - split; [apply (g_inner _ _ G _ _ E)|]. intros n s.
    rewrite (grouped_in _ _ _ _ G E). split; [tauto|]. intros [H1 H2]. split; [exact H1|]. split; [|exact H2].
    destruct H2 as [b [a [Hfs [H2 _]]]]. rewrite <- H2. apply (g_parsed _ _ G). rewrite Hfs.
    apply in_or_app. right. left. reflexivity.
  - apply (grouped_none _ _ _ G). exact E.
Qed.

Lemma file_symbol_spec X files f raw :
  let h := history X files in
  match getf (ix_by_file (index_symbol_map X files)) f raw with
  | Some s => exists e, snd e = s /\ is_last (fun e => sym_file (snd e) = f /\ snd (fst e) = raw) h e
  | None => forall e, In e h -> ~ (sym_file (snd e) = f /\ snd (fst e) = raw)
  end.
Proof.
  intros h. pose proof (i_file _ _ (indexed_all X files)) as [F1 F2 F3]. fold h in F3. rewrite F3.
  assert (Hp : forall e, In e h -> (raw_is f raw e = true <-> sym_file (snd e) = f /\ snd (fst e) = raw)).
  { intros e _. unfold raw_is. rewrite andb_true_iff, N.eqb_eq. split.
    - intros [H1 H2]. destruct (cmp_raw (snd (fst e)) raw) eqn:E; try discriminate.
      split; [exact H1|]. eapply cmp_list_eq; [apply N.compare_eq | exact E].
    - intros [H1 ->]. rewrite (wo_refl _ wo_raw). auto. }
  pose proof (last_such_spec (raw_is f raw) _ h Hp) as H.
  destruct (last_such (raw_is f raw) h) as [e|]; simpl; [exists e; auto | exact H].
Qed.

(** ** find_closest_function *)
Lemma split_colons_seg s : forall rest cur, no_colon s ->
  split_colons (s ++ rest) cur = split_colons rest (cur ++ s).
Proof.
  induction s as [|c s IH]; intros rest cur H; [rewrite app_nil_r; reflexivity|].
  assert (Hc : N.eqb c 58 = false) by (apply N.eqb_neq; intros ->; apply H; left; reflexivity).
  assert (Hs : no_colon s) by (intros Hx; apply H; right; exact Hx).
  cbn [app split_colons]. destruct (s ++ rest) as [|d r] eqn:E.
  - apply app_eq_nil in E. destruct E as [-> ->]. reflexivity.
  - rewrite Hc. cbn [andb]. rewrite <- E, IH by exact Hs. rewrite <- app_assoc. reflexivity.
Qed.
Lemma split_colons_join l : forall s cur, no_colon s -> Forall no_colon l ->
  split_colons (join (st "::") (s :: l)) cur = (cur ++ s) :: l.
Proof.
  induction l as [|t l IH]; intros s cur Hs Hl.
  - cbn [join]. rewrite <- (app_nil_r s) at 1. rewrite split_colons_seg by exact Hs. reflexivity.
  - inv Hl. change (join (st "::") (s :: t :: l)) with (s ++ st "::" ++ join (st "::") (t :: l)).
    rewrite split_colons_seg by exact Hs. cbn [app st list_ascii_of_string map].
    change (N_of_ascii ":") with 58%N. cbn [split_colons N.eqb Pos.eqb andb].
    rewrite IH by assumption. reflexivity.
Qed.

Lemma list_str_eqb_eq a b : list_str_eqb a b = true <-> a = b.
Proof.
  revert b. induction a as [|x a IH]; destruct b as [|y b]; simpl; try (split; congruence).
  rewrite andb_true_iff, str_eqb_eq, IH. split; [intros [-> ->]; reflexivity | intros H; injection H as -> ->; auto].
Qed.
Lemma ends_with_segments_spec l s : ends_with_segments l s = true <-> exists p, l = p ++ s.
Proof.
  unfold ends_with_segments. rewrite andb_true_iff, list_str_eqb_eq, Nat.leb_le. split.
  - intros [H1 H2]. exists (firstn (length l - length s) l). rewrite <- H2 at 2. symmetry. apply firstn_skipn.
  - intros [p ->]. rewrite app_length. split; [lia|]. replace (length p + length s - length s)%nat with (length p) by lia.
    rewrite skipn_app, skipn_all, Nat.sub_diag. reflexivity.
Qed.
Lemma matches_spec n f ms : matches_name_and_module n f ms = true <-> names_function ms f n.
Proof.
  unfold matches_name_and_module, names_function. rewrite andb_true_iff, str_eqb_eq, ends_with_segments_spec. tauto.
Qed.

Lemma find_first {A} (p : A -> bool) l x : find p l = Some x ->
  exists b a, l = b ++ x :: a /\ p x = true /\ forall y, In y b -> p y = false.
Proof.
  induction l as [|y l IH]; simpl; [discriminate|]. destruct (p y) eqn:E.
  - intros H. injection H as <-. exists [], l. split; [reflexivity|]. split; [exact E | intros ? []].
  - intros H. destruct (IH H) as [b [a [-> [H1 H2]]]]. exists (y :: b), a.
    split; [reflexivity|]. split; [exact H1|]. intros z [<-|Hz]; auto.
Qed.

Lemma is_last_In {A} (P : A -> Prop) l s : is_last P l s -> In s l /\ P s.
Proof. intros [b [a [-> [H _]]]]. split; [apply in_or_app; right; left; reflexivity | exact H]. Qed.

Lemma exists_last_of {A} (P : A -> Prop) l (Pd : forall x, P x \/ ~ P x) :
  (exists s, In s l /\ P s) -> exists s, is_last P l s.
Proof.
  induction l as [|x l IH] using rev_ind; intros [s [Hs Hp]]; [destruct Hs|].
  destruct (Pd x) as [Hx|Hx].
  - exists x, l, []. split; [reflexivity|]. split; [exact Hx | intros ? []].
  - apply in_app_or in Hs. destruct Hs as [Hs|[<-|[]]]; [|tauto].
    destruct (IH (ex_intro _ s (conj Hs Hp))) as [s' [b [a [-> [H1 H2]]]]].
    exists s', b, (a ++ [x]). split; [rewrite <- app_assoc; reflexivity|]. split; [exact H1|].
    intros y Hy. apply in_app_or in Hy. destruct Hy as [Hy|[<-|[]]]; auto.
Qed.

Definition sname_eq_dec (a b : sname) : {a = b} + {a <> b}.
Proof. decide equality; try apply str_eq_dec. apply list_eq_dec, str_eq_dec. Defined.

Lemma osorted_app_cons {K V} (cmp : K -> K -> comparison) (b : list (K * V)) k v a :
  osorted cmp (b ++ (k, v) :: a) -> forall k' v', In (k', v') a -> cmp k k' = Lt.
Proof.
  induction b as [|[k0 v0] b IH]; simpl; intros [H1 H2] k' v' Hin; [eapply H1; exact Hin|].
  eapply IH; eassumption.
Qed.

Lemma find_closest_spec X files ms f : Forall no_colon (ms ++ [f]) ->
  let fs := functions_of (history X files) in
  match find_closest_function (index_symbol_map X files) (join (st "::") (ms ++ [f])) with
  | Some (n, file) =>
      names_function ms f n /\
      (exists s, is_last (fun s => sym_name s = n) fs s /\ sym_file s = file)
      /\ forall s, In s fs -> names_function ms f (sym_name s) -> cmp_sname n (sym_name s) <> Gt
  | None => forall s, In s fs -> ~ names_function ms f (sym_name s)
  end.
Proof.
  intros Hc fs. unfold find_closest_function.
  assert (Hsp : split_colons (join (st "::") (ms ++ [f])) [] = ms ++ [f]).
  { destruct (ms ++ [f]) as [|x l] eqn:E; [destruct ms; discriminate|]. inv Hc.
    rewrite split_colons_join by assumption. reflexivity. }
  rewrite Hsp, rev_app_distr. cbn [rev app]. rewrite rev_involutive.
  pose proof (by_lookup_spec X files f) as Hl. cbv zeta in Hl. fold fs in Hl.
  pose proof (i_functions _ _ (indexed_all X files)) as G. fold fs in G.
  unfold get_functions_by_lookup_name in *.
  destruct (oget cmp_str f (ix_functions (index_symbol_map X files))) as [m|] eqn:Em.
  2: { intros s Hs [H _]. apply (Hl s Hs). exact H. }
  destruct Hl as [_ Hm]. destruct (g_inner _ _ G _ _ Em) as [Hsort [_ _]].
  assert (Hall : forall s, In s fs -> names_function ms f (sym_name s) -> exists s', In (sym_name s, s') m).
  { intros s Hs [Hn _].
    destruct (exists_last_of (fun x => sym_name x = sym_name s) fs) as [s' Hs'].
    - intros x. destruct (sname_eq_dec (sym_name x) (sym_name s)); auto.
    - exists s. auto.
    - exists s'. apply Hm. auto. }
  destruct (find (fun kv => matches_name_and_module (fst kv) f ms) m) as [[n e]|] eqn:Ef.
  - destruct (find_first _ _ _ Ef) as [b [a [Hmm [H1 H2]]]]. cbn [fst] in H1. apply matches_spec in H1.
    split; [exact H1|]. split.
    + exists e. split; [|reflexivity]. apply Hm. rewrite Hmm. apply in_or_app. right. left. reflexivity.
    + intros s Hs Hn. destruct (Hall s Hs Hn) as [s' Hin]. rewrite Hmm in Hin. apply in_app_or in Hin.
      destruct Hin as [Hin|[Hin|Hin]].
      * specialize (H2 _ Hin). cbn [fst] in H2. apply matches_spec in Hn. congruence.
      * injection Hin as Hin _. rewrite Hin. rewrite (wo_refl _ wo_sname). discriminate.
      * rewrite Hmm in Hsort. rewrite (osorted_app_cons _ _ _ _ _ Hsort _ _ Hin). discriminate.
  - intros s Hs Hn. destruct (Hall s Hs Hn) as [s' Hin].
    pose proof (find_none _ _ Ef _ Hin) as H. cbn [fst] in H. apply matches_spec in Hn. congruence.
Qed.
