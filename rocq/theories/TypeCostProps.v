(** Reading a type name costs at most one step per character, except below tuples and references to arrays. *)
From Coq Require Import Ascii String List ZArith NArith Lia Bool.
From Verif Require Import Base NumText TypesModel TypeTextModel TypeTextSpec TypeTextProofs TypeTextParse TypeTextLex TypeCostModel.
Import ListNotations.
Open Scope nat_scope.

(** ** The counter changes no result. *)
Definition agree {A} (c : cpars A) (p : pars A) : Prop := forall ts, fst (c ts) = p ts.
Lemma agree_leaf {A} (p : pars A) : agree (c_leaf p) p.
Proof. intros ts. reflexivity. Qed.
Lemma agree_alt {A} c p c' p' : @agree A c p -> agree c' p' -> agree (c_alt c c') (p_alt p p').
Proof.
  intros H H' ts. unfold c_alt, p_alt. rewrite <- (H ts). destruct (c ts) as [[x|e|m|] k]; cbn [fst]; try reflexivity.
  rewrite <- (H' ts). destruct (c' ts). reflexivity.
Qed.
Lemma agree_seq {A B} c p (c' : A -> cpars B) (p' : A -> pars B) : agree c p -> (forall a, agree (c' a) (p' a)) -> agree (c_seq c c') (p_seq p p').
Proof.
  intros H H' ts. unfold c_seq, p_seq. rewrite <- (H ts). destruct (c ts) as [[[a y]|e|m|] k]; cbn [fst bind]; try reflexivity.
  rewrite <- (H' a y). destruct (c' a y). reflexivity.
Qed.
Lemma agree_opt {A} c p : @agree A c p -> agree (c_opt c) (p_opt p).
Proof. intros H ts. unfold c_opt, p_opt. rewrite <- (H ts). destruct (c ts) as [[[a y]|e|m|] k]; reflexivity. Qed.
Lemma agree_group {A} d c p : @agree A c p -> agree (c_group d c) (p_group d p).
Proof.
  intros H [|[| | |d' inner] r]; try reflexivity. cbn [c_group p_group]. destruct (delim_eqb d d'); [|reflexivity].
  rewrite <- (H inner). destruct (c inner) as [[[a y]|e|m|] k]; reflexivity.
Qed.
Lemma agree_delimited_n {A} n c p d : @agree A c p -> agree (c_delimited_n n c d) (p_delimited_n n p d).
Proof.
  intros H. induction n as [|n IH]; intros ts; [reflexivity|]. cbn [c_delimited_n p_delimited_n]. rewrite <- (H ts).
  destruct (c ts) as [[[a y]|e|m|] k]; cbn [fst]; try reflexivity. destruct (d y) as [[[] z]|e|m|]; try reflexivity.
  rewrite <- (IH z). destruct (c_delimited_n n c d z). reflexivity.
Qed.
Lemma agree_delimited {A} c p d : @agree A c p -> agree (c_delimited c d) (p_delimited p d).
Proof. intros H ts. apply agree_delimited_n, H. Qed.
Lemma agree_many_n {A} n c p : @agree A c p -> agree (c_many_n n c) (p_many_n n p).
Proof.
  intros H. induction n as [|n IH]; intros ts; [reflexivity|]. cbn [c_many_n p_many_n]. rewrite <- (H ts).
  destruct (c ts) as [[[a y]|e|m|] k]; cbn [fst]; try reflexivity. rewrite <- (IH y). destruct (c_many_n n c y). reflexivity.
Qed.
Lemma agree_one c p : agree c p ->
  agree (c_at_least_one (c_many c)) (fun ts => ' (l, r) <- p_many p ts ;; match l with [] => Err "at least one" | _ => Ok (l, r) end).
Proof.
  intros H ts. unfold c_at_least_one, c_many, p_many. rewrite <- (agree_many_n _ _ _ H ts).
  destruct (c_many_n _ c ts). reflexivity.
Qed.
Ltac agr := repeat first [assumption | apply agree_leaf | apply agree_alt | apply agree_seq; [|intros] | apply agree_opt | apply agree_group
  | apply agree_delimited | apply agree_one].
Lemma agree_step c p n : agree c p -> agree (c_type_step c n) (p_type_step p n).
Proof.
  intros H.
  assert (Hg : agree (c_gargs c n) (p_gargs p n)) by (unfold c_gargs, p_gargs, c_ret; agr).
  assert (Hs : agree (c_segment c n) (p_segment p n)) by (unfold c_segment, p_segment, c_ret; agr).
  assert (Hp : agree (c_path_segment c n) (p_path_segment p n)) by (unfold c_path_segment, p_path_segment; agr).
  unfold c_type_step, p_type_step, c_slice, p_slice, c_ref, p_ref, c_array, p_array, c_asize, p_asize, c_fn, p_fn, c_dyn, p_dyn,
    c_tuple, p_tuple, c_type_comma, p_type_comma, c_type_opt_comma, p_type_opt_comma, c_ptr, p_ptr, c_path, p_path, c_ret.
  agr.
Qed.
Lemma agree_type n : agree (c_type n) (p_type n).
Proof.
  induction n as [|n IH]; intros ts; [reflexivity|]. cbn [c_type p_type]. rewrite <- (agree_step _ _ n IH ts).
  destruct (c_type_step (c_type n) n ts). reflexivity.
Qed.
Theorem counting_changes_nothing s : fst (parse_type_counted s) = parse_type s.
Proof.
  unfold parse_type_counted, parse_type. destruct (tokenize s) as [ts|e|m|]; try reflexivity. cbn [bind].
  rewrite <- (agree_type _ ts). destruct (c_type _ ts). reflexivity.
Qed.

(** ** An upper bound. *)
(** Nodes that are read twice: the first and last elements of a tuple of two or more, and what a shared reference to an array
    contains. [deep d t]: on no way down from [t] are there more than [d] of them. *)
Definition twice (t : ty) : nat := match t with YTuple (_ :: _ :: _) => 1 | YRef false (YArray _ _) => 1 | _ => 0 end.
Inductive deep : nat -> ty -> Prop :=
| deep_node d t : twice t <= d -> (forall u, In u (kids t) -> deep (d - twice t) u) -> deep d t.
Lemma deep_here d t : deep d t -> twice t <= d.
Proof. intros H. inversion H. assumption. Qed.
Lemma deep_kid d t u : deep d t -> In u (kids t) -> deep (d - twice t) u.
Proof. intros H. inversion H. auto. Qed.
Definition cap (d : nat) : nat := 2 ^ d.
Arguments cap : simpl never.
Lemma cap_pos d : 1 <= cap d.
Proof. unfold cap. induction d; cbn; lia. Qed.
Lemma cap_S d : cap (S d) = 2 * cap d.
Proof. unfold cap. cbn [Nat.pow]. lia. Qed.

Definition upto {A} (c : cpars A) (x : list tree) (a : A) (y : list tree) (B : nat) : Prop :=
  exists k, c x = (Ok (a, y), k) /\ (k <= N.of_nat B)%N.
Definition fails {A} (c : cpars A) (x : list tree) : Prop := exists e, c x = (Err e, 0%N).
Lemma upto_le {A} (c : cpars A) x a y B B' : upto c x a y B -> B <= B' -> upto c x a y B'.
Proof. intros (k & E & H) L. exists k. split; [exact E | lia]. Qed.
Lemma leaf_upto {A} (p : pars A) x a y : p x = Ok (a, y) -> upto (c_leaf p) x a y 0.
Proof. intros H. exists 0%N. unfold c_leaf. rewrite H. split; [reflexivity | lia]. Qed.
Lemma leaf_fails {A} (p : pars A) x : (exists e, p x = Err e) -> fails (c_leaf p) x.
Proof. intros [e H]. exists e. unfold c_leaf. rewrite H. reflexivity. Qed.
Lemma seq_upto {A B} (p : cpars A) (q : A -> cpars B) x a y b z B1 B2 :
  upto p x a y B1 -> upto (q a) y b z B2 -> upto (c_seq p q) x b z (B1 + B2).
Proof.
  intros (k & E & H) (k' & E' & H'). exists (k + k')%N. unfold c_seq. rewrite E, E'. split; [reflexivity | lia].
Qed.
Lemma seq_fails {A B} (p : cpars A) (q : A -> cpars B) x : fails p x -> fails (c_seq p q) x.
Proof. intros (e & E). exists e. unfold c_seq. rewrite E. reflexivity. Qed.
Lemma seq_fails2 {A B} (p : pars A) (q : A -> cpars B) x a y : p x = Ok (a, y) -> fails (q a) y -> fails (c_seq (c_leaf p) q) x.
Proof. intros H (e & E). exists e. unfold c_seq, c_leaf. rewrite H, E. reflexivity. Qed.
Lemma alt_upto {A} (p q : cpars A) x a y B : upto p x a y B -> upto (c_alt p q) x a y B.
Proof. intros (k & E & H). exists k. unfold c_alt. rewrite E. auto. Qed.
Lemma alt_next {A} (p q : cpars A) x a y B : fails p x -> upto q x a y B -> upto (c_alt p q) x a y B.
Proof. intros (e & E) (k & E' & H). exists k. unfold c_alt. rewrite E, E'. auto. Qed.
Lemma opt_upto {A} (p : cpars A) x a y B : upto p x a y B -> upto (c_opt p) x (Some a) y B.
Proof. intros (k & E & H). exists k. unfold c_opt. rewrite E. auto. Qed.
Lemma opt_not {A} (p : cpars A) x : fails p x -> upto (c_opt p) x None x 0.
Proof. intros (e & E). exists 0%N. unfold c_opt. rewrite E. split; [reflexivity | lia]. Qed.
Lemma group_upto {A} d (p : cpars A) inner r a B : upto p inner a [] B -> upto (c_group d p) (TG d inner :: r) a r B.
Proof. intros (k & E & H). exists k. cbn [c_group]. destruct d; cbn [delim_eqb]; rewrite E; auto. Qed.
Lemma ret_upto {A} (a : A) x : upto (c_ret a) x a x 0.
Proof. apply leaf_upto. reflexivity. Qed.

Lemma delimited_upto {A} (p : cpars A) (d : pars unit) (R : A -> list tree -> Prop) (D : list tree -> Prop) F c l us :
  sepd R D l us -> forall rest m, length l <= m ->
  (forall a ts x, In a l -> R a ts -> trees_size ts <= trees_size us -> (x = rest \/ exists ds y, D ds /\ x = ds ++ y) -> upto p (ts ++ x) a x (F * trees_size ts - c)) ->
  (forall ds y, D ds -> d (ds ++ y) = Ok (tt, y)) -> (exists e, d rest = Err e) ->
  upto (c_delimited_n m p d) (us ++ rest) l rest (F * trees_size us - c).
Proof.
  intros H. induction H as [a ts Ha|a l ts ds us Ha Hd Hl Hs IH]; intros rest m Hm Hp HD [e He]; (destruct m; cbn [length] in Hm; [lia|]).
  - destruct (Hp a ts rest) as (k & E & Hk); [left; reflexivity | exact Ha | lia | left; reflexivity |].
    exists k. cbn [c_delimited_n]. rewrite E, He. auto.
  - rewrite <- !app_assoc.
    destruct (Hp a ts (ds ++ us ++ rest)) as (k & E & Hk); [left; reflexivity | exact Ha | rewrite !trees_size_app; lia | right; eauto |].
    destruct (IH rest m) as (k' & E' & Hk'); [lia | | exact HD | eauto |].
    + intros b vs x Hb HR Hsz Hx. apply Hp; [right; exact Hb | exact HR | rewrite !trees_size_app; lia | exact Hx].
    + exists (k + k')%N. cbn [c_delimited_n]. rewrite E, (HD ds (us ++ rest) Hd), E'. split; [reflexivity|].
      rewrite !trees_size_app, !Nat.mul_add_distr_l. lia.
Qed.

Ltac ar d := repeat rewrite ?trees_size_cons, ?tree_size_group, ?trees_size_app; cbn [tree_size trees_size fold_right]; pose proof (cap_pos d);
  repeat rewrite ?Nat.mul_add_distr_l, ?Nat.mul_succ_r, ?Nat.add_succ_r, ?Nat.mul_1_r, ?Nat.mul_0_r; try lia; nia.
Section Step.
Variable n : nat.
Hypothesis IH : forall d t ts rest, tk t ts -> wf t -> deep d t -> S (trees_size ts) < n -> (stop rest \/ (is_path t /\ stop_plus rest)) ->
  upto (c_type n) (ts ++ rest) t rest (cap d * trees_size ts).

Lemma types_upto d l us rest : sepd tk (mark c_comma) l us -> (forall u, In u l -> wf u /\ deep d u) -> S (trees_size us) < n ->
  stop rest -> (exists e, p_punct c_comma rest = Err e) ->
  upto (c_delimited (c_type n) (p_punct c_comma)) (us ++ rest) l rest (cap d * trees_size us).
Proof.
  intros H W Hn Hs He. unfold c_delimited. rewrite <- (Nat.sub_0_r (cap d * trees_size us)). apply (delimited_upto _ _ tk (mark c_comma) (cap d) 0).
  - exact H.
  - pose proof (sepd_count tk (mark c_comma) l us (mark_ne c_comma) H). rewrite app_length. lia.
  - intros a ts x Ha HR Hsz Hx. destruct (W a Ha). rewrite Nat.sub_0_r. apply IH; [exact HR | assumption | assumption | lia | left].
    destruct Hx as [->|(ds & y & Hd & ->)]; [exact Hs | apply (mark_stop c_comma); [exact Hd | cbn; tauto]].
  - apply mark_parsed.
  - exact He.
Qed.
Lemma types_all_upto d l us : sepd tk (mark c_comma) l us -> (forall u, In u l -> wf u /\ deep d u) -> S (trees_size us) < n ->
  upto (c_delimited (c_type n) (p_punct c_comma)) us l [] (cap d * trees_size us).
Proof.
  intros H W Hn. rewrite <- (app_nil_r us) at 1. apply types_upto; [exact H | exact W | exact Hn | exact Logic.I | apply comma_nil].
Qed.
Lemma type_all_upto d t ts : tk t ts -> wf t -> deep d t -> S (trees_size ts) < n -> upto (c_type n) ts t [] (cap d * trees_size ts).
Proof. intros H W O Hn. rewrite <- (app_nil_r ts) at 1. apply IH; [exact H | exact W | exact O | exact Hn | left; exact Logic.I]. Qed.

Lemma no_gargs_cost k x : after_seg x -> fails (c_gargs (c_type n) (S k)) x.
Proof.
  intros H. destruct (after_no_angle k x H) as [e He]. destruct (after_no_lt x H) as [e' He'].
  exists e. unfold c_gargs, c_alt, c_leaf. unfold c_seq at 1. rewrite He'. unfold p_seq. rewrite He. reflexivity.
Qed.
Lemma seg_upto d s ts x : tk_seg s ts -> (forall u, In u (seg_kids s) -> wf u /\ deep d u) -> S (trees_size ts) <= n -> after_seg x ->
  upto (c_path_segment (c_type n) n) (ts ++ x) s x (cap d * trees_size ts - 1).
Proof.
  intros H W Hn Hx. unfold c_path_segment. apply alt_upto. unfold c_segment.
  assert (En : exists k, n = S k). { destruct n as [|k]; [|eauto]. pose proof (size_pos ts) as Hp. destruct H; cbn in Hn; lia. }
  destruct En as [k En].
  destruct H as [id|id args us j1 j2 Ha]; cbn [app].
  - eapply upto_le.
    + eapply seq_upto; [apply leaf_upto; reflexivity|]. eapply seq_upto; [apply opt_not; rewrite En at 2; apply no_gargs_cost, Hx|].
      apply leaf_upto. rewrite (seq_ok _ _ _ None x); [reflexivity|]. apply opt_none, after_no_shim, Hx.
    + lia.
  - eapply upto_le.
    + eapply seq_upto; [apply leaf_upto; reflexivity|]. eapply seq_upto.
      * apply opt_upto. unfold c_gargs. apply alt_upto. eapply seq_upto; [apply leaf_upto; reflexivity|].
        rewrite <- app_assoc. cbn [app]. eapply seq_upto.
        -- apply (types_upto d args us (TP c_gt j2 :: x)); [exact Ha | exact W | | cbn; tauto | eexists; reflexivity].
           rewrite !trees_size_cons, trees_size_app in Hn. cbn in Hn. lia.
        -- eapply seq_upto; [apply leaf_upto; reflexivity | apply ret_upto].
      * apply leaf_upto. rewrite (seq_ok _ _ _ None x); [reflexivity|]. apply opt_none, after_no_shim, Hx.
    + ar d.
Qed.
Lemma ret_upto' d ret rs rest : tk_ret ret rs -> (forall r, ret = Some r -> wf r /\ deep d r) -> S (trees_size rs) < n -> stop rest ->
  upto (c_opt (c_seq (c_leaf (p_joint (ch "-"))) (fun _ => c_seq (c_leaf (p_punct c_gt)) (fun _ => c_type n)))) (rs ++ rest) ret rest (cap d * trees_size rs).
Proof.
  intros H W Hn Hr. destruct H as [|r ts j Ht].
  - cbn [app]. eapply upto_le; [apply opt_not|lia]. apply seq_fails, leaf_fails. apply (joint_no (ch "-") rest _ Hr). notin.
  - apply opt_upto. cbn [app]. destruct (W r eq_refl) as [W1 W2]. eapply upto_le.
    + eapply seq_upto; [apply leaf_upto; reflexivity|]. eapply seq_upto; [apply leaf_upto; reflexivity|].
      apply IH; [exact Ht | exact W1 | exact W2 | rewrite !trees_size_cons in Hn; cbn in Hn; lia | left; exact Hr].
    + ar d.
Qed.
Ltac skip := apply alt_next; [first [solve [apply leaf_fails; eexists; reflexivity] | solve [eexists; reflexivity]]|].
Lemma fn_upto d args inner ret rs rest B : upto (c_delimited (c_type n) (p_punct c_comma)) inner args [] B ->
  tk_ret ret rs -> (forall r, ret = Some r -> wf r /\ deep d r) -> S (trees_size rs) < n -> stop rest ->
  upto (c_type_step (c_type n) n) (TId (st "fn") :: TG Par inner :: rs ++ rest) (YFn false args ret) rest (B + cap d * trees_size rs).
Proof.
  intros Ha Hr W Hn Hs. unfold c_type_step. do 5 skip. apply alt_upto. unfold c_fn. eapply upto_le.
  - eapply seq_upto; [apply leaf_upto; reflexivity|]. eapply seq_upto; [apply leaf_upto; reflexivity|].
    eapply seq_upto; [apply group_upto, Ha|]. eapply seq_upto; [apply ret_upto'; eassumption | apply ret_upto].
  - lia.
Qed.
Lemma nil_cost : 1 < n -> c_type n [] = (Ok (YPath [], []), 1%N).
Proof. intros H. destruct n as [|[|m]]; try lia. reflexivity. Qed.
Lemma c_step_ident pt k id r : id <> st "fn" -> id <> st "dyn" -> id <> st "unsafe" ->
  c_type_step pt k (TId id :: r) = c_path pt k (TId id :: r).
Proof.
  intros H1 H2 H3.
  assert (E : forall w, id <> w -> p_kw w (TId id :: r) = Err "keyword").
  { intros w Hk. cbn [p_kw]. destruct (str_eqb w id) eqn:E; [|reflexivity]. apply str_eqb_eq in E. congruence. }
  assert (Ef : c_fn pt (TId id :: r) = (Err "keyword"%string, 0%N)).
  { unfold c_fn, c_seq, c_leaf, p_opt. rewrite (E (st "unsafe")) by exact H3. rewrite (E (st "fn")) by exact H1. reflexivity. }
  assert (Ed : c_dyn pt (TId id :: r) = (Err "keyword"%string, 0%N)).
  { unfold c_dyn, c_seq, c_leaf. rewrite E by exact H2. reflexivity. }
  assert (An : forall (p q : cpars ty) x e, p x = (Err e, 0%N) -> c_alt p q x = q x).
  { intros p q x e Hx. unfold c_alt. rewrite Hx. destruct (q x). reflexivity. }
  unfold c_type_step. do 5 (erewrite An by reflexivity). rewrite (An _ _ _ _ Ef), (An _ _ _ _ Ed). do 2 (erewrite An by reflexivity). reflexivity.
Qed.

Lemma alt_spent {A} (p q : cpars A) x e k a y B1 B2 : p x = (Err e, k) -> (k <= N.of_nat B1)%N -> upto q x a y B2 -> upto (c_alt p q) x a y (B1 + B2).
Proof. clear. intros E H (k' & E' & H'). exists (k + k')%N. unfold c_alt. rewrite E, E'. split; [reflexivity | lia]. Qed.
Lemma many_upto d a l ts ds us : tk a ts -> mark c_comma ds -> l <> [] -> sepd tk (mark c_comma) l us ->
  (forall u, In u (a :: l) -> (wf u /\ deep d u) /\ full u) -> S (trees_size (ts ++ ds ++ us)) < n ->
  forall m, length (ts ++ ds ++ us) < m ->
  exists ini z zs k, a :: l = ini ++ [z] /\ ini <> [] /\ tk z zs /\ In z (a :: l) /\ trees_size zs <= trees_size us /\
  c_many_n m (c_type_comma (c_type n)) (ts ++ ds ++ us) = (Ok (ini, zs), k) /\ (k <= N.of_nat (cap d * trees_size (ts ++ ds ++ us)))%N.
Proof.
  revert a ts ds us. induction l as [|b l IHl]; intros a ts ds us Ha Hd Hl Hs W Hn m Hm; [congruence|].
  destruct m as [|m]; [lia|].
  assert (St : stop (ds ++ us)) by (apply (mark_stop c_comma); [exact Hd | cbn; tauto]).
  rewrite !trees_size_app in Hn. rewrite !app_length in Hm.
  destruct (W a (or_introl eq_refl)) as [[Wa Oa] _].
  destruct (IH d a ts (ds ++ us) Ha Wa Oa ltac:(lia) (or_introl St)) as (k1 & Ek1 & Hk1).
  assert (E : c_type_comma (c_type n) (ts ++ ds ++ us) = (Ok (a, us), k1)).
  { unfold c_type_comma, c_seq. rewrite Ek1. unfold c_leaf, p_seq. rewrite (mark_parsed c_comma ds us Hd). cbn [bind]. unfold p_ret. f_equal. lia. }
  assert (L : length us < m) by (destruct Hd as [j ->]; cbn [length] in Hm; lia).
  cbn [c_many_n]. rewrite E.
  destruct (W b (or_intror (or_introl eq_refl))) as [[Wb Ob] _].
  inversion Hs as [z us2 Hz|b' l' ts2 ds2 us2 Hz Hd2 Hl2 Hs2]; subst.
  - destruct m as [|m]; [lia|].
    destruct (type_all_upto d b us Hz Wb Ob ltac:(lia)) as (k2 & Ek2 & Hk2).
    assert (E2 : c_type_comma (c_type n) us = (Err "punct"%string, k2)).
    { unfold c_type_comma, c_seq. rewrite Ek2. unfold c_leaf, p_seq. cbn [p_punct bind]. f_equal. lia. }
    cbn [c_many_n]. rewrite E2.
    exists [a], b, us, (k1 + k2)%N. split; [reflexivity|]. split; [discriminate|]. split; [exact Hz|].
    split; [right; left; reflexivity|]. split; [lia|]. split; [reflexivity|]. rewrite !trees_size_app, !Nat.mul_add_distr_l. lia.
  - destruct (IHl b ts2 ds2 us2 Hz Hd2 Hl2 Hs2 (fun u Hu => W u (or_intror Hu)) ltac:(lia) m L) as (ini & z & zs & k & E1 & E2 & Hz' & Hin & Hsz & E3 & Hk).
    rewrite E3. exists (a :: ini), z, zs, (k1 + k)%N. split; [rewrite E1; reflexivity|]. split; [discriminate|]. split; [exact Hz'|].
    split; [right; exact Hin|]. split; [rewrite !trees_size_app; lia|]. split; [reflexivity|].
    rewrite (trees_size_app ts), (trees_size_app ds), !Nat.mul_add_distr_l. lia.
Qed.

Lemma step_upto d t ts rest : tk t ts -> wf t -> deep d t -> trees_size ts < n -> (stop rest \/ (is_path t /\ stop_plus rest)) ->
  exists k, c_type_step (c_type n) n (ts ++ rest) = (Ok (t, rest), k) /\ (1 + k <= N.of_nat (cap d * trees_size ts))%N.
Proof.
  intros H W O Hn Hr.
  assert (Up : forall B, upto (c_type_step (c_type n) n) (ts ++ rest) t rest B -> S B <= cap d * trees_size ts ->
     exists k, c_type_step (c_type n) n (ts ++ rest) = (Ok (t, rest), k) /\ (1 + k <= N.of_nat (cap d * trees_size ts))%N).
  { intros B (k & E & Hk) L. exists k. split; [exact E | lia]. }
  assert (Hs : ~ is_path t -> stop rest) by (intros N; destruct Hr as [Hr|[N' _]]; [exact Hr | contradiction]).
  pose proof (wf_here _ W) as [P So]. pose proof (deep_here _ _ O) as O1.
  assert (Wk : forall u, In u (kids t) -> wf u /\ deep (d - twice t) u) by (intros u Hu; split; [eapply wf_kid | eapply deep_kid]; eassumption).
  assert (Z : twice t = 0 -> forall u, In u (kids t) -> wf u /\ deep d u) by (intros Z u Hu; specialize (Wk u Hu); rewrite Z, Nat.sub_0_r in Wk; exact Wk).
  assert (NP : (forall segs, t <> YPath segs) -> ~ is_path t) by (intros N; destruct t; cbn; auto; exfalso; eapply N; reflexivity).
  destruct H; try specialize (Hs (NP ltac:(discriminate))).
  - (* slice *)
    rewrite !trees_size_cons, tree_size_group in Hn. cbn [tree_size] in Hn. destruct (Z eq_refl t (or_introl eq_refl)) as [W1 W2].
    eapply Up; cbn [app].
    + unfold c_type_step. apply alt_upto. unfold c_slice. eapply seq_upto; [apply leaf_upto; reflexivity|].
      eapply seq_upto; [apply group_upto, type_all_upto; [exact H | exact W1 | exact W2 | lia] | apply ret_upto].
    + ar d.
  - (* str *)
    apply (Up 0); [|ar d]. cbn [app]. unfold c_type_step. skip. apply alt_upto, leaf_upto. reflexivity.
  - (* &mut *)
    rewrite !trees_size_cons in Hn. cbn [tree_size] in Hn. destruct (Z eq_refl t (or_introl eq_refl)) as [W1 W2].
    eapply Up; cbn [app].
    + unfold c_type_step. do 2 skip. apply alt_upto. unfold c_ref. eapply seq_upto; [apply leaf_upto; reflexivity|].
      eapply seq_upto; [apply leaf_upto; reflexivity|]. eapply seq_upto; [|apply ret_upto].
      apply (IH d); [exact H | exact W1 | exact W2 | lia | left; exact Hs].
    + ar d.
  - (* & *)
    cbn [plain1] in P. cbn [sound1] in So.
    destruct So as [So|So]; [discriminate|].
    assert (Wt : wf t) by apply (Wk t (or_introl eq_refl)).
    rewrite trees_size_cons in Hn. cbn [tree_size] in Hn.
    destruct (tk_head t ts H Wt P) as (h & tl & Ets & Hh).
    assert (Rf : forall B, upto (c_type n) (ts ++ rest) t rest B -> upto (c_ref (c_type n)) (TP (ch "&") j :: ts ++ rest) (YRef false t) rest B).
    { intros B E. unfold c_ref. eapply upto_le; [eapply seq_upto; [apply leaf_upto; reflexivity|]; eapply seq_upto|].
      - apply leaf_upto. apply (opt_none _ (ts ++ rest)). rewrite Ets. cbn [app p_kw]. destruct h as [id| | |]; try (eexists; reflexivity).
        destruct (str_eqb (st "mut") id) eqn:Em; [|eexists; reflexivity]. apply str_eqb_eq in Em. destruct Hh as [N _]. congruence.
      - eapply seq_upto; [exact E | apply ret_upto].
      - lia. }
    assert (Ss : fails (c_leaf p_strslice) (TP (ch "&") j :: ts ++ rest)).
    { apply leaf_fails. unfold p_strslice. rewrite (TypeTextParse.seq_ok _ _ _ tt (ts ++ rest)) by reflexivity.
      rewrite Ets. cbn [app]. unfold p_seq. cbn [p_kw]. destruct h as [id| | |]; try (eexists; reflexivity).
      destruct (str_eqb (st "str") id) eqn:Em; [|eexists; reflexivity]. apply str_eqb_eq in Em. subst id.
      destruct Hh as (_ & _ & Hh). destruct (Hh eq_refl) as (g & b & l & ->). congruence. }
    assert (Pick : (exists v w, t = YArray v w) \/ twice (YRef false t) = 0) by (destruct t; eauto).
    destruct Pick as [(v & w & Et)|Pick].
    + assert (T1 : twice (YRef false t) = 1) by (rewrite Et; reflexivity). rewrite T1 in O1.
      destruct d as [|d]; [lia|]. destruct (Wk t (or_introl eq_refl)) as [_ Wo]. rewrite T1 in Wo. cbn [Nat.sub] in Wo. rewrite Nat.sub_0_r in Wo.
      assert (Wv : wf v /\ deep d v).
      { split; [apply (wf_kid t); [exact Wt|] | rewrite <- (Nat.sub_0_r d); change 0 with (twice (YArray v w)); rewrite <- Et; apply (deep_kid d t v Wo)];
          rewrite Et; destruct w as [[?|?]|]; left; reflexivity. }
      destruct Wv as [Wv Ov].
      assert (E : upto (c_type n) (ts ++ rest) t rest (cap d * trees_size ts)) by (apply IH; [exact H | exact Wt | exact Wo | lia | left; exact Hs]).
      assert (Sl : exists e k, c_slice (c_type n) (TP (ch "&") j :: ts ++ rest) = (Err e, k) /\ (k <= N.of_nat (cap d * trees_size ts))%N).
      { subst t. assert (In2 : forall us' tl', tk v us' -> stop tl' -> tl' <> [] -> S (trees_size us') < n ->
          exists e k, c_slice (c_type n) (TP (ch "&") j :: [TG Brack (us' ++ tl')] ++ rest) = (Err e, k) /\ (k <= N.of_nat (cap d * trees_size us'))%N).
        { intros us' tl' Hv St Ne L. destruct (IH d v us' tl' Hv Wv Ov L (or_introl St)) as (k & Ek & Hk).
          unfold c_slice, c_seq, c_leaf. cbn [p_punct]. rewrite N.eqb_refl. cbn [app c_group delim_eqb]. rewrite Ek.
          destruct tl'; [congruence|]. eauto. }
        clear Ets Hh. inversion H as [| | | | |? ? Hu|u' us' j' k' Hu|u' us' j' x' vs Hu Hv2| | | | | | |]; subst.
        - destruct So.
        - rewrite !trees_size_cons, tree_size_group, trees_size_app in Hn. cbn in Hn.
          destruct (In2 us' [TP (ch ";") j'; TLit (dec k')] Hu) as (e & k & Ek & Hk); [cbn; tauto | discriminate | unfold trees_size in *; lia |].
          exists e, k. split; [exact Ek|]. eapply N.le_trans; [exact Hk|]. assert (cap d * trees_size us' <= cap d * trees_size [TG Brack (us' ++ [TP (ch ";") j'; TLit (dec k')])]) by ar d. lia.
        - rewrite !trees_size_cons, tree_size_group, trees_size_app in Hn. cbn in Hn.
          destruct (In2 us' (TP (ch ";") j' :: vs) Hu) as (e & k & Ek & Hk); [cbn; tauto | discriminate | unfold trees_size in *; lia |].
          exists e, k. split; [exact Ek|]. eapply N.le_trans; [exact Hk|]. assert (cap d * trees_size us' <= cap d * trees_size [TG Brack (us' ++ TP (ch ";") j' :: vs)]) by ar d. lia. }
      destruct Sl as (e & k & Sl & Hk). apply (Up (cap d * trees_size ts + cap d * trees_size ts)); cbn [app].
      * unfold c_type_step. eapply alt_spent; [exact Sl | exact Hk|]. apply alt_next; [exact Ss|]. apply alt_upto, Rf, E.
      * rewrite cap_S. ar d.
    + destruct (Z Pick t (or_introl eq_refl)) as [_ Wo].
      assert (E : upto (c_type n) (ts ++ rest) t rest (cap d * trees_size ts)) by (apply IH; [exact H | exact Wt | exact Wo | lia | left; exact Hs]).
      eapply Up; cbn [app].
      * unfold c_type_step. apply alt_next; [|apply alt_next; [exact Ss|apply alt_upto, Rf, E]].
        unfold c_slice. eapply seq_fails2; [reflexivity|]. apply seq_fails. rewrite Ets. cbn [app].
        destruct h as [| | |d0 inner]; try (eexists; reflexivity). destruct d0; try (eexists; reflexivity).
        destruct Hh as (u & k & ->). discriminate.
      * ar d.
  - (* never *)
    apply (Up 0); [|ar d]. cbn [app]. unfold c_type_step. do 3 skip. apply alt_upto, leaf_upto. reflexivity.
  - (* array *)
    rewrite !trees_size_cons, tree_size_group in Hn. destruct (Z eq_refl t (or_introl eq_refl)) as [W1 W2].
    eapply Up; cbn [app].
    + unfold c_type_step. do 4 skip. apply alt_upto. unfold c_array. apply group_upto.
      eapply seq_upto; [apply (type_all_upto d); [exact H | exact W1 | exact W2 | lia]|].
      eapply seq_upto; [apply opt_not, seq_fails, leaf_fails; eexists; reflexivity | apply ret_upto].
    + ar d.
  - rewrite !trees_size_cons, tree_size_group, trees_size_app in Hn. cbn [plain1 sound1] in *. destruct (Z eq_refl t (or_introl eq_refl)) as [W1 W2].
    eapply Up; cbn [app].
    + unfold c_type_step. do 4 skip. apply alt_upto. unfold c_array. apply group_upto.
      eapply seq_upto; [apply (IH d t ts [TP (ch ";") j; TLit (dec n0)]); [exact H | exact W1 | exact W2 | cbn in Hn; lia | left; cbn; tauto]|].
      eapply seq_upto; [|apply ret_upto]. apply opt_upto. eapply seq_upto; [apply leaf_upto; reflexivity|].
      unfold c_asize. apply alt_upto, leaf_upto. rewrite (TypeTextParse.seq_ok _ _ _ n0 []); [reflexivity|]. cbn [p_usize].
      assert (Ed : parse_u64 (dec n0) = Some n0).
      { unfold in_u64, two64 in So. unfold dec. assert ((n0 <? 0)%Z = false) as -> by lia.
        rewrite parse_u64_dec by lia. destruct (_ <=? _)%Z eqn:El; [reflexivity|]. unfold u64_max in El. lia. }
      rewrite Ed. reflexivity.
    + ar d.
  - rewrite !trees_size_cons, tree_size_group, trees_size_app, trees_size_cons in Hn. cbn [plain1 sound1 kids] in *.
    destruct P as [Pt Pu]. destruct (Z eq_refl t (or_introl eq_refl)) as [W1 W2]. destruct (Z eq_refl u (or_intror (or_introl eq_refl))) as [W3 W4].
    eapply Up; cbn [app].
    + unfold c_type_step. do 4 skip. apply alt_upto. unfold c_array. apply group_upto.
      eapply seq_upto; [apply (IH d t ts (TP (ch ";") j :: us)); [exact H | exact W1 | exact W2 | cbn in Hn; lia | left; cbn; tauto]|].
      eapply seq_upto; [|apply ret_upto]. apply opt_upto. eapply seq_upto; [apply leaf_upto; reflexivity|].
      unfold c_asize. apply alt_next.
      * apply leaf_fails. match goal with Hu : tk u us |- _ => destruct (tk_head u us Hu W3 Pu) as (h & tl & Eh & Hh) end. clear Hn.
        rewrite Eh. destruct h; try (eexists; reflexivity). destruct Hh.
      * eapply seq_upto; [apply (type_all_upto d u us); [assumption | exact W3 | exact W4 | cbn in Hn; lia] | apply ret_upto].
    + ar d.
  - (* fn() *)
    rewrite !trees_size_cons in Hn. cbn in Hn. eapply Up; cbn [app].
    + apply fn_upto with (d := d) (B := 1); [| exact H | | lia | exact Hs].
      * exists 1%N. unfold c_delimited. cbn [length c_delimited_n]. rewrite nil_cost by lia. split; [reflexivity | lia].
      * intros r ->. apply (Z eq_refl). cbn. tauto.
    + ar d.
  - rewrite !trees_size_cons, tree_size_group in Hn. cbn [tree_size] in Hn. eapply Up; cbn [app].
    + apply fn_upto with (d := d); [| eassumption | | lia | exact Hs].
      * apply (types_all_upto d); [eassumption | | lia]. intros u Hu. apply (Z eq_refl). cbn [kids]. apply in_or_app. left. exact Hu.
      * intros r ->. apply (Z eq_refl). cbn [kids]. apply in_or_app. right. left. reflexivity.
    + ar d.
  - (* dyn *)
    rewrite !trees_size_cons in Hn. cbn [tree_size] in Hn. cbn [plain1] in P. destruct P as [_ P].
    eapply Up; cbn [app].
    + unfold c_type_step. do 6 skip. apply alt_upto. unfold c_dyn.
      eapply seq_upto; [apply leaf_upto; reflexivity|]. apply (seq_upto _ _ _ l rest _ _ (cap d * trees_size us) 0); [|apply ret_upto].
      unfold c_delimited. rewrite <- (Nat.sub_0_r (cap d * trees_size us)). apply (delimited_upto _ _ tk (mark (ch "+")) (cap d) 0).
      * eassumption.
      * pose proof (sepd_count tk (mark (ch "+")) l us (mark_ne (ch "+")) ltac:(assumption)). rewrite app_length. lia.
      * intros a ts x Ha HR Hsz Hx. destruct (Z eq_refl a Ha). rewrite Nat.sub_0_r. apply (IH d); [exact HR | assumption | assumption | lia | right]. rewrite Forall_forall in P.
        split; [apply P, Ha|]. destruct Hx as [->|(ds & y & Hd & ->)]; [apply stop_weak, Hs | apply (mark_stop (ch "+")); [exact Hd | cbn; tauto]].
      * apply mark_parsed.
      * apply (punct_no (ch "+") rest _ Hs). notin.
    + ar d.
  - (* unit *)
    apply (Up 0); [|ar d]. cbn [app]. unfold c_type_step. do 7 skip. apply alt_upto. unfold c_tuple. apply alt_upto, leaf_upto. reflexivity.
  - (* (t,) *)
    rewrite !trees_size_cons, tree_size_group, trees_size_app in Hn. cbn in Hn. inversion P as [|? ? Pf _]; subst.
    destruct (Z eq_refl t (or_introl eq_refl)) as [W1 W2]. pose proof (tk_nonempty t ts H W1 Pf) as Ne.
    eapply Up; cbn [app].
    + unfold c_type_step. do 7 skip. apply alt_upto. unfold c_tuple. apply alt_next.
      * apply leaf_fails. destruct ts; [congruence|]. eexists. reflexivity.
      * apply alt_upto. apply group_upto. eapply seq_upto; [|apply ret_upto]. unfold c_type_opt_comma.
        eapply seq_upto; [apply (IH d t ts [TP c_comma j]); [exact H | exact W1 | exact W2 | unfold trees_size in *; lia | left; cbn; tauto]|].
        apply leaf_upto. reflexivity.
    + ar d.
  - (* (a, b, ..) *)
    rewrite !trees_size_cons, tree_size_group in Hn. cbn in Hn. cbn [plain1] in *. rewrite Forall_forall in P.
    assert (Hn2 : S (trees_size us) < n) by (fold (trees_size us) in Hn; lia). clear Hn.
    cbn [twice] in O1, Wk. destruct d as [|d]; [lia|]. cbn [Nat.sub] in Wk. rewrite Nat.sub_0_r in Wk. cbn [kids] in Wk.
    inversion H as [|a' l' ts ds us' Ha Hd Hl Hss]; subst.
    destruct (many_upto d a (b :: l) ts ds us' Ha Hd ltac:(discriminate) Hss (fun u Hu => conj (Wk u Hu) (P u Hu)) Hn2 (S (length (ts ++ ds ++ us'))) ltac:(lia))
        as (ini & z & zs & k & E1 & E2 & Hz & Hin & Hsz & E3 & Hk).
    assert (Ne' : us' <> []).
    { inversion Hss as [z0 us2 Hz0|z0 l2 ts2 ds2 us2 Hz0 Hd2 Hl2 Hs2]; subst.
      - eapply tk_nonempty; [eassumption | apply (Wk b); right; left; reflexivity | apply P; right; left; reflexivity].
      - destruct Hd2 as [j ->]. intros E0. apply app_eq_nil in E0. destruct E0 as [_ E0]. discriminate. }
    destruct (Wk a (or_introl eq_refl)) as [Wa Oa]. destruct (Wk z Hin) as [Wz Oz].
    assert (St : stop (ds ++ us')) by (apply (mark_stop c_comma); [exact Hd | cbn; tauto]).
    rewrite !trees_size_app in Hn2.
    destruct (IH d a ts (ds ++ us') Ha Wa Oa ltac:(lia) (or_introl St)) as (k1 & Ek1 & Hk1).
    apply (Up (cap d * trees_size ts + (cap d * trees_size (ts ++ ds ++ us') + (cap d * trees_size zs + 0 + 0)))); cbn [app].
    + unfold c_type_step. do 7 skip. apply alt_upto. unfold c_tuple. apply alt_next.
      * apply leaf_fails. destruct (ts ++ ds ++ us') eqn:E0; [|eexists; reflexivity].
        apply app_eq_nil in E0. destruct E0 as [_ E0]. apply app_eq_nil in E0. destruct E0 as [_ E0]. contradiction.
      * apply (alt_spent _ _ _ "end of group"%string k1); [| exact Hk1 |].
        -- cbn [c_group delim_eqb]. unfold c_type_opt_comma, c_seq, c_ret, c_leaf. rewrite Ek1.
           unfold p_seq, p_opt. rewrite (mark_parsed c_comma ds us' Hd). cbn [bind p_ret]. unfold p_ret. destruct us'; [congruence|]. f_equal. lia.
        -- apply group_upto. eapply seq_upto.
           ++ exists k. unfold c_at_least_one, c_many. rewrite E3. cbn [bind]. split; [|exact Hk]. destruct ini; [congruence | reflexivity].
           ++ eapply seq_upto; [|rewrite E1; apply ret_upto]. unfold c_type_opt_comma.
              eapply seq_upto; [apply (type_all_upto d z zs); [exact Hz | exact Wz | exact Oz | lia]|]. apply leaf_upto. reflexivity.
    + rewrite cap_S. revert Hsz. ar d.
  - (* path *)
    assert (Hp : stop_plus rest) by (destruct Hr as [Hr|[_ Hr]]; [apply stop_weak, Hr | exact Hr]).
    cbn [plain1] in P. rewrite Forall_forall in P.
    assert (G : exists id r, us ++ rest = TId id :: r /\ ~ keyword id).
    { inversion H as [s ts Hsg|s l ts ds us' Hsg Hd Hl Hss]; subst.
      - pose proof (P s (or_introl eq_refl)) as Ps. destruct Hsg as [id|id args vs j1 j2 Hv]; destruct Ps as (Hk & _); cbn [app]; eauto.
      - pose proof (P s (or_introl eq_refl)) as Ps. destruct Hsg as [id|id args vs j1 j2 Hv]; destruct Ps as (Hk & _); cbn [app]; eauto. }
    assert (Pos : 1 <= trees_size us).
    { apply size_pos. inversion H as [s ts Hsg|s l ts ds us' Hsg Hd Hl Hss]; subst; destruct Hsg; discriminate. }
    destruct G as (id & r & Eq & Hk). apply (Up (cap d * trees_size us - 1 + 0)).
    + assert (Sw : c_type_step (c_type n) n (us ++ rest) = c_path (c_type n) n (us ++ rest)).
      { rewrite Eq. apply c_step_ident; intros ->; apply Hk; cbn; tauto. }
      unfold upto. rewrite Sw. change (upto (c_path (c_type n) n) (us ++ rest) (YPath segs) rest (cap d * trees_size us - 1 + 0)).
      * unfold c_path. eapply seq_upto; [|apply ret_upto]. unfold c_delimited. apply (delimited_upto _ _ tk_seg colons (cap d) 1).
        -- exact H.
        -- pose proof (sepd_count tk_seg colons segs us colons_ne H). rewrite app_length. lia.
        -- intros a ts x Ha HR Hsz Hx. apply (seg_upto d); [exact HR | | lia |].
           ++ intros u Hu. apply (Z eq_refl). eapply kids_seg; eassumption.
           ++ destruct Hx as [->|(ds & y & Hd & ->)]; [apply after_stop, Hp | apply after_colons, Hd].
        -- apply colons_parsed.
        -- unfold p_pathsep. destruct (joint_no (ch ":") rest [c_comma; c_gt; ch ";"; ch "+"] Hp ltac:(notin)) as [e He].
           exists e. apply TypeTextParse.seq_err. exact He.
    + ar d.
Qed.
End Step.

Lemma cost_tk n d t ts rest : tk t ts -> wf t -> deep d t -> S (trees_size ts) < n -> (stop rest \/ (is_path t /\ stop_plus rest)) ->
  upto (c_type n) (ts ++ rest) t rest (cap d * trees_size ts).
Proof.
  revert d t ts rest. induction n as [|n IH]; intros d t ts rest H W O Hn Hr; [lia|].
  destruct (step_upto n IH d t ts rest H W O ltac:(lia) Hr) as (k & E & Hk).
  exists (1 + k)%N. cbn [c_type]. rewrite E. auto.
Qed.

(** Tokens are no more than characters. *)
Lemma flush_count w : length (flush w) <= length w.
Proof. destruct w; cbn; lia. Qed.
Lemma lx_count s : forall w ls, lx s w = Ok ls -> length ls <= length s + length w.
Proof.
  induction s as [|c s IH]; intros w ls H; cbn [lx] in H.
  - injection H as <-. apply flush_count.
  - assert (R : forall x k, length x <= S (length w) -> rmap (app x) (lx s []) = Ok k -> length k <= S (length s) + length w).
    { intros x k Lx E. destruct (lx s []) as [l|e|m|] eqn:El; try discriminate. cbn in E. injection E as <-.
      rewrite app_length. specialize (IH [] l El). cbn in IH. lia. }
    pose proof (flush_count w) as Fw. cbn [length].
    destruct (is_word c). { specialize (IH _ _ H). rewrite app_length in IH. cbn in IH. lia. }
    destruct (is_space c). { eapply R; [|exact H]. lia. }
    destruct (is_punct c). { eapply R; [|exact H]. rewrite app_length. cbn. lia. }
    destruct (open_of c). { eapply R; [|exact H]. rewrite app_length. cbn. lia. }
    destruct (close_of c); [|discriminate]. eapply R; [|exact H]. rewrite app_length. cbn. lia.
Qed.
Definition stk_size (stk : list (delim * list tree)) : nat := fold_right (fun f k => S (trees_size (snd f)) + k) 0 stk.
Lemma trees_size_rev a : trees_size (rev a) = trees_size a.
Proof. induction a as [|t a IH]; [reflexivity|]. cbn [rev]. rewrite trees_size_app, IH, !trees_size_cons. cbn. lia. Qed.
Lemma build_count ls : forall acc stk ts, build ls acc stk = Ok ts -> trees_size ts <= length ls + trees_size acc + stk_size stk.
Proof.
  induction ls as [|l ls IH]; intros acc stk ts H; cbn [build] in H.
  - destruct stk; [|discriminate]. injection H as <-. rewrite trees_size_rev. cbn. lia.
  - cbn [length]. destruct l as [s|s|c j|d|d].
    + specialize (IH _ _ _ H). rewrite trees_size_cons in IH. cbn [tree_size] in IH. lia.
    + specialize (IH _ _ _ H). rewrite trees_size_cons in IH. cbn [tree_size] in IH. lia.
    + specialize (IH _ _ _ H). rewrite trees_size_cons in IH. cbn [tree_size] in IH. lia.
    + specialize (IH _ _ _ H). cbn [stk_size fold_right snd] in IH. fold (stk_size stk) in IH. cbn in IH. fold (stk_size stk) in IH. lia.
    + destruct stk as [|[d' acc'] stk]; [discriminate|]. destruct (delim_eqb d d'); [|discriminate]. specialize (IH _ _ _ H).
      rewrite trees_size_cons, tree_size_group, trees_size_rev in IH. cbn [stk_size fold_right snd]. fold (stk_size stk). lia.
Qed.
Lemma tokenize_count s ts : tokenize s = Ok ts -> trees_size ts <= length s.
Proof.
  unfold tokenize. destruct (lx s []) as [ls|e|m|] eqn:E; try discriminate. cbn [bind]. intros H.
  apply lx_count in E. apply build_count in H. cbn in *. lia.
Qed.

(** A name is read in at most as many steps as it has characters, doubled for every level of tuples and of references to
    arrays. *)
Theorem name_reading_bounded_by_nesting_partial d t : plain t -> sound t -> full t -> deep d t ->
  fst (parse_type_counted (show t)) = Ok t /\
  (snd (parse_type_counted (show t)) <= 2 ^ N.of_nat d * N.of_nat (length (show t)))%N.
Proof.
  intros Pl So F O. assert (W : wf t) by (split; assumption).
  split; [rewrite counting_changes_nothing; apply parse_show; assumption|].
  destruct (tokenize_show t W F) as (ts & Ht & E). unfold parse_type_counted. rewrite E.
  destruct (cost_tk (S (S (trees_size ts))) d t ts [] Ht W O ltac:(lia) (or_introl Logic.I)) as (k & Ek & Hk).
  rewrite app_nil_r in Ek. rewrite Ek. cbn [snd]. pose proof (tokenize_count _ _ E) as L.
  assert (C : N.of_nat (cap d) = (2 ^ N.of_nat d)%N).
  { clear. induction d as [|d IH]; [reflexivity|]. rewrite cap_S, Nat2N.inj_succ, N.pow_succ_r', <- IH. lia. }
  rewrite <- C. rewrite Nat2N.inj_mul in Hk. nia.
Qed.
(** In particular in at most as many steps as characters, when there are no such levels. *)
Definition once (t : ty) : Prop := forall u, sub u t -> twice u = 0.
Lemma once_deep : forall t, once t -> deep 0 t.
Proof.
  apply (kids_ind (fun t => once t -> deep 0 t)). intros t IH O. assert (T : twice t = 0) by (apply O; constructor).
  constructor; [lia|]. intros u Hu. rewrite T. apply (IH u Hu). intros v Hv. apply O. eapply sub_kid; eassumption.
Qed.
Theorem name_read_in_linear_time_partial t : plain t -> sound t -> full t -> once t ->
  fst (parse_type_counted (show t)) = Ok t /\ (snd (parse_type_counted (show t)) <= N.of_nat (length (show t)))%N.
Proof.
  intros Pl So F O. destruct (name_reading_bounded_by_nesting_partial 0 t Pl So F (once_deep t O)) as [A B].
  split; [exact A|]. cbn -[N.mul parse_type_counted] in B. rewrite N.mul_1_l in B. exact B.
Qed.

(** ** A lower bound. *)
(** [((..((u8, u8), u8)..), u8)], [k] deep. *)
Fixpoint tower_name (k : nat) : str :=
  match k with O => st "u8" | S k => st "(" ++ tower_name k ++ st ", u8)" end.
Definition u8_path : ty := YPath [SSeg (st "u8") None false].
Fixpoint tower (k : nat) : ty := match k with O => u8_path | S k => YTuple [tower k; u8_path] end.
Lemma tower_name_length k : length (tower_name k) = 6 * k + 2.
Proof. induction k as [|k IH]; [reflexivity|]. cbn [tower_name]. rewrite !app_length, IH. cbn. lia. Qed.
Lemma tower_shown k : show (tower k) = tower_name k.
Proof.
  induction k as [|k IH]; [reflexivity|]. cbn [tower_name]. rewrite <- IH. cbn [tower].
  change (show (YTuple [tower k; u8_path])) with (st "(" ++ (show (tower k) ++ st ", " ++ show u8_path) ++ st ")").
  rewrite <- !app_assoc. reflexivity.
Qed.
Lemma tower_sub k : forall u, sub u (tower k) -> exists j, u = tower j.
Proof.
  induction k as [|k IH]; intros u H.
  - inversion H as [|t v Hv]; subst; [exists 0; reflexivity | destruct Hv].
  - inversion H as [|t v Hv Hu]; subst; [exists (S k); reflexivity|]. cbn [tower kids] in Hv.
    destruct Hv as [<- | [<- | []]]; [exact (IH u Hu)|].
    inversion Hu as [|t' v' Hv']; subst; [exists 0; reflexivity | destruct Hv'].
Qed.
Lemma tower_full k : full (tower k).
Proof. destruct k; discriminate. Qed.
Lemma tower_wf k : wf (tower k).
Proof.
  split; intros u Hu; destruct (tower_sub k u Hu) as [[|j] ->]; cbn.
  - constructor; [|constructor]. cbn. split; [|auto]. intros H. cbn in H. repeat destruct H as [H|H]; try discriminate H; exact H.
  - constructor; [apply tower_full | constructor; [discriminate | constructor]].
  - constructor; [|constructor]. exists (ch "u"), (st "8"). repeat split.
  - exact Logic.I.
Qed.

Lemma tower_cost n : forall k ts rest, tk (tower k) ts -> S (trees_size ts) < n -> stop rest ->
  (2 ^ N.of_nat k <= snd (c_type n (ts ++ rest)))%N.
Proof.
  induction n as [|n IH]; intros k ts rest H Hn Hs; [lia|]. destruct k as [|k].
  { cbn [c_type]. destruct (c_type_step _ _ _). cbn [snd]. change (2 ^ N.of_nat 0)%N with 1%N. lia. }
  cbn [tower] in H. inversion H as [| | | | | | | | | | | | |a b l us HS|]; subst.
  inversion HS as [|a l ts2 ds us2 Ha Hd Hl Hs2]; subst. clear H HS. destruct Hd as [j ->].
  rewrite trees_size_cons, tree_size_group, !trees_size_app in Hn. cbn in Hn.
  assert (L : S (trees_size ts2) < n) by (unfold trees_size in *; lia). clear Hn.
  assert (Ne : us2 <> []).
  { inversion Hs2 as [z zs Hq|z l ts3 ds us3 Hq Hd Hl' Hs3]; subst.
    - exact (tk_nonempty u8_path us2 Hq (tower_wf 0) (tower_full 0)).
    - contradiction. }
  assert (St : stop ([TP c_comma j] ++ us2)) by (cbn; tauto).
  pose proof (IH k ts2 _ Ha L St) as Hc.
  pose proof (agree_type n (ts2 ++ [TP c_comma j] ++ us2)) as Ag.
  rewrite (parse_tk n (tower k) ts2 _ Ha (tower_wf k) L (or_introl St)) in Ag.
  destruct (c_type n (ts2 ++ [TP c_comma j] ++ us2)) as [r c] eqn:Ec. cbn [fst snd] in *. subst r.
  assert (An : forall (p q : cpars ty) x e, p x = (Err e, 0%N) -> c_alt p q x = q x).
  { intros p q x e Hx. unfold c_alt. rewrite Hx. destruct (q x). reflexivity. }
  assert (Al : forall (p q : cpars ty) x, (snd (p x) <= snd (c_alt p q x))%N).
  { intros p q x. unfold c_alt. destruct (p x) as [[y|e|m|] k0]; try (cbn; lia). destruct (q x). cbn. lia. }
  set (inner := ts2 ++ [TP c_comma j] ++ us2) in *.
  assert (T : (2 * c <= snd (c_tuple (c_type n) (TG Par inner :: rest)))%N).
  { unfold c_tuple. erewrite An.
    2:{ unfold c_leaf, inner. cbn [p_group delim_eqb p_ret bind]. destruct (ts2 ++ [TP c_comma j] ++ us2) eqn:E0; [|reflexivity].
        apply app_eq_nil in E0. destruct E0 as [_ E0]. discriminate. }
    unfold c_alt.
    assert (E1 : c_group Par (c_seq (c_type_opt_comma (c_type n)) (fun t => c_ret (YTuple [t]))) (TG Par inner :: rest) = (Err "end of group"%string, c)).
    { cbn [c_group delim_eqb]. unfold c_type_opt_comma, c_seq, c_ret, c_leaf. rewrite Ec. cbn [app p_seq p_opt p_punct bind p_ret].
      unfold p_seq, p_opt, p_punct. rewrite N.eqb_refl. cbn [bind p_ret]. unfold p_ret. destruct us2; [congruence|]. f_equal. lia. }
    rewrite E1.
    assert (E2 : (c <= snd (c_group Par (c_seq (c_at_least_one (c_many (c_type_comma (c_type n))))
       (fun l => c_seq (c_type_opt_comma (c_type n)) (fun t => c_ret (YTuple (l ++ [t]))))) (TG Par inner :: rest)))%N).
    { cbn [c_group delim_eqb]. 
      assert (E3 : (c <= snd (c_at_least_one (c_many (c_type_comma (c_type n))) inner))%N).
      { unfold c_at_least_one, c_many. cbn [c_many_n].
        assert (E4 : c_type_comma (c_type n) inner = (Ok (tower k, us2), (c + 0)%N)).
        { unfold c_type_comma, c_seq. rewrite Ec. unfold c_leaf, p_seq, p_punct. cbn [app]. rewrite N.eqb_refl. reflexivity. }
        rewrite E4. destruct (c_many_n _ _ us2). cbn [snd]. lia. }
      unfold c_seq at 1. destruct (c_at_least_one _ inner) as [[[l0 y]|e|m|] k0]; cbn [snd] in *; try lia.
      destruct (c_seq _ _ y) as [[[? ?]|?|?|] k1]; cbn [snd]; try lia. }
    destruct (c_group Par (c_seq (c_at_least_one _) _) (TG Par inner :: rest)) as [r2 c2]. cbn [snd] in *. lia. }
  assert (Tot : (snd (c_tuple (c_type n) (TG Par inner :: rest)) <= snd (c_type_step (c_type n) n (TG Par inner :: rest)))%N).
  { unfold c_type_step. do 7 (erewrite An by reflexivity). apply Al. }
  cbn [app c_type]. destruct (c_type_step (c_type n) n (TG Par inner :: rest)) as [r3 c3]. cbn [snd] in *.
  rewrite Nat2N.inj_succ, N.pow_succ_r'. lia.
Qed.

(** Every level of parentheses doubles the work: [6k + 2] characters take at least [2^k] steps. *)
Theorem nested_tuples_take_exponential_time_refuted k :
  length (tower_name k) = 6 * k + 2 /\
  fst (parse_type_counted (tower_name k)) = Ok (tower k) /\
  (2 ^ N.of_nat k <= snd (parse_type_counted (tower_name k)))%N.
Proof.
  split; [apply tower_name_length|]. rewrite <- tower_shown.
  split; [rewrite counting_changes_nothing; apply parse_show; [apply tower_wf | apply tower_full]|].
  destruct (tokenize_show (tower k) (tower_wf k) (tower_full k)) as (ts & Ht & E). unfold parse_type_counted. rewrite E.
  pose proof (tower_cost (S (S (trees_size ts))) k ts [] Ht ltac:(lia) Logic.I) as Hc. rewrite app_nil_r in Hc.
  destruct (c_type _ ts). exact Hc.
Qed.

(** [&[&[..&[u8; 1]..; 1]; 1]], [k] deep. *)
Fixpoint boxes_name (k : nat) : str :=
  match k with O => st "u8" | S k => st "&[" ++ boxes_name k ++ st "; 1]" end.
Fixpoint boxes (k : nat) : ty := match k with O => u8_path | S k => YRef false (YArray (boxes k) (Some (AFixed 1%Z))) end.
Lemma boxes_name_length k : length (boxes_name k) = 6 * k + 2.
Proof. induction k as [|k IH]; [reflexivity|]. cbn [boxes_name]. rewrite !app_length, IH. cbn. lia. Qed.
Lemma boxes_shown k : show (boxes k) = boxes_name k.
Proof.
  induction k as [|k IH]; [reflexivity|]. cbn [boxes_name]. rewrite <- IH. cbn [boxes].
  change (show (YRef false (YArray (boxes k) (Some (AFixed 1%Z))))) with (st "&" ++ [] ++ (st "[" ++ show (boxes k) ++ (st "; " ++ dec 1) ++ st "]")).
  reflexivity.
Qed.
Lemma boxes_sub k : forall u, sub u (boxes k) -> exists j, u = boxes j \/ u = YArray (boxes j) (Some (AFixed 1%Z)).
Proof.
  induction k as [|k IH]; intros u H.
  - inversion H as [|t v Hv]; subst; [exists 0; left; reflexivity | destruct Hv].
  - inversion H as [|t v Hv Hu]; subst; [exists (S k); left; reflexivity|]. cbn [boxes kids] in Hv.
    destruct Hv as [<- | []]. inversion Hu as [|t v Hv Hu2]; subst; [exists k; right; reflexivity|].
    destruct Hv as [<- | []]. exact (IH u Hu2).
Qed.
Lemma boxes_full k : full (boxes k).
Proof. destruct k; discriminate. Qed.
Lemma boxes_wf k : wf (boxes k).
Proof.
  pose proof (tower_wf 0) as [A B].
  split; intros u Hu; destruct (boxes_sub k u Hu) as [[|j] [-> | ->]]; try (apply A; constructor); try (apply B; constructor); cbn.
  - split; [discriminate | exact Logic.I].
  - discriminate.
  - split; [discriminate | exact Logic.I].
  - unfold in_u64, two64. lia.
  - right. exact Logic.I.
  - unfold in_u64, two64. lia.
Qed.
Lemma alt_more {A} (p q : cpars A) x e k : p x = (Err e, k) -> snd (c_alt p q x) = (k + snd (q x))%N.
Proof. intros H. unfold c_alt. rewrite H. destruct (q x). reflexivity. Qed.
Lemma alt_least {A} (p q : cpars A) x : (snd (p x) <= snd (c_alt p q x))%N.
Proof. unfold c_alt. destruct (p x) as [[y|e|m|] k0]; try (cbn; lia). destruct (q x). cbn. lia. Qed.
Lemma seq_least {A B} (p : cpars A) (q : A -> cpars B) x : (snd (p x) <= snd (c_seq p q x))%N.
Proof. unfold c_seq. destruct (p x) as [[[a y]|e|m|] k]; try (cbn; lia). destruct (q a y). cbn. lia. Qed.
Lemma boxes_cost k : forall n ts rest, tk (boxes k) ts -> S (trees_size ts) < n -> stop rest ->
  (2 ^ N.of_nat k <= snd (c_type n (ts ++ rest)))%N.
Proof.
  induction k as [|k IH]; intros n ts rest H Hn Hs; (destruct n as [|n]; [lia|]).
  { cbn [c_type]. destruct (c_type_step _ _ _). cbn [snd]. change (2 ^ N.of_nat 0)%N with 1%N. lia. }
  cbn [boxes] in H. inversion H as [| | |t us j Ha| | | | | | | | | | |]; subst. clear H.
  inversion Ha as [| | | | | |t ts2 j2 m Hb| | | | | | | |]; subst. clear Ha.
  rewrite !trees_size_cons, tree_size_group, !trees_size_app in Hn. cbn in Hn.
  assert (L : S (S (trees_size ts2)) < n) by (unfold trees_size in *; lia). clear Hn.
  set (tail := [TP (ch ";") j2; TLit (dec 1)]) in *.
  assert (St : stop tail) by (cbn; tauto).
  pose proof (IH n ts2 tail Hb ltac:(lia) St) as Hc.
  pose proof (agree_type n (ts2 ++ tail)) as Ag.
  rewrite (parse_tk n (boxes k) ts2 tail Hb (boxes_wf k) ltac:(lia) (or_introl St)) in Ag.
  destruct (c_type n (ts2 ++ tail)) as [r c] eqn:Ec. cbn [fst snd] in *. subst r.
  destruct n as [|n]; [lia|].
  pose proof (IH n ts2 tail Hb ltac:(lia) St) as Hd.
  assert (Arr : (2 ^ N.of_nat k <= snd (c_type (S n) ([TG Brack (ts2 ++ tail)] ++ rest)))%N).
  { cbn [c_type app].
    assert (Q : (snd (c_type n (ts2 ++ tail)) <= snd (c_array (c_type n) (TG Brack (ts2 ++ tail) :: rest)))%N).
    { unfold c_array. cbn [c_group delim_eqb].
      match goal with |- context [c_seq (c_type n) ?q (ts2 ++ tail)] => pose proof (seq_least (c_type n) q (ts2 ++ tail)) as X; destruct (c_seq (c_type n) q (ts2 ++ tail)) as [[[a y]|e|mm|] kk] end; cbn [snd] in *; exact X. }
    assert (Q2 : (snd (c_array (c_type n) (TG Brack (ts2 ++ tail) :: rest)) <= snd (c_type_step (c_type n) n (TG Brack (ts2 ++ tail) :: rest)))%N).
    { unfold c_type_step. do 4 (erewrite alt_more by reflexivity; rewrite N.add_0_l). apply alt_least. }
    destruct (c_type_step (c_type n) n (TG Brack (ts2 ++ tail) :: rest)). cbn [snd] in *. lia. }
  remember (S n) as m eqn:Em. cbn [app c_type].
  assert (Sl : c_slice (c_type m) (TP (ch "&") j :: TG Brack (ts2 ++ tail) :: rest) = (Err "end of group"%string, c)).
  { unfold c_slice, c_seq, c_leaf. cbn [p_punct]. rewrite N.eqb_refl. cbn [c_group delim_eqb]. rewrite Ec. cbn [tail]. reflexivity. }
  assert (Rf : (snd (c_type m ([TG Brack (ts2 ++ tail)] ++ rest)) <= snd (c_ref (c_type m) (TP (ch "&") j :: TG Brack (ts2 ++ tail) :: rest)))%N).
  { unfold c_ref. unfold c_seq at 1, c_leaf at 1. cbn [p_punct]. rewrite N.eqb_refl. unfold c_seq at 1, c_leaf. cbn [p_opt p_kw].
    unfold p_opt, p_kw. cbn [app].
    match goal with |- context [c_seq (c_type m) ?q ?x] => pose proof (seq_least (c_type m) q x) as X; destruct (c_seq (c_type m) q x) end. cbn [snd] in *. lia. }
  assert (Tot : (c + snd (c_ref (c_type m) (TP (ch "&") j :: TG Brack (ts2 ++ tail) :: rest)) <=
    snd (c_type_step (c_type m) m (TP (ch "&") j :: TG Brack (ts2 ++ tail) :: rest)))%N).
  { unfold c_type_step. erewrite alt_more by exact Sl. erewrite alt_more by reflexivity. rewrite N.add_0_l.
    apply N.add_le_mono_l. apply alt_least. }
  destruct (c_type_step (c_type m) m _) as [r3 c3]. cbn [snd] in *.
  rewrite Nat2N.inj_succ, N.pow_succ_r'. lia.
Qed.
(** So does every level of references to arrays. *)
Theorem nested_array_references_take_exponential_time_refuted k :
  length (boxes_name k) = 6 * k + 2 /\
  fst (parse_type_counted (boxes_name k)) = Ok (boxes k) /\
  (2 ^ N.of_nat k <= snd (parse_type_counted (boxes_name k)))%N.
Proof.
  split; [apply boxes_name_length|]. rewrite <- boxes_shown.
  split; [rewrite counting_changes_nothing; apply parse_show; [apply boxes_wf | apply boxes_full]|].
  destruct (tokenize_show (boxes k) (boxes_wf k) (boxes_full k)) as (ts & Ht & E). unfold parse_type_counted. rewrite E.
  pose proof (boxes_cost k (S (S (trees_size ts))) ts [] Ht ltac:(lia) Logic.I) as Hc. rewrite app_nil_r in Hc.
  destruct (c_type _ ts). exact Hc.
Qed.

(** No fixed multiple of the length is enough. *)
Theorem reading_is_not_linear_refuted : forall a : N, exists s t, fst (parse_type_counted s) = Ok t /\
  (a * N.of_nat (length s) < snd (parse_type_counted s))%N.
Proof.
  intros a. set (k := N.to_nat (12 * a) + 2).
  destruct (nested_tuples_take_exponential_time_refuted (2 * k)) as (L & E & C).
  exists (tower_name (2 * k)), (tower (2 * k)). split; [exact E|]. rewrite L. eapply N.lt_le_trans; [|exact C].
  replace (N.of_nat (2 * k)) with (N.of_nat k + N.of_nat k)%N by lia. rewrite N.pow_add_r.
  assert (K : (12 * a + 2 = N.of_nat k)%N) by (unfold k; lia).
  assert (Q : (N.of_nat k < 2 ^ N.of_nat k)%N) by (apply N.pow_gt_lin_r; lia).
  clearbody k. nia.
Qed.

Example linear_holds : once (YRef false (YPath [SSeg (st "Vec") (Some (GParsed [YSlice u8_path; u8_path])) false])).
Proof.
  intros u H. inversion H as [|t v Hv Hu]; subst; [reflexivity|]. destruct Hv as [<- | []].
  inversion Hu as [|t v Hv Hu']; subst; [reflexivity|]. destruct Hv as [<- | [<- | []]].
  - inversion Hu' as [|t v Hv Hu2]; subst; [reflexivity|]. destruct Hv as [<- | []]. inversion Hu2 as [|t v Hv Hu3]; subst; [reflexivity|]. destruct Hv.
  - inversion Hu' as [|t v Hv Hu2]; subst; [reflexivity|]. destruct Hv.
Qed.
Example counted : map (fun k => snd (parse_type_counted (tower_name k))) [0; 1; 2; 3; 4] = [1; 5; 13; 29; 61]%N.
Proof. vm_compute. reflexivity. Qed.
(** The towers nest exactly as deep as they cost: both theorems speak of the same names. *)
Example bounded_holds : forall k, deep k (tower k) /\ plain (tower k) /\ sound (tower k) /\ full (tower k).
Proof.
  assert (U : forall d, deep d u8_path) by (intros d; constructor; [apply Nat.le_0_l | intros u []]).
  intros k. split; [|destruct (tower_wf k); split; [|split; [|apply tower_full]]; assumption].
  induction k as [|k IH]; [apply U|]. cbn [tower]. constructor; [apply le_n_S, Nat.le_0_l|].
  change (S k - twice (YTuple [tower k; u8_path])) with (S k - 1). rewrite Nat.sub_succ, Nat.sub_0_r.
  intros u [<- | [<- | []]]; [exact IH | apply U].
Qed.
