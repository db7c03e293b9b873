(** What the parser returns: identifiers are identifiers, sizes are u64, and references have their canonical form.
    Hence whatever was read is read back from its printed form. *)
From Coq Require Import Ascii String List ZArith NArith Lia Bool.
From Verif Require Import Base NumText TypesModel TypeTextModel TypeTextSpec TypeTextProofs TypeTextParse TypeTextLex.
Import ListNotations.

Fixpoint tree_ok (t : tree) : Prop :=
  match t with
  | TId s => ident s
  | TG _ ts => fold_right (fun t P => tree_ok t /\ P) True ts
  | _ => True
  end.
Definition trees_ok (ts : list tree) : Prop := Forall tree_ok ts.
Lemma group_trees d ts : tree_ok (TG d ts) <-> trees_ok ts.
Proof.
  cbn [tree_ok]. unfold trees_ok. induction ts as [|t ts IH]; cbn [fold_right]; [split; auto|].
  rewrite IH. split; [intros [A B]; constructor; assumption | intros H; inversion H; auto].
Qed.

Definition lex_ok (l : lexeme) : Prop := match l with LxId s => ident s | _ => True end.
Lemma flush_ok w : forallb is_word w = true -> Forall lex_ok (flush w).
Proof.
  intros H. destruct w as [|c w]; [constructor|]. cbn [flush]. constructor; [|constructor]. cbn [word_lexeme].
  destruct (is_digit c) eqn:E; [exact Logic.I|]. exists c, w. repeat split; assumption.
Qed.
Lemma lx_ok s : forall w ls, forallb is_word w = true -> lx s w = Ok ls -> Forall lex_ok ls.
Proof.
  induction s as [|c s IH]; intros w ls Hw H; cbn [lx] in H.
  - injection H as <-. apply flush_ok, Hw.
  - destruct (is_word c) eqn:E.
    + apply (IH (w ++ [c]) ls); [rewrite forallb_app; cbn; rewrite Hw, E; reflexivity | exact H].
    + assert (G : forall l, lex_ok l -> rmap (app (flush w ++ [l])) (lx s []) = Ok ls -> Forall lex_ok ls).
      { intros l Hl Hr. destruct (lx s []) as [o| | |] eqn:Eo; cbn in Hr; try discriminate. injection Hr as <-.
        apply Forall_app. split; [apply Forall_app; split; [apply flush_ok, Hw | constructor; [exact Hl | constructor]]|].
        apply (IH [] o eq_refl Eo). }
      destruct (is_space c).
      { destruct (lx s []) as [o| | |] eqn:Eo; cbn in H; try discriminate. injection H as <-.
        apply Forall_app. split; [apply flush_ok, Hw | apply (IH [] o eq_refl Eo)]. }
      destruct (is_punct c). { eapply G; [|exact H]. exact Logic.I. }
      destruct (open_of c). { eapply G; [|exact H]. exact Logic.I. }
      destruct (close_of c); [|discriminate]. eapply G; [|exact H]. exact Logic.I.
Qed.
Lemma build_ok ls : forall acc stk ts, Forall lex_ok ls -> trees_ok acc -> Forall (fun p => trees_ok (snd p)) stk ->
  build ls acc stk = Ok ts -> trees_ok ts.
Proof.
  assert (R : forall l, trees_ok l -> trees_ok (rev l)).
  { intros l H. apply Forall_forall. intros x Hx. apply in_rev in Hx. unfold trees_ok in H. rewrite Forall_forall in H. auto. }
  induction ls as [|l ls IH]; intros acc stk ts Hl Ha Hs H; cbn [build] in H.
  - destruct stk; [injection H as <-; apply R, Ha | discriminate].
  - inversion Hl as [|? ? Hl1 Hl2]; subst. destruct l as [s|s|c j|d|d].
    + apply (IH (TId s :: acc) stk ts Hl2); [constructor; [exact Hl1 | exact Ha] | exact Hs | exact H].
    + apply (IH (TLit s :: acc) stk ts Hl2); [constructor; [exact Logic.I | exact Ha] | exact Hs | exact H].
    + apply (IH (TP c j :: acc) stk ts Hl2); [constructor; [exact Logic.I | exact Ha] | exact Hs | exact H].
    + apply (IH [] ((d, acc) :: stk) ts Hl2); [constructor | constructor; [exact Ha | exact Hs] | exact H].
    + destruct stk as [|[d' acc'] stk]; [discriminate|]. destruct (delim_eqb d d'); [|discriminate].
      inversion Hs as [|? ? Hs1 Hs2]; subst. cbn [snd] in Hs1.
      apply (IH (TG d (rev acc) :: acc') stk ts Hl2); [constructor; [apply group_trees, R, Ha | exact Hs1] | exact Hs2 | exact H].
Qed.
Lemma tokenize_ok s ts : tokenize s = Ok ts -> trees_ok ts.
Proof.
  unfold tokenize. intros H. apply bind_ok in H. destruct H as (ls & H1 & H2).
  eapply build_ok; [eapply lx_ok; [|exact H1]; reflexivity | constructor | constructor | exact H2].
Qed.

Definition keeps {A} (p : pars A) (Q : A -> Prop) : Prop :=
  forall ts a r, trees_ok ts -> p ts = Ok (a, r) -> Q a /\ trees_ok r.
Definition any {A} (_ : A) : Prop := True.

Lemma keeps_weak {A} (p : pars A) (Q Q' : A -> Prop) : keeps p Q -> (forall a, Q a -> Q' a) -> keeps p Q'.
Proof. intros H HQ ts a r Hts E. destruct (H ts a r Hts E). split; auto. Qed.
Lemma keeps_ret {A} (a : A) (Q : A -> Prop) : Q a -> keeps (p_ret a) Q.
Proof. intros HQ ts b r Hts E. injection E as <- <-. auto. Qed.
Lemma keeps_alt {A} (p q : pars A) Q : keeps p Q -> keeps q Q -> keeps (p_alt p q) Q.
Proof.
  intros Hp Hq ts a r Hts E. unfold p_alt in E. destruct (p ts) as [[b s]| | |] eqn:Ep; try discriminate.
  - injection E as <- <-. eapply Hp; eassumption.
  - eapply Hq; eassumption.
Qed.
Lemma keeps_seq {A B} (p : pars A) (q : A -> pars B) (Q : A -> Prop) (Q' : B -> Prop) :
  keeps p Q -> (forall a, Q a -> keeps (q a) Q') -> keeps (p_seq p q) Q'.
Proof.
  intros Hp Hq ts b r Hts E. unfold p_seq in E. apply bind_ok in E. destruct E as ([a s] & E1 & E2).
  destruct (Hp ts a s Hts E1) as [HQ Hs]. eapply Hq; eassumption.
Qed.
Lemma keeps_opt {A} (p : pars A) Q : keeps p Q -> keeps (p_opt p) (fun o => match o with Some a => Q a | None => True end).
Proof.
  intros Hp ts o r Hts E. unfold p_opt in E. destruct (p ts) as [[b s]| | |] eqn:Ep; try discriminate.
  - injection E as <- <-. eapply Hp; eassumption.
  - injection E as <- <-. auto.
Qed.
Lemma keeps_punct c : keeps (p_punct c) any.
Proof.
  intros ts a r Hts E. unfold p_punct in E. destruct ts as [|[] ts]; try discriminate. destruct (N.eqb c c0); [|discriminate].
  injection E as <- <-. inversion Hts; subst. split; [exact Logic.I | assumption].
Qed.
Lemma keeps_joint c : keeps (p_joint c) any.
Proof.
  intros ts a r Hts E. unfold p_joint in E. destruct ts as [|[| |c0 []|] ts]; try discriminate. destruct (N.eqb c c0); [|discriminate].
  injection E as <- <-. inversion Hts; subst. split; [exact Logic.I | assumption].
Qed.
Lemma keeps_kw k : keeps (p_kw k) any.
Proof.
  intros ts a r Hts E. unfold p_kw in E. destruct ts as [|[] ts]; try discriminate. destruct (str_eqb k s); [|discriminate].
  injection E as <- <-. inversion Hts; subst. split; [exact Logic.I | assumption].
Qed.
Lemma keeps_ident : keeps p_ident ident.
Proof.
  intros ts a r Hts E. unfold p_ident in E. destruct ts as [|[] ts]; try discriminate.
  injection E as <- <-. inversion Hts; subst. split; assumption.
Qed.
Lemma keeps_usize : keeps p_usize in_u64.
Proof.
  intros ts a r Hts E. unfold p_usize in E. destruct ts as [|[] ts]; try discriminate.
  destruct (parse_u64 s) as [z|] eqn:Ez; [|discriminate]. injection E as <- <-. inversion Hts; subst. split; [|assumption].
  unfold parse_u64 in Ez. set (ds := match s with [] => s | c :: r => if N.eqb c 43 then r else s end) in Ez.
  destruct ds as [|c ds']; [discriminate|]. destruct (forallb is_digit (c :: ds')) eqn:Ed; [|discriminate].
  rewrite parse_acc_spec in Ez; [|lia | unfold u64_max; lia | apply forallb_digit_hex, Ed].
  cbv zeta in Ez.
  pose proof (fold_value_ge 10 (c :: ds') 0 ltac:(lia) ltac:(lia) (forallb_digit_hex _ Ed)) as Hge.
  match type of Hge with (_ <= ?v)%Z => set (val := v) in * end. clearbody val.
  destruct (val <=? u64_max)%Z eqn:El; [|discriminate]. injection Ez as <-.
  unfold in_u64, two64. unfold u64_max in El. lia.
Qed.
Lemma keeps_group {A} d (p : pars A) Q : keeps p Q -> keeps (p_group d p) Q.
Proof.
  intros Hp ts a r Hts E. unfold p_group in E. destruct ts as [|[| | |d' inner] ts]; try discriminate.
  destruct (delim_eqb d d'); [|discriminate]. apply bind_ok in E. destruct E as ([b s] & E1 & E2).
  destruct s; [|discriminate]. injection E2 as <- <-. inversion Hts as [|? ? Hg Hr]; subst.
  split; [|exact Hr]. apply group_trees in Hg. destruct (Hp inner b [] Hg E1). assumption.
Qed.
Lemma keeps_delimited {A} (p : pars A) d Q : keeps p Q -> keeps d any -> keeps (p_delimited p d) (Forall Q).
Proof.
  intros Hp Hd ts l r. unfold p_delimited. generalize (S (length ts)). intros n. revert ts l r.
  induction n as [|n IH]; intros ts l r Hts E; [discriminate|]. cbn [p_delimited_n] in E.
  destruct (p ts) as [[a s]| | |] eqn:Ep; try discriminate.
  - destruct (Hp ts a s Hts Ep) as [HQ Hs]. destruct (d s) as [[u s2]| | |] eqn:Ed; try discriminate.
    + destruct (Hd s u s2 Hs Ed) as [_ Hs2]. apply bind_ok in E. destruct E as ([l' s3] & E1 & E2). injection E2 as <- <-.
      destruct (IH s2 l' s3 Hs2 E1). split; [constructor; assumption | assumption].
    + injection E as <- <-. split; [constructor; [exact HQ | constructor] | exact Hs].
  - injection E as <- <-. split; [constructor | exact Hts].
Qed.
Lemma keeps_many {A} (p : pars A) Q : keeps p Q -> keeps (p_many p) (Forall Q).
Proof.
  intros Hp ts l r. unfold p_many. generalize (S (length ts)). intros n. revert ts l r.
  induction n as [|n IH]; intros ts l r Hts E; [discriminate|]. cbn [p_many_n] in E.
  destruct (p ts) as [[a s]| | |] eqn:Ep; try discriminate.
  - destruct (Hp ts a s Hts Ep) as [HQ Hs]. apply bind_ok in E. destruct E as ([l' s3] & E1 & E2). injection E2 as <- <-.
    destruct (IH s l' s3 Hs E1). split; [constructor; assumption | assumption].
  - injection E as <- <-. split; [constructor | exact Hts].
Qed.
Lemma keeps_angle n : keeps (p_angle n) any.
Proof.
  induction n as [|n IH]; intros ts a r Hts E; [discriminate|]. cbn [p_angle] in E. revert ts a r Hts E.
  apply (keeps_seq _ _ any); [apply keeps_punct|]. intros _ _.
  apply (keeps_seq _ _ (Forall any)).
  - apply keeps_many, keeps_alt; [|exact IH]. intros ts a r Hts E. destruct ts as [|t ts]; [discriminate|].
    inversion Hts; subst. destruct t; try (injection E as <- <-; split; [exact Logic.I | assumption]).
    destruct (_ || _); [discriminate|]. injection E as <- <-. split; [exact Logic.I | assumption].
  - intros l _. apply (keeps_seq _ _ any); [apply keeps_punct|]. intros. apply keeps_ret. exact Logic.I.
Qed.

Lemma sound_mk t : sound1 t -> (forall u, In u (kids t) -> sound u) -> sound t.
Proof. intros H1 H2 u Hu. inversion Hu; subst; [exact H1 | eapply H2; eassumption]. Qed.

Section SoundStep.
Variable n : nat.
Hypothesis IH : keeps (p_type n) sound.

Definition seg_sound (s : seg) : Prop :=
  match s with SSeg id _ _ => ident id | _ => True end /\ forall u, In u (seg_kids s) -> sound u.
Lemma keeps_gargs : keeps (p_gargs (p_type n) n) (fun g => match g with GParsed l => Forall sound l | _ => True end).
Proof.
  unfold p_gargs. apply keeps_alt.
  - apply (keeps_seq _ _ any); [apply keeps_punct|]. intros _ _.
    apply (keeps_seq _ _ (Forall sound)); [apply keeps_delimited; [exact IH | apply keeps_punct]|]. intros l Hl.
    apply (keeps_seq _ _ any); [apply keeps_punct|]. intros. apply keeps_ret. exact Hl.
  - apply (keeps_seq _ _ any); [apply keeps_angle|]. intros. apply keeps_ret. exact Logic.I.
Qed.
Lemma keeps_segment : keeps (p_path_segment (p_type n) n) seg_sound.
Proof.
  unfold p_path_segment. apply keeps_alt; [|apply keeps_alt; [|apply keeps_alt]].
  - unfold p_segment. apply (keeps_seq _ _ ident); [apply keeps_ident|]. intros id Hid.
    eapply keeps_seq; [apply keeps_opt, keeps_gargs|]. cbv beta. intros g Hg.
    eapply (keeps_seq _ _ any).
    + eapply keeps_weak; [apply (keeps_opt _ any); unfold p_shim; repeat apply keeps_group|intros; exact Logic.I].
      apply (keeps_seq _ _ any); [apply keeps_kw|]. intros. apply (keeps_seq _ _ any); [apply keeps_punct|]. intros. apply keeps_kw.
    + intros s _. apply keeps_ret. split; [exact Hid|]. cbn [seg_kids]. destruct g as [[l|]|]; try (intros u []).
      intros u Hu. rewrite Forall_forall in Hg. apply Hg, Hu.
  - apply (keeps_seq _ _ any); [apply keeps_angle|]. intros. apply keeps_ret. split; [exact Logic.I | intros u []].
  - apply (keeps_seq _ _ any); [apply keeps_group, keeps_kw|]. intros. apply keeps_ret. split; [exact Logic.I | intros u []].
  - eapply (keeps_seq _ _ in_u64).
    + apply keeps_group. apply (keeps_seq _ _ any); [apply keeps_kw|]. intros. apply (keeps_seq _ _ any); [apply keeps_punct|].
      intros. apply keeps_usize.
    + intros. apply keeps_ret. split; [exact Logic.I | intros u []].
Qed.
Lemma keeps_path : keeps (p_path (p_type n) n) sound.
Proof.
  unfold p_path. eapply keeps_seq; [apply keeps_delimited; [apply keeps_segment|]|].
  - unfold p_pathsep. apply (keeps_seq _ _ any); [apply keeps_joint|]. intros. apply keeps_punct.
  - intros l Hl. apply keeps_ret. rewrite Forall_forall in Hl. apply sound_mk.
    + cbn [sound1]. apply Forall_forall. intros s Hs. apply Hl, Hs.
    + intros u Hu. cbn [kids] in Hu. apply in_flat_map in Hu. destruct Hu as (s & Hs & Hu). apply (Hl s Hs), Hu.
Qed.
Ltac one := let u := fresh in let H := fresh in intros u H; cbn in H; destruct H as [<- | []]; assumption.

Lemma keeps_type_comma : keeps (p_type_comma (p_type n)) sound.
Proof.
  apply (keeps_seq _ _ sound); [exact IH|]. intros t Ht. apply (keeps_seq _ _ any); [apply keeps_punct|]. intros. apply keeps_ret, Ht.
Qed.
Lemma keeps_type_opt_comma : keeps (p_type_opt_comma (p_type n)) sound.
Proof.
  apply (keeps_seq _ _ sound); [exact IH|]. intros t Ht. eapply keeps_seq; [apply keeps_opt, keeps_punct|]. intros. apply keeps_ret, Ht.
Qed.
Lemma tuple_sound l : Forall sound l -> sound (YTuple l).
Proof. intros H. apply sound_mk; [exact Logic.I|]. cbn [kids]. rewrite Forall_forall in H. exact H. Qed.

(** The parser reads a path starting with an identifier only where that identifier stands. *)
Lemma path_head m ts id g b l r : p_type m ts = Ok (YPath (SSeg id g b :: l), r) -> exists us, ts = TId id :: us.
Proof.
  destruct m as [|m]; [discriminate|]. rewrite p_type_unfold. unfold p_type_step.
  assert (Alt : forall (p q : pars ty) ts, p_alt p q ts = Ok (YPath (SSeg id g b :: l), r) ->
      (exists u, p ts = Ok (u, r) /\ u = YPath (SSeg id g b :: l)) \/ q ts = Ok (YPath (SSeg id g b :: l), r)).
  { intros p q us H. unfold p_alt in H. destruct (p us) as [[u s]| | |]; try discriminate; [|right; exact H].
    injection H as -> ->. left. eauto. }
  assert (Seq : forall A (p : pars A) (f : A -> pars ty) us u s, p_seq p f us = Ok (u, s) -> exists a us', p us = Ok (a, us') /\ f a us' = Ok (u, s)).
  { intros A p f us u s H. unfold p_seq in H. apply bind_ok in H. destruct H as ([a us'] & H1 & H2). eauto. }
  intros H.
  apply Alt in H. destruct H as [(u & H & ->)|H].
  { unfold p_slice in H. repeat (apply Seq in H; destruct H as (? & ? & _ & H)). discriminate H. }
  apply Alt in H. destruct H as [(u & H & ->)|H].
  { unfold p_strslice in H. repeat (apply Seq in H; destruct H as (? & ? & _ & H)). discriminate H. }
  apply Alt in H. destruct H as [(u & H & ->)|H].
  { unfold p_ref in H. repeat (apply Seq in H; destruct H as (? & ? & _ & H)). discriminate H. }
  apply Alt in H. destruct H as [(u & H & ->)|H].
  { repeat (apply Seq in H; destruct H as (? & ? & _ & H)). discriminate H. }
  assert (Grp : forall A d (p : pars A) us a s, p_group d p us = Ok (a, s) -> exists inner, p inner = Ok (a, [])).
  { intros A d p us a s Hg. unfold p_group in Hg. destruct us as [|[| | |d' inner] us]; try discriminate.
    destruct (delim_eqb d d'); [|discriminate]. apply bind_ok in Hg. destruct Hg as ([a' s'] & E1 & E2).
    destruct s'; [|discriminate]. injection E2 as <- <-. eauto. }
  apply Alt in H. destruct H as [(u & H & ->)|H].
  { unfold p_array in H. apply Grp in H. destruct H as (inner & H). repeat (apply Seq in H; destruct H as (? & ? & _ & H)). discriminate H. }
  apply Alt in H. destruct H as [(u & H & ->)|H].
  { unfold p_fn in H. repeat (apply Seq in H; destruct H as (? & ? & _ & H)). discriminate H. }
  apply Alt in H. destruct H as [(u & H & ->)|H].
  { unfold p_dyn in H. repeat (apply Seq in H; destruct H as (? & ? & _ & H)). discriminate H. }
  apply Alt in H. destruct H as [(u & H & ->)|H].
  { unfold p_tuple in H. apply Alt in H. destruct H as [(u & H & ->)|H]; [apply Grp in H; destruct H as (inner & H); discriminate H|].
    apply Alt in H. destruct H as [(u & H & ->)|H]; apply Grp in H; destruct H as (inner & H);
      repeat (apply Seq in H; destruct H as (? & ? & _ & H)); discriminate H. }
  apply Alt in H. destruct H as [(u & H & ->)|H].
  { unfold p_ptr in H. repeat (apply Seq in H; destruct H as (? & ? & _ & H)). discriminate H. }
  unfold p_path in H. apply Seq in H. destruct H as (segs & us & Hd & E). injection E as -> ->.
  unfold p_delimited in Hd. cbn [p_delimited_n] in Hd.
  destruct (p_path_segment (p_type m) m ts) as [[s0 us]| | |] eqn:Es; try discriminate.
  assert (s0 = SSeg id g b).
  { destruct (p_pathsep us) as [[u us2]| | |]; try discriminate.
    - apply bind_ok in Hd. destruct Hd as ([l' us3] & _ & E). injection E as -> _ _. reflexivity.
    - injection Hd as -> _ _. reflexivity. }
  subst s0. unfold p_path_segment in Es. unfold p_alt at 1 in Es.
  destruct (p_segment (p_type m) m ts) as [[s1 us1]| | |] eqn:E1; try discriminate.
  - injection Es as -> ->. unfold p_segment in E1. unfold p_seq at 1 in E1. apply bind_ok in E1. destruct E1 as ([id' us2] & E2 & E3).
    unfold p_ident in E2. destruct ts as [|[] ts]; try discriminate. injection E2 as <- <-.
    unfold p_seq in E3. apply bind_ok in E3. destruct E3 as ([g' us3] & _ & E3). apply bind_ok in E3. destruct E3 as ([s' us4] & _ & E3).
    injection E3 as -> _ _ _. eauto.
  - exfalso. unfold p_alt, p_seq in Es.
    destruct (p_angle m ts) as [[x1 x2]| | |]; cbn [bind] in Es; try discriminate.
    destruct (p_group Brace (p_kw (st "vtable_type")) ts) as [[y1 y2]| | |]; cbn [bind] in Es; try discriminate.
    match type of Es with bind ?q _ = _ => destruct q as [[z1 z2]| | |]; cbn [bind] in Es; try discriminate end.
Qed.

End SoundStep.

(** More fuel changes nothing but [Fuel]. *)
Definition ple {A} (p q : pars A) : Prop := forall ts, p ts <> Fuel -> q ts = p ts.
Lemma ple_refl {A} (p : pars A) : ple p p.
Proof. intros ts _. reflexivity. Qed.
Lemma ple_alt {A} (p q p' q' : pars A) : ple p p' -> ple q q' -> ple (p_alt p q) (p_alt p' q').
Proof.
  intros H1 H2 ts N. unfold p_alt in *. specialize (H1 ts). destruct (p ts) as [x| | |]; try (rewrite H1 by discriminate; reflexivity).
  - rewrite H1 by discriminate. apply H2, N.
  - congruence.
Qed.
Lemma ple_seq {A B} (p p' : pars A) (f f' : A -> pars B) : ple p p' -> (forall a, ple (f a) (f' a)) -> ple (p_seq p f) (p_seq p' f').
Proof.
  intros H1 H2 ts N. unfold p_seq in *. specialize (H1 ts). destruct (p ts) as [[a s]| | |]; cbn [bind] in *; try (rewrite H1 by discriminate; reflexivity).
  - rewrite H1 by discriminate. cbn [bind]. apply H2, N.
  - congruence.
Qed.
Lemma ple_opt {A} (p p' : pars A) : ple p p' -> ple (p_opt p) (p_opt p').
Proof.
  intros H1 ts N. unfold p_opt in *. specialize (H1 ts). destruct (p ts) as [[a s]| | |]; try (rewrite H1 by discriminate; reflexivity). congruence.
Qed.
Lemma ple_group {A} d (p p' : pars A) : ple p p' -> ple (p_group d p) (p_group d p').
Proof.
  intros H1 ts N. unfold p_group in *. destruct ts as [|[| | |d' inner] ts]; try reflexivity. destruct (delim_eqb d d'); [|reflexivity].
  specialize (H1 inner). destruct (p inner) as [[a s]| | |]; cbn [bind] in *; try (rewrite H1 by discriminate; reflexivity). congruence.
Qed.
Lemma ple_delimited {A} (p p' : pars A) d : ple p p' -> ple (p_delimited p d) (p_delimited p' d).
Proof.
  intros H1 ts. unfold p_delimited. generalize (S (length ts)). intros n. revert ts. induction n as [|n IH]; intros ts N; [cbn in N; congruence|].
  cbn [p_delimited_n] in *. specialize (H1 ts). destruct (p ts) as [[a s]| | |]; try (rewrite H1 by discriminate; reflexivity); [|congruence].
  rewrite H1 by discriminate. destruct (d s) as [[u s2]| | |]; try reflexivity.
  specialize (IH s2). destruct (p_delimited_n n p d s2) as [[l s3]| | |]; cbn [bind] in *; try (rewrite IH by discriminate; reflexivity). congruence.
Qed.
Lemma ple_many {A} (p p' : pars A) : ple p p' -> ple (p_many p) (p_many p').
Proof.
  intros H1 ts. unfold p_many. generalize (S (length ts)). intros n. revert ts. induction n as [|n IH]; intros ts N; [cbn in N; congruence|].
  cbn [p_many_n] in *. specialize (H1 ts). destruct (p ts) as [[a s]| | |]; try (rewrite H1 by discriminate; reflexivity); [|congruence].
  rewrite H1 by discriminate.
  specialize (IH s). destruct (p_many_n n p s) as [[l s3]| | |]; cbn [bind] in *; try (rewrite IH by discriminate; reflexivity). congruence.
Qed.
Lemma ple_angle n : ple (p_angle n) (p_angle (S n)).
Proof.
  induction n as [|n IH]; [intros ts N; cbn in N; congruence|]. intros ts. change (p_angle (S n) ts <> Fuel -> p_angle (S (S n)) ts = p_angle (S n) ts).
  assert (G : ple (p_angle (S n)) (p_angle (S (S n)))); [|apply G].
  clear ts. intros ts. cbn [p_angle]. revert ts. apply ple_seq; [apply ple_refl|]. intros _.
  apply ple_seq; [|intros; apply ple_refl]. apply ple_many, ple_alt; [apply ple_refl | exact IH].
Qed.
Lemma ple_step p p' n : ple p p' -> ple (p_type_step p n) (p_type_step p' (S n)).
Proof.
  intros H. unfold p_type_step.
  assert (Hang := ple_angle n).
  assert (HD : forall c, ple (p_delimited p (p_punct c)) (p_delimited p' (p_punct c))) by (intros; apply ple_delimited, H).
  assert (HC : ple (p_type_comma p) (p_type_comma p')) by (apply ple_seq; [exact H | intros; apply ple_refl]).
  assert (HO : ple (p_type_opt_comma p) (p_type_opt_comma p')) by (apply ple_seq; [exact H | intros; apply ple_refl]).
  apply ple_alt. { apply ple_seq; [apply ple_refl|]. intros. apply ple_seq; [apply ple_group, H | intros; apply ple_refl]. }
  apply ple_alt; [apply ple_refl|].
  apply ple_alt. { apply ple_seq; [apply ple_refl|]. intros. apply ple_seq; [apply ple_refl|]. intros. apply ple_seq; [exact H | intros; apply ple_refl]. }
  apply ple_alt; [apply ple_refl|].
  apply ple_alt. { apply ple_group, ple_seq; [exact H|]. intros. apply ple_seq; [|intros; apply ple_refl]. apply ple_opt, ple_seq; [apply ple_refl|].
    intros. apply ple_alt; [apply ple_refl|]. apply ple_seq; [exact H | intros; apply ple_refl]. }
  apply ple_alt. { apply ple_seq; [apply ple_refl|]. intros. apply ple_seq; [apply ple_refl|]. intros. apply ple_seq; [apply ple_group, HD|].
    intros. apply ple_seq; [|intros; apply ple_refl]. apply ple_opt, ple_seq; [apply ple_refl|]. intros. apply ple_seq; [apply ple_refl | intros; exact H]. }
  apply ple_alt. { apply ple_seq; [apply ple_refl|]. intros. apply ple_seq; [apply HD | intros; apply ple_refl]. }
  apply ple_alt.
  { apply ple_alt; [apply ple_refl|]. apply ple_alt; apply ple_group.
    - apply ple_seq; [exact HO | intros; apply ple_refl].
    - apply ple_seq; [|intros; apply ple_seq; [exact HO | intros; apply ple_refl]].
      intros ts N. pose proof (ple_many _ _ HC ts) as Hm. destruct (p_many (p_type_comma p) ts) as [[l s]| | |]; cbn [bind] in *;
        try (rewrite Hm by discriminate; reflexivity). congruence. }
  apply ple_alt. { apply ple_seq; [apply ple_refl|]. intros. apply ple_seq; [apply ple_refl|]. intros. apply ple_seq; [exact H | intros; apply ple_refl]. }
  unfold p_path. apply ple_seq; [|intros; apply ple_refl]. apply ple_delimited. unfold p_path_segment.
  assert (HG : ple (p_gargs p n) (p_gargs p' (S n))).
  { apply ple_alt; [apply ple_seq; [apply ple_refl|]; intros; apply ple_seq; [apply HD | intros; apply ple_refl]|].
    apply ple_seq; [exact Hang | intros; apply ple_refl]. }
  apply ple_alt. { apply ple_seq; [apply ple_refl|]. intros. apply ple_seq; [apply ple_opt, HG | intros; apply ple_refl]. }
  apply ple_alt; [apply ple_seq; [exact Hang | intros; apply ple_refl] | apply ple_refl].
Qed.
Lemma p_type_mono n ts : p_type n ts <> Fuel -> p_type (S n) ts = p_type n ts.
Proof.
  revert ts. change (ple (p_type n) (p_type (S n))). induction n as [|n IH]; [intros ts N; cbn in N; congruence|].
  intros ts. rewrite !p_type_unfold. apply ple_step, IH.
Qed.

Section SoundStep2.
Variable n : nat.
Hypothesis IH : keeps (p_type n) sound.
Ltac one := let u := fresh in let H := fresh in intros u H; cbn in H; destruct H as [<- | []]; assumption.

Lemma alt_inv {A} (p q : pars A) ts a r : p_alt p q ts = Ok (a, r) -> p ts = Ok (a, r) \/ ((exists e, p ts = Err e) /\ q ts = Ok (a, r)).
Proof. unfold p_alt. destruct (p ts) as [x| | |] eqn:E; intros H; try discriminate; [left; exact H | right; eauto]. Qed.
Lemma seq_inv {A B} (p : pars A) (f : A -> pars B) ts b r : p_seq p f ts = Ok (b, r) -> exists a us, p ts = Ok (a, us) /\ f a us = Ok (b, r).
Proof. unfold p_seq. intros H. apply bind_ok in H. destruct H as ([a us] & H1 & H2). eauto. Qed.
Lemma group_inv {A} d (p : pars A) ts a r : p_group d p ts = Ok (a, r) -> exists inner, ts = TG d inner :: r /\ p inner = Ok (a, []).
Proof.
  unfold p_group. destruct ts as [|[| | |d' inner] ts]; try discriminate.
  destruct (delim_eqb d d') eqn:Ed; [|discriminate]. intros Hg. apply bind_ok in Hg. destruct Hg as ([a' s'] & E1 & E2).
  destruct s'; [|discriminate]. injection E2 as <- <-. exists inner. split; [|exact E1].
  destruct d, d'; try discriminate Ed; reflexivity.
Qed.
Ltac no_array H := repeat (apply seq_inv in H; destruct H as (? & ? & _ & H)); discriminate H.
Lemma array_head m ts t r : p_type m ts = Ok (YArray t None, r) -> exists us, ts = TG Brack us :: r /\ p_type m us = Ok (t, []).
Proof.
  destruct m as [|m]; [discriminate|]. rewrite p_type_unfold. unfold p_type_step. intros H.
  apply alt_inv in H. destruct H as [H|[_ H]]; [unfold p_slice in H; no_array H|].
  apply alt_inv in H. destruct H as [H|[_ H]]; [unfold p_strslice in H; no_array H|].
  apply alt_inv in H. destruct H as [H|[_ H]]; [unfold p_ref in H; no_array H|].
  apply alt_inv in H. destruct H as [H|[_ H]]; [no_array H|].
  apply alt_inv in H. destruct H as [H|[_ H]].
  { unfold p_array in H. apply group_inv in H. destruct H as (inner & -> & H).
    apply seq_inv in H. destruct H as (t0 & us & Ht & H). apply seq_inv in H. destruct H as (k & us' & Hk & H). injection H as -> -> ->.
    exists inner. split; [reflexivity|].
    unfold p_opt in Hk.
    match type of Hk with match ?q with _ => _ end = _ => destruct q as [[z1 z2]| | |] eqn:Eq; try discriminate end.
    injection Hk as ->. rewrite p_type_mono; [exact Ht | rewrite Ht; discriminate]. }
  apply alt_inv in H. destruct H as [H|[_ H]]; [unfold p_fn in H; no_array H|].
  apply alt_inv in H. destruct H as [H|[_ H]]; [unfold p_dyn in H; no_array H|].
  apply alt_inv in H. destruct H as [H|[_ H]].
  { unfold p_tuple in H. apply alt_inv in H. destruct H as [H|[_ H]]; [apply group_inv in H; destruct H as (inner & _ & H); discriminate H|].
    apply alt_inv in H. destruct H as [H|[_ H]]; apply group_inv in H; destruct H as (inner & _ & H); no_array H. }
  apply alt_inv in H. destruct H as [H|[_ H]]; [unfold p_ptr in H; no_array H|].
  unfold p_path in H. no_array H.
Qed.

Lemma keeps_step : keeps (p_type_step (p_type n) n) sound.
Proof.
  intros ts t r Hts H. unfold p_type_step in H.
  apply alt_inv in H. destruct H as [H|[[e1 N1] H]].
  { revert ts t r Hts H. unfold p_slice. apply (keeps_seq _ _ any); [apply keeps_punct|]. intros _ _.
    apply (keeps_seq _ _ sound); [apply keeps_group, IH|]. intros u Hu. apply keeps_ret. apply sound_mk; [exact Logic.I | one]. }
  apply alt_inv in H. destruct H as [H|[[e2 N2] H]].
  { revert ts t r Hts N1 H. intros ts t r Hts _. revert ts t r Hts. unfold p_strslice. apply (keeps_seq _ _ any); [apply keeps_punct|]. intros _ _.
    apply (keeps_seq _ _ any); [apply keeps_kw|]. intros. apply keeps_ret. apply sound_mk; [exact Logic.I | intros u []]. }
  apply alt_inv in H. destruct H as [H|[_ H]].
  { unfold p_ref in H. apply seq_inv in H. destruct H as ([] & us & Ha & H). apply seq_inv in H. destruct H as (m & us2 & Hm & H).
    apply seq_inv in H. destruct H as (t0 & r0 & Ht & H). injection H as <- <-.
    destruct (keeps_punct _ ts tt us Hts Ha) as [_ Hus]. destruct (keeps_opt _ _ (keeps_kw (st "mut")) us m us2 Hus Hm) as [_ Hus2].
    destruct (IH us2 t0 r0 Hus2 Ht) as [Hst Hr]. split; [|exact Hr]. apply sound_mk; [|one].
    cbn [sound1]. destruct m as [[]|]; [left; reflexivity|]. right.
    unfold p_opt in Hm. destruct (p_kw (st "mut") us) as [[u us3]| | |] eqn:Em; try discriminate. injection Hm as <-.
    destruct t0 as [ | | | |t1 k| | | | |segs]; try exact Logic.I.
    - destruct k; [exact Logic.I|]. exfalso. destruct (array_head n us t1 r0 Ht) as (inner & -> & Hi).
      unfold p_slice in N1. rewrite (seq_ok _ _ _ tt (TG Brack inner :: r0)) in N1 by exact Ha.
      rewrite (seq_ok _ _ _ t1 r0) in N1 by (apply group_ok, Hi). discriminate N1.
    - destruct segs as [|[id g b| | |] l]; try exact Logic.I. intros ->.
      destruct (path_head n us _ g b l r0 Ht) as (us4 & ->).
      unfold p_strslice in N2. rewrite (seq_ok _ _ _ tt (TId (st "str") :: us4)) in N2 by exact Ha. discriminate N2. }
  clear N1 N2.
  apply alt_inv in H. destruct H as [H|[_ H]].
  { revert ts t r Hts H. apply (keeps_seq _ _ any); [apply keeps_punct|]. intros. apply keeps_ret. apply sound_mk; [exact Logic.I | intros u []]. }
  apply alt_inv in H. destruct H as [H|[_ H]].
  { revert ts t r Hts H. unfold p_array. apply keeps_group. apply (keeps_seq _ _ sound); [exact IH|]. intros t Ht.
    eapply keeps_seq; [apply keeps_opt|].
    - apply (keeps_seq _ _ any); [apply keeps_punct|]. intros _ _. unfold p_asize.
      apply (keeps_alt _ _ (fun k => match k with AFixed n => in_u64 n | ADyn u => sound u end)).
      + apply (keeps_seq _ _ in_u64); [apply keeps_usize|]. intros k Hk. apply keeps_ret, Hk.
      + apply (keeps_seq _ _ sound); [exact IH|]. intros k Hk. apply keeps_ret, Hk.
    - cbv beta. intros k Hk. apply keeps_ret. apply sound_mk.
      + cbn [sound1]. destruct k as [[k|u]|]; [exact Hk | exact Logic.I | exact Logic.I].
      + destruct k as [[k|u]|]; cbn [kids].
        * one.
        * intros v [<- | [<- | []]]; assumption.
        * one. }
  apply alt_inv in H. destruct H as [H|[_ H]].
  { revert ts t r Hts H. unfold p_fn. apply (keeps_seq _ _ any).
    { eapply keeps_weak; [apply (keeps_opt _ any), keeps_kw | intros; exact Logic.I]. } intros u _.
    apply (keeps_seq _ _ any); [apply keeps_kw|]. intros _ _.
    apply (keeps_seq _ _ (Forall sound)); [apply keeps_group, keeps_delimited; [exact IH | apply keeps_punct]|]. intros args Ha.
    eapply keeps_seq; [apply (keeps_opt _ sound)|].
    - apply (keeps_seq _ _ any); [apply keeps_joint|]. intros. apply (keeps_seq _ _ any); [apply keeps_punct|]. intros. exact IH.
    - cbv beta. intros ret Hr. apply keeps_ret. apply sound_mk; [exact Logic.I|]. cbn [kids]. intros v Hv. apply in_app_or in Hv.
      rewrite Forall_forall in Ha. destruct Hv as [Hv|Hv]; [apply Ha, Hv|]. destruct ret; [destruct Hv as [<- | []]; exact Hr | destruct Hv]. }
  apply alt_inv in H. destruct H as [H|[_ H]].
  { revert ts t r Hts H. unfold p_dyn. apply (keeps_seq _ _ any); [apply keeps_kw|]. intros _ _.
    apply (keeps_seq _ _ (Forall sound)); [apply keeps_delimited; [exact IH | apply keeps_punct]|]. intros l Hl.
    apply keeps_ret. apply sound_mk; [exact Logic.I|]. cbn [kids]. rewrite Forall_forall in Hl. exact Hl. }
  apply alt_inv in H. destruct H as [H|[_ H]].
  { revert ts t r Hts H. unfold p_tuple. apply keeps_alt; [|apply keeps_alt]; apply keeps_group.
    - apply keeps_ret. apply tuple_sound. constructor.
    - apply (keeps_seq _ _ sound); [apply keeps_type_opt_comma, IH|]. intros t Ht. apply keeps_ret, tuple_sound.
      constructor; [exact Ht | constructor].
    - apply (keeps_seq _ _ (Forall sound)).
      + intros ts l r Hts E. apply bind_ok in E. destruct E as ([l' s'] & E1 & E2). destruct l'; [discriminate|]. injection E2 as <- <-.
        eapply keeps_many; [apply keeps_type_comma, IH | exact Hts | exact E1].
      + intros l Hl. apply (keeps_seq _ _ sound); [apply keeps_type_opt_comma, IH|]. intros t Ht. apply keeps_ret, tuple_sound.
        apply Forall_app. split; [exact Hl | constructor; [exact Ht | constructor]]. }
  apply alt_inv in H. destruct H as [H|[_ H]].
  { revert ts t r Hts H. unfold p_ptr. apply (keeps_seq _ _ any); [apply keeps_punct|]. intros _ _.
    apply (keeps_seq _ _ any).
    - apply keeps_alt; (apply (keeps_seq _ _ any); [apply keeps_kw | intros; apply keeps_ret; exact Logic.I]).
    - intros m _. apply (keeps_seq _ _ sound); [exact IH|]. intros u Hu. apply keeps_ret. apply sound_mk; [exact Logic.I | one]. }
  eapply keeps_path; eassumption.
Qed.
End SoundStep2.

Theorem p_type_sound n : keeps (p_type n) sound.
Proof. induction n as [|n IH]; [intros ts t r _ H; discriminate|]. intros ts t r Hts H. eapply keeps_step; eassumption. Qed.
Theorem parse_type_sound s t : parse_type s = Ok t -> sound t.
Proof.
  unfold parse_type. intros H. apply bind_ok in H. destruct H as (ts & H1 & H). apply bind_ok in H. destruct H as ([u r] & H2 & H3).
  destruct r; [|discriminate]. injection H3 as <-. eapply (p_type_sound _ ts u []); [eapply tokenize_ok, H1 | exact H2].
Qed.
