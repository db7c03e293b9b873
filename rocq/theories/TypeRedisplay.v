(** C53, the unparsed parts: a type name with numbers among its arguments, [<A as B>] or [{impl#0}] segments is read back from
    what is displayed for it. *)
From Coq Require Import Ascii String List ZArith NArith Lia Bool.
From Verif Require Import Base NumText TypesModel TypeTextModel TypeTextSpec TypeTextProofs TypeTextParse TypeTextLex TypeGrammar TypeGrammarProofs TypeGrammarProps.
Import ListNotations.
Open Scope Z_scope.

(** ** Token streams that come from a text; the last mark may be joint to what follows *)
Definition ended (ts : list tree) : Prop := forall a c, ts <> a ++ [TP c true].
Definition mark_first (ts : list tree) : Prop := exists c j r, ts = TP c j :: r.
Inductive lexed : list tree -> Prop :=
| le_nil : lexed []
| le_name w ts : name_word w -> lexed ts -> lexed (TId w :: ts)
| le_number w ts : number_word w -> lexed ts -> lexed (TLit w :: ts)
| le_mark c j ts : mark_char c -> (j = true -> ts = [] \/ mark_first ts) -> lexed ts -> lexed (TP c j :: ts)
| le_group d inner ts : lexed inner -> ended inner -> lexed ts -> lexed (TG d inner :: ts).
Lemma ended_nil : ended [].
Proof. intros a c E. destruct a; discriminate E. Qed.
Lemma ended_cons t ts : ended ts -> (forall c, t = TP c true -> ts <> []) -> ended (t :: ts).
Proof. intros E H a c Q. destruct a as [|x a]; cbn in Q; [injection Q as -> ->; exact (H c eq_refl eq_refl)|]. injection Q as -> ->. exact (E a c eq_refl). Qed.
Lemma ended_tail t ts : ended (t :: ts) -> ended ts.
Proof. intros E a c ->. apply (E (t :: a) c). reflexivity. Qed.
Lemma mark_spelled ts c s : spelled ts (c :: s) -> mark_char c -> mark_first ts.
Proof.
  intros H M. remember (c :: s) as k eqn:E. destruct H as [|b ts k B _|w ts k (x & w' & -> & _ & F) _ _|w ts k (x & w' & -> & D & _) _ _|b j ts k Mb J Hs|d inner a ts k Ha Hs].
  - discriminate E.
  - injection E as -> ->. destruct (mark_not c M) as [_ N]. apply blank_is in B. congruence.
  - cbn in E. injection E as -> _. inversion F; subst. destruct (mark_not c M) as [N _]. match goal with H : word_char c |- _ => apply word_char_is in H; congruence end.
  - cbn in E. injection E as -> _. destruct (mark_not c M) as [N _]. apply digit_is in D. unfold is_word in N. rewrite D in N. rewrite orb_true_r in N. discriminate N.
  - injection E as -> ->. exists c, j, ts. reflexivity.
  - injection E as E _. exfalso. subst c. apply mark_is in M. destruct d; discriminate M.
Qed.
Lemma spelled_lexed ts s : spelled ts s -> lexed ts /\ ended ts.
Proof.
  induction 1 as [|c ts s B _ IH|w ts s W E _ IH|w ts s W E _ IH|c j ts s M J Hs IH|d inner a ts s Ha [IHa IHe] Hs IHs].
  - split; [constructor | exact ended_nil].
  - exact IH.
  - destruct IH. split; [now constructor | apply ended_cons; [assumption | discriminate]].
  - destruct IH. split; [now constructor | apply ended_cons; [assumption | discriminate]].
  - destruct IH as [L En]. assert (Q : j = true -> mark_first ts).
    { intros Hj. destruct (proj1 J Hj) as (x & y & -> & Mx). exact (mark_spelled ts x y Hs Mx). }
    split; [constructor; [exact M | intros Hj; right; auto | exact L]|]. apply ended_cons; [exact En|]. intros c' E. injection E as _ Ej. destruct (Q Ej) as (x & y & z & ->). discriminate.
  - destruct IHs. split; [now constructor | apply ended_cons; [assumption | discriminate]].
Qed.
Lemma lexed_suffix a b : lexed (a ++ b) -> lexed b.
Proof. induction a as [|t a IH]; intros H; [exact H|]. apply IH. cbn [app] in H. inversion H; subst; assumption. Qed.
Lemma lexed_prefix a b : lexed (a ++ b) -> lexed a.
Proof.
  induction a as [|t a IH]; intros H; [constructor|]. cbn [app] in H. inversion H as [|w ts W L E1|w ts W L E1|c j ts M J L E1|d inner ts Li Ei L E1]; subst; try (constructor; auto; fail).
  constructor; [exact M | | auto]. intros Hj. destruct a as [|t' a]; [left; reflexivity|]. right. destruct (J Hj) as [Q | (x & y & z & Q)]; [discriminate Q|]. cbn in Q. injection Q as -> _. exists x, y, a. reflexivity.
Qed.
Lemma lexed_last a c j b : lexed (a ++ TP c j :: b) -> lexed (a ++ [TP c false]) /\ ended (a ++ [TP c false]).
Proof.
  intros H. split.
  - induction a as [|t a IH]; cbn [app] in *.
    + inversion H; subst. constructor; [assumption | discriminate | constructor].
    + inversion H as [|w ts W L E1|w ts W L E1|x y ts M J L E1|d inner ts Li Ei L E1]; subst; try (constructor; auto; fail).
      constructor; [exact M | | auto]. intros Hj. right. destruct a as [|t' a]; [exists c, false, []; reflexivity|]. destruct (J Hj) as [Q | (x' & y' & z & Q)]; [discriminate Q|]. cbn in Q. injection Q as -> _. exists x', y', (a ++ [TP c false]). reflexivity.
  - intros l x E. apply app_inj_tail in E. destruct E as [_ E]. discriminate E.
Qed.

(** ** The display of a token stream spells it *)
Lemma group_text ts : forall first joint,
  (fix go (ts : list tree) (first joint : bool) : str :=
     match ts with [] => [] | t :: ts' => (if first || joint then [] else st " ") ++ tree_text t ++ go ts' false (match t with TP _ j => j | _ => false end) end) ts first joint
  = trees_text ts first joint.
Proof. induction ts as [|t ts IH]; intros first joint; [reflexivity|]. cbn -[tree_text app]. rewrite IH. reflexivity. Qed.
Lemma tree_text_group d ts : tree_text (TG d ts) = open_text d ++ trees_text ts true false ++ close_text d (match ts with [] => true | _ => false end).
Proof. rewrite <- group_text. reflexivity. Qed.
Lemma later_ends ts : word_ends (trees_text ts false false).
Proof. destruct ts as [|t ts]; [exact Logic.I|]. cbn. intros H. apply word_char_is in H. discriminate H. Qed.
Lemma later_not_joint ts : joint_to (trees_text ts false false) false.
Proof. apply not_joint. intros c s E M. destruct ts as [|t ts]; [discriminate E|]. cbn in E. injection E as <- _. apply mark_is in M. discriminate M. Qed.
Lemma opened d s : exists b, open_text d ++ s = opening d :: b ++ s /\ Forall blank b.
Proof. destruct d; [exists [] | exists [] | exists [32%N]]; (split; [reflexivity|]); repeat (apply Forall_cons; [exact blank_space|]); apply Forall_nil. Qed.
Lemma closed d e : exists b, close_text d e = b ++ [closing d] /\ (b = [] \/ b = [32%N]).
Proof. destruct d, e; cbn; [exists []|exists []|exists []|exists []|exists []|exists [32%N]]; (split; [reflexivity|]); auto. Qed.
Lemma blanks_before b ts s : Forall blank b -> spelled ts s -> spelled ts (b ++ s).
Proof. induction 1 as [|c b B _ IH]; intros H; [exact H|]. cbn [app]. apply sp_blank; [exact B | exact (IH H)]. Qed.
Lemma blank_after b ts s : b = [] \/ b = [32%N] -> spelled ts s -> spelled ts (s ++ b).
Proof.
  intros [-> | ->] H; [now rewrite app_nil_r|]. rewrite <- (app_nil_r ts). apply spelled_then; [exact H | apply sp_blank; [exact blank_space | apply sp_end] | split; reflexivity].
Qed.
Theorem tokens_spelled ts : lexed ts -> ended ts -> spelled ts (tokens_to_string ts).
Proof.
  unfold tokens_to_string. intros L. enough (G : forall f j, ended ts -> spelled ts (trees_text ts f j)) by (intros E; exact (G true false E)).
  induction L as [|w ts W L IH|w ts W L IH|c j ts M J L IH|d inner ts Li IHi Ei L IH]; intros f j0 E.
  - apply sp_end.
  - cbn [trees_text tree_text]. apply blanks_before; [destruct (f || j0); [apply Forall_nil | apply Forall_cons; [exact blank_space | apply Forall_nil]]|]. apply sp_name; [exact W | apply later_ends | apply IH, (ended_tail _ _ E)].
  - cbn [trees_text tree_text]. apply blanks_before; [destruct (f || j0); [apply Forall_nil | apply Forall_cons; [exact blank_space | apply Forall_nil]]|]. apply sp_number; [exact W | apply later_ends | apply IH, (ended_tail _ _ E)].
  - cbn [trees_text tree_text]. apply blanks_before; [destruct (f || j0); [apply Forall_nil | apply Forall_cons; [exact blank_space | apply Forall_nil]]|]. cbn [app]. apply sp_mark; [exact M | | apply IH, (ended_tail _ _ E)].
    destruct j; [|apply later_not_joint]. destruct (J eq_refl) as [-> | (x & y & z & ->)]; [contradiction (E [] c); reflexivity|]. cbn [trees_text tree_text orb app]. split; [|reflexivity]. intros _. exists x. eexists. split; [reflexivity|].
    inversion L; subst. assumption.
  - cbn [trees_text]. rewrite tree_text_group. apply blanks_before; [destruct (f || j0); [apply Forall_nil | apply Forall_cons; [exact blank_space | apply Forall_nil]]|].
    destruct (closed d (match inner with [] => true | _ => false end)) as (b2 & E2 & B2). rewrite E2. destruct (opened d (trees_text inner true false ++ (b2 ++ [closing d]))) as (b1 & E1 & B1). rewrite E1.
    replace ((opening d :: b1 ++ trees_text inner true false ++ b2 ++ [closing d]) ++ trees_text ts false false) with (opening d :: (b1 ++ trees_text inner true false ++ b2) ++ closing d :: trees_text ts false false) by (cbn [app]; rewrite <- !app_assoc; reflexivity).
    apply sp_group; [|apply IH, (ended_tail _ _ E)]. apply blanks_before; [exact B1|]. apply blank_after; [exact B2|]. apply IHi, Ei.
Qed.

(** ** The spacing of angle brackets is not kept, and does not matter *)
Definition unspaced (t : tree) : tree := match t with TP c j => if N.eqb c (ch "<") || N.eqb c (ch ">") then TP c false else TP c j | _ => t end.
Definition unspace := map unspaced.
Lemma unspace_app a b : unspace (a ++ b) = unspace a ++ unspace b.
Proof. apply map_app. Qed.
Lemma unspace_mark ts : mark_first ts -> mark_first (unspace ts).
Proof. intros (c & j & r & ->). unfold unspace. cbn [map unspaced]. destruct (_ || _); eexists _, _, _; reflexivity. Qed.
Lemma unspace_lexed ts : lexed ts -> lexed (unspace ts).
Proof.
  induction 1 as [|w ts W L IH|w ts W L IH|c j ts M J L IH|d inner ts Li IHi Ei L IH]; try (constructor; assumption).
  assert (G : forall j', (j' = true -> j = true) -> lexed (TP c j' :: unspace ts)).
  { intros j' H. constructor; [exact M | | exact IH]. intros Hj. destruct (J (H Hj)) as [-> | Q]; [left; reflexivity | right; now apply unspace_mark]. }
  unfold unspace. cbn [map unspaced]. destruct (_ || _); apply G; [discriminate | auto].
Qed.
Lemma angles_unspace o ts : angles o ts -> o = unspace ts /\ angles o o.
Proof.
  induction 1 as [|t o ts Ht _ [IH1 IH2]|j1 j2 o1 t1 o2 t2 _ [A1 B1] _ [A2 B2]].
  - split; [reflexivity | constructor].
  - split; [|now constructor]. unfold unspace. cbn [map]. f_equal; [|exact IH1]. destruct t as [w|w|c j|d l]; try reflexivity. destruct (Ht c j eq_refl) as [Q1 Q2]. unfold unspaced. apply N.eqb_neq in Q1, Q2. rewrite Q1, Q2. reflexivity.
  - split; [|now constructor]. change (TP (ch "<") j1 :: t1 ++ [TP (ch ">") j2] ++ t2) with ([TP (ch "<") j1] ++ t1 ++ [TP (ch ">") j2] ++ t2). rewrite !unspace_app, <- A1, <- A2. reflexivity.
Qed.
Lemma angles_unspace_r o ts : angles o ts -> angles o (unspace ts).
Proof. intros H. destruct (angles_unspace o ts H) as [<- H2]. exact H2. Qed.
Lemma separated_unspace {A} (R : A -> list tree -> Prop) (D : list tree -> Prop) l us : separated R D l us -> (forall ds, D ds -> D (unspace ds)) ->
  (forall a ts, R a ts -> (trees_size ts <= trees_size us)%nat -> R a (unspace ts)) -> separated R D l (unspace us).
Proof.
  induction 1 as [a ts Ha|a l ts ds us Ha Hd Hs IH]; intros HD HR; [apply se_one, HR; [exact Ha | lia]|]. rewrite !unspace_app. apply se_more; [apply HR; [exact Ha | rewrite !trees_size_app; lia] | apply HD, Hd|].
  apply IH; [exact HD|]. intros b vs Hb L. apply HR; [exact Hb | rewrite !trees_size_app; lia].
Qed.
Lemma by_mark_unspace c ds : by_mark c ds -> by_mark c (unspace ds).
Proof. intros (j & ->). unfold unspace. cbn [map unspaced]. destruct (_ || _); eexists; reflexivity. Qed.
Lemma by_colons_unspace ds : by_colons ds -> by_colons (unspace ds).
Proof. intros (j & ->). exists j. reflexivity. Qed.
Lemma shim_unspace b zs : reads_shim b zs -> unspace zs = zs.
Proof. intros []; reflexivity. Qed.
Lemma reads_unspace : forall n t ts, (trees_size ts <= n)%nat -> reads t ts -> reads t (unspace ts).
Proof.
  induction n as [|n IH]; intros t ts Hn H; [exfalso; pose proof (size_pos ts (reads_ne t ts H)); lia|].
  assert (Sep : forall c l us, separated reads (by_mark c) l us -> (trees_size us <= n)%nat -> separated reads (by_mark c) l (unspace us)).
  { intros c l us Hs Hu. apply separated_unspace; [exact Hs | apply by_mark_unspace|]. intros a ts' Ha L. apply IH; [lia | exact Ha]. }
  assert (Res : forall ret rs, reads_result ret rs -> (trees_size rs <= n)%nat -> reads_result ret (unspace rs)).
  { intros ret rs [|r ts' j Hr] Hu; [constructor|]. apply (R_arrow r (unspace ts') false). apply IH; [rewrite !trees_size_cons in Hu; cbn in Hu; lia | exact Hr]. }
  destruct H as [j|j|t ts j H|t ts j F H|t ts j H|t ts j H|t ts j H|t ts H|t ts j k w H Hw|t ts j u us H Hu|args us ret rs Ha Hr2|args us ret rs Ha Hr2|l us Fp Hl| |t ts j H|a a2 l us H|segs us H];
    try (constructor; assumption).
  - apply (R_ref t (unspace ts) j F). apply IH; [rewrite trees_size_cons in Hn; cbn in Hn; lia | exact H].
  - apply (R_refmut t (unspace ts) j). apply IH; [rewrite !trees_size_cons in Hn; cbn in Hn; lia | exact H].
  - apply (R_ptr t (unspace ts) j). apply IH; [rewrite !trees_size_cons in Hn; cbn in Hn; lia | exact H].
  - apply (R_ptrmut t (unspace ts) j). apply IH; [rewrite !trees_size_cons in Hn; cbn in Hn; lia | exact H].
  - apply (R_fn args us ret (unspace rs)); [exact Ha|]. apply Res; [exact Hr2|]. rewrite !trees_size_cons in Hn. cbn [tree_size] in Hn. lia.
  - apply (R_unsafe args us ret (unspace rs)); [exact Ha|]. apply Res; [exact Hr2|]. rewrite !trees_size_cons in Hn. cbn [tree_size] in Hn. lia.
  - apply (R_dyn l (unspace us)); [exact Fp|]. apply Sep; [exact Hl|]. rewrite trees_size_cons in Hn. cbn [tree_size] in Hn. lia.
  - apply R_path. apply separated_unspace; [exact H | apply by_colons_unspace|]. intros s vs Hs L.
    destruct Hs as [id shim zs Hk Hz|id args vs j1 j2 shim zs Hk Ha Hz|id vs w o ts j1 j2 shim zs Hk Hb Ho Hz|o ts j1 j2 Ha| |j w k Hw].
    + change (unspace (TId id :: zs)) with (TId id :: unspace zs). rewrite (shim_unspace shim zs Hz). constructor; assumption.
    + change (unspace (TId id :: TP (ch "<") j1 :: vs ++ [TP (ch ">") j2] ++ zs)) with (TId id :: TP (ch "<") false :: unspace (vs ++ [TP (ch ">") j2] ++ zs)). rewrite !unspace_app, (shim_unspace shim zs Hz). apply (S_args id args (unspace vs) false false); [exact Hk | | exact Hz].
      apply Sep; [exact Ha|]. rewrite !trees_size_cons, trees_size_app in L. cbn [tree_size] in L. lia.
    + change (unspace (TId id :: TP (ch "<") j1 :: (vs ++ TLit w :: ts) ++ [TP (ch ">") j2] ++ zs)) with (TId id :: TP (ch "<") false :: unspace ((vs ++ TLit w :: ts) ++ [TP (ch ">") j2] ++ zs)). rewrite (unspace_app (vs ++ TLit w :: ts)), (unspace_app [_]), (shim_unspace shim zs Hz).
      pose proof (angles_unspace_r _ _ Ho) as Ho2. rewrite unspace_app in Ho2 |- *. change (unspace (TLit w :: ts)) with (TLit w :: unspace ts) in *. apply (S_const id (unspace vs) w o (unspace ts) false false); [exact Hk | | exact Ho2 | exact Hz].
      destruct Hb as [|args vs j Hs]; [constructor|]. rewrite unspace_app. apply (B_next args (unspace vs) j). apply Sep; [exact Hs|]. rewrite !trees_size_cons, !trees_size_app in L. cbn [tree_size] in L. lia.
    + change (unspace (TP (ch "<") j1 :: ts ++ [TP (ch ">") j2])) with (TP (ch "<") false :: unspace (ts ++ [TP (ch ">") j2])). rewrite unspace_app. apply (S_qualified o (unspace ts) false false), angles_unspace_r, Ha.
    + exact S_vtable.
    + exact (S_impl j w k Hw).
Qed.

(** ** What is displayed for a type that was read from a text *)
(** Display drops [unsafe] and [{{vtable.shim}}], and writes raw pointers without the space after [const] or [mut]. *)
Definition faithful1 (t : ty) : Prop :=
  match t with
  | YPtr _ _ | YFn true _ _ => False
  | YPath segs => forall id g shim, In (SSeg id g shim) segs -> shim = false
  | _ => True
  end.
Definition faithful (t : ty) : Prop := forall u, sub u t -> faithful1 u.
Lemma faithful_kid t v : faithful t -> In v (kids t) -> faithful v.
Proof. intros F K u Hu. apply F. exact (sub_kid u t v K Hu). Qed.
Definition before {A} (R : A -> list tree -> Prop) (s : str) (a : A) : Prop :=
  forall us k, spelled us k -> word_ends k -> exists ts, spelled (ts ++ us) (s ++ k) /\ R a ts.
Lemma list_before {A} (R : A -> list tree -> Prop) (D : list tree -> Prop) sep :
  (forall us k, spelled us k -> exists ds, D ds /\ spelled (ds ++ us) (sep ++ k)) -> (forall k, word_ends (sep ++ k)) ->
  forall l ss, Forall2 (before R) ss l -> l <> [] -> before (separated R D) (Base.join sep ss) l.
Proof.
  intros HD HS l ss F. induction F as [|s a ss l B F IH]; intros Ne; [congruence|]. clear Ne. destruct F as [|s2 a2 ss l B2 F].
  - intros us k Hk A1. destruct (B us k Hk A1) as (ts & Sp & R1). exists ts. split; [exact Sp | apply se_one, R1].
  - intros us k Hk A1. destruct (IH ltac:(discriminate) us k Hk A1) as (vs & Sv & Rv). destruct (HD _ _ Sv) as (ds & Hd & Sd). destruct (B _ _ Sd (HS _)) as (ts & Sp & R1).
    exists (ts ++ ds ++ vs). split; [|apply se_more; assumption]. change (Base.join sep (s :: s2 :: ss)) with (s ++ sep ++ Base.join sep (s2 :: ss)). rewrite <- !app_assoc. exact Sp.
Qed.
Lemma comma_before us k : spelled us k -> exists ds, by_mark (ch ",") ds /\ spelled (ds ++ us) (st ", " ++ k).
Proof. intros H. exists [TP (ch ",") false]. split; [eexists; reflexivity|]. change (st ", " ++ k) with (ch "," :: 32%N :: k). apply sp_mark; [exact mark_comma | not_mark | apply sp_blank; [exact blank_space | exact H]]. Qed.
Lemma plus_before us k : spelled us k -> exists ds, by_mark (ch "+") ds /\ spelled (ds ++ us) (st " + " ++ k).
Proof. intros H. exists [TP (ch "+") false]. split; [eexists; reflexivity|]. change (st " + " ++ k) with (32%N :: ch "+" :: 32%N :: k). apply sp_blank; [exact blank_space|]. apply sp_mark; [apply mark_is; reflexivity | not_mark | apply sp_blank; [exact blank_space | exact H]]. Qed.
Lemma colons_before us k : spelled us k -> exists ds, by_colons ds /\ spelled (ds ++ us) (st "::" ++ k).
Proof.
  intros H. destruct (joint_any k) as (j & J). exists [TP (ch ":") true; TP (ch ":") j]. split; [eexists; reflexivity|]. change (st "::" ++ k) with (ch ":" :: ch ":" :: k).
  assert (M : mark_char (ch ":")) by (apply mark_is; reflexivity). apply sp_mark; [exact M | split; [intros _; eexists _, _; split; [reflexivity | exact M] | reflexivity]|]. apply sp_mark; [exact M | exact J | exact H].
Qed.
Ltac ends1 := let k := fresh in let H := fresh in intros k H; apply word_char_is in H; vm_compute in H; discriminate H.
Lemma before_of {A} (R : A -> list tree -> Prop) ts s a : spelled ts s -> R a ts -> (forall b, R a (with_last b ts)) -> before R s a.
Proof. intros Sp R1 R2 us k Hk A1. destruct (spelled_before ts s Sp us k Hk A1) as (ts' & S' & [-> | (b & ->)]); eauto. Qed.
Lemma writes_show t s : writes t s -> before reads s t.
Proof. intros W us k Hk A1. exact (writes_before t s W us k Hk A1). Qed.
Lemma before_alone {A} (R : A -> list tree -> Prop) s a : before R s a -> exists ts, spelled ts s /\ R a ts.
Proof. intros B. destruct (B [] [] sp_end Logic.I) as (ts & Sp & R1). rewrite !app_nil_r in Sp. eauto. Qed.
Lemma dec_read w n : parse_u64 w = Some n -> number_word (dec n) /\ parse_u64 (dec n) = Some n.
Proof.
  intros H. assert (N : 0 <= n <= u64_max).
  { unfold parse_u64 in H. set (ds := match w with [] => w | c :: r => if N.eqb c 43 then r else w end) in H. clearbody ds.
    destruct ds as [|c ds']; [discriminate|]. destruct (forallb is_digit (c :: ds')) eqn:Ed; [|discriminate].
    rewrite parse_acc_spec in H; [|lia | unfold u64_max; lia | apply forallb_digit_hex, Ed]. cbv zeta in H.
    pose proof (fold_value_ge 10 (c :: ds') 0 ltac:(lia) ltac:(lia) (forallb_digit_hex _ Ed)) as Hge.
    match type of Hge with (_ <= ?v)%Z => set (val := v) in * end. clearbody val.
    destruct (val <=? u64_max)%Z eqn:El; [|discriminate]. injection H as <-. lia. }
  split; [apply digits_number; lia|]. unfold dec. assert ((n <? 0) = false) as -> by lia. rewrite parse_u64_dec by lia. assert ((n <=? u64_max) = true) as -> by lia. reflexivity.
Qed.

Lemma separated_forall {A} (R : A -> list tree -> Prop) (D : list tree -> Prop) (P : A -> Prop) l us : separated R D l us ->
  (forall a ts x y, R a ts -> In a l -> us = x ++ ts ++ y -> P a) -> Forall P l.
Proof.
  induction 1 as [a ts Ha|a l ts ds us Ha Hd Hs IH]; intros H.
  - apply Forall_cons; [|apply Forall_nil]. apply (H a ts [] []); [exact Ha | left; reflexivity | now rewrite app_nil_r].
  - apply Forall_cons; [apply (H a ts [] (ds ++ us)); [exact Ha | left; reflexivity | reflexivity]|]. apply IH. intros b vs x y Hb Hi ->. apply (H b vs (ts ++ ds ++ x) y); [exact Hb | right; exact Hi | rewrite <- !app_assoc; reflexivity].
Qed.
Lemma Forall2_map_l {A B} (R : B -> A -> Prop) (f : A -> B) l : Forall (fun a => R (f a) a) l -> Forall2 R (map f l) l.
Proof. induction 1; constructor; assumption. Qed.
Lemma separated_nonempty {A} (R : A -> list tree -> Prop) D l us : separated R D l us -> l <> [].
Proof. intros H. destruct H; discriminate. Qed.
Lemma raw_before o ts j1 j2 post : angles o ts -> lexed (TP (ch "<") j1 :: ts ++ TP (ch ">") j2 :: post) ->
  forall us k, spelled us k -> word_ends k -> exists j, spelled ((TP (ch "<") false :: o ++ [TP (ch ">") j]) ++ us) (tokens_to_string (TP (ch "<") false :: o ++ [TP (ch ">") false]) ++ k).
Proof.
  intros An L us k Hk A1. destruct (angles_unspace o ts An) as [Eo _]. change (TP (ch "<") j1 :: ts ++ TP (ch ">") j2 :: post) with ((TP (ch "<") j1 :: ts) ++ TP (ch ">") j2 :: post) in L.
  apply unspace_lexed in L. rewrite unspace_app in L. change (unspace (TP (ch "<") j1 :: ts)) with (TP (ch "<") false :: unspace ts) in L. rewrite <- Eo in L. change (unspace (TP (ch ">") j2 :: post)) with (TP (ch ">") false :: unspace post) in L.
  destruct (lexed_last _ _ _ _ L) as [L1 E1]. cbn [app] in L1, E1. pose proof (tokens_spelled _ L1 E1) as Sp. destruct (spelled_before _ _ Sp us k Hk A1) as (ts' & S' & [-> | (b & ->)]); [exists false; exact S'|].
  exists b. change (TP (ch "<") false :: o ++ [TP (ch ">") false]) with ((TP (ch "<") false :: o) ++ [TP (ch ">") false]) in S' at 1. rewrite with_last_app in S' by discriminate. exact S'.
Qed.
Lemma lexed_name w ts : lexed (TId w :: ts) -> name_word w.
Proof. intros H. inversion H; subst; assumption. Qed.
Lemma lexed_tail t ts : lexed (t :: ts) -> lexed ts.
Proof. intros H. inversion H; subst; assumption. Qed.
Lemma lexed_inner d inner ts : lexed (TG d inner :: ts) -> lexed inner.
Proof. intros H. inversion H; subst; assumption. Qed.
Lemma lexed_mid a b c : lexed (a ++ b ++ c) -> lexed b.
Proof. intros H. apply lexed_suffix in H. exact (lexed_prefix _ _ H). Qed.
Lemma mid_size a b c : (trees_size b <= trees_size (a ++ b ++ c))%nat.
Proof. rewrite !trees_size_app. lia. Qed.

Lemma impl_text (w k0 : str) : tokens_to_string [TG Brace [TId (st "impl"); TP (ch "#") false; TLit w]] ++ k0 = opening Brace :: (32%N :: st "impl" ++ 32%N :: ch "#" :: 32%N :: w ++ [32%N]) ++ closing Brace :: k0.
Proof. cbn. rewrite !app_nil_r. do 9 f_equal. cbn. rewrite <- !app_assoc. reflexivity. Qed.
Lemma show_before : forall n t ts, (trees_size ts <= n)%nat -> reads t ts -> lexed ts -> faithful t -> before reads (show t) t.
Proof.
  induction n as [|n IH]; intros t ts Hn H L F; [exfalso; pose proof (size_pos ts (reads_ne t ts H)); lia|].
  assert (Sep : forall c sep l us, separated reads (by_mark c) l us -> (trees_size us <= n)%nat -> lexed us -> (forall v, In v l -> faithful v) ->
     (forall us k, spelled us k -> exists ds, by_mark c ds /\ spelled (ds ++ us) (sep ++ k)) -> (forall k, word_ends (sep ++ k)) -> before (separated reads (by_mark c)) (Base.join sep (map show l)) l).
  { intros c sep l us Hs Hu Lu Fl H1 H2. apply list_before; [exact H1 | exact H2 | | exact (separated_nonempty _ _ _ _ Hs)]. apply Forall2_map_l. apply (separated_forall reads (by_mark c) (fun a => before reads (show a) a) l us Hs).
    intros a ts' x y Ha Hi ->. apply (IH a ts'); [rewrite !trees_size_app in Hu; lia | exact Ha | exact (lexed_mid _ _ _ Lu) | exact (Fl a Hi)]. }
  assert (One : forall v vs x y, reads v vs -> (trees_size vs <= n)%nat -> lexed (x ++ vs ++ y) -> In v (kids t) -> before reads (show v) v).
  { intros v vs x y Hv Hu Lv Hk. apply (IH v vs Hu Hv (lexed_mid _ _ _ Lv)). exact (faithful_kid t v F Hk). }
  pose proof (F t (sub_self t)) as F1.
  destruct H as [j|j|t ts j H|t ts j Rf H|t ts j H|t ts j H|t ts j H|t ts H|t ts j k w H Hw|t ts j u us H Hu|args us ret rs Ha Hr|args us ret rs Ha Hr|l us Fp Hl| |t ts j H|a a2 l us H|segs us H];
    rewrite ?trees_size_cons, ?trees_size_app in Hn; cbn [tree_size] in Hn; intros ks k0 Hk A1; cbn [show].
  - destruct (joint_any k0) as (j' & J'). exists [TP (ch "!") j']. split; [|constructor]. apply (sp_mark (ch "!")); [apply mark_is; reflexivity | exact J' | exact Hk].
  - exists [TP (ch "&") false; TId (st "str")]. split; [|constructor]. change (st "&str" ++ k0) with (ch "&" :: st "str" ++ k0). apply sp_mark; [exact mark_amp | not_mark|]. apply sp_name; [name_word_ | exact A1 | exact Hk].
  - apply lexed_tail, lexed_inner in L. destruct (before_alone _ _ _ (One t ts [] [] H ltac:(cbn in Hn; fold (trees_size ts) in Hn; lia) ltac:(cbn; rewrite app_nil_r; exact L) ltac:(left; reflexivity))) as (vs & Sv & Rv).
    exists [TP (ch "&") false; TG Brack vs]. split; [|constructor; exact Rv]. replace ((st "&[" ++ show t ++ st "]") ++ k0) with (ch "&" :: opening Brack :: show t ++ closing Brack :: k0) by (rewrite <- !app_assoc; reflexivity).
    apply sp_mark; [exact mark_amp | not_mark|]. apply sp_group; [exact Sv | exact Hk].
  - destruct (One t ts [TP (ch "&") j] [] H ltac:(lia) ltac:(cbn; rewrite app_nil_r; exact L) ltac:(left; reflexivity) ks k0 Hk A1) as (vs & Sv & Rv). destruct (joint_any (show t ++ k0)) as (j' & J').
    exists (TP (ch "&") j' :: vs). split; [|constructor; assumption]. cbn [app]. apply (sp_mark (ch "&")); [exact mark_amp | exact J' | exact Sv].
  - destruct (One t ts [TP (ch "&") j; TId (st "mut")] [] H ltac:(lia) ltac:(cbn; rewrite app_nil_r; exact L) ltac:(left; reflexivity) ks k0 Hk A1) as (vs & Sv & Rv).
    exists (TP (ch "&") false :: TId (st "mut") :: vs). split; [|constructor; assumption]. change ((st "&" ++ st "mut " ++ show t) ++ k0) with (ch "&" :: st "mut" ++ 32%N :: (show t ++ k0)).
    apply sp_mark; [exact mark_amp | not_mark|]. apply sp_name; [name_word_ | ends_|]. apply sp_blank; [exact blank_space | exact Sv].
  - contradiction F1.
  - contradiction F1.
  - apply lexed_inner in L. destruct (before_alone _ _ _ (One t ts [] [] H ltac:(cbn in Hn; fold (trees_size ts) in Hn; lia) ltac:(cbn; rewrite app_nil_r; exact L) ltac:(left; reflexivity))) as (vs & Sv & Rv).
    exists [TG Brack vs]. split; [|constructor; exact Rv]. replace ((st "[" ++ show t ++ [] ++ st "]") ++ k0) with (opening Brack :: show t ++ closing Brack :: k0) by (rewrite <- !app_assoc; reflexivity).
    apply sp_group; [exact Sv | exact Hk].
  - destruct (dec_read w k Hw) as [Nw Pw]. apply lexed_inner in L.
    assert (S0 : spelled [TP (ch ";") false; TLit (dec k)] (ch ";" :: 32%N :: dec k)).
    { apply sp_mark; [exact mark_semi | not_mark|]. apply sp_blank; [exact blank_space|]. rewrite <- (app_nil_r (dec k)) at 2. apply sp_number; [exact Nw | exact Logic.I | apply sp_end]. }
    destruct (One t ts [] [TP (ch ";") j; TLit w] H ltac:(fold (trees_size (ts ++ [TP (ch ";") j; TLit w])) in Hn; rewrite trees_size_app in Hn; lia) L ltac:(left; reflexivity) _ _ S0 ltac:(ends_)) as (vs & Sv & Rv).
    exists [TG Brack (vs ++ [TP (ch ";") false; TLit (dec k)])]. split; [|apply R_arrayn; assumption].
    replace ((st "[" ++ show t ++ (st "; " ++ dec k) ++ st "]") ++ k0) with (opening Brack :: (show t ++ ch ";" :: 32%N :: dec k) ++ closing Brack :: k0) by (cbn [app st]; rewrite <- !app_assoc; reflexivity).
    apply sp_group; [exact Sv | exact Hk].
  - apply lexed_inner in L. fold (trees_size (ts ++ TP (ch ";") j :: us)) in Hn. rewrite trees_size_app, trees_size_cons in Hn.
    destruct (before_alone _ _ _ (One u us (ts ++ [TP (ch ";") j]) [] Hu ltac:(lia) ltac:(rewrite app_nil_r, <- app_assoc; exact L) ltac:(right; left; reflexivity))) as (ws & Sw & Rw).
    assert (S0 : spelled (TP (ch ";") false :: ws) (ch ";" :: 32%N :: show u)).
    { apply sp_mark; [exact mark_semi | not_mark|]. apply sp_blank; [exact blank_space | exact Sw]. }
    destruct (One t ts [] (TP (ch ";") j :: us) H ltac:(lia) L ltac:(left; reflexivity) _ _ S0 ltac:(ends_)) as (vs & Sv & Rv).
    exists [TG Brack (vs ++ TP (ch ";") false :: ws)]. split; [|apply R_arrayd; assumption].
    replace ((st "[" ++ show t ++ (st "; " ++ show u) ++ st "]") ++ k0) with (opening Brack :: (show t ++ ch ";" :: 32%N :: show u) ++ closing Brack :: k0) by (cbn [app st]; rewrite <- !app_assoc; reflexivity).
    apply sp_group; [exact Sv | exact Hk].
  - fold (trees_size us) in Hn. assert (Lu : lexed us) by exact (lexed_inner _ _ _ (lexed_tail _ _ L)).
    assert (Fa : forall v, In v args -> faithful v) by (intros v Hv; apply (faithful_kid _ v F); cbn; apply in_or_app; left; exact Hv).
    destruct (before_alone _ _ _ (Sep (ch ",") (st ", ") args us Ha ltac:(lia) Lu Fa comma_before ltac:(ends1))) as (vs & Sv & Rv).
    assert (Q : exists rs', spelled (rs' ++ ks) (match ret with Some r => st " -> " ++ show r | None => [] end ++ k0) /\ reads_result ret rs').
    { destruct Hr as [|r ts j Hr]; [exists []; split; [exact Hk | constructor]|]. rewrite !trees_size_cons in Hn. 
      destruct (One r ts [TId (st "fn"); TG Par us; TP (ch "-") true; TP (ch ">") j] [] Hr ltac:(lia) ltac:(cbn [app]; rewrite app_nil_r; exact L) ltac:(cbn; apply in_or_app; right; left; reflexivity) ks k0 Hk A1) as (ws & Sw & Rw).
      exists (TP (ch "-") true :: TP (ch ">") false :: ws). split; [|constructor; exact Rw]. change ((st " -> " ++ show r) ++ k0) with (32%N :: ch "-" :: ch ">" :: 32%N :: (show r ++ k0)).
      apply sp_blank; [exact blank_space|]. cbn [app]. apply sp_mark; [exact mark_minus | split; [intros _; eexists _, _; split; [reflexivity | exact mark_gt] | reflexivity]|]. apply sp_mark; [exact mark_gt | not_mark|]. apply sp_blank; [exact blank_space | exact Sw]. }
    destruct Q as (rs' & Sr & Rr). exists (TId (st "fn") :: TG Par vs :: rs'). split; [|constructor; assumption].
    match goal with |- spelled _ ?s => replace s with (st "fn" ++ opening Par :: Base.join (st ", ") (map show args) ++ closing Par :: (match ret with Some r => st " -> " ++ show r | None => [] end ++ k0)) by (rewrite <- !app_assoc; reflexivity) end.
    cbn [app]. apply sp_name; [name_word_ | ends_|]. apply sp_group; [exact Sv | exact Sr].
  - contradiction F1.
  - assert (Lu : lexed us) by exact (lexed_tail _ _ L).
    assert (Fa : forall v, In v l -> faithful v) by (intros v Hv; exact (faithful_kid _ v F Hv)).
    destruct (Sep (ch "+") (st " + ") l us Hl ltac:(lia) Lu Fa plus_before ltac:(ends1) ks k0 Hk A1) as (vs & Sv & Rv).
    exists (TId (st "dyn") :: vs). split; [|apply R_dyn; assumption]. change ((st "dyn " ++ Base.join (st " + ") (map show l)) ++ k0) with (st "dyn" ++ 32%N :: (Base.join (st " + ") (map show l) ++ k0)).
    cbn [app]. apply sp_name; [name_word_ | ends_|]. apply sp_blank; [exact blank_space | exact Sv].
  - exists [TG Par []]. split; [|constructor]. apply (sp_group Par [] []); [apply sp_end | exact Hk].
  - apply lexed_inner in L. fold (trees_size (ts ++ [TP (ch ",") j])) in Hn. rewrite trees_size_app in Hn.
    assert (S0 : spelled [TP (ch ",") false] [ch ","]) by (apply sp_mark; [exact mark_comma | apply not_joint; discriminate | apply sp_end]).
    destruct (One t ts [] [TP (ch ",") j] H ltac:(lia) L ltac:(left; reflexivity) _ _ S0 ltac:(ends_)) as (vs & Sv & Rv).
    exists [TG Par (vs ++ [TP (ch ",") false])]. split; [|constructor; exact Rv]. replace ((st "(" ++ show t ++ st ",)") ++ k0) with (opening Par :: (show t ++ [ch ","]) ++ closing Par :: k0) by (rewrite <- !app_assoc; reflexivity).
    apply sp_group; [exact Sv | exact Hk].
  - apply lexed_inner in L. fold (trees_size us) in Hn. assert (Fa : forall v, In v (a :: a2 :: l) -> faithful v) by (intros v Hv; exact (faithful_kid _ v F Hv)).
    destruct (before_alone _ _ _ (Sep (ch ",") (st ", ") (a :: a2 :: l) us H ltac:(lia) L Fa comma_before ltac:(ends1))) as (vs & Sv & Rv).
    exists [TG Par vs]. split; [|constructor; exact Rv].
    match goal with |- spelled _ ?s => replace s with (opening Par :: Base.join (st ", ") (map show (a :: a2 :: l)) ++ closing Par :: k0) by (rewrite <- !app_assoc; reflexivity) end.
    apply sp_group; [exact Sv | exact Hk].
  - assert (B : before (separated reads_segment by_colons) (Base.join (st "::") (map (seg_text show) segs)) segs).
    { apply list_before; [exact colons_before | ends1 | | exact (separated_nonempty _ _ _ _ H)]. apply Forall2_map_l. apply (separated_forall reads_segment by_colons (fun s => before reads_segment (seg_text show s) s) segs us H).
      clear ks k0 Hk A1. intros s vs x y Hs Hi Ex ks k0 Hk A1. subst us. assert (Lv : lexed vs) by exact (lexed_mid _ _ _ L).
      assert (Hz : (trees_size vs <= S n)%nat) by (rewrite !trees_size_app in Hn; lia). assert (Fs : forall id g b, s = SSeg id g b -> b = false) by (intros id g b ->; exact (F1 id g b Hi)).
      assert (Fk : forall v, In v (seg_kids s) -> faithful v) by (intros v Hv; apply (faithful_kid _ v F); cbn; apply in_flat_map; eauto).
      destruct Hs as [id shim zs Hr Hsh|id args vs j1 j2 shim zs Hr Ha Hsh|id vs w o ts j1 j2 shim zs Hr Hb Ho Hsh|o ts j1 j2 Ha| |j w k Hw]; cbn [seg_text].
      - pose proof (Fs _ _ _ eq_refl) as ->. exists [TId id]. split; [|constructor; [exact Hr | constructor]]. rewrite app_nil_r. apply sp_name; [exact (lexed_name _ _ Lv) | exact A1 | exact Hk].
      - pose proof (Fs _ _ _ eq_refl) as ->. pose proof (lexed_name _ _ Lv) as Nw. rewrite !trees_size_cons, trees_size_app in Hz. cbn [tree_size] in Hz.
        destruct (joint_any k0) as (j' & J'). assert (S0 : spelled (TP (ch ">") j' :: ks) (ch ">" :: k0)) by (apply sp_mark; [exact mark_gt | exact J' | exact Hk]).
        destruct (Sep (ch ",") (st ", ") args vs Ha ltac:(lia) ltac:(apply (lexed_prefix _ ([TP (ch ">") j2] ++ zs)); exact (lexed_tail _ _ (lexed_tail _ _ Lv))) Fk comma_before ltac:(ends1) _ _ S0 ltac:(ends_)) as (ws & Sw & Rw).
        destruct (joint_any (Base.join (st ", ") (map show args) ++ ch ">" :: k0)) as (j3 & J3). exists (TId id :: TP (ch "<") j3 :: ws ++ [TP (ch ">") j'] ++ []). split; [|constructor; [exact Hr | exact Rw | constructor]].
        replace ((id ++ st "<" ++ Base.join (st ", ") (map show args) ++ st ">") ++ k0) with (id ++ ch "<" :: Base.join (st ", ") (map show args) ++ ch ">" :: k0) by (rewrite <- !app_assoc; reflexivity).
        replace ((TId id :: TP (ch "<") j3 :: ws ++ [TP (ch ">") j'] ++ []) ++ ks) with (TId id :: TP (ch "<") j3 :: ws ++ TP (ch ">") j' :: ks) by (cbn [app]; rewrite <- !app_assoc; reflexivity).
        apply sp_name; [exact Nw | ends_|]. apply sp_mark; [exact mark_lt | exact J3 | exact Sw].
      - pose proof (Fs _ _ _ eq_refl) as ->. pose proof (lexed_name _ _ Lv) as Nw. rewrite !trees_size_cons, !trees_size_app in Hz. cbn [tree_size] in Hz.
        destruct (raw_before o (vs ++ TLit w :: ts) j1 j2 zs Ho (lexed_tail _ _ Lv) ks k0 Hk A1) as (j' & S'). destruct (angles_unspace _ _ Ho) as [Eo Ao]. rewrite unspace_app in Eo. change (unspace (TLit w :: ts)) with (TLit w :: unspace ts) in Eo.
        exists (TId id :: TP (ch "<") false :: (unspace vs ++ TLit w :: unspace ts) ++ [TP (ch ">") j'] ++ []). split.
        + rewrite <- Eo, app_nil_r, <- app_assoc. apply (sp_name id); [exact Nw | | exact S']. cbn. intros C. apply word_char_is in C. discriminate C.
        + apply S_const; [exact Hr | | rewrite <- Eo; exact Ao | constructor]. destruct Hb as [|args vs j Hs]; [constructor|]. rewrite unspace_app. apply (B_next args (unspace vs) j).
          apply separated_unspace; [exact Hs | apply by_mark_unspace|]. intros a ts' Ha' _. exact (reads_unspace _ a ts' (le_n _) Ha').
      - destruct (raw_before o ts j1 j2 [] Ha Lv ks k0 Hk A1) as (j' & S'). destruct (angles_unspace _ _ Ha) as [_ Ao]. exists (TP (ch "<") false :: o ++ [TP (ch ">") j']). split; [exact S' | constructor; exact Ao].
      - exists [TG Brace [TId (st "vtable_type")]]. split; [|constructor]. change (tokens_to_string [TG Brace [TId (st "vtable_type")]] ++ k0) with (opening Brace :: (32%N :: st "vtable_type" ++ [32%N]) ++ closing Brace :: k0).
        apply sp_group; [|exact Hk]. apply sp_blank; [exact blank_space|]. apply sp_name; [name_word_ | ends_ | apply sp_blank; [exact blank_space | apply sp_end]].
      - destruct (dec_read w k Hw) as [Nw Pw]. exists [TG Brace [TId (st "impl"); TP (ch "#") false; TLit (dec k)]]. split; [|constructor; exact Pw].
        replace (tokens_to_string [TG Brace [TId (st "impl"); TP (ch "#") false; TLit (dec k)]] ++ k0) with (opening Brace :: (32%N :: st "impl" ++ 32%N :: ch "#" :: 32%N :: dec k ++ [32%N]) ++ closing Brace :: k0) by (symmetry; apply impl_text).
        apply sp_group; [|exact Hk]. apply sp_blank; [exact blank_space|]. apply sp_name; [name_word_ | ends_|]. apply sp_blank; [exact blank_space|]. apply sp_mark; [apply mark_is; reflexivity | not_mark|].
        apply sp_blank; [exact blank_space|]. apply sp_number; [exact Nw | ends_ | apply sp_blank; [exact blank_space | apply sp_end]]. }
    destruct (B ks k0 Hk A1) as (vs & Sv & Rv). exists vs. split; [exact Sv | apply R_path; exact Rv].
Qed.

(** What is displayed for a type that was read is a way of writing it, so it is read as the same type. *)
Theorem written_type_redisplayed_partial : forall t s, writes t s -> faithful t -> writes t (show t) /\ parse_type (show t) = Ok t.
Proof.
  intros t s (ts & Sp & R) F. destruct (spelled_lexed ts s Sp) as [L _]. pose proof (before_alone _ _ _ (show_before _ t ts (le_n _) R L F)) as W. split; [exact W | exact (written_type_read_partial t _ W)].
Qed.
Print Assumptions written_type_redisplayed_partial.

(** [ArrayVec < u8, 16 >] is displayed with other spacing and read as before. *)
Example redisplay_example : exists t, writes t (st "ArrayVec < u8, 16 >") /\ faithful t /\ show t = st "ArrayVec< u8 , 16 >".
Proof.
  destruct const_written as (g & W). eexists. split; [exact W|]. split.
  - intros u Hu. assert (K : forall v, sub u v -> v = YPath [SSeg (st "ArrayVec") (Some (GRaw g)) false] -> u = v).
    { intros v Hv. destruct Hv as [|t v Hi Hs]; [reflexivity|]. intros ->. destruct Hi. }
    rewrite (K _ Hu eq_refl). intros id h b [E | []]. congruence.
  - pose proof (written_type_read_partial _ _ W) as P. vm_compute in P. injection P as <-. vm_compute. reflexivity.
Qed.
(** [<T as a::B<C>>::Item], [a::{impl#0}::f] *)
Example redisplay_qualified : parse_type (st "<T as a::B<C>>::Item") = Ok (YPath [SQual [TP (ch "<") false; TId (st "T"); TId (st "as"); TId (st "a"); TP (ch ":") true; TP (ch ":") false; TId (st "B"); TP (ch "<") false; TId (st "C"); TP (ch ">") false; TP (ch ">") false]; SSeg (st "Item") None false]).
Proof. vm_compute. reflexivity. Qed.
Example redisplay_qualified_text : match parse_type (st "<T as a::B<C>>::Item") with Ok t => show t = st "< T as a :: B < C > >::Item" /\ parse_type (show t) = Ok t | _ => False end.
Proof. vm_compute. split; reflexivity. Qed.
