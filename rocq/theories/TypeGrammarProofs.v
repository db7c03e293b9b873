(** Every written type is read (C122): proofs. *)
From Coq Require Import Ascii String List ZArith NArith Lia Bool.
From Verif Require Import Base NumText TypesModel TypeTextModel TypeTextSpec TypeTextProofs TypeTextParse TypeTextLex TypeGrammar.
Import ListNotations.

(** ** Cutting the text *)
Lemma word_char_is c : word_char c <-> is_word c = true.
Proof. unfold word_char, is_word, is_upper, is_lower, is_digit. rewrite !orb_true_iff, !andb_true_iff, !N.leb_le, N.eqb_eq. intuition lia. Qed.
Lemma blank_is c : blank c <-> is_space c = true.
Proof. unfold blank, is_space. rewrite existsb_exists. split; [intros H; exists c; split; [exact H | apply N.eqb_refl] | intros (x & H & E); apply N.eqb_eq in E; subst x; exact H]. Qed.
Lemma mark_is c : mark_char c <-> is_punct c = true.
Proof. unfold mark_char, is_punct. rewrite existsb_exists. split; [intros H; exists c; split; [exact H | apply N.eqb_refl] | intros (x & H & E); apply N.eqb_eq in E; subst x; exact H]. Qed.
Lemma digit_is c : digit_char c <-> is_digit c = true.
Proof. unfold digit_char, is_digit. rewrite andb_true_iff, !N.leb_le. tauto. Qed.
Lemma words_is w : Forall word_char w -> forallb is_word w = true.
Proof. intros H. apply forallb_forall. intros x Hx. rewrite Forall_forall in H. apply word_char_is, H, Hx. Qed.
Lemma blank_not_word c : blank c -> is_word c = false.
Proof. intros H. repeat destruct H as [<- | H]; try reflexivity. destruct H. Qed.
Lemma mark_not c : mark_char c -> is_word c = false /\ is_space c = false.
Proof. intros H. repeat destruct H as [<- | H]; try (split; reflexivity). destruct H. Qed.
(** Nothing that lengthens a word or makes a mark joint. *)
Definition apart_from (k : str) : Prop := match k with c :: _ => is_word c = false /\ is_punct c = false | [] => True end.
Lemma ends_no_word s k : word_ends s -> apart_from k -> no_word (s ++ k).
Proof.
  destruct s as [|c s]; cbn; [destruct k as [|c k]; cbn; tauto|]. intros H _. destruct (is_word c) eqn:E; [|reflexivity]. contradiction H. now apply word_char_is.
Qed.
Lemma joint_next s j k : joint_to s j -> apart_from k -> next_punct (s ++ k) = j.
Proof.
  intros [J1 J2] A. destruct s as [|c s]; cbn [app next_punct].
  - destruct j; [destruct (J1 eq_refl) as (c & s' & Q & _); discriminate|]. destruct k as [|c k]; [reflexivity | apply A].
  - destruct (is_punct c) eqn:E.
    + symmetry. apply J2. exists c, s. split; [reflexivity | now apply mark_is].
    + destruct j; [|reflexivity]. destruct (J1 eq_refl) as (c' & s' & Q & M). injection Q as <- <-. apply mark_is in M. congruence.
Qed.
Lemma spelled_lexes ts s : spelled ts s -> forall k out, apart_from k -> lx k [] = Ok out -> lx (s ++ k) [] = Ok (flat ts ++ out).
Proof.
  induction 1 as [|c ts s B _ IH|w ts s W E _ IH|w ts s W E _ IH|c j ts s M J _ IH|d inner a ts s _ IHa _ IHs]; intros k out A Hk.
  - exact Hk.
  - cbn [app lx]. rewrite (blank_not_word c B), (proj1 (blank_is c) B). cbn [flush]. rewrite (IH k out A Hk). reflexivity.
  - destruct W as (c & w' & -> & Nd & Fw). rewrite <- app_assoc. refine (lexes_id (c :: w') (s ++ k) _ (ends_no_word s k E A) _ (IH k out A Hk)).
    exists c, w'. split; [reflexivity|]. split; [|now apply words_is]. destruct (is_digit c) eqn:Q; [contradiction Nd; now apply digit_is | reflexivity].
  - destruct W as (c & w' & -> & Dc & Fw). rewrite <- app_assoc. pose proof (lexes_word (c :: w') (s ++ k) ltac:(discriminate) (words_is _ Fw) (ends_no_word s k E A) _ (IH k out A Hk)) as Q.
    cbn [word_lexeme] in Q. rewrite (proj1 (digit_is c) Dc) in Q. exact Q.
  - destruct (mark_not c M) as [N1 N2]. pose proof (lexes_punct c (s ++ k) N1 N2 (proj1 (mark_is c) M) _ (IH k out A Hk)) as Q. rewrite (joint_next s j k J A) in Q. exact Q.
  - pose proof (IHs k out A Hk) as Q. specialize (IHa (closing d :: s ++ k) (LxClose d :: flat ts ++ out)).
    assert (Q2 : lx (a ++ closing d :: s ++ k) [] = Ok (flat inner ++ LxClose d :: flat ts ++ out)).
    { apply IHa; [destruct d; cbn; tauto|]. destruct d; cbn [closing]; cbn [lx]; cbn; rewrite Q; reflexivity. }
    assert (Q3 : lx ((opening d :: a ++ closing d :: s) ++ k) [] = rmap (app [LxOpen d]) (lx (a ++ closing d :: s ++ k) [])).
    { cbn [app]. rewrite <- app_assoc. cbn [app]. destruct d; reflexivity. }
    rewrite Q3, Q2. unfold flat. cbn [flat_map flat_tree rmap bind app]. rewrite <- !app_assoc. reflexivity.
Qed.
Lemma spelled_tokens ts s : spelled ts s -> tokenize s = Ok ts.
Proof.
  intros H. pose proof (spelled_lexes ts s H [] [] I eq_refl) as Q. rewrite !app_nil_r in Q. unfold tokenize. rewrite Q. cbn [bind].
  rewrite <- (app_nil_r (flat ts)), build_flat. cbn [build]. rewrite app_nil_r, rev_involutive. reflexivity.
Qed.

(** ** Angle brackets *)
Open Scope nat_scope.
Definition piece (n : nat) : pars (list tree) := p_alt (fun us => match us with TP d j :: r => if N.eqb d c_lt || N.eqb d c_gt then Err "except" else Ok ([TP d j], r) | t :: r => Ok ([t], r) | [] => Err "token" end) (p_angle n).
Lemma p_angle_unfold n ts : p_angle (S n) ts = p_seq (p_punct c_lt) (fun _ => p_seq (p_many (piece n)) (fun inner => p_seq (p_punct c_gt) (fun _ => p_ret (TP c_lt false :: concat inner ++ [TP c_gt false])))) ts.
Proof. reflexivity. Qed.
Lemma angles_many o ts : angles o ts -> forall m n j x, length ts < m -> length ts < n -> exists ps, p_many_n m (piece n) (ts ++ TP c_gt j :: x) = Ok (ps, TP c_gt j :: x) /\ concat ps = o.
Proof.
  induction 1 as [|t o ts Ht _ IH|j1 j2 o1 t1 o2 t2 _ IH1 _ IH2]; intros m n j x Hm Hn.
  - destruct m as [|m]; [cbn in Hm; lia|]. destruct n as [|n]; [cbn in Hn; lia|]. exists []. split; [|reflexivity]. reflexivity.
  - destruct m as [|m]; [cbn in Hm; lia|]. cbn [length] in Hm, Hn. destruct (IH m n j x ltac:(lia) ltac:(lia)) as (ps & E & C). exists ([t] :: ps). split; [|cbn [concat app]; now rewrite C].
    assert (P : piece n (t :: ts ++ TP c_gt j :: x) = Ok ([t], ts ++ TP c_gt j :: x)).
    { unfold piece, p_alt. destruct t as [w|w|c jj|d inner]; try reflexivity. destruct (Ht c jj eq_refl) as [A B]. assert (Q : (N.eqb c c_lt || N.eqb c c_gt)%bool = false) by (apply orb_false_iff; split; apply N.eqb_neq; assumption). rewrite Q. reflexivity. }
    cbn [app p_many_n]. rewrite P, E. reflexivity.
  - destruct m as [|m]; [cbn in Hm; lia|]. cbn [length] in Hm, Hn. rewrite !app_length in Hm, Hn. cbn [length] in Hm, Hn. destruct n as [|n]; [lia|].
    destruct (IH1 (S (length (t1 ++ TP c_gt j2 :: t2 ++ TP c_gt j :: x))) n j2 (t2 ++ TP c_gt j :: x) ltac:(rewrite app_length; lia) ltac:(lia)) as (p1 & E1 & C1).
    destruct (IH2 m (S n) j x ltac:(lia) ltac:(lia)) as (p2 & E2 & C2).
    assert (P : piece (S n) (TP (ch "<") j1 :: t1 ++ TP c_gt j2 :: t2 ++ TP c_gt j :: x) = Ok (TP c_lt false :: o1 ++ [TP c_gt false], t2 ++ TP c_gt j :: x)).
    { unfold piece, p_alt. change (N.eqb (ch "<") c_lt || N.eqb (ch "<") c_gt)%bool with true. cbv iota. rewrite p_angle_unfold. unfold p_seq at 1. change (p_punct c_lt (TP (ch "<") j1 :: t1 ++ TP c_gt j2 :: t2 ++ TP c_gt j :: x)) with (Ok (tt, t1 ++ TP c_gt j2 :: t2 ++ TP c_gt j :: x)). cbn [bind].
      unfold p_seq at 1, p_many. rewrite E1. cbn [bind]. rewrite C1. reflexivity. }
    exists ((TP c_lt false :: o1 ++ [TP c_gt false]) :: p2). split.
    + replace ((TP (ch "<") j1 :: t1 ++ [TP (ch ">") j2] ++ t2) ++ TP c_gt j :: x) with (TP (ch "<") j1 :: t1 ++ TP c_gt j2 :: t2 ++ TP c_gt j :: x) by (cbn [app]; rewrite <- !app_assoc; reflexivity).
      cbn [p_many_n]. rewrite P, E2. reflexivity.
    + cbn [concat]. rewrite C2. cbn [app]. rewrite <- app_assoc. reflexivity.
Qed.
Lemma angles_ok o ts n j1 j2 x : angles o ts -> length ts < n -> p_angle (S n) (TP c_lt j1 :: ts ++ TP c_gt j2 :: x) = Ok (TP c_lt false :: o ++ [TP c_gt false], x).
Proof.
  intros H Hn. rewrite p_angle_unfold. unfold p_seq at 1. cbn [p_punct]. rewrite N.eqb_refl. cbn [bind]. unfold p_seq at 1, p_many.
  destruct (angles_many o ts H (S (length (ts ++ TP c_gt j2 :: x))) n j2 x ltac:(rewrite app_length; lia) Hn) as (ps & E & C). rewrite E. cbn [bind]. rewrite C. reflexivity.
Qed.
Lemma length_size ts : length ts <= trees_size ts.
Proof. induction ts as [|t ts IH]; [apply Nat.le_refl|]. rewrite trees_size_cons. pose proof (tree_size_pos t). cbn [length]. lia. Qed.

(** ** Types *)
Lemma separated_ne {A} (R : A -> list tree -> Prop) D l us : separated R D l us -> l <> [].
Proof. intros H. destruct H; discriminate. Qed.
Lemma separated_count {A} (R : A -> list tree -> Prop) (D : list tree -> Prop) l us : (forall ds, D ds -> ds <> []) -> separated R D l us -> length l <= S (length us).
Proof. intros HD H. induction H as [a ts|a l ts ds us Ha Hd Hs IH]; cbn [length]; [lia|]. rewrite !app_length. specialize (HD ds Hd). destruct ds; [congruence|]. cbn [length]. lia. Qed.
Lemma separated_ok {A} (p : pars A) (d : pars unit) (R : A -> list tree -> Prop) (D : list tree -> Prop) l us :
  separated R D l us -> forall rest m, length l <= m ->
  (forall a ts x, In a l -> R a ts -> trees_size ts <= trees_size us -> (x = rest \/ exists ds y, D ds /\ x = ds ++ y) -> p (ts ++ x) = Ok (a, x)) ->
  (forall ds y, D ds -> d (ds ++ y) = Ok (tt, y)) -> (exists e, d rest = Err e) ->
  p_delimited_n m p d (us ++ rest) = Ok (l, rest).
Proof.
  intros H. induction H as [a ts Ha|a l ts ds us Ha Hd Hs IH]; intros rest m Hm Hp HD [e He]; (destruct m; cbn [length] in Hm; [lia|]); cbn [p_delimited_n].
  - rewrite (Hp a ts rest); [|left; reflexivity | exact Ha | lia | left; reflexivity]. rewrite He. reflexivity.
  - rewrite <- !app_assoc. rewrite (Hp a ts (ds ++ us ++ rest)); [|left; reflexivity | exact Ha | rewrite !trees_size_app; lia | right; eauto].
    rewrite (HD ds (us ++ rest) Hd). rewrite IH; [reflexivity | lia | | exact HD | eauto]. intros b vs x Hb HR Hsz Hx. apply Hp; [right; exact Hb | exact HR | rewrite !trees_size_app; lia | exact Hx].
Qed.
(** The items are followed by a separator and something that is read as [z] without consuming it. *)
Lemma separated_then {A} (p : pars A) (d : pars unit) (R : A -> list tree -> Prop) (D : list tree -> Prop) l us :
  separated R D l us -> forall ds rest z m, D ds -> S (length l) <= m ->
  (forall a ts x, In a l -> R a ts -> trees_size ts <= trees_size us -> (exists ds y, D ds /\ x = ds ++ y) -> p (ts ++ x) = Ok (a, x)) ->
  (forall ds y, D ds -> d (ds ++ y) = Ok (tt, y)) -> p rest = Ok (z, rest) -> (exists e, d rest = Err e) ->
  p_delimited_n m p d (us ++ ds ++ rest) = Ok (l ++ [z], rest).
Proof.
  intros H. induction H as [a ts Ha|a l ts ds us Ha Hd Hs IH]; intros ds0 rest z m H0 Hm Hp HD Hz [e He]; (destruct m as [|m]; cbn [length] in Hm; [lia|]); cbn [p_delimited_n].
  - rewrite (Hp a ts (ds0 ++ rest)); [|left; reflexivity | exact Ha | lia | eauto]. rewrite (HD ds0 rest H0). destruct m as [|m]; [lia|]. cbn [p_delimited_n]. rewrite Hz, He. reflexivity.
  - rewrite <- !app_assoc. rewrite (Hp a ts (ds ++ us ++ ds0 ++ rest)); [|left; reflexivity | exact Ha | rewrite !trees_size_app; lia | eauto].
    rewrite (HD ds (us ++ ds0 ++ rest) Hd). rewrite (IH ds0 rest z m); [reflexivity | exact H0 | lia | | exact HD | exact Hz | eauto].
    intros b vs x Hb HR Hsz Hx. apply Hp; [right; exact Hb | exact HR | rewrite !trees_size_app; lia | exact Hx].
Qed.
Lemma by_mark_parsed c ds y : by_mark c ds -> p_punct c (ds ++ y) = Ok (tt, y).
Proof. intros [j ->]. cbn. rewrite N.eqb_refl. reflexivity. Qed.
Lemma by_mark_stop c cs ds y : by_mark c ds -> In c cs -> stop_by cs (ds ++ y).
Proof. intros [j ->] H. exact H. Qed.
Lemma by_colons_parsed ds y : by_colons ds -> p_pathsep (ds ++ y) = Ok (tt, y).
Proof. intros [j ->]. reflexivity. Qed.
Lemma by_mark_ne c ds : by_mark c ds -> ds <> [].
Proof. intros [j ->]. discriminate. Qed.
Lemma by_colons_ne ds : by_colons ds -> ds <> [].
Proof. intros [j ->]. discriminate. Qed.

(** How the tokens of a type begin. *)
Definition begins (t : ty) (h : tree) : Prop :=
  match h with
  | TP c _ => In c [ch "&"; ch "!"; ch "*"; ch "<"]
  | TG Brack _ => exists u k, t = YArray u k
  | TG _ _ => True
  | TId id => id <> st "mut" /\ (id = st "str" -> exists g b l, t = YPath (SSeg id g b :: l))
  | TLit _ => False
  end.
Lemma segment_begins s us l : reads_segment s us -> exists h tl, us = h :: tl /\ begins (YPath (s :: l)) h.
Proof.
  assert (G : forall id g b tl, ~ reserved id -> exists h tl', TId id :: tl = h :: tl' /\ begins (YPath (SSeg id g b :: l)) h).
  { intros id g b tl Hk. do 2 eexists. split; [reflexivity|]. cbn. split; [intros ->; apply Hk; cbn; tauto | intros ->; eauto]. }
  intros H. destruct H as [id shim zs Hk Hz|id args us j1 j2 shim zs Hk Ha Hz|id us w o ts j1 j2 shim zs Hk Ha Hr Hz|o ts j1 j2 Ha| |j w n Hw]; try (apply G; assumption);
    do 2 eexists; (split; [reflexivity|]); cbn; tauto.
Qed.
Lemma reads_begins t ts : reads t ts -> exists h tl, ts = h :: tl /\ begins t h.
Proof.
  intros H. destruct H as [j|j|t ts j H|t ts j F H|t ts j H|t ts j H|t ts j H|t ts H|t ts j n w H Hw|t ts j u us H Hu|args us ret rs Ha Hr|args us ret rs Ha Hr|l us Fp Hl| |t ts j H|a b l us H|segs us H];
    try (do 2 eexists; split; [reflexivity|]; cbn; tauto); try (do 2 eexists; split; [reflexivity|]; cbn; eauto; fail).
  - do 2 eexists; split; [reflexivity|]. cbn. split; [discriminate | intros E; discriminate E].
  - do 2 eexists; split; [reflexivity|]. cbn. split; [discriminate | intros E; discriminate E].
  - do 2 eexists; split; [reflexivity|]. cbn. split; [discriminate | intros E; discriminate E].
  - destruct H as [s ts Hs|s l ts ds us Hs Hd Hl].
    + exact (segment_begins s ts [] Hs).
    + destruct (segment_begins s ts l Hs) as (h & tl & -> & B). exists h, (tl ++ ds ++ us). split; [reflexivity | exact B].
Qed.
Lemma reads_ne t ts : reads t ts -> ts <> [].
Proof. intros H. destruct (reads_begins t ts H) as (h & tl & -> & _). discriminate. Qed.
Lemma a_path_is t : a_path t -> is_path t.
Proof. intros (s & l & ->). exact I. Qed.

Section Step.
Variable n : nat.
Hypothesis IH : forall t ts rest, reads t ts -> S (trees_size ts) < n -> (stop rest \/ (is_path t /\ stop_plus rest)) -> p_type n (ts ++ rest) = Ok (t, rest).

Lemma args_ok l us rest : separated reads (by_mark c_comma) l us -> S (trees_size us) < n -> stop rest -> (exists e, p_punct c_comma rest = Err e) -> p_delimited (p_type n) (p_punct c_comma) (us ++ rest) = Ok (l, rest).
Proof.
  intros H Hn Hs He. unfold p_delimited. apply (separated_ok _ _ reads (by_mark c_comma)).
  - exact H.
  - pose proof (separated_count reads (by_mark c_comma) l us (by_mark_ne c_comma) H). rewrite app_length. lia.
  - intros a ts x Ha HR Hsz Hx. apply IH; [exact HR | lia | left]. destruct Hx as [->|(ds & y & Hd & ->)]; [exact Hs | apply (by_mark_stop c_comma); [exact Hd | cbn; tauto]].
  - apply by_mark_parsed.
  - exact He.
Qed.
Lemma args_all l us : separated reads (by_mark c_comma) l us -> S (trees_size us) < n -> p_delimited (p_type n) (p_punct c_comma) us = Ok (l, []).
Proof. intros H Hn. rewrite <- (app_nil_r us) at 1. apply args_ok; [exact H | exact Hn | exact Logic.I | eexists; reflexivity]. Qed.
Lemma read_all t ts : reads t ts -> S (trees_size ts) < n -> p_type n ts = Ok (t, []).
Proof. intros H Hn. rewrite <- (app_nil_r ts) at 1. apply IH; [exact H | exact Hn | left; exact Logic.I]. Qed.

Lemma shim_ok shim zs x : reads_shim shim zs -> after_seg x -> exists r, p_opt p_shim (zs ++ x) = Ok (r, x) /\ (match r with Some _ => true | None => false end) = shim.
Proof.
  intros H Hx. destruct H as [|j].
  - exists None. split; [|reflexivity]. apply opt_none, after_no_shim, Hx.
  - exists (Some tt). split; reflexivity.
Qed.
Lemma number_empty w r : 1 < n -> p_type n (TLit w :: r) = Ok (YPath [], TLit w :: r).
Proof. intros H. destruct n as [|[|k]]; [lia | lia |]. reflexivity. Qed.
Lemma after_shim_no shim zs x : reads_shim shim zs -> after_seg x -> p_gargs (p_type n) n (zs ++ x) = p_gargs (p_type n) n (zs ++ x).
Proof. reflexivity. Qed.
Lemma no_gargs shim zs x : reads_shim shim zs -> after_seg x -> 1 <= n -> exists e, p_gargs (p_type n) n (zs ++ x) = Err e.
Proof.
  intros H Hx Hn. destruct n as [|k]; [lia|]. destruct H as [|j]; [apply after_no_gargs, Hx|]. eexists. reflexivity.
Qed.
Lemma segment_ok s ts x : reads_segment s ts -> S (trees_size ts) <= n -> after_seg x -> p_path_segment (p_type n) n (ts ++ x) = Ok (s, x).
Proof.
  intros H Hn Hx. assert (Hp : 1 <= trees_size ts) by (destruct (segment_begins s ts [] H) as (h & tl & -> & _); apply size_pos; discriminate).
  destruct H as [id shim zs Hk Hz|id args us j1 j2 shim zs Hk Ha Hz|id us w o ts j1 j2 shim zs Hk Hb Hr Hz|o ts j1 j2 Ha| |j w k Hw].
  - unfold p_path_segment. apply alt_ok. unfold p_segment. cbn [app]. destruct (shim_ok shim zs x Hz Hx) as (r & E & Er).
    rewrite (seq_ok _ _ _ id (zs ++ x)) by reflexivity. rewrite (seq_ok _ _ _ None (zs ++ x)); [|apply opt_none; apply (no_gargs shim); [exact Hz | exact Hx | lia]].
    rewrite (seq_ok _ _ _ r x) by exact E. rewrite Er. reflexivity.
  - unfold p_path_segment. apply alt_ok. unfold p_segment. destruct (shim_ok shim zs x Hz Hx) as (r & E & Er).
    replace ((TId id :: TP (ch "<") j1 :: us ++ [TP (ch ">") j2] ++ zs) ++ x) with (TId id :: TP c_lt j1 :: us ++ TP c_gt j2 :: zs ++ x) by (cbn [app]; rewrite <- !app_assoc; reflexivity).
    rewrite (seq_ok _ _ _ id (TP c_lt j1 :: us ++ TP c_gt j2 :: zs ++ x)) by reflexivity.
    rewrite (seq_ok _ _ _ (Some (GParsed args)) (zs ++ x)).
    + rewrite (seq_ok _ _ _ r x) by exact E. rewrite Er. reflexivity.
    + apply opt_ok. unfold p_gargs. apply alt_ok. rewrite (seq_ok _ _ _ tt (us ++ TP c_gt j2 :: zs ++ x)) by reflexivity.
      rewrite (seq_ok _ _ _ args (TP c_gt j2 :: zs ++ x)); [reflexivity|]. apply args_ok; [exact Ha | | cbn; tauto | eexists; reflexivity].
      rewrite !trees_size_cons, trees_size_app in Hn. cbn in Hn. lia.
  - unfold p_path_segment. apply alt_ok. unfold p_segment. destruct (shim_ok shim zs x Hz Hx) as (r & E & Er).
    replace ((TId id :: TP (ch "<") j1 :: (us ++ TLit w :: ts) ++ [TP (ch ">") j2] ++ zs) ++ x) with (TId id :: TP c_lt j1 :: (us ++ TLit w :: ts) ++ TP c_gt j2 :: zs ++ x) by (cbn [app]; rewrite <- !app_assoc; reflexivity).
    rewrite !trees_size_cons, !trees_size_app, !trees_size_cons in Hn. cbn in Hn.
    rewrite (seq_ok _ _ _ id (TP c_lt j1 :: (us ++ TLit w :: ts) ++ TP c_gt j2 :: zs ++ x)) by reflexivity.
    rewrite (seq_ok _ _ _ (Some (GRaw (TP (ch "<") false :: o ++ [TP (ch ">") false]) : gargs)) (zs ++ x)).
    + rewrite (seq_ok _ _ _ r x) by exact E. rewrite Er. reflexivity.
    + apply opt_ok. unfold p_gargs. rewrite alt_err.
      * rewrite (seq_ok _ _ _ (TP (ch "<") false :: o ++ [TP (ch ">") false]) (zs ++ x)); [reflexivity|]. destruct n as [|m]; [lia|]. apply (angles_ok o (us ++ TLit w :: ts) m j1 j2 (zs ++ x) Hr).
        rewrite app_length. cbn [length]. pose proof (length_size us). pose proof (length_size ts). lia.
      * rewrite (seq_ok _ _ _ tt ((us ++ TLit w :: ts) ++ TP c_gt j2 :: zs ++ x)) by reflexivity. rewrite <- app_assoc. cbn [app].
        assert (Hn1 : 1 < n) by lia. set (tail := ts ++ TP c_gt j2 :: zs ++ x).
        assert (D : exists l, p_delimited (p_type n) (p_punct c_comma) (us ++ TLit w :: tail) = Ok (l, TLit w :: tail)).
        { destruct Hb as [|args us j Ha].
          - cbn [app]. eexists. unfold p_delimited. cbn [p_delimited_n]. rewrite number_empty by exact Hn1. reflexivity.
          - eexists. unfold p_delimited. rewrite <- app_assoc. refine (separated_then _ _ reads (by_mark c_comma) args us Ha [TP c_comma j] (TLit w :: tail) _ _ _ _ _ _ (number_empty w tail Hn1) _).
            + eexists. reflexivity.
            + pose proof (separated_count reads (by_mark c_comma) args us (by_mark_ne c_comma) Ha). rewrite !app_length. cbn [length]. lia.
            + intros a vs y _ HR Hsz (ds & z & Hd & ->). apply IH; [exact HR | rewrite trees_size_app in Hn; lia | left; apply (by_mark_stop c_comma); [exact Hd | cbn; tauto]].
            + apply by_mark_parsed.
            + eexists. reflexivity. }
        destruct D as (l & D). rewrite (seq_ok _ _ _ l (TLit w :: tail)) by exact D. eexists. reflexivity.
  - unfold p_path_segment. replace ((TP (ch "<") j1 :: ts ++ [TP (ch ">") j2]) ++ x) with (TP c_lt j1 :: ts ++ TP c_gt j2 :: x) by (cbn [app]; rewrite <- !app_assoc; reflexivity).
    rewrite alt_err by (eexists; reflexivity). apply alt_ok. rewrite (seq_ok _ _ _ (TP (ch "<") false :: o ++ [TP (ch ">") false]) x); [reflexivity|].
    rewrite !trees_size_cons, !trees_size_app in Hn. cbn in Hn. destruct n as [|m]; [lia|]. apply (angles_ok o ts m j1 j2 x Ha). pose proof (length_size ts). lia.
  - destruct n as [|m]; [lia|]. reflexivity.
  - destruct n as [|m]; [lia|]. unfold p_path_segment. cbn [app]. do 3 (rewrite alt_err; [|eexists; reflexivity]).
    rewrite (seq_ok _ _ _ k x); [reflexivity|]. apply group_ok. rewrite (seq_ok _ _ _ tt [TP (ch "#") j; TLit w]) by reflexivity. rewrite (seq_ok _ _ _ tt [TLit w]) by reflexivity. cbn [p_usize]. rewrite Hw. reflexivity.
Qed.
Lemma path_ok segs us rest : separated reads_segment by_colons segs us -> S (trees_size us) <= n -> stop_plus rest -> p_path (p_type n) n (us ++ rest) = Ok (YPath segs, rest).
Proof.
  intros H Hn Hr. unfold p_path. rewrite (seq_ok _ _ _ segs rest); [reflexivity|]. unfold p_delimited. apply (separated_ok _ _ reads_segment by_colons).
  - exact H.
  - pose proof (separated_count reads_segment by_colons segs us by_colons_ne H). rewrite app_length. lia.
  - intros a ts x Ha HR Hsz Hx. apply segment_ok; [exact HR | lia |]. destruct Hx as [->|(ds & y & [j ->] & ->)]; [apply after_stop, Hr | cbn; tauto].
  - apply by_colons_parsed.
  - unfold p_pathsep. destruct (joint_no (ch ":") rest [c_comma; c_gt; ch ";"; ch "+"] Hr ltac:(notin)) as [e He]. exists e. apply seq_err. exact He.
Qed.
Lemma result_ok ret rs rest : reads_result ret rs -> S (trees_size rs) < n -> stop rest ->
  p_opt (p_seq (p_joint (ch "-")) (fun _ => p_seq (p_punct c_gt) (fun _ => p_type n))) (rs ++ rest) = Ok (ret, rest).
Proof.
  intros H Hn Hr. destruct H as [|r ts j Ht].
  - cbn [app]. apply opt_none. destruct (joint_no (ch "-") rest _ Hr ltac:(notin)) as [e He]. exists e. apply seq_err, He.
  - apply opt_ok. cbn [app]. rewrite (seq_ok _ _ _ tt (TP (ch ">") j :: ts ++ rest)) by reflexivity. rewrite (seq_ok _ _ _ tt (ts ++ rest)) by reflexivity.
    apply IH; [exact Ht | rewrite !trees_size_cons in Hn; cbn in Hn; lia | left; exact Hr].
Qed.
Lemma function_ok (u : bool) args us ret rs rest : separated reads (by_mark c_comma) args us -> reads_result ret rs -> S (trees_size us) < n -> S (trees_size rs) < n -> stop rest ->
  p_type_step (p_type n) n ((if u then [TId (st "unsafe")] else []) ++ TId (st "fn") :: TG Par us :: rs ++ rest) = Ok (YFn u args ret, rest).
Proof.
  intros Ha Hr Hn Hn2 Hs. unfold p_type_step. do 5 (rewrite alt_err; [|destruct u; eexists; reflexivity]). apply alt_ok. unfold p_fn.
  rewrite (seq_ok _ _ _ (if u then Some tt else None) (TId (st "fn") :: TG Par us :: rs ++ rest)) by (destruct u; reflexivity).
  rewrite (seq_ok _ _ _ tt (TG Par us :: rs ++ rest)) by reflexivity. rewrite (seq_ok _ _ _ args (rs ++ rest)) by (apply group_ok, args_all; assumption).
  rewrite (seq_ok _ _ _ ret rest) by (apply result_ok; assumption). destruct u; reflexivity.
Qed.
Lemma tuple_many a l us : separated reads (by_mark c_comma) (a :: l) us -> l <> [] -> S (trees_size us) < n -> forall m, length us < m ->
  exists ini z ts, a :: l = ini ++ [z] /\ ini <> [] /\ reads z ts /\ trees_size ts <= trees_size us /\ p_many_n m (p_type_comma (p_type n)) us = Ok (ini, ts).
Proof.
  revert a us. induction l as [|b l IHl]; intros a us H Hl Hn m Hm; [congruence|].
  inversion H as [|a' l' ts ds us' Ha Hd Hs]; subst. destruct m as [|m]; [lia|].
  assert (E : p_type_comma (p_type n) (ts ++ ds ++ us') = Ok (a, us')).
  { unfold p_type_comma. rewrite (seq_ok _ _ _ a (ds ++ us')).
    - rewrite (seq_ok _ _ _ tt us') by (apply by_mark_parsed, Hd). reflexivity.
    - apply IH; [exact Ha | rewrite !trees_size_app in Hn; lia |]. left. apply (by_mark_stop c_comma); [exact Hd | cbn; tauto]. }
  assert (L : length us' < m) by (rewrite !app_length in Hm; destruct Hd as [j ->]; cbn [length] in Hm; lia).
  cbn [p_many_n]. rewrite E. destruct l as [|c l].
  - inversion Hs as [z us2 Hz|? ? ? ? ? ? ? Hs2]; subst; [|destruct (separated_ne _ _ _ _ Hs2 eq_refl)].
    exists [a], b, us'. split; [reflexivity|]. split; [discriminate|]. split; [assumption|]. split; [rewrite !trees_size_app; lia|].
    destruct m as [|m]; [lia|]. cbn [p_many_n].
    assert (E2 : p_type_comma (p_type n) us' = Err "punct").
    { unfold p_type_comma. rewrite (seq_ok _ _ _ b []); [reflexivity|]. apply read_all; [assumption | rewrite !trees_size_app in Hn; lia]. }
    rewrite E2. reflexivity.
  - assert (Hn' : S (trees_size us') < n) by (rewrite !trees_size_app in Hn; lia).
    destruct (IHl b us' Hs ltac:(discriminate) Hn' m L) as (ini & z & zs & E1 & E2 & Hz & Hsz & E3).
    exists (a :: ini), z, zs. split; [rewrite E1; reflexivity|]. split; [discriminate|]. split; [exact Hz|]. split; [rewrite !trees_size_app; lia|]. rewrite E3. reflexivity.
Qed.

Lemma type_step_ok t ts rest : reads t ts -> trees_size ts < n -> (stop rest \/ (is_path t /\ stop_plus rest)) -> p_type_step (p_type n) n (ts ++ rest) = Ok (t, rest).
Proof.
  intros H Hn Hr. assert (Hs : ~ is_path t -> stop rest) by (intros N; destruct Hr as [Hr|[N' _]]; [exact Hr | contradiction]).
  destruct H as [j|j|t ts j H|t ts j F H|t ts j H|t ts j H|t ts j H|t ts H|t ts j k w H Hw|t ts j u us H Hu|args us ret rs Ha Hr2|args us ret rs Ha Hr2|l us Fp Hl| |t ts j H|a b l us H|segs us H];
    try specialize (Hs (fun x => x)).
  - cbn [app]. unfold p_type_step. do 3 (rewrite alt_err; [|eexists; reflexivity]). reflexivity.
  - cbn [app]. unfold p_type_step. rewrite alt_err; [|eexists; reflexivity]. reflexivity.
  - rewrite !trees_size_cons, tree_size_group in Hn. cbn [tree_size] in Hn. cbn [app]. unfold p_type_step. apply alt_ok.
    unfold p_slice. rewrite (seq_ok _ _ _ tt (TG Brack ts :: rest)) by reflexivity. rewrite (seq_ok _ _ _ t rest); [reflexivity|]. apply group_ok, read_all; [exact H | lia].
  - rewrite trees_size_cons in Hn. cbn [tree_size] in Hn. cbn [app]. destruct (reads_begins t ts H) as (h & tl & -> & Hh).
    assert (E : p_type n ((h :: tl) ++ rest) = Ok (t, rest)) by (apply IH; [exact H | lia | left; exact Hs]).
    unfold p_type_step. rewrite alt_err. rewrite alt_err. apply alt_ok.
    + unfold p_ref. rewrite (seq_ok _ _ _ tt ((h :: tl) ++ rest)) by reflexivity. rewrite (seq_ok _ _ _ None ((h :: tl) ++ rest)).
      * rewrite (seq_ok _ _ _ t rest) by exact E. reflexivity.
      * apply opt_none. cbn [app p_kw]. destruct h as [id| | |]; try (eexists; reflexivity).
        destruct (str_eqb (st "mut") id) eqn:Em; [|eexists; reflexivity]. apply str_eqb_eq in Em. destruct Hh as [N _]. congruence.
    + unfold p_strslice. rewrite (seq_ok _ _ _ tt ((h :: tl) ++ rest)) by reflexivity. cbn [app]. unfold p_seq. cbn [p_kw]. destruct h as [id| | |]; try (eexists; reflexivity).
      destruct (str_eqb (st "str") id) eqn:Em; [|eexists; reflexivity]. apply str_eqb_eq in Em. subst id. destruct Hh as (_ & Hh). destruct (Hh eq_refl) as (g & b & l & ->). cbn in F. congruence.
    + unfold p_slice. rewrite (seq_ok _ _ _ tt ((h :: tl) ++ rest)) by reflexivity. cbn [app]. destruct h as [| | |d inner]; try (eexists; reflexivity). destruct d; try (eexists; reflexivity).
      destruct Hh as (u & k & ->). rewrite trees_size_cons, tree_size_group in Hn.
      assert (K : exists us jj z, inner = us ++ TP (ch ";") jj :: z /\ reads u us) by (inversion H; subst; [destruct F | eauto 6 | eauto 6]).
      destruct K as (us & jj & z & -> & Ru). exists "end of group"%string. apply seq_err. cbn [p_group delim_eqb].
      rewrite (IH u us); [reflexivity | exact Ru | rewrite trees_size_app in Hn; cbn in Hn; lia | left; cbn; tauto].
  - rewrite !trees_size_cons in Hn. cbn [tree_size] in Hn. cbn [app]. unfold p_type_step. do 2 (rewrite alt_err; [|eexists; reflexivity]). apply alt_ok. unfold p_ref.
    rewrite (seq_ok _ _ _ tt (TId (st "mut") :: ts ++ rest)) by reflexivity. rewrite (seq_ok _ _ _ (Some tt) (ts ++ rest)) by reflexivity.
    rewrite (seq_ok _ _ _ t rest); [reflexivity|]. apply IH; [exact H | lia | left; exact Hs].
  - rewrite !trees_size_cons in Hn. cbn [tree_size] in Hn. cbn [app]. unfold p_type_step. do 8 (rewrite alt_err; [|eexists; reflexivity]). apply alt_ok. unfold p_ptr.
    rewrite (seq_ok _ _ _ tt (TId (st "const") :: ts ++ rest)) by reflexivity. rewrite (seq_ok _ _ _ false (ts ++ rest)) by reflexivity.
    rewrite (seq_ok _ _ _ t rest); [reflexivity|]. apply IH; [exact H | lia | left; exact Hs].
  - rewrite !trees_size_cons in Hn. cbn [tree_size] in Hn. cbn [app]. unfold p_type_step. do 8 (rewrite alt_err; [|eexists; reflexivity]). apply alt_ok. unfold p_ptr.
    rewrite (seq_ok _ _ _ tt (TId (st "mut") :: ts ++ rest)) by reflexivity. rewrite (seq_ok _ _ _ true (ts ++ rest)) by reflexivity.
    rewrite (seq_ok _ _ _ t rest); [reflexivity|]. apply IH; [exact H | lia | left; exact Hs].
  - rewrite !trees_size_cons, tree_size_group in Hn. cbn [app]. unfold p_type_step. do 4 (rewrite alt_err; [|eexists; reflexivity]). apply alt_ok. unfold p_array. apply group_ok.
    rewrite (seq_ok _ _ _ t []); [reflexivity|]. apply read_all; [exact H | lia].
  - rewrite !trees_size_cons, tree_size_group, trees_size_app in Hn. cbn [app]. unfold p_type_step. do 4 (rewrite alt_err; [|eexists; reflexivity]). apply alt_ok. unfold p_array. apply group_ok.
    rewrite (seq_ok _ _ _ t [TP (ch ";") j; TLit w]).
    + rewrite (seq_ok _ _ _ (Some (AFixed k)) []); [reflexivity|]. apply opt_ok. rewrite (seq_ok _ _ _ tt [TLit w]) by reflexivity. unfold p_asize. apply alt_ok.
      rewrite (seq_ok _ _ _ k []); [reflexivity|]. cbn [p_usize]. rewrite Hw. reflexivity.
    + apply IH; [exact H | cbn in Hn; lia | left; cbn; tauto].
  - rewrite !trees_size_cons, tree_size_group, trees_size_app, trees_size_cons in Hn. cbn [app]. unfold p_type_step. do 4 (rewrite alt_err; [|eexists; reflexivity]). apply alt_ok. unfold p_array. apply group_ok.
    rewrite (seq_ok _ _ _ t (TP (ch ";") j :: us)).
    + rewrite (seq_ok _ _ _ (Some (ADyn u)) []); [reflexivity|]. apply opt_ok. rewrite (seq_ok _ _ _ tt us) by reflexivity. unfold p_asize.
      destruct (reads_begins u us Hu) as (h & tl & Eh & Hh). rewrite alt_err.
      * rewrite (seq_ok _ _ _ u []); [reflexivity|]. apply read_all; [exact Hu|]. cbn in Hn. lia.
      * rewrite Eh. destruct h; try (eexists; reflexivity). destruct Hh.
    + apply IH; [exact H | cbn in Hn; lia | left; cbn; tauto].
  - rewrite !trees_size_cons, tree_size_group in Hn. cbn [tree_size] in Hn. apply (function_ok false); [exact Ha | exact Hr2 | lia | lia | exact Hs].
  - rewrite !trees_size_cons, tree_size_group in Hn. cbn [tree_size] in Hn. apply (function_ok true); [exact Ha | exact Hr2 | lia | lia | exact Hs].
  - rewrite !trees_size_cons in Hn. cbn [tree_size] in Hn. cbn [app]. unfold p_type_step. do 6 (rewrite alt_err; [|eexists; reflexivity]). apply alt_ok. unfold p_dyn.
    rewrite (seq_ok _ _ _ tt (us ++ rest)) by reflexivity. rewrite (seq_ok _ _ _ l rest); [reflexivity|]. unfold p_delimited. apply (separated_ok _ _ reads (by_mark (ch "+"))).
    + exact Hl.
    + pose proof (separated_count reads (by_mark (ch "+")) l us (by_mark_ne (ch "+")) Hl). rewrite app_length. lia.
    + intros a ts x Ha HR Hsz Hx. apply IH; [exact HR | lia | right]. rewrite Forall_forall in Fp. split; [apply a_path_is, Fp, Ha|].
      destruct Hx as [->|(ds & y & Hd & ->)]; [apply stop_weak, Hs | apply (by_mark_stop (ch "+")); [exact Hd | cbn; tauto]].
    + apply by_mark_parsed.
    + apply (punct_no (ch "+") rest _ Hs). notin.
  - cbn [app]. unfold p_type_step. do 7 (rewrite alt_err; [|eexists; reflexivity]). reflexivity.
  - rewrite !trees_size_cons, tree_size_group, trees_size_app in Hn. cbn in Hn. pose proof (reads_ne t ts H) as Ne.
    cbn [app]. unfold p_type_step. do 7 (rewrite alt_err; [|eexists; reflexivity]). apply alt_ok. unfold p_tuple. rewrite alt_err.
    + apply alt_ok. apply group_ok. rewrite (seq_ok _ _ _ t []); [reflexivity|]. unfold p_type_opt_comma. rewrite (seq_ok _ _ _ t [TP (ch ",") j]); [reflexivity|]. apply IH; [exact H | lia | left; cbn; tauto].
    + destruct ts; [congruence|]. eexists. reflexivity.
  - rewrite !trees_size_cons, tree_size_group in Hn. cbn in Hn. assert (Hn2 : S (trees_size us) < n) by (fold (trees_size us) in Hn; lia).
    inversion H as [|a' l' ts ds us' Ha Hd Hss]; subst. rename us' into us.
    assert (E : p_type n (ts ++ ds ++ us) = Ok (a, ds ++ us)) by (apply IH; [exact Ha | rewrite !trees_size_app in Hn2; lia|]; left; apply (by_mark_stop c_comma); [exact Hd | cbn; tauto]).
    assert (Ne' : us <> []).
    { inversion Hss as [z us2 Hz|z l2 ts2 ds2 us2 Hz Hd2 Hs2]; subst; [eapply reads_ne; eassumption|]. destruct Hd2 as [j ->]. intros E0. apply app_eq_nil in E0. destruct E0 as [_ E0]. discriminate. }
    pose proof (reads_ne a ts Ha) as Ne.
    cbn [app]. unfold p_type_step. do 7 (rewrite alt_err; [|eexists; reflexivity]). apply alt_ok. unfold p_tuple.
    rewrite alt_err; [|destruct ts; [congruence|]; eexists; reflexivity]. rewrite alt_err.
    + apply group_ok. destruct (tuple_many a (b :: l) (ts ++ ds ++ us) H ltac:(discriminate) Hn2 (S (length (ts ++ ds ++ us))) ltac:(lia)) as (ini & z & zs & E1 & E2 & Hz & Hsz & E3).
      rewrite (seq_ok _ _ _ ini zs).
      * rewrite (seq_ok _ _ _ z []); [rewrite E1; reflexivity|]. unfold p_type_opt_comma. rewrite (seq_ok _ _ _ z []); [reflexivity|]. apply read_all; [exact Hz | lia].
      * unfold p_many. rewrite E3. cbn [bind]. destruct ini; [congruence | reflexivity].
    + cbn [p_group delim_eqb]. unfold p_seq at 1. unfold p_type_opt_comma. rewrite (seq_ok _ _ _ a (ds ++ us)) by exact E.
      rewrite (seq_ok _ _ _ (Some tt) us) by (apply opt_ok, by_mark_parsed, Hd). cbn [bind p_ret]. destruct us; [congruence|]. eexists. reflexivity.
  - assert (Hp : stop_plus rest) by (destruct Hr as [Hr|[_ Hr]]; [apply stop_weak, Hr | exact Hr]).
    assert (G : p_type_step (p_type n) n (us ++ rest) = p_path (p_type n) n (us ++ rest)).
    { assert (Q : forall s vs y, reads_segment s vs -> p_type_step (p_type n) n (vs ++ y) = p_path (p_type n) n (vs ++ y)).
      { intros s vs y Hv. assert (J : forall id r, ~ reserved id -> p_type_step (p_type n) n (TId id :: r) = p_path (p_type n) n (TId id :: r)).
        { intros id r Hk. apply step_ident; intros ->; apply Hk; cbn; tauto. }
        destruct Hv as [id shim zs Hk Hz|id args ws j1 j2 shim zs Hk Ha Hz|id ws w o ts j1 j2 shim zs Hk Hb Ho Hz|o ts j1 j2 Ha| |j w k Hw]; try (apply J; exact Hk).
        - cbn [app]. unfold p_type_step. do 9 (rewrite alt_err; [|eexists; reflexivity]). reflexivity.
        - cbn [app]. unfold p_type_step. do 9 (rewrite alt_err; [|eexists; reflexivity]). reflexivity.
        - cbn [app]. unfold p_type_step. do 9 (rewrite alt_err; [|eexists; reflexivity]). reflexivity. }
      destruct H as [s ts Hsg|s l ts ds us Hsg Hd Hss]; [exact (Q s ts rest Hsg)|]. rewrite <- app_assoc. exact (Q s ts _ Hsg). }
    rewrite G. apply path_ok; [exact H | lia | exact Hp].
Qed.
End Step.
Theorem reads_parse n t ts rest : reads t ts -> S (trees_size ts) < n -> (stop rest \/ (is_path t /\ stop_plus rest)) -> p_type n (ts ++ rest) = Ok (t, rest).
Proof.
  revert t ts rest. induction n as [|n IH]; intros t ts rest H Hn Hr; [lia|]. rewrite p_type_unfold. apply type_step_ok; [exact IH | exact H | lia | exact Hr].
Qed.
(** A text that writes a type is read as that type. *)
Theorem written_type_read_partial : forall t s, writes t s -> parse_type s = Ok t.
Proof.
  intros t s (ts & Sp & R). unfold parse_type. rewrite (spelled_tokens ts s Sp). cbn [bind].
  pose proof (reads_parse (S (S (trees_size ts))) t ts [] R ltac:(lia) (or_introl Logic.I)) as Q. rewrite app_nil_r in Q. rewrite Q. reflexivity.
Qed.
(** No text writes two types. *)
Theorem written_type_unique : forall t u s, writes t s -> writes u s -> t = u.
Proof. intros t u s A B. apply written_type_read_partial in A, B. congruence. Qed.
