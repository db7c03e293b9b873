(** Property C96: what is sent for a typed line means what was typed. *)
From Coq Require Import Ascii String List ZArith NArith Lia Bool.
From Coq Require Import ZifyBool ZifyNat ZifyN.
From Verif Require Import Base NumText ExprModel ExprSpec ExprLexProofs JsonModel ClientModel.
From Verif Require Import ExprModel.
Import ListNotations.

(** ** Texts without string literals *)
(** Without quotes and without the four control characters that only Python takes for white space. *)
Definition plain_char (c : char) : Prop := (c < 128)%N /\ c <> 34%N /\ ~ (28 <= c <= 31)%N.
Definition plain_text (s : str) : Prop := Forall plain_char s.
Lemma plain_space c : plain_char c -> py_space c = is_whitespace c.
Proof. intros (_ & _ & H). unfold py_space. destruct (is_whitespace c); [reflexivity|]. cbn. lia. Qed.
Lemma plain_ascii s : plain_text s -> ascii_str s.
Proof. intros H. eapply Forall_impl; [|exact H]. intros c [A _]. exact A. Qed.

(** The words of a text. *)
Definition solid (w : str) : Prop := w <> [] /\ Forall (fun c => py_space c = false) w.
Definition gap (r : str) : Prop := match r with [] => True | c :: _ => py_space c = true end.
Lemma py_split_space c s : py_space c = true -> py_split (c :: s) = py_split s.
Proof. intros H. cbn [py_split]. now rewrite H. Qed.
Lemma py_split_word : forall w r, solid w -> gap r -> py_split (w ++ r) = w :: py_split r.
Proof.
  induction w as [|c w IH]; intros r [Hn H] G; [contradiction|]. inversion H as [|? ? Hc Hw]; subst. cbn [app py_split]. rewrite Hc.
  destruct w as [|d w].
  - cbn [app]. destruct r as [|e r]; [reflexivity|]. cbn in G. rewrite G. reflexivity.
  - cbn [app]. inversion Hw as [|? ? Hd _]; subst. rewrite Hd. change (d :: w ++ r) with ((d :: w) ++ r). rewrite IH by (try split; [discriminate | exact Hw | exact G] || (split; [discriminate | exact Hw]) || exact G). reflexivity.
Qed.
(** Every text is white space around its words. *)
Lemma first_word s : (py_split s = [] /\ Forall (fun c => py_space c = true) s) \/
  exists l w r, s = l ++ w ++ r /\ Forall (fun c => py_space c = true) l /\ solid w /\ gap r /\ py_split s = w :: py_split r.
Proof.
  induction s as [|c s IH]; [left; split; [reflexivity | constructor]|]. destruct (py_space c) eqn:Hc.
  - rewrite py_split_space by exact Hc. destruct IH as [[E F]|(l & w & r & -> & Fl & Sw & G & E)].
    + left. split; [exact E | now constructor].
    + right. exists (c :: l), w, r. repeat split; try (now constructor); try apply Sw; auto.
  - right. assert (H : exists w r, c :: s = w ++ r /\ solid w /\ gap r).
    { clear IH. revert c Hc. induction s as [|d s IH]; intros c Hc.
      - exists [c], []. repeat split; [discriminate | repeat constructor; exact Hc].
      - destruct (py_space d) eqn:Hd.
        + exists [c], (d :: s). repeat split; [discriminate | repeat constructor; exact Hc | exact Hd].
        + destruct (IH d Hd) as (w & r & E & [Nw Fw] & G). exists (c :: w), r. rewrite E. repeat split; [discriminate | now constructor | exact G]. }
    destruct H as (w & r & E & Sw & G). exists [], w, r. repeat split; try apply Sw; auto. rewrite E. now apply py_split_word.
Qed.
Lemma span_gap p w r : (forall c, py_space c = true -> p c = false) -> gap r -> span p (w ++ r) = (fst (span p w), snd (span p w) ++ r).
Proof.
  intros Hp G. induction w as [|c w IH]; cbn [app span].
  - destruct r as [|d r]; [reflexivity|]. cbn in G. cbn [span fst snd app]. rewrite (Hp d G). reflexivity.
  - destruct (p c) eqn:Pc; [|reflexivity]. rewrite IH. destruct (span p w). reflexivity.
Qed.
Lemma space_not_ident c : py_space c = true -> is_ident_char c = false.
Proof. unfold py_space, is_whitespace, is_ident_char, is_ascii_alpha, is_digit. lia. Qed.
Lemma space_not_digit c : py_space c = true -> is_digit c = false.
Proof. unfold py_space, is_whitespace, is_digit. lia. Qed.
Lemma space_not_hex c : py_space c = true -> is_hexdigit c = false.
Proof. unfold py_space, is_whitespace, is_hexdigit, is_digit. lia. Qed.
(** The lexer reads a word without looking past it. *)
Definition more (r : str) (x : res (token * str)) : res (token * str) := rmap (fun p => (fst p, snd p ++ r)) x.
Lemma bind_more (x : res Z) (a : str) r : (v <- x ;; Ok (TNumber v, a ++ r)) = more r (v <- x ;; Ok (TNumber v, a)).
Proof. destruct x; reflexivity. Qed.
Lemma starts_0x k w r : k = 120%N \/ k = 88%N -> gap r -> w <> [] -> starts_with (w ++ r) [48%N; k] = starts_with w [48%N; k].
Proof.
  intros Hk G Hw. destruct w as [|a [|b w]]; [contradiction | |].
  - destruct r as [|d r]; [reflexivity|]. cbn in G. cbn [app starts_with]. destruct (N.eqb_spec 48 a); cbn [andb]; [|reflexivity].
    assert ((k =? d)%N = false) as ->; [|reflexivity]. apply N.eqb_neq. intros <-. destruct Hk as [-> | ->]; discriminate G.
  - cbn [app starts_with]. reflexivity.
Qed.
Lemma numS_word w r : solid w -> gap r -> numS (w ++ r) = more r (numS w).
Proof.
  intros [Nw Fw] G. unfold numS. change (st "0x") with [48%N; 120%N]. change (st "0X") with [48%N; 88%N]. rewrite !starts_0x by auto.
  destruct (starts_with w [48%N; 120%N] || starts_with w [48%N; 88%N]) eqn:E.
  - destruct w as [|a [|b w]]; [discriminate | cbn [starts_with] in E; rewrite ?andb_false_r in E; discriminate E|]. cbn [app skipn]. rewrite span_gap by (exact G || exact space_not_hex). destruct (span is_hexdigit w) as [h x]. cbn [fst snd]. apply bind_more.
  - rewrite span_gap by (exact G || exact space_not_digit). destruct (span is_digit w) as [h x]. cbn [fst snd]. apply bind_more.
Qed.
Lemma next_word w r : solid w -> Forall plain_char w -> gap r -> nextS (w ++ r) = more r (nextS w).
Proof.
  intros S P G. pose proof S as [Nw Fw]. destruct w as [|c w]; [contradiction|]. inversion Fw as [|? ? Hc Fw']; subst. inversion P as [|? ? Pc P']; subst.
  assert (W : is_whitespace c = false) by (rewrite <- plain_space by exact Pc; exact Hc).
  assert (K : N.eqb c 34 = false) by (apply N.eqb_neq; apply Pc).
  unfold nextS. cbn [app span]. rewrite W. cbn [snd]. rewrite K.
  repeat match goal with |- context [if N.eqb c ?k then _ else _] => destruct (N.eqb_spec c k); [try reflexivity|] end.
  - destruct w as [|d w]; cbn [app].
    + destruct r as [|d r]; [reflexivity|]. cbn in G. destruct (N.eqb_spec d 58) as [-> |]; [discriminate G | reflexivity].
    + destruct (N.eqb d 58); reflexivity.
  - destruct (is_ident_start c).
    { change (c :: w ++ r) with ((c :: w) ++ r). rewrite (span_gap is_ident_char) by (exact G || exact space_not_ident). destruct (span is_ident_char (c :: w)) as [i x]. cbn [fst snd]. destruct (str_eqb i (st "mut")); reflexivity. }
    destruct (is_digit c); [apply (numS_word (c :: w) r S G) | reflexivity].
Qed.
Lemma next_lead l s : Forall (fun c => py_space c = true) l -> plain_text l -> nextS (l ++ s) = nextS s.
Proof.
  induction 1 as [|c l Hc F IH]; intros P; [reflexivity|]. inversion P as [|? ? Pc P']; subst. rewrite <- (IH P'). unfold nextS. cbn [app span].
  assert (W : is_whitespace c = true) by (rewrite <- plain_space by exact Pc; exact Hc). rewrite W. destruct (span is_whitespace (l ++ s)). reflexivity.
Qed.
(** ** Tokens depend on the words only *)
Fixpoint tokS (n : nat) (s : str) : res (list token) :=
  match n with
  | O => Fuel
  | S n => '(t, r) <- nextS s ;; match t with TEof => Ok [TEof] | _ => ts <- tokS n r ;; Ok (t :: ts) end
  end.
Lemma tokenize_tokS : forall n pre s, ascii_str (pre ++ s) -> tokenize_loop n (pre ++ s) (List.length pre) = tokS n s.
Proof.
  induction n as [|n IH]; intros pre s Ha; [reflexivity|]. cbn [tokenize_loop tokS]. rewrite next_token_at by exact Ha.
  assert (Hs : ascii_str s) by (unfold ascii_str in *; apply Forall_app in Ha; tauto).
  destruct (nextS s) as [[t r]| | |] eqn:E; try reflexivity. destruct (nextS_ok s t r Hs E) as [[m [-> _]] _]. cbn [lift bind].
  rewrite pos_of_app3. specialize (IH (pre ++ m) r). rewrite <- app_assoc in IH. rewrite IH by exact Ha. reflexivity.
Qed.
Definition size (ws : list str) : nat := fold_right (fun w n => List.length w + n) 0 ws.
Definition put (r : str) (ws : list str) : list str := match r with [] => ws | _ => r :: ws end.
Lemma put_split w r : Forall (fun c => py_space c = false) w -> gap r -> py_split (w ++ r) = put w (py_split r).
Proof. intros F G. destruct w as [|c w]; [reflexivity|]. apply py_split_word; [split; [discriminate | exact F] | exact G]. Qed.
Lemma same_words : forall k a b n m, plain_text a -> plain_text b -> py_split a = py_split b -> (size (py_split a) < k)%nat -> (k <= n)%nat -> (k <= m)%nat -> tokS n a = tokS m b.
Proof.
  induction k as [|k IH]; intros a b n m Pa Pb E Hk Hn Hm; [lia|]. destruct n as [|n]; [lia|]. destruct m as [|m]; [lia|]. cbn [tokS].
  destruct (first_word a) as [[Ea Fa]|(la & w & ra & -> & Fa & Sw & Ga & Ea)].
  - destruct (first_word b) as [[Eb Fb]|(lb & w' & rb & -> & _ & _ & _ & Eb)]; [|congruence].
    rewrite <- (app_nil_r a), <- (app_nil_r b), !next_lead by assumption. reflexivity.
  - destruct (first_word b) as [[Eb Fb]|(lb & w' & rb & -> & Fb & Sw' & Gb & Eb)]; [congruence|].
    assert (Q : w :: py_split ra = w' :: py_split rb) by congruence. injection Q as <- Er.
    unfold plain_text in Pa, Pb. apply Forall_app in Pa, Pb. destruct Pa as [Pla Pa], Pb as [Plb Pb]. apply Forall_app in Pa, Pb. destruct Pa as [Pw Pa], Pb as [_ Pb].
    rewrite (next_lead la), (next_lead lb) by assumption. rewrite !next_word by assumption.
    destruct (nextS w) as [[t x]| | |] eqn:En; try reflexivity. cbn [more rmap bind fst snd].
    destruct (nextS_ok w t x (plain_ascii _ Pw) En) as [[y [Ew Hy]] _].
    assert (Nt : t <> TEof -> tokS n (x ++ ra) = tokS m (x ++ rb)).
    { intros Ht. specialize (Hy Ht). destruct Sw as [_ Fw]. rewrite Ew in Fw, Pw. apply Forall_app in Fw, Pw. destruct Fw as [_ Fx], Pw as [_ Px].
      apply IH; try (apply Forall_app; split; assumption); try lia; rewrite !put_split by assumption; [now rewrite Er|].
      rewrite Ea in Hk. cbn [size fold_right] in Hk. rewrite Ew, app_length in Hk. fold (size (py_split ra)) in Hk. destruct y as [|c y]; [contradiction|]. cbn [List.length] in Hk. destruct x as [|d x]; cbn [put size fold_right List.length] in *; fold (size (py_split ra)) in *; lia. }
    destruct t; try reflexivity; rewrite Nt by discriminate; reflexivity.
Qed.
Lemma size_cons w ws : size (w :: ws) = (List.length w + size ws)%nat.
Proof. reflexivity. Qed.
Lemma size_split s : (size (py_split s) <= List.length s)%nat.
Proof.
  induction s as [|c s IH]; [cbn; lia|]. cbn [py_split]. destruct (py_space c); [cbn [List.length]; lia|]. destruct s as [|d s]; [cbn; lia|].
  destruct (py_space d); [rewrite size_cons; cbn [List.length] in *; lia|]. destruct (py_split (d :: s)) as [|w ws]; rewrite size_cons in *; cbn [List.length] in *; cbn [size fold_right] in *; lia.
Qed.
(** White space between words does not change the meaning of an expression (without string literals). *)
Theorem words_decide : forall a b, plain_text a -> plain_text b -> py_split a = py_split b -> parse_expression a = parse_expression b.
Proof.
  intros a b Pa Pb E. unfold parse_expression, tokenize.
  pose proof (tokenize_tokS (S (List.length a)) [] a (plain_ascii _ Pa)) as Ta. pose proof (tokenize_tokS (S (List.length b)) [] b (plain_ascii _ Pb)) as Tb. cbn [app List.length] in Ta, Tb. rewrite Ta, Tb.
  rewrite (same_words (S (size (py_split a))) a b (S (List.length a)) (S (List.length b))); auto; [pose proof (size_split a); lia|]. rewrite E. pose proof (size_split b). lia.
Qed.
Print Assumptions words_decide.
Lemma split_solid : forall s, Forall solid (py_split s).
Proof.
  assert (G : forall k s, (List.length s < k)%nat -> Forall solid (py_split s)); [|intros s; eapply G; apply Nat.lt_succ_diag_r].
  induction k as [|k IH]; intros s Hk; [lia|]. destruct (first_word s) as [[-> _]|(l & w & r & -> & _ & Sw & _ & ->)]; [constructor|]. constructor; [exact Sw|]. apply IH. rewrite !app_length in Hk. destruct Sw as [Nw _]. destruct w; [contradiction|]. cbn in Hk. lia.
Qed.
Lemma split_join ws : Forall solid ws -> py_split (join (st " ") ws) = ws.
Proof.
  induction 1 as [|w ws Sw F IH]; [reflexivity|]. destruct ws as [|v ws].
  - cbn [join]. rewrite <- (app_nil_r w) at 1. now rewrite py_split_word.
  - change (join (st " ") (w :: v :: ws)) with (w ++ 32%N :: join (st " ") (v :: ws)). rewrite py_split_word by (exact Sw || reflexivity). rewrite py_split_space by reflexivity. now rewrite IH.
Qed.
Lemma split_plain s : plain_text s -> Forall plain_text (py_split s).
Proof.
  assert (G : forall k s, (List.length s < k)%nat -> plain_text s -> Forall plain_text (py_split s)); [|intros; eapply G; [apply Nat.lt_succ_diag_r | assumption]].
  induction k as [|k IH]; intros x Hk P; [lia|]. destruct (first_word x) as [[-> _]|(l & w & r & -> & _ & Sw & _ & ->)]; [constructor|].
  unfold plain_text in P. apply Forall_app in P. destruct P as [_ P]. apply Forall_app in P. destruct P as [P1 P2]. constructor; [exact P1|]. apply IH; [|exact P2]. rewrite !app_length in Hk. destruct Sw as [Nw _]. destruct w; [contradiction|]. cbn in Hk. lia.
Qed.
Lemma join_plain ws : Forall plain_text ws -> plain_text (join (st " ") ws).
Proof.
  induction 1 as [|w ws Hw F IH]; [constructor|]. destruct ws as [|v ws]; [exact Hw|]. change (join (st " ") (w :: v :: ws)) with (w ++ 32%N :: join (st " ") (v :: ws)).
  apply Forall_app. split; [exact Hw|]. constructor; [repeat split; lia | exact IH].
Qed.
(** The command meant by a typed word: one of five short forms, or the word itself. *)
Definition short_forms : list (str * str) :=
  [(st "e", st "eval"); (st "f", st "functions"); (st "m", st "methods"); (st "p", st "print"); (st "s", st "status")].
Definition means (w c : str) : Prop := In (w, c) short_forms \/ c = w /\ ~ In w (map fst short_forms).
Lemma means_shortcode w c : means w c -> shortcode w = c.
Proof.
  intros [H|[-> H]].
  - cbn in H. repeat destruct H as [H|H]; try (injection H as <- <-; reflexivity). destruct H.
  - unfold shortcode. destruct (str_eqb w (st "e")) eqn:E1; [apply str_eqb_eq in E1; exfalso; apply H; subst; left; reflexivity|].
    destruct (str_eqb w (st "f")) eqn:E2; [apply str_eqb_eq in E2; exfalso; apply H; subst; right; left; reflexivity|].
    destruct (str_eqb w (st "m")) eqn:E3; [apply str_eqb_eq in E3; exfalso; apply H; subst; do 2 right; left; reflexivity|].
    destruct (str_eqb w (st "p")) eqn:E4; [apply str_eqb_eq in E4; exfalso; apply H; subst; do 3 right; left; reflexivity|].
    destruct (str_eqb w (st "s")) eqn:E5; [apply str_eqb_eq in E5; exfalso; apply H; subst; do 4 right; left; reflexivity | reflexivity].
Qed.
(** C96, full claim: the expression the server evaluates for "rd <command> <text>" is the one typed. It is, unless the text
    contains string literals. *)
Theorem typed_expression_partial : forall lead w c text, Forall (fun c => py_space c = true) lead -> solid w -> means w c -> c <> st "status" -> plain_text text ->
  exists args, typed (lead ++ w ++ st " " ++ text) = Some (c, args) /\ parse_expression (join (st " ") args) = parse_expression text.
Proof.
  intros lead w c text Fl Sw Mc Ns P. apply means_shortcode in Mc. subst c. exists (py_split text). split.
  - unfold typed. assert (E : py_split (lead ++ w ++ st " " ++ text) = w :: py_split text).
    { induction Fl as [|c l Hc F IH]; [|cbn [app]; now rewrite py_split_space]. cbn [app]. rewrite py_split_word by (exact Sw || reflexivity). reflexivity. }
    rewrite E. apply str_eqb_neq in Ns. rewrite Ns. reflexivity.
  - apply words_decide; [apply join_plain, split_plain; exact P | exact P | apply split_join, split_solid].
Qed.
Print Assumptions typed_expression_partial.
(** White space inside a literal is changed: another key is looked up. *)
Theorem typed_expression_refuted : exists w c text args, solid w /\ means w c /\ typed (w ++ st " " ++ text) = Some (c, args) /\
  parse_expression text = Ok (EIndex (EVariable (st "m")) (EString (st "a  b"))) /\ parse_expression (join (st " ") args) = Ok (EIndex (EVariable (st "m")) (EString (st "a b"))).
Proof.
  exists (st "e"), (st "eval"), (st "m[" ++ [34%N] ++ st "a  b" ++ [34%N] ++ st "]"). eexists. split; [split; [discriminate | repeat constructor]|]. split; [left; left; reflexivity|]. split; [vm_compute; reflexivity|]. split; vm_compute; reflexivity.
Qed.
Print Assumptions typed_expression_refuted.
