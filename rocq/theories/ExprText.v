(** C06, C11: characters outside ASCII.  White space and lengths are those of Unicode and of UTF-8; outside string
    literals every other character is refused; a literal that contains one is never read as written. *)
From Coq Require Import Ascii String List ZArith NArith Bool Lia Arith.
From Coq Require Import ZifyBool ZifyNat ZifyN.
From Verif Require Import Base NumText ExprModel ExprSpec ExprParseProofs ExprLexProofs ExprMore Utf8.
From Verif Require Import TypedProps.
From Verif Require Import Utf8.
Import ListNotations.
Open Scope nat_scope.

(** ** The characters of Unicode's White_Space property (PropList.txt) *)
Definition white_space : list (N * N) :=
  [(9, 13); (32, 32); (133, 133); (160, 160); (5760, 5760); (8192, 8202); (8232, 8232); (8233, 8233); (8239, 8239); (8287, 8287); (12288, 12288)]%N.
Ltac first_range := solve [first [exists 9%N, 13%N; split; [cbn; tauto | lia]
  | exists 32%N, 32%N; split; [cbn; tauto | lia]
  | exists 133%N, 133%N; split; [cbn; tauto | lia]
  | exists 160%N, 160%N; split; [cbn; tauto | lia]
  | exists 5760%N, 5760%N; split; [cbn; tauto | lia]
  | exists 8192%N, 8202%N; split; [cbn; tauto | lia]
  | exists 8232%N, 8232%N; split; [cbn; tauto | lia]
  | exists 8233%N, 8233%N; split; [cbn; tauto | lia]
  | exists 8239%N, 8239%N; split; [cbn; tauto | lia]
  | exists 8287%N, 8287%N; split; [cbn; tauto | lia]
  | exists 12288%N, 12288%N; split; [cbn; tauto | lia]]].
Theorem white_space_exact : forall c, is_whitespace c = true <-> exists lo hi, In (lo, hi) white_space /\ (lo <= c <= hi)%N.
Proof.
  intros c. unfold is_whitespace, white_space. split.
  - intros H. rewrite !orb_true_iff, !andb_true_iff in H.
    repeat (destruct H as [H | H]); first_range.
  - intros (lo & hi & H & K). cbn [In] in H. repeat destruct H as [H | H]; try contradiction; injection H as <- <-; rewrite !orb_true_iff, !andb_true_iff; lia.
Qed.
Print Assumptions white_space_exact.
Theorem lengths_are_utf8 : forall s, byte_len s = List.length (utf8 s).
Proof.
  induction s as [|c s IH]; [reflexivity|]. cbn [byte_len fold_right]. fold (byte_len s). rewrite IH. unfold utf8. cbn [flat_map]. rewrite app_length. f_equal.
  unfold len_utf8, utf8_char. destruct (c <? 128)%N eqn:A, (c <? 2048)%N eqn:B, (c <? 65536)%N eqn:C; repeat match goal with |- context [if ?b then _ else _] => destruct b eqn:?; try reflexivity; try lia end.
Qed.
Print Assumptions lengths_are_utf8.
(** Slicing a text is slicing its bytes. *)
Lemma split_bytes : forall s n a b, split_at_byte s n = Some (a, b) -> s = a ++ b /\ byte_len a = n.
Proof.
  induction s as [|c s IH]; intros n a b H; (destruct n as [|n]; [injection H as <- <-; split; reflexivity|]); [discriminate|].
  cbn [split_at_byte] in H. destruct (Nat.leb_spec (len_utf8 c) (S n)); [|discriminate]. destruct (split_at_byte s (S n - len_utf8 c)) as [[a' b']|] eqn:E; [|discriminate].
  injection H as <- <-. destruct (IH _ _ _ E) as [-> L]. split; [reflexivity|]. cbn [byte_len fold_right]. fold (byte_len a'). lia.
Qed.
Theorem slice_is_of_bytes : forall s a b x, slice s a b = Ok x -> exists pre post, s = pre ++ x ++ post /\ List.length (utf8 pre) = a /\ List.length (utf8 (pre ++ x)) = b.
Proof.
  intros s a b x H. unfold slice in H. destruct (a <=? b) eqn:L; [|discriminate]. destruct (split_at_byte s b) as [[p q]|] eqn:E; [|discriminate].
  destruct (split_at_byte p a) as [[u w]|] eqn:F; [|discriminate]. injection H as <-. apply split_bytes in E. apply split_bytes in F. destruct E as [-> E], F as [-> F].
  exists u, q. rewrite <- !lengths_are_utf8, <- app_assoc. repeat split; assumption.
Qed.
Print Assumptions slice_is_of_bytes.

Lemma byte_len_app a b : byte_len (a ++ b) = byte_len a + byte_len b.
Proof. induction a as [|c a IH]; [reflexivity|]. cbn [app byte_len fold_right]. fold (byte_len (a ++ b)) (byte_len a). lia. Qed.
Lemma ascii_byte_len s : ascii_str s <-> byte_len s = List.length s.
Proof.
  induction s as [|c s IH]; [split; [reflexivity | constructor]|]. cbn [byte_len fold_right List.length]. fold (byte_len s). pose proof (byte_len_ge s). unfold len_utf8. split.
  - intros H1. inversion H1 as [|? ? Hc Hs]; subst. apply IH in Hs. destruct (c <? 128)%N eqn:?; lia.
  - intros H1. destruct (c <? 128)%N eqn:?; [|destruct (c <? 2048)%N, (c <? 65536)%N; lia]. constructor; [lia | apply IH; lia].
Qed.

(** ** Outside literals *)
Lemma ascii_app a b : ascii_str (a ++ b) <-> ascii_str a /\ ascii_str b.
Proof. apply Forall_app. Qed.
Lemma split_front pre r : ascii_str pre -> split_at_byte (pre ++ r) (List.length pre) = Some (pre, r).
Proof.
  induction 1 as [|c s Hc Hs IH]; [destruct r; reflexivity|]. cbn [app List.length split_at_byte].
  assert (len_utf8 c = 1) as -> by (unfold len_utf8; destruct (c <? 128)%N eqn:?; lia). cbn [Nat.leb Nat.sub]. rewrite Nat.sub_0_r, IH. reflexivity.
Qed.
Lemma slice_front pre mid r : ascii_str pre -> ascii_str mid -> slice (pre ++ mid ++ r) (List.length pre) (List.length (pre ++ mid)) = Ok mid.
Proof.
  intros Hp Hm. unfold slice. assert ((List.length pre <=? List.length (pre ++ mid)) = true) as -> by (rewrite app_length; lia).
  rewrite app_assoc, split_front, split_front by (try apply ascii_app; tauto). reflexivity.
Qed.
Lemma span_ascii p : (forall c, p c = true -> (c < 128)%N) -> forall s, ascii_str (fst (span p s)).
Proof. intros H. induction s as [|c s IH]; [constructor|]. cbn [span]. destruct (p c) eqn:E; [|constructor]. destruct (span p s). constructor; auto. Qed.
Lemma ident_ascii c : is_ident_char c = true -> (c < 128)%N. Proof. unfold is_ident_char, is_ascii_alpha, is_digit. lia. Qed.
Lemma digit_ascii c : is_digit c = true -> (c < 128)%N. Proof. unfold is_digit. lia. Qed.
Lemma hexdigit_ascii c : is_hexdigit c = true -> (c < 128)%N. Proof. unfold is_hexdigit, is_digit. lia. Qed.
Lemma number_at pre c s : ascii_str pre -> is_digit c = true ->
  ('(v, p) <- read_number (pre ++ c :: s) (List.length pre) ;; Ok (TNumber v, p)) = lift (pre ++ c :: s) (numS (c :: s)).
Proof.
  intros Ha Hd. unfold read_number, numS, slice_from. rewrite split_front by exact Ha. cbn [bind].
  destruct (starts_with (c :: s) (st "0x") || starts_with (c :: s) (st "0X")) eqn:E.
  - assert (Q : exists d s', s = d :: s' /\ (d < 128)%N).
    { apply orb_true_iff in E. destruct E as [E | E]; apply starts_with_spec in E; destruct E as [r Hr]; cbn in Hr; injection Hr as _ ->; do 2 eexists; (split; [reflexivity | lia]). }
    destruct Q as (d & s' & -> & Hd'). cbn [skipn].
    assert (Hadv : advance (pre ++ c :: d :: s') (advance (pre ++ c :: d :: s') (List.length pre)) = List.length (pre ++ [c; d])).
    { rewrite adv_at. rewrite advance_lt; rewrite !app_length; simpl; lia. }
    rewrite Hadv. replace (pre ++ c :: d :: s') with ((pre ++ [c; d]) ++ s') in * by (rewrite <- app_assoc; reflexivity).
    rewrite scan_at. pose proof (span_app is_hexdigit s') as Hsp. pose proof (span_ascii is_hexdigit hexdigit_ascii s') as As.
    destruct (span is_hexdigit s') as [h r]. cbn [fst snd] in *. subst s'.
    replace (List.length pre + 2) with (List.length (pre ++ [c; d])) by (rewrite app_length; reflexivity).
    rewrite slice_front; [|apply ascii_app; split; [exact Ha | repeat constructor; [exact (digit_ascii _ Hd) | exact Hd']] | exact As].
    cbn [bind]. destruct (u64_from_digits 16 h); try reflexivity. cbn [bind lift]. rewrite app_assoc, pos_of_app. reflexivity.
  - rewrite scan_at. pose proof (span_app is_digit (c :: s)) as Hsp. pose proof (span_ascii is_digit digit_ascii (c :: s)) as As.
    destruct (span is_digit (c :: s)) as [h r]. cbn [fst snd] in *. rewrite <- Hsp in *. rewrite slice_front by assumption.
    cbn [bind]. destruct (u64_from_digits 10 h); try reflexivity. cbn [bind lift]. rewrite app_assoc, pos_of_app. reflexivity.
Qed.
(** One token, when the text up to it is ASCII and it is not a literal. *)
Lemma token_at pre s : ascii_str (pre ++ fst (span is_whitespace s)) -> hd_error (snd (span is_whitespace s)) <> Some 34%N ->
  next_token (pre ++ s) (List.length pre) = lift (pre ++ s) (nextS s).
Proof.
  intros Ha Hq. unfold next_token, nextS, skip_whitespace. rewrite scan_at.
  pose proof (span_app is_whitespace s) as Hsp. destruct (span is_whitespace s) as [ws s1]. cbn [fst snd] in *. subst s.
  rewrite app_assoc in *. set (p := pre ++ ws) in *. clearbody p.
  rewrite cur_at. destruct s1 as [|c r]; cbn [hd_error].
  - cbn. rewrite app_nil_r. unfold pos_of. simpl. rewrite Nat.sub_0_r. reflexivity.
  - assert (Hadv : forall t, Ok (t, advance (p ++ c :: r) (List.length p)) = lift (p ++ c :: r) (Ok (t, r))).
    { intros t. cbn. rewrite adv_at. replace (p ++ c :: r) with ((p ++ [c]) ++ r) by (rewrite <- app_assoc; reflexivity). rewrite pos_of_app. reflexivity. }
    destruct (N.eqb c 46); [apply Hadv|]. destruct (N.eqb c 42); [apply Hadv|].
    destruct (N.eqb c 38); [apply Hadv|]. destruct (N.eqb c 91); [apply Hadv|].
    destruct (N.eqb c 93); [apply Hadv|]. destruct (N.eqb c 40); [apply Hadv|].
    destruct (N.eqb c 41); [apply Hadv|]. destruct (N.eqb c 60); [apply Hadv|].
    destruct (N.eqb c 62); [apply Hadv|].
    destruct (N.eqb c 58).
    { rewrite adv_at. replace (p ++ c :: r) with ((p ++ [c]) ++ r) in * by (rewrite <- app_assoc; reflexivity).
      cbv zeta. rewrite cur_at. destruct r as [|d r]; cbn [hd_error]; [reflexivity|].
      destruct (N.eqb d 58); [|reflexivity]. cbn. rewrite adv_at.
      replace ((p ++ [c]) ++ d :: r) with (((p ++ [c]) ++ [d]) ++ r) by (rewrite <- !app_assoc; reflexivity).
      rewrite pos_of_app. reflexivity. }
    destruct (N.eqb c 44); [apply Hadv|].
    destruct (is_ident_start c).
    { unfold read_identifier. rewrite scan_at. pose proof (span_app is_ident_char (c :: r)) as Hs2. pose proof (span_ascii is_ident_char ident_ascii (c :: r)) as As.
      destruct (span is_ident_char (c :: r)) as [i r2]. cbn [fst snd] in *. rewrite <- Hs2 in *.
      rewrite slice_front by assumption. cbn [bind lift]. rewrite app_assoc, pos_of_app. reflexivity. }
    destruct (is_digit c) eqn:Ed; [apply number_at; assumption|].
    destruct (N.eqb_spec c 34) as [-> |]; [exfalso; apply Hq; reflexivity | reflexivity].
Qed.
(** What follows [s] begins with a character that belongs to no token and to no white space. *)
Definition foreign (c : char) : Prop := (128 <= c)%N /\ is_whitespace c = false.
Lemma span_stop p s c r : p c = false -> span p (s ++ c :: r) = (fst (span p s), snd (span p s) ++ c :: r).
Proof. intros H. induction s as [|d s IH]; cbn [app span]; [rewrite H; reflexivity|]. destruct (p d); [|reflexivity]. rewrite IH. destruct (span p s). reflexivity. Qed.
Lemma number_foreign s c r : foreign c -> s <> [] -> numS (s ++ c :: r) = more (c :: r) (numS s).
Proof.
  intros [Hc _] Ns. assert (K : forall p, (forall c, p c = true -> (c < 128)%N) -> p c = false) by (intros p H; destruct (p c) eqn:E; [apply H in E; lia | reflexivity]).
  unfold numS. destruct s as [|a s]; [contradiction|]. change (st "0x") with [48%N; 120%N]. change (st "0X") with [48%N; 88%N].
  assert (B : forall k, (k < 128)%N -> starts_with ((a :: s) ++ c :: r) [48%N; k] = starts_with (a :: s) [48%N; k]).
  { intros k Hk. destruct s as [|b s]; [|reflexivity]. cbn [app starts_with]. destruct (N.eqb 48 a); cbn [andb]; [|reflexivity]. assert (N.eqb k c = false) as -> by lia. reflexivity. }
  rewrite !B by lia. destruct (starts_with (a :: s) [48%N; 120%N] || starts_with (a :: s) [48%N; 88%N]) eqn:E.
  - destruct s as [|b s]; [cbn [starts_with] in E; rewrite ?andb_false_r in E; discriminate E|]. cbn [app skipn]. rewrite (span_stop _ _ _ _ (K _ hexdigit_ascii)). destruct (span is_hexdigit s) as [h x]. cbn [fst snd]. apply bind_more.
  - rewrite (span_stop _ _ _ _ (K _ digit_ascii)). destruct (span is_digit (a :: s)) as [h x]. cbn [fst snd]. apply bind_more.
Qed.
Lemma next_foreign s c r : ascii_str s -> ~ In 34%N s -> foreign c ->
  nextS (s ++ c :: r) = match snd (span is_whitespace s) with [] => Err "Unexpected character" | _ => more (c :: r) (nextS s) end.
Proof.
  intros Ha Hq F. pose proof F as [Hc Hw]. unfold nextS. rewrite (span_stop _ _ _ _ Hw). pose proof (span_app is_whitespace s) as Hsp.
  destruct (span is_whitespace s) as [ws s1]. cbn [fst snd] in *. destruct s1 as [|d s1].
  - cbn [app]. assert (K : forall k, (k < 128)%N -> N.eqb c k = false) by (intros; lia). rewrite !K by lia.
    assert (is_ident_start c = false) as -> by (unfold is_ident_start, is_ascii_alpha; lia). assert (is_digit c = false) as -> by (unfold is_digit; lia). reflexivity.
  - cbn [app]. assert (Nq : N.eqb d 34 = false) by (apply N.eqb_neq; intros ->; apply Hq; rewrite <- Hsp; apply in_or_app; right; left; reflexivity). rewrite Nq.
    repeat match goal with |- context [if N.eqb d ?k then _ else _] => destruct (N.eqb_spec d k); [try reflexivity|] end.
    + destruct s1 as [|e1 s1]; cbn [app]; [assert (N.eqb c 58 = false) as -> by lia; reflexivity | destruct (N.eqb e1 58); reflexivity].
    + destruct (is_ident_start d).
      { change (d :: s1 ++ c :: r) with ((d :: s1) ++ c :: r). rewrite (span_stop is_ident_char) by (unfold is_ident_char, is_ascii_alpha, is_digit; lia). destruct (span is_ident_char (d :: s1)) as [i x]. cbn [fst snd]. destruct (str_eqb i (st "mut")); reflexivity. }
      destruct (is_digit d); [apply (number_foreign (d :: s1) c r F); discriminate | reflexivity].
Qed.
Lemma next_good s : ascii_str s -> (exists t r, nextS s = Ok (t, r)) \/ exists m, nextS s = Err m.
Proof.
  intros Ha. pose proof (nextS_good s) as G. destruct (nextS s) as [[t r]| | |]; [left; eauto | right; eauto | contradiction G | contradiction G].
Qed.
Lemma tokens_refused c r : foreign c -> forall k n pre s, List.length s < k -> List.length s < n -> ascii_str (pre ++ s) -> ~ In 34%N s ->
  exists m, tokenize_loop n (pre ++ s ++ c :: r) (List.length pre) = Err m.
Proof.
  intros F. induction k as [|k IH]; intros n pre s Hk Hn Ha Hq; [lia|]. destruct n as [|n]; [lia|]. cbn [tokenize_loop].
  pose proof Ha as As. apply ascii_app in As. destruct As as [Ap As]. pose proof (span_app is_whitespace s) as Hsp. pose proof F as [Fc Fw].
  rewrite token_at.
  2: { rewrite (span_stop _ _ _ _ Fw). cbn [fst]. rewrite <- Hsp in As. apply ascii_app in As. apply ascii_app. tauto. }
  2: { rewrite (span_stop _ _ _ _ Fw). cbn [snd]. destruct (snd (span is_whitespace s)) as [|d s1] eqn:E; cbn [app hd_error]; intros Q; injection Q as Q; [lia|]. subst d. apply Hq. rewrite <- Hsp. apply in_or_app. right. left. reflexivity. }
  rewrite next_foreign by assumption. destruct (snd (span is_whitespace s)) as [|d s1] eqn:E; [eexists; reflexivity|].
  destruct (next_good s As) as [(t & x & N)|(m & N)]; rewrite N; [|eexists; reflexivity]. cbn [more rmap bind lift fst snd].
  destruct (nextS_ok s t x As N) as [[y [Ey Hy]] [_ Eof]].
  assert (Nt : t <> TEof).
  { intros ->. unfold nextS in N. rewrite E in N. repeat match type of N with context [if ?b then _ else _] => destruct b end; try discriminate.
    all: try (destruct s1 as [|e s1]; [discriminate|]; destruct (N.eqb e 58); discriminate).
    all: try (destruct (span is_ident_char (d :: s1)) as [i z]; destruct (str_eqb i (st "mut")); discriminate).
    all: try (destruct (scan_str s1) as [[? ?]|]; discriminate).
    all: unfold numS in N; destruct (_ || _); [destruct (span is_hexdigit _) as [h z]; destruct (u64_from_digits 16 h); discriminate | destruct (span is_digit _) as [h z]; destruct (u64_from_digits 10 h); discriminate]. }
  specialize (Hy Nt). subst s. rewrite <- app_assoc, pos_of_app3. destruct (IH n (pre ++ y) x) as [m T].
  - rewrite app_length in Hk. destruct y; [contradiction|]. cbn [List.length] in Hk. lia.
  - rewrite app_length in Hn. destruct y; [contradiction|]. cbn [List.length] in Hn. lia.
  - rewrite <- app_assoc. exact Ha.
  - intros H. apply Hq, in_or_app. right. exact H.
  - rewrite <- app_assoc in T. rewrite T. exists m. destruct t; try reflexivity. contradiction.
Qed.
(** Outside string literals a character that is neither ASCII nor white space makes the whole input refused, never
    misread and never a panic. *)
Theorem foreign_character_refused : forall pre c rest, ascii_str pre -> ~ In 34%N pre -> foreign c ->
  exists m, parse_expression (pre ++ c :: rest) = Err m.
Proof.
  intros pre c rest Ha Hq F. destruct (tokens_refused c rest F (S (List.length pre)) (S (List.length (pre ++ c :: rest))) [] pre) as [m T]; try assumption; [lia | rewrite app_length; lia|].
  cbn [app List.length] in T. exists m. unfold parse_expression, tokenize. rewrite T. reflexivity.
Qed.
Print Assumptions foreign_character_refused.
Example foreign_example : foreign 233%N /\ parse_expression (st "caf" ++ [233%N]) = Err "Unexpected character".
Proof. split; [split; [lia | reflexivity] | vm_compute; reflexivity]. Qed.

(** ** Inside literals *)
Lemma cur_next (p : str) (d c : char) (s : str) : current_char (p ++ d :: c :: s) (List.length (p ++ [d])) = Some c.
Proof. pose proof (cur_at (p ++ [d]) (c :: s)) as H. rewrite <- app_assoc in H. exact H. Qed.
Lemma string_loop_general : forall s, literal_content s -> forall n pre mid after, List.length s < n ->
  read_string_loop n (pre ++ mid ++ s ++ 34%N :: after) (List.length pre) (List.length (pre ++ mid))
  = (x <- slice (pre ++ mid ++ s ++ 34%N :: after) (List.length pre) (List.length (pre ++ mid ++ s)) ;; Ok (x, List.length (pre ++ mid ++ s) + 1)).
Proof.
  induction 1 as [|c s H1 H2 H IH|c s H IH]; intros n pre mid after Hn; (destruct n as [|n]; [cbn in Hn; lia|]); cbn [read_string_loop]; rewrite (app_assoc pre mid), cur_at; cbn [app hd_error].
  - rewrite N.eqb_refl, !app_nil_r, <- app_assoc. rewrite advance_lt; [reflexivity|]. rewrite !app_length. cbn. lia.
  - apply N.eqb_neq in H1, H2. rewrite H1, H2, adv_at. pose proof (IH n pre (mid ++ [c]) after ltac:(cbn in Hn; lia)) as Q. rewrite <- !app_assoc in Q. cbn [app] in Q. rewrite <- !app_assoc. exact Q.
  - assert (N.eqb 92 34 = false) as -> by reflexivity. rewrite N.eqb_refl. cbv zeta. rewrite adv_at.
    match goal with |- context [current_char ?a ?b] => replace (current_char a b) with (Some c) by (symmetry; apply cur_next) end.
    match goal with |- context [advance ?a ?b] => replace (advance a b) with (List.length (pre ++ (mid ++ [92%N; c]))) by (rewrite advance_lt; repeat (rewrite ?app_length; cbn [List.length]); lia) end.
    pose proof (IH n pre (mid ++ [92%N; c]) after ltac:(cbn in Hn; lia)) as Q. rewrite <- !app_assoc in Q. cbn [app] in Q. rewrite <- !app_assoc. exact Q.
Qed.
(** A literal is read as it is written exactly when it is ASCII (given ASCII text before it). *)
Theorem string_literal_exactly_ascii : forall before s after, ascii_str before -> literal_content s ->
  ((exists p, next_token (before ++ [34%N] ++ s ++ [34%N] ++ after) (List.length before) = Ok (TString s, p)) <-> ascii_str s).
Proof.
  intros before s after Ha L.
  assert (E : next_token (before ++ [34%N] ++ s ++ [34%N] ++ after) (List.length before) =
    ('(x, p) <- (x <- slice ((before ++ [34%N]) ++ s ++ 34%N :: after) (List.length (before ++ [34%N])) (List.length ((before ++ [34%N]) ++ s)) ;; Ok (x, List.length ((before ++ [34%N]) ++ s) + 1)) ;; Ok (TString x, p))).
  { unfold next_token, skip_whitespace. rewrite scan_at. cbn [app span fst]. rewrite app_nil_r. rewrite cur_at. cbn [hd_error]. unfold read_string. rewrite adv_at.
    change (is_ident_start 34%N) with false. change (is_digit 34%N) with false. cbn [N.eqb Pos.eqb]. cbv zeta.
    pose proof (string_loop_general s L (S (List.length (before ++ 34%N :: s ++ 34%N :: after))) (before ++ [34%N]) [] after) as Q. cbn [app] in Q.
    rewrite !app_nil_r in Q. replace ((before ++ [34%N]) ++ s ++ 34%N :: after) with (before ++ 34%N :: s ++ 34%N :: after) in * by (rewrite <- app_assoc; reflexivity).
    match goal with |- context [read_string_loop ?a ?b ?c ?d] => change (read_string_loop a b c d) with (read_string_loop (S (List.length (before ++ 34%N :: s ++ 34%N :: after))) (before ++ 34%N :: s ++ 34%N :: after) (List.length (before ++ [34%N])) (List.length (before ++ [34%N]))) end.
    rewrite Q; [reflexivity|]. rewrite !app_length. cbn [List.length]. rewrite app_length. cbn. lia. }
  assert (Hb : ascii_str (before ++ [34%N])) by (apply ascii_app; split; [exact Ha | repeat constructor]).
  rewrite E. split.
  - intros [p H]. destruct (slice _ _ _) as [x| | |] eqn:Sl; try discriminate. cbn [bind] in H. injection H as -> _. apply slice_is_of_bytes in Sl. destruct Sl as (u & w & _ & L1 & L2).
    rewrite <- lengths_are_utf8 in L1, L2. rewrite byte_len_app in L2. rewrite (app_length _ s) in L2. apply ascii_byte_len. lia.
  - intros As. rewrite slice_front by assumption. eexists. reflexivity.
Qed.
Print Assumptions string_literal_exactly_ascii.

(** ** Identifiers *)
Definition letters : str := st "ABCDEFGHIJKLMNOPQRSTUVWXYZabcdefghijklmnopqrstuvwxyz_".
Definition digits : str := st "0123456789".
Lemma within l c : forallb (fun d => (d <? 128)%N) l = true -> existsb (N.eqb c) l = true <-> In c l.
Proof. intros _. rewrite existsb_exists. split; [intros (x & H & E); apply N.eqb_eq in E; now subst | intros H; exists c; split; [exact H | apply N.eqb_refl]]. Qed.
Lemma ascii_cases (P : N -> bool) : forallb P (map N.of_nat (seq 0 128)) = true -> forall c, (c < 128)%N -> P c = true.
Proof. intros H c Hc. rewrite forallb_forall in H. apply H. replace c with (N.of_nat (N.to_nat c)) by lia. apply in_map, in_seq. lia. Qed.
Lemma class_exact (p : N -> bool) (l : str) : (forall c, p c = true -> (c < 128)%N) -> forallb (fun c => (c <? 128)%N) l = true ->
  forallb (fun c => Bool.eqb (p c) (existsb (N.eqb c) l)) (map N.of_nat (seq 0 128)) = true -> forall c, p c = true <-> In c l.
Proof.
  intros Hp Hl H c. rewrite <- (within l c Hl). destruct (N.ltb_spec c 128).
  - pose proof (ascii_cases _ H c H0) as E. apply Bool.eqb_prop in E. rewrite E. reflexivity.
  - split; intros K; [apply Hp in K; lia|]. rewrite within in K by exact Hl. rewrite forallb_forall in Hl. apply Hl in K. lia.
Qed.
Theorem identifier_characters : forall c, (is_ident_start c = true <-> In c letters) /\ (is_ident_char c = true <-> In c (letters ++ digits)) /\ (is_digit c = true <-> In c digits).
Proof.
  intros c. split; [|split]; revert c; apply class_exact; try (vm_compute; reflexivity).
  - unfold is_ident_start, is_ascii_alpha. intros c. lia.
  - exact ident_ascii.
  - exact digit_ascii.
Qed.
Print Assumptions identifier_characters.
(** A word of letters, digits and underscores that does not begin with a digit is one token, up to the first other
    character. *)
Theorem identifier_read : forall before c word after, ascii_str before -> In c letters -> Forall (fun d => In d (letters ++ digits)) word ->
  match after with d :: _ => ~ In d (letters ++ digits) | [] => True end -> c :: word <> st "mut" ->
  next_token (before ++ (c :: word) ++ after) (List.length before) = Ok (TIdent (c :: word), List.length (before ++ c :: word)).
Proof.
  intros before c word after Ha Hc Hw Hn Nm. pose proof (proj2 (proj1 (identifier_characters c)) Hc) as Sc.
  assert (Ic : is_ident_char c = true) by (apply identifier_characters, in_or_app; left; exact Hc).
  assert (W : forallb is_ident_char (c :: word) = true). { cbn [forallb]. rewrite Ic. cbn [andb]. apply forallb_forall. intros d Hd. apply identifier_characters. rewrite Forall_forall in Hw. auto. }
  assert (Ws : is_whitespace c = false) by (apply ident_not_ws; exact Ic).
  assert (Sp : forall l s, forallb is_ident_char l = true -> match s with d :: _ => is_ident_char d = false | [] => True end -> span is_ident_char (l ++ s) = (l, s)).
  { induction l as [|d l IH]; intros s H1 H2; [destruct s as [|d s]; [reflexivity | cbn [app span]; rewrite H2; reflexivity]|]. cbn [forallb] in H1. apply andb_true_iff in H1. destruct H1 as [H1 H3]. cbn [app span]. rewrite H1, IH by assumption. reflexivity. }
  assert (Nx : nextS ((c :: word) ++ after) = Ok (TIdent (c :: word), after)).
  { unfold nextS. cbn [app span]. rewrite Ws. cbn [snd].
    assert (K : forall k, is_ident_char k = false -> N.eqb c k = false) by (intros k Hk; apply N.eqb_neq; intros ->; congruence). rewrite !K by reflexivity. rewrite Sc.
    change (c :: word ++ after) with ((c :: word) ++ after). rewrite Sp; [|exact W|].
    - cbn iota. destruct (str_eqb (c :: word) (st "mut")) eqn:E; [apply str_eqb_eq in E; contradiction | reflexivity].
    - destruct after as [|d after]; [exact I|]. destruct (is_ident_char d) eqn:E; [apply identifier_characters in E; contradiction | reflexivity]. }
  rewrite token_at.
  - rewrite Nx. cbn [lift bind]. rewrite app_assoc, pos_of_app. reflexivity.
  - cbn [app span]. rewrite Ws. cbn [fst]. rewrite app_nil_r. exact Ha.
  - cbn [app span]. rewrite Ws. cbn [snd hd_error]. intros E. injection E as ->. discriminate Ic.
Qed.
Print Assumptions identifier_read.
Example identifier_example : next_token (st "*_aZ9[" ++ [233%N]) 1 = Ok (TIdent (st "_aZ9"), 5).
Proof. apply (identifier_read (st "*") (ch "_") (st "aZ9") (st "[" ++ [233%N])); [repeat constructor | vm_compute; tauto | repeat (apply Forall_cons; [vm_compute; tauto|]); apply Forall_nil | vm_compute; intuition discriminate | discriminate]. Qed.
