From Coq Require Import Ascii String List ZArith NArith Bool Arith Lia.
From Coq Require Import ZifyBool ZifyNat ZifyN.
From Verif Require Import Base NumText ExprModel ExprSpec ExprParseProofs.
Import ListNotations.
Open Scope nat_scope.

(** ** A tokenizer on suffixes, equal to the position-based one on ASCII input *)

Fixpoint span (p : char -> bool) (s : str) : str * str :=
  match s with
  | [] => ([], [])
  | c :: r => if p c then let '(a, b) := span p r in (c :: a, b) else ([], s)
  end.

Lemma span_app p s : fst (span p s) ++ snd (span p s) = s.
Proof.
  induction s as [|c s IH]; [reflexivity|]. simpl. destruct (p c); [|reflexivity].
  destruct (span p s) as [a b]; simpl in *. rewrite IH. reflexivity.
Qed.
Lemma span_all p s : forallb p (fst (span p s)) = true.
Proof.
  induction s as [|c s IH]; [reflexivity|]. simpl. destruct (p c) eqn:E; [|reflexivity].
  destruct (span p s) as [a b]; simpl in *. rewrite E, IH. reflexivity.
Qed.
Lemma span_stop p s : match snd (span p s) with c :: _ => p c = false | [] => True end.
Proof.
  induction s as [|c s IH]; [exact I|]. simpl. destruct (p c) eqn:E; [|exact E].
  destruct (span p s) as [a b]; simpl in *. exact IH.
Qed.
Lemma span_exact p a r : forallb p a = true -> match r with c :: _ => p c = false | [] => True end ->
  span p (a ++ r) = (a, r).
Proof.
  induction a as [|c a IH]; simpl; intros Ha Hr.
  - destruct r as [|c r]; [reflexivity|]. simpl. rewrite Hr. reflexivity.
  - apply andb_true_iff in Ha. destruct Ha as [H1 H2]. rewrite H1, IH by assumption. reflexivity.
Qed.

Fixpoint scan_str (s : str) : option (str * str) :=
  match s with
  | [] => None
  | c :: r =>
    if N.eqb c 34 then Some ([], r)
    else if N.eqb c 92 then
      match r with
      | [] => None
      | d :: r' => match scan_str r' with Some (a, b) => Some (c :: d :: a, b) | None => None end
      end
    else match scan_str r with Some (a, b) => Some (c :: a, b) | None => None end
  end.

Definition numS (s : str) : res (token * str) :=
  if starts_with s (st "0x") || starts_with s (st "0X") then
    let '(h, r) := span is_hexdigit (skipn 2 s) in
    v <- u64_from_digits 16 h ;; Ok (TNumber v, r)
  else
    let '(d, r) := span is_digit s in
    v <- u64_from_digits 10 d ;; Ok (TNumber v, r).

Definition nextS (s0 : str) : res (token * str) :=
  let s := snd (span is_whitespace s0) in
  match s with
  | [] => Ok (TEof, [])
  | c :: r =>
    if N.eqb c 46 then Ok (TDot, r)
    else if N.eqb c 42 then Ok (TStar, r)
    else if N.eqb c 38 then Ok (TAmp, r)
    else if N.eqb c 91 then Ok (TLBracket, r)
    else if N.eqb c 93 then Ok (TRBracket, r)
    else if N.eqb c 40 then Ok (TLParen, r)
    else if N.eqb c 41 then Ok (TRParen, r)
    else if N.eqb c 60 then Ok (TLAngle, r)
    else if N.eqb c 62 then Ok (TRAngle, r)
    else if N.eqb c 58 then
      match r with
      | d :: r' => if N.eqb d 58 then Ok (TPathSep, r')
                  else Err "Expected '::' but found single ':'"
      | [] => Err "Expected '::' but found single ':'"
      end
    else if N.eqb c 44 then Ok (TComma, r)
    else if is_ident_start c then
      let '(ident, r') := span is_ident_char s in
      Ok (if str_eqb ident (st "mut") then TMut else TIdent ident, r')
    else if is_digit c then numS s
    else if N.eqb c 34 then
      match scan_str r with
      | Some (a, b) => Ok (TString a, b)
      | None => Err "Unterminated string literal"
      end
    else Err "Unexpected character"
  end.

(** ** Position-based primitives *)

Lemma len_utf8_pos c : 1 <= len_utf8 c.
Proof. unfold len_utf8. destruct (c <? 128)%N, (c <? 2048)%N, (c <? 65536)%N; lia. Qed.
Lemma byte_len_ge s : length s <= byte_len s.
Proof. induction s as [|c s IH]; simpl; [lia|]. pose proof (len_utf8_pos c). lia. Qed.
Lemma advance_lt input pos : pos < length input -> advance input pos = pos + 1.
Proof. intros H. unfold advance. pose proof (byte_len_ge input).
  destruct (pos <? byte_len input) eqn:E; [reflexivity | lia]. Qed.
Lemma advance_le input pos : pos <= advance input pos <= pos + 1.
Proof. unfold advance. destruct (pos <? byte_len input); lia. Qed.

Lemma cur_at pre s : current_char (pre ++ s) (length pre) = hd_error s.
Proof.
  unfold current_char. rewrite nth_error_app2 by lia. rewrite Nat.sub_diag. destruct s; reflexivity.
Qed.
Lemma adv_at pre c s : advance (pre ++ c :: s) (length pre) = length (pre ++ [c]).
Proof. rewrite advance_lt; rewrite !app_length; simpl; lia. Qed.

Lemma ascii_split s n : ascii_str s -> n <= length s ->
  split_at_byte s n = Some (firstn n s, skipn n s).
Proof.
  revert n. induction s as [|c s IH]; intros n Ha Hn.
  - destruct n; [reflexivity | simpl in Hn; lia].
  - destruct n as [|n]; [reflexivity|]. inversion Ha as [|? ? Hc Hs]; subst.
    assert (len_utf8 c = 1) as Hl by (unfold len_utf8; destruct (c <? 128)%N eqn:E; lia).
    cbn [split_at_byte]. rewrite Hl. assert ((1 <=? S n) = true) as -> by lia.
    replace (S n - 1) with n by lia. rewrite IH; [reflexivity | exact Hs | simpl in Hn; lia].
Qed.

Lemma slice_at pre mid r : ascii_str (pre ++ mid ++ r) ->
  slice (pre ++ mid ++ r) (length pre) (length (pre ++ mid)) = Ok mid.
Proof.
  intros Ha. unfold slice.
  assert ((length pre <=? length (pre ++ mid)) = true) as -> by (rewrite app_length; lia).
  rewrite ascii_split; [|exact Ha | rewrite !app_length; lia].
  rewrite app_assoc, firstn_app, firstn_all, Nat.sub_diag. cbn [firstn]. rewrite app_nil_r.
  rewrite ascii_split.
  - rewrite skipn_app, skipn_all, Nat.sub_diag. reflexivity.
  - unfold ascii_str in *. rewrite app_assoc in Ha. apply Forall_app in Ha. tauto.
  - rewrite app_length. lia.
Qed.
Lemma slice_from_at pre s : ascii_str (pre ++ s) -> slice_from (pre ++ s) (length pre) = Ok s.
Proof.
  intros Ha. unfold slice_from. rewrite ascii_split; [|exact Ha | rewrite app_length; lia].
  rewrite skipn_app, skipn_all, Nat.sub_diag. reflexivity.
Qed.

Lemma scan_while_at p : forall s n pre, length s < n ->
  scan_while n p (pre ++ s) (length pre) = length (pre ++ fst (span p s)).
Proof.
  induction s as [|c s IH]; intros n pre Hn.
  - destruct n as [|n]; [lia|]. cbn [scan_while]. rewrite cur_at. cbn. rewrite app_nil_r. reflexivity.
  - destruct n as [|n]; [lia|]. cbn [scan_while]. rewrite cur_at. cbn [hd_error].
    cbn [span]. destruct (p c) eqn:E.
    + rewrite adv_at. replace (pre ++ c :: s) with ((pre ++ [c]) ++ s) by (rewrite <- app_assoc; reflexivity).
      rewrite IH by (simpl in Hn; lia). destruct (span p s) as [a b]. cbn [fst].
      rewrite <- app_assoc. reflexivity.
    + cbn [fst]. rewrite app_nil_r. reflexivity.
Qed.
Lemma scan_at p pre s : scan p (pre ++ s) (length pre) = length (pre ++ fst (span p s)).
Proof. unfold scan. apply scan_while_at. rewrite app_length. lia. Qed.

(** Position reached when [r] remains. *)
Definition pos_of (input r : str) : nat := length input - length r.
Lemma pos_of_app pre r : pos_of (pre ++ r) r = length pre.
Proof. unfold pos_of. rewrite app_length. lia. Qed.

Lemma pos_of_app3 pre m r : pos_of (pre ++ m ++ r) r = length (pre ++ m).
Proof. rewrite app_assoc. apply pos_of_app. Qed.

Definition lift (input : str) (x : res (token * str)) : res (token * nat) :=
  '(t, r) <- x ;; Ok (t, pos_of input r).

Lemma read_string_at : forall k s n pre mid, length s <= k -> length s < n ->
  ascii_str (pre ++ mid ++ s) ->
  read_string_loop n (pre ++ mid ++ s) (length pre) (length (pre ++ mid))
  = match scan_str s with
    | Some (a, b) => Ok (mid ++ a, pos_of (pre ++ mid ++ s) b)
    | None => Err "Unterminated string literal"
    end.
Proof.
  induction k as [|k IH]; intros s n pre mid Hk Hn Ha.
  - destruct s; [|simpl in Hk; lia]. destruct n as [|n]; [lia|]. cbn [read_string_loop].
    rewrite app_assoc, cur_at. reflexivity.
  - destruct n as [|n]; [lia|]. cbn [read_string_loop]. rewrite app_assoc, cur_at.
    destruct s as [|c s]; [reflexivity|]. cbn [hd_error scan_str]. simpl length in *.
    destruct (N.eqb c 34) eqn:E1.
    + rewrite <- app_assoc, slice_at by exact Ha. cbn [bind]. rewrite app_assoc, adv_at.
      rewrite app_nil_r. replace ((pre ++ mid) ++ c :: s) with (((pre ++ mid) ++ [c]) ++ s) by (rewrite <- app_assoc; reflexivity).
      rewrite pos_of_app. reflexivity.
    + destruct (N.eqb c 92) eqn:E2.
      * rewrite adv_at.
        assert (Hc : current_char ((pre ++ mid) ++ c :: s) (length ((pre ++ mid) ++ [c])) = hd_error s).
        { replace ((pre ++ mid) ++ c :: s) with (((pre ++ mid) ++ [c]) ++ s) by (rewrite <- app_assoc; reflexivity).
          apply cur_at. }
        rewrite Hc. destruct s as [|d s].
        -- cbn [hd_error]. destruct n as [|n]; [simpl in Hn; lia|]. cbn [read_string_loop].
           rewrite Hc. reflexivity.
        -- cbn [hd_error]. simpl length in *.
           assert (Hadv : advance ((pre ++ mid) ++ c :: d :: s) (length ((pre ++ mid) ++ [c])) = length (pre ++ (mid ++ [c; d]))).
           { rewrite advance_lt; rewrite !app_length; simpl; lia. }
           rewrite Hadv.
           replace ((pre ++ mid) ++ c :: d :: s) with (pre ++ (mid ++ [c; d]) ++ s) in *
             by (rewrite <- !app_assoc; reflexivity).
           rewrite IH; [|lia|lia|rewrite <- !app_assoc; exact Ha].
           destruct (scan_str s) as [[a b]|]; [|reflexivity].
           rewrite <- !app_assoc. reflexivity.
      * rewrite adv_at.
        replace (length ((pre ++ mid) ++ [c])) with (length (pre ++ (mid ++ [c]))) by (rewrite app_assoc; reflexivity).
        replace ((pre ++ mid) ++ c :: s) with (pre ++ (mid ++ [c]) ++ s) in *
          by (rewrite <- !app_assoc; reflexivity).
        rewrite IH; [|lia|lia|rewrite <- !app_assoc; exact Ha].
        destruct (scan_str s) as [[a b]|]; [|reflexivity].
        rewrite <- !app_assoc. reflexivity.
Qed.

Lemma numS_at pre c s : ascii_str (pre ++ c :: s) ->
  ('(v, p) <- read_number (pre ++ c :: s) (length pre) ;; Ok (TNumber v, p))
  = lift (pre ++ c :: s) (numS (c :: s)).
Proof.
  intros Ha. unfold read_number, numS. rewrite slice_from_at by exact Ha. cbn [bind].
  destruct (starts_with (c :: s) (st "0x") || starts_with (c :: s) (st "0X")) eqn:E.
  - assert (exists d s', s = d :: s') as [d [s' ->]].
    { apply orb_true_iff in E. destruct E as [E|E]; apply starts_with_spec in E; destruct E as [r Hr];
      cbn in Hr; injection Hr as _ ->; eauto. }
    cbn [skipn].
    assert (Hadv : advance (pre ++ c :: d :: s') (advance (pre ++ c :: d :: s') (length pre)) = length (pre ++ [c; d])).
    { rewrite adv_at. rewrite advance_lt; rewrite !app_length; simpl; lia. }
    rewrite Hadv.
    replace (pre ++ c :: d :: s') with ((pre ++ [c; d]) ++ s') in * by (rewrite <- app_assoc; reflexivity).
    rewrite scan_at. pose proof (span_app is_hexdigit s') as Hsp.
    destruct (span is_hexdigit s') as [h r]. cbn [fst snd] in *. subst s'.
    replace (length pre + 2) with (length (pre ++ [c; d])) by (rewrite app_length; reflexivity).
    rewrite slice_at by exact Ha. cbn [bind].
    destruct (u64_from_digits 16 h); try reflexivity. cbn [bind lift].
    rewrite app_assoc, pos_of_app. reflexivity.
  - rewrite scan_at. pose proof (span_app is_digit (c :: s)) as Hsp.
    destruct (span is_digit (c :: s)) as [h r]. cbn [fst snd] in *. rewrite <- Hsp in *.
    rewrite slice_at by exact Ha. cbn [bind].
    destruct (u64_from_digits 10 h); try reflexivity. cbn [bind lift].
    rewrite app_assoc, pos_of_app. reflexivity.
Qed.

Lemma next_token_at pre s : ascii_str (pre ++ s) ->
  next_token (pre ++ s) (length pre) = lift (pre ++ s) (nextS s).
Proof.
  intros Ha. unfold next_token, nextS, skip_whitespace. rewrite scan_at.
  pose proof (span_app is_whitespace s) as Hsp.
  destruct (span is_whitespace s) as [ws s1]. cbn [fst snd] in *. subst s.
  rewrite app_assoc in Ha |- *. set (p := pre ++ ws) in *. clearbody p.
  rewrite cur_at. destruct s1 as [|c r]; cbn [hd_error].
  - cbn. rewrite app_nil_r. unfold pos_of. simpl. rewrite Nat.sub_0_r. reflexivity.
  - assert (Hadv : forall t, Ok (t, advance (p ++ c :: r) (length p)) = lift (p ++ c :: r) (Ok (t, r))).
    { intros t. cbn. rewrite adv_at. replace (p ++ c :: r) with ((p ++ [c]) ++ r) by (rewrite <- app_assoc; reflexivity).
      rewrite pos_of_app. reflexivity. }
    destruct (N.eqb c 46); [apply Hadv|]. destruct (N.eqb c 42); [apply Hadv|].
    destruct (N.eqb c 38); [apply Hadv|]. destruct (N.eqb c 91); [apply Hadv|].
    destruct (N.eqb c 93); [apply Hadv|]. destruct (N.eqb c 40); [apply Hadv|].
    destruct (N.eqb c 41); [apply Hadv|]. destruct (N.eqb c 60); [apply Hadv|].
    destruct (N.eqb c 62); [apply Hadv|].
    destruct (N.eqb c 58).
    { rewrite adv_at. replace (p ++ c :: r) with ((p ++ [c]) ++ r) in * by (rewrite <- app_assoc; reflexivity).
      cbv zeta. rewrite cur_at. destruct r as [|d r]; cbn [hd_error]; [reflexivity|].
      destruct (N.eqb d 58); [|reflexivity]. cbn. rewrite adv_at.
      replace ((p ++ [c]) ++ d :: r) with (((p ++ [c]) ++ [d]) ++ r) by (rewrite <- !app_assoc; reflexivity).
      rewrite pos_of_app. reflexivity. }
    destruct (N.eqb c 44); [apply Hadv|].
    destruct (is_ident_start c).
    { unfold read_identifier. rewrite scan_at.
      pose proof (span_app is_ident_char (c :: r)) as Hs2.
      destruct (span is_ident_char (c :: r)) as [i r2]. cbn [fst snd] in *. rewrite <- Hs2 in *.
      rewrite slice_at by exact Ha. cbn [bind lift]. rewrite app_assoc, pos_of_app. reflexivity. }
    destruct (is_digit c); [apply numS_at; exact Ha|].
    destruct (N.eqb c 34); [|reflexivity].
    unfold read_string. rewrite adv_at.
    replace (p ++ c :: r) with ((p ++ [c]) ++ [] ++ r) in * by (rewrite <- app_assoc; reflexivity).
    replace (length (p ++ [c])) with (length ((p ++ [c]) ++ [])) at 2 by (rewrite app_nil_r; reflexivity).
    rewrite read_string_at with (k := length r); [|lia| |exact Ha].
    + destruct (scan_str r) as [[a b]|]; reflexivity.
    + rewrite !app_length. simpl. lia.
Qed.

(** Each token is cut from the front. *)
Lemma scan_str_suffix : forall k s a b, length s <= k -> scan_str s = Some (a, b) ->
  s = a ++ [34%N] ++ b /\ literal_content a.
Proof.
  induction k as [|k IH]; intros s a b Hk H.
  - destruct s; [discriminate | simpl in Hk; lia].
  - destruct s as [|c s]; [discriminate|]. cbn [scan_str] in H. simpl in Hk.
    destruct (N.eqb c 34) eqn:E1.
    + inv H. apply N.eqb_eq in E1. subst. split; [reflexivity | constructor].
    + destruct (N.eqb c 92) eqn:E2.
      * destruct s as [|d s]; [discriminate|]. simpl in Hk.
        destruct (scan_str s) as [[a' b']|] eqn:E; [|discriminate]. inv H.
        apply IH in E; [|lia]. destruct E as [-> Hl]. apply N.eqb_eq in E2. subst.
        split; [reflexivity | constructor; exact Hl].
      * destruct (scan_str s) as [[a' b']|] eqn:E; [|discriminate]. inv H.
        apply IH in E; [|lia]. destruct E as [-> Hl]. apply N.eqb_neq in E1, E2.
        split; [reflexivity | constructor; assumption].
Qed.

Lemma scan_str_exact a b : literal_content a -> scan_str (a ++ [34%N] ++ b) = Some (a, b).
Proof.
  intros H. induction H as [|c s H1 H2 H IH|c s H IH].
  - reflexivity.
  - cbn [app scan_str] in *. apply N.eqb_neq in H1, H2. rewrite H1, H2, IH. reflexivity.
  - cbn [app scan_str] in *. rewrite IH. reflexivity.
Qed.

Definition valid_ident (s : str) : Prop :=
  match s with [] => False | c :: _ => is_ident_start c = true end
  /\ forallb is_ident_char s = true /\ s <> st "mut".
Definition tok_ok (t : token) : Prop :=
  match t with
  | TIdent s => valid_ident s
  | TNumber v => in_u64 v
  | TString s => literal_content s /\ ascii_str s
  | _ => True
  end.

Lemma u64_digits_ok radix s v : (1 <= radix)%Z -> forallb is_hexdigit s = true ->
  u64_from_digits radix s = Ok v -> in_u64 v.
Proof.
  intros Hr Hs H. destruct s as [|c s]; [discriminate|].
  rewrite u64_from_digits_spec in H; [|exact Hr|discriminate|exact Hs].
  destruct (digits_value radix (c :: s) <=? u64_max)%Z eqn:E; [|discriminate]. inv H.
  unfold in_u64, two64. unfold u64_max in E.
  pose proof (fold_value_ge radix (c :: s) 0 Hr ltac:(lia) Hs) as Hge.
  fold (digits_value radix (c :: s)) in Hge. lia.
Qed.

Lemma nextS_ok s t r : ascii_str s -> nextS s = Ok (t, r) ->
  (exists m, s = m ++ r /\ (t <> TEof -> m <> [])) /\ tok_ok t /\ (t = TEof -> r = []).
Proof.
  intros Ha H. unfold nextS in H.
  pose proof (span_app is_whitespace s) as Hsp.
  destruct (span is_whitespace s) as [ws s1]. cbn [fst snd] in *. subst s.
  destruct s1 as [|c s1].
  { inv H. split; [|split; [exact I | reflexivity]].
    exists ws. split; [reflexivity | congruence]. }
  assert (Hone : forall t0, tok_ok t0 -> t0 <> TEof -> Ok (t0, s1) = Ok (t, r) ->
     (exists m, ws ++ c :: s1 = m ++ r /\ (t <> TEof -> m <> [])) /\ tok_ok t /\ (t = TEof -> r = [])).
  { intros t0 Ht0 Hn H'. inv H'. split; [|split; [exact Ht0 | congruence]].
    exists (ws ++ [c]). split; [rewrite <- app_assoc; reflexivity|].
    intros _ Hx. apply app_eq_nil in Hx. destruct Hx; discriminate. }
  assert (Hmany : forall m t0 r0, m <> [] -> c :: s1 = m ++ r0 -> tok_ok t0 -> t0 <> TEof -> Ok (t0, r0) = Ok (t, r) ->
     (exists m, ws ++ c :: s1 = m ++ r /\ (t <> TEof -> m <> [])) /\ tok_ok t /\ (t = TEof -> r = [])).
  { intros m t0 r0 Hm Hcs Ht0 Hn H'. inv H'. split; [|split; [exact Ht0 | congruence]].
    exists (ws ++ m). split; [rewrite <- app_assoc, <- Hcs; reflexivity|].
    intros _ Hx. apply app_eq_nil in Hx. destruct Hx; congruence. }
  destruct (N.eqb c 46); [eapply Hone in H; [exact H|exact I|discriminate]|].
  destruct (N.eqb c 42); [eapply Hone in H; [exact H|exact I|discriminate]|].
  destruct (N.eqb c 38); [eapply Hone in H; [exact H|exact I|discriminate]|].
  destruct (N.eqb c 91); [eapply Hone in H; [exact H|exact I|discriminate]|].
  destruct (N.eqb c 93); [eapply Hone in H; [exact H|exact I|discriminate]|].
  destruct (N.eqb c 40); [eapply Hone in H; [exact H|exact I|discriminate]|].
  destruct (N.eqb c 41); [eapply Hone in H; [exact H|exact I|discriminate]|].
  destruct (N.eqb c 60); [eapply Hone in H; [exact H|exact I|discriminate]|].
  destruct (N.eqb c 62); [eapply Hone in H; [exact H|exact I|discriminate]|].
  destruct (N.eqb c 58).
  { destruct s1 as [|d s1]; [discriminate|]. destruct (N.eqb d 58); [|discriminate].
    eapply (Hmany [c; d]) in H; [exact H|discriminate|reflexivity|exact I|discriminate]. }
  destruct (N.eqb c 44); [eapply Hone in H; [exact H|exact I|discriminate]|].
  destruct (is_ident_start c) eqn:Eid.
  { pose proof (span_app is_ident_char (c :: s1)) as Hs2.
    pose proof (span_all is_ident_char (c :: s1)) as Hall.
    assert (Hne : fst (span is_ident_char (c :: s1)) <> [] /\ hd 0%N (fst (span is_ident_char (c :: s1))) = c).
    { cbn [span]. assert (is_ident_char c = true) as ->.
      { unfold is_ident_start in Eid. unfold is_ident_char. destruct (is_ascii_alpha c); [reflexivity|].
        simpl in Eid. rewrite Eid. destruct (is_digit c); reflexivity. }
      destruct (span is_ident_char s1) as [x y]. split; [discriminate | reflexivity]. }
    destruct (span is_ident_char (c :: s1)) as [i r2]. cbn [fst snd] in *.
    destruct Hne as [Hne Hhd].
    eapply (Hmany i) in H; [exact H|exact Hne|symmetry; exact Hs2| |].
    - destruct (str_eqb i (st "mut")) eqn:E; [exact I|]. apply str_eqb_neq in E.
      split; [|split; assumption]. destruct i as [|c0 i]; [congruence|]. cbn in Hhd. subst. exact Eid.
    - destruct (str_eqb i (st "mut")); discriminate. }
  destruct (is_digit c) eqn:Edg.
  { unfold numS in H.
    destruct (starts_with (c :: s1) (st "0x") || starts_with (c :: s1) (st "0X")) eqn:E.
    - assert (exists d s', s1 = d :: s') as [d [s' ->]].
      { apply orb_true_iff in E. destruct E as [E|E]; apply starts_with_spec in E; destruct E as [rr Hr];
        cbn in Hr; injection Hr as _ ->; eauto. }
      cbn [skipn] in H. pose proof (span_app is_hexdigit s') as Hs2.
      pose proof (span_all is_hexdigit s') as Hall.
      destruct (span is_hexdigit s') as [h r2]. cbn [fst snd] in *.
      bok H. eapply (Hmany (c :: d :: h)) in H; [exact H|discriminate| | |discriminate].
      + rewrite <- Hs2. reflexivity.
      + apply (u64_digits_ok 16 h); [lia | exact Hall | assumption].
    - pose proof (span_app is_digit (c :: s1)) as Hs2.
      pose proof (span_all is_digit (c :: s1)) as Hall.
      assert (Hne : fst (span is_digit (c :: s1)) <> []).
      { cbn [span]. rewrite Edg. destruct (span is_digit s1). discriminate. }
      destruct (span is_digit (c :: s1)) as [h r2]. cbn [fst snd] in *.
      bok H. eapply (Hmany h) in H; [exact H|exact Hne| | |discriminate].
      + symmetry; exact Hs2.
      + apply (u64_digits_ok 10 h); [lia | apply forallb_digit_hex; exact Hall | assumption]. }
  destruct (N.eqb c 34); [|discriminate].
  destruct (scan_str s1) as [[a b]|] eqn:E; [|discriminate].
  apply scan_str_suffix with (k := length s1) in E; [|lia]. destruct E as [-> Hl].
  eapply (Hmany (c :: a ++ [34%N])) in H; [exact H|discriminate| | |discriminate].
  - cbn [app]. f_equal. rewrite <- app_assoc. reflexivity.
  - split; [exact Hl|]. unfold ascii_str in *. rewrite !Forall_app in Ha.
    destruct Ha as [_ Ha]. inversion Ha as [|? ? _ Ha']; subst. apply Forall_app in Ha'. tauto.
Qed.

(** ** Token streams *)
Inductive LexTo : str -> list token -> str -> Prop :=
| LT_nil s : LexTo s [] s
| LT_cons s t r ts r' : nextS s = Ok (t, r) -> t <> TEof -> LexTo r ts r' -> LexTo s (t :: ts) r'.

Lemma LexTo_app s ts r ts' r' : LexTo s ts r -> LexTo r ts' r' -> LexTo s (ts ++ ts') r'.
Proof. intros H H'. induction H; [exact H' | econstructor; eauto]. Qed.

Lemma tokenize_LexTo input : ascii_str input -> forall ts pre s n,
  input = pre ++ s -> tokenize_loop n input (length pre) = Ok ts ->
  exists ts0 r, ts = ts0 ++ [TEof] /\ LexTo s ts0 r /\ nextS r = Ok (TEof, []) /\ Forall tok_ok ts0.
Proof.
  intros Ha ts pre s n. revert ts pre s. induction n as [|n IH]; intros ts pre s Hin H; [discriminate|].
  cbn [tokenize_loop] in H. subst input. rewrite next_token_at in H by exact Ha.
  destruct (nextS s) as [[t r]| | |] eqn:E; try discriminate. cbn in H.
  assert (Hs : ascii_str s) by (unfold ascii_str in *; apply Forall_app in Ha; tauto).
  destruct (nextS_ok s t r Hs E) as [[m [-> Hm]] [Hok Heof]].
  rewrite pos_of_app3 in H.
  assert (Hgo : (ts0 <- tokenize_loop n (pre ++ m ++ r) (length (pre ++ m)) ;; Ok (t :: ts0)) = Ok ts -> t <> TEof ->
    exists ts0 r0, ts = ts0 ++ [TEof] /\ LexTo (m ++ r) ts0 r0 /\ nextS r0 = Ok (TEof, []) /\ Forall tok_ok ts0).
  { intros H' Ht. bok H'. inv H'. apply IH with (s := r) in H0; [|rewrite <- app_assoc; reflexivity].
    destruct H0 as [ts0 [r0 [-> [H1 [H2 H3]]]]]. exists (t :: ts0), r0.
    split; [reflexivity|]. split; [econstructor; eassumption|]. split; [exact H2 | constructor; assumption]. }
  destruct t; try (apply Hgo; [exact H | discriminate]).
  inv H. rewrite (Heof eq_refl) in E |- *. exists [], (m ++ []).
  split; [reflexivity | split; [constructor | split; [exact E | constructor]]].
Qed.

Lemma LexTo_tokenize input : ascii_str input -> forall s ts r, LexTo s ts r ->
  nextS r = Ok (TEof, []) -> forall pre n, input = pre ++ s -> length s < n ->
  tokenize_loop n input (length pre) = Ok (ts ++ [TEof]).
Proof.
  intros Ha s ts r H. induction H as [s|s t r ts r' Hn Ht Hl IH]; intros Hr pre n Hin Hlen.
  - destruct n as [|n]; [lia|]. cbn [tokenize_loop]. subst input.
    rewrite next_token_at by exact Ha. rewrite Hr. reflexivity.
  - destruct n as [|n]; [lia|]. cbn [tokenize_loop]. subst input.
    rewrite next_token_at by exact Ha. rewrite Hn. cbn.
    assert (Hs : ascii_str s) by (unfold ascii_str in *; apply Forall_app in Ha; tauto).
    destruct (nextS_ok s t r Hs Hn) as [[m [-> Hm]] _].
    rewrite pos_of_app3.
    assert (Hrec : tokenize_loop n (pre ++ m ++ r) (length (pre ++ m)) = Ok (ts ++ [TEof])).
    { apply IH; [exact Hr | rewrite <- app_assoc; reflexivity|].
      specialize (Hm Ht). rewrite app_length in Hlen. destruct m; [congruence | simpl in Hlen; lia]. }
    rewrite Hrec. destruct t; try reflexivity. congruence.
Qed.

(** ** No panic on ASCII input, termination on every input *)
Lemma nextS_good s : good (nextS s).
Proof.
  unfold nextS. destruct (snd (span is_whitespace s)) as [|c r]; [exact I|].
  repeat match goal with |- good (if N.eqb ?x ?y then _ else _) => destruct (N.eqb x y); [try exact I|] end; try exact I.
  - destruct r as [|d r]; [exact I|]. destruct (N.eqb d 58); exact I.
  - destruct (is_ident_start c); [destruct (span is_ident_char (c :: r)); exact I|].
    destruct (is_digit c).
    + unfold numS. destruct (_ || _).
      * destruct (span is_hexdigit _) as [h r']. apply good_bind; [|intros; exact I].
        unfold u64_from_digits. destruct h; [exact I|]. destruct (parse_acc _ _ _ _); exact I.
      * destruct (span is_digit _) as [h r']. apply good_bind; [|intros; exact I].
        unfold u64_from_digits. destruct h; [exact I|]. destruct (parse_acc _ _ _ _); exact I.
    + destruct (N.eqb c 34); [|exact I]. destruct (scan_str r) as [[? ?]|]; exact I.
Qed.

Lemma tokenize_good_ascii input : ascii_str input -> good (tokenize input).
Proof.
  intros Ha. unfold tokenize.
  assert (H : forall n pre s, input = pre ++ s -> length s < n -> good (tokenize_loop n input (length pre))).
  { induction n as [|n IH]; intros pre s Hin Hn; [lia|]. cbn [tokenize_loop]. subst input.
    rewrite next_token_at by exact Ha. pose proof (nextS_good s) as Hg.
    destruct (nextS s) as [[t r]| | |] eqn:E; try exact I; try (destruct Hg).
    cbn. assert (Hs : ascii_str s) by (unfold ascii_str in *; apply Forall_app in Ha; tauto).
    destruct (nextS_ok s t r Hs E) as [[m [-> Hm]] _].
    rewrite pos_of_app3.
    assert (Hrec : t <> TEof -> good (tokenize_loop n (pre ++ m ++ r) (length (pre ++ m)))).
    { intros Ht. apply IH with (s := r); [rewrite <- app_assoc; reflexivity|].
      specialize (Hm Ht). rewrite app_length in Hn. destruct m; [congruence | simpl in Hn; lia]. }
    destruct t; try exact I; (apply good_bind; [apply Hrec; discriminate | intros; exact I]). }
  apply (H _ [] input); [reflexivity | lia].
Qed.

(** Positions only move forward, on any input. *)
Lemma scan_while_ge n p input : forall pos, pos <= scan_while n p input pos.
Proof.
  induction n as [|n IH]; intros pos; [simpl; lia|]. cbn [scan_while].
  destruct (current_char input pos); [|lia]. destruct (p c); [|lia].
  etransitivity; [|apply IH]. apply advance_le.
Qed.
Lemma scan_ge p input pos : pos <= scan p input pos.
Proof. apply scan_while_ge. Qed.

Lemma scan_gt p input pos c : current_char input pos = Some c -> p c = true -> pos < scan p input pos.
Proof.
  intros Hc Hp. unfold scan. cbn [scan_while]. rewrite Hc, Hp.
  assert (pos < length input) as Hl by (apply nth_error_Some; unfold current_char in Hc; congruence).
  pose proof (scan_while_ge (length input) p input (advance input pos)).
  rewrite advance_lt in * by exact Hl. lia.
Qed.

Lemma read_string_nofuel : forall n input start pos, pos <= length input ->
  length input - pos < n -> read_string_loop n input start pos <> Fuel.
Proof.
  induction n as [|n IH]; intros input start pos Hp Hn; [lia|]. cbn [read_string_loop].
  destruct (current_char input pos) as [c|] eqn:Ec; [|discriminate].
  assert (pos < length input) as Hl by (apply nth_error_Some; unfold current_char in Ec; congruence).
  rewrite advance_lt by exact Hl.
  destruct (N.eqb c 34).
  { unfold slice. destruct (start <=? pos); [|discriminate].
    destruct (split_at_byte input pos) as [[? ?]|]; [|discriminate].
    destruct (split_at_byte s start) as [[? ?]|]; discriminate. }
  destruct (N.eqb c 92).
  - destruct (current_char input (pos + 1)) as [d|] eqn:Ed.
    + assert (pos + 1 < length input) as Hl2 by (apply nth_error_Some; unfold current_char in Ed; congruence).
      rewrite advance_lt by exact Hl2. apply IH; lia.
    + apply IH; lia.
  - apply IH; lia.
Qed.

Lemma slice_nofuel s a b : slice s a b <> Fuel.
Proof.
  unfold slice. destruct (a <=? b); [|discriminate].
  destruct (split_at_byte s b) as [[? ?]|]; [|discriminate].
  destruct (split_at_byte s0 a) as [[? ?]|]; discriminate.
Qed.
Lemma u64_nofuel r s : u64_from_digits r s <> Fuel.
Proof. unfold u64_from_digits. destruct s; [discriminate|]. destruct (parse_acc _ _ _ _); discriminate. Qed.

Lemma bind_nofuel {A B} (r : res A) (k : A -> res B) :
  r <> Fuel -> (forall a, r = Ok a -> k a <> Fuel) -> bind r k <> Fuel.
Proof. destruct r; simpl; auto; discriminate. Qed.

Lemma read_string_loop_pos : forall n input start pos s p, pos <= length input ->
  read_string_loop n input start pos = Ok (s, p) -> pos < p.
Proof.
  induction n as [|n IH]; intros input start pos s p Hp H; [discriminate|].
  cbn [read_string_loop] in H. destruct (current_char input pos) as [c|] eqn:Ec; [|discriminate].
  assert (pos < length input) as Hl by (apply nth_error_Some; unfold current_char in Ec; congruence).
  rewrite advance_lt in H by exact Hl.
  destruct (N.eqb c 34); [bok H; inv H; lia|].
  destruct (N.eqb c 92).
  - destruct (current_char input (pos + 1)) as [d|] eqn:Ed.
    + assert (pos + 1 < length input) as Hl2 by (apply nth_error_Some; unfold current_char in Ed; congruence).
      rewrite advance_lt in H by exact Hl2. apply IH in H; lia.
    + apply IH in H; lia.
  - apply IH in H; lia.
Qed.

Lemma next_token_progress input pos :
  next_token input pos <> Fuel
  /\ forall t p, next_token input pos = Ok (t, p) -> t <> TEof -> pos < p /\ pos < length input.
Proof.
  unfold next_token, skip_whitespace. pose proof (scan_ge is_whitespace input pos) as Hge.
  set (q := scan is_whitespace input pos) in *. clearbody q. cbv zeta.
  destruct (current_char input q) as [c|] eqn:Ec.
  2: { split; [discriminate|]. intros t p H Ht. inv H. congruence. }
  assert (q < length input) as Hl by (apply nth_error_Some; unfold current_char in Ec; congruence).
  rewrite advance_lt by exact Hl.
  assert (Hone : forall t0, Ok (t0, q + 1) <> Fuel /\
     forall t p, Ok (t0, q + 1) = Ok (t, p) -> t <> TEof -> pos < p /\ pos < length input).
  { intros t0. split; [discriminate|]. intros t p H _. inv H. lia. }
  destruct (N.eqb c 46); [apply Hone|]. destruct (N.eqb c 42); [apply Hone|].
  destruct (N.eqb c 38); [apply Hone|]. destruct (N.eqb c 91); [apply Hone|].
  destruct (N.eqb c 93); [apply Hone|]. destruct (N.eqb c 40); [apply Hone|].
  destruct (N.eqb c 41); [apply Hone|]. destruct (N.eqb c 60); [apply Hone|].
  destruct (N.eqb c 62); [apply Hone|].
  destruct (N.eqb c 58).
  { destruct (current_char input (q + 1)) as [d|]; [|split; discriminate].
    destruct (N.eqb d 58); [|split; discriminate]. split; [discriminate|].
    intros t p H _. inv H. pose proof (advance_le input (q + 1)). lia. }
  destruct (N.eqb c 44); [apply Hone|].
  destruct (is_ident_start c) eqn:Eid.
  { assert (Hc : is_ident_char c = true).
    { unfold is_ident_start in Eid. unfold is_ident_char. destruct (is_ascii_alpha c); [reflexivity|].
      simpl in Eid. rewrite Eid. destruct (is_digit c); reflexivity. }
    pose proof (scan_gt is_ident_char input q c Ec Hc) as Hgt.
    unfold read_identifier. split.
    - apply bind_nofuel; [apply bind_nofuel; [apply slice_nofuel | discriminate]|].
      intros [? ?] _. discriminate.
    - intros t p H _. bok H. bok H0. inv H0. inv H. lia. }
  destruct (is_digit c) eqn:Edg.
  { unfold read_number. split.
    - apply bind_nofuel; [|intros [? ?] _; discriminate].
      apply bind_nofuel.
      + unfold slice_from. destruct (split_at_byte input q) as [[? ?]|]; discriminate.
      + intros rest _. destruct (_ || _); cbv zeta.
        * apply bind_nofuel; [apply slice_nofuel|]. intros x _.
          apply bind_nofuel; [apply u64_nofuel | discriminate].
        * apply bind_nofuel; [apply slice_nofuel|]. intros x _.
          apply bind_nofuel; [apply u64_nofuel | discriminate].
    - intros t p H _. bok H. inv H. bok H0. destruct (_ || _); cbv zeta in H0; bok H0; bok H0; inv H0.
      + pose proof (scan_ge is_hexdigit input (advance input (advance input q))) as Hg.
        pose proof (advance_le input (advance input q)). rewrite (advance_lt _ _ Hl) in *. lia.
      + pose proof (scan_gt is_digit input q c Ec Edg). lia. }
  destruct (N.eqb c 34); [|split; discriminate].
  unfold read_string. rewrite advance_lt by exact Hl. split.
  - apply bind_nofuel; [|intros [? ?] _; discriminate]. apply read_string_nofuel; lia.
  - intros t p H _. bok H. inv H. apply read_string_loop_pos in H0; lia.
Qed.

Lemma tokenize_nofuel input : tokenize input <> Fuel.
Proof.
  unfold tokenize.
  assert (H : forall n pos, length input - pos < n -> tokenize_loop n input pos <> Fuel).
  { induction n as [|n IH]; intros pos Hn; [lia|]. cbn [tokenize_loop].
    destruct (next_token_progress input pos) as [H1 H2].
    destruct (next_token input pos) as [[t p]| | |] eqn:E; try discriminate; [|congruence].
    cbn [bind]. assert (Hrec : t <> TEof -> tokenize_loop n input p <> Fuel).
    { intros Ht. specialize (H2 t p eq_refl Ht). apply IH. lia. }
    destruct t; try discriminate; (apply bind_nofuel; [apply Hrec; discriminate | discriminate]). }
  apply H. lia.
Qed.

Lemma parse_expression_terminates input : parse_expression input <> Fuel.
Proof.
  unfold parse_expression. apply bind_nofuel; [apply tokenize_nofuel|].
  intros ts _ E. pose proof (parse_tokens_good ts) as Hg. rewrite E in Hg. exact Hg.
Qed.

Lemma parse_expression_good_ascii input : ascii_str input -> good (parse_expression input).
Proof.
  intros Ha. unfold parse_expression. apply good_bind; [apply tokenize_good_ascii; exact Ha|].
  intros ts _. apply parse_tokens_good.
Qed.

(** ** Lexing printed expressions *)
Definition delim (rest : str) : Prop :=
  match rest with c :: _ => is_ident_char c = false | [] => True end.

Lemma nextS_space s : nextS (32%N :: s) = nextS s.
Proof.
  unfold nextS. cbn [span]. assert (is_whitespace 32%N = true) as -> by reflexivity.
  destruct (span is_whitespace s). reflexivity.
Qed.

Lemma ident_not_ws c : is_ident_char c = true -> is_whitespace c = false.
Proof. unfold is_ident_char, is_whitespace, is_ascii_alpha, is_digit. lia. Qed.
Lemma ident_start_char c : is_ident_start c = true -> is_ident_char c = true.
Proof. unfold is_ident_start, is_ident_char. destruct (is_ascii_alpha c); [reflexivity|].
  simpl. intros ->. destruct (is_digit c); reflexivity. Qed.

Lemma ident_start_not c k : is_ident_start c = true ->
  In k [46; 42; 38; 91; 93; 40; 41; 60; 62; 58; 44; 34]%N -> N.eqb c k = false.
Proof. unfold is_ident_start, is_ascii_alpha. intros H Hk. simpl in Hk. lia. Qed.
Lemma digit_not c k : is_digit c = true ->
  In k [46; 42; 38; 91; 93; 40; 41; 60; 62; 58; 44; 34]%N -> N.eqb c k = false.
Proof. unfold is_digit. intros H Hk. simpl in Hk. lia. Qed.

Lemma lex_word name rest :
  match name with [] => False | c :: _ => is_ident_start c = true end ->
  forallb is_ident_char name = true -> delim rest ->
  nextS (name ++ rest) = Ok (if str_eqb name (st "mut") then TMut else TIdent name, rest).
Proof.
  intros Hh Hall Hd. destruct name as [|c n]; [destruct Hh|].
  assert (Hsp : span is_whitespace ((c :: n) ++ rest) = ([], (c :: n) ++ rest)).
  { cbn [app span]. rewrite (ident_not_ws c) by (apply ident_start_char; exact Hh). reflexivity. }
  unfold nextS. rewrite Hsp. cbn [snd].
  pose proof (span_exact is_ident_char (c :: n) rest Hall Hd) as Hs2.
  cbn [app] in *. 
  rewrite !(ident_start_not c) by (try exact Hh; simpl; tauto).
  rewrite Hh, Hs2. reflexivity.
Qed.

Lemma lex_ident name rest : valid_ident name -> delim rest ->
  nextS (name ++ rest) = Ok (TIdent name, rest).
Proof.
  intros [H1 [H2 H3]] Hd. rewrite lex_word by assumption.
  apply str_eqb_neq in H3. rewrite H3. reflexivity.
Qed.

Lemma delim_nodigit rest : delim rest -> match rest with c :: _ => is_digit c = false | [] => True end.
Proof. destruct rest as [|c r]; simpl; auto. unfold is_ident_char. destruct (is_digit c), (is_ascii_alpha c); simpl; congruence. Qed.

Lemma lex_number v rest : in_u64 v -> delim rest -> nextS (dec_nat v ++ rest) = Ok (TNumber v, rest).
Proof.
  intros Hv Hd. pose proof (dec_nat_digits v ltac:(unfold in_u64 in Hv; lia)) as Hdig.
  pose proof (dec_nat_nonempty v) as Hne.
  assert (Hnx : starts_with (dec_nat v ++ rest) (st "0x") || starts_with (dec_nat v ++ rest) (st "0X") = false).
  { destruct (dec_nat v) as [|c ds] eqn:E; [congruence|]. cbn [app].
    apply orb_false_iff. assert (Hx : forall x, is_digit x = false -> is_ident_char x = true ->
       starts_with (c :: ds ++ rest) [48%N; x] = false).
    { intros x Hx Hi. cbn [starts_with]. destruct (N.eqb 48 c) eqn:E48; [|reflexivity]. simpl.
      destruct ds as [|d ds].
      - cbn [app]. destruct rest as [|d rest]; [reflexivity|]. simpl in Hd.
        destruct (N.eqb x d) eqn:Exd; [|reflexivity]. apply N.eqb_eq in Exd. subst. congruence.
      - cbn [app]. destruct (N.eqb x d) eqn:Exd; [|reflexivity]. apply N.eqb_eq in Exd. subst.
        cbn [forallb] in Hdig. rewrite Hx in Hdig. rewrite andb_false_r in Hdig. discriminate. }
    split; apply Hx; reflexivity. }
  destruct (dec_nat v) as [|c ds] eqn:E; [congruence|].
  assert (Hc : is_digit c = true) by (cbn [forallb] in Hdig; apply andb_true_iff in Hdig; tauto).
  assert (Hsp : span is_whitespace ((c :: ds) ++ rest) = ([], (c :: ds) ++ rest)).
  { cbn [app span]. rewrite (ident_not_ws c); [reflexivity|]. unfold is_ident_char. rewrite Hc.
    destruct (is_ascii_alpha c); reflexivity. }
  unfold nextS. rewrite Hsp. cbn [snd].
  pose proof (span_exact is_digit (c :: ds) rest Hdig (delim_nodigit _ Hd)) as Hs2.
  assert (Hns : is_ident_start c = false) by (revert Hc; unfold is_ident_start, is_ascii_alpha, is_digit; lia).
  unfold numS. rewrite <- E in *. rewrite Hnx, Hs2. rewrite E. cbn [app].
  rewrite !(digit_not c) by (try exact Hc; simpl; tauto).
  rewrite Hns, Hc. rewrite <- E. rewrite u64_from_dec by exact Hv. reflexivity.
Qed.

Lemma lex_string s rest : literal_content s -> nextS ([34%N] ++ s ++ [34%N] ++ rest) = Ok (TString s, rest).
Proof.
  intros H. pose proof (scan_str_exact s rest H) as Hs.
  unfold nextS. cbn [app span]. assert (is_whitespace 34%N = false) as -> by reflexivity.
  cbn [snd]. cbn [app] in Hs. rewrite Hs. reflexivity.
Qed.

Lemma LexTo_space s ts r : ts <> [] -> LexTo s ts r -> LexTo (32%N :: s) ts r.
Proof. intros Hne H. destruct H; [congruence|]. econstructor; [rewrite nextS_space|..]; eassumption. Qed.

Lemma LexTo_one s t r : nextS s = Ok (t, r) -> t <> TEof -> LexTo s [t] r.
Proof. intros H1 H2. econstructor; [eassumption|exact H2|constructor]. Qed.

Lemma join_cons sep p q ps : join sep (p :: q :: ps) = p ++ sep ++ join sep (q :: ps).
Proof. reflexivity. Qed.
Lemma join_snoc sep l x : l <> [] -> join sep (l ++ [x]) = join sep l ++ sep ++ x.
Proof.
  induction l as [|a l IH]; intros H; [congruence|]. destruct l as [|b l]; [reflexivity|].
  change ((a :: b :: l) ++ [x]) with (a :: b :: (l ++ [x])). rewrite !join_cons.
  change (b :: l ++ [x]) with ((b :: l) ++ [x]). rewrite IH by discriminate. rewrite <- !app_assoc. reflexivity.
Qed.

Ltac punct := eapply LT_cons; [reflexivity | discriminate | ].

Lemma lex_path name tail rest :
  Forall tok_ok (TIdent name :: path_toks tail) -> delim rest ->
  LexTo (join (st "::") (name :: tail) ++ rest) (TIdent name :: path_toks tail) rest.
Proof.
  revert name. induction tail as [|s tail IH]; intros name Hok Hd.
  - cbn. apply LexTo_one; [|discriminate]. apply lex_ident; [|exact Hd]. inversion Hok; assumption.
  - rewrite join_cons. cbn [path_toks flat_map app].
    inversion Hok as [|? ? Hn Hrest]; subst. cbn in Hrest. inversion Hrest as [|? ? _ Hrest2]; subst.
    rewrite <- app_assoc. econstructor; [apply lex_ident; [exact Hn | reflexivity] | discriminate |].
    cbn [app st list_ascii_of_string map]. punct. apply IH; assumption.
Qed.

Lemma delim_cons c r : is_ident_char c = false -> delim (c :: r).
Proof. auto. Qed.

Lemma lex_types :
  (forall ts s, GType ts s -> Forall tok_ok ts -> forall rest, delim rest -> LexTo (s ++ rest) ts rest)
  /\ (forall ts l, GTypeArgs ts l -> Forall tok_ok ts -> forall rest, delim rest -> LexTo (join (st ", ") l ++ rest) ts rest)
  /\ (forall ts l, GTypeList ts l -> l <> [] /\ (Forall tok_ok ts -> forall rest, delim rest -> LexTo (join (st ", ") l ++ rest) ts rest)).
Proof.
  apply GType_mut.
  - intros name tail Hok rest Hd. apply lex_path; assumption.
  - intros name tail ats args _ IH Hok rest Hd.
    rewrite app_comm_cons in Hok |- *. apply Forall_app in Hok. destruct Hok as [Hok1 Hok2].
    inversion Hok2 as [|? ? _ Hok3]; subst. apply Forall_app in Hok3. destruct Hok3 as [Hok3 _].
    rewrite <- app_assoc. eapply LexTo_app; [apply lex_path; [exact Hok1 | reflexivity]|].
    cbn [app st list_ascii_of_string map]. punct. rewrite <- app_assoc.
    eapply LexTo_app; [apply IH; [exact Hok3 | reflexivity]|].
    cbn. punct. constructor.
  - intros _ rest _. constructor.
  - intros ts args _ [_ IH]. exact IH.
  - intros ts a _ IH. split; [discriminate|]. exact IH.
  - intros ts l ts' a _ [Hne IHl] Ht IHt. split; [destruct l; discriminate|].
    intros Hok rest Hd. apply Forall_app in Hok. destruct Hok as [Hok1 Hok2].
    inversion Hok2 as [|? ? _ Hok3]; subst.
    rewrite join_snoc by exact Hne. rewrite <- !app_assoc.
    eapply LexTo_app; [apply IHl; [exact Hok1 | reflexivity]|].
    cbn [app st list_ascii_of_string map]. punct.
    apply LexTo_space; [apply gtype_nonempty in Ht; exact Ht|]. apply IHt; assumption.
Qed.

Lemma lex_exprs :
  (forall ts e, GUnary ts e -> Forall tok_ok ts -> forall rest, delim rest -> LexTo (display e ++ rest) ts rest)
  /\ (forall ts e, GPostfix ts e -> Forall tok_ok ts -> forall rest, delim rest -> LexTo (display e ++ rest) ts rest)
  /\ (forall ts e, GPrimary ts e -> Forall tok_ok ts -> forall rest, delim rest -> LexTo (display e ++ rest) ts rest)
  /\ (forall ts l, GArgs ts l -> Forall tok_ok ts -> forall rest, delim rest -> LexTo (join (st ", ") (map display l) ++ rest) ts rest)
  /\ (forall ts l, GArgList ts l -> l <> [] /\ (Forall tok_ok ts -> forall rest, delim rest -> LexTo (join (st ", ") (map display l) ++ rest) ts rest)).
Proof.
  apply GExpr_mut.
  - intros ts e _ IH Hok rest Hd. inversion Hok as [|? ? _ Hok1]; subst.
    cbn [display]. cbn [app st list_ascii_of_string map]. punct. apply IH; assumption.
  - intros ts e _ IH Hok rest Hd. inversion Hok as [|? ? _ Hok1]; subst.
    cbn [display]. cbn [app st list_ascii_of_string map]. punct. apply IH; assumption.
  - intros ts e Hu IH Hok rest Hd. inversion Hok as [|? ? _ Hok1]; subst. inversion Hok1 as [|? ? _ Hok2]; subst.
    cbn [display]. cbn [app st list_ascii_of_string map]. punct.
    eapply LT_cons; [apply (lex_word (st "mut")); [reflexivity | reflexivity | apply delim_cons; reflexivity] | discriminate |].
    apply LexTo_space; [apply gexpr_nonempty in Hu; exact Hu|]. apply IH; assumption.
  - auto.
  - auto.
  - intros ts e f _ IH Hok rest Hd. apply Forall_app in Hok. destruct Hok as [Hok1 Hok2].
    inversion Hok2 as [|? ? _ Hok3]; subst. inversion Hok3 as [|? ? Hf _]; subst.
    cbn [display]. rewrite <- app_assoc. eapply LexTo_app; [apply IH; [exact Hok1 | reflexivity]|].
    cbn [app st list_ascii_of_string map]. punct. apply LexTo_one; [|discriminate]. apply lex_ident; assumption.
  - intros ts e m ats args _ IH _ IHa Hok rest Hd. apply Forall_app in Hok. destruct Hok as [Hok1 Hok2].
    inversion Hok2 as [|? ? _ Hok3]; subst. inversion Hok3 as [|? ? Hf Hok4]; subst.
    inversion Hok4 as [|? ? _ Hok5]; subst. apply Forall_app in Hok5. destruct Hok5 as [Hok5 _].
    cbn [display]. rewrite <- !app_assoc. eapply LexTo_app; [apply IH; [exact Hok1 | reflexivity]|].
    cbn [app st list_ascii_of_string map]. punct.
    eapply LT_cons; [apply lex_ident; [exact Hf | reflexivity] | discriminate |].
    punct. eapply LexTo_app; [apply IHa; [exact Hok5 | reflexivity]|]. punct. constructor.
  - intros ts e its i _ IH _ IHi Hok rest Hd. apply Forall_app in Hok. destruct Hok as [Hok1 Hok2].
    inversion Hok2 as [|? ? _ Hok3]; subst. apply Forall_app in Hok3. destruct Hok3 as [Hok3 _].
    cbn [display]. rewrite <- !app_assoc. eapply LexTo_app; [apply IH; [exact Hok1 | reflexivity]|].
    cbn [app st list_ascii_of_string map]. punct.
    eapply LexTo_app; [apply IHi; [exact Hok3 | reflexivity]|]. punct. constructor.
  - intros name Hok rest Hd. cbn [display]. apply LexTo_one; [|discriminate].
    apply lex_ident; [inversion Hok; assumption | exact Hd].
  - intros name s tail Hok rest Hd. cbn [display]. apply lex_path; assumption.
  - intros name tail ats args Hg Hok rest Hd. cbn [display].
    rewrite app_comm_cons in Hok |- *. apply Forall_app in Hok. destruct Hok as [Hok1 Hok2].
    inversion Hok2 as [|? ? _ Hok3]; subst. apply Forall_app in Hok3. destruct Hok3 as [Hok3 _].
    rewrite <- !app_assoc. eapply LexTo_app; [apply lex_path; [exact Hok1 | reflexivity]|].
    cbn [app st list_ascii_of_string map]. punct.
    eapply LexTo_app; [apply (proj1 (proj2 lex_types)); [exact Hg | exact Hok3 | reflexivity]|].
    punct. constructor.
  - intros name tail ats args _ IHa Hok rest Hd. cbn [display].
    rewrite app_comm_cons in Hok |- *. apply Forall_app in Hok. destruct Hok as [Hok1 Hok2].
    inversion Hok2 as [|? ? _ Hok3]; subst. apply Forall_app in Hok3. destruct Hok3 as [Hok3 _].
    rewrite <- !app_assoc. eapply LexTo_app; [apply lex_path; [exact Hok1 | reflexivity]|].
    cbn [app st list_ascii_of_string map]. punct.
    eapply LexTo_app; [apply IHa; [exact Hok3 | reflexivity]|].
    punct. constructor.
  - intros v Hok rest Hd. cbn [display]. apply LexTo_one; [|discriminate].
    apply lex_number; [inversion Hok; assumption | exact Hd].
  - intros s Hok rest Hd. cbn [display]. rewrite <- !app_assoc. apply LexTo_one; [|discriminate].
    apply lex_string. inversion Hok as [|? ? Hs _]; subst. apply Hs.
  - intros ts e _ IH Hok rest Hd. inversion Hok as [|? ? _ Hok1]; subst.
    apply Forall_app in Hok1. destruct Hok1 as [Hok1 _].
    cbn [display]. rewrite <- !app_assoc. cbn [app st list_ascii_of_string map]. punct.
    eapply LexTo_app; [apply IH; [exact Hok1 | reflexivity]|]. punct. constructor.
  - intros _ rest _. constructor.
  - intros ts args _ [_ IH]. exact IH.
  - intros ts e _ IH. split; [discriminate|]. exact IH.
  - intros ts l ts' e _ [Hne IHl] Hu IHe. split; [destruct l; discriminate|].
    intros Hok rest Hd. apply Forall_app in Hok. destruct Hok as [Hok1 Hok2].
    inversion Hok2 as [|? ? _ Hok3]; subst.
    rewrite map_app. cbn [map]. rewrite join_snoc by (destruct l; [congruence | discriminate]).
    rewrite <- !app_assoc. eapply LexTo_app; [apply IHl; [exact Hok1 | reflexivity]|].
    cbn [app st list_ascii_of_string map]. punct.
    apply LexTo_space; [apply gexpr_nonempty in Hu; exact Hu|]. apply IHe; assumption.
Qed.

(** Printed expressions are ASCII when their tokens are. *)
Lemma ident_char_ascii c : is_ident_char c = true -> (c < 128)%N.
Proof. unfold is_ident_char, is_ascii_alpha, is_digit. lia. Qed.
Lemma forallb_ascii p s : (forall c, p c = true -> (c < 128)%N) -> forallb p s = true -> ascii_str s.
Proof.
  intros Hp H. unfold ascii_str. apply Forall_forall. intros c Hc. apply Hp.
  rewrite forallb_forall in H. apply H. exact Hc.
Qed.
Lemma valid_ident_ascii s : valid_ident s -> ascii_str s.
Proof. intros [_ [H _]]. eapply forallb_ascii; [apply ident_char_ascii | exact H]. Qed.

Ltac asc := unfold ascii_str in *; repeat (apply Forall_app; split); try assumption;
  try (repeat (constructor; [reflexivity|]); constructor).

Lemma join_ascii sep l : ascii_str sep -> Forall ascii_str l -> ascii_str (join sep l).
Proof.
  intros Hs. induction l as [|a l IH]; intros H; [constructor|].
  inversion H as [|? ? Ha Hl]; subst. destruct l as [|b l]; [exact Ha|].
  rewrite join_cons. unfold ascii_str in *. apply Forall_app. split; [exact Ha|].
  apply Forall_app. split; [exact Hs | apply IH; exact Hl].
Qed.

Lemma path_ascii name tail : Forall tok_ok (TIdent name :: path_toks tail) -> ascii_str (join (st "::") (name :: tail)).
Proof.
  intros H. apply join_ascii; [asc|]. inversion H as [|? ? Hn Ht]; subst.
  constructor; [apply valid_ident_ascii; exact Hn|]. clear H Hn.
  induction tail as [|s tail IH]; [constructor|].
  cbn in Ht. inversion Ht as [|? ? _ Ht1]; subst. inversion Ht1 as [|? ? Hs Ht2]; subst.
  constructor; [apply valid_ident_ascii; exact Hs | apply IH; exact Ht2].
Qed.

Lemma ascii_types :
  (forall ts s, GType ts s -> Forall tok_ok ts -> ascii_str s)
  /\ (forall ts l, GTypeArgs ts l -> Forall tok_ok ts -> Forall ascii_str l)
  /\ (forall ts l, GTypeList ts l -> Forall tok_ok ts -> Forall ascii_str l).
Proof.
  apply GType_mut.
  - intros name tail Hok. apply path_ascii; exact Hok.
  - intros name tail ats args _ IH Hok.
    rewrite app_comm_cons in Hok. apply Forall_app in Hok. destruct Hok as [Hok1 Hok2].
    inversion Hok2 as [|? ? _ Hok3]; subst. apply Forall_app in Hok3. destruct Hok3 as [Hok3 _].
    pose proof (path_ascii _ _ Hok1) as H1.
    assert (H2 : ascii_str (join (st ", ") args)) by (apply join_ascii; [asc | apply IH; exact Hok3]).
    asc.
  - constructor.
  - intros ts args _ IH Hok. apply IH; exact Hok.
  - intros ts a _ IH Hok. constructor; [apply IH; exact Hok | constructor].
  - intros ts l ts' a _ IHl _ IHt Hok. apply Forall_app in Hok. destruct Hok as [Hok1 Hok2].
    inversion Hok2 as [|? ? _ Hok3]; subst. apply Forall_app. split; [apply IHl; exact Hok1|].
    constructor; [apply IHt; exact Hok3 | constructor].
Qed.

Lemma dec_ascii v : (0 <= v)%Z -> ascii_str (dec_nat v).
Proof.
  intros H. eapply forallb_ascii; [|apply dec_nat_digits; exact H].
  unfold is_digit. lia.
Qed.

Lemma ascii_exprs :
  (forall ts e, GUnary ts e -> Forall tok_ok ts -> ascii_str (display e))
  /\ (forall ts e, GPostfix ts e -> Forall tok_ok ts -> ascii_str (display e))
  /\ (forall ts e, GPrimary ts e -> Forall tok_ok ts -> ascii_str (display e))
  /\ (forall ts l, GArgs ts l -> Forall tok_ok ts -> Forall ascii_str (map display l))
  /\ (forall ts l, GArgList ts l -> Forall tok_ok ts -> Forall ascii_str (map display l)).
Proof.
  apply GExpr_mut.
  - intros ts e _ IH Hok. inversion Hok as [|? ? _ Hok1]; subst. specialize (IH Hok1). cbn [display]. asc.
  - intros ts e _ IH Hok. inversion Hok as [|? ? _ Hok1]; subst. specialize (IH Hok1). cbn [display]. asc.
  - intros ts e _ IH Hok. inversion Hok as [|? ? _ Hok1]; subst. inversion Hok1 as [|? ? _ Hok2]; subst.
    specialize (IH Hok2). cbn [display]. asc.
  - auto.
  - auto.
  - intros ts e f _ IH Hok. apply Forall_app in Hok. destruct Hok as [Hok1 Hok2].
    inversion Hok2 as [|? ? _ Hok3]; subst. inversion Hok3 as [|? ? Hf _]; subst.
    specialize (IH Hok1). apply valid_ident_ascii in Hf. cbn [display]. asc.
  - intros ts e m ats args _ IH _ IHa Hok. apply Forall_app in Hok. destruct Hok as [Hok1 Hok2].
    inversion Hok2 as [|? ? _ Hok3]; subst. inversion Hok3 as [|? ? Hf Hok4]; subst.
    inversion Hok4 as [|? ? _ Hok5]; subst. apply Forall_app in Hok5. destruct Hok5 as [Hok5 _].
    specialize (IH Hok1). apply valid_ident_ascii in Hf.
    assert (H2 : ascii_str (join (st ", ") (map display args))) by (apply join_ascii; [asc | apply IHa; exact Hok5]).
    cbn [display]. asc.
  - intros ts e its i _ IH _ IHi Hok. apply Forall_app in Hok. destruct Hok as [Hok1 Hok2].
    inversion Hok2 as [|? ? _ Hok3]; subst. apply Forall_app in Hok3. destruct Hok3 as [Hok3 _].
    specialize (IH Hok1). specialize (IHi Hok3). cbn [display]. asc.
  - intros name Hok. inversion Hok as [|? ? Hn _]; subst. apply valid_ident_ascii. exact Hn.
  - intros name s tail Hok. apply path_ascii. exact Hok.
  - intros name tail ats args Hg Hok.
    rewrite app_comm_cons in Hok. apply Forall_app in Hok. destruct Hok as [Hok1 Hok2].
    inversion Hok2 as [|? ? _ Hok3]; subst. apply Forall_app in Hok3. destruct Hok3 as [Hok3 _].
    pose proof (path_ascii _ _ Hok1) as H1.
    assert (H2 : ascii_str (join (st ", ") args))
      by (apply join_ascii; [asc | eapply (proj1 (proj2 ascii_types)); [exact Hg | exact Hok3]]).
    cbn [display]. asc.
  - intros name tail ats args _ IHa Hok.
    rewrite app_comm_cons in Hok. apply Forall_app in Hok. destruct Hok as [Hok1 Hok2].
    inversion Hok2 as [|? ? _ Hok3]; subst. apply Forall_app in Hok3. destruct Hok3 as [Hok3 _].
    pose proof (path_ascii _ _ Hok1) as H1.
    assert (H2 : ascii_str (join (st ", ") (map display args))) by (apply join_ascii; [asc | apply IHa; exact Hok3]).
    cbn [display]. asc.
  - intros v Hok. inversion Hok as [|? ? Hn _]; subst. cbn [display]. apply dec_ascii. unfold tok_ok, in_u64 in Hn. lia.
  - intros s Hok. inversion Hok as [|? ? Hn0 _]; subst. pose proof (proj2 Hn0) as Hn. cbn [display]. asc.
  - intros ts e _ IH Hok. inversion Hok as [|? ? _ Hok1]; subst.
    apply Forall_app in Hok1. destruct Hok1 as [Hok1 _]. specialize (IH Hok1). cbn [display]. asc.
  - constructor.
  - intros ts args _ IH Hok. apply IH; exact Hok.
  - intros ts e _ IH Hok. cbn. constructor; [apply IH; exact Hok | constructor].
  - intros ts l ts' e _ IHl _ IHe Hok. apply Forall_app in Hok. destruct Hok as [Hok1 Hok2].
    inversion Hok2 as [|? ? _ Hok3]; subst. rewrite map_app. apply Forall_app. split; [apply IHl; exact Hok1|].
    constructor; [apply IHe; exact Hok3 | constructor].
Qed.

(** ** Round trip *)
Lemma no_eof :
  (forall ts e, GUnary ts e -> ~ In TEof ts) /\ (forall ts e, GPostfix ts e -> ~ In TEof ts)
  /\ (forall ts e, GPrimary ts e -> ~ In TEof ts) /\ (forall ts l, GArgs ts l -> ~ In TEof ts)
  /\ (forall ts l, GArgList ts l -> ~ In TEof ts).
Proof.
  assert (Hp : forall l, ~ In TEof (path_toks l)).
  { induction l as [|s l IH]; simpl; [tauto|]. intros [H|[H|H]]; [discriminate|discriminate|tauto]. }
  assert (Ht : (forall ts s, GType ts s -> ~ In TEof ts) /\ (forall ts l, GTypeArgs ts l -> ~ In TEof ts)
     /\ (forall ts l, GTypeList ts l -> ~ In TEof ts)).
  { apply GType_mut; intros; try (simpl; tauto); try assumption.
    - intros [H|H]; [discriminate | eapply Hp; exact H].
    - intros HH. simpl in HH. rewrite in_app_iff in HH. simpl in HH. rewrite in_app_iff in HH. simpl in HH.
      specialize (Hp tail). destruct HH as [HH|[HH|[HH|[HH|[HH|HH]]]]]; try discriminate; tauto.
    - intros HH. rewrite in_app_iff in HH. simpl in HH. destruct HH as [HH|[HH|HH]]; try discriminate; tauto. }
  apply GExpr_mut; intros; try (simpl; intuition discriminate); try assumption.
  - intros HH. rewrite in_app_iff in HH. simpl in HH. intuition discriminate.
  - intros HH. rewrite in_app_iff in HH. simpl in HH. rewrite in_app_iff in HH. simpl in HH. intuition discriminate.
  - intros HH. rewrite in_app_iff in HH. simpl in HH. rewrite in_app_iff in HH. simpl in HH. intuition discriminate.
  - intros HH. specialize (Hp (s :: tail)). simpl in HH, Hp. intuition discriminate.
  - intros HH. destruct Ht as [_ [Ht _]]. specialize (Ht _ _ g). specialize (Hp tail).
    simpl in HH. rewrite in_app_iff in HH. simpl in HH. rewrite in_app_iff in HH. simpl in HH. intuition discriminate.
  - intros HH. specialize (Hp tail).
    simpl in HH. rewrite in_app_iff in HH. simpl in HH. rewrite in_app_iff in HH. simpl in HH. intuition discriminate.
  - intros HH. simpl in HH. rewrite in_app_iff in HH. simpl in HH. intuition discriminate.
  - intros HH. rewrite in_app_iff in HH. simpl in HH. intuition discriminate.
Qed.

Lemma app_snoc_prefix {A} (pre rest ts0 : list A) x :
  ts0 ++ [x] = pre ++ rest -> ~ In x pre -> exists r', ts0 = pre ++ r'.
Proof.
  intros H Hn. destruct rest as [|a rest].
  - rewrite app_nil_r in H. exfalso. apply Hn. rewrite <- H. apply in_or_app. right. left. reflexivity.
  - destruct (@exists_last _ (a :: rest) ltac:(discriminate)) as [r' [y Hr]].
    rewrite Hr, app_assoc in H. apply app_inj_tail in H. exists r'. apply H.
Qed.

Lemma parse_display_roundtrip input e : ascii_str input ->
  parse_expression input = Ok e -> parse_expression (display e) = Ok e.
Proof.
  intros Ha H. unfold parse_expression in H. bok H.
  unfold tokenize in H0. apply (tokenize_LexTo input Ha a [] input) in H0; [|reflexivity].
  destruct H0 as [ts0 [r [-> [_ [_ Hok]]]]].
  apply parse_tokens_sound in H. destruct H as [pre [rest [Heq [Hg _]]]].
  pose proof (proj1 no_eof _ _ Hg) as Hne.
  destruct (app_snoc_prefix _ _ _ _ Heq Hne) as [r' ->].
  apply Forall_app in Hok. destruct Hok as [Hok _].
  pose proof (proj1 ascii_exprs _ _ Hg Hok) as Hasc.
  pose proof (proj1 lex_exprs _ _ Hg Hok [] I) as Hlex. rewrite app_nil_r in Hlex.
  unfold parse_expression, tokenize.
  rewrite (LexTo_tokenize (display e) Hasc _ _ _ Hlex eq_refl [] _ eq_refl) by lia.
  cbn [bind]. apply parse_tokens_complete; [exact Hg | reflexivity].
Qed.
