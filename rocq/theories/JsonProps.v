(** Properties of the JSON text layer (used by C89, C90). *)
From Coq Require Import Ascii String List ZArith NArith Lia Bool.
From Coq Require Import ZifyBool ZifyNat ZifyN.
From Verif Require Import Base NumText Utf8 JsonModel JsonProofs.
Import ListNotations.
Open Scope Z_scope.

(** What either side writes, serde_json reads back. *)
Lemma read_back w cws ows j : readable w -> forallb is_ws cws = true -> forallb is_ws ows = true -> plain_json j -> (depth j <= 127)%nat ->
  from_str (write w (44%N :: cws) (58%N :: ows) j) = Ok j.
Proof.
  intros W C O P D. unfold from_str. pose proof (all_read w W cws ows C O j) as R. unfold reads in R.
  specialize (R (S (S (List.length (write w (44%N :: cws) (58%N :: ows) j)))) 127%nat [] P D). rewrite app_nil_r in R. rewrite R; [reflexivity | lia | exact I].
Qed.
Theorem json_text_roundtrip : forall j, plain_json j -> (depth j <= 127)%nat -> from_str (to_string j) = Ok j /\ from_str (dumps j) = Ok j.
Proof.
  intros j P D. split.
  - exact (read_back serde_char [] [] j serde_readable eq_refl eq_refl P D).
  - exact (read_back python_char (st " ") (st " ") j python_readable eq_refl eq_refl P D).
Qed.
Print Assumptions json_text_roundtrip.

(** ** No line breaks in what is written *)
Definition visible (c : char) : Prop := (32 <= c)%N.
Definition ascii_visible (c : char) : Prop := (32 <= c <= 126)%N.
Fixpoint no_real (j : json) : Prop :=
  match j with
  | JReal _ => False
  | JArr l => (fix go (l : list json) : Prop := match l with [] => True | x :: l' => no_real x /\ go l' end) l
  | JObj l => (fix go (l : list (str * json)) : Prop := match l with [] => True | (_, x) :: l' => no_real x /\ go l' end) l
  | _ => True
  end.
Lemma plain_no_real j : plain_json j -> no_real j.
Proof.
  induction j as [| b | z | t | s | l IH | l IH] using json_ind'; try (intros _; exact I); [intros [] | |]; cbn [plain_json no_real].
  - induction IH as [|x l Hx F IHl]; intros H; [exact I|]. destruct H as [H1 H2]. split; [now apply Hx | now apply IHl].
  - induction IH as [|[k x] l Hx F IHl]; intros H; [exact I|]. destruct H as (H0 & H1 & H2). split; [now apply Hx | now apply IHl].
Qed.
Lemma dec_ascii z : Forall ascii_visible (dec z).
Proof.
  assert (G : forall n, 0 <= n -> Forall ascii_visible (dec_nat n)).
  { intros n H. pose proof (dec_nat_digits n H) as D. apply Forall_forall. intros c Hc. rewrite forallb_forall in D. specialize (D c Hc). unfold is_digit in D. unfold ascii_visible. lia. }
  unfold dec. destruct (z <? 0) eqn:S; [constructor; [unfold ascii_visible; lia|]|]; apply G; lia.
Qed.
Lemma write_all (P : char -> Prop) w comma colon : (forall c, ascii_visible c -> P c) -> (forall c, Forall P (w c)) -> Forall P comma -> Forall P colon ->
  forall j, no_real j -> Forall P (write w comma colon j).
Proof.
  intros HP HW HC HO.
  assert (L : forall s : string, forallb (fun c => (32 <=? c)%N && (c <=? 126)%N) (st s) = true -> Forall P (st s)).
  { intros s H. apply Forall_forall. intros c Hc. rewrite forallb_forall in H. specialize (H c Hc). apply HP. unfold ascii_visible. lia. }
  assert (S : forall s, Forall P (write_string w s)).
  { intros s. unfold write_string. constructor; [apply HP; unfold ascii_visible; lia|]. apply Forall_app. split; [|constructor; [apply HP; unfold ascii_visible; lia | constructor]].
    induction s as [|c s IH]; cbn; [constructor|]. apply Forall_app. auto. }
  assert (B : forall c, (32 <= c <= 126)%N -> P c) by (intros c Hc; apply HP; exact Hc).
  induction j as [| b | z | t | s | l IH | l IH] using json_ind'; intros NR; cbn [write].
  - now apply L.
  - destruct b; now apply L.
  - apply Forall_forall. intros c Hc. apply HP. pose proof (dec_ascii z) as D. rewrite Forall_forall in D. now apply D.
  - destruct NR.
  - apply S.
  - constructor; [apply B; lia|]. apply Forall_app. split; [|constructor; [apply B; lia | constructor]].
    cbn [no_real] in NR. induction IH as [|x l Hx F IHl]; [constructor|]. destruct NR as [N1 N2]. specialize (Hx N1). specialize (IHl N2).
    destruct l as [|y l]; [exact Hx|]. apply Forall_app. split; [exact Hx|]. apply Forall_app. auto.
  - constructor; [apply B; lia|]. apply Forall_app. split; [|constructor; [apply B; lia | constructor]].
    cbn [no_real] in NR. induction IH as [|[k x] l Hx F IHl]; [constructor|]. destruct NR as [N1 N2]. specialize (Hx N1). specialize (IHl N2). cbn [snd] in Hx.
    destruct l as [|[k' y] l]; (apply Forall_app; split; [apply S|]; apply Forall_app; split; [exact HO|]); [exact Hx|].
    apply Forall_app. split; [exact Hx|]. apply Forall_app. auto.
Qed.
Lemma hex_digit_ascii d : 0 <= d < 16 -> ascii_visible (hex_digit d).
Proof. intros H. unfold hex_digit, ascii_visible. destruct (d <? 10) eqn:E; lia. Qed.
Lemma escape_ascii u : Forall ascii_visible (escape_u u).
Proof.
  unfold escape_u, hex4. constructor; [unfold ascii_visible; lia|]. constructor; [unfold ascii_visible; lia|].
  repeat (constructor; [apply hex_digit_ascii, Z.mod_pos_bound; lia|]). constructor.
Qed.
Lemma short_ascii c e : short_escape c = Some e -> Forall ascii_visible e.
Proof.
  unfold short_escape. repeat match goal with |- (if N.eqb c ?k then _ else _) = _ -> _ => destruct (N.eqb c k) end;
    intros H; inversion H; repeat (constructor; [unfold ascii_visible; lia|]); constructor.
Qed.
Lemma ascii_is_visible c : ascii_visible c -> visible c.
Proof. unfold ascii_visible, visible. lia. Qed.
Lemma serde_visible c : Forall visible (serde_char c).
Proof.
  unfold serde_char. destruct (short_escape c) as [e|] eqn:E; [eapply Forall_impl; [apply ascii_is_visible | eapply short_ascii; exact E]|].
  destruct (N.ltb_spec c 32); [eapply Forall_impl; [apply ascii_is_visible | apply escape_ascii]|]. constructor; [unfold visible; lia | constructor].
Qed.
Lemma python_ascii c : Forall ascii_visible (python_char c).
Proof.
  unfold python_char. destruct (short_escape c) as [e|] eqn:E; [eapply short_ascii; exact E|].
  destruct ((32 <=? Z.of_N c) && (Z.of_N c <? 127)) eqn:A; [constructor; [unfold ascii_visible; lia | constructor]|].
  destruct (Z.of_N c <? 65536); [apply escape_ascii|]. apply Forall_app. split; apply escape_ascii.
Qed.
(** Every value is written without control characters (so without a line break), whatever its texts contain; json.dumps
    writes printable ASCII only. *)
Theorem json_one_line : forall j, no_real j -> Forall visible (to_string j) /\ Forall ascii_visible (dumps j).
Proof.
  intros j NR. split.
  - apply write_all; [apply ascii_is_visible | apply serde_visible | | | exact NR]; repeat (constructor; [unfold visible; vm_compute; discriminate|]); constructor.
  - apply write_all; [auto | apply python_ascii | | | exact NR]; repeat (constructor; [unfold ascii_visible; vm_compute; split; discriminate|]); constructor.
Qed.
Print Assumptions json_one_line.

(** ** Reading never fails to end *)
Definition settled {A} (r : res A) : Prop := match r with Ok _ | Err _ => True | _ => False end.
Lemma cons_to_ok c r s rest : cons_to c r = Ok (s, rest) -> exists s', r = Ok (s', rest) /\ s = c :: s'.
Proof. destruct r as [[s' r']| | |]; cbn; intros H; try discriminate. injection H as <- <-. eauto. Qed.
Lemma cons_to_settled c r : settled r -> settled (cons_to c r).
Proof. destruct r as [[s' r']| | |]; cbn; auto. Qed.
Lemma read_string_ok : forall m s, (List.length s <= m)%nat ->
  settled (read_string s) /\ forall t rest, read_string s = Ok (t, rest) -> (List.length rest < List.length s)%nat.
Proof.
  induction m as [|m IH]; intros s L; [destruct s; [split; [exact I | discriminate] | cbn in L; lia]|].
  destruct s as [|c r]; [split; [exact I | discriminate]|]. cbn [List.length] in L.
  assert (K : forall k r', (List.length r' <= List.length r)%nat ->
    settled (cons_to k (read_string r')) /\ forall t rest, cons_to k (read_string r') = Ok (t, rest) -> (List.length rest < S (List.length r))%nat).
  { intros k r' L'. destruct (IH r' ltac:(lia)) as [I1 I2]. split; [now apply cons_to_settled|]. intros t rest H. apply cons_to_ok in H. destruct H as (s' & H & _). apply I2 in H. lia. }
  cbn [read_string List.length].
  destruct (N.eqb c 34); [split; [exact I|]; intros t rest H; injection H as <- <-; lia|].
  destruct (N.eqb c 92).
  - destruct r as [|e r1]; [split; [exact I | discriminate]|].
    repeat match goal with |- settled (if N.eqb e ?k then cons_to _ _ else _) /\ _ => destruct (N.eqb e k); [apply K; cbn; lia|] end.
    destruct (N.eqb e 117); [|split; [exact I | discriminate]].
    destruct r1 as [|a1 [|a2 [|a3 [|a4 r2]]]]; try (split; [exact I | discriminate]).
    destruct (hex_val4 a1 a2 a3 a4) as [u|]; [|split; [exact I | discriminate]].
    destruct ((55296 <=? u) && (u <=? 56319)).
    + destruct r2 as [|b0 [|b5 [|b1 [|b2 [|b3 [|b4 r3]]]]]]; try (split; [exact I | discriminate]).
      destruct (N.eqb b0 92 && N.eqb b5 117); [|split; [exact I | discriminate]]. destruct (hex_val4 b1 b2 b3 b4) as [v|]; [|split; [exact I | discriminate]].
      destruct ((56320 <=? v) && (v <=? 57343)); [|split; [exact I | discriminate]]. apply K. cbn; lia.
    + destruct ((56320 <=? u) && (u <=? 57343)); [split; [exact I | discriminate]|]. apply K. cbn; lia.
  - destruct (c <? 32)%N; [split; [exact I | discriminate]|]. apply K. lia.
Qed.
Lemma skip_ws_length s : (List.length (skip_ws s) <= List.length s)%nat.
Proof. induction s as [|c s IH]; cbn; [lia|]. destruct (is_ws c); cbn; lia. Qed.
Lemma digits_length s : (List.length (fst (digits s)) + List.length (snd (digits s)) = List.length s)%nat.
Proof. induction s as [|c s IH]; cbn; [reflexivity|]. destruct (is_digit c); [|reflexivity]. destruct (digits s). cbn in *. lia. Qed.
Lemma read_number_ok s : s <> [] -> settled (read_number s) /\ forall j rest, read_number s = Ok (j, rest) -> (List.length rest < List.length s)%nat.
Proof.
  intros NE. unfold read_number.
  assert (H : exists neg s1, minus_sign s = (neg, s1) /\ (List.length s1 <= List.length s)%nat).
  { unfold minus_sign. destruct s as [|c r]; [contradiction|]. destruct (N.eqb c 45); eexists _, _; (split; [reflexivity|]); cbn; lia. }
  destruct H as (neg & s1 & -> & L). pose proof (digits_length s1) as DL. destruct (digits s1) as [[|x ds] rest]; [split; [exact I | discriminate]|]. cbn [fst snd List.length] in DL.
  destruct (match ds with _ :: _ => N.eqb x 48 | _ => false end); [split; [exact I | discriminate]|].
  assert (F : settled (read_frac rest) /\ forall f r, read_frac rest = Ok (f, r) -> (List.length r <= List.length rest)%nat).
  { unfold read_frac. destruct rest as [|c r]; [split; [exact I|]; intros f r0 H; injection H as <- <-; lia|].
    destruct (N.eqb c 46); [|split; [exact I|]; intros f r0 H; injection H as <- <-; lia].
    pose proof (digits_length r) as D2. destruct (digits r) as [[|y d2] r2]; [split; [exact I | discriminate]|]. split; [exact I|].
    intros f r0 H. injection H as <- <-. cbn in *. lia. }
  destruct F as [F1 F2]. destruct (read_frac rest) as [[f r1]| | |]; try destruct F1; [|split; [exact I | discriminate]]. specialize (F2 f r1 eq_refl). cbn [bind].
  assert (X : settled (read_exp r1) /\ forall e r, read_exp r1 = Ok (e, r) -> (List.length r <= List.length r1)%nat).
  { unfold read_exp. destruct r1 as [|c r]; [split; [exact I|]; intros e r0 H; injection H as <- <-; lia|].
    destruct (N.eqb c 101 || N.eqb c 69); [|split; [exact I|]; intros e r0 H; injection H as <- <-; lia].
    assert (H : exists sg r2, exp_sign r = (sg, r2) /\ (List.length r2 <= List.length r)%nat).
    { unfold exp_sign. destruct r as [|y r]; [eexists _, _; split; [reflexivity | lia]|]. destruct (N.eqb y 43 || N.eqb y 45); eexists _, _; (split; [reflexivity|]); cbn; lia. }
    destruct H as (sg & r2 & -> & L2). pose proof (digits_length r2) as D2. destruct (digits r2) as [[|y d2] r3]; [split; [exact I | discriminate]|]. split; [exact I|].
    intros e r0 H. injection H as <- <-. cbn in *. lia. }
  destruct X as [X1 X2]. destruct (read_exp r1) as [[e r2]| | |]; try destruct X1; [|split; [exact I | discriminate]]. specialize (X2 e r2 eq_refl). cbn [bind].
  destruct (f ++ e); [destruct (integer neg (x :: ds))|]; (split; [exact I|]); intros j r0 H; injection H as <- <-; lia.
Qed.
Lemma read_word_ok w j s : (0 < String.length w)%nat -> s <> [] -> settled (read_word w j s) /\ forall x rest, read_word w j s = Ok (x, rest) -> (List.length rest < List.length s)%nat.
Proof.
  intros H NE. unfold read_word. destruct (starts_with s (st w)); [|split; [exact I | discriminate]]. split; [exact I|]. intros x rest E. injection E as <- <-.
  rewrite skipn_length. destruct s; [contradiction|]. cbn [List.length]. lia.
Qed.
Definition fine {A} (n : nat) (r : res (A * str)) : Prop := settled r /\ forall a rest, r = Ok (a, rest) -> (List.length rest < n)%nat.
Lemma read_all_ok : forall n d s, (List.length s < n)%nat ->
  fine (List.length s) (read_value n d s) /\ fine (List.length s) (read_elems n d s) /\ fine (List.length s) (read_members n d s) /\ fine (List.length s) (read_member n d s).
Proof.
  induction n as [|n IH]; intros d s L; [lia|].
  pose proof (skip_ws_length s) as SL. 
  assert (E0 : forall A m, @fine A (List.length s) (Err m)) by (intros A m; split; [exact I | discriminate]).
  cbn [read_value read_elems read_members read_member]. destruct (skip_ws s) as [|c r] eqn:Q; [repeat split; try exact I; discriminate|]. cbn [List.length] in SL.
  assert (O0 : forall A (a : A) r', (List.length r' < List.length s)%nat -> fine (List.length s) (Ok (a, r'))).
  { intros A a r' H. split; [exact I|]. intros x y Z. injection Z as <- <-. exact H. }
  pose proof (read_string_ok (List.length r) r ltac:(lia)) as RS.
  split; [|split; [|split]].
  - destruct (N.eqb c 34).
    { destruct (read_string r) as [[t rest]| | |]; destruct RS as [R1 R2]; try destruct R1; [|apply E0]. cbn [bind]. apply O0. specialize (R2 t rest eq_refl). lia. }
    destruct (N.eqb c 91).
    { destruct d as [|d]; [apply E0|]. pose proof (skip_ws_length r) as SL2. destruct (skip_ws r) as [|x r1]; [apply E0|]. destruct (N.eqb x 93); [apply O0; cbn in SL2; lia|].
      destruct (IH d (x :: r1) ltac:(cbn in *; lia)) as [[V1 V2] _]. destruct (read_value n d (x :: r1)) as [[j r2]| | |]; try destruct V1; [|apply E0]. cbn [bind].
      specialize (V2 j r2 eq_refl). destruct (IH d r2 ltac:(cbn in *; lia)) as (_ & [M1 M2] & _). destruct (read_elems n d r2) as [[l rest]| | |]; try destruct M1; [|apply E0]. cbn [bind].
      apply O0. specialize (M2 l rest eq_refl). cbn in *. lia. }
    destruct (N.eqb c 123).
    { destruct d as [|d]; [apply E0|]. pose proof (skip_ws_length r) as SL2. destruct (skip_ws r) as [|x r1]; [apply E0|]. destruct (N.eqb x 125); [apply O0; cbn in SL2; lia|].
      destruct (IH d (x :: r1) ltac:(cbn in *; lia)) as (_ & _ & _ & [V1 V2]). destruct (read_member n d (x :: r1)) as [[j r2]| | |]; try destruct V1; [|apply E0]. cbn [bind].
      specialize (V2 j r2 eq_refl). destruct (IH d r2 ltac:(cbn in *; lia)) as (_ & _ & [M1 M2] & _). destruct (read_members n d r2) as [[l rest]| | |]; try destruct M1; [|apply E0]. cbn [bind].
      apply O0. specialize (M2 l rest eq_refl). cbn in *. lia. }
    assert (WK : forall w j, (0 < String.length w)%nat -> fine (List.length s) (read_word w j (c :: r))).
    { intros w j H. destruct (read_word_ok w j (c :: r) H ltac:(discriminate)) as [W1 W2]. split; [exact W1|]. intros a rest X. specialize (W2 a rest X). cbn in W2. lia. }
    destruct (N.eqb c 110); [apply WK; cbn; lia|]. destruct (N.eqb c 116); [apply WK; cbn; lia|]. destruct (N.eqb c 102); [apply WK; cbn; lia|].
    destruct (N.eqb c 45 || is_digit c); [|apply E0]. destruct (read_number_ok (c :: r) ltac:(discriminate)) as [N1 N2]. split; [exact N1|]. intros a rest X. specialize (N2 a rest X). cbn in N2. lia.
  - destruct (N.eqb c 93); [apply O0; lia|]. destruct (N.eqb c 44); [|apply E0].
    destruct (IH d r ltac:(lia)) as [[V1 V2] _]. destruct (read_value n d r) as [[j r2]| | |]; try destruct V1; [|apply E0]. cbn [bind].
    specialize (V2 j r2 eq_refl). destruct (IH d r2 ltac:(lia)) as (_ & [M1 M2] & _). destruct (read_elems n d r2) as [[l rest]| | |]; try destruct M1; [|apply E0]. cbn [bind].
    apply O0. specialize (M2 l rest eq_refl). lia.
  - destruct (N.eqb c 125); [apply O0; lia|]. destruct (N.eqb c 44); [|apply E0].
    destruct (IH d r ltac:(lia)) as (_ & _ & _ & [V1 V2]). destruct (read_member n d r) as [[j r2]| | |]; try destruct V1; [|apply E0]. cbn [bind].
    specialize (V2 j r2 eq_refl). destruct (IH d r2 ltac:(lia)) as (_ & _ & [M1 M2] & _). destruct (read_members n d r2) as [[l rest]| | |]; try destruct M1; [|apply E0]. cbn [bind].
    apply O0. specialize (M2 l rest eq_refl). lia.
  - destruct (N.eqb c 34); [|apply E0]. destruct (read_string r) as [[k r1]| | |]; destruct RS as [R1 R2]; try destruct R1; [|apply E0]. cbn [bind]. specialize (R2 k r1 eq_refl).
    pose proof (skip_ws_length r1) as SL2. destruct (skip_ws r1) as [|x r2]; [apply E0|]. destruct (N.eqb x 58); [|apply E0]. cbn in SL2.
    destruct (IH d r2 ltac:(lia)) as [[V1 V2] _]. destruct (read_value n d r2) as [[j rest]| | |]; try destruct V1; [|apply E0]. cbn [bind].
    apply O0. specialize (V2 j rest eq_refl). lia.
Qed.
(** Any text is read to a value or rejected. *)
Theorem json_reading_ends : forall s, settled (from_str s).
Proof.
  intros s. unfold from_str. destruct (read_all_ok (S (S (List.length s))) 127 s ltac:(lia)) as [[V _] _].
  destruct (read_value (S (S (List.length s))) 127 s) as [[j rest]| | |]; try destruct V; [|exact I]. cbn [bind]. destruct (skip_ws rest); exact I.
Qed.
Print Assumptions json_reading_ends.
