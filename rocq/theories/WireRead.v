(** C90: what the server makes of any bytes: a message it reads is well-formed, whatever was sent; the order of the fields
    and unknown fields do not matter. *)
From Coq Require Import Ascii String List ZArith NArith Lia Bool Permutation.
From Coq Require Import ZifyBool ZifyNat ZifyN.
From Verif Require Import Base NumText DataSpec Utf8 ExprModel SymModel ProcModel EvalModel ServerModel JsonModel JsonProofs JsonProps WireModel WireProps.
Import ListNotations.
Open Scope Z_scope.

(** ** Texts read are texts *)
Fixpoint texts (j : json) : Prop :=
  match j with
  | JStr s => text s
  | JArr l => (fix go (l : list json) : Prop := match l with [] => True | x :: l' => texts x /\ go l' end) l
  | JObj l => (fix go (l : list (str * json)) : Prop := match l with [] => True | (k, x) :: l' => text k /\ texts x /\ go l' end) l
  | _ => True
  end.
Lemma texts_arr l : texts (JArr l) <-> Forall texts l.
Proof. cbn [texts]. induction l as [|x l IH]; split; intros H; [constructor | exact I | |]; [destruct H; constructor; tauto | inversion H; tauto]. Qed.
Lemma texts_obj l : texts (JObj l) <-> Forall (fun kx => text (fst kx) /\ texts (snd kx)) l.
Proof.
  cbn [texts]. induction l as [|[k x] l IH]; split; intros H; [constructor | exact I | |]; [destruct H as (A & B & C); constructor; [split; assumption | tauto] |].
  inversion H as [|? ? [A B] C]; subst. cbn in *. tauto.
Qed.
Lemma digit_val_range c : is_hexdigit c = true -> 0 <= digit_val c < 16.
Proof. unfold is_hexdigit, digit_val, is_digit. repeat match goal with |- context [if ?b then _ else _] => destruct b eqn:? end; lia. Qed.
Lemma hex_val4_range a b c d u : hex_val4 a b c d = Some u -> 0 <= u < 65536.
Proof.
  unfold hex_val4. destruct (is_hexdigit a) eqn:A; [|discriminate]. destruct (is_hexdigit b) eqn:B; [|discriminate]. destruct (is_hexdigit c) eqn:C; [|discriminate].
  destruct (is_hexdigit d) eqn:D; [|discriminate]. cbn [andb]. intros H. injection H as <-.
  apply digit_val_range in A, B, C, D. lia.
Qed.
Lemma read_string_text : forall m s t rest, (List.length s <= m)%nat -> text s -> read_string s = Ok (t, rest) -> text t /\ text rest.
Proof.
  induction m as [|m IH]; intros s t rest L T; [destruct s; [discriminate | cbn in L; lia]|].
  destruct s as [|c r]; [discriminate|]. cbn [List.length] in L. inversion T as [|? ? Tc Tr]; subst.
  assert (K : forall k r', scalar k -> text r' -> (List.length r' <= List.length r)%nat -> cons_to k (read_string r') = Ok (t, rest) -> text t /\ text rest).
  { intros k r' Hk Hr L' H. apply cons_to_ok in H. destruct H as (s' & H & ->). destruct (IH r' s' rest ltac:(lia) Hr H). split; [now constructor | assumption]. }
  cbn [read_string].
  destruct (N.eqb c 34); [intros H; injection H as <- <-; split; [constructor | exact Tr]|].
  destruct (N.eqb c 92).
  - destruct r as [|e r1]; [discriminate|]. inversion Tr as [|? ? _ T1]; subst.
    repeat match goal with |- (if N.eqb e ?k then cons_to _ _ else _) = _ -> _ => destruct (N.eqb e k); [apply K; [unfold scalar; lia | exact T1 | cbn; lia]|] end.
    destruct (N.eqb e 117); [|discriminate].
    destruct r1 as [|a1 [|a2 [|a3 [|a4 r2]]]]; try discriminate.
    assert (T2 : text r2) by (repeat match goal with H : Forall scalar (_ :: _) |- _ => inversion H; clear H; subst | H : text (_ :: _) |- _ => inversion H; clear H; subst end; assumption).
    destruct (hex_val4 a1 a2 a3 a4) as [u|] eqn:U; [|discriminate]. apply hex_val4_range in U.
    destruct ((55296 <=? u) && (u <=? 56319)) eqn:S1.
    + destruct r2 as [|b0 [|b5 [|b1 [|b2 [|b3 [|b4 r3]]]]]]; try discriminate.
      destruct (N.eqb b0 92 && N.eqb b5 117); [|discriminate]. destruct (hex_val4 b1 b2 b3 b4) as [v|] eqn:V; [|discriminate].
      destruct ((56320 <=? v) && (v <=? 57343)) eqn:S2; [|discriminate]. apply K; [unfold scalar; lia | | cbn; lia].
      repeat match goal with H : text (_ :: _) |- _ => inversion H; clear H; subst | H : Forall scalar (_ :: _) |- _ => inversion H; clear H; subst end; assumption.
    + destruct ((56320 <=? u) && (u <=? 57343)) eqn:S2; [discriminate|]. apply K; [unfold scalar; lia | exact T2 | cbn; lia].
  - destruct (c <? 32)%N; [discriminate|]. apply K; [exact Tc | exact Tr | lia].
Qed.
Lemma skip_ws_text s : text s -> text (skip_ws s).
Proof. induction 1 as [|c s H F IH]; cbn [skip_ws]; [constructor|]. destruct (is_ws c); [exact IH | now constructor]. Qed.
Lemma digits_text s : text s -> text (snd (digits s)).
Proof. induction 1 as [|c s H F IH]; cbn [digits]; [constructor|]. destruct (is_digit c); [|now constructor]. destruct (digits s). exact IH. Qed.
Lemma skipn_text n s : text s -> text (skipn n s).
Proof. revert s. induction n as [|n IH]; intros s T; [exact T|]. destruct s; [constructor|]. inversion T; subst. cbn. now apply IH. Qed.
Lemma read_number_text s j rest : text s -> read_number s = Ok (j, rest) -> texts j /\ text rest.
Proof.
  intros T. unfold read_number.
  assert (M : text (snd (minus_sign s))). { unfold minus_sign. destruct s as [|c r]; [constructor|]. destruct (N.eqb c 45); [now inversion T | exact T]. }
  destruct (minus_sign s) as [neg s1]. cbn [snd] in M. apply digits_text in M. destruct (digits s1) as [[|x ds] r1]; [discriminate|]. cbn [snd] in M.
  destruct (match ds with _ :: _ => N.eqb x 48 | _ => false end); [discriminate|].
  destruct (read_frac r1) as [[f r2]| | |] eqn:F; try discriminate. cbn [bind].
  assert (T2 : text r2).
  { revert F. unfold read_frac. destruct r1 as [|c r]; [intros F; injection F as <- <-; constructor|]. destruct (N.eqb c 46); [|intros F; injection F as <- <-; exact M].
    inversion M as [|? ? _ Mr]; subst. apply digits_text in Mr. destruct (digits r) as [[|y d2] r3]; [discriminate|]. intros F. injection F as <- <-. exact Mr. }
  destruct (read_exp r2) as [[e r3]| | |] eqn:E; try discriminate. cbn [bind].
  assert (T3 : text r3).
  { revert E. unfold read_exp. destruct r2 as [|c r]; [intros E; injection E as <- <-; constructor|]. destruct (N.eqb c 101 || N.eqb c 69); [|intros E; injection E as <- <-; exact T2].
    inversion T2 as [|? ? _ Mr]; subst.
    assert (G : text (snd (exp_sign r))). { unfold exp_sign. destruct r as [|y r']; [constructor|]. destruct (N.eqb y 43 || N.eqb y 45); [now inversion Mr | exact Mr]. }
    destruct (exp_sign r) as [sg r4]. cbn [snd] in G. apply digits_text in G. destruct (digits r4) as [[|y d2] r5]; [discriminate|]. intros E. injection E as <- <-. exact G. }
  destruct (f ++ e); [destruct (integer neg (x :: ds))|]; intros H; injection H as <- <-; (split; [exact I | exact T3]).
Qed.
Lemma read_word_text w k s j rest : (match k with JNull | JBool _ => True | _ => False end) -> text s -> read_word w k s = Ok (j, rest) -> texts j /\ text rest.
Proof.
  intros K T. unfold read_word. destruct (starts_with s (st w)); [|discriminate]. intros H. injection H as <- <-. split; [destruct k; try destruct K; exact I | now apply skipn_text].
Qed.
Definition okT {A} (P : A -> Prop) (r : res (A * str)) : Prop := forall a rest, r = Ok (a, rest) -> P a /\ text rest.
Lemma read_all_text : forall n d s, text s ->
  okT texts (read_value n d s) /\ okT (Forall texts) (read_elems n d s)
  /\ okT (Forall (fun kx => text (fst kx) /\ texts (snd kx))) (read_members n d s)
  /\ okT (fun kx => text (fst kx) /\ texts (snd kx)) (read_member n d s).
Proof.
  induction n as [|n IH]; intros d s T; [repeat apply conj; intros a rest H; discriminate|].
  cbn [read_value read_elems read_members read_member]. apply skip_ws_text in T. destruct (skip_ws s) as [|c r]; [repeat apply conj; intros a rest H; discriminate|].
  inversion T as [|? ? Tc Tr]; subst.
  split; [|split; [|split]].
  - intros j rest. destruct (N.eqb c 34).
    { destruct (read_string r) as [[t r1]| | |] eqn:R; try discriminate. cbn [bind]. intros H. injection H as <- <-. destruct (read_string_text _ r t r1 (le_n _) Tr R). auto. }
    destruct (N.eqb c 91).
    { destruct d as [|d]; [discriminate|]. pose proof (skip_ws_text r Tr) as T2. destruct (skip_ws r) as [|x r1]; [discriminate|]. destruct (N.eqb x 93).
      { intros H. injection H as <- <-. split; [exact I | now inversion T2]. }
      destruct (IH d (x :: r1) T2) as [V _]. destruct (read_value n d (x :: r1)) as [[j1 r2]| | |]; try discriminate. cbn [bind]. destruct (V j1 r2 eq_refl) as [V1 V2].
      destruct (IH d r2 V2) as (_ & M & _). destruct (read_elems n d r2) as [[l r3]| | |]; try discriminate. cbn [bind]. intros H. injection H as <- <-.
      destruct (M l r3 eq_refl) as [M1 M2]. split; [apply texts_arr; now constructor | exact M2]. }
    destruct (N.eqb c 123).
    { destruct d as [|d]; [discriminate|]. pose proof (skip_ws_text r Tr) as T2. destruct (skip_ws r) as [|x r1]; [discriminate|]. destruct (N.eqb x 125).
      { intros H. injection H as <- <-. split; [exact I | now inversion T2]. }
      destruct (IH d (x :: r1) T2) as (_ & _ & _ & V). destruct (read_member n d (x :: r1)) as [[j1 r2]| | |]; try discriminate. cbn [bind]. destruct (V j1 r2 eq_refl) as [V1 V2].
      destruct (IH d r2 V2) as (_ & _ & M & _). destruct (read_members n d r2) as [[l r3]| | |]; try discriminate. cbn [bind]. intros H. injection H as <- <-.
      destruct (M l r3 eq_refl) as [M1 M2]. split; [apply texts_obj; now constructor | exact M2]. }
    destruct (N.eqb c 110); [apply read_word_text; [exact I | exact T]|]. destruct (N.eqb c 116); [apply read_word_text; [exact I | exact T]|].
    destruct (N.eqb c 102); [apply read_word_text; [exact I | exact T]|].
    destruct (N.eqb c 45 || is_digit c); [|discriminate]. apply read_number_text. exact T.
  - intros j rest. destruct (N.eqb c 93); [intros H; injection H as <- <-; split; [constructor | exact Tr]|]. destruct (N.eqb c 44); [|discriminate].
    destruct (IH d r Tr) as [V _]. destruct (read_value n d r) as [[j1 r2]| | |]; try discriminate. cbn [bind]. destruct (V j1 r2 eq_refl) as [V1 V2].
    destruct (IH d r2 V2) as (_ & M & _). destruct (read_elems n d r2) as [[l r3]| | |]; try discriminate. cbn [bind]. intros H. injection H as <- <-.
    destruct (M l r3 eq_refl) as [M1 M2]. split; [now constructor | exact M2].
  - intros j rest. destruct (N.eqb c 125); [intros H; injection H as <- <-; split; [constructor | exact Tr]|]. destruct (N.eqb c 44); [|discriminate].
    destruct (IH d r Tr) as (_ & _ & _ & V). destruct (read_member n d r) as [[j1 r2]| | |]; try discriminate. cbn [bind]. destruct (V j1 r2 eq_refl) as [V1 V2].
    destruct (IH d r2 V2) as (_ & _ & M & _). destruct (read_members n d r2) as [[l r3]| | |]; try discriminate. cbn [bind]. intros H. injection H as <- <-.
    destruct (M l r3 eq_refl) as [M1 M2]. split; [now constructor | exact M2].
  - intros j rest. destruct (N.eqb c 34); [|discriminate]. destruct (read_string r) as [[k r1]| | |] eqn:R; try discriminate. cbn [bind].
    destruct (read_string_text _ r k r1 (le_n _) Tr R) as [K1 K2]. apply skip_ws_text in K2. destruct (skip_ws r1) as [|x r2]; [discriminate|]. inversion K2 as [|? ? _ K3]; subst.
    destruct (N.eqb x 58); [|discriminate]. destruct (IH d r2 K3) as [V _]. destruct (read_value n d r2) as [[j1 r3]| | |]; try discriminate. cbn [bind].
    intros H. injection H as <- <-. destruct (V j1 r3 eq_refl). auto.
Qed.
Lemma from_str_texts s j : text s -> from_str s = Ok j -> texts j.
Proof.
  intros T. unfold from_str. destruct (read_value (S (S (List.length s))) 127 s) as [[j1 rest]| | |] eqn:E; try discriminate. cbn [bind].
  destruct (skip_ws rest); [|discriminate]. intros H. injection H as <-. destruct (read_all_text (S (S (List.length s))) 127 s T) as [V _]. now apply (V j1 rest).
Qed.

(** ** Every message read is well-formed *)
Lemma d_str_text j s : texts j -> d_str j = Ok s -> text s.
Proof. destruct j; try discriminate. cbn. intros T H. now injection H as <-. Qed.
Lemma d_u64_fits j z : d_u64 j = Ok z -> u64 z.
Proof. unfold d_u64, d_uint, u64. destruct j; try discriminate. destruct ((0 <=? z0) && (z0 <=? two64 - 1)) eqn:E; [|discriminate]. intros H. injection H as <-. lia. Qed.
Lemma d_u8_byte j z : d_u8 j = Ok z -> byte z.
Proof. unfold d_u8, d_uint, byte. destruct j; try discriminate. destruct ((0 <=? z0) && (z0 <=? 255)) eqn:E; [|discriminate]. intros H. injection H as <-. lia. Qed.
Lemma d_vec_all {A} (P : A -> Prop) d j l : texts j -> (forall x a, texts x -> d x = Ok a -> P a) -> d_vec d j = Ok l -> Forall P l.
Proof.
  intros T H. destruct j as [| | | | | xs |]; try discriminate. cbn [d_vec]. apply texts_arr in T. revert l.
  induction T as [|x xs Tx F IH]; cbn [mapM]; intros l E; [injection E as <-; constructor|].
  apply bind_ok in E. destruct E as (a & Ea & E). apply bind_ok in E. destruct E as (b & Eb & E). injection E as <-. constructor; [eapply H; eassumption | now apply IH].
Qed.
Definition clean (fs : fields) : Prop := Forall (fun kx => text (fst kx) /\ texts (snd kx)) fs.
Lemma values_clean k fs : clean fs -> Forall texts (values k fs).
Proof.
  intros C. unfold values. apply Forall_map. apply Forall_forall. intros kx H. apply filter_In in H. destruct H as [H _].
  unfold clean in C. rewrite Forall_forall in C. now apply C.
Qed.
Lemma required_all {A} (P : A -> Prop) k d fs a : clean fs -> (forall x b, texts x -> d x = Ok b -> P b) -> required k d fs = Ok a -> P a.
Proof.
  intros C H. unfold required, field. pose proof (values_clean k fs C) as V. destruct (values k fs) as [|j [|]]; try discriminate. cbn [bind]. inversion V; subst. now apply H.
Qed.
Lemma optional_all {A} (P : A -> Prop) k d fs a : clean fs -> (forall x b, texts x -> d x = Ok b -> P b) -> optional k d fs = Ok a -> opt P a.
Proof.
  intros C H. unfold optional, field. pose proof (values_clean k fs C) as V. destruct (values k fs) as [|j [|]]; try discriminate; cbn [bind].
  - intros E. injection E as <-. exact I.
  - inversion V; subst. unfold d_option. destruct j; try (intros E; injection E as <-; exact I); unfold rmap; intros E; apply bind_ok in E; destruct E as (bb & E1 & E2); injection E2 as <-; cbn; eapply H; eassumption.
Qed.
Lemma without_clean k fs : clean fs -> clean (without k fs).
Proof. intros C. apply Forall_forall. intros kx H. apply filter_In in H. destruct H as [H _]. unfold clean in C. rewrite Forall_forall in C. now apply C. Qed.
Ltac take H a E := apply bind_ok in H; destruct H as (a & E & H).
Lemma d_call_fits j c : texts j -> d_call j = Ok c -> call_fits c.
Proof.
  intros T. destruct j as [| | | | | |l]; try discriminate. destruct l as [|[k v] [|]]; try discriminate. apply texts_obj in T. inversion T as [|? ? [_ Tv] _]; subst. cbn [snd] in Tv.
  cbn [d_call]. destruct (str_eqb k (st "SimpleValue")).
  - destruct v as [| | | | | l|l]; try discriminate; cbn [d_simple].
    + destruct l as [|a [|b [|]]]; try discriminate. intros H. take H x E1. take H y E2. injection H as <-. apply texts_arr in Tv. inversion Tv as [|? ? Ta Tb]; subst. inversion Tb; subst.
      split; [eapply d_u64_fits; exact E1 | eapply d_str_text; [|exact E2]; assumption].
    + apply texts_obj in Tv. intros H. take H x E1. take H y E2. injection H as <-.
      split; [eapply (required_all u64); [exact Tv | intros ? ? _; apply d_u64_fits | exact E1] | eapply (required_all text); [exact Tv | exact d_str_text | exact E2]].
  - destruct (str_eqb k (st "ComplexPointer")); [|discriminate]. destruct v as [| | | | | l|l]; try discriminate; cbn [d_complex].
    + destruct l as [|a [|b [|c0 [|]]]]; try discriminate. intros H. take H x E1. take H y E2. take H z E3. injection H as <-. apply texts_arr in Tv. inversion Tv as [|? ? Ta Tb]; subst. inversion Tb as [|? ? Tb1 Tc]; subst. inversion Tc; subst.
      split; [eapply d_u64_fits; exact E1 | split; [eapply d_u64_fits; exact E2 | eapply d_str_text; [|exact E3]; assumption]].
    + apply texts_obj in Tv. intros H. take H x E1. take H y E2. take H z E3. injection H as <-.
      split; [eapply (required_all u64); [exact Tv | intros ? ? _; apply d_u64_fits | exact E1] | split; [eapply (required_all u64); [exact Tv | intros ? ? _; apply d_u64_fits | exact E2] | eapply (required_all text); [exact Tv | exact d_str_text | exact E3]]].
Qed.
Lemma d_reply_fits fs r : clean fs -> d_reply fs = Ok r -> reply_fits r.
Proof.
  intros C H. unfold d_reply in H. take H t Et. apply (without_clean "event") in C. set (gs := without "event" fs) in *. clearbody gs.
  assert (U : forall k z, required k d_u64 gs = Ok z -> u64 z) by (intros k z; apply required_all; [exact C | intros ? ? _; apply d_u64_fits]).
  assert (S : forall k z, required k d_str gs = Ok z -> text z) by (intros k z; apply required_all; [exact C | exact d_str_text]).
  assert (O : forall k z, optional k d_str gs = Ok z -> opt text z) by (intros k z; apply optional_all; [exact C | exact d_str_text]).
  assert (L : forall k z, required k d_call gs = Ok z -> call_fits z) by (intros k z; apply required_all; [exact C | exact d_call_fits]).
  repeat match type of H with (if ?b then _ else _) = _ => destruct b end; try discriminate;
    repeat match type of H with bind _ _ = _ => let a := fresh "a" in let E := fresh "E" in take H a E end; injection H as <-; cbn [reply_fits]; try exact I; try (eapply (required_all (Forall byte)); [exact C | | exact E]; intros x b Tx; apply d_vec_all; [exact Tx | intros ? ? _; apply d_u8_byte]); try (first [eapply U; eassumption | eapply L; eassumption | eapply S; eassumption | eapply O; eassumption | split; [|split]; eapply U; eassumption | split; [eapply U; eassumption | eapply O; eassumption]]).
Qed.
Lemma d_client_fits j m : texts j -> d_client j = Ok m -> client_fits m.
Proof.
  assert (V : forall x b, texts x -> d_vec d_str x = Ok b -> Forall text b) by (intros x b Tx; apply d_vec_all; [exact Tx | exact d_str_text]).
  destruct j as [| | | | | l|fs]; try discriminate; cbn [d_client]; intros T.
  - destruct l as [|t l]; [discriminate|]. apply texts_arr in T. inversion T as [|? ? _ Tl]; subst. intros H. take H tg Et.
    destruct (str_eqb tg (st "Init")).
    + destruct l as [|p [|]]; try discriminate. take H x E. injection H as <-. inversion Tl; subst. eapply d_str_text; [|exact E]; assumption.
    + destruct (str_eqb tg (st "Command")); [|discriminate]. destruct l as [|c [|xs [|]]]; try discriminate. take H x E1. take H y E2. injection H as <-.
      inversion Tl as [|? ? Tc Tx]; subst. inversion Tx; subst. split; [eapply d_str_text; [|exact E1]; assumption | eapply V; [|exact E2]; assumption].
  - apply texts_obj in T. intros H. take H t Et. apply (without_clean "type") in T. set (gs := without "type" fs) in *. clearbody gs.
    destruct (str_eqb t (st "Init")); [|destruct (str_eqb t (st "Command")); [|destruct (str_eqb t (st "EventResponse")); [|discriminate]]].
    + take H p E. injection H as <-. eapply (required_all text); [exact T | exact d_str_text | exact E].
    + take H c E1. take H xs E2. injection H as <-. split; [eapply (required_all text); [exact T | exact d_str_text | exact E1] | eapply (required_all (Forall text)); [exact T | exact V | exact E2]].
    + take H r E. injection H as <-. eapply d_reply_fits; [exact T | exact E].
Qed.
Lemma lossy_text : forall k bs, text (lossy_fuel k bs).
Proof.
  induction k as [|k IH]; intros bs; cbn [lossy_fuel]; [constructor|]. destruct bs as [|a r]; [constructor|].
  assert (F : scalar fffd) by (unfold scalar, fffd; lia).
  destruct (a <? 128) eqn:A1; [constructor; [unfold scalar; lia | apply IH]|].
  destruct ((194 <=? a) && (a <? 224)) eqn:A2.
  { destruct r as [|b r]; [constructor; [exact F | constructor]|]. unfold cont. destruct ((128 <=? b) && (b <? 192)) eqn:B; constructor; try apply IH; try exact F. unfold scalar. lia. }
  destruct ((224 <=? a) && (a <? 240)) eqn:A3.
  { destruct r as [|b r]; [constructor; [exact F | constructor]|]. unfold second3. destruct (if a =? 224 then _ else _) eqn:B; [|constructor; [exact F | apply IH]].
    destruct r as [|c r]; [constructor; [exact F | constructor]|]. unfold cont. destruct ((128 <=? c) && (c <? 192)) eqn:C0; constructor; try apply IH; try exact F.
    unfold scalar, cont in *. destruct (a =? 224) eqn:X; [lia|]. destruct (a =? 237) eqn:Y; lia. }
  destruct ((240 <=? a) && (a <? 245)) eqn:A4; [|constructor; [exact F | apply IH]].
  destruct r as [|b r]; [constructor; [exact F | constructor]|]. unfold second4. destruct (if a =? 240 then _ else _) eqn:B; [|constructor; [exact F | apply IH]].
  destruct r as [|c r]; [constructor; [exact F | constructor]|]. destruct (cont c) eqn:C0; [|constructor; [exact F | apply IH]].
  destruct r as [|e r]; [constructor; [exact F | constructor]|]. destruct (cont e) eqn:C1; constructor; try apply IH; try exact F.
  unfold scalar, cont in *. destruct (a =? 240) eqn:X; [lia|]. destruct (a =? 244) eqn:Y; lia.
Qed.
Lemma trim_start_text s : text s -> text (SymModel.trim_start s).
Proof. induction 1 as [|c s H F IH]; cbn; [constructor|]. destruct (is_whitespace c); [exact IH | now constructor]. Qed.
Lemma trim_text s : text s -> text (trim s).
Proof. intros T. unfold trim. apply Forall_rev, trim_start_text, Forall_rev, trim_start_text, T. Qed.
(** C90: whatever bytes arrive, each message the server acts on has texts of Unicode scalar values, numbers of 64 bits and
    memory contents of bytes. *)
Theorem messages_read_fit : forall bs m, In (Msg m) (lines_of bs) -> client_fits m.
Proof.
  intros bs m H. apply in_map_iff in H. destruct H as (l & H & _). revert H. unfold line_of, text_of.
  destruct (list_eq_dec Z.eq_dec (utf8 (utf8_lossy l)) l); [|discriminate].
  pose proof (trim_text _ (lossy_text (List.length l) l)) as T. fold (utf8_lossy l) in T. destruct (trim (utf8_lossy l)) as [|c t]; [discriminate|].
  destruct (from_str (c :: t)) as [j| | |] eqn:E; try discriminate. cbn [bind]. destruct (d_client j) as [m0| | |] eqn:D; try discriminate.
  intros H. injection H as <-. eapply d_client_fits; [|exact D]. eapply from_str_texts; eassumption.
Qed.
Print Assumptions messages_read_fit.

(** ** Order of fields, unknown fields *)
Lemma values_perm k fs gs : Permutation fs gs -> Permutation (values k fs) (values k gs).
Proof.
  intros P. unfold values. apply Permutation_map. induction P as [|x l l' P IH|x y l|l l' l'' P IH Q IH']; cbn [filter]; [constructor | | |eapply perm_trans; eassumption].
  - destruct (str_eqb (fst x) (st k)); [now constructor | exact IH].
  - destruct (str_eqb (fst x) (st k)), (str_eqb (fst y) (st k)); try constructor; apply Permutation_refl.
Qed.
Lemma field_perm k fs gs : Permutation fs gs -> field k fs = field k gs.
Proof.
  intros P. apply (values_perm k) in P. unfold field. destruct (values k fs) as [|a [|b l]].
  - apply Permutation_nil in P. now rewrite P.
  - apply Permutation_length_1_inv in P. now rewrite P.
  - pose proof (Permutation_length P) as L. destruct (values k gs) as [|c [|e l']]; try (cbn in L; discriminate). reflexivity.
Qed.
Lemma required_perm {A} k (d : json -> res A) fs gs : Permutation fs gs -> required k d fs = required k d gs.
Proof. intros P. unfold required. now rewrite (field_perm k fs gs P). Qed.
Lemma optional_perm {A} k (d : json -> res A) fs gs : Permutation fs gs -> optional k d fs = optional k d gs.
Proof. intros P. unfold optional. now rewrite (field_perm k fs gs P). Qed.
Lemma without_perm k fs gs : Permutation fs gs -> Permutation (without k fs) (without k gs).
Proof.
  intros P. unfold without. induction P as [|x l l' P IH|x y l|l l' l'' P IH Q IH']; cbn [filter]; [constructor | | |eapply perm_trans; eassumption].
  - destruct (negb (str_eqb (fst x) (st k))); [now constructor | exact IH].
  - destruct (negb (str_eqb (fst x) (st k))), (negb (str_eqb (fst y) (st k))); try constructor; apply Permutation_refl.
Qed.
Lemma d_reply_perm fs gs : Permutation fs gs -> d_reply fs = d_reply gs.
Proof.
  intros P. unfold d_reply. rewrite (required_perm _ _ _ _ P). destruct (required "event" inner_tag gs) as [t| | |]; try reflexivity. cbn [bind].
  apply (without_perm "event") in P. rewrite !(required_perm _ _ _ _ P), !(optional_perm _ _ _ _ P). reflexivity.
Qed.
Theorem field_order_free : forall fs gs, Permutation fs gs -> d_client (JObj fs) = d_client (JObj gs).
Proof.
  intros fs gs P. cbn [d_client]. rewrite (required_perm _ _ _ _ P). destruct (required "type" tag_name gs) as [t| | |]; try reflexivity. cbn [bind].
  apply (without_perm "type") in P. rewrite !(required_perm _ _ _ _ P), (d_reply_perm _ _ P). reflexivity.
Qed.
Print Assumptions field_order_free.
(** The fields a message has. *)
Definition field_names (m : cmsg) : list str := map (fun kv => st (fst kv)) (client_fields m).
Lemma values_add k k' v fs : st k <> k' -> values k ((k', v) :: fs) = values k fs.
Proof. intros H. unfold values. cbn [filter fst]. rewrite (proj2 (str_eqb_neq _ _)) by congruence. reflexivity. Qed.
Lemma required_add {A} k (d : json -> res A) k' v fs : st k <> k' -> required k d ((k', v) :: fs) = required k d fs.
Proof. intros H. unfold required, field. now rewrite values_add. Qed.
Lemma optional_add {A} k (d : json -> res A) k' v fs : st k <> k' -> optional k d ((k', v) :: fs) = optional k d fs.
Proof. intros H. unfold optional, field. now rewrite values_add. Qed.
Lemma without_add k k' v fs : st k <> k' -> without k ((k', v) :: fs) = (k', v) :: without k fs.
Proof. intros H. unfold without. cbn [filter fst]. rewrite (proj2 (str_eqb_neq _ _)) by congruence. reflexivity. Qed.
Lemma d_reply_add k v fs r : d_reply fs = Ok r -> ~ In k (map (fun kv => st (fst kv)) (enc_reply r)) -> d_reply ((k, v) :: fs) = Ok r.
Proof.
  intros H N. unfold d_reply in *. take H t Et. 
  assert (N0 : st "event" <> k) by (intros <-; apply N; destruct r; left; reflexivity).
  rewrite required_add by exact N0. rewrite Et. cbn [bind]. rewrite without_add by exact N0. set (gs := without "event" fs) in *. clearbody gs.
  repeat match type of H with (if ?b then _ else _) = _ => destruct b end; try discriminate;
    repeat match type of H with bind _ _ = _ => let a := fresh "a" in let E := fresh "E" in take H a E end; injection H as <-;
    repeat (first [rewrite required_add by (intros <-; apply N; cbn; tauto) | rewrite optional_add by (intros <-; apply N; cbn; tauto)];
            match goal with E : ?x = Ok _ |- context [bind ?x _] => rewrite E; cbn [bind] end); reflexivity.
Qed.
(** A field the message does not have, in any position, is ignored. *)
Theorem unknown_field_ignored : forall fs fs' k v m,
  d_client (JObj (fs ++ fs')) = Ok m -> ~ In k (field_names m) -> d_client (JObj (fs ++ (k, v) :: fs')) = Ok m.
Proof.
  intros fs fs' k v m H N. rewrite <- (field_order_free ((k, v) :: fs ++ fs')) by apply Permutation_middle.
  set (gs := fs ++ fs') in *. clearbody gs. clear fs fs'. cbn [d_client] in *. take H t Et.
  assert (N0 : st "type" <> k) by (intros <-; apply N; destruct m; left; reflexivity).
  rewrite required_add by exact N0. rewrite Et. cbn [bind]. rewrite without_add by exact N0. set (hs := without "type" gs) in *. clearbody hs.
  repeat match type of H with (if ?b then _ else _) = _ => destruct b end; try discriminate;
    repeat match type of H with bind _ _ = _ => let a := fresh "a" in let E := fresh "E" in take H a E end; injection H as <-.
  - rewrite required_add by (intros <-; apply N; cbn; tauto). rewrite E. reflexivity.
  - rewrite required_add by (intros <-; apply N; cbn; tauto). rewrite E. cbn [bind]. rewrite required_add by (intros <-; apply N; cbn; tauto). rewrite E0. reflexivity.
  - rewrite (d_reply_add _ _ _ _ E); [reflexivity|]. intros Hk. apply N. right. exact Hk.
Qed.
Print Assumptions unknown_field_ignored.
