(** Decimal/hexadecimal text of integers: the standard-library conversions the code relies on
    ([u64::from_str], [u64::from_str_radix], integer [Display]).  Library behaviour, not rudy code. *)
From Coq Require Import Ascii String List ZArith NArith Lia Bool.
From Coq Require Import ZifyBool ZifyNat ZifyN.
From Verif Require Import Base.
Import ListNotations.
Open Scope Z_scope.

(** char::is_ascii_digit / is_ascii_hexdigit. *)
Definition is_digit (c : char) : bool := ((48 <=? c) && (c <=? 57))%N.
Definition is_hexdigit (c : char) : bool :=
  is_digit c || ((65 <=? c) && (c <=? 70))%N || ((97 <=? c) && (c <=? 102))%N.

(** char::to_digit(radix) for radix 10 and 16. *)
Definition digit_val (c : char) : Z :=
  if is_digit c then Z.of_N c - 48
  else if ((65 <=? c) && (c <=? 70))%N then Z.of_N c - 55
  else Z.of_N c - 87.

(** Mathematical value of a digit string, most significant digit first. *)
Definition digits_value (radix : Z) (s : str) : Z :=
  fold_left (fun acc c => acc * radix + digit_val c) s 0.

(** Checked accumulation of from_str_radix with upper bound [max]. *)
Fixpoint parse_acc (max radix : Z) (s : str) (acc : Z) : option Z :=
  match s with
  | [] => Some acc
  | c :: s' =>
    let acc' := acc * radix + digit_val c in
    if acc' <=? max then parse_acc max radix s' acc' else None
  end.

Definition u64_max : Z := 18446744073709551615.

(** u64::from_str_radix on a string of digits of that radix (the callers only pass such strings):
    empty string and overflow are errors. *)
Definition u64_from_digits (radix : Z) (s : str) : res Z :=
  match s with
  | [] => Err "cannot parse integer from empty string"
  | _ => match parse_acc u64_max radix s 0 with
         | Some v => Ok v
         | None => Err "number too large"
         end
  end.

(** str::parse::<u64>() on arbitrary text: an optional '+', then decimal digits only. *)
Definition parse_u64 (s : str) : option Z :=
  let ds := match s with c :: r => if N.eqb c 43 then r else s | [] => s end in
  match ds with
  | [] => None
  | _ => if forallb is_digit ds then parse_acc u64_max 10 ds 0 else None
  end.

(** Decimal Display of a non-negative integer. *)
Fixpoint dec_aux (fuel : nat) (n : Z) (acc : str) : str :=
  match fuel with
  | O => acc
  | S f =>
    let acc' := Z.to_N (48 + n mod 10) :: acc in
    if n / 10 =? 0 then acc' else dec_aux f (n / 10) acc'
  end.
Definition dec_nat (n : Z) : str := dec_aux (S (Z.to_nat (Z.log2 n))) n [].
(** Decimal Display of any integer. *)
Definition dec (n : Z) : str := if n <? 0 then 45%N :: dec_nat (- n) else dec_nat n.

(** Lower-case hexadecimal Display with 0x prefix ([{:#x}]). *)
Definition hex_digit (d : Z) : char := Z.to_N (if d <? 10 then 48 + d else 87 + d).
Fixpoint hex_aux (fuel : nat) (n : Z) (acc : str) : str :=
  match fuel with
  | O => acc
  | S f =>
    let acc' := hex_digit (n mod 16) :: acc in
    if n / 16 =? 0 then acc' else hex_aux f (n / 16) acc'
  end.
Definition hex (n : Z) : str := st "0x" ++ hex_aux (S (Z.to_nat (Z.log2 n))) n [].

(** ** Facts *)

Lemma fold_value_app radix s t a :
  fold_left (fun acc c => acc * radix + digit_val c) (s ++ t) a
  = fold_left (fun acc c => acc * radix + digit_val c) t
      (fold_left (fun acc c => acc * radix + digit_val c) s a).
Proof. apply fold_left_app. Qed.

Lemma digit_val_range c : is_hexdigit c = true -> 0 <= digit_val c < 16.
Proof. unfold is_hexdigit, digit_val, is_digit. intros H.
  destruct ((48 <=? c) && (c <=? 57))%N eqn:E1; [lia|].
  destruct ((65 <=? c) && (c <=? 70))%N eqn:E2; lia. Qed.
Lemma digit_val_dec c : is_digit c = true -> 0 <= digit_val c < 10.
Proof. unfold digit_val. intros H. rewrite H. unfold is_digit in H. lia. Qed.
Lemma is_digit_hex c : is_digit c = true -> is_hexdigit c = true.
Proof. unfold is_hexdigit. intros ->. reflexivity. Qed.

Lemma fold_value_ge radix s a : 1 <= radix -> 0 <= a -> forallb is_hexdigit s = true ->
  a <= fold_left (fun acc c => acc * radix + digit_val c) s a.
Proof.
  intros Hr. revert a. induction s as [|c s IH]; simpl; intros a Ha H; [lia|].
  apply andb_true_iff in H. destruct H as [Hc Hs].
  pose proof (digit_val_range c Hc).
  etransitivity; [|apply IH; [nia | exact Hs]]. nia.
Qed.

(** The checked accumulation computes the exact value or reports overflow. *)
Lemma parse_acc_spec max radix s a : 1 <= radix -> 0 <= a <= max ->
  forallb is_hexdigit s = true ->
  parse_acc max radix s a =
    (let v := fold_left (fun acc c => acc * radix + digit_val c) s a in
     if v <=? max then Some v else None).
Proof.
  intros Hr. revert a. induction s as [|c s IH]; intros a Ha H.
  - simpl. assert ((a <=? max) = true) as -> by lia. reflexivity.
  - cbn [parse_acc fold_left]. cbn [forallb] in H. apply andb_true_iff in H. destruct H as [Hc Hs].
    pose proof (digit_val_range c Hc) as Hd. cbv zeta.
    destruct (a * radix + digit_val c <=? max) eqn:E.
    + rewrite IH; [reflexivity | nia | exact Hs].
    + pose proof (fold_value_ge radix s (a * radix + digit_val c) Hr ltac:(nia) Hs) as Hge.
      destruct (_ <=? max) eqn:E2 at 1; [lia | reflexivity].
Qed.

Lemma u64_from_digits_spec radix s : 1 <= radix -> s <> [] -> forallb is_hexdigit s = true ->
  u64_from_digits radix s =
    if digits_value radix s <=? u64_max then Ok (digits_value radix s) else Err "number too large".
Proof.
  intros Hr Hne Hs. unfold u64_from_digits, digits_value. destruct s as [|c s]; [congruence|].
  rewrite parse_acc_spec by (try exact Hs; unfold u64_max; lia). cbv zeta.
  destruct (_ <=? u64_max); reflexivity.
Qed.

Lemma dec_aux_app f n acc : dec_aux f n acc = dec_aux f n [] ++ acc.
Proof.
  revert n acc. induction f as [|f IH]; intros n acc; [reflexivity|].
  cbn [dec_aux]. cbv zeta. destruct (n / 10 =? 0); [reflexivity|].
  rewrite IH, (IH _ [_]), <- app_assoc. reflexivity.
Qed.

Lemma dec_digit_ok n : is_digit (Z.to_N (48 + n mod 10)) = true
  /\ digit_val (Z.to_N (48 + n mod 10)) = n mod 10.
Proof.
  pose proof (Z.mod_pos_bound n 10 ltac:(lia)).
  assert (is_digit (Z.to_N (48 + n mod 10)) = true) as H1 by (unfold is_digit; lia).
  split; [exact H1|]. unfold digit_val. rewrite H1. lia.
Qed.

Lemma dec_aux_spec f n : 0 <= n -> (n < 2 ^ Z.of_nat f) ->
  digits_value 10 (dec_aux f n []) = n /\ forallb is_digit (dec_aux f n []) = true
  /\ (n = 0 \/ dec_aux f n [] <> [] /\ hd 0%N (dec_aux f n []) <> 48%N).
Proof.
  revert n. induction f as [|f IH]; intros n H0 Hf.
  - simpl in Hf. assert (n = 0) by lia. subst. cbn. auto.
  - cbn [dec_aux]. cbv zeta. pose proof (dec_digit_ok n) as [D1 D2].
    destruct (n / 10 =? 0) eqn:E.
    + assert (n = n mod 10) by (pose proof (Z.div_mod n 10); lia).
      split; [|split].
      * unfold digits_value. cbn [fold_left]. rewrite D2. lia.
      * cbn [forallb]. rewrite D1. reflexivity.
      * destruct (Z.eq_dec n 0); [left; assumption|]. right. split; [discriminate|].
        cbn [hd]. lia.
    + assert (Hn : n / 10 < 2 ^ Z.of_nat f).
      { rewrite Nat2Z.inj_succ, Z.pow_succ_r in Hf by lia.
        apply Z.div_lt_upper_bound; [lia|]. nia. }
      assert (Hp : 0 <= n / 10) by (apply Z.div_pos; lia).
      destruct (IH (n / 10) Hp Hn) as [I1 [I2 I3]].
      rewrite dec_aux_app. split; [|split].
      * unfold digits_value in *. rewrite fold_value_app, I1. cbn [fold_left]. rewrite D2.
        pose proof (Z.div_mod n 10). lia.
      * rewrite forallb_app, I2. cbn [forallb]. rewrite D1. reflexivity.
      * right. destruct I3 as [I3|[I3 I4]]; [lia|]. split.
        -- destruct (dec_aux f (n / 10) []); discriminate.
        -- destruct (dec_aux f (n / 10) []); [congruence | exact I4].
Qed.

Lemma log2_fuel n : 0 <= n -> n < 2 ^ Z.of_nat (S (Z.to_nat (Z.log2 n))).
Proof.
  intros H. rewrite Nat2Z.inj_succ, Z2Nat.id by apply Z.log2_nonneg.
  destruct (Z.eq_dec n 0) as [->|Hn]; [simpl; lia|].
  pose proof (Z.log2_spec n). lia.
Qed.

(** Decimal printing is read back exactly. *)
Lemma dec_nat_value n : 0 <= n -> digits_value 10 (dec_nat n) = n.
Proof. intros H. apply dec_aux_spec; [exact H | apply log2_fuel; exact H]. Qed.
Lemma dec_nat_digits n : 0 <= n -> forallb is_digit (dec_nat n) = true.
Proof. intros H. apply dec_aux_spec; [exact H | apply log2_fuel; exact H]. Qed.
Lemma dec_nat_nonempty n : dec_nat n <> [].
Proof.
  unfold dec_nat. cbn [dec_aux]. cbv zeta. destruct (n / 10 =? 0); [discriminate|].
  rewrite dec_aux_app. intros H. apply app_eq_nil in H. destruct H; discriminate.
Qed.
Lemma dec_nat_lead n : 0 < n -> hd 0%N (dec_nat n) <> 48%N.
Proof.
  intros H. destruct (dec_aux_spec _ n ltac:(lia) (log2_fuel n ltac:(lia))) as [_ [_ [H3|H3]]]; [lia|].
  apply H3.
Qed.

Lemma forallb_digit_hex s : forallb is_digit s = true -> forallb is_hexdigit s = true.
Proof.
  induction s as [|c s IH]; simpl; [reflexivity|]. rewrite !andb_true_iff.
  intros [H1 H2]. split; [apply is_digit_hex; exact H1 | apply IH; exact H2].
Qed.

Lemma u64_from_dec n : in_u64 n -> u64_from_digits 10 (dec_nat n) = Ok n.
Proof.
  intros [H1 H2]. rewrite u64_from_digits_spec.
  - rewrite dec_nat_value by exact H1. unfold two64 in H2. unfold u64_max.
    assert ((n <=? 18446744073709551615) = true) as -> by lia. reflexivity.
  - lia.
  - apply dec_nat_nonempty.
  - apply forallb_digit_hex, dec_nat_digits. exact H1.
Qed.

Lemma parse_u64_dec n : 0 <= n ->
  parse_u64 (dec_nat n) = if n <=? u64_max then Some n else None.
Proof.
  intros H. unfold parse_u64.
  pose proof (dec_nat_digits n H) as Hd. pose proof (dec_nat_nonempty n) as Hne.
  pose proof (dec_nat_value n H) as Hv.
  destruct (dec_nat n) as [|c r] eqn:E; [congruence|].
  assert (N.eqb c 43 = false) as Hc.
  { cbn [forallb] in Hd. apply andb_true_iff in Hd. destruct Hd as [Hd _]. unfold is_digit in Hd. lia. }
  rewrite Hc, Hd. rewrite parse_acc_spec.
  - cbv zeta. unfold digits_value in Hv. rewrite Hv. reflexivity.
  - lia.
  - unfold u64_max; lia.
  - apply forallb_digit_hex. exact Hd.
Qed.

(** Distinct integers print differently. *)
Lemma dec_inj a b : dec a = dec b -> a = b.
Proof.
  unfold dec. destruct (a <? 0) eqn:Ea; destruct (b <? 0) eqn:Eb; intros H.
  - injection H as H. apply (f_equal (digits_value 10)) in H.
    rewrite !dec_nat_value in H by lia. lia.
  - exfalso. pose proof (dec_nat_digits b ltac:(lia)) as Hd. rewrite <- H in Hd.
    cbn [forallb] in Hd. discriminate.
  - exfalso. pose proof (dec_nat_digits a ltac:(lia)) as Hd. rewrite H in Hd.
    cbn [forallb] in Hd. discriminate.
  - apply (f_equal (digits_value 10)) in H. rewrite !dec_nat_value in H by lia. lia.
Qed.
