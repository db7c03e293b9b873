(** UTF-8, as the standard library's [str::as_bytes] and [String::from_utf8_lossy] define it.

    Used at rudy-db/src/data.rs 684-700 and 795-803 (reading text) and rudy-db/src/debug_info.rs 866-1078
    (creating text). A text is a list of Unicode scalar values. *)
From Coq Require Import List ZArith NArith Lia Bool.
From Coq Require Import ZifyBool ZifyNat ZifyN.
From Verif Require Import Base NumText OMap TypesModel ValueModel DataModel DataSpec.
Import ListNotations.
Open Scope Z_scope.

(** Unicode scalar values: what a Rust [char] can be. *)
Definition scalar (c : char) : Prop := (c <= 55295 \/ 57344 <= c <= 1114111)%N.
Definition text (s : str) : Prop := Forall scalar s.

(** The UTF-8 encoding of one scalar value. *)
Definition utf8_char (c : char) : list Z :=
  let u := Z.of_N c in
  if u <? 128 then [u]
  else if u <? 2048 then [192 + u / 64; 128 + u mod 64]
  else if u <? 65536 then [224 + u / 4096; 128 + u / 64 mod 64; 128 + u mod 64]
  else [240 + u / 262144; 128 + u / 4096 mod 64; 128 + u / 64 mod 64; 128 + u mod 64].
Definition utf8 (s : str) : list Z := flat_map utf8_char s.

(** Lossy decoding: each maximal ill-formed part becomes one U+FFFD. *)
Definition cont (b : Z) : bool := (128 <=? b) && (b <? 192).
(** Bytes allowed after the lead byte [a] of a 3- or 4-byte form. *)
Definition second3 (a b : Z) : bool :=
  if a =? 224 then (160 <=? b) && (b <? 192) else if a =? 237 then (128 <=? b) && (b <? 160) else cont b.
Definition second4 (a b : Z) : bool :=
  if a =? 240 then (144 <=? b) && (b <? 192) else if a =? 244 then (128 <=? b) && (b <? 144) else cont b.
Definition fffd : char := 65533%N.
Fixpoint lossy_fuel (fuel : nat) (bs : list Z) : str :=
  match fuel with
  | O => []
  | S k =>
      match bs with
      | [] => []
      | a :: r =>
          if a <? 128 then Z.to_N a :: lossy_fuel k r
          else if (194 <=? a) && (a <? 224) then
            match r with
            | b :: r1 => if cont b then Z.to_N ((a - 192) * 64 + (b - 128)) :: lossy_fuel k r1 else fffd :: lossy_fuel k r
            | [] => [fffd]
            end
          else if (224 <=? a) && (a <? 240) then
            match r with
            | b :: r1 =>
                if second3 a b then
                  match r1 with
                  | c :: r2 => if cont c then Z.to_N ((a - 224) * 4096 + (b - 128) * 64 + (c - 128)) :: lossy_fuel k r2
                               else fffd :: lossy_fuel k r1
                  | [] => [fffd]
                  end
                else fffd :: lossy_fuel k r
            | [] => [fffd]
            end
          else if (240 <=? a) && (a <? 245) then
            match r with
            | b :: r1 =>
                if second4 a b then
                  match r1 with
                  | c :: r2 =>
                      if cont c then
                        match r2 with
                        | d :: r3 =>
                            if cont d then
                              Z.to_N ((a - 240) * 262144 + (b - 128) * 4096 + (c - 128) * 64 + (d - 128)) :: lossy_fuel k r3
                            else fffd :: lossy_fuel k r2
                        | [] => [fffd]
                        end
                      else fffd :: lossy_fuel k r1
                  | [] => [fffd]
                  end
                else fffd :: lossy_fuel k r
            | [] => [fffd]
            end
          else fffd :: lossy_fuel k r
      end
  end.
Definition utf8_lossy (bs : list Z) : str := lossy_fuel (List.length bs) bs.

Lemma utf8_char_bytes c : scalar c -> Forall byte (utf8_char c).
Proof.
  unfold scalar, utf8_char, byte. intros H.
  repeat match goal with |- context [if ?b then _ else _] => destruct b eqn:? end;
    repeat constructor; try lia;
    repeat match goal with
    | |- context [?x / ?y] => pose proof (Z.div_le_upper_bound x y 63 ltac:(lia)); pose proof (Z.div_pos x y)
    end; try (pose proof (Z.mod_pos_bound (Z.of_N c) 64)); 
    Z.div_mod_to_equations; lia.
Qed.
Lemma utf8_bytes s : text s -> Forall byte (utf8 s).
Proof.
  induction 1 as [|c s Hc _ IH]; [constructor|]. cbn [utf8 flat_map]. apply Forall_app. split; [apply utf8_char_bytes; exact Hc | exact IH].
Qed.
Lemma utf8_char_nonempty c : (1 <= List.length (utf8_char c))%nat.
Proof. unfold utf8_char. repeat match goal with |- context [if ?b then _ else _] => destruct b end; cbn; lia. Qed.
Lemma lossy_step k c r : scalar c -> lossy_fuel (S k) (utf8_char c ++ r) = c :: lossy_fuel k r.
Proof.
  intros H. unfold scalar in H. unfold utf8_char. set (u := Z.of_N c).
  assert (Hu : 0 <= u /\ (u <= 55295 \/ 57344 <= u <= 1114111)) by (unfold u; lia).
  assert (Hc : Z.to_N u = c) by (unfold u; lia). clearbody u. clear H.
  destruct (u <? 128) eqn:E1.
  { cbn [app lossy_fuel]. rewrite E1, Hc. reflexivity. }
  destruct (u <? 2048) eqn:E2.
  { cbn [app lossy_fuel].
    assert (H1 : 2 <= u / 64 < 32 /\ 0 <= u mod 64 < 64 /\ u = 64 * (u / 64) + u mod 64)
      by (Z.div_mod_to_equations; lia).
    set (q := u / 64) in *. set (t := u mod 64) in *. clearbody q t.
    replace (192 + q <? 128) with false by lia.
    replace ((194 <=? 192 + q) && (192 + q <? 224)) with true by lia.
    unfold cont. replace ((128 <=? 128 + t) && (128 + t <? 192)) with true by lia.
    f_equal. rewrite <- Hc. f_equal. lia. }
  destruct (u <? 65536) eqn:E3.
  { cbn [app lossy_fuel].
    assert (H1 : 0 <= u / 4096 < 16 /\ 0 <= u / 64 mod 64 < 64 /\ 0 <= u mod 64 < 64
      /\ u = 4096 * (u / 4096) + 64 * (u / 64 mod 64) + u mod 64).
    { replace 4096 with (64 * 64) by lia. rewrite <- Z.div_div by lia. Z.div_mod_to_equations. lia. }
    set (q := u / 4096) in *. set (s := u / 64 mod 64) in *. set (t := u mod 64) in *. clearbody q s t.
    replace (224 + q <? 128) with false by lia.
    replace ((194 <=? 224 + q) && (224 + q <? 224)) with false by lia.
    replace ((224 <=? 224 + q) && (224 + q <? 240)) with true by lia.
    assert (E : second3 (224 + q) (128 + s) = true).
    { unfold second3, cont. destruct (224 + q =? 224) eqn:?; [lia|]. destruct (224 + q =? 237) eqn:?; lia. }
    rewrite E. unfold cont. replace ((128 <=? 128 + t) && (128 + t <? 192)) with true by lia.
    f_equal. rewrite <- Hc. f_equal. lia. }
  { cbn [app lossy_fuel].
    assert (H1 : 0 <= u / 262144 < 5 /\ 0 <= u / 4096 mod 64 < 64 /\ 0 <= u / 64 mod 64 < 64 /\ 0 <= u mod 64 < 64
      /\ u = 262144 * (u / 262144) + 4096 * (u / 4096 mod 64) + 64 * (u / 64 mod 64) + u mod 64).
    { replace 262144 with (64 * 64 * 64) by lia. replace 4096 with (64 * 64) by lia.
      rewrite <- !Z.div_div by lia. Z.div_mod_to_equations. lia. }
    set (q := u / 262144) in *. set (p := u / 4096 mod 64) in *. set (s := u / 64 mod 64) in *. set (t := u mod 64) in *.
    clearbody q p s t.
    replace (240 + q <? 128) with false by lia.
    replace ((194 <=? 240 + q) && (240 + q <? 224)) with false by lia.
    replace ((224 <=? 240 + q) && (240 + q <? 240)) with false by lia.
    replace ((240 <=? 240 + q) && (240 + q <? 245)) with true by lia.
    assert (E : second4 (240 + q) (128 + p) = true).
    { unfold second4, cont. destruct (240 + q =? 240) eqn:?; [lia|]. destruct (240 + q =? 244) eqn:?; lia. }
    rewrite E. unfold cont.
    replace ((128 <=? 128 + s) && (128 + s <? 192)) with true by lia.
    replace ((128 <=? 128 + t) && (128 + t <? 192)) with true by lia.
    f_equal. rewrite <- Hc. f_equal. lia. }
Qed.
(** Decoding inverts encoding. *)
Theorem utf8_roundtrip : forall s, text s -> utf8_lossy (utf8 s) = s.
Proof.
  intros s H. unfold utf8_lossy.
  assert (G : forall k, (List.length (utf8 s) <= k)%nat -> lossy_fuel k (utf8 s) = s); [|apply G; lia].
  induction H as [|c s Hc _ IH]; intros k Hk; [destruct k; reflexivity|].
  cbn [utf8 flat_map] in *. fold (utf8 s) in *. rewrite app_length in Hk. pose proof (utf8_char_nonempty c).
  destruct k as [|k]; [lia|]. rewrite lossy_step by exact Hc. f_equal. apply IH. lia.
Qed.
Example utf8_example : utf8 [104; 233; 8364; 128512]%N = [104; 195; 169; 226; 130; 172; 240; 159; 152; 128]
  /\ utf8_lossy [104; 255; 195; 40; 226; 130; 104] = [104; 65533; 65533; 40; 65533; 104]%N.
Proof. split; vm_compute; reflexivity. Qed.
