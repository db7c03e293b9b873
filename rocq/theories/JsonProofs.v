(** JSON texts: what is written is read back; no line breaks are written. *)
From Coq Require Import Ascii String List ZArith NArith Lia Bool.
From Coq Require Import ZifyBool ZifyNat ZifyN.
From Verif Require Import Base NumText Utf8 JsonModel.
Import ListNotations.
Open Scope Z_scope.

(** ** Values that can be written *)
Fixpoint depth (j : json) : nat :=
  match j with
  | JArr l => S ((fix go (l : list json) : nat := match l with [] => O | x :: l' => Nat.max (depth x) (go l') end) l)
  | JObj l => S ((fix go (l : list (str * json)) : nat := match l with [] => O | (_, x) :: l' => Nat.max (depth x) (go l') end) l)
  | _ => O
  end.
Fixpoint plain_json (j : json) : Prop :=
  match j with
  | JNum z => -9223372036854775808 <= z < two64
  | JReal _ => False
  | JStr s => Forall scalar s
  | JArr l => (fix go (l : list json) : Prop := match l with [] => True | x :: l' => plain_json x /\ go l' end) l
  | JObj l => (fix go (l : list (str * json)) : Prop := match l with [] => True | (k, x) :: l' => Forall scalar k /\ plain_json x /\ go l' end) l
  | _ => True
  end.
Lemma json_ind' (P : json -> Prop) :
  P JNull -> (forall b, P (JBool b)) -> (forall z, P (JNum z)) -> (forall t, P (JReal t)) -> (forall s, P (JStr s)) ->
  (forall l, Forall P l -> P (JArr l)) -> (forall l, Forall (fun kx => P (snd kx)) l -> P (JObj l)) -> forall j, P j.
Proof.
  intros H1 H2 H3 H4 H5 H6 H7. fix IH 1. intros [| b | z | t | s | l | l]; [exact H1 | exact (H2 b) | exact (H3 z) | exact (H4 t) | exact (H5 s) | |].
  - apply H6. induction l as [|x l IHl]; constructor; [apply IH | exact IHl].
  - apply H7. induction l as [|[k x] l IHl]; constructor; [apply IH | exact IHl].
Qed.
Lemma plain_arr l : plain_json (JArr l) <-> Forall plain_json l.
Proof. cbn [plain_json]. induction l as [|x l IH]; split; intros H; [constructor | exact I | |]; [destruct H; constructor; tauto | inversion H; tauto]. Qed.
Lemma plain_obj l : plain_json (JObj l) <-> Forall (fun kx => Forall scalar (fst kx) /\ plain_json (snd kx)) l.
Proof.
  cbn [plain_json]. induction l as [|[k x] l IH]; split; intros H; [constructor | exact I | |]; [destruct H as (A & B & C); constructor; [split; assumption | tauto] |].
  inversion H as [|? ? [A B] C]; subst. cbn in *. tauto.
Qed.
Lemma depth_arr l d : (depth (JArr l) <= S d)%nat <-> Forall (fun x => (depth x <= d)%nat) l.
Proof. cbn [depth]. induction l as [|x l IH]; split; intros H; [constructor | lia | constructor; [lia | apply IH; lia] | inversion H; subst; apply IH in H3; lia]. Qed.
Lemma depth_obj l d : (depth (JObj l) <= S d)%nat <-> Forall (fun kx => (depth (snd kx) <= d)%nat) l.
Proof.
  cbn [depth]. induction l as [|[k x] l IH]; split; intros H; [constructor | lia | constructor; [cbn; lia | apply IH; lia] | inversion H; subst; apply IH in H3; cbn in H2; lia].
Qed.

(** ** Strings *)
Lemma hex_digit_ok d : 0 <= d < 16 -> is_hexdigit (hex_digit d) = true /\ digit_val (hex_digit d) = d.
Proof.
  intros H. assert (C : d = 0 \/ d = 1 \/ d = 2 \/ d = 3 \/ d = 4 \/ d = 5 \/ d = 6 \/ d = 7 \/ d = 8 \/ d = 9 \/ d = 10 \/ d = 11 \/ d = 12 \/ d = 13 \/ d = 14 \/ d = 15) by lia.
  repeat (destruct C as [-> | C]; [split; reflexivity|]). subst. split; reflexivity.
Qed.
Lemma hex_val_hex4 u : 0 <= u < 65536 ->
  hex_val4 (hex_digit (u / 4096 mod 16)) (hex_digit (u / 256 mod 16)) (hex_digit (u / 16 mod 16)) (hex_digit (u mod 16)) = Some u.
Proof.
  intros H. unfold hex_val4.
  destruct (hex_digit_ok (u / 4096 mod 16)) as [A1 A2]; [apply Z.mod_pos_bound; lia|].
  destruct (hex_digit_ok (u / 256 mod 16)) as [B1 B2]; [apply Z.mod_pos_bound; lia|].
  destruct (hex_digit_ok (u / 16 mod 16)) as [C1 C2]; [apply Z.mod_pos_bound; lia|].
  destruct (hex_digit_ok (u mod 16)) as [D1 D2]; [apply Z.mod_pos_bound; lia|].
  rewrite A1, B1, C1, D1, A2, B2, C2, D2. cbn [andb]. f_equal. Z.div_mod_to_equations. lia.
Qed.
Lemma read_u a b c d r : read_string (92%N :: 117%N :: a :: b :: c :: d :: r) =
  match hex_val4 a b c d with
  | None => Err "invalid escape"
  | Some u =>
      if (55296 <=? u) && (u <=? 56319) then
        match r with
        | b0 :: b5 :: b1 :: b2 :: b3 :: b4 :: r3 =>
            if N.eqb b0 92 && N.eqb b5 117 then
              match hex_val4 b1 b2 b3 b4 with
              | Some v => if (56320 <=? v) && (v <=? 57343)
                          then cons_to (Z.to_N (65536 + (u - 55296) * 1024 + (v - 56320))) (read_string r3)
                          else Err "lone leading surrogate in hex escape"
              | None => Err "invalid escape"
              end
            else Err "unexpected end of hex escape"
        | _ => Err "unexpected end of hex escape"
        end
      else if (56320 <=? u) && (u <=? 57343) then Err "lone leading surrogate in hex escape"
      else cons_to (Z.to_N u) (read_string r)
  end.
Proof. reflexivity. Qed.
Lemma read_escape_u u r : 0 <= u < 65536 -> (u < 55296 \/ 57343 < u) -> read_string (escape_u u ++ r) = cons_to (Z.to_N u) (read_string r).
Proof.
  intros H N. unfold escape_u, hex4. cbn [app]. rewrite read_u, hex_val_hex4 by exact H.
  destruct ((55296 <=? u) && (u <=? 56319)) eqn:E; [lia|]. destruct ((56320 <=? u) && (u <=? 57343)) eqn:E2; [lia|]. reflexivity.
Qed.
Lemma read_short c e r : short_escape c = Some e -> read_string (e ++ r) = cons_to c (read_string r).
Proof.
  unfold short_escape. repeat match goal with |- (if N.eqb c ?k then _ else _) = _ -> _ => destruct (N.eqb_spec c k) as [-> |] end;
    intros H; inversion H; reflexivity.
Qed.
Lemma short_none c : short_escape c = None -> c <> 34%N /\ c <> 92%N.
Proof.
  unfold short_escape. destruct (N.eqb_spec c 34); [discriminate|]. destruct (N.eqb_spec c 92); [discriminate|]. auto.
Qed.
Lemma read_plain c r : c <> 34%N -> c <> 92%N -> (32 <= c)%N -> read_string (c :: r) = cons_to c (read_string r).
Proof.
  intros H1 H2 H3. cbn [read_string]. destruct (N.eqb_spec c 34); [contradiction|]. destruct (N.eqb_spec c 92); [contradiction|].
  destruct (N.ltb_spec c 32); [lia | reflexivity].
Qed.
(** A writer of characters the reader understands. *)
Definition readable (w : char -> str) : Prop := forall c r, scalar c -> read_string (w c ++ r) = cons_to c (read_string r).
Lemma serde_readable : readable serde_char.
Proof.
  intros c r U. unfold serde_char. destruct (short_escape c) as [e|] eqn:E; [now apply read_short|]. apply short_none in E. destruct E as [E1 E2].
  destruct (N.ltb_spec c 32).
  - rewrite read_escape_u by lia. f_equal. lia.
  - now apply read_plain.
Qed.
Lemma python_readable : readable python_char.
Proof.
  intros c r U. unfold python_char. destruct (short_escape c) as [e|] eqn:E; [now apply read_short|]. apply short_none in E. destruct E as [E1 E2].
  destruct ((32 <=? Z.of_N c) && (Z.of_N c <? 127)) eqn:A; [apply read_plain; auto; lia|].
  destruct (Z.of_N c <? 65536) eqn:B.
  - unfold scalar in U. rewrite read_escape_u by lia. f_equal. lia.
  - set (u := Z.of_N c) in *. assert (Hu : 65536 <= u <= 1114111) by (unfold scalar in U; lia).
    assert (H1 : 0 <= (u - 65536) / 1024 < 1024) by (split; [apply Z.div_pos; lia | apply Z.div_lt_upper_bound; lia]).
    assert (H2 : 0 <= (u - 65536) mod 1024 < 1024) by (apply Z.mod_pos_bound; lia).
    rewrite <- app_assoc. unfold escape_u at 1, hex4. cbn [app]. rewrite read_u, hex_val_hex4 by lia.
    destruct ((55296 <=? 55296 + (u - 65536) / 1024) && (55296 + (u - 65536) / 1024 <=? 56319)) eqn:E; [|lia].
    unfold escape_u, hex4. cbn [app]. change (N.eqb 92 92 && N.eqb 117 117) with true. cbv iota. rewrite hex_val_hex4 by lia.
    destruct ((56320 <=? 56320 + (u - 65536) mod 1024) && (56320 + (u - 65536) mod 1024 <=? 57343)) eqn:F; [|lia].
    f_equal. replace (65536 + (55296 + (u - 65536) / 1024 - 55296) * 1024 + (56320 + (u - 65536) mod 1024 - 56320)) with u by (Z.div_mod_to_equations; lia).
    subst u. lia.
Qed.

Ltac len := unfold str, char in *; repeat match goal with H : (_ < _)%nat |- _ => progress (repeat (rewrite ?app_length in H; cbn [List.length app] in H)) end;
  repeat (rewrite ?app_length; cbn [List.length app]); lia.
Section RoundTrip.
Variable w : char -> str.
Hypothesis W : readable w.
Variables cws ows : str.
Hypothesis CW : forallb is_ws cws = true.
Hypothesis OW : forallb is_ws ows = true.
Let wr := write w (44%N :: cws) (58%N :: ows).

Lemma read_written s r : Forall scalar s -> read_string (flat_map w s ++ 34%N :: r) = Ok (s, r).
Proof.
  induction 1 as [|c s U F IH]; [reflexivity|]. cbn [flat_map]. rewrite <- app_assoc, W by exact U. rewrite IH. reflexivity.
Qed.
Lemma skip_ws_app ws s : forallb is_ws ws = true -> skip_ws (ws ++ s) = skip_ws s.
Proof. induction ws as [|c ws IH]; cbn; [reflexivity|]. intros H. apply andb_true_iff in H. destruct H as [-> H]. auto. Qed.
Lemma skip_ws_not c r : is_ws c = false -> skip_ws (c :: r) = c :: r.
Proof. intros H. cbn. now rewrite H. Qed.
Lemma read_value_ws n d ws s : forallb is_ws ws = true -> read_value n d (ws ++ s) = read_value n d s.
Proof. intros H. destruct n; [reflexivity|]. cbn [read_value]. rewrite skip_ws_app by exact H. reflexivity. Qed.
Lemma read_member_ws n d ws s : forallb is_ws ws = true -> read_member n d (ws ++ s) = read_member n d s.
Proof. intros H. destruct n; [reflexivity|]. cbn [read_member]. rewrite skip_ws_app by exact H. reflexivity. Qed.

(** What may follow a number. *)
Definition ends_number (r : str) : Prop := match r with [] => True | c :: _ => is_digit c = false /\ c <> 46%N /\ c <> 101%N /\ c <> 69%N end.
Lemma digits_app ds r : forallb is_digit ds = true -> ends_number r -> digits (ds ++ r) = (ds, r).
Proof.
  induction ds as [|c ds IH]; cbn [forallb app digits]; intros H E.
  - destruct r as [|c r]; [reflexivity|]. cbn. destruct E as [-> _]. reflexivity.
  - apply andb_true_iff in H. destruct H as [-> H]. rewrite IH by assumption. reflexivity.
Qed.
Lemma no_frac r : ends_number r -> read_frac r = Ok ([], r).
Proof. destruct r as [|c r]; [reflexivity|]. intros (_ & H & _). cbn. destruct (N.eqb_spec c 46); [contradiction | reflexivity]. Qed.
Lemma no_exp r : ends_number r -> read_exp r = Ok ([], r).
Proof. destruct r as [|c r]; [reflexivity|]. intros (_ & _ & H1 & H2). cbn. destruct (N.eqb_spec c 101); [contradiction|]. destruct (N.eqb_spec c 69); [contradiction | reflexivity]. Qed.
Lemma dec_no_zero n : 0 <= n -> match dec_nat n with z :: _ :: _ => N.eqb z 48 | _ => false end = false.
Proof.
  intros H. destruct (Z.eq_dec n 0) as [->|N]; [reflexivity|]. pose proof (dec_nat_lead n ltac:(lia)) as L.
  destruct (dec_nat n) as [|z [|y l]]; try reflexivity. cbn in L. destruct (N.eqb_spec z 48); [contradiction | reflexivity].
Qed.
Lemma read_dec n r neg : 0 <= n -> ends_number r ->
  match digits (dec_nat n ++ r) with
  | ([], _) => Err "invalid number"
  | (d, rest) =>
      if match d with z :: _ :: _ => N.eqb z 48 | _ => false end then Err "invalid number"
      else
        '(f, rest1) <- read_frac rest ;;
        '(e, rest2) <- read_exp rest1 ;;
        match f ++ e, integer neg d with
        | [], Some z => Ok (JNum z, rest2)
        | fe, _ => Ok (JReal ((if neg then [45%N] else []) ++ d ++ fe), rest2)
        end
  end = match integer neg (dec_nat n) with Some z => Ok (JNum z, r) | None => Ok (JReal ((if neg then [45%N] else []) ++ dec_nat n ++ []), r) end.
Proof.
  intros H E. rewrite digits_app by (auto using dec_nat_digits). pose proof (dec_nat_nonempty n) as NE. pose proof (dec_no_zero n H) as NZ.
  destruct (dec_nat n) as [|c l]; [contradiction|]. rewrite NZ, no_frac by exact E. cbn [bind]. rewrite no_exp by exact E. cbn [bind app]. destruct (integer neg (c :: l)); reflexivity.
Qed.
Lemma read_number_dec z r : -9223372036854775808 <= z < two64 -> ends_number r -> read_number (dec z ++ r) = Ok (JNum z, r).
Proof.
  intros H E. unfold dec. destruct (z <? 0) eqn:S.
  - unfold read_number, minus_sign. cbn [app]. change (N.eqb 45 45) with true. cbv iota beta. rewrite (read_dec (- z) r true) by (try lia; exact E).
    unfold integer. rewrite dec_nat_value by lia. destruct ((0 <? - z) && (- z <=? 9223372036854775808)) eqn:B; [f_equal; f_equal; f_equal; lia | lia].
  - unfold read_number, minus_sign. assert (Z0 : 0 <= z) by lia. pose proof (dec_nat_digits z Z0) as D. pose proof (dec_nat_nonempty z) as NE.
    pose proof (read_dec z r false Z0 E) as RD. pose proof (dec_nat_value z Z0) as V. destruct (dec_nat z) as [|c l] eqn:Q; [contradiction|].
    cbn [app forallb] in *. apply andb_true_iff in D. destruct D as [D _]. destruct (N.eqb_spec c 45) as [->|_]; [discriminate|].
    refine (eq_trans RD _). unfold integer. rewrite V. destruct (z <? two64) eqn:B; [reflexivity | lia].
Qed.
Definition elems_tail (l : list json) : str := flat_map (fun x => 44%N :: cws ++ wr x) l.
Definition members_tail (l : list (str * json)) : str :=
  flat_map (fun kx => 44%N :: cws ++ write_string w (fst kx) ++ (58%N :: ows) ++ wr (snd kx)) l.
Fixpoint wr_elems (l : list json) : str := match l with [] => [] | [x] => wr x | x :: l' => wr x ++ (44%N :: cws) ++ wr_elems l' end.
Fixpoint wr_members (l : list (str * json)) : str :=
  match l with
  | [] => []
  | [(k, x)] => write_string w k ++ (58%N :: ows) ++ wr x
  | (k, x) :: l' => write_string w k ++ (58%N :: ows) ++ wr x ++ (44%N :: cws) ++ wr_members l'
  end.
Lemma wr_elems_tail x l : wr_elems (x :: l) = wr x ++ elems_tail l.
Proof.
  revert x. induction l as [|y l IH]; intros x; [symmetry; apply app_nil_r|].
  change (wr_elems (x :: y :: l)) with (wr x ++ (44%N :: cws) ++ wr_elems (y :: l)). rewrite IH.
  change (elems_tail (y :: l)) with ((44%N :: cws ++ wr y) ++ elems_tail l). cbn [app]. rewrite <- app_assoc. reflexivity.
Qed.
Lemma wr_members_tail k x l : wr_members ((k, x) :: l) = write_string w k ++ (58%N :: ows) ++ wr x ++ members_tail l.
Proof.
  revert k x. induction l as [|[k' y] l IH]; intros k x; [change (members_tail []) with (@nil char); rewrite app_nil_r; reflexivity|].
  change (wr_members ((k, x) :: (k', y) :: l)) with (write_string w k ++ (58%N :: ows) ++ wr x ++ (44%N :: cws) ++ wr_members ((k', y) :: l)). rewrite IH.
  change (members_tail ((k', y) :: l)) with ((44%N :: cws ++ write_string w k' ++ (58%N :: ows) ++ wr y) ++ members_tail l).
  cbn [app]. rewrite <- !app_assoc. cbn [app]. rewrite <- ?app_assoc. reflexivity.
Qed.
Lemma write_arr x l : wr (JArr (x :: l)) = 91%N :: wr x ++ elems_tail l ++ [93%N].
Proof. rewrite app_assoc, <- wr_elems_tail. reflexivity. Qed.
Lemma write_obj k x l : wr (JObj ((k, x) :: l)) = 123%N :: write_string w k ++ (58%N :: ows) ++ wr x ++ members_tail l ++ [125%N].
Proof.
  replace (write_string w k ++ (58%N :: ows) ++ wr x ++ members_tail l ++ [125%N]) with (wr_members ((k, x) :: l) ++ [125%N]); [reflexivity|].
  rewrite wr_members_tail, <- !app_assoc. reflexivity.
Qed.
Definition reads (j : json) : Prop := forall n d rest, plain_json j -> (depth j <= d)%nat -> (List.length (wr j ++ rest) < n)%nat -> ends_number rest ->
  read_value n d (wr j ++ rest) = Ok (j, rest).
Lemma read_member_written n d k x rest : reads x -> Forall scalar k -> plain_json x -> (depth x <= d)%nat ->
  (List.length (write_string w k ++ (58%N :: ows) ++ wr x ++ rest) < n)%nat -> ends_number rest ->
  read_member n d (write_string w k ++ (58%N :: ows) ++ wr x ++ rest) = Ok (k, x, rest).
Proof.
  intros R U P D L E. destruct n as [|n]; [lia|]. cbn [read_member]. unfold write_string in *. cbn [app] in *. rewrite skip_ws_not by reflexivity.
  rewrite <- app_assoc in *. cbn [app] in *. change (N.eqb 34 34) with true. cbv iota. rewrite read_written by exact U. cbn [bind].
  rewrite skip_ws_not by reflexivity. change (N.eqb 58 58) with true. cbv iota. rewrite read_value_ws by exact OW.
  rewrite R; [reflexivity | exact P | exact D | | exact E]. len.
Qed.
Lemma elems_follow l rest : ends_number (elems_tail l ++ 93%N :: rest).
Proof. destruct l; cbn; repeat split; discriminate. Qed.
Lemma members_follow l rest : ends_number (members_tail l ++ 125%N :: rest).
Proof. destruct l; cbn; repeat split; discriminate. Qed.
Lemma read_elems_written l : Forall reads l -> forall n d rest, Forall plain_json l -> Forall (fun x => (depth x <= d)%nat) l ->
  (List.length (elems_tail l ++ 93%N :: rest) < n)%nat -> read_elems n d (elems_tail l ++ 93%N :: rest) = Ok (l, rest).
Proof.
  induction 1 as [|x l R F IH]; intros n d rest P D L; (destruct n as [|n]; [lia|]).
  - reflexivity.
  - inversion P; inversion D; subst. cbn [elems_tail flat_map] in *. rewrite <- app_assoc in *. cbn [app] in *. rewrite <- app_assoc in *.
    cbn [read_elems]. rewrite skip_ws_not by reflexivity. change (N.eqb 44 93) with false. change (N.eqb 44 44) with true. cbv iota.
    rewrite read_value_ws by exact CW. change (flat_map (fun x => 44%N :: cws ++ wr x) l) with (elems_tail l) in *.
    rewrite R; [| assumption | assumption | len | apply elems_follow]. cbn [bind].
    rewrite IH; [reflexivity | assumption | assumption | len].
Qed.
Lemma read_members_written l : Forall (fun kx => reads (snd kx)) l -> forall n d rest,
  Forall (fun kx => Forall scalar (fst kx) /\ plain_json (snd kx)) l -> Forall (fun kx => (depth (snd kx) <= d)%nat) l ->
  (List.length (members_tail l ++ 125%N :: rest) < n)%nat -> read_members n d (members_tail l ++ 125%N :: rest) = Ok (l, rest).
Proof.
  induction 1 as [|[k x] l R F IH]; intros n d rest P D L; (destruct n as [|n]; [lia|]).
  - reflexivity.
  - inversion P as [|? ? [P1 P2] P3]; inversion D as [|? ? D1 D2]; subst. cbn [fst snd] in *.
    change (members_tail ((k, x) :: l)) with ((44%N :: cws ++ write_string w k ++ (58%N :: ows) ++ wr x) ++ members_tail l) in *.
    assert (Q : ((44%N :: cws ++ write_string w k ++ (58%N :: ows) ++ wr x) ++ members_tail l) ++ 125%N :: rest =
                44%N :: cws ++ (write_string w k ++ (58%N :: ows) ++ wr x ++ members_tail l ++ 125%N :: rest)).
    { cbn [app]. rewrite <- !app_assoc. cbn [app]. rewrite <- ?app_assoc. reflexivity. }
    assert (L' : (List.length (44%N :: cws ++ (write_string w k ++ (58%N :: ows) ++ wr x ++ members_tail l ++ 125%N :: rest)) < S n)%nat) by (rewrite <- Q; exact L).
    match goal with |- read_members _ _ ?t = _ => replace t with (44%N :: cws ++ (write_string w k ++ (58%N :: ows) ++ wr x ++ members_tail l ++ 125%N :: rest)) by (symmetry; exact Q) end.
    clear L Q. cbn [read_members]. rewrite skip_ws_not by reflexivity. change (N.eqb 44 125) with false. change (N.eqb 44 44) with true. cbv iota.
    rewrite read_member_ws by exact CW.
    rewrite read_member_written; [| assumption | assumption | assumption | assumption | len | apply members_follow]. cbn [bind].
    rewrite IH; [reflexivity | assumption | assumption | len].
Qed.
Lemma dec_head z : exists c s, dec z = c :: s /\ is_ws c = false /\ N.eqb c 34 = false /\ N.eqb c 91 = false /\ N.eqb c 123 = false /\
  N.eqb c 110 = false /\ N.eqb c 116 = false /\ N.eqb c 102 = false /\ N.eqb c 93 = false /\ N.eqb c 45 || is_digit c = true.
Proof.
  unfold dec. destruct (z <? 0) eqn:S.
  - exists 45%N, (dec_nat (- z)). repeat split; reflexivity.
  - pose proof (dec_nat_nonempty z) as NE. assert (Z0 : 0 <= z) by lia. pose proof (dec_nat_digits z Z0) as DD. destruct (dec_nat z) as [|c s]; [contradiction|].
    cbn [forallb] in DD. apply andb_true_iff in DD. destruct DD as [DD _].
    exists c, s. unfold is_digit in *. unfold is_ws. repeat split; lia.
Qed.
Lemma write_head x : plain_json x -> exists c s, wr x = c :: s /\ is_ws c = false /\ N.eqb c 93 = false.
Proof.
  unfold wr. destruct x as [| [] | z | t | s | l | l]; intros P; cbn [write]; try (eexists _, _; repeat split; reflexivity).
  - destruct (dec_head z) as (c & s & Q & W1 & _ & _ & _ & _ & _ & _ & A & _). exists c, s. auto.
  - destruct P.
Qed.
Lemma all_read j : reads j.
Proof.
  induction j as [| b | z | t | s | l IH | l IH] using json_ind'; intros n d rest P D L E; (destruct n as [|n]; [lia|]).
  - reflexivity.
  - destruct b; reflexivity.
  - cbn [read_value]. unfold wr. cbn [write]. unfold write_number.
    pose proof (dec_head z) as H.
    destruct H as (c & s & Q & W1 & A1 & A2 & A3 & A4 & A5 & A6 & _ & A7). pose proof (read_number_dec z rest P E) as RN. rewrite Q in *. cbn [app] in *.
    rewrite skip_ws_not by exact W1. rewrite A1, A2, A3, A4, A5, A6, A7. exact RN.
  - destruct P.
  - unfold wr. cbn [write]. unfold write_string. cbn [app read_value]. rewrite skip_ws_not by reflexivity. change (N.eqb 34 34) with true. cbv iota.
    rewrite <- app_assoc. cbn [app]. rewrite read_written by exact P. reflexivity.
  - destruct d as [|d]; [cbn [depth] in D; lia|]. apply depth_arr in D. apply plain_arr in P. destruct l as [|x l]; [reflexivity|].
    rewrite write_arr in *. inversion P; inversion D; inversion IH; subst. cbn [app] in *. rewrite <- !app_assoc in *. cbn [app] in *. cbn [read_value].
    rewrite skip_ws_not by reflexivity. change (N.eqb 91 34) with false. change (N.eqb 91 91) with true. cbv iota.
    destruct (write_head x ltac:(assumption)) as (c & s & Q & W1 & A1). 
    assert (RX : read_value n d (wr x ++ elems_tail l ++ 93%N :: rest) = Ok (x, elems_tail l ++ 93%N :: rest)).
    { match goal with H : reads x |- _ => apply H end; [assumption | assumption | len | apply elems_follow]. }
    rewrite Q in RX |- *. cbn [app] in RX |- *. rewrite skip_ws_not by exact W1. unfold str, char in *. rewrite A1, RX. cbn [bind].
    rewrite read_elems_written; [reflexivity | assumption | assumption | assumption | len].
  - destruct d as [|d]; [cbn [depth] in D; lia|]. apply depth_obj in D. apply plain_obj in P. destruct l as [|[k x] l]; [reflexivity|].
    rewrite write_obj in *. inversion P as [|? ? [P1 P2] P3]; inversion D; inversion IH; subst. cbn [fst snd] in *. cbn [app] in L |- *.
    replace ((write_string w k ++ 58%N :: ows ++ wr x ++ members_tail l ++ [125%N]) ++ rest) with (write_string w k ++ (58%N :: ows) ++ wr x ++ members_tail l ++ 125%N :: rest) in *
      by (rewrite <- !app_assoc; cbn [app]; rewrite <- !app_assoc; reflexivity).
    cbn [read_value]. rewrite skip_ws_not by reflexivity. change (N.eqb 123 34) with false. change (N.eqb 123 91) with false. change (N.eqb 123 123) with true. cbv iota.
    assert (RX : read_member n d (write_string w k ++ (58%N :: ows) ++ wr x ++ members_tail l ++ 125%N :: rest) = Ok (k, x, members_tail l ++ 125%N :: rest)).
    { apply read_member_written; [assumption | assumption | assumption | assumption | len | apply members_follow]. }
    unfold write_string at 1 in RX. unfold write_string at 1. cbn [app] in RX |- *. rewrite skip_ws_not by reflexivity. change (N.eqb 34 125) with false. cbv iota.
    unfold str, char in *. 
    match type of RX with _ = ?v => match goal with |- context [read_member n d ?t] => assert (RY : read_member n d t = v) end end.
    { refine (eq_trans _ RX). f_equal. repeat (rewrite <- ?app_assoc; cbn [app]). reflexivity. }
    rewrite RY. cbn [bind]. rewrite read_members_written; [reflexivity | assumption | assumption | assumption | len].
Qed.
End RoundTrip.
