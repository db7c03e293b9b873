From Coq Require Import Ascii String List ZArith Lia Bool.
From Coq Require Import ZifyBool ZifyNat.
From Verif Require Import Base NumText OMap TypesModel TypesSpec TypesProofs ValueModel DataModel DataSpec.
Import ListNotations.
Open Scope Z_scope.

Ltac inv H := inversion H; subst; clear H.

(** ** little endian *)
Lemma pow256 n : 0 <= n -> 2 ^ (8 * n) = 256 ^ n.
Proof. intros H. rewrite Z.pow_mul_r by lia. reflexivity. Qed.
Lemma pow256_S n : 256 ^ Z.of_nat (S n) = 256 * 256 ^ Z.of_nat n.
Proof. rewrite Nat2Z.inj_succ, Z.pow_succ_r by lia. reflexivity. Qed.

Lemma encode_S n v : encode (S n) v = v mod 256 :: encode n (v / 256).
Proof.
  unfold encode. cbn [seq map]. f_equal.
  - change (256 ^ Z.of_nat 0) with 1. rewrite Z.div_1_r. reflexivity.
  - rewrite <- seq_shift, map_map. apply map_ext. intros i.
    rewrite pow256_S. rewrite Z.div_div by lia. reflexivity.
Qed.
Lemma encode_length n v : List.length (encode n v) = n.
Proof. unfold encode. rewrite map_length, seq_length. reflexivity. Qed.
Lemma encode_bytes n v : Forall byte (encode n v).
Proof.
  unfold encode. apply Forall_forall. intros b Hb. apply in_map_iff in Hb. destruct Hb as [i [<- _]].
  unfold byte. apply Z.mod_pos_bound. lia.
Qed.
Lemma le_encode n v : 0 <= v < 256 ^ Z.of_nat n -> le (encode n v) = v.
Proof.
  revert v. induction n as [|n IH]; intros v Hv.
  - change (256 ^ Z.of_nat 0) with 1 in Hv. simpl. lia.
  - rewrite pow256_S in Hv. rewrite encode_S. cbn [le]. rewrite IH.
    + symmetry. rewrite Z.add_comm. apply Z.div_mod. discriminate.
    + split; [apply Z.div_pos; lia | apply Z.div_lt_upper_bound; lia].
Qed.
Lemma le_range bs : Forall byte bs -> 0 <= le bs < 256 ^ Z.of_nat (List.length bs).
Proof.
  induction 1 as [|b bs Hb _ IH]; [simpl; lia|].
  simpl List.length. rewrite pow256_S. cbn [le]. unfold byte in Hb. lia.
Qed.
Lemma encode_le bs : Forall byte bs -> encode (List.length bs) (le bs) = bs.
Proof.
  induction 1 as [|b bs Hb _ IH]; [reflexivity|].
  simpl List.length. rewrite encode_S. cbn [le]. unfold byte in Hb. f_equal.
  - rewrite Z.mul_comm, Z.mod_add by lia. apply Z.mod_small. lia.
  - rewrite Z.mul_comm, Z.div_add by lia. rewrite Z.div_small by lia. simpl. exact IH.
Qed.

Lemma signed_mod n v : 1 <= n -> - 2 ^ (8 * n - 1) <= v < 2 ^ (8 * n - 1) -> signed n (v mod 2 ^ (8 * n)) = v.
Proof.
  intros Hn Hv. unfold signed.
  assert (E : 2 ^ (8 * n) = 2 * 2 ^ (8 * n - 1)).
  { rewrite <- Z.pow_succ_r by lia. f_equal. lia. }
  pose proof (Z.pow_pos_nonneg 2 (8 * n - 1)). 
  destruct (Z_lt_le_dec v 0).
  - replace (v mod 2 ^ (8 * n)) with (v + 2 ^ (8 * n)).
    + destruct (v + 2 ^ (8 * n) <? 2 ^ (8 * n - 1)) eqn:C; lia.
    + symmetry. rewrite <- (Z.mod_add v 1) by lia. rewrite Z.mul_1_l. apply Z.mod_small. lia.
  - rewrite Z.mod_small by lia. destruct (v <? 2 ^ (8 * n - 1)) eqn:C; lia.
Qed.
Lemma signed_range n u : 1 <= n -> 0 <= u < 2 ^ (8 * n) ->
  - 2 ^ (8 * n - 1) <= signed n u < 2 ^ (8 * n - 1) /\ signed n u mod 2 ^ (8 * n) = u.
Proof.
  intros Hn Hu. unfold signed.
  assert (E : 2 ^ (8 * n) = 2 * 2 ^ (8 * n - 1)).
  { rewrite <- Z.pow_succ_r by lia. f_equal. lia. }
  pose proof (Z.pow_pos_nonneg 2 (8 * n - 1)).
  destruct (u <? 2 ^ (8 * n - 1)) eqn:C.
  - split; [lia|]. apply Z.mod_small. lia.
  - split; [lia|]. rewrite <- (Z.mod_add _ 1) by lia. rewrite Z.mul_1_l. replace (u - 2 ^ (8 * n) + 2 ^ (8 * n)) with u by lia.
    apply Z.mod_small. lia.
Qed.

(** ** reading stored integers *)
Section Serves.
  Variables (E : env) (m : memory).
  Hypothesis HS : serves E m.

  Lemma rd_uint a n v : 0 <= n -> holds_uint m a n v ->
    exists bs, rd E a n = Ok bs /\ Z.of_nat (List.length bs) = n /\ le bs = v.
  Proof.
    intros Hn [Hv Hh]. exists (encode (Z.to_nat n) v).
    pose proof (HS _ _ Hh) as R. rewrite encode_length, Z2Nat.id in R by lia.
    rewrite encode_length, Z2Nat.id by lia. split; [exact R|]. split; [reflexivity|].
    apply le_encode. rewrite Z2Nat.id by lia. rewrite <- pow256 by lia. exact Hv.
  Qed.
  Lemma rd_int a n v : 1 <= n -> holds_int m a n v ->
    exists bs, rd E a n = Ok bs /\ Z.of_nat (List.length bs) = n /\ signed n (le bs) = v.
  Proof.
    intros Hn [Hv Hh].
    destruct (rd_uint a n (v mod 2 ^ (8 * n))) as (bs & R & L & V); [lia| |].
    - split; [|exact Hh]. apply Z.mod_pos_bound. apply Z.pow_pos_nonneg; lia.
    - exists bs. split; [exact R|]. split; [exact L|]. rewrite V. apply signed_mod; assumption.
  Qed.
  Lemma read_address_holds a v : holds_uint m a 8 v -> read_address E a = Ok v.
  Proof.
    intros H. destruct (rd_uint a 8 v) as (bs & R & L & V); [lia|exact H|].
    unfold read_address. rewrite R. simpl. rewrite L. simpl. congruence.
  Qed.
  Lemma read_u64_holds a v : holds_uint m a 8 v -> read_u64 E a = Ok v.
  Proof.
    intros H. destruct (rd_uint a 8 v) as (bs & R & L & V); [lia|exact H|].
    unfold read_u64. rewrite R. simpl. unfold le_unwrap. rewrite L. simpl. congruence.
  Qed.
  Lemma rd_len16 a v : holds_uint m a 2 v -> (lb <- rd E a 2 ;; le_unwrap 2 lb) = Ok v.
  Proof.
    intros H. destruct (rd_uint a 2 v) as (bs & R & L & V); [lia|exact H|].
    rewrite R. simpl. unfold le_unwrap. rewrite L. simpl. congruence.
  Qed.

  Lemma mem_z_in x l : mem_z x l = true <-> In x l.
  Proof.
    unfold mem_z. rewrite existsb_exists. split; [intros [y [Hy E']]; apply Z.eqb_eq in E'; congruence|].
    intros H. exists x. split; [exact H | apply Z.eqb_refl].
  Qed.

  Lemma read_disc_holds a t v : holds_disc m a t v ->
    match t with DInt s => read_disc_int E true s a | DUInt s => read_disc_int E false s a | DImplicit => Ok v end = Ok v.
  Proof.
    intros H. destruct t as [s|s|]; [| |reflexivity].
    - destruct H as [Hs H]. assert (1 <= s) by (simpl in Hs; lia).
      destruct (rd_int a s v) as (bs & R & L & V); [lia|exact H|].
      unfold read_disc_int. rewrite R. cbn [bind]. apply mem_z_in in Hs. rewrite Hs. unfold le_unwrap. rewrite L, Z.eqb_refl. cbn [bind]. congruence.
    - destruct H as [Hs H]. assert (1 <= s) by (simpl in Hs; lia).
      destruct (rd_uint a s v) as (bs & R & L & V); [lia|exact H|].
      unfold read_disc_int. rewrite R. cbn [bind]. apply mem_z_in in Hs. rewrite Hs. unfold le_unwrap. rewrite L, Z.eqb_refl. cbn [bind]. congruence.
  Qed.

  (** C17 *)
  Lemma read_uint_exact f a s v p : In s [1; 2; 4; 8; 16] -> holds_uint m a s v ->
    read E (S f) a (TD (LUInt s) p) = Ok (VScalar (st "u" ++ dec (8 * s)) (dec v)).
  Proof.
    intros Hs H. assert (1 <= s) by (simpl in Hs; lia).
    destruct (rd_uint a s v) as (bs & R & L & V); [lia|exact H|].
    cbn [read layOf read_primitive]. rewrite R. cbn [bind].
    apply mem_z_in in Hs. unfold int_sizes. rewrite Hs. unfold le_unwrap. rewrite L, Z.eqb_refl. cbn [bind].
    rewrite V. unfold display_name, usz. rewrite (Z.mul_comm s). reflexivity.
  Qed.
  Lemma read_int_exact f a s v p : In s [1; 2; 4; 8; 16] -> holds_int m a s v ->
    read E (S f) a (TD (LInt s) p) = Ok (VScalar (st "i" ++ dec (8 * s)) (dec v)).
  Proof.
    intros Hs H. assert (1 <= s) by (simpl in Hs; lia).
    destruct (rd_int a s v) as (bs & R & L & V); [lia|exact H|].
    cbn [read layOf read_primitive]. rewrite R. cbn [bind].
    apply mem_z_in in Hs. unfold int_sizes. rewrite Hs. unfold le_unwrap. rewrite L, Z.eqb_refl. cbn [bind].
    rewrite V. unfold display_name, usz. rewrite (Z.mul_comm s). reflexivity.
  Qed.
  Lemma bytes_are_uint a bs : holds m a bs -> holds_uint m a (Z.of_nat (List.length bs)) (le bs).
  Proof.
    intros H. pose proof (le_range bs (proj1 H)) as R. split; [rewrite pow256 by lia; exact R|].
    rewrite Nat2Z.id, encode_le by exact (proj1 H). exact H.
  Qed.
  Lemma bytes_are_int a bs : bs <> [] -> holds m a bs ->
    let n := Z.of_nat (List.length bs) in holds_int m a n (signed n (le bs)).
  Proof.
    intros Hne H n. pose proof (le_range bs (proj1 H)) as R. fold n in R.
    assert (1 <= n) by (destruct bs; [congruence | unfold n; simpl; lia]).
    rewrite <- pow256 in R by lia. destruct (signed_range n (le bs)) as [S1 S2]; [lia|exact R|].
    split; [exact S1|]. rewrite S2. unfold n. rewrite Nat2Z.id, encode_le by exact (proj1 H). exact H.
  Qed.
  Lemma read_int_bad_size f a s p : ~ In s [1; 2; 4; 8; 16] ->
    (forall v, read E f a (TD (LInt s) p) <> Ok v) /\ (forall v, read E f a (TD (LUInt s) p) <> Ok v).
  Proof.
    intros Hs. assert (Hm : mem_z s int_sizes = false).
    { destruct (mem_z s int_sizes) eqn:M; [|reflexivity]. apply mem_z_in in M. contradiction. }
    destruct f; [split; discriminate|]. cbn [read layOf read_primitive].
    split; intros v; destruct (rd E a s); cbn [bind]; try discriminate; rewrite Hm; discriminate.
  Qed.
End Serves.

(** ** sequences *)
Lemma add64_ok a b : 0 <= a + b < two64 -> add64 a b = Ok (a + b).
Proof. intros H. unfold add64. replace (u64_ok (a + b)) with true; [reflexivity|]. symmetry. apply u64_ok_iff. exact H. Qed.
Lemma sub64_ok a b : 0 <= a - b < two64 -> sub64 a b = Ok (a - b).
Proof. intros H. unfold sub64. replace (u64_ok (a - b)) with true; [reflexivity|]. symmetry. apply u64_ok_iff. exact H. Qed.
Lemma mul64_ok' a b : 0 <= a * b < two64 -> mul64 a b = Ok (a * b).
Proof. intros H. apply mul64_ok. split; [reflexivity|exact H]. Qed.
Lemma add64_inv a b c : add64 a b = Ok c -> c = a + b /\ 0 <= a + b < two64.
Proof.
  unfold add64. destruct (u64_ok (a + b)) eqn:U; intros H; [|discriminate]. injection H as <-.
  apply u64_ok_iff in U. auto.
Qed.

Lemma element_ptrs_ok n : forall a es t, 0 <= a -> 0 <= es -> a + Z.of_nat n * es < two64 ->
  element_ptrs n a es t = Ok (sequence_at a es n t).
Proof.
  induction n as [|n IH]; intros a es t Ha He Hb; [reflexivity|].
  cbn [element_ptrs]. rewrite add64_ok by nia. cbn [bind]. rewrite IH by nia. cbn [bind].
  f_equal. unfold sequence_at. cbn [seq map]. f_equal.
  - f_equal. lia.
  - rewrite <- seq_shift, map_map. apply map_ext. intros i. f_equal. lia.
Qed.
Lemma element_ptrs_inv n : forall a es t vs, element_ptrs n a es t = Ok vs -> vs = sequence_at a es n t.
Proof.
  induction n as [|n IH]; intros a es t vs H.
  - injection H as <-. reflexivity.
  - cbn [element_ptrs] in H. apply bind_ok in H. destruct H as (a' & Ha & H). apply add64_inv in Ha. destruct Ha as [-> _].
    apply bind_ok in H. destruct H as (r & Hr & H). injection H as <-. apply IH in Hr. subst r.
    unfold sequence_at. cbn [seq map]. f_equal.
    + f_equal. lia.
    + rewrite <- seq_shift, map_map. apply map_ext. intros i. f_equal. lia.
Qed.

Lemma known_size_ok t es : known_size t = Ok es <-> tsize t = Ok (Some es).
Proof.
  unfold known_size. rewrite bind_ok. split.
  - intros [[s|] [H1 H2]]; [injection H2 as <-; exact H1 | discriminate].
  - intros H. exists (Some es). auto.
Qed.

Section Seq.
  Variables (E : env) (m : memory).
  Hypothesis HS : serves E m.

  Notation element_type := (DataSpec.element_type E).
  Lemma resolve_alias_ok et t : resolve_alias E et = Ok t <-> element_type et t.
  Proof.
    unfold resolve_alias, element_type. destruct (layOf et); split; intros H; try (injection H as <-; reflexivity); try (subst; reflexivity); exact H.
  Qed.

  Lemma read_array f a et len p t es :
    0 <= len -> element_type et t -> tsize t = Ok (Some es) -> 0 <= es -> 0 <= a -> a + len * es < two64 ->
    read E (S f) a (TD (LArray et len) p) =
    Ok (VArray (st "[" ++ tname t ++ st "; " ++ dec len ++ st "]") (sequence_at a es (Z.to_nat len) t)).
  Proof.
    intros Hl Ht Hs He Ha Hb. cbn [read layOf read_primitive].
    apply resolve_alias_ok in Ht. rewrite Ht. cbn [bind]. apply known_size_ok in Hs. rewrite Hs. cbn [bind].
    rewrite element_ptrs_ok by (rewrite ?Z2Nat.id; lia). reflexivity.
  Qed.
  Lemma read_vec f a lo dpo co et p t es ptr len :
    element_type et t -> tsize t = Ok (Some es) -> 0 <= es ->
    0 <= a + lo < two64 -> 0 <= a + dpo < two64 ->
    holds_uint m (a + lo) 8 len -> holds_uint m (a + dpo) 8 ptr -> ptr + len * es < two64 ->
    read E (S f) a (TD (LVec lo dpo co et) p) =
    Ok (VArray (st "Vec<" ++ tname t ++ st ">") (sequence_at ptr es (Z.to_nat len) t)).
  Proof.
    intros Ht Hs He A1 A2 Hl Hp Hb. cbn [read layOf read_std].
    apply resolve_alias_ok in Ht. rewrite Ht. cbn [bind]. apply known_size_ok in Hs. rewrite Hs. cbn [bind].
    unfold extract_vec_info. rewrite add64_ok by lia. cbn [bind].
    destruct (rd_uint E m HS (a + lo) 8 len) as (bs & R & L & V); [lia|exact Hl|].
    rewrite R. cbn [bind]. rewrite L, Z.eqb_refl. cbn [bind]. rewrite add64_ok by lia. cbn [bind].
    rewrite (read_address_holds E m HS _ _ Hp). cbn [bind]. rewrite V.
    destruct Hl as [Hl _], Hp as [Hp _].
    rewrite element_ptrs_ok by (rewrite ?Z2Nat.id; lia). reflexivity.
  Qed.
  Lemma read_slice f a dpo lo et p t es ptr len :
    element_type et t -> tsize t = Ok (Some es) -> 0 <= es ->
    0 <= a + lo < two64 -> 0 <= a + dpo < two64 ->
    holds_uint m (a + lo) 8 len -> holds_uint m (a + dpo) 8 ptr -> ptr + len * es < two64 ->
    read E (S f) a (TD (LSlice et dpo lo) p) =
    Ok (VArray (st "&[" ++ tname t ++ st "]") (sequence_at ptr es (Z.to_nat len) t)).
  Proof.
    intros Ht Hs He A1 A2 Hl Hp Hb. cbn [read layOf read_primitive].
    rewrite add64_ok by lia. cbn [bind]. rewrite (read_u64_holds E m HS _ _ Hl). cbn [bind].
    apply resolve_alias_ok in Ht. rewrite Ht. cbn [bind]. apply known_size_ok in Hs. rewrite Hs. cbn [bind].
    rewrite add64_ok by lia. cbn [bind].
    rewrite (read_address_holds E m HS _ _ Hp). cbn [bind].
    destruct Hl as [Hl _], Hp as [Hp _].
    rewrite element_ptrs_ok by (rewrite ?Z2Nat.id; lia). reflexivity.
  Qed.
End Seq.

(** ** hash tables *)
Definition occ_from (k : nat) (ctrl : list Z) : list nat :=
  filter (fun i => match nth_error ctrl (i - k) with Some c => c <? 128 | None => false end) (seq k (List.length ctrl)).
Lemma occ_from_cons k c ctrl : occ_from k (c :: ctrl) = if c <? 128 then k :: occ_from (S k) ctrl else occ_from (S k) ctrl.
Proof.
  unfold occ_from. cbn [List.length seq filter]. rewrite Nat.sub_diag. cbn [nth_error].
  assert (H : filter (fun i => match nth_error (c :: ctrl) (i - k) with Some c0 => c0 <? 128 | None => false end) (seq (S k) (List.length ctrl)) =
              filter (fun i => match nth_error ctrl (i - S k) with Some c0 => c0 <? 128 | None => false end) (seq (S k) (List.length ctrl))).
  { apply filter_ext_in. intros i Hi. apply in_seq in Hi. replace (i - k)%nat with (S (i - S k)) by lia. reflexivity. }
  rewrite H. destruct (c <? 128); reflexivity.
Qed.

Lemma hash_slots_ok ctrl : forall k cp psz ko vo items n,
  0 <= psz -> 0 <= ko -> 0 <= vo -> cp - (Z.of_nat k + Z.of_nat (List.length ctrl)) * psz >= 0 ->
  cp - psz + ko < two64 -> cp - psz + vo < two64 -> cp < two64 ->
  n < items -> items <= n + Z.of_nat (List.length (occ_from k ctrl)) ->
  hash_slots ctrl (cp - (Z.of_nat k + 1) * psz) psz ko vo items n =
  Ok (firstn (Z.to_nat (items - n)) (map (bucket cp psz ko vo) (occ_from k ctrl))).
Proof.
  induction ctrl as [|c ctrl IH]; intros k cp psz ko vo items n Hp Hk Hv Hc H1 H2 H3 Hn Hi.
  - unfold occ_from in *. simpl in *. lia.
  - cbn [hash_slots]. cbn [List.length] in Hc. rewrite occ_from_cons in *.
    assert (Hsl : 0 <= cp - (Z.of_nat k + 1) * psz) by nia.
    destruct (c <? 128) eqn:Ec.
    + cbn [List.length map] in *.
      rewrite !add64_ok by nia. cbn [bind].
      destruct (items <=? n + 1) eqn:Ei.
      * replace (items - n) with 1 by lia. reflexivity.
      * assert (Hlen : (0 < List.length ctrl)%nat).
        { destruct ctrl; [|simpl; lia]. unfold occ_from in Hi. simpl in Hi. lia. }
        rewrite sub64_ok by nia. cbn [bind].
        replace (cp - (Z.of_nat k + 1) * psz - psz) with (cp - (Z.of_nat (S k) + 1) * psz) by lia.
        rewrite IH by (try lia; nia). cbn [bind].
        replace (Z.to_nat (items - n)) with (S (Z.to_nat (items - (n + 1)))) by lia. reflexivity.
    + assert (Hlen : (0 < List.length ctrl)%nat).
      { destruct ctrl; [|simpl; lia]. unfold occ_from in Hi. simpl in Hi. lia. }
      rewrite sub64_ok by nia. cbn [bind].
      replace (cp - (Z.of_nat k + 1) * psz - psz) with (cp - (Z.of_nat (S k) + 1) * psz) by lia.
      apply IH; try lia; nia.
Qed.
Lemma occ_from_0 ctrl : occ_from 0 ctrl = occupied ctrl.
Proof. unfold occ_from, occupied. apply filter_ext. intros i. rewrite Nat.sub_0_r. reflexivity. Qed.

Section Hash.
  Variables (E : env) (m : memory).
  Hypothesis HS : serves E m.
  Notation hash_stored := (DataSpec.hash_stored m).
  Lemma read_hash_general a mo co io psz ko vo items cp ctrl key val :
    hash_stored a mo co io psz ko vo items cp ctrl -> items <= Z.of_nat (List.length (occupied ctrl)) ->
    read_map_entries E a key val (HashMap mo co io psz ko vo) =
    Ok (firstn (Z.to_nat items) (map (bucket cp psz ko vo) (occupied ctrl))).
  Proof.
    intros [ [A1 [A2 A3]] Hi Hm Hc Hb Hl [P1 [P2 [P3 [P4 P5]]]] Hr] Hle.
    cbn [read_map_entries]. rewrite !add64_ok by lia. cbn [bind].
    rewrite (read_u64_holds E m HS _ _ Hi). cbn [bind].
    destruct (items =? 0) eqn:E0; [replace items with 0 by lia; reflexivity|].
    rewrite (read_u64_holds E m HS _ _ Hm). cbn [bind].
    destruct Hm as [Hm _]. rewrite add64_ok by lia. cbn [bind].
    rewrite (read_address_holds E m HS _ _ Hc). cbn [bind].
    assert (Hcp : 0 <= cp < two64) by (destruct Hc as [Hc _]; exact Hc).
    assert (1 <= Z.of_nat (List.length ctrl)) by lia.
    rewrite sub64_ok by nia. cbn [bind].
    replace (Z.of_nat (List.length ctrl) - 1 + 1) with (Z.of_nat (List.length ctrl)) by lia.
    rewrite (HS _ _ Hb). cbn [bind].
    assert (0 <= items) by (destruct Hi as [Hi _]; lia).
    rewrite <- occ_from_0 in *. replace (cp - psz) with (cp - (Z.of_nat 0 + 1) * psz) by lia.
    rewrite hash_slots_ok by (try lia; nia). rewrite Z.sub_0_r. reflexivity.
  Qed.
End Hash.

(** ** B-trees *)
Lemma pairs_loop_ok kv (f : nat -> Z * Z) n : forall k,
  (forall i, (k <= i < k + n)%nat -> kv (Z.of_nat i) = Ok [f i]) ->
  pairs_loop kv n (Z.of_nat k) = Ok (map f (seq k n)).
Proof.
  induction n as [|n IH]; intros k H; [reflexivity|].
  cbn [pairs_loop seq map]. rewrite (H k) by lia. cbn [bind].
  replace (Z.of_nat k + 1) with (Z.of_nat (S k)) by lia.
  rewrite IH by (intros; apply H; lia). reflexivity.
Qed.
Lemma edges_loop_ok edge kv (f : nat -> Z * Z) (cs : list (list (Z * Z))) n : forall k,
  List.length cs = n ->
  (forall i, (k <= i < k + n)%nat -> kv (Z.of_nat i) = Ok [f i]) ->
  (forall i c, nth_error cs i = Some c -> edge (Z.of_nat (k + S i)) = Ok c) ->
  forall c0, edge (Z.of_nat k) = Ok c0 ->
  edges_loop edge kv n (Z.of_nat k) = Ok (c0 ++ flat_map (fun ic => f (fst ic) :: snd ic) (combine (seq k n) cs)).
Proof.
  revert cs. induction n as [|n IH]; intros cs k Hl Hk He c0 H0.
  - cbn [edges_loop]. rewrite H0. cbn [bind seq combine flat_map]. rewrite app_nil_r. reflexivity.
  - destruct cs as [|c1 cs]; [discriminate Hl|]. cbn [edges_loop]. rewrite H0. cbn [bind].
    rewrite (Hk k) by lia. cbn [bind].
    replace (Z.of_nat k + 1) with (Z.of_nat (S k)) by lia.
    rewrite (IH cs (S k)) with (c0 := c1).
    + cbn [bind seq combine flat_map fst snd]. reflexivity.
    + simpl in Hl. lia.
    + intros; apply Hk; lia.
    + intros i c Hi. replace (S k + S i)%nat with (k + S (S i))%nat by lia. apply He. exact Hi.
    + replace (S k) with (k + 1)%nat by lia. apply (He 0%nat). reflexivity.
Qed.

Section BT.
  Variables (E : env) (m : memory).
  Hypothesis HS : serves E m.
  Variables (nl : bnode) (key val : tdef) (ks vs : Z).
  Hypothesis Hks : tsize key = Ok (Some ks).
  Hypothesis Hvs : tsize val = Ok (Some vs).
  Hypothesis Kpos : 0 < ks.
  Hypothesis Vpos : 0 < vs.

  Lemma btree_node_ok h : forall t, bt_stored m nl ks vs h t ->
    btree_node E h (bt_ptr t) key val nl = Ok (inorder nl ks vs t).
  Proof.
    induction h as [|h IH]; intros t Ht.
    - inversion Ht as [p n Hlen Hfit Eh Et|]; subst. inversion Hfit as [p' n' b' F1 F2 F3 F4 F5 F6 F7 F8 F9]; subst.
      assert (Hn : 0 <= Z.of_nat n < 65536) by (destruct Hlen as [X _]; exact X).
      cbn [btree_node bt_ptr inorder map].
      rewrite add64_ok by lia. cbn [bind].
      destruct (rd_uint E m HS (p + len_off nl) 2 (Z.of_nat n) ltac:(lia) Hlen) as (bs & R & L & V).
      rewrite R. cbn [bind]. unfold le_unwrap. rewrite L, Z.eqb_refl. cbn [bind]. rewrite V.
      rewrite Hks. cbn [bind]. rewrite Hvs. cbn [bind].
      rewrite !add64_ok by nia. cbn [bind]. rewrite Nat2Z.id.
      apply (pairs_loop_ok _ (bt_pair nl ks vs p) n 0%nat).
      intros i Hi. replace ((0 <? ks) && (0 <? vs)) with true by lia.
      rewrite mul64_ok' by nia. cbn [bind]. rewrite add64_ok by nia. cbn [bind].
      rewrite mul64_ok' by nia. cbn [bind]. rewrite add64_ok by nia. reflexivity.
    - inversion Ht as [|h0 p n cs Hlen Hfit Hcs Hkids Eh Et]; subst. inversion Hfit as [p' n' b' F1 F2 F3 F4 F5 F6 F7 F8 F9]; subst.
      assert (Hn : 0 <= Z.of_nat n < 65536) by (destruct Hlen as [X _]; exact X).
      specialize (F9 eq_refl).
      cbn [btree_node bt_ptr inorder].
      rewrite add64_ok by lia. cbn [bind].
      destruct (rd_uint E m HS (p + len_off nl) 2 (Z.of_nat n) ltac:(lia) Hlen) as (bs & R & L & V).
      rewrite R. cbn [bind]. unfold le_unwrap. rewrite L, Z.eqb_refl. cbn [bind]. rewrite V.
      rewrite Hks. cbn [bind]. rewrite Hvs. cbn [bind].
      rewrite !add64_ok by nia. cbn [bind]. rewrite Nat2Z.id.
      destruct cs as [|c0 cs]; [discriminate Hcs|]. cbn [map].
      assert (Hedge : forall i c, nth_error (c0 :: cs) i = Some c ->
        (ea <- add64 (p + edges_off nl) (Z.of_nat i * 8) ;; e <- read_address E ea ;;
         if e =? 0 then Ok [] else btree_node E h e key val nl) = Ok (inorder nl ks vs c)).
      { intros i c Hi. destruct (Hkids i c Hi) as (Hnz & Hp & Hst).
        assert (i <= n)%nat. { assert (i < List.length (c0 :: cs))%nat by (apply nth_error_Some; congruence). lia. }
        rewrite add64_ok by nia. cbn [bind].
        replace (p + edges_off nl + Z.of_nat i * 8) with (p + edges_off nl + 8 * Z.of_nat i) by lia.
        rewrite (read_address_holds E m HS _ _ Hp). cbn [bind].
        replace (bt_ptr c =? 0) with false by lia. apply IH. exact Hst. }
      apply (edges_loop_ok _ _ (bt_pair nl ks vs p) (map (inorder nl ks vs) cs) n 0%nat).
      + rewrite map_length. simpl in Hcs. lia.
      + intros i Hi. replace ((0 <? ks) && (0 <? vs)) with true by lia.
        rewrite mul64_ok' by nia. cbn [bind]. rewrite add64_ok by nia. cbn [bind].
        rewrite mul64_ok' by nia. cbn [bind]. rewrite add64_ok by nia. reflexivity.
      + intros i c Hi. rewrite nth_error_map in Hi. destruct (nth_error cs i) as [c'|] eqn:Ei; [|discriminate].
        injection Hi as <-. apply (Hedge (S i)). exact Ei.
      + apply (Hedge 0%nat). reflexivity.
  Qed.
End BT.
