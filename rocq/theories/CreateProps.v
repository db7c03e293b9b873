(** C32, C33: texts created in the target for call arguments. *)
From Coq Require Import Ascii String List ZArith NArith Bool Lia.
From Coq Require Import ZifyBool ZifyNat ZifyN.
From Verif Require Import Base NumText OMap TypesModel TypesSpec TypesProofs ValueModel DataModel DataSpec DataProofs DataProofs2 MemExample Utf8 TextProps CreateModel.
Import ListNotations.
Open Scope Z_scope.

(** Vocabulary. *)
Definition within (x a n : Z) : Prop := a <= x < a + n.
Definition apart (a n b k : Z) : Prop := forall x, ~ (within x a n /\ within x b k).
(** The target's allocator hands out blocks of the address space that overlap no block in use. *)
Definition sound_allocator (pick : list (Z * Z) -> Z -> res Z) : Prop :=
  forall blocks n a, pick blocks n = Ok a -> 0 <= a < two64 /\ a + n <= two64 /\ forall b k, In (b, k) blocks -> apart a n b k.
Definition blen (s : str) : Z := Z.of_nat (List.length (utf8 s)).
(** Three 8-byte fields that fit in 24 bytes without overlap. *)
Definition string_fields (lo dpo co : Z) : Prop :=
  0 <= lo <= 16 /\ 0 <= dpo <= 16 /\ 0 <= co <= 16 /\ 8 <= Z.abs (lo - dpo) /\ 8 <= Z.abs (lo - co) /\ 8 <= Z.abs (dpo - co).
(** Every byte written lies in one of the blocks. *)
Definition writes_inside (ws : list (Z * list Z)) (blocks : list (Z * Z)) : Prop :=
  forall a bs, In (a, bs) ws -> exists b k, In (b, k) blocks /\ b <= a /\ a + Z.of_nat (List.length bs) <= b + k.

Lemma apart_le a n b k : a + n <= b \/ b + k <= a -> apart a n b k.
Proof. unfold apart, within. intros H x. lia. Qed.
Lemma holds_store m a bs : Forall byte bs -> holds (store m a bs) a bs.
Proof.
  intros H. split; [exact H|]. intros i b Hi. unfold store.
  assert ((i < List.length bs)%nat) by (apply nth_error_Some; congruence).
  replace ((a <=? a + Z.of_nat i) && (a + Z.of_nat i <? a + Z.of_nat (List.length bs))) with true by lia.
  replace (Z.to_nat (a + Z.of_nat i - a)) with i by lia. exact Hi.
Qed.
Lemma holds_frame m a bs b cs : holds m b cs -> apart a (Z.of_nat (List.length bs)) b (Z.of_nat (List.length cs)) -> holds (store m a bs) b cs.
Proof.
  intros [H1 H2] D. split; [exact H1|]. intros i c Hi. unfold store.
  assert ((i < List.length cs)%nat) by (apply nth_error_Some; congruence).
  specialize (D (b + Z.of_nat i)). unfold within in D.
  replace ((a <=? b + Z.of_nat i) && (b + Z.of_nat i <? a + Z.of_nat (List.length bs))) with false by lia.
  apply H2. exact Hi.
Qed.
Lemma store_out m a bs x : ~ within x a (Z.of_nat (List.length bs)) -> store m a bs x = m x.
Proof. unfold within, store. intros H. replace ((a <=? x) && (x <? a + Z.of_nat (List.length bs))) with false by lia. reflexivity. Qed.
Lemma uint_store m a v : 0 <= v < two64 -> holds_uint (store m a (encode 8 v)) a 8 v.
Proof. intros H. split; [exact H|]. apply holds_store. apply encode_bytes. Qed.
Lemma uint_frame m a bs b v : holds_uint m b 8 v -> apart a (Z.of_nat (List.length bs)) b 8 -> holds_uint (store m a bs) b 8 v.
Proof. intros [H1 H2] D. split; [exact H1|]. apply holds_frame; [exact H2|]. rewrite encode_length. exact D. Qed.
Lemma blen_nonneg s : 0 <= blen s. Proof. unfold blen. lia. Qed.

Section Alloc.
  Variable pick : list (Z * Z) -> Z -> res Z.

  Lemma string_run v lo dpo co it p s b1 b2 : pick (t_blocks s) (blen v) = Ok b1 -> pick ((b1, blen v) :: t_blocks s) 24 = Ok b2 ->
    0 <= b2 -> b2 + 24 <= two64 -> string_fields lo dpo co ->
    create_typed_value pick v (TD (LString lo dpo co it) p) s =
    (Ok b2, Target (store (store (store (store (store (t_mem s) b1 (utf8 v)) b2 (repeat 0 24)) (b2 + lo) (encode 8 (blen v)))
                            (b2 + dpo) (encode 8 b1)) (b2 + co) (encode 8 (blen v)))
                   ((b2, 24) :: (b1, blen v) :: t_blocks s)
                   ((b2 + co, encode 8 (blen v)) :: (b2 + dpo, encode 8 b1) :: (b2 + lo, encode 8 (blen v)) ::
                    (b2, repeat 0 24) :: (b1, utf8 v) :: t_writes s)).
  Proof.
    intros P1 P2 H1 H2 (L1 & L2 & L3 & _). unfold create_typed_value. cbn [layOf]. unfold create_string, tbind, t_alloc, t_write, tlift, tret.
    fold (blen v). rewrite P1. cbn [t_blocks t_mem t_writes size bind]. rewrite P2. cbn [t_blocks t_mem t_writes].
    rewrite (add64_ok b2 lo) by (unfold two64 in *; lia). cbn [t_blocks t_mem t_writes]. rewrite (add64_ok b2 dpo) by (unfold two64 in *; lia).
    cbn [t_blocks t_mem t_writes]. rewrite (add64_ok b2 co) by (unfold two64 in *; lia). reflexivity.
  Qed.
End Alloc.

(** C32. *)
Theorem created_string_reads_back : forall pick v lo dpo co it p s b1 b2,
  sound_allocator pick -> text v -> blen v < two64 -> string_fields lo dpo co ->
  pick (t_blocks s) (blen v) = Ok b1 -> pick ((b1, blen v) :: t_blocks s) 24 = Ok b2 ->
  exists s', create_typed_value pick v (TD (LString lo dpo co it) p) s = (Ok b2, s') /\
    (forall E fuel, serves E (t_mem s') -> lossy E = utf8_lossy ->
       read E (S fuel) b2 (TD (LString lo dpo co it) p) = Ok (VScalar (st "String") (quoted v))) /\
    holds_uint (t_mem s') (b2 + co) 8 (blen v) /\ holds_uint (t_mem s') (b2 + lo) 8 (blen v) /\
    holds_uint (t_mem s') (b2 + dpo) 8 b1 /\ holds (t_mem s') b1 (utf8 v) /\
    t_blocks s' = (b2, 24) :: (b1, blen v) :: t_blocks s /\
    (forall x, ~ within x b1 (blen v) -> ~ within x b2 24 -> t_mem s' x = t_mem s x) /\
    exists ws, t_writes s' = ws ++ t_writes s /\ writes_inside ws [(b2, 24); (b1, blen v)].
Proof.
  intros pick v lo dpo co it p s b1 b2 HA Ht Hm HF P1 P2.
  destruct (HA _ _ _ P1) as (A1 & A2 & A3). destruct (HA _ _ _ P2) as (B1 & B2 & B3).
  pose proof (B3 b1 (blen v) (or_introl eq_refl)) as D. pose proof (blen_nonneg v) as Hn.
  destruct HF as (F1 & F2 & F3 & F4 & F5 & F6).
  eexists. split; [apply string_run; [exact P1 | exact P2 | lia | lia | unfold string_fields; lia]|]. cbn [t_mem t_blocks t_writes].
  set (m1 := store (t_mem s) b1 (utf8 v)). set (m2 := store m1 b2 (repeat 0 24)).
  set (m3 := store m2 (b2 + lo) (encode 8 (blen v))). set (m4 := store m3 (b2 + dpo) (encode 8 b1)). set (m5 := store m4 (b2 + co) (encode 8 (blen v))).
  assert (Hnn : 0 <= blen v < two64) by lia.
  assert (Hb1 : 0 <= b1 < two64) by lia.
  assert (C : holds m5 b1 (utf8 v)).
  { unfold m5, m4, m3, m2, m1. repeat (apply holds_frame; [|rewrite ?encode_length, ?repeat_length; fold (blen v); intros x; specialize (D x); unfold within in *; lia]).
    apply holds_store. apply utf8_bytes. exact Ht. }
  assert (L : holds_uint m5 (b2 + lo) 8 (blen v)).
  { unfold m5, m4. repeat (apply uint_frame; [|rewrite encode_length; apply apart_le; lia]). apply uint_store. exact Hnn. }
  assert (K : holds_uint m5 (b2 + co) 8 (blen v)) by (apply uint_store; exact Hnn).
  assert (P : holds_uint m5 (b2 + dpo) 8 b1).
  { unfold m5. apply uint_frame; [|rewrite encode_length; apply apart_le; lia]. apply uint_store. exact Hb1. }
  split. { intros E fuel HS HL. apply (string_read_exactly E m5 HS HL fuel b2 lo dpo co it p b1 v Ht); [unfold two64 in *; lia | unfold two64 in *; lia | exact L | exact P | exact C]. }
  split; [exact K|]. split; [exact L|]. split; [exact P|]. split; [exact C|]. split; [reflexivity|].
  split.
  { intros x X1 X2. unfold m5, m4, m3, m2, m1.
    repeat (rewrite store_out; [|rewrite ?encode_length, ?repeat_length; fold (blen v); unfold within in *; lia]). reflexivity. }
  exists [(b2 + co, encode 8 (blen v)); (b2 + dpo, encode 8 b1); (b2 + lo, encode 8 (blen v)); (b2, repeat 0 24); (b1, utf8 v)].
  split; [reflexivity|]. intros a bs Hi.
  assert (Q : bs = utf8 v /\ a = b1 \/ b2 <= a /\ a + Z.of_nat (List.length bs) <= b2 + 24).
  { destruct Hi as [Hi | [Hi | [Hi | [Hi | [Hi | []]]]]]; injection Hi as <- <-;
      [right | right | right | right | left; auto]; rewrite ?encode_length, ?repeat_length; cbn [List.length]; lia. }
  destruct Q as [[-> ->] | Q].
  - exists b1, (blen v). split; [right; left; reflexivity|]. unfold blen. lia.
  - exists b2, 24. split; [left; reflexivity | exact Q].
Qed.
Print Assumptions created_string_reads_back.

(** C33. The two words of a [&str] fill its 16 bytes. *)
Definition str_fields (dpo lo : Z) : Prop := (dpo = 0 /\ lo = 8) \/ (dpo = 8 /\ lo = 0).
Definition mib : Z := 1048576.

Lemma read_bytes_holds' m a bs : holds m a bs -> read_bytes m a (List.length bs) = Some bs.
Proof. intros [_ H]. apply read_bytes_holds. exact H. Qed.
Lemma t_read_ok a bs s : holds (t_mem s) a bs -> t_read a (Z.of_nat (List.length bs)) s = (Ok bs, s).
Proof. intros H. unfold t_read. rewrite Nat2Z.id, (read_bytes_holds' _ _ _ H). reflexivity. Qed.

Section Str.
  Variable pick : list (Z * Z) -> Z -> res Z.
  Lemma str_run v dpo lo s b : pick (t_blocks s) (blen v + 16) = Ok b -> text v -> blen v <= mib ->
    0 <= b < two64 -> b + blen v + 16 <= two64 -> 0 <= dpo <= 16 -> 0 <= lo <= 16 -> 8 <= Z.abs (dpo - lo) ->
    b + blen v + dpo < two64 -> b + blen v + lo < two64 ->
    create_str_slice pick v dpo lo s =
    (Ok (b + blen v), Target (store (store (store (t_mem s) b (utf8 v)) (b + blen v + dpo) (encode 8 b)) (b + blen v + lo) (encode 8 (blen v)))
                   ((b, blen v + 16) :: t_blocks s)
                   ((b + blen v + lo, encode 8 (blen v)) :: (b + blen v + dpo, encode 8 b) :: (b, utf8 v) :: t_writes s)).
  Proof.
    intros P Ht Hm H1 H2 H3 H4 H5 H6 H7. pose proof (blen_nonneg v) as Hn. unfold create_str_slice, tbind, t_alloc, t_write, tlift, tret.
    fold (blen v). replace ((16 <? dpo) || (16 <? lo)) with false by lia. rewrite P. cbn [t_blocks t_mem t_writes].
    unfold mib in Hm.
    rewrite (add64_ok b (blen v)) by (unfold two64 in *; lia). cbn [t_blocks t_mem t_writes].
    rewrite (add64_ok (b + blen v) dpo) by (unfold two64 in *; lia). cbn [t_blocks t_mem t_writes].
    rewrite (add64_ok (b + blen v) lo) by (unfold two64 in *; lia). cbn [t_blocks t_mem t_writes].
    set (m3 := store _ (b + blen v + lo) _).
    assert (Hl : holds_uint m3 (b + blen v + lo) 8 (blen v)) by (apply uint_store; unfold two64 in *; lia).
    assert (Hp : holds_uint m3 (b + blen v + dpo) 8 b).
    { unfold m3. apply uint_frame; [|rewrite encode_length; apply apart_le; lia]. apply uint_store. lia. }
    assert (Hc : holds m3 b (utf8 v)).
    { unfold m3. repeat (apply holds_frame; [|rewrite encode_length; fold (blen v); apply apart_le; lia]). apply holds_store. apply utf8_bytes. exact Ht. }
    set (s3 := Target m3 _ _).
    pose proof (t_read_ok (b + blen v + dpo) (encode 8 b) s3 (proj2 Hp)) as R1. rewrite encode_length in R1. change (Z.of_nat 8) with 8 in R1. rewrite R1.
    pose proof (t_read_ok (b + blen v + lo) (encode 8 (blen v)) s3 (proj2 Hl)) as R2. rewrite encode_length in R2. change (Z.of_nat 8) with 8 in R2. rewrite R2.
    unfold le_unwrap. rewrite !encode_length. change (Z.of_nat 8 =? 8) with true.
    rewrite !le_encode by (change (256 ^ Z.of_nat 8) with two64; unfold two64 in *; lia). rewrite !Z.eqb_refl. cbn [negb].
    replace (1048576 <? blen v) with false by lia.
    pose proof (t_read_ok b (utf8 v) s3 Hc) as R3. fold (blen v) in R3. rewrite R3.
    rewrite utf8_roundtrip by exact Ht. unfold str_eqb. destruct (str_eq_dec v v); [|congruence]. reflexivity.
  Qed.
End Str.

Theorem created_str_reads_back_partial : forall pick v dpo lo p s b,
  sound_allocator pick -> text v -> blen v <= mib -> str_fields dpo lo -> pick (t_blocks s) (blen v + 16) = Ok b ->
  exists s', create_typed_value pick v (TD (LStrSlice dpo lo) p) s = (Ok (b + blen v), s') /\
    (forall E fuel, serves E (t_mem s') -> lossy E = utf8_lossy ->
       read E (S fuel) (b + blen v) (TD (LStrSlice dpo lo) p) = Ok (VScalar (st "str") (quoted v))) /\
    t_blocks s' = (b, blen v + 16) :: t_blocks s /\
    (forall x, ~ within x b (blen v + 16) -> t_mem s' x = t_mem s x) /\
    exists ws, t_writes s' = ws ++ t_writes s /\ writes_inside ws [(b, blen v + 16)].
Proof.
  intros pick v dpo lo p s b HA Ht Hm HF P. destruct (HA _ _ _ P) as (A1 & A2 & _). pose proof (blen_nonneg v) as Hn.
  assert (F : 0 <= dpo <= 8 /\ 0 <= lo <= 8 /\ 8 <= Z.abs (dpo - lo)) by (unfold str_fields in HF; lia).
  eexists. split; [unfold create_typed_value; cbn [layOf]; apply str_run; try assumption; lia|]. cbn [t_mem t_blocks t_writes].
  set (m1 := store (t_mem s) b (utf8 v)). set (m2 := store m1 (b + blen v + dpo) (encode 8 b)). set (m3 := store m2 (b + blen v + lo) (encode 8 (blen v))).
  assert (Hl : holds_uint m3 (b + blen v + lo) 8 (blen v)) by (apply uint_store; unfold mib, two64 in *; lia).
  assert (Hp : holds_uint m3 (b + blen v + dpo) 8 b).
  { unfold m3. apply uint_frame; [|rewrite encode_length; apply apart_le; lia]. apply uint_store. lia. }
  assert (Hc : holds m3 b (utf8 v)).
  { unfold m3, m2. repeat (apply holds_frame; [|rewrite encode_length; fold (blen v); apply apart_le; lia]). apply holds_store. apply utf8_bytes. exact Ht. }
  split. { intros E fuel HS HL. apply (str_read_exactly E m3 HS HL fuel (b + blen v) dpo lo p b v Ht); [lia | lia | exact Hl | exact Hp | exact Hc]. }
  split; [reflexivity|]. split.
  { intros x X. unfold m3, m2, m1. repeat (rewrite store_out; [|rewrite ?encode_length; fold (blen v); unfold within in *; lia]). reflexivity. }
  exists [(b + blen v + lo, encode 8 (blen v)); (b + blen v + dpo, encode 8 b); (b, utf8 v)].
  split; [reflexivity|]. intros a bs Hi. exists b, (blen v + 16). split; [left; reflexivity|].
  destruct Hi as [Hi | [Hi | [Hi | []]]]; injection Hi as <- <-; rewrite ?encode_length; fold (blen v); lia.
Qed.
Print Assumptions created_str_reads_back_partial.

(** An allocator that always continues after the newest block. *)
Definition bump (blocks : list (Z * Z)) (n : Z) : res Z :=
  let a := fold_right (fun bk acc => Z.max (fst bk + Z.max 0 (snd bk)) acc) 4096 blocks in
  if (0 <=? n) && (a + n <? two64) then Ok a else Err "out of memory".
Lemma bump_sound : sound_allocator bump.
Proof.
  intros blocks n a H. unfold bump in H.
  set (t := fold_right (fun bk acc => Z.max (fst bk + Z.max 0 (snd bk)) acc) 4096 blocks) in *.
  destruct ((0 <=? n) && (t + n <? two64)) eqn:Q; [|discriminate]. injection H as <-.
  assert (G : 4096 <= t /\ forall b k, In (b, k) blocks -> b + Z.max 0 k <= t).
  { subst t. clear Q. induction blocks as [|[b k] l [I1 I2]]; cbn [fold_right fst snd]; [split; [lia | intros ? ? []]|].
    split; [lia|]. intros b' k' [E | E]; [injection E as <- <-; lia | specialize (I2 _ _ E); lia]. }
  destruct G as [G1 G2]. split; [lia|]. split; [lia|]. intros b k Hb. specialize (G2 _ _ Hb). apply apart_le. lia.
Qed.

(** The code accepts a length field at offset 16 and then writes past the block it allocated. *)
Theorem created_str_stays_inside_refuted : exists v dpo lo s,
  sound_allocator bump /\ text v /\ blen v <= mib /\ t_blocks s = [] /\
  exists a s' ws, create_typed_value bump v (TD (LStrSlice dpo lo) None) s = (Ok a, s') /\
    t_writes s' = ws ++ t_writes s /\ ~ writes_inside ws (t_blocks s').
Proof.
  exists (st "hi"), 0, 16, (Target (fun _ => None) [] []).
  split; [exact bump_sound|]. split; [unfold text, scalar; repeat constructor; vm_compute; intuition discriminate|].
  split; [vm_compute; discriminate|]. split; [reflexivity|].
  assert (H2 : blen (st "hi") = 2) by reflexivity.
  eexists _, _, _. split; [unfold create_typed_value; cbn [layOf]; apply str_run with (b := 4096); rewrite ?H2;
    [vm_compute; reflexivity | unfold text, scalar; repeat constructor; vm_compute; intuition discriminate | unfold mib, two64; lia ..]|].
  cbn [t_writes]. split; [symmetry; apply app_nil_r|].
  cbn [t_blocks]. rewrite H2. intros W. destruct (W _ _ (or_introl eq_refl)) as (b & k & [Q | []] & Q1 & Q2).
  injection Q as <- <-. rewrite encode_length in Q2. lia.
Qed.
Print Assumptions created_str_stays_inside_refuted.
(** A text of more than one MiB is refused, but only after it was allocated and written. *)
Theorem created_large_str_refuted : forall pick v dpo lo p s b,
  sound_allocator pick -> text v -> mib < blen v -> str_fields dpo lo -> pick (t_blocks s) (blen v + 16) = Ok b ->
  exists e s', create_typed_value pick v (TD (LStrSlice dpo lo) p) s = (Err e, s') /\ holds (t_mem s') b (utf8 v).
Proof.
  intros pick v dpo lo p s b HA Ht Hm HF P. destruct (HA _ _ _ P) as (H1 & H2 & _). pose proof (blen_nonneg v) as Hn.
  assert (F : 0 <= dpo <= 8 /\ 0 <= lo <= 8 /\ 8 <= Z.abs (dpo - lo)) by (unfold str_fields in HF; lia).
  unfold create_typed_value. cbn [layOf]. unfold create_str_slice, tbind, t_alloc, t_write, tlift, tret, tfail.
  fold (blen v). replace ((16 <? dpo) || (16 <? lo)) with false by lia. rewrite P. cbn [t_blocks t_mem t_writes].
  unfold mib in Hm.
  rewrite (add64_ok b (blen v)) by lia. cbn [t_blocks t_mem t_writes].
  rewrite (add64_ok (b + blen v) dpo) by lia. cbn [t_blocks t_mem t_writes].
  rewrite (add64_ok (b + blen v) lo) by lia. cbn [t_blocks t_mem t_writes].
  set (m3 := store _ (b + blen v + lo) _).
  assert (Hl : holds_uint m3 (b + blen v + lo) 8 (blen v)) by (apply uint_store; lia).
  assert (Hp : holds_uint m3 (b + blen v + dpo) 8 b).
  { unfold m3. apply uint_frame; [|rewrite encode_length; apply apart_le; lia]. apply uint_store. lia. }
  assert (Hc : holds m3 b (utf8 v)).
  { unfold m3. repeat (apply holds_frame; [|rewrite encode_length; fold (blen v); apply apart_le; lia]). apply holds_store. apply utf8_bytes. exact Ht. }
  set (s3 := Target m3 _ _).
  pose proof (t_read_ok (b + blen v + dpo) (encode 8 b) s3 (proj2 Hp)) as R1. rewrite encode_length in R1. change (Z.of_nat 8) with 8 in R1. rewrite R1.
  pose proof (t_read_ok (b + blen v + lo) (encode 8 (blen v)) s3 (proj2 Hl)) as R2. rewrite encode_length in R2. change (Z.of_nat 8) with 8 in R2. rewrite R2.
  unfold le_unwrap. rewrite !encode_length. change (Z.of_nat 8 =? 8) with true.
  rewrite !le_encode by (change (256 ^ Z.of_nat 8) with two64; lia). rewrite !Z.eqb_refl. cbn [negb].
  replace (1048576 <? blen v) with true by lia.
  eexists _, s3. split; [reflexivity | exact Hc].
Qed.
Print Assumptions created_large_str_refuted.

(** Only String and &str parameters accept a text. *)
Theorem only_text_parameters : forall pick v t s a s', create_typed_value pick v t s = (Ok a, s') ->
  (exists dpo lo, layOf t = LStrSlice dpo lo) \/ (exists lo dpo co it, layOf t = LString lo dpo co it).
Proof.
  intros pick v t s a s' H. unfold create_typed_value in H. destruct (layOf t); try (cbn in H; discriminate); [left | right]; eauto.
Qed.
Print Assumptions only_text_parameters.

Example create_example :
  string_fields 16 8 0 /\ text (st "hi") /\ bump [] (blen (st "hi")) = Ok 4096 /\ bump [(4096, blen (st "hi"))] 24 = Ok 4098 /\
  fst (create_typed_value bump (st "hi") (TD (LString 16 8 0 (TD (LUInt 1) None)) None) (Target (fun _ => None) [] [])) = Ok 4098 /\
  bump [] (blen (st "hi") + 16) = Ok 4096 /\
  fst (create_typed_value bump (st "hi") (TD (LStrSlice 0 8) None) (Target (fun _ => None) [] [])) = Ok 4098.
Proof.
  sp; try (vm_compute; reflexivity); try (unfold string_fields; lia);
    unfold text, scalar; repeat constructor; vm_compute; intuition discriminate.
Qed.
