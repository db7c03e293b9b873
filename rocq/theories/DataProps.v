(** C17-C24, C30 (struct values): reading values out of memory. *)
From Coq Require Import Ascii String List ZArith NArith Bool Lia.
From Coq Require Import ZifyBool ZifyNat.
From Verif Require Import Base NumText OMap TypesModel TypesSpec TypesProofs ValueModel DataModel DataSpec DataProofs DataProofs2 MemExample.
Import ListNotations.
Open Scope Z_scope.

Definition u8t := TD (LUInt 1) None.
Definition u16t := TD (LUInt 2) None.
Definition u64t := TD (LUInt 8) None.

(** C17. Whatever integer is stored, in the byte widths of Rust, is what is read. *)
Theorem unsigned_integers_read_exactly : forall E m, serves E m ->
  forall fuel a n v p, In n [1; 2; 4; 8; 16] -> holds_uint m a n v ->
  read E (S fuel) a (TD (LUInt n) p) = Ok (VScalar (st "u" ++ dec (8 * n)) (dec v)).
Proof. exact read_uint_exact. Qed.
Print Assumptions unsigned_integers_read_exactly.
Theorem signed_integers_read_exactly : forall E m, serves E m ->
  forall fuel a n v p, In n [1; 2; 4; 8; 16] -> holds_int m a n v ->
  read E (S fuel) a (TD (LInt n) p) = Ok (VScalar (st "i" ++ dec (8 * n)) (dec v)).
Proof. exact read_int_exact. Qed.
Print Assumptions signed_integers_read_exactly.
(** Every byte sequence is the encoding of an integer, so the theorems above cover every memory content. *)
Theorem all_bytes_are_integers : forall m a bs, bs <> [] -> holds m a bs ->
  let n := Z.of_nat (List.length bs) in
  (exists v, holds_uint m a n v) /\ (exists v, holds_int m a n v).
Proof.
  intros m a bs Hne H n. split; eexists; [apply bytes_are_uint; exact H | apply bytes_are_int; assumption].
Qed.
Print Assumptions all_bytes_are_integers.
Theorem other_integer_widths_rejected : forall E m, serves E m ->
  forall fuel a n p, 0 <= n -> ~ In n [1; 2; 4; 8; 16] ->
  (forall bs, holds m a bs -> Z.of_nat (List.length bs) = n ->
     is_err (read E (S fuel) a (TD (LInt n) p)) = true /\ is_err (read E (S fuel) a (TD (LUInt n) p)) = true) /\
  (forall v, read E (S fuel) a (TD (LInt n) p) <> Ok v /\ read E (S fuel) a (TD (LUInt n) p) <> Ok v).
Proof.
  intros E m HS fuel a n p Hn H. split.
  - intros bs Hb <-. assert (M : mem_z (Z.of_nat (List.length bs)) int_sizes = false).
    { destruct (mem_z _ _) eqn:Q; [|reflexivity]. exfalso. apply H. unfold mem_z in Q. apply existsb_exists in Q.
      destruct Q as [x [Hx Q]]. apply Z.eqb_eq in Q. rewrite Q. exact Hx. }
    cbn [read layOf read_primitive]. rewrite (HS a bs Hb). cbn [bind]. rewrite M. split; reflexivity.
  - intros v. destruct (read_int_bad_size E (S fuel) a n p H) as [H1 H2]. split; [apply H1 | apply H2].
Qed.
Print Assumptions other_integer_widths_rejected.
Example integers_example :
  let m := mem_of [(4096, [254; 255; 255; 255])] in
  holds_int m 4096 4 (-2) /\ holds_uint m 4096 4 4294967294 /\
  read (mem_env m) 1 4096 (TD (LInt 4) None) = Ok (VScalar (st "i32") (st "-2")) /\
  read (mem_env m) 1 4096 (TD (LUInt 4) None) = Ok (VScalar (st "u32") (st "4294967294")).
Proof. cbv zeta. sp; [mem|mem|reflexivity|reflexivity]. Qed.

(** C18. The i-th of exactly n pointers is at base + i * size. *)
Theorem array_elements_located : forall E fuel a et n p t es,
  0 <= n -> element_type E et t -> tsize t = Ok (Some es) -> 0 <= es -> 0 <= a -> a + n * es < two64 ->
  read E (S fuel) a (TD (LArray et n) p) =
  Ok (VArray (st "[" ++ tname t ++ st "; " ++ dec n ++ st "]") (sequence_at a es (Z.to_nat n) t)).
Proof. exact read_array. Qed.
Print Assumptions array_elements_located.
Theorem vec_elements_located : forall E m, serves E m ->
  forall fuel a lo dpo co et p t es ptr len,
  element_type E et t -> tsize t = Ok (Some es) -> 0 <= es ->
  0 <= a + lo < two64 -> 0 <= a + dpo < two64 ->
  holds_uint m (a + lo) 8 len -> holds_uint m (a + dpo) 8 ptr -> ptr + len * es < two64 ->
  read E (S fuel) a (TD (LVec lo dpo co et) p) =
  Ok (VArray (st "Vec<" ++ tname t ++ st ">") (sequence_at ptr es (Z.to_nat len) t)).
Proof. exact read_vec. Qed.
Print Assumptions vec_elements_located.
Theorem slice_elements_located : forall E m, serves E m ->
  forall fuel a dpo lo et p t es ptr len,
  element_type E et t -> tsize t = Ok (Some es) -> 0 <= es ->
  0 <= a + lo < two64 -> 0 <= a + dpo < two64 ->
  holds_uint m (a + lo) 8 len -> holds_uint m (a + dpo) 8 ptr -> ptr + len * es < two64 ->
  read E (S fuel) a (TD (LSlice et dpo lo) p) =
  Ok (VArray (st "&[" ++ tname t ++ st "]") (sequence_at ptr es (Z.to_nat len) t)).
Proof. exact read_slice. Qed.
Print Assumptions slice_elements_located.
Theorem sequence_positions : forall base es n t,
  List.length (sequence_at base es n t) = n /\
  forall i, (i < n)%nat -> nth_error (sequence_at base es n t) i = Some (VPtr (base + Z.of_nat i * es) t).
Proof.
  intros base es n t. unfold sequence_at. split; [rewrite map_length, seq_length; reflexivity|].
  intros i Hi. rewrite nth_error_map. rewrite (nth_error_nth' _ 0%nat) by (rewrite seq_length; exact Hi).
  rewrite seq_nth by exact Hi. reflexivity.
Qed.
Print Assumptions sequence_positions.
Definition vec_mem := mem_of [(4096, encode 8 3 ++ encode 8 8192 ++ encode 8 3)].
Example vec_example :
  (read (mem_env vec_mem) 1 4096 (TD (LVec 16 8 0 u16t) None)
   = Ok (VArray (st "Vec<u16>") [VPtr 8192 u16t; VPtr 8194 u16t; VPtr 8196 u16t]))
  /\ holds_uint vec_mem (4096 + 16) 8 3 /\ holds_uint vec_mem (4096 + 8) 8 8192.
Proof. sp; [reflexivity|mem|mem]. Qed.

(** C19. *)
Theorem hash_map_entries_exact : forall E m, serves E m ->
  forall fuel a mo co io psz ko vo items cp ctrl k v p,
  hash_stored m a mo co io psz ko vo items cp ctrl -> items = Z.of_nat (List.length (occupied ctrl)) ->
  exists ty, read E (S fuel) a (TD (LMap k v (HashMap mo co io psz ko vo)) p) =
    Ok (VMap ty (map (fun i => (VPtr (fst (bucket cp psz ko vo i)) k, VPtr (snd (bucket cp psz ko vo i)) v)) (occupied ctrl))).
Proof.
  intros E m HS fuel a mo co io psz ko vo items cp ctrl k v p H Hi.
  pose proof (read_hash_general E m HS a mo co io psz ko vo items cp ctrl k v H ltac:(lia)) as R.
  eexists. rewrite (read_map_value E fuel a k v _ p _ R). do 2 f_equal.
  rewrite firstn_all2 by (rewrite map_length; lia). rewrite map_map. reflexivity.
Qed.
Print Assumptions hash_map_entries_exact.
(** If the count is smaller, a prefix of the occupied buckets. *)
Theorem hash_map_entries_by_count : forall E m, serves E m ->
  forall a mo co io psz ko vo items cp ctrl k v,
  hash_stored m a mo co io psz ko vo items cp ctrl -> items <= Z.of_nat (List.length (occupied ctrl)) ->
  read_map_entries E a k v (HashMap mo co io psz ko vo) =
  Ok (firstn (Z.to_nat items) (map (bucket cp psz ko vo) (occupied ctrl))).
Proof. exact read_hash_general. Qed.
Print Assumptions hash_map_entries_by_count.
Theorem hash_map_buckets_distinct : forall ctrl cp psz ko vo, psz <> 0 ->
  (forall i, In i (occupied ctrl) <-> exists c, nth_error ctrl i = Some c /\ c < 128) /\
  NoDup (occupied ctrl) /\ NoDup (map (bucket cp psz ko vo) (occupied ctrl)).
Proof.
  intros ctrl cp psz ko vo Hp.
  assert (N : NoDup (occupied ctrl)) by (apply NoDup_filter, seq_NoDup).
  split; [|split; [exact N|]].
  - intros i. unfold occupied. rewrite filter_In, in_seq. split.
    + intros [_ H]. destruct (nth_error ctrl i) as [c|]; [|discriminate]. exists c. split; [reflexivity|lia].
    + intros [c [H1 H2]]. rewrite H1. split; [|lia]. assert (i < List.length ctrl)%nat by (apply nth_error_Some; congruence). lia.
  - apply FinFun.Injective_map_NoDup; [|exact N]. intros i j Hij. unfold bucket in Hij. injection Hij as Hij _.
    assert (Z.of_nat i = Z.of_nat j) by nia. lia.
Qed.
Print Assumptions hash_map_buckets_distinct.
Definition hash_mem := mem_of [(4096, encode 8 8192 ++ encode 8 3 ++ encode 8 0 ++ encode 8 2); (8192, [255; 17; 128; 99])].
Example hash_map_example :
  hash_stored hash_mem 4096 8 0 24 16 0 8 2 8192 [255; 17; 128; 99] /\ occupied [255; 17; 128; 99] = [1; 3]%nat /\
  (exists ty, read (mem_env hash_mem) 1 4096 (TD (LMap u64t u64t (HashMap 8 0 24 16 0 8)) None) =
     Ok (VMap ty [(VPtr 8160 u64t, VPtr 8168 u64t); (VPtr 8128 u64t, VPtr 8136 u64t)])).
Proof.
  split; [|split].
  - constructor; try (unfold two64; simpl List.length; lia); mem.
  - reflexivity.
  - eexists. vm_compute. reflexivity.
Qed.

(** C20. *)
Lemma keys_all nl ks vs m h : forall t, bt_stored m nl ks vs h t -> forall k, key_in nl ks t k -> In k (map fst (inorder nl ks vs t)).
Proof.
  induction h as [|h IH]; intros t Ht k Hk.
  - inversion Ht as [p n Hlen Hfit Eh Et|]; subst. inversion Hk as [p' n' cs' i Hi E1 E2|p' n' cs' c k' Hc Hkc E1 E2]; subst; [|destruct Hc].
    cbn [inorder map]. rewrite map_map. apply in_map_iff. exists i. split; [reflexivity|]. apply in_seq. lia.
  - inversion Ht as [|h0 p n cs Hlen Hfit Hcs Hkids Eh Et]; subst.
    destruct cs as [|c0 cs]; [discriminate Hcs|]. cbn [inorder map]. rewrite map_app. apply in_app_iff.
    assert (X : forall i, (i < n)%nat -> exists c, nth_error cs i = Some c).
    { intros i Hi. destruct (nth_error cs i) eqn:Q; [eauto|]. apply nth_error_None in Q. simpl in Hcs. lia. }
    assert (Y : forall i c x, nth_error cs i = Some c -> (x = bt_key nl ks p i \/ In x (map fst (inorder nl ks vs c))) ->
       In x (map fst (flat_map (fun ic => bt_pair nl ks vs p (fst ic) :: snd ic) (combine (seq 0 n) (map (inorder nl ks vs) cs))))).
    { intros i c x Hi Hx.
      assert (Hl : (i < n)%nat). { assert (i < List.length cs)%nat by (apply nth_error_Some; congruence). simpl in Hcs. lia. }
      assert (Hin : In (i, inorder nl ks vs c) (combine (seq 0 n) (map (inorder nl ks vs) cs))).
      { assert (L : forall (A B : Type) (l : list A) (r : list B) j a b, nth_error l j = Some a -> nth_error r j = Some b -> In (a, b) (combine l r)).
        { clear. intros A B. induction l as [|x l IHl]; intros [|y r] [|j] a b Ha Hb; simpl in *; try discriminate.
          - injection Ha as <-. injection Hb as <-. left. reflexivity.
          - right. eapply IHl; eassumption. }
        apply (L _ _ _ _ i).
        - rewrite (nth_error_nth' _ 0%nat) by (rewrite seq_length; exact Hl). rewrite seq_nth by exact Hl. reflexivity.
        - rewrite nth_error_map, Hi. reflexivity. }
      destruct Hx as [->|Hx].
      - apply in_map_iff. exists (bt_pair nl ks vs p i). split; [reflexivity|]. apply in_flat_map. exists (i, inorder nl ks vs c).
        split; [exact Hin | left; reflexivity].
      - apply in_map_iff in Hx. destruct Hx as [kv [<- Hx]]. apply in_map. apply in_flat_map. exists (i, inorder nl ks vs c).
        split; [exact Hin | right; exact Hx]. }
    inversion Hk as [p' n' cs' i Hi E1 E2|p' n' cs' c k' Hc Hkc E1 E2]; subst.
    + right. destruct (X i Hi) as [c Hci]. apply (Y i c); auto.
    + destruct Hc as [<-|Hc].
      * left. apply IH; [|exact Hkc]. apply (Hkids 0%nat). reflexivity.
      * right. destruct (In_nth_error _ _ Hc) as [i Hi]. apply (Y i c); [exact Hi|]. right. apply IH; [|exact Hkc]. apply (Hkids (S i)). exact Hi.
Qed.

(** Missing from the full claim: keys or values of size zero, see the refutation below. *)
Theorem btree_map_in_order_partial : forall E m, serves E m ->
  forall fuel a key val lo ro no ho nl ks vs len d h t p,
  tsize key = Ok (Some ks) -> tsize val = Ok (Some vs) -> 0 < ks -> 0 < vs ->
  0 <= a + lo < two64 -> 0 <= a + ro < two64 -> 0 <= a + ro + no < two64 -> 0 <= a + ro + ho < two64 ->
  holds_uint m (a + lo) 8 len -> len <> 0 ->
  holds_uint m (a + ro) 8 d -> d <> 0 ->
  holds_uint m (a + ro + no) 8 (bt_ptr t) -> holds_uint m (a + ro + ho) 8 (Z.of_nat h) ->
  bt_stored m nl ks vs h t ->
  exists ty, read E (S fuel) a (TD (LMap key val (BTreeMap lo ro no ho nl)) p) =
    Ok (VMap ty (map (fun e => (VPtr (fst e) key, VPtr (snd e) val)) (inorder nl ks vs t))) /\
  (* each stored key occurs, and nothing else *)
  (forall k, In k (map fst (inorder nl ks vs t)) <-> key_in nl ks t k) /\
  (* and they are in the order of a search tree, each once *)
  (forall lt : Z -> Z -> Prop, (forall a b c, lt a b -> lt b c -> lt a c) -> search_tree nl ks lt t ->
     strictly_ascending lt (map fst (inorder nl ks vs t))).
Proof.
  intros E m HS fuel a key val lo ro no ho nl ks vs len d h t p H1 H2 H3 H4 H5 H6 H7 H8 H9 H10 H11 H12 H13 H14 H15.
  pose proof (read_btreemap E m HS a key val lo ro no ho nl ks vs len d h t H1 H2 H3 H4 H5 H6 H7 H8 H9 H10 H11 H12 H13 H14 H15) as R.
  eexists. split; [apply (read_map_value E fuel a key val _ p _ R)|]. split.
  - intros k. split; [apply (keys_in m nl ks vs (fun _ _ => True) (fun _ _ _ _ _ => I) h t H15) | apply (keys_all nl ks vs m h t H15)].
  - intros lt T S. exact (inorder_asc m nl ks vs lt T h t H15 S).
Qed.
Print Assumptions btree_map_in_order_partial.
Theorem empty_btree_map : forall E m, serves E m ->
  forall fuel a key val lo ro no ho nl p, 0 <= a + lo < two64 -> holds_uint m (a + lo) 8 0 ->
  exists ty, read E (S fuel) a (TD (LMap key val (BTreeMap lo ro no ho nl)) p) = Ok (VMap ty []).
Proof.
  intros. eexists. rewrite (read_map_value E fuel a key val _ p [] ltac:(eapply read_empty_map; eassumption)). reflexivity.
Qed.
Print Assumptions empty_btree_map.
Definition bnl : bnode := {| keys_off := 8; vals_off := 16; len_off := 24; edges_off := 32 |}.
(** root at 8192 with 1 pair and two leaf children. *)
Definition bt_mem := mem_of [(4096, encode 8 8192 ++ encode 8 1 ++ encode 8 3);
  (8216, encode 2 1); (8224, encode 8 12288 ++ encode 8 16384); (12312, encode 2 2); (16408, encode 2 0)].
Definition bt_ex := BNode 8192 1 [BNode 12288 2 []; BNode 16384 0 []].
(** order of the keys stored at these addresses *)
Definition rank (a : Z) : Z := if a =? 8200 then 100 else a - 12288.
Example btree_map_example :
  bt_stored bt_mem bnl 1 2 1 bt_ex /\
  (exists ty, read (mem_env bt_mem) 1 4096 (TD (LMap u8t u16t (BTreeMap 16 0 0 8 bnl)) None) =
    Ok (VMap ty [(VPtr 12296 u8t, VPtr 12304 u16t); (VPtr 12297 u8t, VPtr 12306 u16t); (VPtr 8200 u8t, VPtr 8208 u16t)])) /\
  search_tree bnl 1 (fun a b => rank a < rank b) bt_ex.
Proof.
  assert (F : forall p n b, In p [8192; 12288; 16384] -> (n <= 2)%nat -> bt_fits bt_mem bnl 1 2 p n b).
  { intros p n b Hp Hn. simpl in Hp. constructor; unfold two64, bnl; cbn [keys_off vals_off len_off edges_off]; try lia; intros _; lia. }
  split; [|split].
  - unfold bt_ex. constructor; [mem|apply F; simpl; auto|reflexivity|].
    intros i c Hi. destruct i as [|[|[|i]]]; simpl in Hi; try discriminate; injection Hi as <-.
    + split; [discriminate|]. split; [mem|]. constructor; [mem | apply F; simpl; auto].
    + split; [discriminate|]. split; [mem|]. constructor; [mem | apply F; simpl; auto].
  - eexists. vm_compute. reflexivity.
  - unfold bt_ex. constructor.
    + intros c [<-|[<-|[]]].
      * constructor; [intros ? []| |intros [|i] c k H; discriminate].
        intros [|[|i]] [|[|j]] H; try lia. reflexivity.
      * constructor; [intros ? []| |intros [|i] c k H; discriminate]. intros; lia.
    + intros; lia.
    + intros i c k Hi Hk j Hj. assert (j = 0%nat) as -> by lia.
      destruct i as [|[|i]]; simpl in Hi; try (destruct i; discriminate); injection Hi as <-.
      * inversion Hk as [p' n' cs' i' Hi' E1 E2|p' n' cs' c k' Hc Hkc E1 E2]; subst; [|destruct Hc].
        cbn [Nat.ltb Nat.leb]. unfold bt_key, bnl. cbn [keys_off].
        destruct i' as [|[|i']]; [reflexivity|reflexivity|lia].
      * inversion Hk as [p' n' cs' i' Hi' E1 E2|p' n' cs' c k' Hc Hkc E1 E2]; subst; [lia|destruct Hc].
Qed.
(** A BTreeMap<u8, ()> (every BTreeSet) with two entries is shown empty. *)
Definition zst_mem := mem_of [(4096, encode 8 8192 ++ encode 8 0 ++ encode 8 2); (8216, encode 2 2)].
Theorem btree_map_in_order_refuted : exists m a lo ro no ho nl t,
  holds_uint m (a + lo) 8 2 /\ holds_uint m (a + ro + no) 8 (bt_ptr t) /\ holds_uint m (a + ro + ho) 8 0 /\
  bt_stored m nl 1 0 0 t /\ inorder nl 1 0 t = [(8200, 8208); (8201, 8208)] /\
  exists ty, read (mem_env m) 1 a (TD (LMap u8t (TD LUnit None) (BTreeMap lo ro no ho nl)) None) = Ok (VMap ty []).
Proof.
  exists zst_mem, 4096, 16, 0, 0, 8, bnl, (BNode 8192 2 []).
  split; [mem|]. split; [mem|]. split; [mem|]. split.
  - constructor; [mem|]. constructor; unfold two64, bnl; cbn [keys_off vals_off len_off edges_off]; try lia; intros _; lia.
  - split; [reflexivity|]. eexists. vm_compute. reflexivity.
Qed.
Print Assumptions btree_map_in_order_refuted.

(** C21. *)
Theorem enum_variant_selected : forall E m, serves E m ->
  forall fuel a name d vs s p v,
  0 <= a + d_off d < two64 -> holds_disc m (a + d_off d) (d_ty d) v ->
  (forall w, active vs v w ->
     read E (S fuel) a (TD (LEnum name d vs s) p) = rmap (variant_value name (v_name w)) (read E fuel a (v_type w))) /\
  ((forall w, ~ active vs v w) -> exists e, read E (S fuel) a (TD (LEnum name d vs s) p) = Err e).
Proof. exact read_enum_explicit. Qed.
Print Assumptions enum_variant_selected.
(** What is shown for the payload of variant [vn]: a unit variant shows its name, others keep the payload. *)
Theorem enum_variant_shown : forall name vn inner,
  match variant_value name vn inner with
  | VScalar ty x => (ty = name ++ st "::" ++ vn /\ x = vn) \/ inner = VScalar ty x
  | VTuple ty xs => (ty = name ++ st "::" ++ vn /\ exists t fs, inner = VStruct t fs /\ xs = map snd fs) \/ inner = VTuple ty xs
  | VStruct ty fs => ty = name ++ st "::" ++ vn /\ exists t, inner = VStruct t fs
  | other => inner = other
  end.
Proof.
  intros name vn inner. destruct inner as [t x|t l|t l|t l|t l|x t]; unfold variant_value; auto.
  destruct l as [|f l]; [auto|]. destruct (forallb _ (f :: l)); [|eauto].
  left. split; [reflexivity|]. exists t, (f :: l). auto.
Qed.
Print Assumptions enum_variant_shown.
(** An enum whose discriminant type is not an integer: the variant with that index. *)
Theorem implicit_variant_selected_partial : forall E m, serves E m ->
  forall fuel a name off vs s p i w,
  off = 0 -> 0 <= a < two64 -> holds_int m (a + off) 4 i -> nth_error vs (Z.to_nat i) = Some w -> 0 <= i ->
  read E (S fuel) a (TD (LEnum name (Disc DImplicit off) vs s) p) = rmap (variant_value name (v_name w)) (read E fuel a (v_type w)).
Proof.
  intros E m HS fuel a name off vs s p i w -> Ha H Hw Hi. cbn [read layOf]. unfold read_enum, read_disc. cbn [d_off d_ty].
  rewrite !add64_ok by lia. cbn [bind]. rewrite add64_ok by lia. cbn [bind].
  destruct H as [Hr H]. rewrite Z.add_0_r in *. rewrite Z.add_0_r.
  pose proof (HS _ _ H) as R. rewrite encode_length in R. change (Z.of_nat (Z.to_nat 4)) with 4 in R. rewrite R. cbn [bind].
  unfold le_unwrap. rewrite encode_length. change (Z.of_nat (Z.to_nat 4) =? 4) with true. cbn [bind].
  assert (Ev : signed 4 (le (encode (Z.to_nat 4) (i mod 2 ^ (8 * 4)))) = i).
  { rewrite Z.mod_small by (change (2 ^ (8 * 4)) with 4294967296; change (2 ^ (8 * 4 - 1)) with 2147483648 in Hr; lia).
    change (2 ^ (8 * 4 - 1)) with 2147483648 in Hr.
    rewrite le_encode by (change (256 ^ Z.of_nat (Z.to_nat 4)) with 4294967296; lia). unfold signed.
    change (2 ^ (8 * 4 - 1)) with 2147483648. destruct (i <? 2147483648) eqn:Q; lia. }
  rewrite Ev. pose proof (select_implicit i vs) as S. destruct (select_variant false i vs) as [w'|e|e|]; try contradiction.
  - destruct S as [_ S]. cbn [bind]. pose proof (eq_trans (eq_sym Hw) S) as S'. injection S' as <-. reflexivity.
  - exfalso. assert (L : (Z.to_nat i < List.length vs)%nat) by (apply nth_error_Some; congruence).
    destruct S as [S|S]; [lia|]. apply Z.le_ngt in S. apply S. apply Nat2Z.inj_lt in L. rewrite Z2Nat.id in L by lia. exact L.
Qed.
Print Assumptions implicit_variant_selected_partial.
(** At a non-zero offset the wrong bytes are consulted (the offset is added twice). *)
Definition unit_variant (n : string) : variant := (st n, None, TD (LStruct (st n) 0 1 []) None).
Definition impl_mem := mem_of [(4096, encode 8 0 ++ encode 8 0 ++ encode 8 1)].
Theorem implicit_variant_selected_refuted : exists m a off vs i w w' ty,
  holds_int m (a + off) 4 i /\ nth_error vs (Z.to_nat i) = Some w /\ v_name w <> v_name w' /\
  read (mem_env m) 2 a (TD (LEnum (st "E") (Disc DImplicit off) vs 24) None) = Ok (VScalar ty (v_name w')).
Proof.
  exists impl_mem, 4096, 8, [unit_variant "A"; unit_variant "B"], 0, (unit_variant "A"), (unit_variant "B").
  eexists. split; [mem|]. split; [reflexivity|]. split; [discriminate|]. vm_compute. reflexivity.
Qed.
Print Assumptions implicit_variant_selected_refuted.
Definition ex_variants : list variant :=
  [(st "A", Some 0, TD (LStruct (st "A") 16 8 []) None);
   (st "B", Some (-3), TD (LStruct (st "B") 16 8 [(st "x", 8, u64t)]) None);
   (st "C", None, TD (LStruct (st "C") 16 8 [(st "__0", 8, u64t); (st "__1", 4, u16t)]) None)].
Definition enum_mem (v : Z) := mem_of [(4096, encode 4 v)].
Example enum_example :
  let rdv v := read (mem_env (enum_mem v)) 2 4096 (TD (LEnum (st "E") (Disc (DInt 4) 0) ex_variants 16) None) in
  holds_disc (enum_mem 4294967293) 4096 (DInt 4) (-3) /\ active ex_variants (-3) (nth 1 ex_variants (unit_variant "")) /\
  rdv 0 = Ok (VScalar (st "E::A") (st "A")) /\
  rdv 4294967293 = Ok (VStruct (st "E::B") [(st "x", VPtr 4104 u64t)]) /\
  rdv 7 = Ok (VTuple (st "E::C") [VPtr 4104 u64t; VPtr 4100 u16t]).
Proof.
  cbv zeta. split; [split; [simpl; auto | mem]|]. split.
  - left. exists [nth 0 ex_variants (unit_variant "")], [nth 2 ex_variants (unit_variant "")]. split; [reflexivity|]. split; [reflexivity|].
    intros x [<-|[]]. discriminate.
  - repeat split; vm_compute; reflexivity.
Qed.

(** C22. *)
Theorem c_enum_read_by_name : forall E m, serves E m ->
  forall fuel a name d vs s p v, holds_disc m a d v ->
  (forall w, is_first (fun x => snd x = v) vs w ->
     read E (S fuel) a (TD (LCEnum name d vs s) p) = Ok (VScalar (name ++ st "::" ++ fst w) (dec v))) /\
  ((forall w, In w vs -> snd w <> v) -> exists e, read E (S fuel) a (TD (LCEnum name d vs s) p) = Err e).
Proof. exact read_c_enum_ok. Qed.
Print Assumptions c_enum_read_by_name.
Example c_enum_example :
  read (mem_env (enum_mem 4294967295)) 1 4096 (TD (LCEnum (st "Sign") (DInt 4) [(st "Pos", 1); (st "Neg", -1)] 4) None)
  = Ok (VScalar (st "Sign::Neg") (st "-1")) /\ holds_disc (enum_mem 4294967295) 4096 (DInt 4) (-1).
Proof. split; [vm_compute; reflexivity|]. split; [simpl; auto | mem]. Qed.

(** C23. Missing: more than ten fields, where the claim is false. *)
Theorem tuple_variant_order_partial : forall E m, serves E m ->
  forall fuel a name d vs s p v w vn vsz al fs q,
  0 <= a + d_off d < two64 -> holds_disc m (a + d_off d) (d_ty d) v -> active vs v w ->
  v_type w = TD (LStruct vn vsz al fs) q ->
  map (fun f => fst (fst f)) fs = map tuple_name (seq 0 (List.length fs)) ->
  (1 <= List.length fs <= 10)%nat ->
  Forall (fun f => 0 <= a + snd (fst f) < two64) fs ->
  read E (S (S fuel)) a (TD (LEnum name d vs s) p) =
  Ok (VTuple (name ++ st "::" ++ v_name w) (map (fun f => VPtr (a + snd (fst f)) (snd f)) fs)).
Proof. exact read_tuple_variant. Qed.
Print Assumptions tuple_variant_order_partial.
Definition eleven : list (str * Z * tdef) := map (fun i => (tuple_name i, Z.of_nat i, u8t)) (seq 0 11).
Theorem tuple_variant_order_refuted : exists m a vs d v w fs q ty xs,
  holds_disc m (a + d_off d) (d_ty d) v /\ active vs v w /\ v_type w = TD (LStruct (st "V") 11 1 fs) q /\
  map (fun f => fst (fst f)) fs = map tuple_name (seq 0 (List.length fs)) /\
  read (mem_env m) 2 a (TD (LEnum (st "E") d vs 16) None) = Ok (VTuple ty xs) /\
  xs <> map (fun f => VPtr (a + snd (fst f)) (snd f)) fs.
Proof.
  exists (enum_mem 0), 4096, [(st "V", None, TD (LStruct (st "V") 11 1 eleven) None)], (Disc (DUInt 4) 0), 0,
    (st "V", None, TD (LStruct (st "V") 11 1 eleven) None), eleven, None.
  do 2 eexists. split; [split; [simpl; auto | mem]|]. split.
  { right. split; [intros x [<-|[]]; discriminate|]. exists [], []. split; [reflexivity|]. split; [reflexivity|]. intros ? []. }
  split; [reflexivity|]. split; [reflexivity|]. split; [vm_compute; reflexivity|]. vm_compute. discriminate.
Qed.
Print Assumptions tuple_variant_order_refuted.

(** C24. What the reader does: None exactly when the lowest byte of the discriminant is zero. *)
Theorem option_read_partial : forall E m, serves E m ->
  forall fuel a nm d so t s p v,
  0 <= a + d_off d < two64 -> 0 <= a + so < two64 -> holds_disc m (a + d_off d) (d_ty d) v ->
  (v mod 256 = 0 -> read E (S fuel) a (TD (LOption nm d so t s) p) = Ok (VScalar (st "Option<" ++ tname t ++ st ">") (st "None"))) /\
  (v mod 256 <> 0 -> read E (S fuel) a (TD (LOption nm d so t s) p) = rmap (wrap_type (st "Option")) (read E fuel (a + so) t)).
Proof.
  intros E m HS fuel a nm d so t s p v A1 A2 H. rewrite (read_option_ok E m HS fuel a nm d so t s p v A1 A2 H).
  split; intros Hv; destruct (v mod 256 =? 0) eqn:Q; try reflexivity; lia.
Qed.
Print Assumptions option_read_partial.
(** So for one-byte discriminants, None exactly when the discriminant is 0. *)
Theorem option_read_one_byte : forall E m, serves E m ->
  forall fuel a nm off so t s p v,
  0 <= a + off < two64 -> 0 <= a + so < two64 -> holds_uint m (a + off) 1 v ->
  let r := read E (S fuel) a (TD (LOption nm (Disc (DUInt 1) off) so t s) p) in
  (v = 0 -> r = Ok (VScalar (st "Option<" ++ tname t ++ st ">") (st "None"))) /\
  (v <> 0 -> r = rmap (wrap_type (st "Option")) (read E fuel (a + so) t)).
Proof.
  intros E m HS fuel a nm off so t s p v A1 A2 H r.
  assert (Hd : holds_disc m (a + d_off (Disc (DUInt 1) off)) (d_ty (Disc (DUInt 1) off)) v) by (split; [simpl; auto | exact H]).
  destruct (option_read_partial E m HS fuel a nm (Disc (DUInt 1) off) so t s p v A1 A2 Hd) as [R1 R2].
  destruct H as [Hr _]. change (2 ^ (8 * 1)) with 256 in Hr. split; intros Hv; [apply R1; subst; reflexivity | apply R2; rewrite Z.mod_small; lia].
Qed.
Print Assumptions option_read_one_byte.
(** Some(&x) with x at an address divisible by 256 (Option<&T> uses the pointer as discriminant, None is 0)
    is shown as None. *)
Definition opt_mem := mem_of [(8192, encode 8 4096); (4096, [7])].
Theorem option_read_refuted : exists m a v t,
  holds_disc m a (DUInt 8) v /\ v <> 0 /\ is_ok (read (mem_env m) 2 a t) = true /\
  read (mem_env m) 3 a (TD (LOption (st "Option") (Disc (DUInt 8) 0) 0 t 8) None)
  = Ok (VScalar (st "Option<" ++ tname t ++ st ">") (st "None")).
Proof.
  exists opt_mem, 8192, 4096, (TD (LReference false u8t) None).
  split; [split; [simpl; auto | mem]|]. split; [lia|]. split; vm_compute; reflexivity.
Qed.
Print Assumptions option_read_refuted.
Example option_example :
  let m := mem_of [(4096, [1; 9])] in
  holds_uint m 4096 1 1 /\
  read (mem_env m) 2 4096 (TD (LOption (st "Option") (Disc (DUInt 1) 0) 1 u8t 2) None) = Ok (VScalar (st "Option<u8>") (st "9")).
Proof. cbv zeta. split; [mem | vm_compute; reflexivity]. Qed.

(** Struct values: each field name designates (its last declaration at) base + offset. *)
Theorem struct_fields_located : forall E fuel a n s al fs p,
  Forall (fun f => 0 <= a + snd (fst f) < two64) fs ->
  exists m, read E (S fuel) a (TD (LStruct n s al fs) p) = Ok (VStruct n m) /\
  forall k, oget cmp_str k m = match last_field k fs with Some (o, t) => Some (VPtr (a + o) t) | None => None end.
Proof.
  intros E fuel a n s al fs p H. cbn [read layOf]. destruct (struct_fields_ok a fs [] H) as [m Hm].
  exists m. rewrite Hm. split; [reflexivity|]. intros k. exact (struct_fields_get a fs [] m k I Hm).
Qed.
Print Assumptions struct_fields_located.

(** The reader's recursion budget is not observable: a larger one never changes a result. *)
Theorem read_budget_irrelevant : forall E f g a t, (f <= g)%nat -> read E f a t <> Fuel -> read E g a t = read E f a t.
Proof.
  intros E f g a t H. induction H as [|g H IH]; intros N; [reflexivity|].
  rewrite (read_mono1 E g a t); rewrite IH by exact N; auto.
Qed.
Print Assumptions read_budget_irrelevant.
