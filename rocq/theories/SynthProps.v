(** C25, C26, C27, C58, and C24's agreement with is_some: synthetic methods. *)
From Coq Require Import Ascii String List ZArith NArith Bool Lia.
From Coq Require Import ZifyBool ZifyNat.
From Verif Require Import Base NumText OMap TypesModel TypesSpec TypesProofs ValueModel DataModel DataSpec DataProofs DataProofs2 MemExample SynthModel.
Import ListNotations.
Open Scope Z_scope.

(** ** specification vocabulary *)
(** A resolver that serves every request with as many bytes as asked for. *)
Definition readable (E : env) : Prop := forall a n, 0 <= n -> exists bs, rd E a n = Ok bs /\ Z.of_nat (List.length bs) = n.
(** Received data are bytes. *)
Definition byte_replies (E : env) : Prop := forall a n bs, rd E a n = Ok bs -> Forall byte bs.
Definition shows_bool (v : value) (b : bool) : Prop := v = VScalar (st "bool") (if b then st "true" else st "false").
Definition shows_usize (v : value) (n : Z) : Prop := v = VScalar (st "usize") (dec n).
(** The header words of the type lie in the address space, and a discriminant has an integer width. *)
Definition in_space (a : Z) (l : layout) : Prop :=
  match l with
  | LVec lo _ co _ | LString lo _ co _ => 0 <= a + lo < two64 /\ 0 <= a + co < two64
  | LSlice _ _ _ | LStrSlice _ _ => 0 <= a + 8 < two64
  | LOption _ d _ _ _ | LResult _ d _ _ _ _ _ => 0 <= a + d_off d < two64 /\ In (disc_size d) [1; 2; 4; 8]
  | _ => True
  end.

Definition is_string_layout (l : layout) : bool := match l with LString _ _ _ _ => true | _ => false end.

(** ** C25 *)
Lemma usize_at_ok E a off : readable E -> 0 <= a + off < two64 -> exists n, usize_at E a off = Ok n.
Proof.
  intros HR Ha. unfold usize_at. rewrite add64_ok by lia. cbn [bind]. destruct (HR (a + off) 8 ltac:(lia)) as (bs & R & L).
  rewrite R. cbn [bind]. unfold usize_from_bytes. rewrite L. eexists. reflexivity.
Qed.
Lemma disc_value_ok E a d : readable E -> 0 <= a + d_off d < two64 -> In (disc_size d) [1; 2; 4; 8] ->
  exists p, disc_value E a d = Ok p.
Proof.
  intros HR Ha Hd. unfold disc_value. rewrite add64_ok by lia. cbn [bind].
  destruct (HR (a + d_off d) (disc_size d)) as (bs & R & L); [simpl in Hd; lia|].
  rewrite R. cbn [bind]. rewrite L. replace (mem_z (disc_size d) [1; 2; 4; 8]) with true; [eexists; reflexivity|].
  symmetry. unfold mem_z. apply existsb_exists. exists (disc_size d). split; [exact Hd | apply Z.eqb_refl].
Qed.
Theorem advertised_methods_evaluate : forall E, readable E ->
  forall a l m, In m (synthetic_methods l) -> in_space a l -> exists v, synthetic E a l m = Ok v.
Proof.
  intros E HR a l m Hm Hs.
  assert (U := fun off => usize_at_ok E a off HR). assert (D := fun d => disc_value_ok E a d HR).
  destruct l; simpl in Hm; try contradiction; unfold in_space in Hs;
    repeat match goal with H : _ \/ _ |- _ => destruct H as [<-|H] | H : False |- _ => destruct H end;
    cbv [synthetic vec_method string_method option_method result_method slice_method array_method];
    repeat match goal with
    | |- context [str_eqb ?x ?y] => let b := eval vm_compute in (str_eqb x y) in change (str_eqb x y) with b; cbv iota
    end;
    try (eexists; reflexivity);
    try (match goal with |- context [usize_at _ a ?o] => destruct (U o ltac:(lia)) as [n Hn]; rewrite Hn end; eexists; reflexivity);
    match goal with |- context [disc_value _ a ?o] => destruct (D o ltac:(lia) ltac:(apply Hs)) as [[n k] Hn]; rewrite Hn end;
    eexists; reflexivity.
Qed.
Print Assumptions advertised_methods_evaluate.
(** Conversely only advertised methods evaluate, with one exception. *)
Theorem only_advertised_methods_evaluate_partial : forall E a l m v,
  synthetic E a l m = Ok v -> In m (synthetic_methods l) \/ (is_string_layout l = true /\ m = st "capacity").
Proof.
  intros E a l m v H.
  destruct l; simpl in H; try discriminate; unfold vec_method, string_method, option_method, result_method, slice_method, array_method, map_method in H; simpl synthetic_methods; simpl is_string_layout;
   try (apply bind_ok in H; destruct H as ([v0 n0] & _ & H));
   repeat match goal with
   | H : (if str_eqb m ?y then _ else _) = _ |- _ => let Q := fresh "Q" in destruct (str_eqb m y) eqn:Q; [apply str_eqb_eq in Q; subst m; simpl; tauto|]
   end; try discriminate.
  revert H. destruct (str_eqb m (st "len") || str_eqb m (st "is_empty")); discriminate.
Qed.
Print Assumptions only_advertised_methods_evaluate_partial.

Theorem only_advertised_methods_evaluate_refuted : exists E a l m v,
  synthetic E a l m = Ok v /\ ~ In m (synthetic_methods l).
Proof.
  exists (mem_env (mem_of [(4096, encode 8 5)])), 4096, (LString 16 8 0 (TD (LUInt 1) None)), (st "capacity"), (VScalar (st "usize") (st "5")).
  split; [vm_compute; reflexivity|]. intros H. vm_compute in H. intuition discriminate.
Qed.
Print Assumptions only_advertised_methods_evaluate_refuted.
(** A target whose memory is all zero. *)
Definition zero_env : env := Env (fun _ n => Ok (repeat 0 (Z.to_nat n))) (fun _ => Err "unresolved") (fun _ => []) (fun _ _ => []).
Example advertised_example : readable zero_env /\ in_space 64 (LVec 16 8 0 (TD LBool None)) /\
  map (synthetic zero_env 64 (LVec 16 8 0 (TD LBool None))) (synthetic_methods (LVec 16 8 0 (TD LBool None)))
  = [Ok (VScalar (st "usize") (st "0")); Ok (VScalar (st "usize") (st "0")); Ok (VScalar (st "bool") (st "true"))].
Proof.
  split; [|split; [unfold in_space, two64; lia | reflexivity]].
  intros a n Hn. exists (repeat 0 (Z.to_nat n)). split; [reflexivity|]. rewrite repeat_length. lia.
Qed.

(** ** C26 *)
(** Both predicates fail, or one says the opposite of the other. *)
Definition opposite (r1 r2 : res value) : Prop :=
  (exists v1 v2 b, r1 = Ok v1 /\ r2 = Ok v2 /\ shows_bool v1 b /\ shows_bool v2 (negb b)) \/
  (r1 = r2 /\ is_ok r1 = false).
Ltac names := repeat match goal with
    | |- context [str_eqb ?x ?y] => let b := eval vm_compute in (str_eqb x y) in change (str_eqb x y) with b; cbv iota
    end.
Theorem is_some_opposes_is_none : forall E a l, opposite (synthetic E a l (st "is_some")) (synthetic E a l (st "is_none")).
Proof.
  intros E a l. destruct l; try (right; split; reflexivity).
  2: { cbv [synthetic result_method]. names. destruct (disc_value E a d) as [[v n]|e|e|]; right; split; reflexivity. }
  cbv [synthetic option_method]. names. destruct (disc_value E a d) as [[v n]|e|e|]; cbn [bind]; [|right; split; reflexivity..].
  left. exists (vbool (negb (v =? 0))), (vbool (v =? 0)), (negb (v =? 0)). rewrite negb_involutive. unfold shows_bool, vbool, bool_text. auto.
Qed.
Print Assumptions is_some_opposes_is_none.
Theorem is_ok_opposes_is_err : forall E a l, opposite (synthetic E a l (st "is_ok")) (synthetic E a l (st "is_err")).
Proof.
  intros E a l. destruct l; try (right; split; reflexivity).
  1: { cbv [synthetic option_method]. names. destruct (disc_value E a d) as [[v n]|e|e|]; right; split; reflexivity. }
  cbv [synthetic result_method]. names. destruct (disc_value E a d) as [[v n]|e|e|]; cbn [bind]; [|right; split; reflexivity..].
  left. destruct (n =? 8); [|destruct (n =? 4)];
    (eexists _, _, _; split; [reflexivity|]; split; [reflexivity|]; split; [reflexivity|]; rewrite ?negb_involutive; reflexivity).
Qed.
Print Assumptions is_ok_opposes_is_err.
(** is_empty, where offered, is len = 0; and is offered wherever len is, except on arrays. *)
Theorem is_empty_iff_len_zero : forall E a l,
  (forall v, synthetic E a l (st "is_empty") = Ok v ->
     exists w n, synthetic E a l (st "len") = Ok w /\ shows_usize w n /\ shows_bool v (n =? 0)) /\
  (forall w, synthetic E a l (st "len") = Ok w -> (exists e n, l = LArray e n) \/
     exists v n, synthetic E a l (st "is_empty") = Ok v /\ shows_usize w n /\ shows_bool v (n =? 0)).
Proof.
  intros E a l.
  assert (N : forall d m v, (option_method E a d m = Ok v \/ result_method E a d m = Ok v) -> In m [st "is_some"; st "is_none"; st "is_ok"; st "is_err"]).
  { intros d m v H. destruct H as [H|H]; unfold option_method, result_method in H; apply bind_ok in H; destruct H as ([x y] & _ & H);
    repeat match goal with
    | H : (if str_eqb m ?y then _ else _) = _ |- _ => let Q := fresh "Q" in destruct (str_eqb m y) eqn:Q; [apply str_eqb_eq in Q; subst m; simpl; tauto|]
    end; discriminate H. }
  destruct l;
    try (split; intros ? H; exfalso; cbn [synthetic] in H;
         match type of H with option_method _ _ ?d ?m = Ok ?v => specialize (N d m v (or_introl H)) | result_method _ _ ?d ?m = Ok ?v => specialize (N d m v (or_intror H)) end;
         vm_compute in N; intuition discriminate);
    try (split; intros ? H; discriminate H); try (split; [intros ? H; discriminate H | intros; left; eauto]);
    cbv [synthetic vec_method string_method slice_method]; names;
    match goal with |- context [usize_at E a ?o] => destruct (usize_at E a o) as [n|e|e|]; cbn [bind] end;
    (split; intros x H; [|right]); try discriminate H; injection H as <-; eexists _, n; (split; [reflexivity|]); split; reflexivity.
Qed.
Print Assumptions is_empty_iff_len_zero.
Example consistent_example :
  let E := mem_env (mem_of [(4096, encode 8 7); (8192, encode 8 1)]) in
  let l := LOption (st "Option") (Disc (DUInt 8) 0) 0 (TD (LUInt 8) None) 8 in
  synthetic E 4096 l (st "is_some") = Ok (VScalar (st "bool") (st "true")) /\
  synthetic E 4096 l (st "is_none") = Ok (VScalar (st "bool") (st "false")).
Proof. split; vm_compute; reflexivity. Qed.

(** ** C27 *)
Lemma le_nonneg bs : Forall byte bs -> 0 <= le bs.
Proof. induction 1 as [|b bs Hb Hbs IH]; [simpl; lia|]. cbn [le]. unfold byte in Hb. nia. Qed.
Lemma element_ptrs_length n : forall a es t vs, element_ptrs n a es t = Ok vs -> List.length vs = n.
Proof.
  induction n as [|n IH]; intros a es t vs H; cbn [element_ptrs] in H.
  - injection H as <-. reflexivity.
  - apply bind_ok in H. destruct H as (a' & _ & H). apply bind_ok in H. destruct H as (r & Hr & H). injection H as <-.
    simpl. f_equal. eapply IH. exact Hr.
Qed.
Ltac inv_ok H := repeat (apply bind_ok in H; let x := fresh "x" in let Hx := fresh "Hx" in destruct H as (x & Hx & H)).
Theorem vec_len_counts_elements : forall E, byte_replies E ->
  forall fuel a lo dpo co et p ty items,
  read E fuel a (TD (LVec lo dpo co et) p) = Ok (VArray ty items) ->
  exists v, synthetic E a (LVec lo dpo co et) (st "len") = Ok v /\ shows_usize v (Z.of_nat (List.length items)).
Proof.
  intros E HB fuel a lo dpo co et p ty items H. destruct fuel as [|fuel]; [discriminate|]. cbn [read layOf read_std] in H.
  apply bind_ok in H. destruct H as (t & Ht & H). apply bind_ok in H. destruct H as (es & Hes & H).
  apply bind_ok in H. destruct H as ([ptr len] & Hi & H). apply bind_ok in H. destruct H as (vs & Hv & H). injection H as <- <-.
  apply element_ptrs_length in Hv. unfold extract_vec_info in Hi.
  apply bind_ok in Hi. destruct Hi as (la & Hla & Hi). apply bind_ok in Hi. destruct Hi as (lb & Hlb & Hi).
  apply bind_ok in Hi. destruct Hi as (len' & Hl & Hi). inv_ok Hi. injection Hi as <- <-.
  cbv [synthetic vec_method]. names. unfold usize_at. rewrite Hla. cbn [bind]. rewrite Hlb. cbn [bind].
  unfold usize_from_bytes. destruct (Z.of_nat (List.length lb) =? 8); [|discriminate]. injection Hl as <-.
  eexists. split; [reflexivity|]. unfold shows_usize, vusize. rewrite Hv. rewrite Z2Nat.id by (apply le_nonneg; eapply HB; exact Hlb). reflexivity.
Qed.
Print Assumptions vec_len_counts_elements.
Theorem array_len_counts_elements : forall E fuel a et n p ty items, 0 <= n ->
  read E fuel a (TD (LArray et n) p) = Ok (VArray ty items) ->
  exists v, synthetic E a (LArray et n) (st "len") = Ok v /\ shows_usize v (Z.of_nat (List.length items)).
Proof.
  intros E fuel a et n p ty items Hn H. destruct fuel as [|fuel]; [discriminate|]. cbn [read layOf read_primitive] in H.
  apply bind_ok in H. destruct H as (t & Ht & H). apply bind_ok in H. destruct H as (es & Hes & H).
  apply bind_ok in H. destruct H as (vs & Hv & H). injection H as <- <-. apply element_ptrs_length in Hv.
  eexists. split; [reflexivity|]. unfold shows_usize, vusize. rewrite Hv, Z2Nat.id by lia. reflexivity.
Qed.
Print Assumptions array_len_counts_elements.
(** Slices: for the layout rustc uses (length after the pointer). *)
Theorem slice_len_counts_elements_partial : forall E, byte_replies E ->
  forall fuel a et dpo p ty items,
  read E fuel a (TD (LSlice et dpo 8) p) = Ok (VArray ty items) ->
  exists v, synthetic E a (LSlice et dpo 8) (st "len") = Ok v /\ shows_usize v (Z.of_nat (List.length items)).
Proof.
  intros E HB fuel a et dpo p ty items H. destruct fuel as [|fuel]; [discriminate|]. cbn [read layOf read_primitive] in H.
  apply bind_ok in H. destruct H as (la & Hla & H). apply bind_ok in H. destruct H as (len & Hlen & H).
  apply bind_ok in H. destruct H as (t & Ht & H). apply bind_ok in H. destruct H as (es & Hes & H).
  apply bind_ok in H. destruct H as (pa & Hpa & H). apply bind_ok in H. destruct H as (q & Hq & H).
  apply bind_ok in H. destruct H as (vs & Hv & H). injection H as <- <-. apply element_ptrs_length in Hv.
  unfold read_u64 in Hlen. apply bind_ok in Hlen. destruct Hlen as (lb & Hlb & Hlen). unfold le_unwrap in Hlen.
  cbv [synthetic slice_method]. names. unfold usize_at. rewrite Hla. cbn [bind]. rewrite Hlb. cbn [bind].
  unfold usize_from_bytes. destruct (Z.of_nat (List.length lb) =? 8); [|discriminate]. injection Hlen as <-.
  eexists. split; [reflexivity|]. unfold shows_usize, vusize. rewrite Hv. rewrite Z2Nat.id by (apply le_nonneg; eapply HB; exact Hlb). reflexivity.
Qed.
Print Assumptions slice_len_counts_elements_partial.
(** With any other length offset the two disagree. *)
Theorem slice_len_counts_elements_refuted : exists m a l ty items v,
  read (mem_env m) 1 a (TD l None) = Ok (VArray ty items) /\ synthetic (mem_env m) a l (st "len") = Ok v /\
  ~ shows_usize v (Z.of_nat (List.length items)).
Proof.
  exists (mem_of [(4096, encode 8 2 ++ encode 8 8192)]), 4096, (LSlice (TD (LUInt 1) None) 8 0).
  eexists _, _, (VScalar (st "usize") (st "8192")). split; [vm_compute; reflexivity|]. split; [vm_compute; reflexivity|]. vm_compute. discriminate.
Qed.
Print Assumptions slice_len_counts_elements_refuted.
(** Strings: len is the number of bytes of the text that is shown. *)
Theorem string_len_counts_bytes : forall E, byte_replies E ->
  forall fuel a lo dpo co it p ty x,
  read E fuel a (TD (LString lo dpo co it) p) = Ok (VScalar ty x) ->
  exists v n ptr bs, synthetic E a (LString lo dpo co it) (st "len") = Ok v /\ shows_usize v n /\
    rd E ptr n = Ok bs /\ x = st """" ++ lossy E bs ++ st """".
Proof.
  intros E HB fuel a lo dpo co it p ty x H. destruct fuel as [|fuel]; [discriminate|]. cbn [read layOf read_std] in H.
  apply bind_ok in H. destruct H as (la & Hla & H). apply bind_ok in H. destruct H as (lb & Hlb & H).
  apply bind_ok in H. destruct H as (len & Hl & H). apply bind_ok in H. destruct H as (pa & Hpa & H).
  apply bind_ok in H. destruct H as (q & Hq & H). apply bind_ok in H. destruct H as (bs & Hbs & H). injection H as <- <-.
  cbv [synthetic string_method vec_method]. names. unfold usize_at. rewrite Hla. cbn [bind]. rewrite Hlb. cbn [bind].
  unfold usize_from_bytes. destruct (Z.of_nat (List.length lb) =? 8); [|discriminate]. injection Hl as <-.
  eexists _, _, q, bs. split; [reflexivity|]. split; [reflexivity|]. split; [exact Hbs | reflexivity].
Qed.
Print Assumptions string_len_counts_bytes.
(** String slices: the same, for the layout rustc uses. *)
Theorem str_slice_len_counts_bytes_partial : forall E, byte_replies E ->
  forall fuel a dpo p ty x,
  read E fuel a (TD (LStrSlice dpo 8) p) = Ok (VScalar ty x) ->
  exists v n ptr bs, synthetic E a (LStrSlice dpo 8) (st "len") = Ok v /\ shows_usize v n /\
    rd E ptr n = Ok bs /\ x = st """" ++ lossy E bs ++ st """".
Proof.
  intros E HB fuel a dpo p ty x H. destruct fuel as [|fuel]; [discriminate|]. cbn [read layOf read_primitive] in H.
  apply bind_ok in H. destruct H as (pa & Hpa & H). apply bind_ok in H. destruct H as (la & Hla & H).
  apply bind_ok in H. destruct H as (q & Hq & H). apply bind_ok in H. destruct H as (len & Hlen & H).
  apply bind_ok in H. destruct H as (bs & Hbs & H). injection H as <- <-.
  unfold read_u64 in Hlen. apply bind_ok in Hlen. destruct Hlen as (lb & Hlb & Hlen). unfold le_unwrap in Hlen.
  cbv [synthetic slice_method]. names. unfold usize_at. rewrite Hla. cbn [bind]. rewrite Hlb. cbn [bind].
  unfold usize_from_bytes. destruct (Z.of_nat (List.length lb) =? 8); [|discriminate]. injection Hlen as <-.
  eexists _, _, q, bs. split; [reflexivity|]. split; [reflexivity|]. split; [exact Hbs | reflexivity].
Qed.
Print Assumptions str_slice_len_counts_bytes_partial.
(** Maps can be read but offer no len. *)
Theorem map_len_unavailable_refuted : exists m a l ty entries,
  read (mem_env m) 1 a (TD l None) = Ok (VMap ty entries) /\ forall v, synthetic (mem_env m) a l (st "len") <> Ok v.
Proof.
  exists (mem_of [(4096, encode 8 0 ++ encode 8 0 ++ encode 8 0 ++ encode 8 0)]), 4096, (LMap (TD LBool None) (TD LBool None) (HashMap 8 0 24 2 0 1)).
  do 2 eexists. split; [vm_compute; reflexivity|]. intros v. vm_compute. discriminate.
Qed.
Print Assumptions map_len_unavailable_refuted.
Example len_example :
  let E := mem_env (mem_of [(4096, encode 8 9 ++ encode 8 8192 ++ encode 8 2)]) in
  let l := LVec 16 8 0 (TD (LUInt 4) None) in
  read E 1 4096 (TD l None) = Ok (VArray (st "Vec<u32>") [VPtr 8192 (TD (LUInt 4) None); VPtr 8196 (TD (LUInt 4) None)]) /\
  synthetic E 4096 l (st "len") = Ok (VScalar (st "usize") (st "2")) /\ byte_replies zero_env.
Proof.
  split; [vm_compute; reflexivity|]. split; [vm_compute; reflexivity|].
  intros a n bs H. injection H as <-. apply Forall_forall. intros x Hx. apply repeat_spec in Hx. subst. unfold byte. lia.
Qed.

(** ** C58: the methods report the state stored in memory *)
Theorem vec_methods_report_memory : forall E m, serves E m ->
  forall a lo dpo co et len cap,
  0 <= a + lo < two64 -> 0 <= a + co < two64 -> holds_uint m (a + lo) 8 len -> holds_uint m (a + co) 8 cap ->
  synthetic E a (LVec lo dpo co et) (st "len") = Ok (VScalar (st "usize") (dec len)) /\
  synthetic E a (LVec lo dpo co et) (st "capacity") = Ok (VScalar (st "usize") (dec cap)) /\
  synthetic E a (LString lo dpo co et) (st "len") = Ok (VScalar (st "usize") (dec len)) /\
  synthetic E a (LString lo dpo co et) (st "capacity") = Ok (VScalar (st "usize") (dec cap)).
Proof.
  intros E m HS a lo dpo co et len cap A1 A2 H1 H2.
  assert (U : forall off n, 0 <= a + off < two64 -> holds_uint m (a + off) 8 n -> usize_at E a off = Ok n).
  { intros off n A [Hr H]. unfold usize_at. rewrite add64_ok by lia. cbn [bind]. pose proof (HS _ _ H) as R.
    rewrite encode_length in R. change (Z.of_nat (Z.to_nat 8)) with 8 in R. rewrite R. cbn [bind]. unfold usize_from_bytes.
    rewrite encode_length. change (Z.of_nat (Z.to_nat 8) =? 8) with true. cbv iota. f_equal. apply le_encode.
    change (2 ^ (8 * 8)) with (256 ^ Z.of_nat (Z.to_nat 8)) in Hr. exact Hr. }
  cbv [synthetic vec_method string_method]. names. rewrite (U lo len A1 H1), (U co cap A2 H2). cbn [bind]. auto.
Qed.
Print Assumptions vec_methods_report_memory.
(** is_some is "the whole discriminant is not zero". *)
Theorem is_some_reports_nonzero : forall E m, serves E m ->
  forall a nm d so t s v, 0 <= a + d_off d < two64 -> holds_uint m (a + d_off d) (disc_size d) v -> In (disc_size d) [1; 2; 4; 8] ->
  synthetic E a (LOption nm d so t s) (st "is_some") = Ok (VScalar (st "bool") (if v =? 0 then st "false" else st "true")).
Proof.
  intros E m HS a nm d so t s v A [Hr H] Hd. cbv [synthetic option_method]. names. unfold disc_value. rewrite add64_ok by lia. cbn [bind].
  pose proof (HS _ _ H) as R. assert (0 <= disc_size d) by (simpl in Hd; lia). rewrite encode_length, Z2Nat.id in R by lia. rewrite R. cbn [bind].
  rewrite encode_length, Z2Nat.id by lia.
  replace (mem_z (disc_size d) [1; 2; 4; 8]) with true
    by (symmetry; unfold mem_z; apply existsb_exists; exists (disc_size d); split; [exact Hd | apply Z.eqb_refl]).
  cbn [bind]. rewrite le_encode.
  - destruct (v =? 0); reflexivity.
  - rewrite Z2Nat.id by lia. rewrite <- pow256 by lia. exact Hr.
Qed.
Print Assumptions is_some_reports_nonzero.
(** Result: a tag of 4 or 8 bytes with Err = 1, as rustc lays out e.g. Result<u32, u32>, is reported as Ok. *)
Theorem result_methods_report_tag_refuted : exists m a ok err,
  holds_uint m a 4 1 /\
  synthetic (mem_env m) a (LResult (st "Result") (Disc (DUInt 4) 0) ok 4 err 4 8) (st "is_ok") = Ok (VScalar (st "bool") (st "true")).
Proof.
  exists (mem_of [(4096, encode 4 1 ++ encode 4 77)]), 4096, (TD (LUInt 4) None), (TD (LUInt 4) None).
  split; [mem | vm_compute; reflexivity].
Qed.
Print Assumptions result_methods_report_tag_refuted.
(** For tags of one or two bytes is_ok is "the tag is 0". *)
Theorem result_methods_report_tag_partial : forall E m, serves E m ->
  forall a nm d ok oo err eo s v, 0 <= a + d_off d < two64 -> holds_uint m (a + d_off d) (disc_size d) v -> In (disc_size d) [1; 2] ->
  synthetic E a (LResult nm d ok oo err eo s) (st "is_ok") = Ok (VScalar (st "bool") (if v =? 0 then st "true" else st "false")).
Proof.
  intros E m HS a nm d ok oo err eo s v A [Hr H] Hd. cbv [synthetic result_method]. names. unfold disc_value. rewrite add64_ok by lia. cbn [bind].
  pose proof (HS _ _ H) as R. assert (0 <= disc_size d) by (simpl in Hd; lia). rewrite encode_length, Z2Nat.id in R by lia. rewrite R. cbn [bind].
  rewrite encode_length, Z2Nat.id by lia.
  assert (Hp : 0 <= v < 256 ^ Z.of_nat (Z.to_nat (disc_size d))) by (rewrite Z2Nat.id by lia; rewrite <- pow256 by lia; exact Hr).
  destruct Hd as [Hd|[Hd|[]]]; rewrite <- Hd in *;
    (match goal with |- context [mem_z ?x ?y] => change (mem_z x y) with true end); cbn [bind]; rewrite le_encode by exact Hp;
    simpl (_ =? 8); simpl (_ =? 4); cbv iota; destruct (v =? 0); reflexivity.
Qed.
Print Assumptions result_methods_report_tag_partial.

(** ** C24: the reader against is_some *)
Theorem option_reader_disagrees_refuted : exists m a t ty,
  let l := LOption (st "Option") (Disc (DUInt 8) 0) 0 t 8 in
  synthetic (mem_env m) a l (st "is_some") = Ok (VScalar (st "bool") (st "true")) /\
  read (mem_env m) 3 a (TD l None) = Ok (VScalar ty (st "None")).
Proof.
  exists (mem_of [(8192, encode 8 4096); (4096, [7])]), 8192, (TD (LReference false (TD (LUInt 1) None)) None).
  eexists. split; vm_compute; reflexivity.
Qed.
Print Assumptions option_reader_disagrees_refuted.
(** With one-byte discriminants they agree on every memory. *)
Theorem option_reader_agrees_partial : forall E, (forall a n bs, rd E a n = Ok bs -> Z.of_nat (List.length bs) = n) ->
  forall fuel a nm off so t s p v, 
  synthetic E a (LOption nm (Disc (DUInt 1) off) so t s) (st "is_none") = Ok v ->
  shows_bool v true -> exists ty, read E (S fuel) a (TD (LOption nm (Disc (DUInt 1) off) so t s) p) = Ok (VScalar ty (st "None")).
Proof.
  intros E HL fuel a nm off so t s p v H Hv. revert H. cbv [synthetic option_method]. names. unfold disc_value. cbn [d_off disc_size d_ty].
  intros H. apply bind_ok in H. destruct H as ([x n] & H & Hx). apply bind_ok in H. destruct H as (da & Hda & H).
  apply bind_ok in H. destruct H as (bs & Hbs & H). injection Hx as <-. unfold shows_bool, vbool, bool_text in Hv.
  destruct (x =? 0) eqn:X; [|discriminate Hv]. pose proof (HL _ _ _ Hbs) as L.
  destruct bs as [|b [|c bs]]; simpl in L; try lia. simpl in H. injection H as <- <-.
  cbn [read layOf read_std]. unfold read_option. cbn [d_off]. rewrite Hda. cbn [bind disc_size d_ty]. rewrite Hbs. cbn [bind].
  replace (b =? 0) with true by lia. cbn [bind]. eexists. reflexivity.
Qed.
Print Assumptions option_reader_agrees_partial.
(** C58: when the debugger gives a number of bytes that is no word (neither 8 nor 4), the methods of Vecs and Strings are
    refused rather than reporting a number made of them. *)
Theorem odd_reply_refused : forall E a lo dpo co et m off bs, In (m, off) [("len", lo); ("is_empty", lo); ("capacity", co)]%string -> 0 <= a + off < two64 ->
  rd E (a + off) 8 = Ok bs -> List.length bs <> 8%nat -> List.length bs <> 4%nat ->
  (exists e, synthetic E a (LVec lo dpo co et) (st m) = Err e) /\ (exists e, synthetic E a (LString lo dpo co et) (st m) = Err e).
Proof.
  intros E a lo dpo co et m off bs Hm Ha R N8 N4. assert (U : usize_at E a off = Err "Unexpected size for usize"%string).
  { unfold usize_at. rewrite add64_ok by lia. cbn [bind]. rewrite R. cbn [bind]. unfold usize_from_bytes. replace (Z.of_nat (List.length bs) =? 8) with false by lia. replace (Z.of_nat (List.length bs) =? 4) with false by lia. reflexivity. }
  destruct Hm as [H | [H | [H | []]]]; injection H as <- <-; cbv [synthetic string_method vec_method]; names; rewrite U; cbn [bind]; split; eexists; reflexivity.
Qed.
Print Assumptions odd_reply_refused.
Example odd_reply : let E := Env (fun _ _ => Ok [1; 2; 3]) (fun _ => Err "none") (fun _ => []) (fun _ _ => []) in exists e, synthetic E 64 (LVec 16 8 0 (TD (LUInt 1) None)) (st "len") = Err e.
Proof. eexists. vm_compute. reflexivity. Qed.
