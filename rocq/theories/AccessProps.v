(** C28-C31: indexing and field access. *)
From Coq Require Import Ascii String List ZArith NArith Bool Lia.
From Coq Require Import ZifyBool ZifyNat.
From Verif Require Import Base NumText OMap TypesModel TypesSpec TypesProofs ValueModel DataModel DataSpec DataProofs DataProofs2 MemExample SynthProps AccessModel.
Import ListNotations.
Open Scope Z_scope.

Definition named_only (t : tdef) : bool := match layOf t with LAlias _ => true | _ => false end.

(** ** C28 *)
Lemma element_at_ok base i t es : tsize t = Ok (Some es) -> 0 <= i -> 0 <= es -> 0 <= base -> base + i * es < two64 ->
  element_at base i t = Ok (base + i * es, t).
Proof.
  intros Ht Hi He Hb H. unfold element_at. rewrite Ht. cbn [bind].
  assert (0 <= i * es) by nia. unfold mul64. replace (u64_ok (i * es)) with true by (symmetry; apply u64_ok_iff; unfold in_u64; lia).
  cbn [bind]. rewrite add64_ok by lia. reflexivity.
Qed.
Theorem array_index_exact : forall E fuel a et n p i es,
  tsize et = Ok (Some es) -> 0 <= es -> 0 <= a -> 0 <= i -> a + n * es < two64 ->
  (i < n -> index_int E fuel a (TD (LArray et n) p) i = Ok (a + i * es, et)) /\
  (n <= i -> is_err (index_int E fuel a (TD (LArray et n) p) i) = true).
Proof.
  intros E fuel a et n p i es Ht He Ha Hi H. cbn [index_int layOf]. split; intros Hn.
  - replace (n <=? i) with false by lia. apply element_at_ok; auto; nia.
  - replace (n <=? i) with true by lia. reflexivity.
Qed.
Print Assumptions array_index_exact.
Theorem vec_index_exact : forall E m, serves E m ->
  forall fuel a lo dpo co et p i es ptr len,
  tsize et = Ok (Some es) -> 0 <= es -> 0 <= i ->
  0 <= a + lo < two64 -> 0 <= a + dpo < two64 ->
  holds_uint m (a + lo) 8 len -> holds_uint m (a + dpo) 8 ptr -> ptr + len * es < two64 ->
  (i < len -> index_int E fuel a (TD (LVec lo dpo co et) p) i = Ok (ptr + i * es, et)) /\
  (len <= i -> is_err (index_int E fuel a (TD (LVec lo dpo co et) p) i) = true).
Proof.
  intros E m HS fuel a lo dpo co et p i es ptr len Ht He Hi A1 A2 H1 H2 Hf. cbn [index_int layOf].
  assert (R : extract_vec_info E a lo dpo = Ok (ptr, len)).
  { unfold extract_vec_info. rewrite add64_ok by lia. cbn [bind]. destruct H1 as [Hr H1].
    pose proof (HS _ _ H1) as R. rewrite encode_length in R. change (Z.of_nat (Z.to_nat 8)) with 8 in R. rewrite R. cbn [bind].
    rewrite encode_length. change (Z.of_nat (Z.to_nat 8) =? 8) with true. cbn [bind].
    rewrite le_encode by (change (256 ^ Z.of_nat (Z.to_nat 8)) with (2 ^ (8 * 8)); exact Hr).
    rewrite add64_ok by lia. cbn [bind]. rewrite (read_address_holds E m HS _ _ H2). reflexivity. }
  rewrite R. cbn [bind]. destruct H2 as [Hp _]. split; intros Hn.
  - replace (len <=? i) with false by lia. apply element_at_ok; auto; nia.
  - replace (len <=? i) with true by lia. reflexivity.
Qed.
Print Assumptions vec_index_exact.

(** Agreement with reading, on every memory: for element types whose definition is at hand. *)
Lemma element_ptrs_nth n : forall a es t vs i, element_ptrs n a es t = Ok vs -> 0 <= a -> 0 <= es -> (i < n)%nat ->
  nth_error vs i = Some (VPtr (a + Z.of_nat i * es) t) /\ a + Z.of_nat i * es < two64.
Proof.
  induction n as [|n IH]; intros a es t vs i H Ha He Hi; [lia|]. cbn [element_ptrs] in H.
  apply bind_ok in H. destruct H as (a' & Ha' & H). apply bind_ok in H. destruct H as (r & Hr & H). injection H as <-.
  apply add64_inv in Ha'. destruct Ha' as [-> Hb]. destruct i as [|i].
  - simpl. rewrite Z.add_0_r. split; [reflexivity|]. unfold in_u64 in Hb. lia.
  - cbn [nth_error]. destruct (IH (a + es) es t r i Hr ltac:(lia) He ltac:(lia)) as [H1 H2].
    rewrite H1. replace (a + Z.of_nat (S i) * es) with (a + es + Z.of_nat i * es) by lia. split; [reflexivity | exact H2].
Qed.
Theorem array_index_agrees_with_reading_partial : forall E f g a et n p ty items es,
  read E f a (TD (LArray et n) p) = Ok (VArray ty items) ->
  named_only et = false -> tsize et = Ok (Some es) -> 0 <= es -> 0 <= a -> 0 <= n ->
  forall i, 0 <= i ->
  match nth_error items (Z.to_nat i) with
  | Some v => exists b t, index_int E g a (TD (LArray et n) p) i = Ok (b, t) /\ v = VPtr b t
  | None => is_err (index_int E g a (TD (LArray et n) p) i) = true
  end.
Proof.
  intros E f g a et n p ty items es H Hna Ht He Ha Hn i Hi. destruct f as [|f]; [discriminate|].
  cbn [read layOf read_primitive] in H. apply bind_ok in H. destruct H as (t & Htt & H). apply bind_ok in H. destruct H as (es' & Hes & H).
  apply bind_ok in H. destruct H as (vs & Hv & H). injection H as <- <-.
  assert (t = et) as ->. { unfold resolve_alias, named_only in *. destruct (layOf et); try discriminate; injection Htt as <-; reflexivity. }
  unfold known_size in Hes. rewrite Ht in Hes. injection Hes as <-.
  pose proof (element_ptrs_length _ _ _ _ _ Hv) as L. cbn [index_int layOf].
  destruct (Z_lt_ge_dec i n) as [Hl|Hl].
  - destruct (element_ptrs_nth _ _ _ _ _ (Z.to_nat i) Hv Ha He ltac:(lia)) as [H1 H2]. rewrite Z2Nat.id in H1, H2 by lia.
    rewrite H1. exists (a + i * es), et. split; [|reflexivity]. replace (n <=? i) with false by lia. apply element_at_ok; auto.
  - replace (nth_error vs (Z.to_nat i)) with (@None value) by (symmetry; apply nth_error_None; lia).
    replace (n <=? i) with true by lia. reflexivity.
Qed.
Print Assumptions array_index_agrees_with_reading_partial.
Theorem vec_index_agrees_with_reading_partial : forall E f g a lo dpo co et p ty items es,
  byte_replies E ->
  read E f a (TD (LVec lo dpo co et) p) = Ok (VArray ty items) ->
  named_only et = false -> tsize et = Ok (Some es) -> 0 <= es ->
  forall i, 0 <= i ->
  match nth_error items (Z.to_nat i) with
  | Some v => exists b t, index_int E g a (TD (LVec lo dpo co et) p) i = Ok (b, t) /\ v = VPtr b t
  | None => is_err (index_int E g a (TD (LVec lo dpo co et) p) i) = true
  end.
Proof.
  intros E f g a lo dpo co et p ty items es HB H Hna Ht He i Hi. destruct f as [|f]; [discriminate|].
  cbn [read layOf read_std] in H. apply bind_ok in H. destruct H as (t & Htt & H). apply bind_ok in H. destruct H as (es' & Hes & H).
  apply bind_ok in H. destruct H as ([ptr len] & Hi' & H). apply bind_ok in H. destruct H as (vs & Hv & H). injection H as <- <-.
  assert (t = et) as ->. { unfold resolve_alias, named_only in *. destruct (layOf et); try discriminate; injection Htt as <-; reflexivity. }
  unfold known_size in Hes. rewrite Ht in Hes. injection Hes as <-.
  pose proof (element_ptrs_length _ _ _ _ _ Hv) as L. cbn [index_int layOf]. rewrite Hi'. cbn [bind].
  assert (Pn : 0 <= ptr /\ 0 <= len).
  { unfold extract_vec_info in Hi'. apply bind_ok in Hi'. destruct Hi' as (la & _ & Hi'). apply bind_ok in Hi'. destruct Hi' as (lb & Hlb & Hi').
    apply bind_ok in Hi'. destruct Hi' as (len' & Hl & Hi'). apply bind_ok in Hi'. destruct Hi' as (pa & _ & Hi').
    apply bind_ok in Hi'. destruct Hi' as (q & Hq & Hi'). injection Hi' as <- <-.
    unfold read_address in Hq. apply bind_ok in Hq. destruct Hq as (qb & Hqb & Hq).
    destruct (_ =? 8) in Hl; [|discriminate]. destruct (_ =? 8) in Hq; [|discriminate]. injection Hl as <-. injection Hq as <-.
    split; apply le_nonneg; eapply HB; eassumption. }
  destruct (Z_lt_ge_dec i len) as [Hl|Hl].
  - destruct (element_ptrs_nth _ _ _ _ _ (Z.to_nat i) Hv ltac:(lia) He ltac:(lia)) as [H1 H2]. rewrite Z2Nat.id in H1, H2 by lia.
    rewrite H1. exists (ptr + i * es), et. split; [|reflexivity]. replace (len <=? i) with false by lia. apply element_at_ok; auto; lia.
  - replace (nth_error vs (Z.to_nat i)) with (@None value) by (symmetry; apply nth_error_None; lia).
    replace (len <=? i) with true by lia. reflexivity.
Qed.
Print Assumptions vec_index_agrees_with_reading_partial.
(** A Vec of a user-defined struct: its elements are shown, but no index works. *)
Definition point : tdef := TD (LStruct (st "Point") 8 4 [(st "x", 0, TD (LInt 4) None); (st "y", 4, TD (LInt 4) None)]) (Some 77).
Definition point_name : tdef := TD (LAlias (st "Point")) (Some 77).
Definition point_env : env := Env (rd (mem_env (mem_of [(4096, encode 8 2 ++ encode 8 8192 ++ encode 8 2)])))
  (fun _ => Ok point) (fun _ => []) (fun _ _ => []).
Theorem index_agrees_with_reading_refuted : exists E a t items ty,
  read E 1 a t = Ok (VArray ty items) /\ List.length items = 2%nat /\
  forall g i, is_ok (index_int E g a t i) = false.
Proof.
  exists point_env, 4096, (TD (LVec 16 8 0 point_name) None), [VPtr 8192 point; VPtr 8200 point]. eexists.
  split; [vm_compute; reflexivity|]. split; [reflexivity|].
  intros g i. cbn [index_int layOf].
  replace (extract_vec_info point_env 4096 16 8) with (@Ok (Z * Z) (8192, 2)) by (vm_compute; reflexivity). cbn [bind].
  destruct (2 <=? i); reflexivity.
Qed.
Print Assumptions index_agrees_with_reading_refuted.
Theorem named_element_index_fails_refuted : forall E g a lo dpo co nm q p i,
  is_ok (index_int E g a (TD (LVec lo dpo co (TD (LAlias nm) q)) p) i) = false /\
  forall n, is_ok (index_int E g a (TD (LArray (TD (LAlias nm) q) n) p) i) = false.
Proof.
  intros E g a lo dpo co nm q p i. cbn [index_int layOf]. split.
  - destruct (extract_vec_info E a lo dpo) as [[ptr len]|e|e|]; cbn [bind]; try reflexivity. destruct (len <=? i); reflexivity.
  - intros n. destruct (n <=? i); reflexivity.
Qed.
Print Assumptions named_element_index_fails_refuted.
Example index_example :
  let E := mem_env (mem_of [(4096, encode 8 9 ++ encode 8 8192 ++ encode 8 3)]) in
  let t := TD (LVec 16 8 0 (TD (LUInt 4) None)) None in
  index_int E 0 4096 t 2 = Ok (8200, TD (LUInt 4) None) /\ is_err (index_int E 0 4096 t 3) = true /\
  read E 1 4096 t = Ok (VArray (st "Vec<u32>") (map (fun a => VPtr a (TD (LUInt 4) None)) [8192; 8196; 8200])).
Proof. cbv zeta. repeat split; vm_compute; reflexivity. Qed.

(** ** C29: indexing a slice never succeeds. *)
Theorem slice_index_refuted : forall E fuel a et dpo lo p i b t,
  index_int E fuel a (TD (LSlice et dpo lo) p) i <> Ok (b, t).
Proof.
  intros E fuel a et dpo lo p i b t H. cbn [index_int layOf] in H. apply bind_ok in H. destruct H as (v & Hv & H).
  destruct fuel as [|fuel]; [discriminate|]. cbn [read layOf read_primitive] in Hv.
  repeat (apply bind_ok in Hv; destruct Hv as (? & ? & Hv)). injection Hv as <-. discriminate H.
Qed.
Print Assumptions slice_index_refuted.
(** Although the slice itself is read properly. *)
Example slice_index_example :
  let E := mem_env (mem_of [(4096, encode 8 8192 ++ encode 8 1)]) in
  read E 1 4096 (TD (LSlice (TD (LUInt 4) None) 0 8) None) = Ok (VArray (st "&[u32]") [VPtr 8192 (TD (LUInt 4) None)]) /\
  index_int E 1 4096 (TD (LSlice (TD (LUInt 4) None) 0 8) None) 0 = Err "Expected struct representation for slice".
Proof. split; vm_compute; reflexivity. Qed.

(** ** C30 *)
Theorem struct_field_designated : forall a n s al fs p k,
  (forall f, is_first (fun g => fst (fst g) = k) fs f -> 0 <= a + snd (fst f) < two64 ->
     get_struct_field a (TD (LStruct n s al fs) p) k = Ok (a + snd (fst f), snd f)) /\
  ((forall f, In f fs -> fst (fst f) <> k) -> is_err (get_struct_field a (TD (LStruct n s al fs) p) k) = true).
Proof.
  intros a n s al fs p k. cbn [get_struct_field layOf].
  match goal with |- context [find ?g ?l] =>
    pose proof (find_first g (fun z => fst (fst z) = k) l (fun x => str_eqb_eq _ _)) as F; destruct (find g l) as [f'|] end.
  - split.
    + intros f Hf Ha. pose proof (is_first_unique _ _ _ _ F Hf) as <-. rewrite add64_ok by exact Ha. reflexivity.
    + intros N. destruct F as (pre & post & -> & P & _). exfalso. apply (N f'); [apply in_elt | exact P].
  - split.
    + intros f Hf Ha. destruct Hf as (pre & post & -> & P & _). exfalso. apply (F f); [apply in_elt | exact P].
    + reflexivity.
Qed.
Print Assumptions struct_field_designated.
(** It is the field shown when the struct is read, if field names are distinct. *)
Theorem struct_field_agrees_with_reading : forall E f a n s al fs p k fields,
  NoDup (map (fun g => fst (fst g)) fs) ->
  read E f a (TD (LStruct n s al fs) p) = Ok (VStruct n fields) ->
  match get_struct_field a (TD (LStruct n s al fs) p) k with
  | Ok (b, t) => oget cmp_str k fields = Some (VPtr b t)
  | Err _ => oget cmp_str k fields = None
  | _ => False
  end.
Proof.
  intros E f a n s al fs p k fields ND H. destruct f as [|f]; [discriminate|]. cbn [read layOf] in H.
  apply bind_ok in H. destruct H as (m & Hm & H). injection H as <-.
  pose proof (struct_fields_get a fs [] m k I Hm) as G.
  assert (A : forall g, In g fs -> 0 <= a + snd (fst g) < two64).
  { clear - Hm. revert Hm. generalize (@nil (str * value)). induction fs as [|[[k o] t] fs IH]; intros m0 Hm g Hg; [destruct Hg|].
    cbn [struct_fields] in Hm. apply bind_ok in Hm. destruct Hm as (fa & Hfa & Hm). apply add64_inv in Hfa. destruct Hfa as [_ Hu].
    destruct Hg as [<-|Hg]; [exact Hu | exact (IH _ Hm g Hg)]. }
  assert (Hlf : last_field k fs = option_map (fun g => (snd (fst g), snd g)) (find (fun g : str * Z * tdef => str_eqb (fst (fst g)) k) fs)).
  { clear - ND. induction fs as [|[[k' o] t] fs IH]; [reflexivity|]. inversion ND as [|x l Hx Hl]; subst.
    cbn [last_field find fst snd]. rewrite (IH Hl). destruct (str_eqb k' k) eqn:Q.
    - apply str_eqb_eq in Q. subst k'. match goal with |- context [find ?q ?l] => destruct (find q l) as [g|] eqn:Fd end; simpl.
      + exfalso. apply find_some in Fd. destruct Fd as [Fi Fe]. apply str_eqb_eq in Fe. apply Hx. apply in_map_iff. exists g. split; [exact Fe | exact Fi].
      + rewrite str_eqb_refl. reflexivity.
    - match goal with |- context [find ?q ?l] => destruct (find q l) as [g|] end; simpl; [reflexivity|]. replace (str_eqb k k') with false; [reflexivity|].
      symmetry. apply str_eqb_neq. apply str_eqb_neq in Q. congruence. }
  cbn [get_struct_field layOf]. match goal with |- context [find ?g ?l] => change (last_field k fs = option_map (fun z => (snd (fst z), snd z)) (find g l)) in Hlf end.
  rewrite Hlf in G. clear Hlf.
  match goal with |- context [find ?g ?l] => destruct (find g l) as [w|] eqn:Fd end; simpl in G.
  - apply find_some in Fd. rewrite add64_ok by (apply A; apply Fd). cbn [bind]. exact G.
  - exact G.
Qed.
Print Assumptions struct_field_agrees_with_reading.
Theorem field_access_needs_struct : forall a t k b u, get_struct_field a t k = Ok (b, u) -> exists n s al fs, layOf t = LStruct n s al fs.
Proof. intros a t k b u H. unfold get_struct_field in H. destruct (layOf t); try discriminate. eauto. Qed.
Print Assumptions field_access_needs_struct.
Example field_example : get_struct_field 4096 point (st "y") = Ok (4100, TD (LInt 4) None)
  /\ is_err (get_struct_field 4096 point (st "z")) = true.
Proof. split; vm_compute; reflexivity. Qed.

(** ** C31 *)
Definition quote : char := ch """".
(** The text [x] shown for a key denotes [s]: [s] itself, or [s] in quotes; [s] has no quote at its ends. *)
Definition no_quote_ends (s : str) : Prop := hd 0%N s <> quote /\ last s 0%N <> quote.
Definition denotes (x s : str) : Prop := no_quote_ends s /\ (x = s \/ x = quote :: s ++ [quote]).

Lemma trim_start_id s : hd 0%N s <> quote -> trim_start quote s = s.
Proof. destruct s as [|c s]; [reflexivity|]. intros H. simpl in *. destruct (N.eqb c quote) eqn:Q; [apply N.eqb_eq in Q; contradiction | reflexivity]. Qed.
Lemma hd_rev s : hd 0%N (rev s) = last s 0%N.
Proof. induction s as [|c s IH] using rev_ind; [reflexivity|]. rewrite rev_app_distr, last_last. reflexivity. Qed.
Lemma trim_id s : no_quote_ends s -> trim_matches quote s = s.
Proof.
  intros [H1 H2]. unfold trim_matches. rewrite (trim_start_id s H1), trim_start_id by (rewrite hd_rev; exact H2). apply rev_involutive.
Qed.
Lemma trim_quoted s : no_quote_ends s -> trim_matches quote (quote :: s ++ [quote]) = s.
Proof.
  intros H. unfold trim_matches. cbn [trim_start]. rewrite N.eqb_refl. destruct s as [|c s].
  - simpl. reflexivity.
  - rewrite (trim_start_id ((c :: s) ++ [quote]) (proj1 H)). rewrite rev_app_distr. cbn [rev app trim_start]. rewrite N.eqb_refl.
    change (rev s ++ [c]) with (rev (c :: s)). rewrite trim_start_id by (rewrite hd_rev; apply H). apply rev_involutive.
Qed.
Lemma trim_denotes x s : denotes x s -> trim_matches quote x = s.
Proof. intros [H [-> | ->]]; [apply trim_id | apply trim_quoted]; exact H. Qed.

(** Missing from the full claim: keys that begin or end with a quote character (see the refutation). *)
Theorem map_index_exact_partial : forall E fuel a kt vt mv p entries texts ty x s,
  read_map_entries E a kt vt mv = Ok entries ->
  Forall2 (fun e s' => exists ty' x', read E fuel (fst e) kt = Ok (VScalar ty' x') /\ denotes x' s') entries texts ->
  denotes x s ->
  (forall pre e post tpre tpost, entries = pre ++ e :: post -> texts = tpre ++ s :: tpost -> List.length pre = List.length tpre -> ~ In s tpre ->
     index_map E fuel a (TD (LMap kt vt mv) p) (VScalar ty x) = Ok (snd e, vt)) /\
  (~ In s texts -> is_err (index_map E fuel a (TD (LMap kt vt mv) p) (VScalar ty x)) = true).
Proof.
  intros E fuel a kt vt mv p entries texts ty x s HR HF Hx. cbn [index_map layOf]. rewrite HR. cbn [bind]. clear HR.
  induction HF as [|[ka va] s' entries texts (ty' & x' & Hk & Hd) HF IH].
  - split; [intros pre e post tpre tpost Hp; destruct pre; discriminate | intros _; reflexivity].
  - cbn [find_key]. cbn [fst] in Hk. rewrite Hk. cbn [bind values_equal].
    change (ch """") with quote. rewrite (trim_denotes _ _ Hx), (trim_denotes _ _ Hd).
    destruct IH as [IH1 IH2]. destruct (str_eqb s s') eqn:Q.
    + apply str_eqb_eq in Q. subst s'. split; [|intros N; exfalso; apply N; left; reflexivity].
      intros [|q pre] e post [|r tpre] tpost E1 E2 L N; simpl in *; try discriminate.
      * injection E1 as <- <-. reflexivity.
      * injection E2 as <- E2. exfalso. apply N. left. reflexivity.
    + apply str_eqb_neq in Q. split.
      * intros [|q pre] e post [|r tpre] tpost E1 E2 L N; simpl in *; try discriminate.
        { injection E2 as E2 _. exfalso. apply Q. symmetry. exact E2. }
        { injection E1 as _ E1. injection E2 as _ E2. eapply IH1; [exact E1 | exact E2 | lia | tauto]. }
      * intros N. apply IH2. intros H. apply N. right. exact H.
Qed.
Print Assumptions map_index_exact_partial.
(** Two String keys, [a"] and [a]: asking for [a] returns the value of [a"]. *)
Definition str_layout : tdef := TD (LString 16 8 0 (TD (LUInt 1) None)) None.
Definition quote_mem : memory := mem_of
  [(4096, encode 8 8192 ++ encode 8 1 ++ encode 8 0 ++ encode 8 2); (8192, [1; 1]);
   (8160, encode 8 2 ++ encode 8 12288 ++ encode 8 2); (8128, encode 8 1 ++ encode 8 16384 ++ encode 8 1);
   (12288, [97; 34]); (16384, [97])].
Theorem map_index_exact_refuted : exists m a kt vt mv entries v1 v2,
  read_map_entries (mem_env m) a kt vt mv = Ok entries /\ map snd entries = [v1; v2] /\ v1 <> v2 /\
  map (fun e => read (mem_env m) 1 (fst e) kt) entries
    = [Ok (VScalar (st "String") (st """a""""")); Ok (VScalar (st "String") (st """a"""))] /\
  index_map (mem_env m) 1 a (TD (LMap kt vt mv) None) (VScalar (st "String") (st """a""")) = Ok (v1, vt).
Proof.
  exists quote_mem, 4096, str_layout, (TD (LUInt 8) None), (HashMap 8 0 24 32 0 24).
  eexists _, _, _. split; [vm_compute; reflexivity|]. split; [vm_compute; reflexivity|]. split; [discriminate|].
  split; vm_compute; reflexivity.
Qed.
Print Assumptions map_index_exact_refuted.
Definition int_map_mem : memory := mem_of
  [(4096, encode 8 8192 ++ encode 8 1 ++ encode 8 0 ++ encode 8 2); (8192, [1; 1]); (8160, encode 8 5 ++ encode 8 0 ++ encode 8 7 ++ encode 8 0)].
Example map_index_example :
  let E := mem_env int_map_mem in let t := TD (LMap (TD (LUInt 8) None) (TD (LUInt 8) None) (HashMap 8 0 24 16 0 8)) None in
  read_map_entries E 4096 (TD (LUInt 8) None) (TD (LUInt 8) None) (HashMap 8 0 24 16 0 8) = Ok [(8176, 8184); (8160, 8168)] /\
  index_map E 1 4096 t (VScalar (st "i32") (st "5")) = Ok (8168, TD (LUInt 8) None) /\
  is_err (index_map E 1 4096 t (VScalar (st "i32") (st "6"))) = true /\ denotes (st """key""") (st "key").
Proof.
  cbv zeta. split; [vm_compute; reflexivity|]. split; [vm_compute; reflexivity|]. split; [vm_compute; reflexivity|].
  split; [split; discriminate | right; reflexivity].
Qed.
(** A map key must be a scalar: struct, tuple or enum keys never match. *)
Theorem map_index_scalar_keys_only : forall E fuel a t key b u, index_map E fuel a t key = Ok (b, u) ->
  exists ty x ka ty' x', key = VScalar ty x /\ match layOf t with LMap kt _ _ => read E fuel ka kt = Ok (VScalar ty' x') | _ => False end.
Proof.
  intros E fuel a t key b u H. unfold index_map in H. destruct (layOf t) eqn:L; try discriminate.
  apply bind_ok in H. destruct H as (es & _ & H). induction es as [|[ka va] es IH]; cbn [find_key] in H; [discriminate|].
  apply bind_ok in H. destruct H as (k & Hk & H). destruct (values_equal key k) eqn:Q; [|auto].
  unfold values_equal in Q. destruct key; try discriminate. destruct k; try discriminate. eauto 10.
Qed.
Print Assumptions map_index_scalar_keys_only.
