(** Evaluating a place of plain type (PlainSpec) against LLDB: the requests made, and the value. *)
From Coq Require Import Ascii String List ZArith NArith Lia Bool Arith Sorted Permutation.
From Coq Require Import ZifyBool ZifyNat ZifyN.
From Verif Require Import Base NumText OMap TypesModel ValueModel DataModel DataSpec DataProofs DataProofs2 FormatSpec FormatProps ParserModel ResolveModel ResolveSpec ResolveProps FnProps
  ProcModel ProcSpec ProcProofs IoDataModel EvalModel EvalSpec WireProps ClientModel ClientSpec ClientEvents SessionProps PlainSpec.
From Verif Require Import DataModel ParserModel ValueModel Utf8.
Import ListNotations.
Open Scope Z_scope.

Section Runs.
Context {St : Type} (L : debugger St) (s : St).
Hypotheses (HT : l_target L s = true) (HP : l_process L s = true).
(** Run against LLDB the program gives [a], leaves the target as it is, and its requests are within the protocol. *)
Definition runs {A} (p : io A) (a : A) : Prop := exists t, exec (python_client L) p s = (t, Ok a, s) /\ Forall (fun x => request_fits (fst x)) t.
Lemma runs_ret {A} (a : A) : runs (ret a) a.
Proof. exists []. split; [reflexivity | constructor]. Qed.
Lemma runs_lift {A} r (a : A) : r = Ok a -> runs (lift r) a.
Proof. intros ->. apply runs_ret. Qed.
Lemma runs_bind {A B} (p : io A) (f : A -> io B) a b : runs p a -> runs (f a) b -> runs (ibind p f) b.
Proof.
  intros (t1 & E1 & F1) (t2 & E2 & F2). exists (t1 ++ t2). split; [|apply Forall_app; split; assumption]. unfold ibind. rewrite exec_bind, E1. cbn [fst snd]. rewrite E2. reflexivity.
Qed.
Lemma runs_memory a n d : u64 a -> u64 n -> l_memory L s a n = Some d -> runs (rdm a n) d.
Proof.
  intros Ua Un Me. exists [(ReadMemory a n, Replied (MemoryData d))]. split; [|repeat constructor; assumption || apply Ua || apply Un].
  unfold rdm, ask. cbn [pbind exec]. assert (E : python_client L s (ReadMemory a n) = (Replied (MemoryData d), s)) by (rewrite client_body; cbn [body]; rewrite HT, HP; cbn [negb andb]; rewrite Me; reflexivity). rewrite E. reflexivity.
Qed.
Lemma runs_mapM {A B} (f : A -> io B) l ws : Forall2 (fun a w => runs (f a) w) l ws -> runs (imapM f l) ws.
Proof.
  induction 1 as [|a w l ws H _ IH]; [apply runs_ret|]. cbn [imapM]. eapply runs_bind; [exact H|]. eapply runs_bind; [exact IH | apply runs_ret].
Qed.
Lemma map_type_id w : map_type (fun x => x) w = w.
Proof. destruct w; reflexivity. Qed.
Lemma map_type_comp f g w : map_type f (map_type g w) = map_type (fun x => f (g x)) w.
Proof. destruct w; reflexivity. Qed.
Lemma retyped_eq g w : retyped g w = map_type g w.
Proof. destruct w; reflexivity. Qed.

(** The fields of a struct come in the order of their names. *)
Lemma sorted_same {V} (l m : list (str * V)) : osorted cmp_str l -> osorted cmp_str m -> (forall k v, In (k, v) l <-> In (k, v) m) -> l = m.
Proof.
  revert m. induction l as [|[k v] l IH]; intros m Sl Sm E.
  - destruct m as [|[k' v'] m]; [reflexivity|]. destruct (proj2 (E k' v') (or_introl eq_refl)).
  - destruct m as [|[k' v'] m]; [destruct (proj1 (E k v) (or_introl eq_refl))|]. destruct Sl as [L1 L2]. destruct Sm as [M1 M2].
    assert (Eq : (k, v) = (k', v')).
    { destruct (proj1 (E k v) (or_introl eq_refl)) as [H | H]; [symmetry; exact H|]. destruct (proj2 (E k' v') (or_introl eq_refl)) as [H' | H']; [exact H'|].
      pose proof (L1 _ _ H') as A. pose proof (M1 _ _ H) as B. rewrite (wo_opp _ wo_str k k'), A in B. discriminate. }
    injection Eq as <- <-. f_equal. apply IH; [exact L2 | exact M2|]. intros k2 v2. split; intros H.
    + destruct (proj1 (E k2 v2) (or_intror H)) as [Q | Q]; [|exact Q]. injection Q as <- <-. pose proof (L1 _ _ H) as A. rewrite cmp_str_refl in A. discriminate.
    + destruct (proj2 (E k2 v2) (or_intror H)) as [Q | Q]; [|exact Q]. injection Q as <- <-. pose proof (M1 _ _ H) as A. rewrite cmp_str_refl in A. discriminate.
Qed.
Lemma sorted_fields a fs sorted : Permutation fs sorted -> StronglySorted by_name sorted -> Forall (fun f => u64 (a + f_offset f)) sorted ->
  struct_fields a fs [] = Ok (map (field_ptr a) sorted).
Proof.
  intros P S U. assert (U' : Forall (fun f => 0 <= a + snd (fst f) < two64) fs).
  { rewrite Forall_forall in *. intros f Hf. apply (U f). eapply Permutation_in; eassumption. }
  destruct (struct_fields_ok a fs [] U') as [m Hm]. rewrite Hm. f_equal. pose proof (struct_fields_sorted a fs [] m Logic.I Hm) as So.
  assert (Ka : forall l, StronglySorted by_name l -> osorted cmp_str (map (field_ptr a) l)).
  { induction 1 as [|f l _ IH F]; [exact Logic.I|]. cbn [map]. destruct f as [[k o] t]. cbn [field_ptr osorted fst]. split; [|exact IH]. intros k' v' H. apply in_map_iff in H. destruct H as (g & Q & Hg). injection Q as <- _. rewrite Forall_forall in F. exact (F g Hg). }
  apply sorted_same; [exact So | exact (Ka _ S)|]. intros k v.
  assert (G : oget cmp_str k m = oget cmp_str k (map (field_ptr a) sorted)).
  { rewrite (struct_fields_get a fs [] m k Logic.I Hm). cbn [oget].
    assert (Un : forall f g, In f fs -> In g fs -> f_name f = f_name g -> f = g).
    { intros f g Hf Hg E. apply (Permutation_in _ P) in Hf, Hg. clear - S Hf Hg E. induction S as [|x l _ IH F]; [destruct Hf|]. rewrite Forall_forall in F. unfold by_name in F. destruct Hf as [<- | Hf], Hg as [<- | Hg]; auto.
      - specialize (F _ Hg). rewrite E, cmp_str_refl in F. discriminate.
      - specialize (F _ Hf). rewrite E, cmp_str_refl in F. discriminate. }
    assert (Lf : forall l, (forall f g, In f l -> In g l -> f_name f = f_name g -> f = g) -> forall o t, last_field k l = Some (o, t) <-> In (k, o, t) l).
    { clear. induction l as [|[[k' o'] t'] l IH]; intros U o t; [split; [discriminate | intros []]|]. specialize (IH (fun f g Hf Hg => U f g (or_intror Hf) (or_intror Hg))). cbn [last_field].
      destruct (last_field k l) as [[o2 t2]|] eqn:E.
      - rewrite IH. split; [intros H; right; exact H | intros [H | H]; [|exact H]]. injection H as -> -> ->.
        pose proof (proj1 (IH o2 t2) eq_refl) as H2. pose proof (U (k, o, t) (k, o2, t2) (or_introl eq_refl) (or_intror H2) eq_refl) as Q. injection Q as <- <-. exact H2.
      - destruct (str_eqb k k') eqn:Q.
        + apply str_eqb_eq in Q. subst k'. split; [intros H; injection H as <- <-; left; reflexivity|]. intros [H | H]; [injection H as <- <-; reflexivity|]. apply IH in H. discriminate.
        + split; [discriminate|]. intros [H | H]; [injection H as -> _ _; rewrite str_eqb_refl in Q; discriminate | apply IH in H; discriminate]. }
    pose proof (Lf fs Un) as L1. destruct (last_field k fs) as [[o t]|] eqn:E.
    - symmetry. apply (oget_in cmp_str wo_str); [exact (Ka _ S)|]. change (k, VPtr (a + o) t) with (field_ptr a (k, o, t)). apply in_map. eapply Permutation_in; [exact P|]. now apply L1.
    - symmetry. apply (oget_none cmp_str). intros k' v' H C. apply in_map_iff in H. destruct H as (g & Q & Hg). injection Q as <- _. apply cmp_str_eq in C. destruct g as [[k2 o2] t2]. cbn [fst] in C. subst k2.
      apply Permutation_sym in P. apply (Permutation_in _ P) in Hg. apply L1 in Hg. discriminate. }
  split; intros H.
  - apply (oget_in cmp_str wo_str) in H; [|exact So]. rewrite G in H. apply (oget_some cmp_str) in H. destruct H as (k' & C & H). apply cmp_str_eq in C. subst k'. exact H.
  - apply (oget_in cmp_str wo_str) in H; [|exact (Ka _ S)]. rewrite <- G in H. apply (oget_some cmp_str) in H. destruct H as (k' & C & H). apply cmp_str_eq in C. subst k'. exact H.
Qed.
Lemma elements_exact es t : 0 <= es -> forall len a, u64 a -> u64 (a + Z.of_nat len * es) -> element_ptrs len a es t = Ok (map (fun i => VPtr (a + Z.of_nat i * es) t) (seq 0 len)).
Proof.
  intros He. induction len as [|len IH]; intros a Ua Ue; [reflexivity|]. cbn [element_ptrs]. rewrite add64_ok by (unfold u64, two64 in *; nia). cbn [bind].
  rewrite IH; [|unfold u64, two64 in *; nia | unfold u64, two64 in *; nia]. cbn [bind seq map]. f_equal. f_equal; [f_equal; lia|]. rewrite <- seq_shift, map_map. apply map_ext. intros i. f_equal. lia.
Qed.

(** ** Reads of what the memory holds *)
Variable m : memory.
Hypothesis Hm : served (l_memory L s) m.
Lemma held_uint a n x : 0 < n -> holds_uint m a n x -> exists bs, l_memory L s a n = Some bs /\ Z.of_nat (List.length bs) = n /\ le bs = x.
Proof.
  intros Hn [Hv Hh]. exists (encode (Z.to_nat n) x). assert (Ln : Z.of_nat (List.length (encode (Z.to_nat n) x)) = n) by (rewrite encode_length; lia).
  assert (Ne : encode (Z.to_nat n) x <> []) by (intros E; rewrite E in Ln; cbn in Ln; lia).
  pose proof (Hm _ _ Ne Hh) as R. rewrite Ln in R. split; [exact R|]. split; [exact Ln|]. apply le_encode. rewrite Z2Nat.id by lia. rewrite <- pow256 by lia. exact Hv.
Qed.
Lemma held_int a n x : 0 < n -> holds_int m a n x -> exists bs, l_memory L s a n = Some bs /\ Z.of_nat (List.length bs) = n /\ signed n (le bs) = x.
Proof.
  intros Hn [Hv Hh]. destruct (held_uint a n (x mod 2 ^ (8 * n))) as (bs & R & Ln & V); [exact Hn| |].
  - split; [|exact Hh]. apply Z.mod_pos_bound. apply Z.pow_pos_nonneg; lia.
  - exists bs. split; [exact R|]. split; [exact Ln|]. rewrite V. apply signed_mod; [lia | exact Hv].
Qed.
Lemma word_range a n x : holds_uint m a n x -> 0 <= x < 2 ^ (8 * n).
Proof. intros [H _]. exact H. Qed.
Lemma word_u64 a x : holds_uint m a 8 x -> u64 x.
Proof. intros H. apply word_range in H. exact H. Qed.
Lemma runs_add a b : u64 (a + b) -> runs (lift (add64 a b)) (a + b).
Proof. intros U. apply runs_lift. apply add64_ok. exact U. Qed.
Lemma runs_address a x : u64 a -> holds_uint m a 8 x -> runs (iread_address a) x.
Proof.
  intros U H. destruct (held_uint a 8 x) as (bs & R & Ln & V); [lia | exact H|]. eapply runs_bind; [apply runs_memory; [exact U | split; unfold two64; lia | exact R]|].
  apply runs_lift. rewrite Ln. cbn. now rewrite V.
Qed.
Lemma runs_u64 a x : u64 a -> holds_uint m a 8 x -> runs (iread_u64 a) x.
Proof.
  intros U H. destruct (held_uint a 8 x) as (bs & R & Ln & V); [lia | exact H|]. eapply runs_bind; [apply runs_memory; [exact U | split; unfold two64; lia | exact R]|].
  apply runs_lift. unfold le_unwrap. rewrite Ln. cbn. now rewrite V.
Qed.
Lemma runs_bytes a bs : u64 a -> bs <> [] -> u64 (Z.of_nat (List.length bs)) -> holds m a bs -> runs (rdm a (Z.of_nat (List.length bs))) bs.
Proof. intros U Ne Un H. apply runs_memory; [exact U | exact Un | exact (Hm a bs Ne H)]. Qed.
Lemma utf8_some x : x <> [] -> utf8 x <> [].
Proof. destruct x as [|c x]; [congruence|]. intros _. cbn [utf8 flat_map]. unfold utf8_char. repeat match goal with |- context [if ?b then _ else _] => destruct b end; discriminate. Qed.
(** B-trees. *)
Lemma runs_edges edge kv (f : nat -> Z * Z) (cs : list (list (Z * Z))) n : forall k,
  List.length cs = n -> (forall i, (k <= i < k + n)%nat -> kv (Z.of_nat i) = Ok [f i]) -> (forall i c, nth_error cs i = Some c -> runs (edge (Z.of_nat (k + S i))) c) ->
  forall c0, runs (edge (Z.of_nat k)) c0 -> runs (iedges_loop edge kv n (Z.of_nat k)) (c0 ++ flat_map (fun ic => f (fst ic) :: snd ic) (combine (seq k n) cs)).
Proof.
  revert cs. induction n as [|n IH]; intros cs k Hl Hk He c0 H0.
  - cbn [iedges_loop]. eapply runs_bind; [exact H0|]. cbn [seq combine flat_map]. rewrite app_nil_r. apply runs_ret.
  - destruct cs as [|c1 cs]; [discriminate Hl|]. cbn [iedges_loop]. eapply runs_bind; [exact H0|]. cbn beta. eapply runs_bind; [apply runs_lift; apply Hk; lia|].
    replace (Z.of_nat k + 1) with (Z.of_nat (S k)) by lia. eapply runs_bind.
    + apply (IH cs (S k)) with (c0 := c1).
      * cbn in Hl. lia.
      * intros; apply Hk; lia.
      * intros i c Hi. replace (S k + S i)%nat with (k + S (S i))%nat by lia. apply He. exact Hi.
      * replace (S k) with (k + 1)%nat by lia. apply (He 0%nat). reflexivity.
    + cbn [seq combine flat_map fst snd]. apply runs_ret.
Qed.
Section BTree.
Variables (nl : bnode) (key val : tdef) (ks vs : Z).
Hypotheses (Hks : tsize key = Ok (Some ks)) (Hvs : tsize val = Ok (Some vs)) (Kpos : 0 < ks) (Vpos : 0 < vs).
Lemma runs_btree h : forall t, bt_stored m nl ks vs h t -> runs (ibtree_node h (bt_ptr t) key val nl) (inorder nl ks vs t).
Proof.
  assert (Kv : forall p i, 0 <= p -> 0 <= keys_off nl -> 0 <= vals_off nl -> p + keys_off nl + (Z.of_nat i + 1) * ks < two64 -> p + vals_off nl + (Z.of_nat i + 1) * vs < two64 ->
    (if (0 <? ks) && (0 <? vs) then ko <- mul64 (Z.of_nat i) ks ;; ka <- add64 (p + keys_off nl) ko ;; vo <- mul64 (Z.of_nat i) vs ;; va <- add64 (p + vals_off nl) vo ;; Ok [(ka, va)] else Ok []) = Ok [bt_pair nl ks vs p i]).
  { intros p i P1 P2 P3 P4 P5. replace ((0 <? ks) && (0 <? vs)) with true by lia. rewrite mul64_ok' by nia. cbn [bind]. rewrite add64_ok by nia. cbn [bind]. rewrite mul64_ok' by nia. cbn [bind]. rewrite add64_ok by nia. reflexivity. }
  induction h as [|h IH]; intros t Ht.
  - inversion Ht as [p n Hlen Hfit Eh Et|]; subst. inversion Hfit as [p' n' b' F1 F2 F3 F4 F5 F6 F7 F8 F9]; subst.
    assert (Hn : 0 <= Z.of_nat n < 65536) by (destruct Hlen as [X _]; exact X). cbn [bt_ptr inorder map]. unfold ibtree_node.
    destruct (held_uint (p + len_off nl) 2 (Z.of_nat n) ltac:(lia) Hlen) as (bs & R & Ln & V).
    eapply runs_bind; [apply runs_add; split; lia|]. cbn beta. eapply runs_bind; [apply runs_memory; [split; lia | split; unfold two64; lia | exact R]|]. cbn beta.
    eapply runs_bind; [apply runs_lift; unfold le_unwrap; rewrite Ln; cbn; reflexivity|]. cbn beta. rewrite V. rewrite Hks. eapply runs_bind; [apply runs_lift; reflexivity|]. cbn beta iota. rewrite Hvs. eapply runs_bind; [apply runs_lift; reflexivity|]. cbn beta iota.
    eapply runs_bind; [apply runs_add; split; nia|]. cbn beta. eapply runs_bind; [apply runs_add; split; nia|]. cbn beta. apply runs_lift. rewrite Nat2Z.id.
    apply (pairs_loop_ok _ (bt_pair nl ks vs p) n 0%nat). intros i Hi. apply Kv; nia.
  - inversion Ht as [|h0 p n cs Hlen Hfit Hcs Hkids Eh Et]; subst. inversion Hfit as [p' n' b' F1 F2 F3 F4 F5 F6 F7 F8 F9]; subst.
    assert (Hn : 0 <= Z.of_nat n < 65536) by (destruct Hlen as [X _]; exact X). specialize (F9 eq_refl). cbn [bt_ptr inorder ibtree_node].
    destruct (held_uint (p + len_off nl) 2 (Z.of_nat n) ltac:(lia) Hlen) as (bs & R & Ln & V).
    eapply runs_bind; [apply runs_add; split; lia|]. cbn beta. eapply runs_bind; [apply runs_memory; [split; lia | split; unfold two64; lia | exact R]|]. cbn beta.
    eapply runs_bind; [apply runs_lift; unfold le_unwrap; rewrite Ln; cbn; reflexivity|]. cbn beta. rewrite V. rewrite Hks. eapply runs_bind; [apply runs_lift; reflexivity|]. cbn beta iota. rewrite Hvs. eapply runs_bind; [apply runs_lift; reflexivity|]. cbn beta iota.
    eapply runs_bind; [apply runs_add; split; nia|]. cbn beta. eapply runs_bind; [apply runs_add; split; nia|]. cbn beta. eapply runs_bind; [apply runs_add; split; nia|]. cbn beta. rewrite Nat2Z.id.
    destruct cs as [|c0 cs]; [discriminate Hcs|]. cbn [map].
    assert (Hedge : forall i c, nth_error (c0 :: cs) i = Some c ->
      runs (let! ea := lift (add64 (p + edges_off nl) (Z.of_nat i * 8)) in let! e := iread_address ea in if e =? 0 then ret [] else ibtree_node h e key val nl) (inorder nl ks vs c)).
    { intros i c Hi. destruct (Hkids i c Hi) as (Hnz & Hp & Hst). assert (i <= n)%nat. { assert (i < List.length (c0 :: cs))%nat by (apply nth_error_Some; congruence). lia. }
      eapply runs_bind; [apply runs_add; split; nia|]. cbn beta. replace (p + edges_off nl + Z.of_nat i * 8) with (p + edges_off nl + 8 * Z.of_nat i) by lia.
      eapply runs_bind; [apply runs_address; [split; nia | exact Hp]|]. cbn beta. replace (bt_ptr c =? 0) with false by lia. apply IH. exact Hst. }
    apply (runs_edges _ _ (bt_pair nl ks vs p) (map (inorder nl ks vs) cs) n 0%nat).
    + rewrite map_length. cbn in Hcs. lia.
    + intros i Hi. apply Kv; nia.
    + intros i c Hi. rewrite nth_error_map in Hi. destruct (nth_error cs i) as [c'|] eqn:Ei; [|discriminate]. injection Hi as <-. apply (Hedge (S i)). exact Ei.
    + apply (Hedge 0%nat). reflexivity.
Qed.
End BTree.
Lemma runs_hash a k vt mo co io psz ko vo cp ctrl : hash_stored m a mo co io psz ko vo (Z.of_nat (List.length (occupied ctrl))) cp ctrl ->
  runs (iread_map_entries a k vt (HashMap mo co io psz ko vo)) (map (bucket cp psz ko vo) (occupied ctrl)).
Proof.
  intros [[A1 [A2 A3]] Hi Hk Hc Hb Hl [P1 [P2 [P3 [P4 P5]]]] Hr]. cbn [iread_map_entries].
  eapply runs_bind; [apply runs_add; exact A1|]. cbn beta. eapply runs_bind; [apply runs_add; exact A2|]. cbn beta. eapply runs_bind; [apply runs_add; exact A3|]. cbn beta.
  eapply runs_bind; [apply runs_u64; [exact A3 | exact Hi]|]. cbn beta. destruct (Z.of_nat (List.length (occupied ctrl)) =? 0) eqn:E0.
  - assert (occupied ctrl = []) as -> by (destruct (occupied ctrl); [reflexivity | cbn in E0; lia]). apply runs_ret.
  - eapply runs_bind; [apply runs_u64; [exact A1 | exact Hk]|]. cbn beta. pose proof (word_range _ _ _ Hk) as Rk. pose proof (word_u64 _ _ Hc) as Uc.
    assert (Ne : ctrl <> []) by (intros ->; cbn in E0; discriminate). assert (1 <= Z.of_nat (List.length ctrl)) by lia.
    eapply runs_bind; [apply runs_add; split; lia|]. cbn beta. eapply runs_bind; [apply runs_address; [exact A2 | exact Hc]|]. cbn beta.
    eapply runs_bind; [apply runs_lift; apply sub64_ok; unfold u64 in Uc; nia|]. cbn beta. replace (Z.of_nat (List.length ctrl) - 1 + 1) with (Z.of_nat (List.length ctrl)) by lia.
    eapply runs_bind; [apply runs_bytes; [exact Uc | exact Ne | split; lia | exact Hb]|]. cbn beta. apply runs_lift. replace (cp - psz) with (cp - (Z.of_nat 0 + 1) * psz) by lia. unfold u64 in Uc.
    rewrite <- occ_from_0 in *. rewrite hash_slots_ok by (try lia; nia). f_equal. apply firstn_all2. rewrite map_length. lia.
Qed.
Lemma runs_entries a k vt mv es : entries m a k vt mv es -> runs (iread_map_entries a k vt mv) es.
Proof.
  intros [mo co io psz ko vo cp ctrl Hh | lo ro no ho nl ks vs len d h t Sk Sv Kp Vp U1 U2 U3 U4 Hl Nl Hd Nd Hn Hh Bt | lo ro no ho nl U1 Hl].
  - apply runs_hash; exact Hh.
  - cbn [iread_map_entries].
    eapply runs_bind; [apply runs_add; exact U1|]. cbn beta. eapply runs_bind; [apply runs_u64; [exact U1 | exact Hl]|]. cbn beta. replace (len =? 0) with false by lia.
    eapply runs_bind; [apply runs_add; exact U2|]. cbn beta. eapply runs_bind; [apply runs_u64; [exact U2 | exact Hd]|]. cbn beta. replace (d =? 0) with false by lia.
    eapply runs_bind; [apply runs_add; exact U3|]. cbn beta. eapply runs_bind; [apply runs_add; exact U4|]. cbn beta. eapply runs_bind; [apply runs_address; [exact U3 | exact Hn]|]. cbn beta. eapply runs_bind; [apply runs_u64; [exact U4 | exact Hh]|]. cbn beta.
    rewrite Nat2Z.id. apply (runs_btree nl k vt ks vs Sk Sv Kp Vp h t Bt).
  - cbn [iread_map_entries]. eapply runs_bind; [apply runs_add; exact U1|]. cbn beta. eapply runs_bind; [apply runs_u64; [exact U1 | exact Hl]|]. apply runs_ret.
Qed.
Lemma runs_disc a d x : u64 a -> holds_disc m a d x -> runs (match d with DInt w => iread_disc_int true w a | DUInt w => iread_disc_int false w a | DImplicit => fail "Implicit discriminant type is not supported yet" end) x.
Proof.
  intros U H. destruct d as [w | w |]; [| |destruct H]; destruct H as [Iw H].
  - assert (Pw : 0 < w) by (destruct Iw as [<-|[<-|[<-|[<-|[]]]]]; lia). assert (Uw : u64 w) by (unfold u64, two64; destruct Iw as [<-|[<-|[<-|[<-|[]]]]]; lia).
    destruct (held_int a w x Pw H) as (bs & R & Ln & V). unfold iread_disc_int. eapply runs_bind; [apply runs_memory; [exact U | exact Uw | exact R]|]. cbn beta. apply runs_lift.
    assert (Mz : mem_z w [1; 2; 4; 8] = true) by (destruct Iw as [<-|[<-|[<-|[<-|[]]]]]; reflexivity). rewrite Mz. unfold le_unwrap. rewrite (proj2 (Z.eqb_eq _ _) Ln). cbn [bind]. now rewrite V.
  - assert (Pw : 0 < w) by (destruct Iw as [<-|[<-|[<-|[<-|[]]]]]; lia). assert (Uw : u64 w) by (unfold u64, two64; destruct Iw as [<-|[<-|[<-|[<-|[]]]]]; lia).
    destruct (held_uint a w x Pw H) as (bs & R & Ln & V). unfold iread_disc_int. eapply runs_bind; [apply runs_memory; [exact U | exact Uw | exact R]|]. cbn beta. apply runs_lift.
    assert (Mz : mem_z w [1; 2; 4; 8] = true) by (destruct Iw as [<-|[<-|[<-|[<-|[]]]]]; reflexivity). rewrite Mz. unfold le_unwrap. rewrite (proj2 (Z.eqb_eq _ _) Ln). cbn [bind]. now rewrite V.
Qed.
Lemma held_first a n x : 0 < n -> holds_uint m a n x -> exists r, l_memory L s a n = Some (x mod 256 :: r).
Proof.
  intros Hn [Hv Hh]. assert (Ln : Z.of_nat (List.length (encode (Z.to_nat n) x)) = n) by (rewrite encode_length; lia).
  assert (Ne : encode (Z.to_nat n) x <> []) by (intros E; rewrite E in Ln; cbn in Ln; lia). pose proof (Hm _ _ Ne Hh) as R. rewrite Ln in R.
  destruct (Z.to_nat n) as [|k] eqn:Ek; [lia|]. rewrite R. unfold encode. cbn [seq map]. change (256 ^ Z.of_nat 0) with 1. rewrite Z.div_1_r. eexists. reflexivity.
Qed.

(** ** Reading a place, and showing what is nested in it *)
(** The resolution of declared types that the debug information offers. *)
Variable floats : Z -> list Z -> str.
Definition knows (D : dbg) (v : env) (k : nat) : Prop :=
  g_fuel D = k /\ i_lossy (g_env D) = utf8_lossy /\ i_float (g_env D) = floats /\ forall h t, resolves_fully v h t -> i_resolve (g_env D) (Some h) = resolve_type k v h.
Definition reads (D : dbg) (j : nat) (a : Z) (ty : tdef) (w : value) (k0 : nat) : Prop :=
  exists u, (forall f, (k0 <= f)%nat -> runs (iread (g_env D) f a ty) u) /\ (forall g, runs (expand D j (map_type g u)) (map_type g w)) /\ forall b t, u <> VPtr b t.
(** At any budget from [k0] on. *)
Definition ready (v : env) (j : nat) (a : Z) (ty : tdef) (w : value) (k0 : nat) : Prop := forall k D, (k0 <= k)%nat -> knows D v k -> reads D j a ty w k0.
Lemma ready_more v j a ty w k0 k1 : (k0 <= k1)%nat -> ready v j a ty w k0 -> ready v j a ty w k1.
Proof. intros Hk R k D H K. destruct (R k D ltac:(lia) K) as (u & U1 & U2 & U3). exists u. split; [intros; apply U1; lia | split; [exact U2 | exact U3]]. Qed.
Lemma knows_resolve D v k h t : knows D v k -> resolves_fully v h t -> (exists k1, (k1 <= k)%nat /\ resolve_type k1 v h = Ok t) -> i_resolve (g_env D) (Some h) = Ok t.
Proof. intros (_ & _ & _ & K) R (k1 & Hk & E). rewrite (K h t R). exact (resolve_mono k1 k v h t Hk E). Qed.
Lemma knows_complete v et t : complete_type v et t -> exists k1, forall k D, (k1 <= k)%nat -> knows D v k -> iresolve_alias (g_env D) et = Ok t.
Proof.
  intros Ct. unfold iresolve_alias. unfold complete_type in Ct. destruct (layOf et); try (exists 0%nat; intros; subst; reflexivity). destruct Ct as (h & -> & [k1 E]). exists k1. intros k D Hk K. apply (knows_resolve D v k h t K); [exists k1; exact E | exists k1; auto].
Qed.
Lemma all_levels {A B} (P : nat -> A -> B -> Prop) : (forall a b m n, (m <= n)%nat -> P m a b -> P n a b) -> forall l ws, Forall2 (fun a b => exists m, P m a b) l ws -> exists m, Forall2 (P m) l ws.
Proof.
  intros M. induction 1 as [|a b l ws (m' & H) _ (n & IH)]; [exists 0%nat; constructor|]. exists (m' + n)%nat. constructor; [apply (M a b m'); [lia | exact H]|]. clear - M IH. induction IH as [|a b l ws H _ IH]; constructor; [apply (M a b n); [lia | exact H] | exact IH].
Qed.
Lemma ready_scalar v j a ty t x : (forall k D f, knows D v k -> runs (iread (g_env D) (S f) a ty) (VScalar t x)) -> exists k0, ready v j a ty (VScalar t x) k0.
Proof.
  intros H. exists 1%nat. intros k D Hk K. exists (VScalar t x). split; [intros f Hf; destruct f as [|f]; [lia|]; exact (H k D f K)|]. split; [|discriminate]. intros g. cbn [map_type]. destruct j; apply runs_ret.
Qed.
Lemma ready_via v j a ty a' t w g : (forall D f u, runs (iread (g_env D) f a' t) u -> runs (iread (g_env D) (S f) a ty) (map_type g u)) ->
  (exists k0, ready v j a' t w k0) -> exists k0, ready v j a ty (retyped g w) k0.
Proof.
  intros H (k0 & R). exists (S k0). intros k D Hk K. destruct (R k D ltac:(lia) K) as (u & U1 & U2 & U3). exists (map_type g u). split; [|split].
  - intros f Hf. destruct f as [|f]; [lia|]. apply H. apply U1. lia.
  - intros g'. change (retyped g w) with (map_type g w). rewrite !map_type_comp. apply U2.
  - intros b t0. destruct u; cbn [map_type]; try discriminate. destruct (U3 _ _ eq_refl).
Qed.
Lemma runs_shown D v k j a ty w k0 : knows D v k -> (k0 <= k)%nat -> reads D j a ty w k0 -> runs (expand D (S j) (VPtr a ty)) w.
Proof.
  intros K Hk (u & U1 & U2 & _). cbn [expand]. eapply runs_bind; [unfold read_pointer; cbn [fst snd]; apply U1; rewrite (proj1 K); exact Hk|]. specialize (U2 (fun x => x)). rewrite !map_type_id in U2. exact U2.
Qed.
(** Elements one after the other. *)
Lemma ready_elements v j base t size len ws name a ty : 0 <= size -> u64 base -> u64 (base + Z.of_nat len * size) ->
  (exists k1, forall k D f vs, (k1 <= k)%nat -> knows D v k -> element_ptrs len base size t = Ok vs -> runs (iread (g_env D) (S f) a ty) (VArray name vs)) ->
  Forall2 (fun i w => exists k0, ready v j (base + Z.of_nat i * size) t w k0) (seq 0 len) ws -> exists k0, ready v (S (S j)) a ty (VArray name ws) k0.
Proof.
  intros Hs Ub Ue (k1 & R) F. apply all_levels in F; [|intros i w n n'; apply ready_more]. destruct F as (k0 & A). exists (S (k0 + k1)). intros k D Hk K. exists (VArray name (map (fun i => VPtr (base + Z.of_nat i * size) t) (seq 0 len))). split; [|split; [|discriminate]].
  - intros f Hf. destruct f as [|f]; [lia|]. apply (R k D f (map (fun i => VPtr (base + Z.of_nat i * size) t) (seq 0 len)) ltac:(lia) K). apply elements_exact; assumption.
  - intros g. cbn [map_type expand]. eapply runs_bind; [|apply runs_ret]. apply runs_mapM. clear - A Hk K. induction A as [|i w l n C _ IHA]; [constructor|]. cbn [map]. constructor; [|exact IHA].
    apply (runs_shown D v k j _ t w k0 K ltac:(lia)). apply (C k D ltac:(lia) K).
Qed.
(** The fields of a struct, as pointers, and shown. *)
Definition fields_ready (v : env) (j : nat) (a : Z) (sorted : list (str * Z * tdef)) (ws : list (str * value)) (k0 : nat) : Prop :=
  Forall2 (fun f w => fst w = f_name f /\ u64 (a + f_offset f) /\ ready v j (a + f_offset f) (f_type f) (snd w) k0) sorted ws.
Lemma fields_all v j a sorted ws : Forall2 (fun f w => fst w = f_name f /\ u64 (a + f_offset f) /\ exists k0, ready v j (a + f_offset f) (f_type f) (snd w) k0) sorted ws -> exists k0, fields_ready v j a sorted ws k0.
Proof.
  intros F. apply (all_levels (fun k0 f w => fst w = f_name f /\ u64 (a + f_offset f) /\ ready v j (a + f_offset f) (f_type f) (snd w) k0)).
  - intros f w n n' Hn (A & B & C). split; [exact A|]. split; [exact B | exact (ready_more _ _ _ _ _ _ _ Hn C)].
  - induction F as [|f w l l' (A & B & k0 & C) _ IH]; constructor; [|exact IH]. exists k0. auto.
Qed.
Lemma fields_fit v j a sorted ws k0 : fields_ready v j a sorted ws k0 -> Forall (fun f => u64 (a + f_offset f)) sorted.
Proof. induction 1 as [|f w l l' (_ & U & _) _ IHA]; constructor; assumption. Qed.
Lemma fields_shown D v k j a sorted ws k0 : knows D v k -> (k0 <= k)%nat -> fields_ready v j a sorted ws k0 ->
  runs (imapM (fun f => let! x := expand D (S j) (snd f) in ret (fst f, x)) (map (field_ptr a) sorted)) ws /\ runs (imapM (expand D (S j)) (map snd (map (field_ptr a) sorted))) (map snd ws).
Proof.
  intros K Hk A. split; apply runs_mapM.
  - induction A as [|f w l l' (Nm & _ & C) _ IHA]; [constructor|]. cbn [map]. constructor; [|exact IHA]. cbn [field_ptr fst snd]. eapply runs_bind.
    + apply (runs_shown D v k j _ _ (snd w) k0 K Hk). apply (C k D Hk K).
    + change (fst (fst f)) with (f_name f). rewrite <- Nm. destruct w. apply runs_ret.
  - induction A as [|f w l l' (Nm & _ & C) _ IHA]; [constructor|]. cbn [map]. constructor; [|exact IHA]. cbn [field_ptr fst snd]. apply (runs_shown D v k j _ _ (snd w) k0 K Hk). apply (C k D Hk K).
Qed.
Lemma ready_map v j a ty k vt es ws name : (forall D f, runs (iread (g_env D) (S f) a ty) (VMap name (map (fun p => (VPtr (fst p) k, VPtr (snd p) vt)) es))) ->
  Forall2 (fun e w => (exists k0, ready v j (fst e) k (fst w) k0) /\ exists k0, ready v j (snd e) vt (snd w) k0) es ws -> exists k0, ready v (S (S j)) a ty (VMap name ws) k0.
Proof.
  intros R F. assert (A : exists k0, Forall2 (fun e w => ready v j (fst e) k (fst w) k0 /\ ready v j (snd e) vt (snd w) k0) es ws).
  { apply (all_levels (fun k0 e w => ready v j (fst e) k (fst w) k0 /\ ready v j (snd e) vt (snd w) k0)).
    - intros e w n n' Hn [A B]. split; eapply ready_more; eassumption.
    - clear R. induction F as [|e w l l' [(k1 & A) (k2 & B)] _ IH]; constructor; [|exact IH]. exists (k1 + k2)%nat. split; [apply (ready_more v j _ _ _ k1) | apply (ready_more v j _ _ _ k2)]; try lia; assumption. }
  destruct A as (k0 & A). exists (S k0). intros n D Hk K. eexists. split; [intros f Hf; destruct f as [|f]; [lia|]; apply R|]. split; [|discriminate]. intros g. cbn [map_type expand]. eapply runs_bind; [|apply runs_ret]. apply runs_mapM.
  clear - A Hk K. induction A as [|e w l l' [B C] _ IHA]; [constructor|]. cbn [map]. constructor; [|exact IHA]. cbn [fst snd].
  eapply runs_bind; [apply (runs_shown D v n j _ k (fst w) k0 K ltac:(lia)); apply (B n D ltac:(lia) K)|]. cbn beta. eapply runs_bind; [apply (runs_shown D v n j _ vt (snd w) k0 K ltac:(lia)); apply (C n D ltac:(lia) K)|]. cbn beta. destruct w. apply runs_ret.
Qed.
Lemma variant_pointers ty name ws w (fs : list (str * value)) : map fst fs = map fst ws -> variant_shown ty name ws w ->
  (ws = [] /\ variant_value ty name (VStruct [] fs) = w /\ exists t x, w = VScalar t x) \/
  (exists t, variant_value ty name (VStruct [] fs) = VTuple t (map snd fs) /\ w = VTuple t (map snd ws)) \/
  (exists t, variant_value ty name (VStruct [] fs) = VStruct t fs /\ w = VStruct t ws).
Proof.
  intros E H. assert (P : forall n, starts_with n (st "__") = true <-> positional n) by (intros n; apply starts_with_spec). destruct H as [| l Ne F | l F].
  - left. destruct fs; [|discriminate]. split; [reflexivity|]. split; [reflexivity|]. eexists _, _. reflexivity.
  - right. left. exists (ty ++ st "::" ++ name). split; [|reflexivity]. destruct fs as [|f fs]; [destruct l; [congruence | discriminate]|]. unfold variant_value.
    assert (G : forallb (fun f : str * value => starts_with (fst f) (st "__")) (f :: fs) = true).
    { apply forallb_forall. intros x Hx. apply P. apply (in_map fst) in Hx. rewrite E in Hx. apply in_map_iff in Hx. destruct Hx as (y & <- & Hy). rewrite Forall_forall in F. exact (F y Hy). }
    rewrite G. reflexivity.
  - right. right. exists (ty ++ st "::" ++ name). split; [|reflexivity]. destruct fs as [|f fs]; [destruct l; [inversion F | discriminate]|]. unfold variant_value.
    assert (G : forallb (fun f : str * value => starts_with (fst f) (st "__")) (f :: fs) = false).
    { apply not_true_iff_false. intros G. rewrite forallb_forall in G. apply Exists_exists in F. destruct F as (y & Hy & N). apply N. apply (in_map fst) in Hy. rewrite <- E in Hy. apply in_map_iff in Hy. destruct Hy as (x & Q & Hx). rewrite <- Q. apply P. exact (G x Hx). }
    rewrite G. reflexivity.
Qed.
Lemma fields_names a sorted ws v j k0 : fields_ready v j a sorted ws k0 -> map fst (map (field_ptr a) sorted) = map fst ws.
Proof. induction 1 as [|f w l l' (N & _) _ IH]; [reflexivity|]. cbn [map]. rewrite IH. f_equal. cbn [field_ptr fst]. symmetry. exact N. Qed.

Lemma int_width w : In w [1; 2; 4; 8; 16] -> 0 < w /\ u64 w /\ mem_z w int_sizes = true.
Proof. intros I. unfold u64, two64. destruct I as [<-|[<-|[<-|[<-|[<-|[]]]]]]; repeat split; reflexivity || lia. Qed.
Lemma float_width w : In w [4; 8] -> 0 < w /\ u64 w /\ (w =? 4) || (w =? 8) = true.
Proof. intros I. unfold u64, two64. destruct I as [<-|[<-|[]]]; repeat split; reflexivity || lia. Qed.
Lemma disc_width w : In w [1; 2; 4; 8] -> 0 < w /\ u64 w.
Proof. intros I. unfold u64, two64. destruct I as [<-|[<-|[<-|[<-|[]]]]]; repeat split; lia. Qed.
Lemma runs_vec_info a lo dpo len base : u64 (a + lo) -> u64 (a + dpo) -> holds_uint m (a + lo) 8 len -> holds_uint m (a + dpo) 8 base -> runs (iextract_vec_info a lo dpo) (base, len).
Proof.
  intros U1 U2 H1 H2. unfold iextract_vec_info. destruct (held_uint (a + lo) 8 len) as (bs & R & Ln & V); [lia | exact H1|].
  eapply runs_bind; [apply runs_add; exact U1|]. cbn beta. eapply runs_bind; [apply runs_memory; [exact U1 | split; unfold two64; lia | exact R]|]. cbn beta.
  eapply runs_bind; [apply runs_lift; rewrite Ln; cbn; rewrite V; reflexivity|]. cbn beta. eapply runs_bind; [apply runs_add; exact U2|]. cbn beta. eapply runs_bind; [apply runs_address; [exact U2 | exact H2]|]. apply runs_ret.
Qed.
Lemma runs_text base x : text x -> x <> [] -> u64 base -> u64 (Z.of_nat (List.length (utf8 x))) -> holds m base (utf8 x) -> runs (rdm base (Z.of_nat (List.length (utf8 x)))) (utf8 x).
Proof. intros _ Ne U1 U2 H. apply runs_bytes; [exact U1 | apply utf8_some; exact Ne | exact U2 | exact H]. Qed.
Lemma knows_inner v et t : complete_type v et t -> exists k1, forall k D f u a, (k1 <= k)%nat -> (k1 <= f)%nat -> knows D v k -> (forall f', runs (iread (g_env D) (S f') a t) u) -> runs (iread (g_env D) f a et) u.
Proof.
  intros Ct. destruct (knows_complete v et t Ct) as (k1 & R). exists (S (S k1)). intros k D f u a Hk Hf K H. specialize (R k D ltac:(lia) K). destruct f as [|[|f]]; [lia | lia|]. unfold iresolve_alias in R.
  destruct (layOf et) eqn:E; try (injection R as <-; apply H). remember (S f) as f1 eqn:Ef. cbn [iread]. rewrite E. eapply runs_bind; [apply runs_lift; exact R|]. cbn beta. rewrite Ef. apply H.
Qed.
Lemma active_unique vs x c c' : active vs x c -> active vs x c' -> c = c'.
Proof.
  intros [A | [A1 A2]] [B | [B1 B2]].
  - exact (is_first_unique _ _ _ _ A B).
  - destruct A as (pre & post & -> & Q & _). destruct (B1 c (in_elt _ _ _) Q).
  - destruct B as (pre & post & -> & Q & _). destruct (A1 c' (in_elt _ _ _) Q).
  - exact (is_first_unique _ _ _ _ A2 B2).
Qed.
Lemma found_reads v : forall j a ty w, found v floats m j a ty w -> exists k0, ready v j a ty w k0.
Proof.
  fix IH 5. intros j a ty w H.
  destruct H as [j a ty w x El Iw Ua Hx | j a ty w x El Iw Ua Hx | j a ty b El Ua Hx | j a ty c El Ua Sc Hx | j a ty w bytes El Iw Ua Hx Ln | j a ty El
    | j a ty n sz al fs sorted ws El P So F | j a ty et t len size ws El Ct Sz Hs Ua Ue F | j a ty et dpo lo t base len size ws El U1 U2 H1 H2 Ct Sz Hs Ue F | j a ty lo dpo co et t base len size ws El U1 U2 H1 H2 Ct Sz Hs Ue F
    | j a ty dpo lo base x El U1 U2 H1 H2 Tx Nx Hx | j a ty lo dpo co et base x El U1 U2 H1 H2 Tx Nx Hx | j a ty n h t w El Lo R H
    | j a ty mu t p w El Ua Hp H | j a ty mu t p w El Ua Hp H | j a ty n d so t sz El U1 Id Hd | j a ty n d so t sz x w El U1 Id Hd Nz U2 H
    | j a ty t io dpo p w El U1 Hp H | j a ty t io dpo p w El U1 Hp U2 H | j a ty t io dpo p w El U1 Hp U2 H | j a ty t io dpo w El U1 H | j a ty t io dpo w El U1 H
    | j a ty n d vs sz x c El U1 Hd Fi | j a ty n d vs sz x c t sn ss sal fs sorted ws w El U1 Hd Ac Ct Es P So F V
    | j a ty k vt mv es ws El En F].
  - destruct (int_width w Iw) as (Pw & Uw & Mz). apply ready_scalar. intros k D f K. cbn [iread]. rewrite El. unfold iread_primitive. destruct (held_uint a w x Pw Hx) as (bs & R & Ln & V).
    eapply runs_bind; [apply runs_memory; [exact Ua | exact Uw | exact R]|]. cbn beta. rewrite Mz. apply runs_lift. unfold le_unwrap. rewrite (proj2 (Z.eqb_eq _ _) Ln). cbn [bind display_name]. unfold usz. rewrite (Z.mul_comm w), V. reflexivity.
  - destruct (int_width w Iw) as (Pw & Uw & Mz). apply ready_scalar. intros k D f K. cbn [iread]. rewrite El. unfold iread_primitive. destruct (held_int a w x Pw Hx) as (bs & R & Ln & V).
    eapply runs_bind; [apply runs_memory; [exact Ua | exact Uw | exact R]|]. cbn beta. rewrite Mz. apply runs_lift. unfold le_unwrap. rewrite (proj2 (Z.eqb_eq _ _) Ln). cbn [bind display_name]. unfold usz. rewrite (Z.mul_comm w), V. reflexivity.
  - apply ready_scalar. intros k D f K. cbn [iread]. rewrite El. unfold iread_primitive. destruct (held_uint a 1 b ltac:(lia) Hx) as (bs & R & Ln & V).
    eapply runs_bind; [apply runs_memory; [exact Ua | unfold u64, two64; lia | exact R]|]. cbn beta. apply runs_lift. destruct bs as [|b0 [|? ?]]; [cbn in Ln; lia | | cbn [List.length] in Ln; lia].
    assert (E : b0 = b) by (rewrite <- V; unfold le; cbn -[Z.mul]; lia). subst b0. unfold bool_text. destruct (b =? 0); reflexivity.
  - apply ready_scalar. intros k D f K. cbn [iread]. rewrite El. unfold iread_primitive. destruct (held_uint a 4 (Z.of_N c) ltac:(lia) Hx) as (bs & R & Ln & V).
    eapply runs_bind; [apply runs_memory; [exact Ua | unfold u64, two64; lia | exact R]|]. cbn beta. apply runs_lift. unfold le_unwrap. rewrite (proj2 (Z.eqb_eq _ _) Ln). cbn [bind]. rewrite V.
    assert (Vc : valid_char (Z.of_N c) = true) by (unfold valid_char, scalar in *; lia). rewrite Vc, N2Z.id. reflexivity.
  - destruct (float_width w Iw) as (Pw & Uw & Mz). apply ready_scalar. intros k D f K. cbn [iread]. rewrite El. unfold iread_primitive.
    assert (R : l_memory L s a w = Some bytes) by (rewrite <- Ln; apply Hm; [intros ->; cbn in Ln; lia | exact Hx]).
    eapply runs_bind; [apply runs_memory; [exact Ua | exact Uw | exact R]|]. cbn beta. rewrite Mz. apply runs_lift. unfold le_unwrap. rewrite (proj2 (Z.eqb_eq _ _) Ln). cbn [bind display_name]. unfold usz. destruct K as (_ & _ & -> & _). rewrite (Z.mul_comm w). reflexivity.
  - apply ready_scalar. intros k D f K. cbn [iread]. rewrite El. apply runs_ret.
  - assert (A : exists k0, fields_ready v j a sorted ws k0).
    { apply fields_all. clear - F IH. induction F as [|f w l l' (A & B & C) F G]; constructor; [|exact G]. split; [exact A|]. split; [exact B|]. exact (IH _ _ _ _ C). }
    destruct A as (k0 & A). exists (S k0). intros k D Hk K. exists (VStruct n (map (field_ptr a) sorted)). split; [|split; [|discriminate]].
    + intros f Hf. destruct f as [|f]; [lia|]. cbn [iread]. rewrite El. apply runs_lift. rewrite (sorted_fields a fs sorted P So); [reflexivity|]. exact (fields_fit _ _ _ _ _ _ A).
    + intros g. cbn [map_type expand]. eapply runs_bind; [|apply runs_ret]. exact (proj1 (fields_shown D v k j a sorted ws k0 K ltac:(lia) A)).
  - apply (ready_elements v j a t size len); [exact Hs | exact Ua | exact Ue | |].
    + destruct (knows_complete v et t Ct) as (k1 & R). exists k1. intros k D f vs Hk K Ev. cbn [iread]. rewrite El. unfold iread_primitive. apply runs_lift. rewrite (R k D Hk K). cbn [bind]. unfold known_size. rewrite Sz. cbn [bind]. rewrite Nat2Z.id, Ev. reflexivity.
    + clear - F IH. induction F as [|i w l l' C F G]; constructor; [|exact G]. exact (IH _ _ _ _ C).
  - apply (ready_elements v j base t size len); [exact Hs | exact (word_u64 _ _ H2) | exact Ue | |].
    + destruct (knows_complete v et t Ct) as (k1 & R). exists k1. intros k D f vs Hk K Ev. cbn [iread]. rewrite El. unfold iread_primitive.
      eapply runs_bind; [apply runs_add; exact U1|]. cbn beta. eapply runs_bind; [apply runs_u64; [exact U1 | exact H1]|]. cbn beta. eapply runs_bind; [apply runs_lift; exact (R k D Hk K)|]. cbn beta.
      eapply runs_bind; [apply runs_lift; unfold known_size; rewrite Sz; reflexivity|]. cbn beta. eapply runs_bind; [apply runs_add; exact U2|]. cbn beta. eapply runs_bind; [apply runs_address; [exact U2 | exact H2]|]. cbn beta.
      apply runs_lift. rewrite Nat2Z.id, Ev. reflexivity.
    + clear - F IH. induction F as [|i w l l' C F G]; constructor; [|exact G]. exact (IH _ _ _ _ C).
  - apply (ready_elements v j base t size len); [exact Hs | exact (word_u64 _ _ H2) | exact Ue | |].
    + destruct (knows_complete v et t Ct) as (k1 & R). exists k1. intros k D f vs Hk K Ev. cbn [iread]. rewrite El. unfold iread_std.
      eapply runs_bind; [apply runs_lift; exact (R k D Hk K)|]. cbn beta. eapply runs_bind; [apply runs_lift; unfold known_size; rewrite Sz; reflexivity|]. cbn beta.
      eapply runs_bind; [apply runs_vec_info; eassumption|]. cbn beta iota. apply runs_lift. rewrite Nat2Z.id, Ev. reflexivity.
    + clear - F IH. induction F as [|i w l l' C F G]; constructor; [|exact G]. exact (IH _ _ _ _ C).
  - apply ready_scalar. intros k D f K. cbn [iread]. rewrite El. unfold iread_primitive.
    eapply runs_bind; [apply runs_add; exact U2|]. cbn beta. eapply runs_bind; [apply runs_add; exact U1|]. cbn beta. eapply runs_bind; [apply runs_address; [exact U2 | exact H2]|]. cbn beta. eapply runs_bind; [apply runs_u64; [exact U1 | exact H1]|]. cbn beta.
    eapply runs_bind; [apply runs_text; [exact Tx | exact Nx | exact (word_u64 _ _ H2) | exact (word_u64 _ _ H1) | exact Hx]|]. cbn beta. destruct K as (_ & -> & _ & _). rewrite utf8_roundtrip by exact Tx. apply runs_ret.
  - apply ready_scalar. intros k D f K. cbn [iread]. rewrite El. unfold iread_std. destruct (held_uint (a + lo) 8 _ ltac:(lia) H1) as (bs & R & Ln & V).
    eapply runs_bind; [apply runs_add; exact U1|]. cbn beta. eapply runs_bind; [apply runs_memory; [exact U1 | split; unfold two64; lia | exact R]|]. cbn beta.
    eapply runs_bind; [apply runs_lift; rewrite Ln; cbn; rewrite V; reflexivity|]. cbn beta. eapply runs_bind; [apply runs_add; exact U2|]. cbn beta. eapply runs_bind; [apply runs_address; [exact U2 | exact H2]|]. cbn beta.
    eapply runs_bind; [apply runs_text; [exact Tx | exact Nx | exact (word_u64 _ _ H2) | exact (word_u64 _ _ H1) | exact Hx]|]. cbn beta. destruct K as (_ & -> & _ & _). rewrite utf8_roundtrip by exact Tx. apply runs_ret.
  - destruct (IH _ _ _ _ H) as (k0 & C). destruct R as [k1 E]. exists (S (k0 + k1)). intros k D Hk K. destruct (C k D ltac:(lia) K) as (u & V1 & V2). exists u. split; [|exact V2].
    intros f Hf. destruct f as [|f]; [lia|]. cbn [iread]. rewrite El, Lo. eapply runs_bind; [apply runs_lift; apply (knows_resolve D v k h t K); [exists k1; exact E | exists k1; split; [lia | exact E]]|]. apply V1. lia.
  - apply (ready_via v j a ty p t w); [|exact (IH _ _ _ _ H)]. intros D f u Hu. cbn [iread]. rewrite El. unfold iread_primitive. eapply runs_bind; [apply runs_address; [exact Ua | exact Hp]|]. cbn beta. eapply runs_bind; [exact Hu | apply runs_ret].
  - apply (ready_via v j a ty p t w); [|exact (IH _ _ _ _ H)]. intros D f u Hu. cbn [iread]. rewrite El. unfold iread_primitive. eapply runs_bind; [apply runs_address; [exact Ua | exact Hp]|]. cbn beta. eapply runs_bind; [exact Hu | apply runs_ret].
  - destruct (disc_width _ Id) as (Pw & Uw). apply ready_scalar. intros k D f K. cbn [iread]. rewrite El. unfold iread_std, iread_option. destruct (held_first _ _ _ Pw Hd) as (r & R).
    eapply runs_bind; [apply runs_add; exact U1|]. cbn beta. eapply runs_bind; [apply runs_memory; [exact U1 | exact Uw | exact R]|]. cbn beta iota.
    change (0 mod 256 =? 0) with true. eapply runs_bind; [apply runs_ret|]. cbn beta. unfold wrap_type. cbn [map_type]. apply runs_ret.
  - destruct (disc_width _ Id) as (Pw & Uw). apply (ready_via v j a ty (a + so) t w); [|exact (IH _ _ _ _ H)]. intros D f u Hu. cbn [iread]. rewrite El. unfold iread_std, iread_option. destruct (held_first _ _ _ Pw Hd) as (r & R).
    eapply runs_bind; [apply runs_add; exact U1|]. cbn beta. eapply runs_bind; [apply runs_memory; [exact U1 | exact Uw | exact R]|]. cbn beta iota. rewrite (proj2 (Z.eqb_neq _ _) Nz).
    eapply runs_bind; [eapply runs_bind; [apply runs_add; exact U2 | exact Hu]|]. apply runs_ret.
  - apply (ready_via v j a ty p t w); [|exact (IH _ _ _ _ H)]. intros D f u Hu. cbn [iread]. rewrite El. unfold iread_std. eapply runs_bind; [apply runs_address; [exact U1 | exact Hp]|]. cbn beta. eapply runs_bind; [exact Hu | apply runs_ret].
  - apply (ready_via v j a ty (p + dpo) t w); [|exact (IH _ _ _ _ H)]. intros D f u Hu. cbn [iread]. rewrite El. unfold iread_std. eapply runs_bind; [apply runs_add; exact U1|]. cbn beta. eapply runs_bind; [apply runs_address; [exact U1 | exact Hp]|]. cbn beta. eapply runs_bind; [apply runs_add; exact U2|]. cbn beta. eapply runs_bind; [exact Hu | apply runs_ret].
  - apply (ready_via v j a ty (p + dpo) t w); [|exact (IH _ _ _ _ H)]. intros D f u Hu. cbn [iread]. rewrite El. unfold iread_std. eapply runs_bind; [apply runs_add; exact U1|]. cbn beta. eapply runs_bind; [apply runs_address; [exact U1 | exact Hp]|]. cbn beta. eapply runs_bind; [apply runs_add; exact U2|]. cbn beta. eapply runs_bind; [exact Hu | apply runs_ret].
  - apply (ready_via v j a ty (a + io) t w); [|exact (IH _ _ _ _ H)]. intros D f u Hu. cbn [iread]. rewrite El. unfold iread_std. eapply runs_bind; [apply runs_add; exact U1|]. cbn beta. eapply runs_bind; [exact Hu | apply runs_ret].
  - apply (ready_via v j a ty (a + io) t w); [|exact (IH _ _ _ _ H)]. intros D f u Hu. cbn [iread]. rewrite El. unfold iread_std. eapply runs_bind; [apply runs_add; exact U1|]. cbn beta. eapply runs_bind; [exact Hu | apply runs_ret].
  - apply ready_scalar. intros k D f K. cbn [iread]. rewrite El. unfold iread_c_enum. eapply runs_bind; [apply runs_disc; [exact U1 | exact Hd]|]. cbn beta. apply runs_lift.
    pose proof (DataProofs2.find_first (fun w : str * Z => snd w =? x) (fun y => snd y = x) vs ltac:(intros y; apply Z.eqb_eq)) as Fd. destruct (find (fun w : str * Z => snd w =? x) vs) as [w|].
    + rewrite (is_first_unique _ _ _ _ Fd Fi). reflexivity.
    + destruct Fi as (pre & post & -> & Q & _). exfalso. apply (Fd c); [apply in_elt | exact Q].
  - assert (A : exists k0, fields_ready v j a sorted ws k0).
    { apply fields_all. clear - F IH. induction F as [|f w' l l' (A & B & C) F G]; constructor; [|exact G]. split; [exact A|]. split; [exact B|]. exact (IH _ _ _ _ C). }
    destruct A as (k0 & A). destruct (knows_inner v (v_type c) t Ct) as (k1 & R). exists (S (S (k0 + k1))). intros k D Hk K. exists (variant_value n (v_name c) (VStruct [] (map (field_ptr a) sorted))). split; [|split].
    + intros f Hf. destruct f as [|f]; [lia|]. cbn [iread]. rewrite El. unfold iread_enum. eapply runs_bind.
      * unfold iread_disc. eapply runs_bind; [apply runs_add; exact U1|]. cbn beta. pose proof (runs_disc _ _ _ U1 Hd) as Q. destruct (d_ty d); [exact Q | exact Q | destruct Hd].
      * cbn beta. assert (Se : select_variant (match d_ty d with DImplicit => false | _ => true end) x vs = Ok c).
        { replace (match d_ty d with DImplicit => false | _ => true end) with true by (destruct (d_ty d); [reflexivity | reflexivity | destruct Hd]). pose proof (select_explicit x vs) as Q. destruct (select_variant true x vs) as [w'|?|?|]; [|exfalso; exact (Q c Ac) | destruct Q | destruct Q]. f_equal. exact (active_unique _ _ _ _ Q Ac). }
        eapply runs_bind; [apply runs_lift; exact Se|]. cbn beta. apply (runs_bind _ _ (VStruct sn (map (field_ptr a) sorted))); [|change (variant_value n (v_name c) (VStruct [] (map (field_ptr a) sorted))) with (variant_value n (v_name c) (VStruct sn (map (field_ptr a) sorted))); apply runs_ret]. apply (R k D f _ a); [lia | lia | exact K|].
        intros f'. cbn [iread]. rewrite Es. apply runs_lift. rewrite (sorted_fields a fs sorted P So); [reflexivity|]. exact (fields_fit _ _ _ _ _ _ A).
    + intros g. destruct (fields_shown D v k j a sorted ws k0 K ltac:(lia) A) as [F1 F2].
      destruct (variant_pointers n (v_name c) ws w (map (field_ptr a) sorted) (fields_names _ _ _ _ _ _ A) V) as [(_ & -> & t' & x' & ->) | [(t' & -> & ->) | (t' & -> & ->)]]; cbn [map_type expand].
      * apply runs_ret.
      * eapply runs_bind; [exact F2 | apply runs_ret].
      * eapply runs_bind; [exact F1 | apply runs_ret].
    + intros b t0. unfold variant_value. destruct (map (field_ptr a) sorted) as [|p0 ps]; [discriminate|]. destruct (forallb _ _); discriminate.
  - apply (ready_map v j a ty k vt es).
    + intros D f. cbn [iread]. rewrite El. unfold iread_std. eapply runs_bind; [apply runs_entries; exact En|]. unfold tname. rewrite El. apply runs_ret.
    + clear - F IH. induction F as [|e w l l' [A B] F G]; constructor; [|exact G]. split; [exact (IH _ _ _ _ A) | exact (IH _ _ _ _ B)].
Qed.
End Runs.
