From Coq Require Import Ascii String List ZArith Lia Bool.
From Coq Require Import ZifyBool ZifyNat.
From Verif Require Import Base NumText OMap TypesModel TypesSpec TypesProofs ValueModel DataModel DataSpec DataProofs.
Import ListNotations.
Open Scope Z_scope.

(** ** key order of a B-tree *)
Section Order.
  Variables (m : memory) (nl : bnode) (ks vs : Z) (lt : Z -> Z -> Prop).
  Hypothesis lt_trans : forall a b c, lt a b -> lt b c -> lt a c.
  Notation asc := (strictly_ascending lt).
  Notation tkeys t := (map fst (inorder nl ks vs t)).

  Lemma asc_app l1 l2 : asc l1 -> asc l2 -> (forall x y, In x l1 -> In y l2 -> lt x y) -> asc (l1 ++ l2).
  Proof.
    induction l1 as [|x l1 IH]; simpl; intros H1 H2 H; [exact H2|].
    destruct H1 as [Hx H1]. split.
    - apply Forall_app. split; [exact Hx|]. apply Forall_forall. intros y Hy. apply H; auto.
    - apply IH; auto.
  Qed.

  Lemma keys_in h : forall t, bt_stored m nl ks vs h t -> forall k, In k (tkeys t) -> key_in nl ks t k.
  Proof.
    induction h as [|h IH]; intros t Ht k Hk.
    - inversion Ht as [p n Hlen Hfit Eh Et|]; subst. cbn [inorder map] in Hk.
      rewrite map_map in Hk. apply in_map_iff in Hk. destruct Hk as [i [<- Hi]]. apply in_seq in Hi.
      apply (ki_here nl ks p n [] i). lia.
    - inversion Ht as [|h0 p n cs Hlen Hfit Hcs Hkids Eh Et]; subst.
      destruct cs as [|c0 cs]; [discriminate Hcs|]. cbn [inorder map] in Hk.
      rewrite map_app in Hk. apply in_app_iff in Hk. destruct Hk as [Hk|Hk].
      + apply ki_child with (c := c0); [left; reflexivity|]. apply IH; [|exact Hk]. apply (Hkids 0%nat). reflexivity.
      + apply in_map_iff in Hk. destruct Hk as [kv [Ek Hk]]. apply in_flat_map in Hk. destruct Hk as [[i l] [Hil Hk]].
        cbn [fst snd] in Hk. destruct Hk as [Hk|Hk].
        * subst kv k. apply in_combine_l in Hil. apply in_seq in Hil. apply (ki_here nl ks p n (c0 :: cs) i). lia.
        * pose proof (in_combine_r _ _ _ _ Hil) as Hl. apply in_map_iff in Hl. destruct Hl as [c [<- Hc]].
          apply ki_child with (c := c); [right; exact Hc|]. destruct (In_nth_error _ _ Hc) as [j Hj].
          apply IH; [apply (Hkids (S j)); exact Hj|]. apply in_map_iff. exists kv. auto.
  Qed.

  Lemma node_asc p n (cs : list btree) : forall k,
    (forall c, In c cs -> asc (tkeys c)) ->
    List.length cs = (n - k)%nat -> (k <= n)%nat ->
    (forall i j, (i < j < n)%nat -> lt (bt_key nl ks p i) (bt_key nl ks p j)) ->
    (forall i c x, nth_error cs i = Some c -> In x (tkeys c) ->
       forall j, (j < n)%nat -> if (j <? k + S i)%nat then lt (bt_key nl ks p j) x else lt x (bt_key nl ks p j)) ->
    let L := map fst (flat_map (fun ic => bt_pair nl ks vs p (fst ic) :: snd ic)
                               (combine (seq k (n - k)) (map (inorder nl ks vs) cs))) in
    asc L /\ forall y, In y L -> (exists j, (k <= j < n)%nat /\ y = bt_key nl ks p j) \/
                                 (exists i c, nth_error cs i = Some c /\ In y (tkeys c)).
  Proof.
    induction cs as [|c cs IH]; intros k Hasc Hlen Hkn Hkeys Hcross L.
    - subst L. simpl in Hlen. rewrite <- Hlen. simpl. split; [exact I | intros y []].
    - assert (Hk : (k < n)%nat) by (simpl in Hlen; lia).
      assert (En : (n - k)%nat = S (n - S k)) by lia.
      specialize (IH (S k)). cbv zeta in IH.
      destruct IH as [IHa IHm].
      { intros; apply Hasc; right; assumption. }
      { simpl in Hlen. lia. }
      { lia. }
      { exact Hkeys. }
      { intros i c' x Hi Hx j Hj. specialize (Hcross (S i) c' x Hi Hx j Hj).
        replace (S k + S i)%nat with (k + S (S i))%nat by lia. exact Hcross. }
      set (L' := map fst (flat_map (fun ic => bt_pair nl ks vs p (fst ic) :: snd ic)
                               (combine (seq (S k) (n - S k)) (map (inorder nl ks vs) cs)))) in *.
      assert (EL : L = bt_key nl ks p k :: tkeys c ++ L').
      { subst L L'. rewrite En. cbn [seq map combine flat_map fst snd]. rewrite map_app.
        reflexivity. }
      rewrite EL. split.
      + split.
        * apply Forall_forall. intros y Hy. apply in_app_iff in Hy. destruct Hy as [Hy|Hy].
          { specialize (Hcross 0%nat c y eq_refl Hy k Hk). destruct (k <? k + 1)%nat eqn:Q; [exact Hcross|lia]. }
          { destruct (IHm y Hy) as [[j [Hj ->]]|[i [c' [Hi Hin]]]].
            - apply Hkeys. lia.
            - specialize (Hcross (S i) c' y Hi Hin k Hk). destruct (k <? k + S (S i))%nat eqn:Q; [exact Hcross|lia]. }
        * apply asc_app; [apply Hasc; left; reflexivity | exact IHa |].
          intros x y Hx Hy. destruct (IHm y Hy) as [[j [Hj ->]]|[i [c' [Hi Hin]]]].
          { specialize (Hcross 0%nat c x eq_refl Hx j ltac:(lia)). destruct (j <? k + 1)%nat eqn:Q; [lia|exact Hcross]. }
          { assert (Hb : (S k < n)%nat). { assert (i < List.length cs)%nat by (apply nth_error_Some; congruence). simpl in Hlen. lia. }
            apply lt_trans with (b := bt_key nl ks p (S k)).
            - specialize (Hcross 0%nat c x eq_refl Hx (S k) ltac:(lia)). destruct (S k <? k + 1)%nat eqn:Q; [lia|exact Hcross].
            - specialize (Hcross (S i) c' y Hi Hin (S k) ltac:(lia)). destruct (S k <? k + S (S i))%nat eqn:Q; [exact Hcross|lia]. }
      + intros y [Hy|Hy].
        * left. exists k. split; [lia | symmetry; exact Hy].
        * apply in_app_iff in Hy. destruct Hy as [Hy|Hy].
          { right. exists 0%nat, c. auto. }
          { destruct (IHm y Hy) as [[j [Hj ->]]|[i [c' [Hi Hin]]]].
            - left. exists j. split; [lia|reflexivity].
            - right. exists (S i), c'. auto. }
  Qed.

  Lemma leaf_asc p n : forall k,
    (forall i j, (i < j < k + n)%nat -> lt (bt_key nl ks p i) (bt_key nl ks p j)) ->
    asc (map (bt_key nl ks p) (seq k n)).
  Proof.
    induction n as [|n IH]; intros k H; simpl; [exact I|]. split.
    - apply Forall_forall. intros y Hy. apply in_map_iff in Hy. destruct Hy as [j [<- Hj]]. apply in_seq in Hj. apply H. lia.
    - apply IH. intros; apply H; lia.
  Qed.

  Lemma inorder_asc h : forall t, bt_stored m nl ks vs h t -> search_tree nl ks lt t -> asc (tkeys t).
  Proof.
    induction h as [|h IH]; intros t Ht Hs.
    - inversion Ht as [p n Hlen Hfit Eh Et|]; subst. inversion Hs as [p' n' cs' Hc Hk Hx Et]; subst.
      cbn [inorder map]. rewrite map_map. apply (leaf_asc p n 0). exact Hk.
    - inversion Ht as [|h0 p n cs Hlen Hfit Hcs Hkids Eh Et]; subst. inversion Hs as [p' n' cs' Hc Hk Hx Et]; subst.
      destruct cs as [|c0 cs]; [discriminate Hcs|]. cbn [inorder map].
      assert (Hch : forall i c, nth_error (c0 :: cs) i = Some c -> asc (tkeys c)).
      { intros i c Hi. apply IH; [apply (Hkids i c Hi) | apply Hc; eapply nth_error_In; exact Hi]. }
      assert (Hin : forall i c k, nth_error (c0 :: cs) i = Some c -> In k (tkeys c) -> key_in nl ks c k).
      { intros i c k Hi. apply (keys_in h). apply (Hkids i c Hi). }
      destruct (node_asc p n cs 0) as [A M].
      { intros c Hcin. destruct (In_nth_error _ _ Hcin) as [j Hj]. apply (Hch (S j)). exact Hj. }
      { simpl in Hcs. lia. }
      { lia. }
      { exact Hk. }
      { intros i c x Hi Hxin j Hj. exact (Hx (S i) c x Hi (Hin (S i) c x Hi Hxin) j Hj). }
      rewrite map_app. rewrite Nat.sub_0_r in *. apply asc_app; [apply (Hch 0%nat); reflexivity | exact A |].
      intros x y Hxi Hyi. destruct (M y Hyi) as [[j [Hj ->]]|[i [c [Hi Hy]]]].
      + exact (Hx 0%nat c0 x eq_refl (Hin 0%nat c0 x eq_refl Hxi) j ltac:(lia)).
      + assert (Hn : (0 < n)%nat). { assert (i < List.length cs)%nat by (apply nth_error_Some; congruence). simpl in Hcs. lia. }
        apply lt_trans with (b := bt_key nl ks p 0).
        * exact (Hx 0%nat c0 x eq_refl (Hin 0%nat c0 x eq_refl Hxi) 0%nat Hn).
        * exact (Hx (S i) c y Hi (Hin (S i) c y Hi Hy) 0%nat Hn).
  Qed.
End Order.

Section BTMap.
  Variables (E : env) (m : memory).
  Hypothesis HS : serves E m.
  Lemma read_btreemap a key val lo ro no ho nl ks vs len d h t :
    tsize key = Ok (Some ks) -> tsize val = Ok (Some vs) -> 0 < ks -> 0 < vs ->
    0 <= a + lo < two64 -> 0 <= a + ro < two64 -> 0 <= a + ro + no < two64 -> 0 <= a + ro + ho < two64 ->
    holds_uint m (a + lo) 8 len -> len <> 0 ->
    holds_uint m (a + ro) 8 d -> d <> 0 ->
    holds_uint m (a + ro + no) 8 (bt_ptr t) -> holds_uint m (a + ro + ho) 8 (Z.of_nat h) ->
    bt_stored m nl ks vs h t ->
    read_map_entries E a key val (BTreeMap lo ro no ho nl) = Ok (inorder nl ks vs t).
  Proof.
    intros Hk Hv Pk Pv A1 A2 A3 A4 Hl Nl Hd Nd Hp Hh Ht. cbn [read_map_entries].
    rewrite add64_ok by lia. cbn [bind]. rewrite (read_u64_holds E m HS _ _ Hl). cbn [bind].
    replace (len =? 0) with false by lia.
    rewrite add64_ok by lia. cbn [bind]. rewrite (read_u64_holds E m HS _ _ Hd). cbn [bind].
    replace (d =? 0) with false by lia.
    rewrite !add64_ok by lia. cbn [bind]. rewrite (read_address_holds E m HS _ _ Hp). cbn [bind].
    rewrite (read_u64_holds E m HS _ _ Hh). cbn [bind]. rewrite Nat2Z.id.
    apply (btree_node_ok E m HS nl key val ks vs); assumption.
  Qed.
  Lemma read_empty_map a key val lo ro no ho nl :
    0 <= a + lo < two64 -> holds_uint m (a + lo) 8 0 ->
    read_map_entries E a key val (BTreeMap lo ro no ho nl) = Ok [].
  Proof.
    intros A1 Hl. cbn [read_map_entries].
    rewrite add64_ok by lia. cbn [bind]. rewrite (read_u64_holds E m HS _ _ Hl). reflexivity.
  Qed.

  (** reading a map: pointers to its entries *)
  Lemma read_map_value f a k v mv p es : read_map_entries E a k v mv = Ok es ->
    read E (S f) a (TD (LMap k v mv) p) =
    Ok (VMap (display_name (LMap k v mv)) (map (fun e => (VPtr (fst e) k, VPtr (snd e) v)) es)).
  Proof. intros H. cbn [read layOf read_std]. rewrite H. reflexivity. Qed.
End BTMap.

(** ** enums *)


Lemma find_first {A} (f : A -> bool) (P : A -> Prop) l : (forall x, f x = true <-> P x) ->
  match find f l with Some w => is_first P l w | None => forall x, In x l -> ~ P x end.
Proof.
  intros H. induction l as [|x l IH]; simpl; [intros _ []|].
  destruct (f x) eqn:Fx.
  - exists [], l. split; [reflexivity|]. split; [apply H; exact Fx | intros ? []].
  - assert (Nx : ~ P x) by (rewrite <- H; congruence).
    destruct (find f l) as [w|].
    + destruct IH as (pre & post & -> & Pw & Hpre). exists (x :: pre), post. split; [reflexivity|]. split; [exact Pw|].
      intros y [<-|Hy]; auto.
    + intros y [<-|Hy]; auto.
Qed.
Lemma is_first_unique {A} (P : A -> Prop) l w w' : is_first P l w -> is_first P l w' -> w = w'.
Proof.
  intros (pre & post & -> & Pw & Hpre) (pre' & post' & E & Pw' & Hpre').
  revert pre' E Hpre'. induction pre as [|x pre IH]; intros [|y pre'] E Hpre'; simpl in E.
  - congruence.
  - injection E as E1 E2. subst y. exfalso. apply (Hpre' w); [left; reflexivity | exact Pw].
  - injection E as E1 E2. subst x. exfalso. apply (Hpre w'); [left; reflexivity | exact Pw'].
  - injection E as E1 E2. eapply IH; [intros z Hz; apply Hpre; right; exact Hz | exact E2 | intros z Hz; apply Hpre'; right; exact Hz].
Qed.

Lemma find_combine_snd {A B} (f : B -> bool) (is : list A) (l : list B) : List.length is = List.length l ->
  option_map snd (find (fun p => f (snd p)) (combine is l)) = find f l.
Proof.
  revert l. induction is as [|i is IH]; intros [|x l] H; simpl in *; try discriminate; [reflexivity|].
  destruct (f x); [reflexivity|]. apply IH. lia.
Qed.
Lemma find_index {B} (v : Z) (l : list B) : forall k,
  option_map snd (find (fun p => fst p =? v) (combine (map Z.of_nat (seq k (List.length l))) l)) =
  if (Z.of_nat k <=? v) then nth_error l (Z.to_nat v - k) else None.
Proof.
  induction l as [|x l IH]; intros k; simpl.
  - destruct (Z.of_nat k <=? v); [|reflexivity]. symmetry. apply nth_error_None. simpl. lia.
  - destruct (Z.of_nat k =? v) eqn:Q.
    + replace (Z.of_nat k <=? v) with true by lia. replace (Z.to_nat v - k)%nat with 0%nat by lia. reflexivity.
    + rewrite IH. destruct (Z.of_nat (S k) <=? v) eqn:Q2.
      * replace (Z.of_nat k <=? v) with true by lia. replace (Z.to_nat v - k)%nat with (S (Z.to_nat v - S k)) by lia. reflexivity.
      * replace (Z.of_nat k <=? v) with false by lia. reflexivity.
Qed.


Lemma select_explicit v vs :
  match select_variant true v vs with
  | Ok w => active vs v w
  | Err _ => forall w, ~ active vs v w
  | _ => False
  end.
Proof.
  unfold select_variant.
  assert (L : List.length (map Z.of_nat (seq 0 (List.length vs))) = List.length vs) by (rewrite map_length, seq_length; reflexivity).
  pose proof (find_combine_snd (fun w : str * option Z * tdef => match snd (fst w) with Some x => x =? v | None => false end) _ vs L) as F.
  pose proof (find_first (fun w : str * option Z * tdef => match snd (fst w) with Some x => x =? v | None => false end)
                (fun x => v_disc x = Some v) vs) as F1.
  pose proof (find_first (fun w : str * option Z * tdef => match snd (fst w) with None => true | Some _ => false end)
                (fun x => v_disc x = None) vs) as F2.
  match goal with |- context [find ?g (combine ?l ?k)] => destruct (find g (combine l k)) as [p|] eqn:Fd end; simpl in F; try rewrite Fd in F; simpl in F;
    rewrite <- F in F1.
  - left. refine (F1 _). intros [[n [x|]] t]; unfold v_disc; simpl; rewrite ?Z.eqb_eq; split; congruence.
  - 
    assert (H1 : forall x, In x vs -> v_disc x <> Some v).
    { refine (F1 _). intros [[n [x|]] t]; unfold v_disc; simpl; rewrite ?Z.eqb_eq; split; congruence. }
    assert (H2 := F2 ltac:(intros [[n [x|]] t]; unfold v_disc; simpl; split; congruence)). clear F2.
    match goal with |- context [find ?g vs] => destruct (find g vs) as [w|] end.
    + right. split; [exact H1 | exact H2].
    + intros w [(pre & post & -> & Pw & _)|[_ (pre & post & -> & Pw & _)]].
      * apply (H1 w); [apply in_elt | exact Pw].
      * apply (H2 w); [apply in_elt | exact Pw].
Qed.
Lemma select_implicit v vs :
  match select_variant false v vs with
  | Ok w => 0 <= v /\ nth_error vs (Z.to_nat v) = Some w
  | Err _ => v < 0 \/ Z.of_nat (List.length vs) <= v
  | _ => False
  end.
Proof.
  unfold select_variant. pose proof (find_index v vs 0) as F.
  match goal with |- context [find ?g ?l] => destruct (find g l) as [p|] end; simpl in F; rewrite Nat.sub_0_r in F.
  - destruct (0 <=? v) eqn:Q; [|discriminate]. split; [lia | congruence].
  - destruct (0 <=? v) eqn:Q; [|lia]. right. symmetry in F. apply nth_error_None in F. lia.
Qed.

Section EnumRead.
  Variables (E : env) (m : memory).
  Hypothesis HS : serves E m.

  Lemma read_enum_explicit f a n d vs s p v :
    0 <= a + d_off d < two64 -> holds_disc m (a + d_off d) (d_ty d) v ->
    (forall w, active vs v w ->
       read E (S f) a (TD (LEnum n d vs s) p) = rmap (variant_value n (v_name w)) (read E f a (v_type w))) /\
    ((forall w, ~ active vs v w) -> exists e, read E (S f) a (TD (LEnum n d vs s) p) = Err e).
  Proof.
    intros A H. assert (Ed : match d_ty d with DImplicit => false | _ => true end = true) by (destruct (d_ty d); [reflexivity|reflexivity|destruct H]).
    assert (R : read_disc E a d = Ok v).
    { unfold read_disc. rewrite add64_ok by lia. cbn [bind]. pose proof (read_disc_holds E m HS _ _ _ H) as R.
      destruct (d_ty d); [exact R|exact R|destruct H]. }
    cbn [read layOf]. unfold read_enum. rewrite R. cbn [bind]. rewrite Ed.
    pose proof (select_explicit v vs) as S. 
    split.
    - intros w Hw. destruct (select_variant true v vs) as [w'|e|e|]; try contradiction.
      + cbn [bind]. assert (w' = w) as ->.
        { destruct S as [S|[N S]], Hw as [Hw|[N' Hw]].
          - eapply is_first_unique; eassumption.
          - destruct S as (pre & post & -> & P & _). exfalso. apply (N' w'); [apply in_elt | exact P].
          - destruct Hw as (pre & post & -> & P & _). exfalso. apply (N w); [apply in_elt | exact P].
          - eapply is_first_unique; eassumption. }
        reflexivity.
      + exfalso. eapply S. exact Hw.
    - intros N. destruct (select_variant true v vs) as [w'|e|e|]; try contradiction.
      + exfalso. eapply N. exact S.
      + exists e. reflexivity.
  Qed.

  Lemma read_c_enum_ok f a n d vs s p v :
    holds_disc m a d v ->
    (forall w, is_first (fun x => snd x = v) vs w ->
       read E (S f) a (TD (LCEnum n d vs s) p) = Ok (VScalar (n ++ st "::" ++ fst w) (dec v))) /\
    ((forall w, In w vs -> snd w <> v) -> exists e, read E (S f) a (TD (LCEnum n d vs s) p) = Err e).
  Proof.
    intros H. pose proof (read_disc_holds E m HS _ _ _ H) as R.
    cbn [read layOf]. unfold read_c_enum.
    replace (match d with DInt s0 => read_disc_int E true s0 a | DUInt s0 => read_disc_int E false s0 a
             | DImplicit => Err "Implicit discriminant type is not supported yet" end) with (@Ok Z v)
      by (symmetry; destruct d; [exact R|exact R|destruct H]).
    cbn [bind].
    pose proof (find_first (fun w : str * Z => snd w =? v) (fun x => snd x = v) vs (fun x => Z.eqb_eq _ _)) as F.
    split.
    - intros w Hw. destruct (find _ vs) as [w'|].
      + rewrite (is_first_unique _ _ _ _ F Hw). reflexivity.
      + destruct Hw as (pre & post & -> & P & _). exfalso. apply (F w); [apply in_elt | exact P].
    - intros N. destruct (find _ vs) as [w'|].
      + destruct F as (pre & post & -> & P & _). exfalso. apply (N w'); [apply in_elt | exact P].
      + eexists; reflexivity.
  Qed.
End EnumRead.

(** ** struct fields *)

Lemma struct_fields_get a fs : forall m0 m1 n, osorted cmp_str m0 -> struct_fields a fs m0 = Ok m1 ->
  oget cmp_str n m1 = match last_field n fs with Some (o, t) => Some (VPtr (a + o) t) | None => oget cmp_str n m0 end.
Proof.
  induction fs as [|[[k o] t] fs IH]; intros m0 m1 n Hs H; cbn [struct_fields] in H.
  - injection H as <-. reflexivity.
  - apply bind_ok in H. destruct H as (fa & Hfa & H). apply add64_inv in Hfa. destruct Hfa as [-> _].
    rewrite (IH _ _ n (oinsert_sorted cmp_str wo_str _ _ _ Hs) H). cbn [last_field]. destruct (last_field n fs) as [[o' t']|]; [reflexivity|].
    rewrite (oget_insert cmp_str wo_str) by exact Hs. unfold str_eqb.
    destruct (str_eq_dec n k) as [->|Hne].
    + rewrite cmp_str_refl. reflexivity.
    + destruct (cmp_str n k) eqn:C; try reflexivity. apply cmp_str_eq in C. contradiction.
Qed.
Lemma struct_fields_sorted a fs : forall m0 m1, osorted cmp_str m0 -> struct_fields a fs m0 = Ok m1 -> osorted cmp_str m1.
Proof.
  induction fs as [|[[k o] t] fs IH]; intros m0 m1 Hs H; cbn [struct_fields] in H.
  - injection H as <-. exact Hs.
  - apply bind_ok in H. destruct H as (fa & Hfa & H). eapply IH; [|exact H]. apply (oinsert_sorted cmp_str wo_str). exact Hs.
Qed.
Lemma struct_fields_ok a fs : forall m0, Forall (fun f => 0 <= a + snd (fst f) < two64) fs ->
  exists m1, struct_fields a fs m0 = Ok m1.
Proof.
  induction fs as [|[[k o] t] fs IH]; intros m0 H; cbn [struct_fields]; [eauto|].
  inversion H as [|? ? H1 H2]; subst. simpl in H1. rewrite add64_ok by lia. cbn [bind]. apply IH. exact H2.
Qed.

(** Inserting in ascending key order appends. *)
Lemma oinsert_last {V} (k : str) (v : V) m : (forall k' v', In (k', v') m -> cmp_str k' k = Lt) -> oinsert cmp_str k v m = m ++ [(k, v)].
Proof.
  induction m as [|[k' v'] m IH]; intros H; [reflexivity|].
  cbn [oinsert]. pose proof (H k' v' (or_introl eq_refl)) as L. rewrite (wo_opp _ wo_str k' k), L. cbn [CompOpp].
  rewrite IH by (intros; eapply H; right; eassumption). reflexivity.
Qed.
Fixpoint keys_ascending (fs : list (str * Z * tdef)) : Prop :=
  match fs with
  | [] => True
  | f :: r => Forall (fun g => cmp_str (fst (fst f)) (fst (fst g)) = Lt) r /\ keys_ascending r
  end.
Definition field_ptr (a : Z) (f : str * Z * tdef) : str * value := (fst (fst f), VPtr (a + snd (fst f)) (snd f)).
Lemma struct_fields_asc a fs : forall m0 m1, keys_ascending fs ->
  (forall k v f, In (k, v) m0 -> In f fs -> cmp_str k (fst (fst f)) = Lt) ->
  struct_fields a fs m0 = Ok m1 -> m1 = m0 ++ map (field_ptr a) fs.
Proof.
  induction fs as [|[[k o] t] fs IH]; intros m0 m1 Ha Hm H; cbn [struct_fields] in H.
  - injection H as <-. rewrite app_nil_r. reflexivity.
  - apply bind_ok in H. destruct H as (fa & Hfa & H). apply add64_inv in Hfa. destruct Hfa as [-> _].
    rewrite oinsert_last in H by (intros k' v' Hin; exact (Hm k' v' (k, o, t) Hin (or_introl eq_refl))).
    destruct Ha as [Ha1 Ha2]. simpl in Ha1. rewrite Forall_forall in Ha1.
    apply IH in H; [|exact Ha2|].
    + rewrite H, <- app_assoc. reflexivity.
    + intros k' v' f Hin Hf. apply in_app_iff in Hin. destruct Hin as [Hin|[Hin|[]]].
      * apply (Hm k' v' f Hin). right. exact Hf.
      * injection Hin as <- <-. apply Ha1. exact Hf.
Qed.

(** ** tuple variants *)
Fixpoint names_ascending (l : list str) : Prop :=
  match l with [] => True | x :: r => Forall (fun y => cmp_str x y = Lt) r /\ names_ascending r end.
Lemma names_keys fs : names_ascending (map (fun f => fst (fst f)) fs) -> keys_ascending fs.
Proof.
  induction fs as [|f fs IH]; simpl; [auto|]. intros [H1 H2]. split; [|auto].
  rewrite Forall_map in H1. exact H1.
Qed.
Lemma tuple_names_asc n : (n <= 10)%nat -> names_ascending (map tuple_name (seq 0 n)).
Proof.
  intros H. do 11 (destruct n as [|n]; [vm_compute; repeat split; repeat constructor|]). lia.
Qed.

Section TupleVariant.
  Variables (E : env) (m : memory).
  Hypothesis HS : serves E m.

  Lemma read_struct f a nm s al fs p : Forall (fun f => 0 <= a + snd (fst f) < two64) fs -> keys_ascending fs ->
    read E (S f) a (TD (LStruct nm s al fs) p) = Ok (VStruct nm (map (field_ptr a) fs)).
  Proof.
    intros Ha Hk. cbn [read layOf]. destruct (struct_fields_ok a fs [] Ha) as [m1 H]. rewrite H. cbn [bind].
    rewrite (struct_fields_asc a fs [] m1 Hk) at 1; [reflexivity| |exact H]. intros ? ? ? [].
  Qed.

  Lemma read_tuple_variant f a n d vs s p v w vn vsz al fs q :
    0 <= a + d_off d < two64 -> holds_disc m (a + d_off d) (d_ty d) v -> active vs v w ->
    v_type w = TD (LStruct vn vsz al fs) q ->
    map (fun f => fst (fst f)) fs = map tuple_name (seq 0 (List.length fs)) ->
    (1 <= List.length fs <= 10)%nat ->
    Forall (fun f => 0 <= a + snd (fst f) < two64) fs ->
    read E (S (S f)) a (TD (LEnum n d vs s) p) =
    Ok (VTuple (n ++ st "::" ++ v_name w) (map (fun f => VPtr (a + snd (fst f)) (snd f)) fs)).
  Proof.
    intros A H Hw Ht Hn Hl Hf.
    destruct (read_enum_explicit E m HS (S f) a n d vs s p v A H) as [R _]. rewrite (R w Hw), Ht.
    assert (Hk : keys_ascending fs) by (pose proof (tuple_names_asc (List.length fs) ltac:(lia)) as T; rewrite <- Hn in T; apply names_keys; exact T).
    rewrite read_struct by assumption. unfold rmap. cbn [bind]. f_equal. unfold variant_value.
    destruct fs as [|f0 fs]; [simpl in Hl; lia|]. cbn [map].
    replace (forallb _ _) with true.
    - cbn [snd field_ptr]. rewrite map_map. reflexivity.
    - symmetry. change (field_ptr a f0 :: map (field_ptr a) fs) with (map (field_ptr a) (f0 :: fs)).
      apply forallb_forall. intros x Hx. apply in_map_iff in Hx. destruct Hx as [g [<- Hg]].
      assert (Hg' : In (fst (fst g)) (map tuple_name (seq 0 (List.length (f0 :: fs)))))
        by (rewrite <- Hn; exact (in_map (fun f => fst (fst f)) _ _ Hg)).
      apply in_map_iff in Hg'. destruct Hg' as [i [Ei _]].
      unfold field_ptr. cbn [fst]. rewrite <- Ei. apply starts_with_spec. eexists. reflexivity.
  Qed.

  (** options *)
  Lemma read_option_ok f a nm d so t s p v :
    0 <= a + d_off d < two64 -> 0 <= a + so < two64 -> holds_disc m (a + d_off d) (d_ty d) v ->
    read E (S f) a (TD (LOption nm d so t s) p) =
    if v mod 256 =? 0 then Ok (VScalar (st "Option<" ++ tname t ++ st ">") (st "None"))
    else rmap (wrap_type (st "Option")) (read E f (a + so) t).
  Proof.
    intros A1 A2 H. cbn [read layOf read_std]. unfold read_option. rewrite add64_ok by lia. cbn [bind].
    assert (R : exists bs, rd E (a + d_off d) (disc_size d) = Ok (v mod 256 :: bs)).
    { unfold disc_size. destruct (d_ty d) as [k|k|]; [| |destruct H]; destruct H as [Hk H].
      - destruct H as [Hr H]. assert (1 <= k) by (simpl in Hk; lia).
        pose proof (HS _ _ H) as R. rewrite encode_length, Z2Nat.id in R by lia.
        destruct (Z.to_nat k) as [|k'] eqn:Ek; [lia|]. rewrite encode_S in R.
        exists (encode k' (v mod 2 ^ (8 * k) / 256)). rewrite R. do 2 f_equal.
        symmetry. replace (2 ^ (8 * k)) with (256 * 2 ^ (8 * (k - 1))).
        + rewrite Z.rem_mul_r by (try apply Z.pow_pos_nonneg; lia).
          rewrite Z.mul_comm, Z.mod_add by lia. symmetry. apply Z.mod_mod. lia.
        + change 256 with (2 ^ 8). rewrite <- Z.pow_add_r by lia. f_equal. lia.
      - destruct H as [Hr H]. assert (1 <= k) by (simpl in Hk; lia).
        pose proof (HS _ _ H) as R. rewrite encode_length, Z2Nat.id in R by lia.
        destruct (Z.to_nat k) as [|k'] eqn:Ek; [lia|]. rewrite encode_S in R.
        eexists. exact R. }
    destruct R as [bs R]. rewrite R. cbn [bind].
    destruct (v mod 256 =? 0).
    - reflexivity.
    - rewrite add64_ok by lia. reflexivity.
  Qed.
End TupleVariant.

(** ** fuel: more recursion budget never changes a result *)
Section Mono.
  Variable E : env.
  Definition extends (r r' : Z -> tdef -> res value) : Prop := forall a t, r a t <> Fuel -> r' a t = r a t.
  Lemma bind_fuel {A B} (x x' : res A) (k k' : A -> res B) :
    (x <> Fuel -> x' = x) -> (forall a, k a <> Fuel -> k' a = k a) -> bind x k <> Fuel -> bind x' k' = bind x k.
  Proof.
    intros Hx Hk H. destruct x; simpl in *; try (rewrite Hx by discriminate; simpl; auto). contradiction.
  Qed.
  Lemma read_mono1 f : extends (read E f) (read E (S f)).
  Proof.
    induction f as [|f IH]; intros a t H; [exfalso; apply H; reflexivity|].
    change (read E (S (S f)) a t) with
      (match layOf t with
      | LStruct n _ _ fs => m <- struct_fields a fs [] ;; Ok (VStruct n m)
      | LEnum n d vs _ => read_enum E (read E (S f)) a n d vs
      | LCEnum n d vs _ => read_c_enum E a n d vs
      | LAlias _ => u <- resolve E (locOf t) ;; read E (S f) a u
      | LSmartPtr _ _ _ _ | LMap _ _ _ | LOption _ _ _ _ _ | LResult _ _ _ _ _ _ _ | LString _ _ _ _ | LVec _ _ _ _ =>
          read_std E (read E (S f)) a (layOf t)
      | _ => read_primitive E (read E (S f)) a (layOf t)
      end).
    cbn [read] in H |- *. destruct (layOf t); try reflexivity; cbn [read_primitive read_std] in *;
      try (unfold read_option, read_enum in *);
      repeat first
        [ apply IH; assumption
        | match goal with
          | |- bind ?x ?k = bind ?x ?k' => apply bind_fuel; [reflexivity | intros ? ? | assumption]
          | |- bind ?x ?k = bind ?x' ?k' => apply bind_fuel; [intros ? | intros ? ?; reflexivity | assumption]
          | |- (if ?b then _ else _) = _ => destruct b
          | |- match ?l with [] => _ | _ :: _ => _ end = _ => destruct l
          | |- match ?v with SBox => _ | _ => _ end = _ => destruct v
          | |- ?x = ?x => reflexivity
          end ].
  Qed.
End Mono.
