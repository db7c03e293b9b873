(** C46: reading and expanding always come to an end, whatever the client answers. *)
From Coq Require Import Ascii String List ZArith Lia Bool.
From Verif Require Import Base NumText OMap TypesModel ValueModel DataModel AccessModel SynthModel LocModel FnModel DiscoverModel ExprModel ProcModel ProcSpec ProcProofs IoDataModel EvalModel EvalSpec EvalProofs.
Import ListNotations.
Open Scope Z_scope.

(** Not out of budget, and a result satisfies [Q]. *)
Definition good {A} (Q : A -> Prop) (r : res A) : Prop := r <> Fuel /\ forall a, r = Ok a -> Q a.
Definition lv {A} (Q : A -> Prop) (p : io A) : Prop := leaves (fun _ => True) (good Q) p.
Notation any := (fun _ => True).
Lemma good_bind {A B} (Q : A -> Prop) (R : B -> Prop) r (f : A -> res B) : good Q r -> (forall a, Q a -> good R (f a)) -> good R (bind r f).
Proof. intros [N H] K. destruct r as [a|m|m|]; cbn [bind]; [apply K, H; reflexivity | split; [discriminate | intros ? X; discriminate X] .. | congruence]. Qed.
Lemma good_ok {A} (Q : A -> Prop) a : Q a -> good Q (Ok a).
Proof. intros H. split; [discriminate|]. intros b X. injection X as <-. exact H. Qed.
Lemma good_err {A} (Q : A -> Prop) m : good Q (Err m).
Proof. split; [discriminate | intros ? X; discriminate X]. Qed.
Lemma good_panic {A} (Q : A -> Prop) m : good Q (Panic m).
Proof. split; [discriminate | intros ? X; discriminate X]. Qed.
Lemma good_any {A} (r : res A) : r <> Fuel -> good any r.
Proof. intros H. split; auto. Qed.
Lemma lv_bind {A B} (Q : A -> Prop) (R : B -> Prop) (p : io A) (f : A -> io B) : lv Q p -> (forall a, Q a -> lv R (f a)) -> lv R (ibind p f).
Proof.
  intros H K. eapply leaves_bind; [exact H|]. intros [a|m|m|] [N G]; cbn; [apply K, G; reflexivity | apply good_err | apply good_panic | congruence].
Qed.
Lemma lv_ret {A} (Q : A -> Prop) a : Q a -> lv Q (ret a).
Proof. intros H. now apply good_ok. Qed.
Lemma lv_lift {A} (Q : A -> Prop) r : good Q r -> lv Q (lift r).
Proof. auto. Qed.
Lemma lv_fail {A} (Q : A -> Prop) m : lv Q (@fail A m).
Proof. apply good_err. Qed.
Lemma lv_imp {A} (Q R : A -> Prop) (p : io A) : (forall a, Q a -> R a) -> lv Q p -> lv R p.
Proof. intros H. unfold lv. induction p as [r|q k IH]; cbn [leaves]; [intros [N G]; split; auto|]. intros [_ K]. split; auto. Qed.
Lemma lv_rdm a n : lv any (rdm a n).
Proof. cbn. split; [exact I|]. intros [[]|m]; cbn; split; congruence || auto. Qed.
Lemma lv_register r : lv any (iregister r).
Proof. cbn. split; [exact I|]. intros [[]|m]; cbn; split; congruence || auto. Qed.
Lemma g_add a b : good any (add64 a b).
Proof. unfold add64. destruct (u64_ok _); [now apply good_ok | apply good_panic]. Qed.
Lemma g_sub a b : good any (sub64 a b).
Proof. unfold sub64. destruct (u64_ok _); [now apply good_ok | apply good_panic]. Qed.
Lemma g_mul a b : good any (mul64 a b).
Proof. unfold mul64. destruct (u64_ok _); [now apply good_ok | apply good_panic]. Qed.
Lemma g_unwrap k d : good any (le_unwrap k d).
Proof. unfold le_unwrap. destruct (_ =? _); [now apply good_ok | apply good_panic]. Qed.
Lemma g_size l : good any (size l).
Proof.
  cut (size l <> Fuel); [apply good_any|]. cut (forall n l, (fix h (l : layout) : nat := match l with LArray (TD e _) _ => S (h e) | _ => O end) l = n -> size l <> Fuel); [intros K; eapply K; reflexivity|].
  clear l. induction n as [|n IH]; intros l; destruct l; try (cbn; discriminate); try (destruct v; cbn; discriminate).
  - destruct elem. cbn. discriminate.
  - destruct elem as [e o]. intros H. injection H as H. cbn [size]. specialize (IH e H). destruct (size e) as [[z|]|m|m|]; cbn [bind]; try discriminate; [|congruence].
    unfold mul64. destruct (u64_ok _); cbn; discriminate.
Qed.
Lemma g_tsize t : good any (tsize t).
Proof. apply g_size. Qed.
Lemma g_known t : good any (known_size t).
Proof. unfold known_size. eapply good_bind; [apply g_tsize|]. intros [z|] _; [now apply good_ok | first [apply good_err | apply good_panic]]. Qed.
Lemma lv_address a : lv any (iread_address a).
Proof. eapply lv_bind; [apply lv_rdm|]. intros d _. apply lv_lift. destruct (_ =? _); [now apply good_ok | apply good_err]. Qed.
Lemma lv_u64 a : lv any (iread_u64 a).
Proof. eapply lv_bind; [apply lv_rdm|]. intros d _. apply lv_lift, g_unwrap. Qed.
Lemma lv_length m d : lv any (lift (if Z.of_nat (List.length d) =? 8 then Ok (le d) else Err m)).
Proof. apply lv_lift. destruct (_ =? _); [now apply good_ok | apply good_err]. Qed.
Ltac g_step :=
  match goal with
  | |- good _ (Ok _) => apply good_ok
  | |- good _ (Err _) => apply good_err
  | |- good _ (Panic _) => apply good_panic
  | |- good _ (add64 _ _) => apply g_add
  | |- good _ (sub64 _ _) => apply g_sub
  | |- good _ (mul64 _ _) => apply g_mul
  | |- good _ (le_unwrap _ _) => apply g_unwrap
  | |- good _ (tsize _) => apply g_tsize
  | |- good _ (known_size _) => apply g_known
  | |- good _ (bind _ _) => eapply good_bind; [|intros]
  | |- good _ (match ?x with _ => _ end) => destruct x
  | |- good _ (if ?x then _ else _) => destruct x
  | |- lv _ (lift (if _ then Ok _ else Err _)) => apply lv_length
  | |- lv _ (lift _) => apply lv_lift
  | |- lv _ (ret _) => apply lv_ret
  | |- lv _ (fail _) => apply lv_fail
  | |- lv _ (rdm _ _) => apply lv_rdm
  | |- lv _ (iread_address _) => apply lv_address
  | |- lv _ (iread_u64 _) => apply lv_u64
  | |- lv _ (ibind _ _) => eapply lv_bind; [|intros]
  | |- lv _ (let '(_, _) := ?x in _) => destruct x
  | |- lv _ (match ?x with _ => _ end) => destruct x
  | |- lv _ (if ?x then _ else _) => destruct x
  end.
Ltac g_go := repeat g_step; auto.
Lemma g_pairs kv n i : (forall j, good any (kv j)) -> good any (pairs_loop kv n i).
Proof. intros H. revert i. induction n as [|n IH]; intros i; cbn [pairs_loop]; g_go. Qed.
Lemma lv_edges edge kv n i : (forall j, lv any (edge j)) -> (forall j, good any (kv j)) -> lv any (iedges_loop edge kv n i).
Proof. intros H K. revert i. induction n as [|n IH]; intros i; cbn [iedges_loop]; g_go; auto. Qed.
Lemma lv_btree h ptr k v nl : lv any (ibtree_node h ptr k v nl).
Proof.
  revert ptr. induction h as [|h IH]; intros ptr; cbn [ibtree_node]; repeat (eapply lv_bind; [solve [g_go] | intros ? _]).
  all: destruct a2 as [ks|]; [|apply lv_fail]; eapply lv_bind; [solve [g_go]|]; intros [vs|] _; [|apply lv_fail]; repeat (eapply lv_bind; [solve [g_go] | intros ? _]).
  - apply lv_lift, g_pairs. intros j. destruct (_ && _)%bool; repeat (eapply good_bind; [solve [g_go] | intros ? _]); now apply good_ok.
  - apply lv_edges; intros j.
    + eapply lv_bind; [solve [g_go] | intros ea _]. eapply lv_bind; [apply lv_address | intros x _]. destruct (x =? 0); [now apply lv_ret | apply IH].
    + destruct (_ && _)%bool; repeat (eapply good_bind; [solve [g_go] | intros ? _]); now apply good_ok.
Qed.
Lemma g_slots b slot psz ko vo items n : good any (hash_slots b slot psz ko vo items n).
Proof.
  revert slot n. induction b as [|x b IH]; intros slot n; cbn [hash_slots]; [now apply good_ok|]. destruct (x <? 128).
  - repeat (eapply good_bind; [solve [g_go] | intros ? _]). destruct (_ <=? _); [now apply good_ok|]. eapply good_bind; [apply g_sub | intros ? _]. eapply good_bind; [apply IH | intros ? _]. now apply good_ok.
  - eapply good_bind; [apply g_sub | intros ? _]. apply IH.
Qed.
Lemma lv_map_entries a k v m : lv any (iread_map_entries a k v m).
Proof.
  destruct m; cbn [iread_map_entries]; repeat first [eapply lv_bind; [solve [g_go] | intros ? _] | match goal with |- lv _ (if ?x then _ else _) => destruct x end]; try (now apply lv_ret).
  - apply lv_lift, g_slots.
  - apply lv_btree.
  - apply lv_lift, good_panic.
Qed.
Lemma lv_vec_info a lo dpo : lv any (iextract_vec_info a lo dpo).
Proof. unfold iextract_vec_info. repeat (eapply lv_bind; [solve [g_go] | intros ? _]). now apply lv_ret. Qed.

Section Term.
Variables (I : ienv) (T : tdef -> Prop).
Hypothesis names : forall l, i_resolve I l <> Fuel.
Hypothesis Cl : closed I T.
(** Every pointer in the value is to a type in [T]. *)
Inductive ptrs_in : value -> Prop :=
| pi_ptr a t : T t -> ptrs_in (VPtr a t)
| pi_scalar ty x : ptrs_in (VScalar ty x)
| pi_array ty l : Forall ptrs_in l -> ptrs_in (VArray ty l)
| pi_struct ty l : Forall (fun f => ptrs_in (snd f)) l -> ptrs_in (VStruct ty l)
| pi_tuple ty l : Forall ptrs_in l -> ptrs_in (VTuple ty l)
| pi_map ty l : Forall (fun e => ptrs_in (fst e) /\ ptrs_in (snd e)) l -> ptrs_in (VMap ty l).
Lemma pi_map_type f v : ptrs_in v -> ptrs_in (map_type f v).
Proof. destruct 1; constructor; auto. Qed.
Lemma pi_variant n vn v : ptrs_in v -> ptrs_in (variant_value n vn v).
Proof.
  intros H. unfold variant_value. destruct v; auto. destruct fields as [|f fields]; [constructor|]. inversion H as [| | |ty0 l0 F| |]; subst. destruct (forallb _ _); constructor; auto. now apply Forall_map.
Qed.
Lemma pi_elements n a es t : T t -> good (Forall ptrs_in) (element_ptrs n a es t).
Proof.
  intros H. revert a. induction n as [|n IH]; intros a; cbn [element_ptrs]; [now apply good_ok|]. eapply good_bind; [apply g_add | intros ? _]. eapply good_bind; [apply IH | intros l L]. apply good_ok. constructor; [now constructor | exact L].
Qed.
Lemma oinsert_forall {A} (P : A -> Prop) k v (m : list (str * A)) : P v -> Forall (fun f => P (snd f)) m -> Forall (fun f => P (snd f)) (oinsert cmp_str k v m).
Proof. intros H. induction 1 as [|[k' v'] m Hf Hm IH]; cbn [oinsert]; [constructor; auto|]. destruct (cmp_str k k'); constructor; auto. Qed.
Lemma pi_fields a fs m : (forall f, In f fs -> T (snd f)) -> Forall (fun f => ptrs_in (snd f)) m -> good (Forall (fun f => ptrs_in (snd f))) (struct_fields a fs m).
Proof.
  revert m. induction fs as [|[[n o] t] fs IH]; intros m H M; cbn [struct_fields]; [now apply good_ok|]. eapply good_bind; [apply g_add | intros fa _].
  apply IH; [intros; apply H; now right|]. apply oinsert_forall; [|exact M]. constructor. apply (H (n, o, t)). now left.
Qed.
Lemma g_alias t : good (fun u => match layOf t with LAlias _ => i_resolve I (locOf t) = Ok u | _ => u = t end) (iresolve_alias I t).
Proof. unfold iresolve_alias. destruct (layOf t); try (now apply good_ok). split; [apply names | auto]. Qed.
Lemma elem_in et : (match layOf et with LAlias _ => forall w, i_resolve I (locOf et) = Ok w -> T w | _ => T et end) -> forall u,
  (match layOf et with LAlias _ => i_resolve I (locOf et) = Ok u | _ => u = et end) -> T u.
Proof. destruct (layOf et); intros H u E; try (subst; exact H). now apply H. Qed.
Lemma lv_disc_int g s a : lv any (iread_disc_int g s a).
Proof. unfold iread_disc_int. eapply lv_bind; [apply lv_rdm | intros m _]. apply lv_lift. destruct (mem_z _ _); [|apply good_err]. eapply good_bind; [apply g_unwrap | intros ? _]. now apply good_ok. Qed.
Lemma lv_disc a d : lv any (iread_disc a d).
Proof.
  unfold iread_disc. eapply lv_bind; [apply lv_lift, g_add | intros da _]. destruct (d_ty d); try apply lv_disc_int.
  eapply lv_bind; [apply lv_lift, g_add | intros da2 _]. eapply lv_bind; [apply lv_rdm | intros m _]. apply lv_lift. eapply good_bind; [apply g_unwrap | intros ? _]. now apply good_ok.
Qed.
Lemma g_select x v vs : good (fun w => In w vs) (select_variant x v vs).
Proof.
  unfold select_variant. destruct (find _ (combine _ _)) as [p|] eqn:F.
  - apply good_ok. apply find_some in F. destruct F as [F _]. destruct p as [i w]. now apply in_combine_r in F.
  - destruct x; [|apply good_err]. destruct (find _ vs) as [w|] eqn:G; [|apply good_err]. apply good_ok. now apply find_some in G.
Qed.
Ltac quick := repeat (eapply (lv_bind any); [solve [repeat g_step; auto] | intros ? _]).
Theorem lv_read k : forall a t, T t -> ends I k t -> lv ptrs_in (iread I k a t).
Proof.
  induction k as [|k IH]; intros a t Ht He; [destruct He|]. pose proof (Cl t Ht) as C. cbn [ends] in He. cbn [iread].
  assert (Sc : forall ty x, lv ptrs_in (ret (VScalar ty x))) by (intros; apply lv_ret; constructor).
  destruct (layOf t) eqn:L; cbn [iread_primitive iread_std]; try (now apply lv_lift, good_panic); try (now apply Sc).
  - (* array *) apply lv_lift. eapply good_bind; [apply g_alias | intros u Hu]. eapply good_bind; [apply g_known | intros es _]. eapply good_bind; [apply pi_elements; eapply elem_in; eauto | intros vs V]. apply good_ok. now constructor.
  - (* bool *) quick. apply lv_lift. destruct a0; [apply good_panic | apply good_ok; constructor].
  - (* char *) quick. apply lv_lift. eapply good_bind; [apply g_unwrap | intros u _]. destruct (valid_char u); [apply good_ok; constructor | apply good_err].
  - (* float *) quick. apply lv_lift. destruct (_ || _)%bool; [|apply good_err]. eapply good_bind; [apply g_unwrap | intros u _]. apply good_ok; constructor.
  - (* int *) quick. apply lv_lift. destruct (mem_z _ _); [|apply good_err]. eapply good_bind; [apply g_unwrap | intros u _]. apply good_ok; constructor.
  - (* pointer *) quick. eapply lv_bind; [apply IH; eauto | intros v V]. apply lv_ret. now apply pi_map_type.
  - (* reference *) quick. eapply lv_bind; [apply IH; eauto | intros v V]. apply lv_ret. now apply pi_map_type.
  - (* slice *) quick. eapply lv_bind; [apply lv_lift, g_alias | intros u Hu]. quick. apply lv_lift. eapply good_bind; [apply pi_elements; eapply elem_in; eauto | intros vs V]. apply good_ok. now constructor.
  - (* str slice *) quick. apply Sc.
  - (* uint *) quick. apply lv_lift. destruct (mem_z _ _); [|apply good_err]. eapply good_bind; [apply g_unwrap | intros u _]. apply good_ok; constructor.
  - (* smart pointer *) destruct v; quick; try (now apply lv_lift, good_panic); (eapply lv_bind; [apply IH; eauto | intros w W]); apply lv_ret; now apply pi_map_type.
  - (* map *) eapply lv_bind; [apply lv_map_entries | intros es _]. apply lv_ret. destruct C as [Ck Cv]. constructor. apply Forall_map. apply Forall_forall. intros e _. split; now constructor.
  - (* option *) unfold iread_option. quick. destruct a1 as [|b m]; [apply lv_lift, good_panic|]. eapply lv_bind; [|intros v V; apply lv_ret, pi_map_type; exact V]. destruct (b =? 0); [apply Sc|]. quick. now apply IH.
  - (* string *) quick. apply Sc.
  - (* vec *) eapply lv_bind; [apply lv_lift, g_alias | intros u Hu]. quick. eapply lv_bind; [apply lv_vec_info|]. intros [p n] _. apply lv_lift. eapply good_bind; [apply pi_elements; eapply elem_in; eauto | intros vs V]. apply good_ok. now constructor.
  - (* struct *) apply lv_lift. eapply good_bind; [apply pi_fields; [exact C | constructor] | intros m M]. apply good_ok. now constructor.
  - (* enum *) unfold iread_enum. eapply lv_bind; [apply lv_disc | intros v _]. eapply lv_bind; [apply lv_lift, g_select | intros w W]. eapply lv_bind; [apply IH; [now apply C | now apply He] | intros x X]. apply lv_ret. now apply pi_variant.
  - (* c enum *) unfold iread_c_enum. eapply lv_bind; [destruct d; try apply lv_disc_int; apply lv_fail | intros v _]. apply lv_lift. destruct (find _ _); [apply good_ok; constructor | apply good_err].
  - (* alias *) eapply lv_bind; [apply lv_lift; split; [apply names | intros u U; exact U] | intros u U]. apply IH; [now apply C | now apply He].
Qed.
Lemma lv_imapM {A B} (P : A -> Prop) (Q : B -> Prop) (f : A -> io B) l : (forall a, P a -> lv Q (f a)) -> Forall P l -> lv (Forall Q) (imapM f l).
Proof. intros H. induction 1 as [|a l Ha Hl IH]; cbn [imapM]; [apply lv_ret; constructor|]. eapply lv_bind; [apply H, Ha | intros b Hb]. eapply lv_bind; [exact IH | intros r R]. apply lv_ret. now constructor. Qed.
End Term.
Theorem lv_expand D T k v : (forall l, i_resolve (g_env D) l <> Fuel) -> closed (g_env D) T -> (forall t, T t -> ends (g_env D) (g_fuel D) t) -> ptrs_in T v -> lv (ptrs_in T) (expand D k v).
Proof.
  intros N C E. revert v. induction k as [|k IH]; intros v V; [now apply lv_ret|]. cbn [expand]. destruct V as [a t Ht|ty x|ty l F|ty l F|ty l F|ty l F].
  - eapply lv_bind; [apply (lv_read _ T N C); [exact Ht | now apply E] | exact IH].
  - apply lv_ret. constructor.
  - eapply lv_bind; [eapply lv_imapM; [exact IH | exact F] | intros r R]. apply lv_ret. now constructor.
  - eapply lv_bind; [eapply (lv_imapM _ (fun g => ptrs_in T (snd g))); [|exact F] | intros r R; apply lv_ret; now constructor].
    intros f Hf. eapply lv_bind; [apply IH, Hf | intros x X]. now apply lv_ret.
  - eapply lv_bind; [eapply lv_imapM; [exact IH | exact F] | intros r R]. apply lv_ret. now constructor.
  - eapply lv_bind; [eapply (lv_imapM _ (fun g => ptrs_in T (fst g) /\ ptrs_in T (snd g))); [|exact F] | intros r R; apply lv_ret; now constructor].
    intros f [Hf Hg]. eapply lv_bind; [apply IH, Hf | intros x X]. eapply lv_bind; [apply IH, Hg | intros y Y]. now apply lv_ret.
Qed.
Lemma lv_outcome {A} (Q : A -> Prop) (p : io A) S (c : client S) s : lv Q p -> good Q (outcome c p s).
Proof.
  unfold outcome. revert s. induction p as [r|q k IH]; intros s H; cbn [exec]; [exact H|]. destruct H as [_ H]. destruct (c s q) as [x s1]. specialize (IH x s1 (H x)). destruct (exec c (k x) s1) as [[t r] s2]. exact IH.
Qed.
