(** Reading through the client: only reads_only at the target, and against a stopped target gives what the models for a fixed
    memory give. *)
From Coq Require Import Ascii String List ZArith Lia Bool.
From Verif Require Import Base NumText OMap TypesModel ValueModel DataModel AccessModel SynthModel LocModel Utf8 CreateModel MemExample DataSpec ProcModel ProcSpec ProcProofs IoDataModel.
Import ListNotations.
Open Scope Z_scope.

(** ** Events *)
(** The two events reading gives rise to. *)
Definition reads_only (q : request) : Prop := match q with ReadMemory _ _ | ReadRegisterByIndex _ => True | _ => False end.
Ltac only_step :=
  match goal with
  | |- only _ (lift _) => apply only_lift
  | |- only _ (ret _) => exact I
  | |- only _ (fail _) => exact I
  | |- only _ (Ret _) => exact I
  | |- only _ (rdm _ _) => apply only_ask; exact I
  | |- only _ (iread_address _) => unfold iread_address
  | |- only _ (iread_u64 _) => unfold iread_u64
  | |- only _ (iregister _) => apply only_ask; exact I
  | |- only _ (ibind _ _) => apply only_ibind; [|intros]
  | |- only _ (let '(_, _) := ?x in _) => destruct x
  | |- only _ (match ?x with _ => _ end) => destruct x
  | |- only _ (if ?x then _ else _) => destruct x
  end.
Ltac only_go := repeat only_step; auto.
Lemma only_edges_loop edge kv n i : (forall j, only reads_only (edge j)) -> only reads_only (iedges_loop edge kv n i).
Proof. intros H. revert i. induction n as [|n IH]; intros i; cbn [iedges_loop]; only_go. Qed.
Lemma only_btree h ptr k v nl : only reads_only (ibtree_node h ptr k v nl).
Proof.
  revert ptr. induction h as [|h IH]; intros ptr; cbn [ibtree_node]; only_go.
  all: try (apply only_edges_loop; intros); only_go.
Qed.
Lemma only_map_entries a k v m : only reads_only (iread_map_entries a k v m).
Proof. unfold iread_map_entries. only_go; apply only_btree. Qed.
Lemma only_vec_info a lo dpo : only reads_only (iextract_vec_info a lo dpo).
Proof. unfold iextract_vec_info. only_go. Qed.
Lemma only_primitive E rec a l : (forall b t, only reads_only (rec b t)) -> only reads_only (iread_primitive E rec a l).
Proof. intros H. unfold iread_primitive. destruct l; only_go. Qed.
Lemma only_option rec a d so t : (forall b t, only reads_only (rec b t)) -> only reads_only (iread_option rec a d so t).
Proof. intros H. unfold iread_option. only_go. Qed.
Lemma only_std E rec a l : (forall b t, only reads_only (rec b t)) -> only reads_only (iread_std E rec a l).
Proof.
  intros H. unfold iread_std. destruct l; only_go; try apply only_option; try apply only_map_entries; try apply only_vec_info; auto.
Qed.
Lemma only_disc_int g s a : only reads_only (iread_disc_int g s a).
Proof. unfold iread_disc_int. only_go. Qed.
Lemma only_read E n a t : only reads_only (iread E n a t).
Proof.
  revert a t. induction n as [|n IH]; intros a t; [exact I|]. cbn [iread].
  assert (En : forall nm d vs, only reads_only (iread_enum (iread E n) a nm d vs)).
  { intros. unfold iread_enum, iread_disc. only_go; apply only_disc_int. }
  assert (Ec : forall nm d vs, only reads_only (iread_c_enum a nm d vs)).
  { intros. unfold iread_c_enum. only_go; apply only_disc_int. }
  destruct (layOf t); only_go; try (apply only_primitive; auto); try (apply only_std; auto).
Qed.
Lemma only_index_int E n a t i : only reads_only (iindex_int E n a t i).
Proof. unfold iindex_int. destruct (layOf t); only_go; first [apply only_read | apply only_vec_info]. Qed.
Lemma only_find_key E n kt vt key es : only reads_only (ifind_key E n kt vt key es).
Proof. induction es as [|[ka va] es IH]; cbn [ifind_key]; only_go; apply only_read. Qed.
Lemma only_index_map E n a t key : only reads_only (iindex_map E n a t key).
Proof. unfold iindex_map. destruct (layOf t); only_go; first [apply only_map_entries | apply only_find_key]. Qed.
Lemma only_usize a o : only reads_only (iusize_at a o).
Proof. unfold iusize_at. only_go. Qed.
Lemma only_vec_method a lo co m : only reads_only (ivec_method a lo co m).
Proof. unfold ivec_method. only_go; apply only_usize. Qed.
Lemma only_synthetic a l m : only reads_only (isynthetic a l m).
Proof.
  unfold isynthetic, istring_method, ioption_method, iresult_method, islice_method, idisc_value.
  destruct l; only_go; try apply only_vec_method; try apply only_usize.
Qed.
Lemma only_irun an ops stack pieces : (forall q, only reads_only (an q)) -> only reads_only (irun an ops stack pieces).
Proof.
  intros H. cut (forall n ops stack pieces, (List.length ops <= n)%nat -> only reads_only (irun an ops stack pieces)); [intros K; eapply K; reflexivity|].
  clear ops stack pieces. induction n as [|n IH]; intros ops stack pieces L; (destruct ops as [|o ops]; [exact I|]); cbn in L; [lia|].
  destruct o; cbn [irun]; only_go; try (apply IH; cbn in *; lia).
Qed.
Lemma only_location fb b e : only reads_only (iresolve_data_location fb b e).
Proof.
  unfold iresolve_data_location. destruct e as [ops|]; only_go. apply only_irun. intros q. destruct q; only_go.
  unfold iframe_base. destruct fb as [f|]; only_go. apply only_irun. intros q. destruct q; only_go.
Qed.

(** ** A stopped target *)
Section Stopped.
Variables (S : Type) (c : client S) (s : S).
Hypothesis stopped : steady c s.
Variable I : ienv.
(** Memory and registers as the client answers for them. *)
Definition memory_seen (a n : Z) : res (list Z) := memory_of (fst (c s (ReadMemory a n))).
Definition register_seen (r : Z) : res Z := register_of (fst (c s (ReadRegisterByIndex r))).
Definition seen : env := Env memory_seen (i_resolve I) (i_lossy I) (i_float I).
Definition regs_seen : regs := Regs register_seen no_stack_pointer.

Lemma y_rdm a n : yields c s (rdm a n) (rd seen a n).
Proof.
  unfold yields, outcome, after, rdm. cbn. pose proof (stopped (ReadMemory a n) Logic.I) as H. unfold memory_seen. destruct (c s (ReadMemory a n)) as [x s1]. cbn in *. subst. auto.
Qed.
Lemma y_register r : yields c s (iregister r) (get_register regs_seen r).
Proof.
  unfold yields, outcome, after, iregister. cbn. pose proof (stopped (ReadRegisterByIndex r) Logic.I) as H. unfold register_seen. destruct (c s (ReadRegisterByIndex r)) as [x s1]. cbn in *. subst. auto.
Qed.
Lemma y_address a : yields c s (iread_address a) (read_address seen a).
Proof. apply yields_bind; [apply y_rdm|]. intros; apply yields_lift. Qed.
Lemma y_u64 a : yields c s (iread_u64 a) (read_u64 seen a).
Proof. apply yields_bind; [apply y_rdm|]. intros; apply yields_lift. Qed.
Ltac y_step :=
  match goal with
  | |- yields _ _ (lift ?r) ?r => apply yields_lift
  | |- yields _ _ (lift _) _ => apply yields_lift
  | |- yields _ _ (ret _) _ => apply yields_ret
  | |- yields _ _ (fail _) _ => apply yields_ret
  | |- yields _ _ (rdm _ _) _ => apply y_rdm
  | |- yields _ _ (iregister _) _ => apply y_register
  | |- yields _ _ (iread_address _) _ => apply y_address
  | |- yields _ _ (iread_u64 _) _ => apply y_u64
  | |- yields _ _ (ibind _ _) _ => apply yields_bind; [|intros]
  | |- yields _ _ (let '(_, _) := ?x in _) _ => destruct x
  | |- yields _ _ (match ?x with _ => _ end) _ => destruct x
  | |- yields _ _ (if ?x then _ else _) _ => destruct x
  end.
Ltac y_go := repeat y_step; auto.
Lemma y_edges edge edge' kv n i : (forall j, yields c s (edge j) (edge' j)) -> yields c s (iedges_loop edge kv n i) (edges_loop edge' kv n i).
Proof. intros H. revert i. induction n as [|n IH]; intros i; cbn [iedges_loop edges_loop]; y_go. Qed.
Lemma y_btree h ptr k v nl : yields c s (ibtree_node h ptr k v nl) (btree_node seen h ptr k v nl).
Proof.
  revert ptr. induction h as [|h IH]; intros ptr; cbn [ibtree_node btree_node].
  - y_go.
  - do 3 (apply yields_bind; [y_go | intros]). do 1 (apply yields_bind; [y_go | intros]). destruct a2; [|y_go]. apply yields_bind; [y_go | intros]. destruct a2; [|y_go].
    do 3 (apply yields_bind; [y_go | intros]). apply y_edges. intros j. y_go.
Qed.
Lemma y_map_entries a k v m : yields c s (iread_map_entries a k v m) (read_map_entries seen a k v m).
Proof. unfold iread_map_entries, read_map_entries. destruct m; y_go; apply y_btree. Qed.
Lemma y_vec_info a lo dpo : yields c s (iextract_vec_info a lo dpo) (extract_vec_info seen a lo dpo).
Proof. unfold iextract_vec_info, extract_vec_info. y_go. Qed.
Lemma y_primitive rec rec' a l : (forall b t, yields c s (rec b t) (rec' b t)) -> yields c s (iread_primitive I rec a l) (read_primitive seen rec' a l).
Proof. intros H. unfold iread_primitive, read_primitive. destruct l; y_go. Qed.
Lemma y_option rec rec' a d so t : (forall b t, yields c s (rec b t) (rec' b t)) -> yields c s (iread_option rec a d so t) (read_option seen rec' a d so t).
Proof. intros H. unfold iread_option, read_option. y_go. Qed.
Lemma y_std rec rec' a l : (forall b t, yields c s (rec b t) (rec' b t)) -> yields c s (iread_std I rec a l) (read_std seen rec' a l).
Proof.
  intros H. unfold iread_std, read_std. destruct l; y_go; try (apply y_option; auto); try apply y_map_entries; try apply y_vec_info.
Qed.
Lemma y_disc_int g z a : yields c s (iread_disc_int g z a) (read_disc_int seen g z a).
Proof. unfold iread_disc_int, read_disc_int. y_go. Qed.
Lemma y_disc a d : yields c s (iread_disc a d) (read_disc seen a d).
Proof. unfold iread_disc, read_disc. apply yields_bind; [y_go|]. intros. destruct (d_ty d); y_go; apply y_disc_int. Qed.
Theorem y_read n a t : yields c s (iread I n a t) (read seen n a t).
Proof.
  revert a t. induction n as [|n IH]; intros a t; [apply yields_ret|]. cbn [iread read].
  assert (En : forall nm d vs, yields c s (iread_enum (iread I n) a nm d vs) (read_enum seen (read seen n) a nm d vs)).
  { intros. unfold iread_enum, read_enum. apply yields_bind; [apply y_disc|]. intros. y_go. }
  assert (Ec : forall nm d vs, yields c s (iread_c_enum a nm d vs) (read_c_enum seen a nm d vs)).
  { intros. unfold iread_c_enum, read_c_enum. apply yields_bind; [destruct d; y_go; apply y_disc_int|]. intros. y_go. }
  destruct (layOf t); auto; try (apply y_primitive; auto); try (apply y_std; auto); y_go.
Qed.
Lemma y_index_int n a t i : yields c s (iindex_int I n a t i) (index_int seen n a t i).
Proof. unfold iindex_int, index_int. destruct (layOf t); y_go; first [apply y_read | apply y_vec_info]. Qed.
Lemma y_find_key n kt vt key es : yields c s (ifind_key I n kt vt key es) (find_key seen n kt vt key es).
Proof. induction es as [|[ka va] es IH]; cbn [ifind_key find_key]; y_go; apply y_read. Qed.
Lemma y_index_map n a t key : yields c s (iindex_map I n a t key) (index_map seen n a t key).
Proof. unfold iindex_map, index_map. destruct (layOf t); y_go; first [apply y_map_entries | apply y_find_key]. Qed.
Lemma y_usize a o : yields c s (iusize_at a o) (usize_at seen a o).
Proof. unfold iusize_at, usize_at. y_go. Qed.
Lemma y_vec_method a lo co m : yields c s (ivec_method a lo co m) (vec_method seen a lo co m).
Proof. unfold ivec_method, vec_method. y_go; apply y_usize. Qed.
Lemma y_synthetic a l m : yields c s (isynthetic a l m) (synthetic seen a l m).
Proof.
  unfold isynthetic, istring_method, ioption_method, iresult_method, islice_method, idisc_value, synthetic, string_method, option_method, result_method, slice_method, disc_value.
  destruct l; y_go; try apply y_vec_method; try apply y_usize.
Qed.
Lemma y_run an an' ops stack pieces : (forall q, yields c s (an q) (an' q)) -> yields c s (irun an ops stack pieces) (run an' ops stack pieces).
Proof.
  intros H. cut (forall n ops stack pieces, (List.length ops <= n)%nat -> yields c s (irun an ops stack pieces) (run an' ops stack pieces)); [intros K; eapply K; reflexivity|].
  clear ops stack pieces. induction n as [|n IH]; intros ops stack pieces L; (destruct ops as [|o ops]; [apply yields_lift|]); cbn in L; [lia|].
  destruct o; cbn [irun run].
  1,2,3,5,10: apply yields_bind; [apply H|]; intros; apply IH; lia.
  - destruct ops as [|[] ops]; first [apply yields_lift | apply yields_ret | apply IH; cbn in *; lia].
  - destruct stack; [apply yields_ret | apply IH; lia].
  - apply IH; lia.
  - destruct stack; [apply yields_ret|]. destruct ops as [|[] ops]; first [apply yields_lift | apply yields_ret | apply IH; cbn in *; lia].
  - destruct stack; apply IH; lia.
Qed.
Lemma y_location fb b e : yields c s (iresolve_data_location fb b e) (resolve_data_location regs_seen fb b e).
Proof.
  unfold iresolve_data_location, resolve_data_location. destruct e as [ops|]; [|apply yields_ret]. apply yields_bind; [|intros; apply yields_lift].
  apply y_run. intros q. destruct q; try apply yields_lift; try apply y_register.
  unfold iframe_base, frame_base. destruct fb as [f|]; [|apply yields_ret]. apply yields_bind; [apply y_run; intros q; destruct q; apply yields_lift|].
  intros. destruct a as [|[] []]; first [apply yields_ret | apply y_register].
Qed.
End Stopped.
