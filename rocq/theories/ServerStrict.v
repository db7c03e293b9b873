(** An event that is not answered as asked ends the evaluation. *)
From Coq Require Import Ascii String List ZArith Lia Bool.
From Verif Require Import Base NumText OMap TypesModel ValueModel DataModel AccessModel SynthModel LocModel Utf8 CreateModel FnModel DiscoverModel ExprModel ProcModel ProcSpec ProcProofs IoDataModel EvalModel EvalSpec EvalProofs EvalCalls ServerModel ServerSpec ServerProofs.
Import ListNotations.
Open Scope Z_scope.

(** ** Specification *)
(** The answer is of the kind that was asked for. *)
Definition fits (q : request) (a : answer) : Prop :=
  match q, a with
  | ReadMemory _ _, Replied (MemoryData _)
  | ReadRegister _, Replied (RegisterData _)
  | ReadRegisterByIndex _, Replied (RegisterData _)
  | GetFrameInfo, Replied (FrameInfo _ _ _)
  | GetThreadInfo, Replied (ThreadInfo _ _)
  | GetBaseAddress, Replied (BaseAddress _)
  | EvaluateLLDB _, Replied (ExpressionResult _)
  | ExecuteMethod _ _ _ _, Replied (MethodResult _)
  | ExecuteFunction _ _ _, Replied (FunctionResult _)
  | GetVariableType _, Replied (VariableTypeResult _)
  | AllocateMemory _, Replied (MemoryAllocated _)
  | WriteMemory _ _, Replied MemoryWritten => True
  | _, _ => False
  end.
(** The arguments of all calls in the expression are literals (or nothing that could be an argument). *)
Definition literal_argument (a : expr) : Prop := match a with EVariable _ | EField _ _ | EIndex _ _ | EMethodCall _ _ _ | ECall _ _ => False | _ => True end.
Definition literal_arguments (e : expr) : Prop :=
  forall x, part x e -> match x with EMethodCall _ _ args | ECall _ args => Forall literal_argument args | _ => True end.

(** ** Proof *)
Definition rejects {A} (bad : A -> Prop) (p : prog A) : Prop := match p with Ret a => bad a | Ask _ _ => False end.
Fixpoint strict {A} (bad : A -> Prop) (p : prog A) : Prop :=
  match p with Ret _ => True | Ask q k => forall x, (~ fits q x -> rejects bad (k x)) /\ strict bad (k x) end.
Definition erred {A} (r : res A) : Prop := match r with Err _ => True | _ => False end.
Definition istrict {A} (p : io A) : Prop := strict erred p.
Lemma strict_bind {A B} (bad : A -> Prop) (bad' : B -> Prop) (p : prog A) (f : A -> prog B) :
  strict bad p -> (forall a, strict bad' (f a)) -> (forall a, bad a -> rejects bad' (f a)) -> strict bad' (pbind p f).
Proof.
  intros H K L. induction p as [a|q k IH]; cbn [pbind strict]; [apply K|]. intros x. destruct (H x) as [H1 H2]. split; [|now apply IH].
  intros N. specialize (H1 N). destruct (k x) as [a|q' k']; [|destruct H1]. cbn [pbind]. now apply L.
Qed.
Lemma istrict_bind {A B} (p : io A) (f : A -> io B) : istrict p -> (forall a, istrict (f a)) -> istrict (ibind p f).
Proof. intros H K. eapply strict_bind; [exact H | |]; intros [a|m|m|]; cbn; try tauto. intros; apply K. Qed.
Lemma istrict_imapM {A B} (f : A -> io B) l : (forall a, istrict (f a)) -> istrict (imapM f l).
Proof. intros H. induction l as [|a l IH]; [exact I|]. cbn [imapM]. apply istrict_bind; [apply H|]. intros. apply istrict_bind; [exact IH|]. intros; exact I. Qed.
Lemma istrict_rdm a n : istrict (rdm a n).
Proof. intros x. split; [|exact I]. destruct x as [[]|]; cbn; tauto. Qed.
Lemma istrict_register r : istrict (iregister r).
Proof. intros x. split; [|exact I]. destruct x as [[]|]; cbn; tauto. Qed.
Lemma istrict_alloc n : istrict (ialloc n).
Proof. intros x. split; [|exact I]. destruct x as [[]|]; cbn; tauto. Qed.
Lemma istrict_write a d : istrict (iwrite a d).
Proof. intros x. split; [|exact I]. destruct x as [[]|]; cbn; tauto. Qed.
Ltac strict_step :=
  match goal with
  | |- istrict (lift _) => exact I
  | |- istrict (ret _) => exact I
  | |- istrict (fail _) => exact I
  | |- istrict (Ret _) => exact I
  | |- istrict (rdm _ _) => apply istrict_rdm
  | |- istrict (iread_address _) => unfold iread_address
  | |- istrict (iread_u64 _) => unfold iread_u64
  | |- istrict (iregister _) => apply istrict_register
  | |- istrict (ibind _ _) => apply istrict_bind; [|intros]
  | |- istrict (let '(_, _) := ?x in _) => destruct x
  | |- istrict (match ?x with _ => _ end) => destruct x
  | |- istrict (if ?x then _ else _) => destruct x
  end.
Ltac strict_go := repeat strict_step; auto.
Lemma istrict_edges edge kv n i : (forall j, istrict (edge j)) -> istrict (iedges_loop edge kv n i).
Proof. intros H. revert i. induction n as [|n IH]; intros i; cbn [iedges_loop]; strict_go. Qed.
Lemma istrict_btree h ptr k v nl : istrict (ibtree_node h ptr k v nl).
Proof. revert ptr. induction h as [|h IH]; intros ptr; cbn [ibtree_node]; strict_go. all: try (apply istrict_edges; intros); strict_go. Qed.
Lemma istrict_map a k v m : istrict (iread_map_entries a k v m).
Proof. unfold iread_map_entries. strict_go; apply istrict_btree. Qed.
Lemma istrict_vec a lo dpo : istrict (iextract_vec_info a lo dpo).
Proof. unfold iextract_vec_info. strict_go. Qed.
Lemma istrict_primitive E rec a l : (forall b t, istrict (rec b t)) -> istrict (iread_primitive E rec a l).
Proof. intros H. unfold iread_primitive. destruct l; strict_go. Qed.
Lemma istrict_option rec a d so t : (forall b t, istrict (rec b t)) -> istrict (iread_option rec a d so t).
Proof. intros H. unfold iread_option. strict_go. Qed.
Lemma istrict_std E rec a l : (forall b t, istrict (rec b t)) -> istrict (iread_std E rec a l).
Proof. intros H. unfold iread_std. destruct l; strict_go; try apply istrict_option; try apply istrict_map; try apply istrict_vec; auto. Qed.
Lemma istrict_disc g s a : istrict (iread_disc_int g s a).
Proof. unfold iread_disc_int. strict_go. Qed.
Lemma istrict_read E n a t : istrict (iread E n a t).
Proof.
  revert a t. induction n as [|n IH]; intros a t; [exact I|]. cbn [iread].
  assert (En : forall nm d vs, istrict (iread_enum (iread E n) a nm d vs)).
  { intros. unfold iread_enum, iread_disc. strict_go; apply istrict_disc. }
  assert (Ec : forall nm d vs, istrict (iread_c_enum a nm d vs)).
  { intros. unfold iread_c_enum. strict_go; apply istrict_disc. }
  destruct (layOf t); strict_go; try (apply istrict_primitive; auto); try (apply istrict_std; auto).
Qed.
Lemma istrict_index_int E n a t i : istrict (iindex_int E n a t i).
Proof. unfold iindex_int. destruct (layOf t); strict_go; first [apply istrict_read | apply istrict_vec]. Qed.
Lemma istrict_find_key E n kt vt key es : istrict (ifind_key E n kt vt key es).
Proof. induction es as [|[ka va] es IH]; cbn [ifind_key]; strict_go; apply istrict_read. Qed.
Lemma istrict_index_map E n a t key : istrict (iindex_map E n a t key).
Proof. unfold iindex_map. destruct (layOf t); strict_go; first [apply istrict_map | apply istrict_find_key]. Qed.
Lemma istrict_usize a o : istrict (iusize_at a o).
Proof. unfold iusize_at. strict_go. Qed.
Lemma istrict_vec_method a lo co m : istrict (ivec_method a lo co m).
Proof. unfold ivec_method. strict_go; apply istrict_usize. Qed.
Lemma istrict_synthetic a l m : istrict (isynthetic a l m).
Proof.
  unfold isynthetic, istring_method, ioption_method, iresult_method, islice_method, idisc_value.
  destruct l; strict_go; try apply istrict_vec_method; try apply istrict_usize.
Qed.
Lemma istrict_irun an ops stack pieces : (forall q, istrict (an q)) -> istrict (irun an ops stack pieces).
Proof.
  intros H. cut (forall n ops stack pieces, (List.length ops <= n)%nat -> istrict (irun an ops stack pieces)); [intros K; eapply K; reflexivity|].
  clear ops stack pieces. induction n as [|n IH]; intros ops stack pieces L; (destruct ops as [|o ops]; [exact I|]); cbn in L; [lia|].
  destruct o; cbn [irun]; strict_go; try (apply IH; cbn in *; lia).
Qed.
Lemma istrict_location fb b e : istrict (iresolve_data_location fb b e).
Proof.
  unfold iresolve_data_location. destruct e as [ops|]; strict_go. apply istrict_irun. intros q. destruct q; strict_go.
  unfold iframe_base. destruct fb as [f|]; strict_go. apply istrict_irun. intros q. destruct q; strict_go.
Qed.
Lemma istrict_create v t : istrict (icreate_typed_value v t).
Proof.
  unfold icreate_typed_value, icreate_str_slice, icreate_string. destruct (layOf t); try exact I.
  all: repeat first [exact I | apply istrict_alloc | apply istrict_write | strict_step].
Qed.

Definition estrict {A} (x : ev A) : Prop := forall pc, strict (fun r => erred (fst r)) (x pc).
Lemma estrict_bind {A B} (x : ev A) (f : A -> ev B) : estrict x -> (forall a, estrict (f a)) -> estrict (ebind x f).
Proof. intros H K pc. eapply strict_bind; [apply H | |]; intros [[a|m|m|] pc1]; cbn; try tauto. apply K. Qed.
Lemma estrict_io {A} (p : io A) : istrict p -> estrict (eio p).
Proof. intros H pc. eapply strict_bind; [exact H | |]; intros [a|m|m|]; cbn; tauto. Qed.
Lemma estrict_lift {A} (r : res A) : estrict (elift r).
Proof. intros pc. exact I. Qed.
Lemma estrict_ret {A} (a : A) : estrict (eret a).
Proof. intros pc. exact I. Qed.
Lemma estrict_fail {A} m : @estrict A (efail m).
Proof. intros pc. exact I. Qed.
Section Eval.
Variable D : dbg.
Lemma istrict_expand d v : istrict (expand D d v).
Proof.
  revert v. induction d as [|d IH]; intros v; [exact I|]. cbn [expand]. destruct v as [ty x|ty l|ty l|ty l|ty l|a t]; try exact I.
  - apply istrict_bind; [apply istrict_imapM; intros; apply IH|]. intros; exact I.
  - apply istrict_bind; [apply istrict_imapM; intros; apply istrict_bind; [apply IH | intros; exact I]|]. intros; exact I.
  - apply istrict_bind; [apply istrict_imapM; intros; apply IH|]. intros; exact I.
  - apply istrict_bind; [apply istrict_imapM; intros; apply istrict_bind; [apply IH | intros; apply istrict_bind; [apply IH | intros; exact I]]|]. intros; exact I.
  - apply istrict_bind; [apply istrict_read|]. intros; apply IH.
Qed.
Lemma istrict_result p : istrict (pointer_to_result D p).
Proof. apply istrict_bind; [apply istrict_read|]. intros. apply istrict_bind; [apply istrict_expand|]. intros; exact I. Qed.
Lemma istrict_int n p : istrict (read_int D n p).
Proof. revert p. induction n as [|n IH]; intros p; [exact I|]. cbn [read_int]. apply istrict_bind; [apply istrict_read|]. intros []; auto; exact I. Qed.
Lemma istrict_str n p : istrict (read_str D n p).
Proof. revert p. induction n as [|n IH]; intros p; [exact I|]. cbn [read_str]. apply istrict_bind; [apply istrict_read|]. intros []; auto; exact I. Qed.
Lemma estrict_pc : estrict get_pc.
Proof. intros [p|]; [exact I|]. intros x. destruct x as [[]|]; cbn; tauto. Qed.
Lemma estrict_variable x : estrict (variable_ref D x).
Proof.
  apply estrict_bind; [apply estrict_pc|]. intros pc. apply estrict_bind; [apply estrict_lift|]. intros [pl|]; [|apply estrict_fail].
  apply estrict_bind; [apply estrict_io, istrict_location|]. intros a. apply estrict_bind; [apply estrict_lift|]. intros t. destruct a; [apply estrict_ret | apply estrict_fail].
Qed.
Definition all_strict (x : evs) : Prop := estrict (e_ref x) /\ estrict (e_val x) /\ estrict (e_int x) /\ estrict (e_str x).
Lemma strict_of_ref r : estrict r -> all_strict (of_ref D r).
Proof. intros K. repeat apply conj; cbn [of_ref e_ref e_val e_int e_str]; auto; (apply estrict_bind; [exact K|]); intros p; apply estrict_io; [apply istrict_result | apply istrict_int | apply istrict_str]. Qed.
Lemma strict_no : all_strict (Evs no no no no).
Proof. repeat apply conj; apply estrict_fail. Qed.
Lemma strict_args args ps : Forall (fun a => literal_argument (fst a)) args -> estrict (convert_args D args ps).
Proof.
  intros H. revert ps. induction H as [|[a x] args Ha H IH]; intros ps; cbn [convert_args]; [apply estrict_ret|].
  apply estrict_bind; [|intros; apply estrict_bind; [apply IH | intros; apply estrict_ret]].
  cbn [fst snd] in *. destruct a; try destruct Ha; cbn [convert_arg]; try apply estrict_fail; [apply estrict_ret|]. destruct (match ps with p :: _ => _ | [] => _ end); [|apply estrict_fail].
  apply estrict_bind; [apply estrict_io, istrict_create|]. intros. apply estrict_bind; [apply estrict_lift | intros; apply estrict_ret].
Qed.
Lemma strict_result t r : estrict (eio (result_val D t r)).
Proof. apply estrict_io. unfold result_val. destruct r; [exact I|]. destruct t; [apply istrict_result | exact I]. Qed.
Lemma literal_part x e : literal_arguments e -> part x e -> literal_arguments x.
Proof. intros H K y P. apply H. eapply part_trans; eauto. Qed.
Theorem strict_evaluate e : literal_arguments e -> all_strict (evaluate D e).
Proof.
  induction e as [n|s|b g|b f Hb|b i Hb Hi|e He|mm e He|v|v|e He|b m l Hb Hl|f l Hl] using expr_nested_ind; intros L; cbn [evaluate].
  - apply strict_of_ref, estrict_variable.
  - apply strict_no.
  - apply strict_no.
  - apply strict_of_ref. apply estrict_bind; [|intros; apply estrict_lift]. apply Hb. eapply literal_part; [exact L | apply part_field, part_self].
  - destruct Hb as (Hb & _); [eapply literal_part; [exact L | apply part_base, part_self]|]. destruct Hi as (_ & _ & Hi & Hs); [eapply literal_part; [exact L | apply part_index, part_self]|].
    apply strict_of_ref. apply estrict_bind; [exact Hb|]. intros p. destruct (is_map _); (apply estrict_bind; [assumption|]); intros; apply estrict_io; [apply istrict_index_map | apply istrict_index_int].
  - apply strict_no.
  - apply strict_no.
  - repeat apply conj; cbn; first [apply estrict_ret | apply estrict_fail].
  - repeat apply conj; cbn; first [apply estrict_ret | apply estrict_fail].
  - destruct He as (_ & A & B & C); [eapply literal_part; [exact L | apply part_paren, part_self]|]. split; [apply estrict_fail | auto].
  - destruct Hb as (Hb & _); [eapply literal_part; [exact L | apply part_object, part_self]|]. pose proof (L _ (part_self _)) as La. cbn beta iota in La.
    assert (Hc : forall p, estrict (call_method D p m (map (fun a => (a, evaluate D a)) l))).
    { intros p. apply estrict_bind; [apply estrict_lift|]. intros d. apply estrict_bind; [apply strict_args, Forall_map; exact La|]. intros xs. apply estrict_bind; [apply estrict_lift|]. intros sz. apply estrict_bind; [|intros; apply estrict_ret].
      apply estrict_io. intros x. split; [|exact I]. destruct x as [[]|]; cbn; tauto. }
    repeat apply conj; cbn [e_ref e_val e_int e_str]; try apply estrict_fail; (apply estrict_bind; [exact Hb|]); intros p; destruct (synthetic_name _ _); try apply estrict_fail.
    + apply estrict_bind; [apply Hc | intros; apply estrict_lift].
    + destruct (map _ l); [|apply estrict_fail]. apply estrict_bind; [apply estrict_io, istrict_synthetic | intros; apply estrict_ret].
    + apply estrict_bind; [apply Hc | intros; apply strict_result].
  - pose proof (L _ (part_self _)) as La. cbn beta iota in La.
    assert (Hc : estrict (call_function D f (map (fun a => (a, evaluate D a)) l))).
    { apply estrict_bind; [apply estrict_lift|]. intros d. apply estrict_bind; [apply strict_args, Forall_map; exact La|]. intros xs. apply estrict_bind; [apply estrict_lift|]. intros sz. apply estrict_bind; [|intros; apply estrict_ret].
      apply estrict_io. intros x. split; [|exact I]. destruct x as [[]|]; cbn; tauto. }
    repeat apply conj; cbn [e_ref e_val e_int e_str]; try apply estrict_fail; (apply estrict_bind; [exact Hc|]); intros r; [apply estrict_lift | apply strict_result].
Qed.
End Eval.
(** The first answer that does not fit is the last one. *)
Lemma strict_replays {A} (bad : A -> Prop) (p : prog A) t a : strict bad p -> replays p t a ->
  Forall (fun e => fits (fst e) (snd e)) t \/ (exists t' q x, t = t' ++ [(q, x)] /\ Forall (fun e => fits (fst e) (snd e)) t' /\ ~ fits q x /\ bad a).
Proof.
  intros H R. induction R as [a|q x k t a R IH]; [left; constructor|]. destruct (H x) as [H1 H2].
  assert (F : fits q x \/ ~ fits q x) by (destruct q; destruct x as [[]|]; cbn; tauto). destruct F as [F|F].
  - destruct (IH H2) as [G|(t' & q' & x' & -> & G & N & B)]; [left; constructor; assumption|]. right. exists ((q, x) :: t'), q', x'. split; [reflexivity|]. split; [now constructor | auto].
  - right. specialize (H1 F). destruct (k x) as [b|q' k']; [|destruct H1]. inversion R; subst. exists [], q, x. split; [reflexivity|]. split; [constructor | auto].
Qed.
(** C44: evaluating an expression (whose calls have only literals as arguments) stops at the first event that is not
    answered as asked -- by anything but an event response of the right kind -- and the command is answered with an error. *)
Theorem unanswered_event_ends_evaluation_partial : forall D cmd args e t m,
  cmd = st "eval" \/ cmd = st "print" -> parse_expression (join (st " ") args) = Ok e -> literal_arguments e ->
  replays (handle_command D cmd args) t (Ok m) ->
  Forall (fun x => fits (fst x) (snd x)) t \/
  (exists t' q x text, t = t' ++ [(q, x)] /\ Forall (fun x => fits (fst x) (snd x)) t' /\ ~ fits q x /\ m = ErrorMsg text).
Proof.
  intros D cmd args e t m C P L R.
  assert (Hs : strict (fun r => exists text, r = Ok (ErrorMsg text)) (handle_command D cmd args)).
  { unfold handle_command. assert ((str_eqb cmd (st "eval") || str_eqb cmd (st "print")) = true) as -> by (destruct C as [-> | ->]; reflexivity).
    destruct args as [|a args]; [exact I|]. rewrite P. eapply strict_bind; [apply (strict_evaluate D e L) | intros; exact I |]. intros [[x|x|x|] pc] B; try destruct B. cbn. eexists; reflexivity. }
  destruct (strict_replays _ _ _ _ Hs R) as [F|(t' & q & x & E & F & N & text & B)]; [now left|]. right. injection B as ->. exists t', q, x, text. auto.
Qed.
Print Assumptions unanswered_event_ends_evaluation_partial.
