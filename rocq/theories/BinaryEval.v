(** C110: expressions over plain types, from the stored files and the bytes of the stopped target to the printed text. *)
From Coq Require Import Ascii String List ZArith NArith Lia Bool Arith Sorted Permutation.
From Coq Require Import ZifyBool ZifyNat ZifyN.
From Verif Require Import Base NumText OMap AddrModel AddrSpec SymModel SymSpec SymProofs SymProps PathModel LinesModel LinesProps DieModel DieSpec ModuleModel ParserSpec
  TypesModel ValueModel DataModel DataSpec DataProofs ParserModel ResolveModel ResolveSpec ResolveProps LocModel FnModel FnSpec FnProps SourceModel LoadModel LoadProps ParserProofs BinaryModel BinarySpec BinaryProofs BinaryProps BinaryVars BinaryTypes BinaryMethods.
From Verif Require Import AccessModel ExprModel ProcModel ProcSpec IoDataModel EvalModel EvalSpec ServerModel ServerSpec ServerProofs ServerProps JsonModel WireModel WireProps ClientModel ClientSpec ClientProps ClientEvents
  SessionModel SessionSpec SessionProofs SessionProps RdProps ProcProofs FormatSpec FormatProps BinarySession BinarySpec AccessProps EvalProps PlainSpec PlainProofs.
From Verif Require Import DataModel ParserModel ValueModel Utf8.
Import ListNotations.
Open Scope Z_scope.

(** ** What a path stands for *)
Section Stands.
Variables (v : env) (u : bunit) (vars : list var) (b : Z) (floats : Z -> list Z -> str) (m : memory).
(** The key at [ka], of type [k], is shown as [x], in quotes or not. *)
Definition key_is (k : tdef) (ka : Z) (x : str) : Prop := exists j ty z, found v floats m j ka k (VScalar ty z) /\ denotes z x.
(** [stands e a ty]: the expression [e] is the place [a] of type [ty]: a variable of the function, [b] being the frame base; a field
    of a struct; an element of an array or of a vector; the value of a map under a key. [numbers e i]: [e] is the index [i], a
    number or a place that holds one; [names e x]: [e] is the key [x]. *)
Inductive stands : expr -> Z -> tdef -> Prop :=
| st_variable name x off ty : first_of (fun y => va_name y = Some name) vars x -> bu_loc u (va_die x) = Some [OFbreg off] -> complete_type v (va_ty x) ty ->
    stands (EVariable name) ((b + off) mod two64) ty
| st_field e a ty n s al fs name f : stands e a ty -> layOf ty = LStruct n s al fs -> first_of (fun g => f_name g = name) fs f -> u64 (a + f_offset f) ->
    stands (EField e name) (a + f_offset f) (f_type f)
| st_element e a ty t len e' i size : stands e a ty -> layOf ty = LArray t len -> numbers e' i -> 0 <= i < len -> tsize t = Ok (Some size) -> u64 (i * size) -> u64 (a + i * size) ->
    stands (EIndex e e') (a + i * size) t
| st_item e a ty lo dpo co t base len e' i size : stands e a ty -> layOf ty = LVec lo dpo co t -> u64 (a + lo) -> u64 (a + dpo) -> holds_uint m (a + lo) 8 len -> holds_uint m (a + dpo) 8 base ->
    numbers e' i -> 0 <= i < len -> tsize t = Ok (Some size) -> u64 (i * size) -> u64 (base + i * size) ->
    stands (EIndex e e') (base + i * size) t
| st_entry e a ty k vt mv pre ka va post e' x : stands e a ty -> layOf ty = LMap k vt mv -> entries m a k vt mv (pre ++ (ka, va) :: post) -> names e' x -> key_is k ka x ->
    Forall (fun en => exists y, key_is k (fst en) y /\ y <> x) pre ->
    stands (EIndex e e') va vt
with numbers : expr -> Z -> Prop :=
| nu_literal i : numbers (ENumber i) i
| nu_place e a ty t j i : stands e a ty -> found v floats m j a ty (VScalar t (dec i)) -> 0 <= i < 2 ^ 64 -> numbers e i
| nu_paren e i : numbers e i -> numbers (EParen e) i
with names : expr -> str -> Prop :=
| na_literal x : no_quote_ends x -> names (EString x) x
| na_place e a ty t j z x : stands e a ty -> found v floats m j a ty (VScalar t z) -> denotes z x -> names e x
| na_paren e x : names e x -> names (EParen e) x.
Scheme stands_ind2 := Minimality for stands Sort Prop with numbers_ind2 := Minimality for numbers Sort Prop with names_ind2 := Minimality for names Sort Prop.
Combined Scheme paths_ind from stands_ind2, numbers_ind2, names_ind2.
End Stands.

(** ** Running the evaluator *)
Lemma u64_in x : u64 x -> u64_ok x = true.
Proof. unfold u64, u64_ok. lia. Qed.
Section One.
Context {St : Type} (L : debugger St) (s : St).
Hypotheses (HT : l_target L s = true) (HP : l_process L s = true) (HH : l_thread L s = true) (HF : l_frame L s = true).
Definition eruns {A} (p : ev A) (pc : option Z) (a : A) (pc' : option Z) : Prop :=
  exists t, exec (python_client L) (p pc) s = (t, (Ok a, pc'), s) /\ Forall (fun x => request_fits (fst x)) t.
Lemma eruns_bind {A B} (p : ev A) (f : A -> ev B) pc a pc1 b pc2 : eruns p pc a pc1 -> eruns (f a) pc1 b pc2 -> eruns (ebind p f) pc b pc2.
Proof.
  intros (t1 & E1 & F1) (t2 & E2 & F2). exists (t1 ++ t2). split; [|apply Forall_app; split; assumption]. unfold ebind. rewrite exec_bind, E1. cbn [fst snd]. rewrite E2. reflexivity.
Qed.
Lemma eruns_lift {A} r pc (a : A) : r = Ok a -> eruns (elift r) pc a pc.
Proof. intros ->. exists []. split; [reflexivity | constructor]. Qed.
Lemma eruns_io {A} (p : io A) pc a : runs L s p a -> eruns (eio p) pc a pc.
Proof. intros (t & E & F). exists t. split; [|exact F]. unfold eio. rewrite exec_bind, E. cbn [exec]. rewrite app_nil_r. reflexivity. Qed.
Definition at_pc (pc : option Z) : Prop := pc = None \/ pc = Some (l_pc L s).
Lemma eruns_pc pc : at_pc pc -> eruns get_pc pc (l_pc L s) (Some (l_pc L s)).
Proof.
  intros [-> | ->]; [|exists []; split; [reflexivity | constructor]].
  exists [(GetFrameInfo, Replied (FrameInfo (l_pc L s) (l_sp L s) (l_fp L s)))]. split; [|repeat constructor]. unfold get_pc. cbn [pbind ask exec]. rewrite (answers_frame L s HT HP HH HF). reflexivity.
Qed.
Lemma runs_location r b off base : 0 <= r -> u64 r -> nth_register r (l_registers L s) = Some b -> runs L s (iresolve_data_location (Some [OReg r]) base (Some [OFbreg off])) (Some ((b + off) mod two64)).
Proof.
  intros Hr Ur Rg. exists [(ReadRegisterByIndex r, Replied (RegisterData b))]. split; [|repeat constructor; apply Ur].
  unfold iresolve_data_location. cbn [irun]. unfold iframe_base. cbn [irun]. unfold ibind, iregister, ask, lift, ret. cbn [pbind exec fst snd]. rewrite (answers_register L s HT HP HH HF r b Hr Rg). cbn [register_of pbind exec fst snd].
  assert (W : wrap (wrap (b + off)) = (b + off) mod two64) by (unfold wrap; rewrite Z.mod_mod by (unfold two64; lia); reflexivity). rewrite W. reflexivity.
Qed.
(** What the debug information answers for the variables of the frame. *)
Definition answers_variables (D : dbg) (u : bunit) (v : env) (vars : list var) (fb : option (list dop)) (base : Z) (k : nat) : Prop :=
  forall name x, first_of (fun y => va_name y = Some name) vars x ->
    g_variable D (l_pc L s) name = Ok (Some (VPlan fb base (bu_loc u (va_die x)) (match layOf (va_ty x) with LAlias _ => match locOf (va_ty x) with Some h => resolve_type k v h | None => Err "no location" end | _ => Ok (va_ty x) end))).
Variables (m : memory) (floats : Z -> list Z -> str).
Hypothesis Hm : served (l_memory L s) m.
Lemma runs_same {A} (p : io A) a a' : runs L s p a -> runs L s p a' -> a = a'.
Proof. intros (t & E & _) (t' & E' & _). rewrite E in E'. congruence. Qed.
(** What is shown as a scalar is read as that scalar. *)
Lemma scalar_reads v j a ty t z : found v floats m j a ty (VScalar t z) ->
  exists k0, forall k D, (k0 <= k)%nat -> knows floats D v k -> forall f, (k0 <= f)%nat -> runs L s (iread (g_env D) f a ty) (VScalar t z).
Proof.
  intros F. destruct (found_reads L s HT HP m Hm floats v j a ty _ F) as (k0 & R). exists k0. intros k D Hk K f Hf. destruct (R k D Hk K) as (x & X1 & X2 & X3). specialize (X2 (fun y => y)). rewrite !map_type_id in X2.
  assert (E : x = VScalar t z).
  { destruct j as [|j]; [exact (runs_same _ _ _ (runs_ret L s x) X2)|]. destruct x as [t' z' | t' l | t' l | t' l | t' l | b' t']; cbn [expand] in X2.
    - exact (runs_same _ _ _ (runs_ret L s _) X2).
    - exfalso. destruct X2 as (tr & E & _). unfold ibind in E. rewrite exec_bind in E. destruct (exec _ (imapM _ _) s) as [[t1 [y|?|?|]] s1]; cbn [exec] in E; discriminate.
    - exfalso. destruct X2 as (tr & E & _). unfold ibind in E. rewrite exec_bind in E. destruct (exec _ (imapM _ _) s) as [[t1 [y|?|?|]] s1]; cbn [exec] in E; discriminate.
    - exfalso. destruct X2 as (tr & E & _). unfold ibind in E. rewrite exec_bind in E. destruct (exec _ (imapM _ _) s) as [[t1 [y|?|?|]] s1]; cbn [exec] in E; discriminate.
    - exfalso. destruct X2 as (tr & E & _). unfold ibind in E. rewrite exec_bind in E. destruct (exec _ (imapM _ _) s) as [[t1 [y|?|?|]] s1]; cbn [exec] in E; discriminate.
    - destruct (X3 _ _ eq_refl). }
  rewrite <- E. apply X1. exact Hf.
Qed.
Lemma runs_key v k vt x va ka post pre : no_quote_ends x -> key_is v floats m k ka x -> Forall (fun en => exists y, key_is v floats m k (fst en) y /\ y <> x) pre ->
  exists k0, forall n D ty, (k0 <= n)%nat -> knows floats D v n -> forall f, (k0 <= f)%nat -> runs L s (ifind_key (g_env D) f k vt (VScalar ty x) (pre ++ (ka, va) :: post)) (va, vt).
Proof.
  intros Q (j & t & z & Fz & Dz) F. induction F as [|[ka' va'] pre (y & (j' & t' & z' & Fz' & Dz') & Ny) _ (k1 & IH)].
  - destruct (scalar_reads v j ka k t z Fz) as (k0 & R). exists k0. intros n D ty Hn K f Hf. cbn [app ifind_key]. eapply runs_bind; [apply (R n D Hn K f Hf)|]. cbn beta iota.
    cbn [values_equal]. change (ch """") with quote. rewrite (trim_denotes z x Dz), (trim_id x Q), str_eqb_refl. apply runs_ret.
  - cbn [fst] in Fz'. destruct (scalar_reads v j' ka' k t' z' Fz') as (k0 & R). exists (k0 + k1)%nat. intros n D ty Hn K f Hf. cbn [app ifind_key]. eapply runs_bind; [apply (R n D ltac:(lia) K f); lia|]. cbn beta iota.
    cbn [values_equal]. change (ch """") with quote. rewrite (trim_denotes z' y Dz'), (trim_id x Q). replace (str_eqb x y) with false by (symmetry; apply str_eqb_neq; congruence). apply (IH n D ty); [lia | exact K | lia].
Qed.
Section Paths.
Variables (v : env) (u : bunit) (vars : list var) (b r base : Z).
Hypotheses (Ur : u64 r) (Rg : nth_register r (l_registers L s) = Some b).
Definition path_runs (e : expr) (a : Z) (ty : tdef) : Prop :=
  exists k0, forall k D, (k0 <= k)%nat -> answers_variables D u v vars (Some [OReg r]) base k -> knows floats D v k ->
    (forall pc, at_pc pc -> eruns (e_ref (evaluate D e)) pc (a, ty) (Some (l_pc L s))) /\ evaluate D e = of_ref D (e_ref (evaluate D e)).
Definition number_runs (e : expr) (i : Z) : Prop :=
  exists k0, forall k D, (k0 <= k)%nat -> answers_variables D u v vars (Some [OReg r]) base k -> knows floats D v k -> eruns (e_int (evaluate D e)) (Some (l_pc L s)) i (Some (l_pc L s)).
Definition name_runs (e : expr) (x : str) : Prop :=
  no_quote_ends x /\ exists k0, forall k D, (k0 <= k)%nat -> answers_variables D u v vars (Some [OReg r]) base k -> knows floats D v k -> eruns (e_str (evaluate D e)) (Some (l_pc L s)) x (Some (l_pc L s)).
Lemma here_pc : at_pc (Some (l_pc L s)).
Proof. right. reflexivity. Qed.
Lemma paths_run : (forall e a ty, stands v u vars b floats m e a ty -> path_runs e a ty) /\ (forall e i, numbers v u vars b floats m e i -> number_runs e i) /\ (forall e x, names v u vars b floats m e x -> name_runs e x).
Proof.
  apply paths_ind.
  - intros name x off ty F Lo Ct. destruct (complete_known v (va_ty x) ty Ct) as (k0 & K). exists k0. intros k D Hk G Kn. split; [|reflexivity]. intros pc Hpc. cbn [evaluate of_ref e_ref]. unfold variable_ref.
    eapply eruns_bind; [apply eruns_pc; exact Hpc|]. eapply eruns_bind; [apply eruns_lift; apply (G name x F)|]. cbn [vp_fb vp_base vp_loc vp_ty]. rewrite Lo. eapply eruns_bind; [apply eruns_io; apply runs_location; [destruct Ur; lia | exact Ur | exact Rg]|].
    eapply eruns_bind; [apply eruns_lift; apply (K k Hk)|]. exists []. split; [reflexivity | constructor].
  - intros e a ty n sz al fs name f _ (k0 & IH) El Ff Ua. exists k0. intros k D Hk G Kn. destruct (IH k D Hk G Kn) as [E _]. split; [|reflexivity]. intros pc Hpc. cbn [evaluate of_ref e_ref]. eapply eruns_bind; [exact (E pc Hpc)|]. apply eruns_lift. cbn [fst snd]. unfold get_struct_field. rewrite El.
    assert (Fi : find (fun g : str * Z * tdef => str_eqb (fst (fst g)) name) fs = Some f) by (apply (proj2 (ParserProofs.find_first (fun g : str * Z * tdef => str_eqb (fst (fst g)) name) (fun g => f_name g = name) fs f (fun y _ => str_eqb_eq (fst (fst y)) name))); exact Ff).
    rewrite Fi. change (snd (fst f)) with (f_offset f). unfold add64. rewrite u64_in by exact Ua. reflexivity.
  - intros e a ty t len e' i size _ (k0 & IH) El _ (k1 & IH') Hi Sz Ui Ua. exists (k0 + k1)%nat. intros k D Hk G Kn. destruct (IH k D ltac:(lia) G Kn) as [E _]. specialize (IH' k D ltac:(lia) G Kn). split; [|reflexivity]. intros pc Hpc.
    cbn [evaluate of_ref e_ref]. unfold index_ref. eapply eruns_bind; [exact (E pc Hpc)|]. cbn [fst snd]. rewrite El. cbn [is_map].
    eapply eruns_bind; [exact IH'|]. apply eruns_io. unfold iindex_int. rewrite El. apply runs_lift. destruct (Z.leb_spec len i); [lia|]. unfold element_at. rewrite Sz. cbn [bind]. unfold mul64, add64. rewrite (u64_in _ Ui). cbn [bind]. rewrite (u64_in _ Ua). reflexivity.
  - intros e a ty lo dpo co t q len e' i size _ (k0 & IH) El U1 U2 H1 H2 _ (k1 & IH') Hi Sz Ui Ua. exists (k0 + k1)%nat. intros k D Hk G Kn. destruct (IH k D ltac:(lia) G Kn) as [E _]. specialize (IH' k D ltac:(lia) G Kn). split; [|reflexivity]. intros pc Hpc.
    cbn [evaluate of_ref e_ref]. unfold index_ref. eapply eruns_bind; [exact (E pc Hpc)|]. cbn [fst snd]. rewrite El. cbn [is_map].
    eapply eruns_bind; [exact IH'|]. apply eruns_io. unfold iindex_int. rewrite El. eapply runs_bind; [apply (runs_vec_info L s HT HP m Hm floats a lo dpo len q U1 U2 H1 H2)|]. cbn beta iota.
    apply runs_lift. destruct (Z.leb_spec len i); [lia|]. unfold element_at. rewrite Sz. cbn [bind]. unfold mul64, add64. rewrite (u64_in _ Ui). cbn [bind]. rewrite (u64_in _ Ua). reflexivity.
  - intros e a ty k vt mv pre ka va post e' x _ (k0 & IH) El En _ (Q & k1 & IH') Kx Fp. destruct (runs_key v k vt x va ka post pre Q Kx Fp) as (k2 & R). exists (k0 + k1 + k2)%nat. intros n D Hn G Kn.
    destruct (IH n D ltac:(lia) G Kn) as [E _]. specialize (IH' n D ltac:(lia) G Kn). split; [|reflexivity]. intros pc Hpc. cbn [evaluate of_ref e_ref]. unfold index_ref. eapply eruns_bind; [exact (E pc Hpc)|]. cbn [fst snd]. rewrite El. cbn [is_map].
    eapply eruns_bind; [exact IH'|]. apply eruns_io. unfold iindex_map. rewrite El. eapply runs_bind; [apply (runs_entries L s HT HP m Hm a k vt mv _ En)|]. cbn beta. apply (R n D); [lia | exact Kn|]. rewrite (proj1 Kn). lia.
  - intros i. exists 0%nat. intros k D _ _ _. exists []. split; [reflexivity | constructor].
  - intros e a ty t j i _ (k0 & IH) F Hi. destruct (scalar_reads v j a ty t _ F) as (k1 & R). exists (S (k0 + k1)). intros k D Hk G Kn. destruct (IH k D ltac:(lia) G Kn) as [E ->]. cbn [of_ref e_int].
    eapply eruns_bind; [exact (E _ here_pc)|]. apply eruns_io. pose proof (proj1 Kn) as Fu. destruct (g_fuel D) as [|f] eqn:Ef; [lia|]. cbn [read_int]. eapply runs_bind; [unfold read_pointer; cbn [fst snd]; rewrite Ef; apply (R k D ltac:(lia) Kn); lia|]. cbn beta iota.
    apply runs_lift. apply displayed_integer_is_index. split; [reflexivity | exact Hi].
  - intros e i _ (k0 & IH). exists k0. exact IH.
  - intros x Q. split; [exact Q|]. exists 0%nat. intros k D _ _ _. exists []. split; [reflexivity | constructor].
  - intros e a ty t j z x _ (k0 & IH) F Dz. split; [apply Dz|]. destruct (scalar_reads v j a ty t _ F) as (k1 & R). exists (S (k0 + k1)). intros k D Hk G Kn. destruct (IH k D ltac:(lia) G Kn) as [E ->]. cbn [of_ref e_str].
    eapply eruns_bind; [exact (E _ here_pc)|]. apply eruns_io. pose proof (proj1 Kn) as Fu. destruct (g_fuel D) as [|f] eqn:Ef; [lia|]. cbn [read_str]. eapply runs_bind; [unfold read_pointer; cbn [fst snd]; rewrite Ef; apply (R k D ltac:(lia) Kn); lia|]. cbn beta iota.
    change (ch """") with quote. rewrite (trim_denotes z x Dz). apply runs_ret.
  - intros e x _ (Q & k0 & IH). split; [exact Q|]. exists k0. exact IH.
Qed.
Lemma stands_ref e a ty : stands v u vars b floats m e a ty -> path_runs e a ty.
Proof. apply paths_run. Qed.
(** A place of plain type: the text of its value. *)
Lemma plain_val e a ty w : stands v u vars b floats m e a ty -> found v floats m 8 a ty w -> tidy w ->
  exists k0, forall k D, (k0 <= k)%nat -> answers_variables D u v vars (Some [OReg r]) base k -> knows floats D v k ->
    eruns (e_val (evaluate D e)) None (EResult (Base.join [lf] (shown w)) (tname ty)) (Some (l_pc L s)).
Proof.
  intros Sd Fo T. destruct (stands_ref e a ty Sd) as (k0 & K0). destruct (found_reads L s HT HP m Hm floats v 8 a ty w Fo) as (k1 & K1). exists (k0 + k1)%nat. intros k D Hk G Kn.
  destruct (K0 k D ltac:(lia) G Kn) as [E ->]. destruct (K1 k D ltac:(lia) Kn) as (x & X1 & X2 & _). cbn [of_ref e_val]. eapply eruns_bind; [exact (E None (or_introl eq_refl))|]. apply eruns_io. unfold pointer_to_result.
  eapply runs_bind; [unfold read_pointer; cbn [fst snd]; apply X1; rewrite (proj1 Kn); lia|]. eapply runs_bind; [specialize (X2 (fun y => y)); rewrite !map_type_id in X2; exact X2|]. rewrite (formatted_exactly_partial w T). apply runs_ret.
Qed.
(** A field of a user type nested in another type, or behind a reference, is not looked up; nor is an element of user type. *)
Definition fails {A} (p : ev A) (msg : string) : Prop :=
  exists t pc, exec (python_client L) (p None) s = (t, (Err msg, pc), s) /\ Forall (fun x => request_fits (fst x)) t.
Lemma eruns_fails {A B} (p : ev A) (f : A -> ev B) a pc msg t2 pc2 : eruns p None a pc -> exec (python_client L) (f a pc) s = (t2, (Err msg, pc2), s) -> Forall (fun x => request_fits (fst x)) t2 -> fails (ebind p f) msg.
Proof.
  intros (t1 & E1 & F1) E2 F2. exists (t1 ++ t2), pc2. split; [|apply Forall_app; split; assumption]. unfold ebind. rewrite exec_bind, E1. cbn [fst snd]. rewrite E2. reflexivity.
Qed.
Lemma fails_bind {A B} (p : ev A) (f : A -> ev B) msg : fails p msg -> fails (ebind p f) msg.
Proof. intros (t & pc & E & F). exists t, pc. split; [|exact F]. unfold ebind. rewrite exec_bind, E. cbn [fst snd exec]. rewrite app_nil_r. reflexivity. Qed.
Lemma nested_val e a ty : stands v u vars b floats m e a ty ->
  exists k0, forall k D, (k0 <= k)%nat -> answers_variables D u v vars (Some [OReg r]) base k -> knows floats D v k ->
    (forall name, (exists n, layOf ty = LAlias n) \/ (exists mu t, layOf ty = LReference mu t) -> fails (e_val (evaluate D (EField e name))) "Cannot access field") /\
    (forall t len i n, layOf ty = LArray t len -> layOf t = LAlias n -> 0 <= i < len -> fails (e_val (evaluate D (EIndex e (ENumber i)))) "Failed to get size for element type") /\
    (forall i n, layOf ty = LAlias n -> fails (e_val (evaluate D (EIndex e (ENumber i)))) "Cannot index by integer").
Proof.
  intros Sd. destruct (stands_ref e a ty Sd) as (k0 & K0). exists k0. intros k D Hk G Kn. destruct (K0 k D Hk G Kn) as [E' _]. pose proof (E' None (or_introl eq_refl)) as E. split; [|split].
  - intros name Hl. cbn [evaluate of_ref e_val]. apply fails_bind. eapply eruns_fails; [exact E | | apply Forall_nil]. cbn [fst snd]. unfold get_struct_field.
    destruct Hl as [(n & ->) | (mu & t & ->)]; reflexivity.
  - intros t len i n El Et Hi. cbn [evaluate of_ref e_val]. apply fails_bind. unfold index_ref. eapply eruns_fails; [exact E | | apply Forall_nil]. cbn [fst snd]. rewrite El. cbn [is_map].
    unfold ebind, eret, eio. cbn [e_int pbind exec fst snd]. unfold iindex_int. rewrite El. destruct (Z.leb_spec len i); [lia|]. unfold element_at, tsize. rewrite Et. reflexivity.
  - intros i n El. cbn [evaluate of_ref e_val]. apply fails_bind. unfold index_ref. eapply eruns_fails; [exact E | | apply Forall_nil]. cbn [fst snd]. rewrite El. cbn [is_map].
    unfold ebind, eret, eio. cbn [e_int pbind exec fst snd]. unfold iindex_int. rewrite El. reflexivity.
Qed.
(** No element of a slice can be named. *)
Lemma slice_val e a ty et dpo lo j w i : stands v u vars b floats m e a ty -> layOf ty = LSlice et dpo lo -> found v floats m j a ty w ->
  exists k0, forall k D, (k0 <= k)%nat -> answers_variables D u v vars (Some [OReg r]) base k -> knows floats D v k ->
    fails (e_val (evaluate D (EIndex e (ENumber i)))) "Expected struct representation for slice".
Proof.
  intros Sd El Fo. destruct (stands_ref e a ty Sd) as (k0 & K0). destruct (found_reads L s HT HP m Hm floats v j a ty w Fo) as (k1 & K1). exists (S (k0 + k1)). intros k D Hk G Kn. destruct (K0 k D ltac:(lia) G Kn) as [E' _]. pose proof (E' None (or_introl eq_refl)) as E.
  destruct (K1 k D ltac:(lia) Kn) as (x & X1 & _ & _). specialize (X1 (g_fuel D) ltac:(rewrite (proj1 Kn); lia)). destruct X1 as (t & X & Ft).
  assert (Fx : extract_slice_info x = Err "Expected struct representation for slice"%string).
  { assert (Rx : exists f n l, g_fuel D = S f /\ x = VArray n l).
    { pose proof (proj1 Kn) as Fu. destruct (g_fuel D) as [|f]; [lia|]. exists f. cbn [iread] in X. rewrite El in X. unfold iread_primitive in X.
      repeat (unfold ibind in X at 1; rewrite exec_bind in X; match type of X with context [exec ?c ?p ?s0] => destruct (exec c p s0) as [[? [?|?|?|]] ?] end; cbn [exec lift ret] in X; [|discriminate X | discriminate X | discriminate X]).
      unfold lift in X. cbn [exec] in X. destruct (element_ptrs _ _ _ _); cbn [bind] in X; try discriminate X. injection X as _ <- _. eauto. }
    destruct Rx as (f & n & l & _ & ->). reflexivity. }
  cbn [evaluate of_ref e_val]. apply fails_bind. unfold index_ref. eapply (eruns_fails _ _ _ _ _ t); [exact E | | exact Ft]. cbn [fst snd]. rewrite El. cbn [is_map].
  unfold ebind, eret, eio. cbn [e_int pbind exec fst snd]. unfold iindex_int. rewrite El. unfold ibind. rewrite !exec_bind, X. cbn [exec lift ret fst snd]. rewrite Fx. cbn [bind exec]. rewrite !app_nil_r. reflexivity.
Qed.
End Paths.
End One.

(** A type that resolves is declared by a DIE of the unit. *)
Lemma resolved_die v h t : resolves_fully v h t -> exists d, in_tree (en_unit v) d /\ h_of d = h.
Proof.
  intros [k E]. unfold resolve_type in E. destruct (lookup v h) as [d|m|m|] eqn:Lk.
  - unfold lookup in Lk. destruct (find _ (subtrees (en_unit v))) as [d'|] eqn:Fi; [|discriminate]. apply find_some in Fi. destruct Fi as [I Q]. exists d'. split; [now apply subtrees_in | lia].
  - exfalso. assert (N : as_builtin (shallow k) v h = Ok None).
    { unfold as_builtin, get_die_typename. destruct (find_by_offset (en_ranges v) h); [|reflexivity]. unfold name_attr, string_attr, attr_of. rewrite Lk. reflexivity. }
    rewrite N in E. cbn [bind] in E. unfold tag_of in E. rewrite Lk in E. discriminate.
  - unfold lookup in Lk. destruct (find _ _); discriminate.
  - unfold lookup in Lk. destruct (find _ _); discriminate.
Qed.

Section Files.
Variables (smap : list (fpath * fpath)) (fs : fpath -> option stored) (order : list nat -> list nat) (X : externals)
  (sort : (AddrModel.finfo -> Z) -> list AddrModel.finfo -> list AddrModel.finfo) (workspace : option fpath)
  (sig_of : str -> str) (show_float : Z -> list Z -> str) (is_float : str -> bool).
Hypothesis Hsort : sorts sort.
Let loader := server_load smap fs order X sort workspace sig_of utf8_lossy show_float is_float.

Lemma made_here B i f : file_by_id B i = Some f -> In f (bi_made B).
Proof. intros H. apply find_some in H. apply H. Qed.
(** The target is stopped in the function [d] of the unit [u], whose frame base is in the register [r], holding [b]. *)
Definition stopped {St} (L : debugger St) (s : St) (B : binary) (tables : list (N * list raw_entry)) (f : bfile) (u : bunit) (d : die) (v : env) (ps ls : list (option var)) (r b : Z) : Prop :=
  exists sa l si, attributed smap (history X tables) B (l_pc L s) sa l /\ described smap (history X tables) B (sym_name sa) si f u d v ps ls /\
    bu_frame u (e_off (d_entry d)) = Some [OReg r] /\ u64 r /\ nth_register r (l_registers L s) = Some b.
(** [rd eval <text>] over a new connection to a server that loads the files: the lines printed, the target left as it is. *)
Definition prints {St} (L : debugger St) (s : St) (p : str) (n k : nat) (args : list str) (lines : list str) : Prop :=
  exists w0, forall writes, (w0 <= writes)%nat ->
    (exists up down xs s2 e, connected (loader n k) L p [(st "eval", args)] s writes up down xs s2 e) /\
    (forall up down xs s2 e, connected (loader n k) L p [(st "eval", args)] s writes up down xs s2 e -> exists j, xs = [Ok j] /\ s2 = s /\ e = Closed /\
       forall repr, print_response repr (st "eval") (the_fields j) = lines).
Lemma prints_message St (L : debugger St) s p B n k args e m t r pc : debugger_fits L -> text p -> open_binary smap fs order X (components p) = Ok B ->
  args <> [] -> Forall text args -> parse_expression (Base.join (st " ") args) = Ok e ->
  let D := debug_info sort smap workspace n k B X sig_of utf8_lossy show_float is_float in
  exec (python_client L) (e_val (evaluate D e) None) s = (t, (r, pc), s) -> respond PValue r = Ok m -> Forall (fun x => request_fits (fst x)) t -> server_fits m ->
  exists j, j = enc_server m /\ exists w0, forall writes, (w0 <= writes)%nat ->
    (exists up down xs s2 e, connected (loader n k) L p [(st "eval", args)] s writes up down xs s2 e) /\
    (forall up down xs s2 e, connected (loader n k) L p [(st "eval", args)] s writes up down xs s2 e -> xs = [Ok j] /\ s2 = s /\ e = Closed).
Proof.
  intros Fits Tp Op Na Ta Pe DB Ex Rs Ft Fm. exists (enc_server m). split; [reflexivity|].
  assert (Ex2 : exec (python_client L) (handle_command DB (st "eval") args) s = (t, Ok m, s)).
  { unfold handle_command. rewrite str_eqb_refl. cbn [orb]. destruct args as [|a0 args]; [congruence|]. rewrite Pe, exec_bind, Ex. cbn [exec fst]. rewrite app_nil_r, Rs. reflexivity. }
  assert (Dl : dialogue L DB s [(st "eval", args)] [Ok (enc_server m)] s Closed).
  { eapply d_answered; [discriminate | split; [|exact Ta] | exact Ex2 | exact Ft | exact Fm | constructor]. cbn [fst]. txt. }
  destruct (session_end_to_end St L (loader n k) p DB s [(st "eval", args)] [Ok (enc_server m)] s Closed Fits Tp) as (w0 & W); [unfold loader, server_load; rewrite Op; reflexivity | exact Dl|].
  exists w0. intros writes Hw. destruct (W writes Hw) as [(up & down & E) U]. split; [eauto 10|]. intros up' down' xs' s2' e' C. destruct (U _ _ _ _ _ C) as (-> & -> & ->). auto.
Qed.
Lemma stopped_answers St (L : debugger St) s B tables f u d v ps ls r b : bi_index B = index_symbol_map X tables -> Forall well_formed (bi_made B) -> apart (bi_made B) ->
  stopped L s B tables f u d v ps ls r b -> exists base k0, forall k, (k0 <= k)%nat -> exists n0, forall n, (n0 <= n)%nat ->
  let D := debug_info sort smap workspace n k B X sig_of utf8_lossy show_float is_float in
  answers_variables L s D u v (somes ps ++ somes ls) (Some [OReg r]) base k /\ knows show_float D v k.
Proof.
  intros Hix Hmade Hapart (sa & l & si & A & D & Fb & Ur & Rg). destruct (frame_known X tables B Hix smap sort Hsort (l_pc L s) sa l si f u d v ps ls A D) as (s' & k1 & K1).
  exists (sym_addr si), k1. intros k Hk. destruct (K1 k Hk) as (n0 & N). exists n0. intros n Hn. destruct (N n Hn) as [V Fr]. intros DB. split.
  - intros name x F. cbn [DB debug_info g_variable]. unfold variable_plan. rewrite Fr. cbn [bind fst snd].
    apply (proj2 (ParserProofs.find_first (named_var name) _ _ x (fun y _ => named_var_iff name y))) in F. rewrite F, V. unfold data_of. cbn [fd_die fst]. rewrite Fb. reflexivity.
  - split; [reflexivity|]. split; [reflexivity|]. split; [reflexivity|]. intros h t R. cbn [DB debug_info g_env i_resolve]. destruct (resolved_die v h t R) as (x & Tx & <-).
    assert (Eu : en_unit v = bu_die u) by (rewrite <- V; reflexivity). rewrite Eu in Tx.
    rewrite (die_env_known B Hmade Hapart n f u x (made_here B _ f (de_file _ _ _ _ _ _ _ _ _ _ _ D)) (de_unit _ _ _ _ _ _ _ _ _ _ _ D) Tx), V. reflexivity.
Qed.
(** [rd eval <expression>], the expression being a path through the fields of structs and the elements of arrays from a
    variable of the function the target is stopped in: the printed lines are the type of the place and the lines of the value
    that the target's bytes hold there. *)
Theorem plain_value_printed_partial : forall St (L : debugger St) s p B tables,
  debugger_fits L -> l_target L s = true -> l_process L s = true -> l_thread L s = true -> l_frame L s = true -> text p ->
  open_binary smap fs order X (components p) = Ok B -> bi_index B = index_symbol_map X tables -> Forall well_formed (bi_made B) -> apart (bi_made B) ->
  forall m f u d v ps ls r b args e a ty w, served (l_memory L s) m -> stopped L s B tables f u d v ps ls r b ->
  args <> [] -> Forall text args -> parse_expression (Base.join (st " ") args) = Ok e ->
  stands v u (somes ps ++ somes ls) b show_float m e a ty -> found v show_float m 8 a ty w -> tidy w -> text (tname ty) -> Forall text (shown w) ->
  exists k0, forall k, (k0 <= k)%nat -> exists n0, forall n, (n0 <= n)%nat ->
    prints L s p n k args [st "type: " ++ tname ty; st "value: " ++ Base.join [lf] (shown w)].
Proof.
  intros St L s p B tables Fits HT HP HH HF Tp Op Hix Hmade Hapart m f u d v ps ls r b args e a ty w Hm Sp Na Ta Pe Sd Fo Ti Tt Tw.
  pose proof Sp as (sa & l & si & _ & _ & _ & Ur & Rg). destruct (stopped_answers St L s B tables f u d v ps ls r b Hix Hmade Hapart Sp) as (base & k1 & K1).
  destruct (plain_val L s HT HP HH HF m show_float Hm v u (somes ps ++ somes ls) b r base Ur Rg e a ty w Sd Fo Ti) as (k2 & K2).
  exists (S (k1 + k2)). intros k Hk. destruct (K1 k ltac:(lia)) as (n0 & N). exists n0. intros n Hn. destruct (N n Hn) as [Gv Kn].
  destruct (K2 k _ ltac:(lia) Gv Kn) as (t & Ex & Ft).
  destruct (prints_message St L s p B n k args e (Complete (PValue (EResult (Base.join [lf] (shown w)) (tname ty)))) t _ _ Fits Tp Op Na Ta Pe Ex eq_refl Ft) as (j & -> & w0 & W).
  - cbn [server_fits payload_fits er_value er_type]. split; [|exact Tt]. clear - Tw. induction Tw as [|x l Hx Hl IH]; [constructor|]. destruct l as [|y l]; [exact Hx|]. change (text (x ++ [lf] ++ Base.join [lf] (y :: l))).
    apply Forall_app. split; [exact Hx|]. apply Forall_app. split; [|exact IH]. apply Forall_cons; [unfold scalar, lf; lia | apply Forall_nil].
  - exists w0. intros writes Hw. destruct (W writes Hw) as [E U]. split; [exact E|]. intros up' down' xs' s2' e' C. destruct (U _ _ _ _ _ C) as (-> & -> & ->). eexists. split; [reflexivity|]. split; [reflexivity|]. split; [reflexivity|]. intros repr. apply value_printed. discriminate.
Qed.
(** But a field of a user type that is itself a field, an element or behind a reference is refused, whatever it is, and so are every element
    of an array of user type and every element of an array that is itself a field: the nested type is never resolved. *)
Theorem nested_place_refuted : forall St (L : debugger St) s p B tables,
  debugger_fits L -> l_target L s = true -> l_process L s = true -> l_thread L s = true -> l_frame L s = true -> text p ->
  open_binary smap fs order X (components p) = Ok B -> bi_index B = index_symbol_map X tables -> Forall well_formed (bi_made B) -> apart (bi_made B) ->
  forall m f u d v ps ls r b args e a ty, served (l_memory L s) m -> stopped L s B tables f u d v ps ls r b ->
  args <> [] -> Forall text args -> stands v u (somes ps ++ somes ls) b show_float m e a ty ->
  (exists name, parse_expression (Base.join (st " ") args) = Ok (EField e name) /\ ((exists n, layOf ty = LAlias n) \/ (exists mu t, layOf ty = LReference mu t))) \/
  (exists i t len n, parse_expression (Base.join (st " ") args) = Ok (EIndex e (ENumber i)) /\ layOf ty = LArray t len /\ layOf t = LAlias n /\ 0 <= i < len) \/
  (exists i n, parse_expression (Base.join (st " ") args) = Ok (EIndex e (ENumber i)) /\ layOf ty = LAlias n) \/
  (exists i et dpo lo j w, parse_expression (Base.join (st " ") args) = Ok (EIndex e (ENumber i)) /\ layOf ty = LSlice et dpo lo /\ found v show_float m j a ty w) ->
  exists k0, forall k, (k0 <= k)%nat -> exists n0, forall n, (n0 <= n)%nat -> exists msg, prints L s p n k args [st "Error: " ++ msg].
Proof.
  intros St L s p B tables Fits HT HP HH HF Tp Op Hix Hmade Hapart m f u d v ps ls r b args e a ty Hm Sp Na Ta Sd Cs.
  pose proof Sp as (sa & l & si & _ & _ & _ & Ur & Rg). destruct (stopped_answers St L s B tables f u d v ps ls r b Hix Hmade Hapart Sp) as (base & k1 & K1).
  destruct (nested_val L s HT HP HH HF m show_float Hm v u (somes ps ++ somes ls) b r base Ur Rg e a ty Sd) as (k2 & K2).
  assert (K3 : exists k3, forall k D, (k3 <= k)%nat -> answers_variables L s D u v (somes ps ++ somes ls) (Some [OReg r]) base k -> knows show_float D v k ->
    exists e' msg, parse_expression (Base.join (st " ") args) = Ok e' /\ text (st msg) /\ fails L s (e_val (evaluate D e')) msg).
  { destruct Cs as [(name & Pe & Hl) | [(i & t & len & nm & Pe & El & Et & Hi) | [(i & nm & Pe & El) | (i & et & dpo & lo & j & w & Pe & El & Fo)]]].
    - exists k2. intros k D Hk Gv Kn. destruct (K2 k D Hk Gv Kn) as (Kf & Ki & Ka). eexists _, _. split; [exact Pe|]. split; [|apply Kf; exact Hl]. txt.
    - exists k2. intros k D Hk Gv Kn. destruct (K2 k D Hk Gv Kn) as (Kf & Ki & Ka). eexists _, _. split; [exact Pe|]. split; [|eapply Ki; eassumption]. txt.
    - exists k2. intros k D Hk Gv Kn. destruct (K2 k D Hk Gv Kn) as (Kf & Ki & Ka). eexists _, _. split; [exact Pe|]. split; [|eapply Ka; eassumption]. txt.
    - destruct (slice_val L s HT HP HH HF m show_float Hm v u (somes ps ++ somes ls) b r base Ur Rg e a ty et dpo lo j w i Sd El Fo) as (k3 & K3). exists k3. intros k D Hk Gv Kn. eexists _, _. split; [exact Pe|]. split; [|exact (K3 k D Hk Gv Kn)]. txt. }
  destruct K3 as (k3 & K3). exists (S (k1 + k3)). intros k Hk. destruct (K1 k ltac:(lia)) as (n0 & N). exists n0. intros n Hn. destruct (N n Hn) as [Gv Kn].
  destruct (K3 k _ ltac:(lia) Gv Kn) as (e' & msg & Pe & Tm & t & pc & Ex & Ft). exists (st msg).
  destruct (prints_message St L s p B n k args e' (err_msg msg) t _ _ Fits Tp Op Na Ta Pe Ex eq_refl Ft Tm) as (j & -> & w0 & W).
  exists w0. intros writes Hw. destruct (W writes Hw) as [E U]. split; [exact E|]. intros up' down' xs' s2' e2 C. destruct (U _ _ _ _ _ C) as (-> & -> & ->). eexists. split; [reflexivity|]. split; [reflexivity|]. split; [reflexivity|]. intros repr. apply (error_printed repr (st "eval")).
Qed.
End Files.
Print Assumptions plain_value_printed_partial.
Print Assumptions nested_place_refuted.
