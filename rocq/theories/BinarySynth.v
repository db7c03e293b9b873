(** C113: the built-in methods, from the stored files and the bytes of the stopped target to the printed text. *)
From Coq Require Import Ascii String List ZArith NArith Lia Bool Arith Sorted Permutation.
From Coq Require Import ZifyBool ZifyNat ZifyN.
From Verif Require Import Base NumText OMap AddrModel AddrSpec SymModel SymSpec SymProofs SymProps PathModel LinesModel LinesProps DieModel DieSpec ModuleModel ParserSpec
  TypesModel ValueModel DataModel DataSpec DataProofs ParserModel ResolveModel ResolveSpec ResolveProps LocModel FnModel FnSpec FnProps SourceModel LoadModel LoadProps ParserProofs BinaryModel BinarySpec BinaryProofs BinaryProps BinaryVars BinaryTypes BinaryMethods.
From Verif Require Import AccessModel SynthModel ExprModel ProcModel ProcSpec IoDataModel EvalModel EvalSpec ServerModel ServerSpec ServerProofs ServerProps JsonModel WireModel WireProps ClientModel ClientSpec ClientProps ClientEvents
  SessionModel SessionSpec SessionProofs SessionProps RdProps ProcProofs FormatSpec FormatProps BinarySession BinarySpec AccessProps EvalProps PlainSpec PlainProofs BinaryEval.
From Verif Require JsonProofs.
From Verif Require Import DataModel ParserModel ValueModel Utf8.
Import ListNotations.
Open Scope Z_scope.

(** ** What the methods say of the bytes at [a], seen as [ty] *)
Definition truth (b : bool) : str := if b then st "true" else st "false".
(** The word at [a] is [n]. *)
Definition word (m : memory) (a n : Z) : Prop := u64 a /\ holds_uint m a 8 n.
Inductive reports (m : memory) (a : Z) (ty : tdef) : str -> str -> str -> Prop :=
| re_vec_len lo dpo co t n : layOf ty = LVec lo dpo co t -> word m (a + lo) n -> reports m a ty (st "len") (st "usize") (dec n)
| re_vec_capacity lo dpo co t n : layOf ty = LVec lo dpo co t -> word m (a + co) n -> reports m a ty (st "capacity") (st "usize") (dec n)
| re_vec_empty lo dpo co t n : layOf ty = LVec lo dpo co t -> word m (a + lo) n -> reports m a ty (st "is_empty") (st "bool") (truth (n =? 0))
| re_string_len lo dpo co t n : layOf ty = LString lo dpo co t -> word m (a + lo) n -> reports m a ty (st "len") (st "usize") (dec n)
| re_string_empty lo dpo co t n : layOf ty = LString lo dpo co t -> word m (a + lo) n -> reports m a ty (st "is_empty") (st "bool") (truth (n =? 0))
| re_slice_len t dpo n : layOf ty = LSlice t dpo 8 -> word m (a + 8) n -> reports m a ty (st "len") (st "usize") (dec n)
| re_slice_empty t dpo n : layOf ty = LSlice t dpo 8 -> word m (a + 8) n -> reports m a ty (st "is_empty") (st "bool") (truth (n =? 0))
| re_str_len dpo n : layOf ty = LStrSlice dpo 8 -> word m (a + 8) n -> reports m a ty (st "len") (st "usize") (dec n)
| re_str_empty dpo n : layOf ty = LStrSlice dpo 8 -> word m (a + 8) n -> reports m a ty (st "is_empty") (st "bool") (truth (n =? 0))
| re_array_len t n : layOf ty = LArray t n -> reports m a ty (st "len") (st "usize") (dec n)
| re_is_some n d so t s x : layOf ty = LOption n d so t s -> u64 (a + d_off d) -> In (disc_size d) [1; 2; 4; 8] -> holds_uint m (a + d_off d) (disc_size d) x ->
    reports m a ty (st "is_some") (st "bool") (truth (negb (x =? 0)))
| re_is_none n d so t s x : layOf ty = LOption n d so t s -> u64 (a + d_off d) -> In (disc_size d) [1; 2; 4; 8] -> holds_uint m (a + d_off d) (disc_size d) x ->
    reports m a ty (st "is_none") (st "bool") (truth (x =? 0))
| re_is_ok n d ok oo er eo s x : layOf ty = LResult n d ok oo er eo s -> u64 (a + d_off d) -> In (disc_size d) [1; 2] -> holds_uint m (a + d_off d) (disc_size d) x ->
    reports m a ty (st "is_ok") (st "bool") (truth (x =? 0))
| re_is_err n d ok oo er eo s x : layOf ty = LResult n d ok oo er eo s -> u64 (a + d_off d) -> In (disc_size d) [1; 2] -> holds_uint m (a + d_off d) (disc_size d) x ->
    reports m a ty (st "is_err") (st "bool") (truth (negb (x =? 0))).

Section One.
Context {St : Type} (L : debugger St) (s : St).
Hypotheses (HT : l_target L s = true) (HP : l_process L s = true) (HH : l_thread L s = true) (HF : l_frame L s = true).
Variables (m : memory) (floats : Z -> list Z -> str).
Hypothesis Hm : served (l_memory L s) m.
Lemma runs_usize a off n : word m (a + off) n -> runs L s (iusize_at a off) n.
Proof.
  intros [U H]. destruct (held_uint L s HT HP m Hm (a + off) 8 n ltac:(lia) H) as (bs & R & Ln & V). unfold iusize_at. eapply runs_bind; [apply runs_add; exact U|]. cbn beta.
  eapply runs_bind; [apply (runs_memory L s HT HP); [exact U | unfold u64, two64; lia | exact R]|]. cbn beta. apply runs_lift. unfold usize_from_bytes. rewrite Ln. cbn. now rewrite V.
Qed.
Lemma runs_disc_value a d x : u64 (a + d_off d) -> In (disc_size d) [1; 2; 4; 8] -> holds_uint m (a + d_off d) (disc_size d) x -> runs L s (idisc_value a d) (x, disc_size d).
Proof.
  intros U I H. assert (0 < disc_size d /\ u64 (disc_size d)) as [Pw Uw] by (unfold u64, two64; destruct I as [<-|[<-|[<-|[<-|[]]]]]; repeat split; lia). destruct (held_uint L s HT HP m Hm _ _ x Pw H) as (bs & R & Ln & V). unfold idisc_value. eapply runs_bind; [apply runs_add; exact U|]. cbn beta.
  eapply runs_bind; [apply (runs_memory L s HT HP); [exact U | exact Uw | exact R]|]. cbn beta. apply runs_lift. rewrite Ln, V. assert (Mz : mem_z (disc_size d) [1; 2; 4; 8] = true) by (destruct I as [<-|[<-|[<-|[<-|[]]]]]; reflexivity). now rewrite Mz.
Qed.
Lemma runs_reports a ty method t x : reports m a ty method t x -> synthetic_name (layOf ty) method = true /\ runs L s (isynthetic a (layOf ty) method) (VScalar t x).
Proof.
  assert (B : forall b, bool_text b = truth b) by (intros []; reflexivity).
  intros [lo dpo co t' n El W | lo dpo co t' n El W | lo dpo co t' n El W | lo dpo co t' n El W | lo dpo co t' n El W | t' dpo n El W | t' dpo n El W | dpo n El W | dpo n El W | t' n El
    | n d so t' sz y El U I H | n d so t' sz y El U I H | n d ok oo er eo sz y El U I H | n d ok oo er eo sz y El U I H]; rewrite El; (split; [reflexivity|]); cbn [isynthetic].
  1,2,4,6,8: (unfold ivec_method, istring_method, islice_method; cbn -[iusize_at ibind dec]; eapply runs_bind; [apply runs_usize; exact W|]; cbn beta; apply runs_ret).
  1,2,3,4: (unfold ivec_method, istring_method, islice_method; cbn -[iusize_at ibind dec truth vbool Z.eqb]; eapply runs_bind; [apply runs_usize; exact W|]; cbn beta; rewrite <- B; apply runs_ret).
  - apply runs_lift. reflexivity.
  - unfold ioption_method. eapply runs_bind; [apply (runs_disc_value a d y U I H)|]. cbn beta iota. apply runs_lift. rewrite <- B. reflexivity.
  - unfold ioption_method. eapply runs_bind; [apply (runs_disc_value a d y U I H)|]. cbn beta iota. apply runs_lift. rewrite <- B. reflexivity.
  - assert (I' : In (disc_size d) [1; 2; 4; 8]) by (destruct I as [<- | [<- | []]]; cbn; tauto). unfold iresult_method. eapply runs_bind; [apply (runs_disc_value a d y U I' H)|]. cbn beta iota zeta. apply runs_lift. rewrite <- B. destruct I as [<- | [<- | []]]; reflexivity.
  - assert (I' : In (disc_size d) [1; 2; 4; 8]) by (destruct I as [<- | [<- | []]]; cbn; tauto). unfold iresult_method. eapply runs_bind; [apply (runs_disc_value a d y U I' H)|]. cbn beta iota zeta. apply runs_lift. rewrite <- B. destruct I as [<- | [<- | []]]; reflexivity.
Qed.
(** A [Result] tagged in four bytes: the sign bit of the tag is taken for the answer, so the tag 1 of an [Err] reads as [Ok]. *)
Lemma runs_wide_tag a ty n d ok oo er eo sz x : layOf ty = LResult n d ok oo er eo sz -> disc_size d = 4 -> u64 (a + d_off d) -> holds_uint m (a + d_off d) 4 x -> x < 2147483648 ->
  (synthetic_name (layOf ty) (st "is_ok") = true /\ runs L s (isynthetic a (layOf ty) (st "is_ok")) (VScalar (st "bool") (st "true"))) /\
  (synthetic_name (layOf ty) (st "is_err") = true /\ runs L s (isynthetic a (layOf ty) (st "is_err")) (VScalar (st "bool") (st "false"))).
Proof.
  intros El Ds U H Lt. assert (P : 0 <= x) by (destruct H as [Hr _]; lia).
  assert (T : Z.testbit x 31 = false) by (destruct (Z.eq_dec x 0) as [-> | N]; [reflexivity | apply Z.bits_above_log2; [lia | apply Z.log2_lt_pow2; lia]]).
  assert (R : runs L s (idisc_value a d) (x, 4)) by (rewrite <- Ds; apply runs_disc_value; [exact U | rewrite Ds; cbn; tauto | now rewrite Ds]).
  rewrite El. split; (split; [reflexivity|]); cbn [isynthetic]; unfold iresult_method; (eapply runs_bind; [exact R|]); cbn beta iota zeta; cbn [Z.eqb Pos.eqb]; rewrite T; apply runs_lift; reflexivity.
Qed.
Lemma synthetic_val v u vars b r base e a ty method t x : u64 r -> nth_register r (l_registers L s) = Some b -> stands v u vars b floats m e a ty ->
  synthetic_name (layOf ty) method = true /\ runs L s (isynthetic a (layOf ty) method) (VScalar t x) -> exists k0, forall k D, (k0 <= k)%nat -> answers_variables L s D u v vars (Some [OReg r]) base k -> knows floats D v k ->
    eruns L s (e_val (evaluate D (EMethodCall e method []))) None (EResult (format_value (VScalar t x)) t) (Some (l_pc L s)).
Proof.
  intros Ur Rg Sd Re. destruct (stands_ref L s HT HP HH HF m floats Hm v u vars b r base Ur Rg e a ty Sd) as (k0 & K0). exists k0. intros k D Hk G Kn. destruct (K0 k D Hk G Kn) as [E _].
  destruct Re as [Sn R]. cbn [evaluate e_val map]. unfold method_val. eapply eruns_bind; [exact (E None (or_introl eq_refl))|]. cbn [fst snd]. rewrite Sn.
  eapply eruns_bind; [apply eruns_io; exact R|]. exists []. split; [reflexivity | constructor].
Qed.
End One.

Section Files.
Variables (smap : list (fpath * fpath)) (fs : fpath -> option stored) (order : list nat -> list nat) (X : externals)
  (sort : (AddrModel.finfo -> Z) -> list AddrModel.finfo -> list AddrModel.finfo) (workspace : option fpath)
  (sig_of : str -> str) (show_float : Z -> list Z -> str) (is_float : str -> bool).
Hypothesis Hsort : sorts sort.
Lemma method_printed : forall St (L : debugger St) s p B tables,
  debugger_fits L -> l_target L s = true -> l_process L s = true -> l_thread L s = true -> l_frame L s = true -> text p ->
  open_binary smap fs order X (components p) = Ok B -> bi_index B = index_symbol_map X tables -> Forall well_formed (bi_made B) -> apart (bi_made B) ->
  forall m f u d v ps ls r b args e a ty method t x, served (l_memory L s) m -> stopped smap X L s B tables f u d v ps ls r b ->
  args <> [] -> Forall text args -> parse_expression (Base.join (st " ") args) = Ok (EMethodCall e method []) ->
  stands v u (somes ps ++ somes ls) b show_float m e a ty -> synthetic_name (layOf ty) method = true /\ runs L s (isynthetic a (layOf ty) method) (VScalar t x) ->
  text t /\ text x /\ one_line x /\ x <> [] ->
  exists k0, forall k, (k0 <= k)%nat -> exists n0, forall n, (n0 <= n)%nat ->
    prints smap fs order X sort workspace sig_of show_float is_float L s p n k args [st "type: " ++ t; st "value: " ++ x].
Proof.
  intros St L s p B tables Fits HT HP HH HF Tp Op Hix Hmade Hapart m f u d v ps ls r b args e a ty method t x Hm Sp Na Ta Pe Sd Re (Tt & Tx & Ol & Nx).
  pose proof Sp as (sa & l & si & _ & _ & _ & Ur & Rg). destruct (stopped_answers smap X sort workspace sig_of show_float is_float Hsort St L s B tables f u d v ps ls r b Hix Hmade Hapart Sp) as (base & k1 & K1).
  destruct (synthetic_val L s HT HP HH HF m show_float Hm v u (somes ps ++ somes ls) b r base e a ty method t x Ur Rg Sd Re) as (k2 & K2).
  exists (S (k1 + k2)). intros k Hk. destruct (K1 k ltac:(lia)) as (n0 & N). exists n0. intros n Hn. destruct (N n Hn) as [Gv Kn].
  destruct (K2 k _ ltac:(lia) Gv Kn) as (tr & Ex & Ft). rewrite (formatted_exactly_partial (VScalar t x) (ti_scalar t x Ol Nx)) in Ex. cbn [shown Base.join] in Ex.
  destruct (prints_message smap fs order X sort workspace sig_of show_float is_float St L s p B n k args _ (Complete (PValue (EResult x t))) tr _ _ Fits Tp Op Na Ta Pe Ex eq_refl Ft) as (j & -> & w0 & W).
  - cbn [server_fits payload_fits er_value er_type]. split; assumption.
  - exists w0. intros writes Hw. destruct (W writes Hw) as [E U]. split; [exact E|]. intros up' down' xs' s2' e' C. destruct (U _ _ _ _ _ C) as (-> & -> & ->). eexists. split; [reflexivity|]. split; [reflexivity|]. split; [reflexivity|]. intros repr. apply value_printed. discriminate.
Qed.
(** [rd eval <path>.<method>()], the path being a place of the stopped function's frame and the method a built-in one of the place's
    type: the printed lines are the method's type and what it says of the target's bytes. *)
Theorem builtin_method_printed_partial : forall St (L : debugger St) s p B tables,
  debugger_fits L -> l_target L s = true -> l_process L s = true -> l_thread L s = true -> l_frame L s = true -> text p ->
  open_binary smap fs order X (components p) = Ok B -> bi_index B = index_symbol_map X tables -> Forall well_formed (bi_made B) -> apart (bi_made B) ->
  forall m f u d v ps ls r b args e a ty method t x, served (l_memory L s) m -> stopped smap X L s B tables f u d v ps ls r b ->
  args <> [] -> Forall text args -> parse_expression (Base.join (st " ") args) = Ok (EMethodCall e method []) ->
  stands v u (somes ps ++ somes ls) b show_float m e a ty -> reports m a ty method t x ->
  exists k0, forall k, (k0 <= k)%nat -> exists n0, forall n, (n0 <= n)%nat ->
    prints smap fs order X sort workspace sig_of show_float is_float L s p n k args [st "type: " ++ t; st "value: " ++ x].
Proof.
  intros St L s p B tables Fits HT HP HH HF Tp Op Hix Hmade Hapart m f u d v ps ls r b args e a ty method t x Hm Sp Na Ta Pe Sd Re.
  assert (Tx : text t /\ text x /\ one_line x /\ x <> []).
  { assert (Td : forall n, text (dec n) /\ one_line (dec n) /\ dec n <> []).
    { intros n. split; [apply dec_text|]. split; [apply dec_one_line|]. destruct (JsonProofs.dec_head [] [] eq_refl eq_refl n) as (c & r' & Q & _). rewrite Q. discriminate. }
    assert (Tb : forall q, text (truth q) /\ one_line (truth q) /\ truth q <> []).
    { intros []; (split; [unfold truth; txt|]); (split; [|discriminate]); split; intros I; cbn in I; repeat (destruct I as [I | I]; [discriminate I|]); exact I. }
    clear - Re Td Tb. destruct Re; (split; [txt|]); first [apply Td | apply Tb]. }
  exact (method_printed St L s p B tables Fits HT HP HH HF Tp Op Hix Hmade Hapart m f u d v ps ls r b args e a ty method t x Hm Sp Na Ta Pe Sd (runs_reports L s HT HP HH HF m show_float Hm a ty method t x Re) Tx).
Qed.
(** But of a [Result] whose tag takes four bytes, as rustc lays out [Result<u32, u32>], [is_ok()] is printed as true and [is_err()] as false
    whatever variant it holds: tag 0 and tag 1 alike. *)
Theorem result_method_refuted : forall St (L : debugger St) s p B tables,
  debugger_fits L -> l_target L s = true -> l_process L s = true -> l_thread L s = true -> l_frame L s = true -> text p ->
  open_binary smap fs order X (components p) = Ok B -> bi_index B = index_symbol_map X tables -> Forall well_formed (bi_made B) -> apart (bi_made B) ->
  forall m f u d v ps ls r b args e a ty n di ok oo er eo sz tag method, served (l_memory L s) m -> stopped smap X L s B tables f u d v ps ls r b ->
  args <> [] -> Forall text args -> parse_expression (Base.join (st " ") args) = Ok (EMethodCall e method []) ->
  stands v u (somes ps ++ somes ls) b show_float m e a ty -> layOf ty = LResult n di ok oo er eo sz -> disc_size di = 4 -> u64 (a + d_off di) -> holds_uint m (a + d_off di) 4 tag -> In tag [0; 1] ->
  method = st "is_ok" \/ method = st "is_err" ->
  exists k0, forall k, (k0 <= k)%nat -> exists n0, forall n, (n0 <= n)%nat ->
    prints smap fs order X sort workspace sig_of show_float is_float L s p n k args [st "type: bool"; if str_eqb method (st "is_ok") then st "value: true" else st "value: false"].
Proof.
  intros St L s p B tables Fits HT HP HH HF Tp Op Hix Hmade Hapart m f u d v ps ls r b args e a ty n di ok oo er eo sz tag method Hm Sp Na Ta Pe Sd El Ds U H It Hmeth.
  assert (Lt : tag < 2147483648) by (destruct It as [<- | [<- | []]]; lia). destruct (runs_wide_tag L s HT HP HH HF m show_float Hm a ty n di ok oo er eo sz tag El Ds U H Lt) as [R1 R2].
  assert (Ol : forall q, forallb (fun c => negb (N.eqb c 10) && negb (N.eqb c 13)) q = true -> one_line q) by (intros q F; rewrite forallb_forall in F; split; intros I; specialize (F _ I); discriminate F).
  destruct Hmeth as [-> | ->].
  - refine (method_printed St L s p B tables Fits HT HP HH HF Tp Op Hix Hmade Hapart m f u d v ps ls r b args e a ty (st "is_ok") (st "bool") (st "true") Hm Sp Na Ta Pe Sd R1 _).
    split; [txt|]. split; [txt|]. split; [apply Ol; reflexivity | discriminate].
  - refine (method_printed St L s p B tables Fits HT HP HH HF Tp Op Hix Hmade Hapart m f u d v ps ls r b args e a ty (st "is_err") (st "bool") (st "false") Hm Sp Na Ta Pe Sd R2 _).
    split; [txt|]. split; [txt|]. split; [apply Ol; reflexivity | discriminate].
Qed.
End Files.
Print Assumptions builtin_method_printed_partial.
Print Assumptions result_method_refuted.
