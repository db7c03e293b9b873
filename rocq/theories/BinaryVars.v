(** Variables at an address of a whole binary (C104), and the same through the evaluator's interface. *)
From Coq Require Import Ascii String List ZArith NArith Lia Bool Arith Permutation.
From Verif Require Import Base NumText OMap Utf8 AddrModel AddrSpec SymModel SymSpec SymProofs SymProps PathModel PathProps LinesModel LinesProps DieModel DieSpec DieProofs ModuleModel ModuleSpec ModuleProps
  TypesModel ParserModel ParserSpec ParserProofs ResolveModel ResolveSpec ResolveProps LocModel FnModel FnSpec FnProofs FnProps SourceModel SourceProps LoadModel LoadProps BinaryModel BinarySpec BinaryProofs BinaryProps.
From Verif Require EvalModel.
Import ListNotations.
Open Scope Z_scope.

Section Vars.
Variables (X : externals) (tables : list (N * list raw_entry)) (B : binary).
Hypothesis Hix : bi_index B = index_symbol_map X tables.
Let h := history X tables.
Variable smap : list (fpath * fpath).
Variable sort : (AddrModel.finfo -> Z) -> list AddrModel.finfo -> list AddrModel.finfo.
Hypothesis Hsort : sorts sort.

Lemma attributed_lookup a s l : attributed smap h B a s l -> exists n0, forall n, (n0 <= n)%nat -> lookup_address sort smap n B a = Some (sym_name s, l).
Proof.
  intros (s0 & f & d & lo & hi & d2 & s2 & u & H1 & H2 & H3 & H4 & H5 & H6 & H7 & H8 & H9 & H10 & H11). destruct l as [[p line] col].
  destruct (address_located_partial X tables B Hix smap sort Hsort a s0 f d s lo hi d2 s2 u p line col H1 H2 H3 H4 H5 H6 H7 H8 H9 H10 H11) as (n0 & K). exists n0. intros n Hn. apply K. exact Hn.
Qed.
(** The frame of an address. *)
Lemma frame_known a sa l s f u d v ps ls : attributed smap h B a sa l -> described smap h B (sym_name sa) s f u d v ps ls ->
  exists s' k0, forall k, (k0 <= k)%nat -> exists n0, forall n, (n0 <= n)%nat ->
    unit_env n f u = v /\ frame_at sort smap n k B a = Ok (Some (f, u, data_of (d, s'), (somes ps, somes ls), sym_addr s, l)).
Proof.
  intros A [D1 D2 D3 D4 D5 D6 D7 (s' & D8) D9 D10 D11]. destruct (attributed_lookup a sa l A) as (n1 & A1). rewrite <- D1 in D2, D8, A1.
  destruct (entry_known X tables B Hix s f u d D2 D3 D4 D5 D6 D7 s' D8) as (n2 & E). destruct (variables_known smap f u d v s' ps ls D5 D6 D7 D9 D10 D11) as (k0 & K).
  exists s', k0. intros k Hk. destruct (K k Hk) as (n3 & K3). exists (n1 + n2 + n3)%nat. intros n Hn. destruct (K3 n ltac:(lia)) as [V F]. split; [exact V|].
  unfold frame_at. rewrite (A1 n) by lia. rewrite (E n) by lia. rewrite F. cbn [bind]. unfold ix. rewrite (base_known X tables B Hix s D2). reflexivity.
Qed.
Lemma complete_known v t ty : complete_type v t ty -> exists k1, forall k, (k1 <= k)%nat ->
  match layOf t with LAlias _ => match locOf t with Some h => resolve_type k v h | None => Err "no location" end | _ => Ok t end = Ok ty.
Proof.
  unfold complete_type. destruct (layOf t); try (intros ->; exists 0%nat; reflexivity). intros (h' & -> & [k1 E]). exists k1. intros k Hk. exact (resolve_mono k1 k v h' ty Hk E).
Qed.
Lemma info_known v c r b base u x i fb : shown_as v u b x i -> fb = Some [OReg r] -> get_register c r = Ok b ->
  exists k0, forall k, (k0 <= k)%nat -> variable_info k v c fb base (bu_loc u) x = Ok i.
Proof.
  intros (Sn & Sl & St) -> R. destruct (complete_known v (va_ty x) (vi_ty i) St) as (k0 & K). exists k0. intros k Hk. unfold variable_info.
  assert (L : resolve_data_location c (Some [OReg r]) base (bu_loc u (va_die x)) = Ok (vi_addr i)).
  { destruct (bu_loc u (va_die x)) as [[|[] [|]]|]; try contradiction.
    - rewrite Sl. unfold resolve_data_location. cbn [run]. unfold frame_base. cbn [run bind]. rewrite R. cbn [bind run].
      match goal with |- context [wrap (wrap (b + ?o))] => assert (W : wrap (wrap (b + o)) = (b + o) mod two64) by (unfold wrap; rewrite Z.mod_mod by (unfold two64; lia); reflexivity); rewrite W end. reflexivity.
    - rewrite Sl. reflexivity. }
  rewrite L. cbn [bind]. rewrite (K k Hk). cbn [bind]. rewrite <- Sn. destruct i. reflexivity.
Qed.
Lemma infos_known v c r b base u fb : fb = Some [OReg r] -> get_register c r = Ok b -> forall xs is, Forall2 (shown_as v u b) xs is ->
  exists k0, forall k, (k0 <= k)%nat -> Forall2 (fun x i => variable_info k v c fb base (bu_loc u) x = Ok i) xs is.
Proof.
  intros E R xs is H. induction H as [|x i xs is Hx _ (k0 & K)]; [exists 0%nat; constructor|]. destruct (info_known v c r b base u x i fb Hx E R) as (k1 & K1).
  exists (k0 + k1)%nat. intros k Hk. constructor; [apply K1; lia | apply K; lia].
Qed.
(** A variable by name: the first parameter or local of that name in the function of the address, at the frame base
    plus its offset, with its whole type. *)
Theorem variable_found_partial : forall a sa l s f u d v ps ls c r b x i,
  attributed smap h B a sa l -> described smap h B (sym_name sa) s f u d v ps ls ->
  bu_frame u (e_off (d_entry d)) = Some [OReg r] -> get_register c r = Ok b ->
  forall name, first_of (fun y => va_name y = Some name) (somes ps ++ somes ls) x -> shown_as v u b x i ->
  exists k0, forall k, (k0 <= k)%nat -> exists n0, forall n, (n0 <= n)%nat -> get_variable_at_pc sort smap n k B c a name = Ok (Some i).
Proof.
  intros a sa l s f u d v ps ls c r b x i A D Fb R name F Sh. destruct (frame_known a sa l s f u d v ps ls A D) as (s' & k0 & K). destruct (info_known v c r b (sym_addr s) u x i _ Sh Fb R) as (k1 & K1).
  exists (k0 + k1)%nat. intros k Hk. destruct (K k ltac:(lia)) as (n0 & N). exists n0. intros n Hn. destruct (N n Hn) as [V Fr]. unfold get_variable_at_pc. rewrite Fr. cbn [bind]. rewrite V.
  change (fd_die (data_of (d, s'))) with (e_off (d_entry d)). rewrite (variable_lookup_partial k v c _ (sym_addr s) (bu_loc u) _ _ name x F), (K1 k) by lia. reflexivity.
Qed.
(** A name the function does not declare: nothing. *)
Theorem variable_absent : forall a sa l s f u d v ps ls c name,
  attributed smap h B a sa l -> described smap h B (sym_name sa) s f u d v ps ls ->
  (forall y, In y (somes ps ++ somes ls) -> va_name y <> Some name) ->
  exists k0, forall k, (k0 <= k)%nat -> exists n0, forall n, (n0 <= n)%nat -> get_variable_at_pc sort smap n k B c a name = Ok None.
Proof.
  intros a sa l s f u d v ps ls c name A D F. destruct (frame_known a sa l s f u d v ps ls A D) as (s' & k0 & K).
  exists k0. intros k Hk. destruct (K k ltac:(lia)) as (n0 & N). exists n0. intros n Hn. destruct (N n Hn) as [V Fr]. unfold get_variable_at_pc. rewrite Fr. cbn [bind]. rewrite V. now apply variable_lookup_absent.
Qed.
(** All of them: the parameters, and the locals declared on an earlier line than that of the address. *)
Theorem variables_found : forall a sa p line col s f u d v ps ls c r b pis lis,
  attributed smap h B a sa (p, line, col) -> described smap h B (sym_name sa) s f u d v ps ls ->
  bu_frame u (e_off (d_entry d)) = Some [OReg r] -> get_register c r = Ok b ->
  Forall2 (shown_as v u b) (somes ps) pis ->
  Forall2 (shown_as v u b) (filter (fun x => match va_loc x with Some (_, at_line) => at_line <? line | None => false end) (somes ls)) lis ->
  exists k0, forall k, (k0 <= k)%nat -> exists n0, forall n, (n0 <= n)%nat -> get_all_variables_at_pc sort smap n k B c a = Ok (pis, lis).
Proof.
  intros a sa p line col s f u d v ps ls c r b pis lis A D Fb R Sp Sl. destruct (frame_known a sa _ s f u d v ps ls A D) as (s' & k0 & K).
  destruct (infos_known v c r b (sym_addr s) u _ Fb R _ _ Sp) as (k1 & K1). destruct (infos_known v c r b (sym_addr s) u _ Fb R _ _ Sl) as (k2 & K2).
  exists (k0 + k1 + k2)%nat. intros k Hk. destruct (K k ltac:(lia)) as (n0 & N). exists n0. intros n Hn. destruct (N n Hn) as [V Fr]. unfold get_all_variables_at_pc. rewrite Fr. cbn [bind]. rewrite V.
  change (fd_die (data_of (d, s'))) with (e_off (d_entry d)). apply all_variables_listed. split; [apply K1; lia|]. eexists. split; [apply K2; lia | reflexivity].
Qed.
(** Below every function symbol there is no function, hence no variable. *)
Theorem variables_nowhere : forall a n k c, (forall y, In y (functions_of h) -> a < sym_addr y) ->
  address_to_location sort smap n B a = None /\ (forall name, get_variable_at_pc sort smap n k B c a name = Ok None) /\ get_all_variables_at_pc sort smap n k B c a = Ok ([], []).
Proof.
  intros a n k c H. assert (L : lookup_address sort smap n B a = None).
  { unfold lookup_address, LinesModel.lookup_address, find_all_by_address, ix. rewrite Hix. pose proof (symbol_at_address_nearest X tables a) as Near. cbv zeta in Near. fold h in Near.
    destruct (function_at_address (index_symbol_map X tables) a) as [[b syms]|]; [|reflexivity]. destruct Near as (Nb & (s1 & Hs1 & As1) & _). specialize (H s1 Hs1). lia. }
  unfold address_to_location, get_variable_at_pc, get_all_variables_at_pc, frame_at. rewrite L. repeat split; reflexivity.
Qed.
End Vars.
Print Assumptions variable_found_partial.
Print Assumptions variable_absent.
Print Assumptions variables_found.
Print Assumptions variables_nowhere.

(** ** The evaluator asks for the same variables *)
(** The plan followed with the registers [c] at hand: address and type. *)
Definition follow (c : regs) (p : EvalModel.vplan) : res (option Z * tdef) :=
  a <- resolve_data_location c (EvalModel.vp_fb p) (EvalModel.vp_base p) (EvalModel.vp_loc p) ;; t <- EvalModel.vp_ty p ;; Ok (a, t).
Lemma find_app' {A} (q : A -> bool) l m : find q (l ++ m) = match find q l with Some x => Some x | None => find q m end.
Proof. induction l as [|x l IH]; [reflexivity|]. cbn [app find]. destruct (q x); [reflexivity | exact IH]. Qed.
Theorem plan_agrees : forall sort smap n k B c a name,
  get_variable_at_pc sort smap n k B c a name =
  (o <- variable_plan sort smap n k B a name ;; match o with None => Ok None | Some p => '(x, t) <- follow c p ;; Ok (Some (VInfo name x t)) end).
Proof.
  intros. unfold get_variable_at_pc, variable_plan. destruct (frame_at sort smap n k B a) as [o| | |]; [|reflexivity..]. cbn [bind]. destruct o as [[[[[[f u] d] vars] base] l]|]; [|reflexivity].
  unfold variable_at. rewrite find_app'. assert (Q : forall x, named_var name x = true -> rmap Some (variable_info k (unit_env n f u) c (bu_frame u (fd_die d)) base (bu_loc u) x) =
    ('(y, t) <- follow c (EvalModel.VPlan (bu_frame u (fd_die d)) base (bu_loc u (va_die x)) (match layOf (va_ty x) with
           | LAlias _ => match locOf (va_ty x) with Some h => resolve_type k (unit_env n f u) h | None => Err "no location" end
           | _ => Ok (va_ty x) end)) ;; Ok (Some (VInfo name y t)))).
  { intros x Hx. apply named_var_iff in Hx. unfold variable_info, follow. cbn [EvalModel.vp_fb EvalModel.vp_base EvalModel.vp_loc EvalModel.vp_ty]. rewrite Hx.
    destruct (resolve_data_location c (bu_frame u (fd_die d)) base (bu_loc u (va_die x))); [|reflexivity..]. cbn [bind]. destruct (match layOf (va_ty x) with LAlias _ => _ | _ => _ end); reflexivity. }
  destruct (find (named_var name) (fst vars)) as [x|] eqn:E1; [apply find_some in E1; exact (Q x (proj2 E1))|]. destruct (find (named_var name) (snd vars)) as [x|] eqn:E2; [apply find_some in E2; exact (Q x (proj2 E2)) | reflexivity].
Qed.
Print Assumptions plan_agrees.
