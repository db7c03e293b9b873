(** C108: the functions of a binary listed by pattern, from the stored files. *)
From Coq Require Import Ascii String List ZArith NArith Lia Bool.
From Verif Require Import Base NumText OMap Utf8 AddrModel SymModel SymSpec SymProofs SymProps PathModel LinesModel LinesProps DieModel DieSpec ModuleModel ModuleSpec TypesModel
  ParserModel ParserSpec ParserProofs ResolveModel ResolveSpec FnModel FnSpec FnProps SourceModel SourceProps DiscoverModel DiscoverSpec DiscoverProps DiscoverFns LoadModel BinaryModel BinarySpec BinaryProofs BinaryProps BinaryTypes.
Import ListNotations.
Open Scope Z_scope.

(** The function DIE of a symbol in the binary, with the environment of its unit; or that it has none. *)
Definition function_die (h : list (bool * list N * symbol)) (B : binary) (y : symbol) (debug : option (env * die)) : Prop :=
  match debug with
  | Some (v, d) => exists f u s, file_by_id B (sym_file y) = Some f /\ function_of h f (sym_name y) d s /\ In u (bf_units f) /\ in_tree (bu_die u) d /\ unit_view f u v
  | None => forall f d s, file_by_id B (sym_file y) = Some f -> ~ function_of h f (sym_name y) d s
  end.

Section Discover.
Variables (X : externals) (tables : list (N * list raw_entry)) (B : binary).
Hypothesis Hix : bi_index B = index_symbol_map X tables.
Let h := history X tables.

Lemma oget_map_snd {V W} (g : V -> W) n (m : omap sname V) : oget cmp_sname n (map (fun e => (fst e, g (snd e))) m) = option_map g (oget cmp_sname n m).
Proof. induction m as [|[k v] m IH]; [reflexivity|]. cbn [map oget fst snd]. destruct (cmp_sname n k); [reflexivity | exact IH | exact IH]. Qed.
(** What the function index of one file holds. *)
Lemma file_dies f : readable_file h f -> well_formed f -> exists n0, forall n, (n0 <= n)%nat ->
  (forall name v x, oget cmp_sname name (map (fun e => (fst e, (file_env n f (fd_die (snd e)), fd_die (snd e)))) (fs_functions (functions_in n B f))) = Some (v, x) ->
     exists d s u, In d (visible (units_of f)) /\ linked h f d s /\ In u (bf_units f) /\ in_tree (bu_die u) d /\ unit_view f u v /\ x = e_off (d_entry d) /\ good_env v /\ en_unit v = bu_die u) /\
  (forall name d s u, parsed name -> function_of h f name d s -> In u (bf_units f) -> in_tree (bu_die u) d ->
     exists v, oget cmp_sname name (map (fun e => (fst e, (file_env n f (fd_die (snd e)), fd_die (snd e)))) (fs_functions (functions_in n B f))) = Some (v, e_off (d_entry d)) /\ unit_view f u v) /\
  (forall name v x, parsed name -> oget cmp_sname name (map (fun e => (fst e, (file_env n f (fd_die (snd e)), fd_die (snd e)))) (fs_functions (functions_in n B f))) = Some (v, x) ->
     exists d s, function_of h f name d s).
Proof.
  intros R W. destruct (file_known f W) as (n1 & K1). destruct (well_parts f W) as (G & D & A).
  assert (Ev : forall n u d, In u (bf_units f) -> in_tree (bu_die u) d -> file_env n f (e_off (d_entry d)) = unit_env n f u) by (intros n u d Hu T; unfold file_env; now rewrite (unit_at_spec f u d D Hu T)).
  assert (Vw : forall n u d, (n1 <= n)%nat -> In u (bf_units f) -> in_tree (bu_die u) d -> unit_view f u (file_env n f (e_off (d_entry d)))).
  { intros n u d Hn Hu T. rewrite (Ev n u d Hu T). destruct (K1 n Hn) as [_ V]. specialize (V u Hu). cbn [discovery_file fl_env] in V. change (h_of (bu_die u)) with (e_off (d_entry (bu_die u))) in V. rewrite (Ev n u (bu_die u) Hu (in_here _)) in V. exact V. }
  destruct (symbols_in B f) as [syms|] eqn:Sy.
  - destruct (indexed_functions X tables B Hix f syms Sy R) as (n0 & fs & E1 & E2 & E3 & _ & _ & Srt & Keys). exists (n0 + n1)%nat. intros n Hn. rewrite (E1 n) by lia. split; [|split].
    + intros name v x H. rewrite (oget_map_snd (fun x => (file_env n f (fd_die x), fd_die x))) in H. destruct (oget cmp_sname name (fs_functions fs)) as [fd|] eqn:O; [|discriminate]. cbn [option_map] in H. injection H as <- <-. apply (oget_some cmp_sname) in O. destruct O as (k & Ck & Hk). destruct (Keys k fd Hk) as (d & s & L & _ & Hd & ->).
      destruct (visible_unit f d Hd) as (u & Hu & T). exists d, s, u. unfold data_of. cbn [fd_die fst]. pose proof (Vw n u d ltac:(lia) Hu T) as V. destruct (good_view f u _ D (A u Hu) Hu V) as [Ge En]. auto 10.
    + intros name d s u P F Hu T. rewrite (oget_map_snd (fun x => (file_env n f (fd_die x), fd_die x))), (E2 name d s F). cbn [option_map]. unfold data_of. cbn [fd_die fst]. eexists. split; [reflexivity|]. apply Vw; auto. lia.
    + intros name v x P H. rewrite (oget_map_snd (fun x => (file_env n f (fd_die x), fd_die x))) in H. destruct (oget cmp_sname name (fs_functions fs)) as [fd|] eqn:O; [|discriminate]. apply (oget_some cmp_sname) in O. destruct O as (k & Ck & Hk). destruct (Keys k fd Hk) as (d & s & L & Cs & Hd & _).
      destruct L as (b & raw & link & L1 & L2 & L3 & L4). pose proof (is_last_in _ _ _ L4) as [He [Hf _]]. cbn [snd] in Hf.
      destruct (function_of_exists X tables B Hix f d s (b, raw, s) He Hf Hd ltac:(exists b, raw, link; auto)) as (d2 & s2 & F2). exists d2, s2. assert (Q : name = sym_name s); [|rewrite Q; exact F2].
      apply parsed_inj; [exact P | exact (history_parsed X tables _ He)|]. rewrite (wo_eq _ wo_sname _ _ Ck). exact Cs.
  - exists n1. intros n Hn. unfold functions_in. rewrite Sy. cbn [fs_functions map oget]. split; [discriminate|]. split; [|discriminate].
    intros name d s u _ (b & a & _ & (b0 & raw & link & _ & _ & _ & L) & _). apply is_last_in in L. destruct L as [L1 [L2 _]]. destruct (symbols_known X tables B Hix f _ L1 L2) as (syms & S1 & _). congruence.
Qed.
Hypothesis Hmade : forall f, In f (bi_made B) -> readable_file h f /\ well_formed f.
Lemma dies_known : exists n0, forall n, (n0 <= n)%nat -> good_index (function_dies n B) /\
  (forall y debug, In y (functions_of h) -> entry_die (function_dies n B) y debug -> function_die h B y debug) /\
  (forall id name v x, oget cmp_sname name (function_dies n B id) = Some (v, x) ->
     exists f d s u, In f (bi_made B) /\ In d (visible (units_of f)) /\ linked h f d s /\ In u (bf_units f) /\ in_tree (bu_die u) d /\ unit_view f u v /\ x = e_off (d_entry d)).
Proof.
  assert (K : exists n0, forall n, (n0 <= n)%nat -> forall f, In f (bi_made B) ->
    (forall name v x, oget cmp_sname name (map (fun e => (fst e, (file_env n f (fd_die (snd e)), fd_die (snd e)))) (fs_functions (functions_in n B f))) = Some (v, x) ->
       exists d s u, In d (visible (units_of f)) /\ linked h f d s /\ In u (bf_units f) /\ in_tree (bu_die u) d /\ unit_view f u v /\ x = e_off (d_entry d) /\ good_env v /\ en_unit v = bu_die u) /\
    (forall name d s u, parsed name -> function_of h f name d s -> In u (bf_units f) -> in_tree (bu_die u) d ->
       exists v, oget cmp_sname name (map (fun e => (fst e, (file_env n f (fd_die (snd e)), fd_die (snd e)))) (fs_functions (functions_in n B f))) = Some (v, e_off (d_entry d)) /\ unit_view f u v) /\
    (forall name v x, parsed name -> oget cmp_sname name (map (fun e => (fst e, (file_env n f (fd_die (snd e)), fd_die (snd e)))) (fs_functions (functions_in n B f))) = Some (v, x) ->
       exists d s, function_of h f name d s)).
  { clear - Hix Hmade. revert Hmade. induction (bi_made B) as [|f l IH]; intros Hm; [exists 0%nat; intros n _ f []|]. destruct (IH (fun g Hg => Hm g (or_intror Hg))) as (n1 & I1). destruct (Hm f (or_introl eq_refl)) as [R W]. destruct (file_dies f R W) as (n2 & I2).
    exists (n1 + n2)%nat. intros n Hn g [<- | Hg]; [apply I2; lia | apply I1; [lia | exact Hg]]. }
  destruct K as (n0 & K). exists n0. intros n Hn. specialize (K n Hn).
  assert (Fd : forall id f, file_by_id B id = Some f -> In f (bi_made B)) by (intros id f F; unfold file_by_id in F; apply find_some in F; apply F).
  assert (G3 : forall id name v x, oget cmp_sname name (function_dies n B id) = Some (v, x) ->
     exists f d s u, In f (bi_made B) /\ In d (visible (units_of f)) /\ linked h f d s /\ In u (bf_units f) /\ in_tree (bu_die u) d /\ unit_view f u v /\ x = e_off (d_entry d) /\ good_env v /\ en_unit v = bu_die u).
  { intros id name v x H. unfold function_dies in H. destruct (file_by_id B id) as [f|] eqn:F; [|discriminate]. destruct (K f (Fd id f F)) as (K1 & _). destruct (K1 name v x H) as (d & s & u & Q). exists f, d, s, u. split; [exact (Fd id f F) | exact Q]. }
  split; [|split].
  - intros id name v x H. destruct (G3 id name v x H) as (f & d & s & u & _ & _ & _ & _ & T & _ & -> & Ge & En). split; [exact Ge|]. exists d. split; [rewrite En; exact T | reflexivity].
  - intros y debug Hy E. pose proof (functions_parsed X tables y Hy) as Py. unfold entry_die in E. destruct (oget cmp_sname (sym_name y) (function_dies n B (sym_file y))) as [[v x]|] eqn:O.
    + destruct E as (d' & -> & [T1 T2]). unfold function_dies in O. destruct (file_by_id B (sym_file y)) as [f|] eqn:F; [|discriminate]. destruct (K f (Fd _ f F)) as (K1 & K2 & K3).
      destruct (K3 _ v x Py O) as (d & s & Fo). destruct (function_of_visible _ _ f _ d s Fo) as (Vd & _). destruct (visible_unit f d Vd) as (u & Hu & T). destruct (K2 _ d s u Py Fo Hu T) as (v' & O' & V). rewrite O in O'. injection O' as <- ->.
      destruct (Hmade f (Fd _ f F)) as (_ & _ & D & A). destruct (good_view f u v D (A u Hu) Hu V) as [Ge En]. rewrite En in T1. destruct (D u u d' d Hu Hu T1 T T2) as [_ ->]. exists f, u, s. auto.
    + subst debug. intros f d s F Fo. unfold function_dies in O. rewrite F in O. destruct (K f (Fd _ f F)) as (_ & K2 & _). destruct (function_of_visible _ _ f _ d s Fo) as (Vd & _). destruct (visible_unit f d Vd) as (u & Hu & T). destruct (K2 _ d s u Py Fo Hu T) as (v' & O' & _). congruence.
  - intros id name v x H. destruct (G3 id name v x H) as (f & d & s & u & Q1 & Q2 & Q3 & Q4 & Q5 & Q6 & Q7 & _). exists f, d, s, u. auto 10.
Qed.

(** ** C108 *)
(** A pattern [ms]::[f] lists exactly the functions of the binary (each name once, the symbol indexed last) whose name
    ends in it, each with its name, address and module path, and the signature its DIE declares. *)
Theorem functions_listed : forall ms f, Forall wf_segment (ms ++ [f]) -> ~ hash_like f ->
  exists n0, forall n k r, (n0 <= n)%nat -> BinaryModel.discover_functions n k B (Base.join (st "::") (ms ++ [f])) = Ok r ->
  exists ys, NoDup (map sym_name ys) /\
    (forall y, In y ys <-> is_last (fun s => sym_name s = sym_name y) (functions_of h) y /\ names_function ms f (sym_name y)) /\
    Forall2 (fun y d => exists debug, function_die h B y debug /\ presents debug y d) ys r.
Proof.
  intros ms f W Hh. destruct dies_known as (n0 & K). exists n0. intros n k r Hn E. destruct (K n Hn) as (Gi & Kd & _). unfold BinaryModel.discover_functions, ix in E. rewrite Hix in E.
  destruct (discover_functions_exact X tables k (function_dies n B) ms f r W Hh Gi E) as (ys & N & M & F). exists ys. split; [exact N|]. split; [exact M|]. apply (Forall2_imp_in _ _ _ _) with (2 := F). intros y d Hy (debug & Ed & P). exists debug. split; [|exact P]. apply Kd; [|exact Ed]. apply M in Hy. apply (is_last_in _ _ _ (proj1 Hy)).
Qed.
(** There is an answer unless the resolution of a parameter or result type of some function panics. *)
Theorem functions_answered : forall ms f, Forall wf_segment (ms ++ [f]) -> ~ hash_like f ->
  (forall g d s u v, In g (bi_made B) -> In d (visible (units_of g)) -> linked h g d s -> In u (bf_units g) -> in_tree (bu_die u) d -> unit_view g u v -> settled v d) ->
  exists n0, forall n, (n0 <= n)%nat -> exists k0, forall k, (k0 <= k)%nat -> exists r, BinaryModel.discover_functions n k B (Base.join (st "::") (ms ++ [f])) = Ok r.
Proof.
  intros ms f W Hh St. destruct dies_known as (n0 & K). exists n0. intros n Hn. destruct (K n Hn) as (Gi & _ & K3). unfold BinaryModel.discover_functions, ix. rewrite Hix.
  apply discover_functions_answers; [exact W | exact Hh|]. intros id name v x O. destruct (Gi _ _ _ _ O) as (Ge & d0 & N0). split; [exact Ge|]. destruct (K3 _ _ _ _ O) as (g & d & s & u & Hg & Hd & L & Hu & T & V & ->).
  destruct (Hmade g Hg) as (_ & _ & D & A). destruct (good_view g u v D (A u Hu) Hu V) as [_ En]. exists d. split; [split; [rewrite En; exact T | reflexivity]|]. exact (St g d s u v Hg Hd L Hu T V).
Qed.
(** All functions: under every displayed name one of the functions so displayed, and each function whose displayed name
    is its own. *)
Theorem all_functions_listed_partial : exists n0, forall n k m, (n0 <= n)%nat -> BinaryModel.discover_all_functions n k B = Ok m ->
  let listed y := is_last (fun s => sym_name s = sym_name y) (functions_of h) y in
  (forall name f, oget cmp_str name m = Some f -> exists y debug, listed y /\ sname_display (sym_name y) = name /\ function_die h B y debug /\ presents debug y f) /\
  (forall y, listed y -> exists f, oget cmp_str (sname_display (sym_name y)) m = Some f /\
     ((forall y', listed y' -> sname_display (sym_name y') = sname_display (sym_name y) -> y' = y) -> exists debug, function_die h B y debug /\ presents debug y f)).
Proof.
  destruct dies_known as (n0 & K). exists n0. intros n k m Hn E listed. destruct (K n Hn) as (Gi & Kd & _). unfold BinaryModel.discover_all_functions, ix in E. rewrite Hix in E.
  destruct (all_functions_partial X tables k (function_dies n B) m Gi E) as [P1 P2]. fold h in P1, P2. split.
  - intros name f O. destruct (P1 name f O) as (y & debug & L & D & Ed & P). exists y, debug. split; [exact L|]. split; [exact D|]. split; [|exact P]. apply Kd; [|exact Ed]. apply (is_last_in _ _ _ L).
  - intros y L. destruct (P2 y L) as (f & O & Q). exists f. split; [exact O|]. intros U. destruct (Q U) as (debug & Ed & P). exists debug. split; [|exact P]. apply Kd; [|exact Ed]. apply (is_last_in _ _ _ L).
Qed.
End Discover.
Print Assumptions functions_listed.
Print Assumptions functions_answered.
Print Assumptions all_functions_listed_partial.
