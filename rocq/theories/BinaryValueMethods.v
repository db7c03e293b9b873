(** C121: the command methods of an expression: the methods of the type of the place it stands for, from the stored files and
    the bytes of the stopped target to the printed lines. *)
From Coq Require Import Ascii String List ZArith NArith Lia Bool Arith Sorted Permutation.
From Coq Require Import ZifyBool ZifyNat ZifyN.
From Verif Require Import Base NumText OMap AddrModel AddrSpec SymModel SymSpec SymProofs SymProps PathModel LinesModel LinesProps DieModel DieSpec ModuleModel ParserSpec
  TypesModel ValueModel DataModel DataSpec DataProofs ParserModel ResolveModel ResolveSpec ResolveProps LocModel FnModel FnSpec FnProps SourceModel LoadModel LoadProps ParserProofs DiscoverModel DiscoverSpec DiscoverProps DiscoverFns BinaryModel BinarySpec BinaryProofs BinaryProps BinaryVars BinaryTypes BinaryDiscover BinaryMethods.
From Verif Require Import AccessModel ExprModel ProcModel ProcSpec IoDataModel EvalModel EvalSpec ServerModel ServerSpec ServerProofs ServerProps JsonModel WireModel WireProps ClientModel ClientSpec ClientProps ClientEvents
  SessionModel SessionSpec SessionProofs SessionProps RdProps ProcProofs FormatSpec FormatProps BinarySession BinarySpec AccessProps EvalProps PlainSpec PlainProofs BinaryEval BinaryCommands.
From Verif Require Import DataModel ParserModel ValueModel Utf8.
Import ListNotations.
Open Scope Z_scope.

Section Files.
Variables (smap : list (fpath * fpath)) (fs : fpath -> option stored) (order : list nat -> list nat) (X : externals)
  (sort : (AddrModel.finfo -> Z) -> list AddrModel.finfo -> list AddrModel.finfo) (workspace : option fpath)
  (sig_of : str -> str) (show_float : Z -> list Z -> str) (is_float : str -> bool).
Hypothesis Hsort : sorts sort.
Let loader := server_load smap fs order X sort workspace sig_of utf8_lossy show_float is_float.

(** A debugger that knows the variable asked for. *)
Definition knows_local {St} (L : debugger St) (s : St) (e : expr) : Prop := forall name, e = EVariable name -> text name /\ exists t, l_variable L s name = Some t.
Lemma stands_kind v u vars b floats m e a ty : stands v u vars b floats m e a ty -> (exists name, e = EVariable name) \/ (exists x name, e = EField x name) \/ (exists x i, e = EIndex x i).
Proof. intros H. destruct H; eauto 6. Qed.

(** [rd methods <expression>], the expression being a path from a variable of the function the target is stopped in: the
    methods callable on an object of the type of that place — those with a self parameter of the methods C109 lists for it —
    under the name of the type. *)
Theorem methods_of_value_printed_partial : forall St (L : debugger St) s p B tables,
  debugger_fits L -> l_target L s = true -> l_process L s = true -> l_thread L s = true -> l_frame L s = true -> text p ->
  open_binary smap fs order X (components p) = Ok B -> bi_index B = index_symbol_map X tables -> Forall well_formed (bi_made B) -> Forall well_formed (bi_files B) -> apart (bi_made B) ->
  forall m f u d v ps ls r b args e a target, served (l_memory L s) m -> stopped smap X L s B tables f u d v ps ls r b ->
  args <> [] -> Forall text args -> parse_expression (Base.join (st " ") args) = Ok e -> knows_local L s e ->
  forall f' u' d' scope spath v', stands v u (somes ps ++ somes ls) b show_float m e a (TD target (Some (h_of d'))) -> text (tname (TD target (Some (h_of d')))) ->
  In f' (bi_made B) -> In u' (bf_units f') -> is_rust_cu (d_entry (bu_die u')) = true -> in_tree (bu_die u') d' -> enclosed u' d' scope spath -> unit_view f' u' v' ->
  exists k0, forall k, (k0 <= k)%nat -> exists n0, forall n l, (n0 <= n)%nat -> BinaryModel.discover_methods n k B X sig_of (TD target (Some (h_of d'))) = Ok l -> Forall (fun q => method_fits (method_info q)) l ->
    (exists l', DiscoverSpec.selects on_object l l' /\ BinaryCommands.prints (loader n k) L p s (st "methods") args (method_listing (tname (TD target (Some (h_of d')))) l')) /\
    exists direct traits built, l = concat direct ++ traits ++ built /\ DiscoverSpec.built_ins sig_of target built /\
      Forall2 (declared_methods X (bi_index B) target) (flat_map (scopes spath) (bi_files B)) direct /\
      (implemented_here X (bi_index B) target v' scope traits \/ ~ followed u' d' scope spath /\ implemented_here X (bi_index B) target v' (bu_die u') traits).
Proof.
  intros St L s p B tables Fits HT HP HH HF Tp Op Hix Hmade Hfiles Hapart m f u d v ps ls r b args e a target Hm Sp Na Ta Pe Kl f' u' d' scope spath v' Sd Tt Hf' Hu' Ru' T' En' V'.
  pose proof Sp as (sa & l0 & si & _ & _ & _ & Ur & Rg). destruct (stopped_answers smap X sort workspace sig_of show_float is_float Hsort St L s B tables f u d v ps ls r b Hix Hmade Hapart Sp) as (base & k1 & K1).
  destruct (stands_ref L s HT HP HH HF m show_float Hm v u (somes ps ++ somes ls) b r base Ur Rg e a _ Sd) as (k2 & K2).
  destruct (methods_listed_partial X B sig_of Hmade Hfiles Hapart f' u' d' scope spath v' target Hf' Hu' Ru' T' En' V') as (n1 & M).
  exists (k1 + k2)%nat. intros k Hk. destruct (K1 k) as (n2 & N2); [clear - Hk; lia|]. exists (n1 + n2)%nat. intros n l Hn E Fr.
  assert (H1 : (n1 <= n)%nat) by (clear - Hn; lia). assert (H2 : (n2 <= n)%nat) by (clear - Hn; lia). split; [|exact (M n k l H1 E)]. destruct (N2 n H2) as [Gv Kn].
  destruct (K2 k _ ltac:(clear - Hk; lia) Gv Kn) as [Re _]. exists (filter has_self l). split; [apply selects_filter|].
  set (DB := debug_info sort smap workspace n k B X sig_of utf8_lossy show_float is_float) in *. set (ty := TD target (Some (h_of d'))) in *.
  set (ms := filter has_self l). set (res := MResult (tname ty) (map method_info ms)).
  assert (Rm : eruns L s (pointer_methods DB e) None res (Some (l_pc L s))).
  { unfold pointer_methods. eapply eruns_bind; [exact (Re None (or_introl eq_refl))|]. cbn [snd]. eapply eruns_bind; [apply eruns_lift; change (g_methods DB ty) with (BinaryModel.discover_methods n k B X sig_of ty); rewrite E; reflexivity|]. exists []. split; [reflexivity | constructor]. }
  assert (Ex : exists t, exec (python_client L) (methods_command DB (Base.join (st " ") args)) s = (t, Ok res, s) /\ Forall (fun x => request_fits (fst x)) t).
  { destruct Rm as (t & Et & Ft). unfold methods_command. rewrite Pe.
    assert (Q : exec (python_client L) (pbind (pointer_methods DB e None) (fun r0 => Ret (fst r0))) s = (t, Ok res, s)) by (rewrite exec_bind, Et; cbn [exec fst]; rewrite app_nil_r; reflexivity).
    destruct (stands_kind _ _ _ _ _ _ _ _ _ Sd) as [(name & En) | [(x & name & En) | (x & i & En)]]; rewrite En in *.
    - destruct (Kl name eq_refl) as (Tn & tt & Hv). exists ((GetVariableType name, Replied (VariableTypeResult (Some tt))) :: t). split; [|constructor; [exact Tn | exact Ft]].
      unfold is_variable. cbn [pbind ask exec]. assert (Pc : python_client L s (GetVariableType name) = (Replied (VariableTypeResult (Some tt)), s)) by (rewrite client_body; cbn [body]; rewrite HT, HP, HH, HF; cbn [negb andb]; rewrite Hv; reflexivity).
      rewrite Pc. rewrite Q. reflexivity.
    - exists t. split; [exact Q | exact Ft].
    - exists t. split; [exact Q | exact Ft]. }
  destruct Ex as (t & Ex & Ft). assert (Nd : args <> []) by exact Na.
  assert (Ex2 : exec (python_client L) (handle_command DB (st "methods") args) s = (t, Ok (Complete (PMethods res)), s)).
  { destruct args as [|a0 args]; [congruence|]. change (handle_command DB (st "methods") (a0 :: args)) with (pbind (methods_command DB (Base.join (st " ") (a0 :: args))) (fun r0 => Ret (respond PMethods r0))).
    rewrite exec_bind, Ex. cbn [exec]. rewrite app_nil_r. reflexivity. }
  assert (Fm : server_fits (Complete (PMethods res))).
  { cbn [server_fits payload_fits res mr_type mr_methods]. split; [exact Tt|]. apply Forall_map. unfold ms. clear - Fr. induction Fr as [|q l Hq _ IH]; [constructor|]. cbn [filter]. destruct (has_self q); [constructor; assumption | exact IH]. }
  assert (Dl : dialogue L DB s [(st "methods", args)] [Ok (enc_server (Complete (PMethods res)))] s Closed).
  { eapply d_answered; [discriminate | split; [exact text_methods | exact Ta] | exact Ex2 | exact Ft | exact Fm | constructor]. }
  destruct (session_end_to_end St L (loader n k) p DB s [(st "methods", args)] [Ok (enc_server (Complete (PMethods res)))] s Closed Fits Tp) as (w0 & W); [unfold loader, server_load; rewrite Op; reflexivity | exact Dl|].
  exists w0. intros writes Hw. destruct (W writes Hw) as [(up & down & Ec) U]. split; [eauto 10|]. intros up' down' xs' s2' e' C. destruct (U _ _ _ _ _ C) as (-> & -> & ->). eexists. split; [reflexivity|]. split; [reflexivity|]. split; [reflexivity|].
  intros repr. apply method_lines.
Qed.
End Files.
Print Assumptions methods_of_value_printed_partial.
