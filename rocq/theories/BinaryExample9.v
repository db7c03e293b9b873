(** The commands functions and methods on the binary of BinaryExample (C120, C121). *)
From Coq Require Import Ascii String List ZArith NArith Lia Bool Sorted.
From Verif Require Import Base NumText OMap AddrModel AddrSpec AddrProofs SymModel SymSpec SymProofs SymProps PathModel LinesModel LinesProps DieModel DieSpec ModuleModel ModuleSpec
  TypesModel ParserModel ParserSpec ParserProofs ResolveModel ResolveSpec ResolveProps ResolveExample FnModel FnSpec SourceModel LoadModel LoadProps LookupSpec LookupProps TypeTextModel TypeTextSpec TypeNameSpec TypeNameProofs TypeNameProps
  SynthModel DiscoverModel DiscoverSpec DiscoverProps DiscoverFns DiscoverReport DiscoverExample BinaryModel BinarySpec BinaryProofs BinaryProps BinaryTypes BinaryMethods BinaryDiscover BinaryReport BinaryExample BinaryExample2 BinaryExample3 BinaryExample5.
From Verif Require Import ExprModel ProcModel EvalModel ServerModel ClientModel ClientSpec SessionModel SessionSpec SessionExample WireProps RdProps BinarySession BinaryCommands BinarySpec Utf8.
Import ListNotations.
Open Scope Z_scope.

Example app_types_settled : forall g d s u v, In g (bi_made app_binary) -> In d (visible (units_of g)) -> linked (history plain_externals app_tables) g d s -> In u (bf_units g) -> in_tree (bu_die u) d -> unit_view g u v -> settled v d.
Proof.
  intros g d s u v [<- | []] Hd L [<- | []] _ V. rewrite (view_fun _ _ _ _ V app_view). destruct (linked_only d s Hd L) as [[-> _] | [-> _]]; intros t [H | H]; vm_compute in H; try discriminate H; try contradiction.
  destruct H as [<- | []]. left. eexists. exists 5%nat. vm_compute. reflexivity.
Qed.
Lemma fits_ascii (f : dfunction) : forallb (forallb (fun c => (c <? 128)%N)) ([df_name f; df_full f; df_sig f] ++ df_module f) = true -> 0 <= df_addr f < 18446744073709551616 -> function_fits (function_info f).
Proof.
  intros H A. rewrite forallb_app in H. apply andb_true_iff in H. destruct H as [H M]. cbn [forallb] in H. rewrite !andb_true_iff in H. destruct H as (H1 & H2 & H3 & _).
  assert (T : forall s, forallb (fun c => (c <? 128)%N) s = true -> text s) by (intros s Q; apply Forall_forall; intros c Hc; rewrite forallb_forall in Q; specialize (Q c Hc); apply N.ltb_lt in Q; left; apply N.lt_le_incl; apply N.lt_trans with 128%N; [exact Q | reflexivity]).
  split; [apply T; assumption|]. split; [apply T; assumption|]. split; [apply T; assumption|]. split; [unfold WireProps.u64, two64; cbn [function_info fn_addr]; lia|].
  apply Forall_forall. intros s Hs. rewrite forallb_forall in M. apply T. exact (M s Hs).
Qed.

Definition total_listed : dfunction := Eval vm_compute in (match BinaryModel.discover_functions 40 5 app_binary (st "app::total") with Ok (f :: _) => f | _ => DFunction [] [] [] 0 false [] None [] end).
Lemma app_result : forall n k, (40 <= n)%nat -> (5 <= k)%nat -> BinaryModel.discover_functions n k app_binary (st "app::total") = Ok [total_listed].
Proof.
  intros n k Hn Hk. replace n with (40 + (n - 40))%nat by lia. replace k with (5 + (k - 5))%nat by lia. generalize (n - 40)%nat as m, (k - 5)%nat as j. intros m j. vm_compute. reflexivity.
Qed.
Lemma total_fits : function_fits (function_info total_listed).
Proof. apply fits_ascii; [vm_compute; reflexivity | cbn; lia]. Qed.

Lemma app_segment : wf_segment (st "app").
Proof.
  split; [discriminate|]. split; [|split; [reflexivity|]].
  - intros a b E. exfalso. assert (I : In 58%N (st "app")) by (rewrite E; apply in_or_app; right; now left). repeat destruct I as [I|I]; try discriminate; destruct I.
  - split; [reflexivity|]. split.
    + intros c I. repeat destruct I as [<-|I]; try destruct I; repeat split; discriminate.
    + intros a b E. assert (I : In 32%N (st "app")) by (rewrite E; apply in_or_app; right; now left). repeat destruct I as [I|I]; try discriminate; destruct I.
Qed.
Lemma total_segment : wf_segment (st "total").
Proof.
  split; [discriminate|]. split; [|split; [reflexivity|]].
  - intros a b E. exfalso. assert (I : In 58%N (st "total")) by (rewrite E; apply in_or_app; right; now left). repeat destruct I as [I|I]; try discriminate; destruct I.
  - split; [reflexivity|]. split.
    + intros c I. repeat destruct I as [<-|I]; try destruct I; repeat split; discriminate.
    + intros a b E. assert (I : In 32%N (st "total")) by (rewrite E; apply in_or_app; right; now left). repeat destruct I as [I|I]; try discriminate; destruct I.
Qed.
Definition eventually_prints (ws : option fpath) (map0 : list (fpath * fpath)) (fs0 : fpath -> option stored) (cmd : str) (args lines : list str) : Prop :=
  eventually (fun n k => prints (server_load map0 fs0 (fun l => l) plain_externals isort ws (fun s => s) (fun _ => []) (fun _ _ => []) (fun _ => false) n k) app_lldb (st "/app/bin") 0%nat cmd args lines).
(** rd functions app::total: the hypotheses of C120 hold, and one line is printed. *)
Example total_command_listed : eventually (fun n k => exists d, (exists debug, function_die app_history app_binary s_total debug /\ presents debug s_total d) /\
  prints (server_load app_map app_fs (fun l => l) plain_externals isort None (fun s => s) (fun _ => []) (fun _ _ => []) (fun _ => false) n k) app_lldb (st "/app/bin") 0%nat (st "functions") [st "app::total"] [st "Found 1 function(s):"; listing_line s_total d]).
Proof.
  pose proof (functions_command_printed app_map app_fs (fun l => l) plain_externals isort None (fun s => s) (fun _ => []) (fun _ _ => []) (fun _ => false) nat app_lldb 0%nat (st "/app/bin") app_binary app_tables
    app_fits ltac:(apply ascii_texts; reflexivity) app_opened app_index [st "app"] (st "total") app_made) as F. cbv zeta in F.
  destruct F as (n0 & F).
  - apply Forall_cons; [exact app_segment|]. apply Forall_cons; [exact total_segment | apply Forall_nil].
  - intros (ds & Q & _). discriminate.
  - apply ascii_texts. reflexivity.
  - exact app_types_settled.
  - exists 40%nat. intros n Hn. exists 5%nat. intros k Hk r E. change (Base.join (st "::") ([st "app"] ++ [st "total"])) with (st "app::total") in E. rewrite (app_result n k Hn Hk) in E. injection E as <-. apply Forall_cons; [exact total_fits | apply Forall_nil].
  - exists n0. intros n Hn. destruct (F n Hn) as (k0 & K). exists k0. intros k Hk. destruct (K k Hk) as (ys & Nd & M & ds & F2 & P).
    assert (Ey : ys = [s_total]).
    { rewrite app_indexed in M. assert (A : forall y, In y ys -> y = s_total).
      { intros y Hy. apply M in Hy. destruct Hy as [La Nm]. apply is_last_in in La. destruct La as [Hi _]. destruct Hi as [<- | [<- | []]]; [reflexivity|]. destruct Nm as [Nm _]. discriminate Nm. }
      assert (B0 : In s_total ys).
      { apply M. split; [|split; [reflexivity | exists []; reflexivity]]. exists [], [s_main]. split; [reflexivity|]. split; [reflexivity|]. intros z [<- | []] Q. discriminate Q. }
      destruct ys as [|y1 [|y2 ys]]; [contradiction | rewrite (A y1 (or_introl eq_refl)); reflexivity|].
      exfalso. cbn [map] in Nd. inversion Nd as [|? ? Ni _]. apply Ni. rewrite (A y1 (or_introl eq_refl)), (A y2 (or_intror (or_introl eq_refl))). left. reflexivity. }
    subst ys. inversion F2 as [|? d ? ds' De F3]; subst. inversion F3; subst. exists d. split; [rewrite <- app_indexed; exact De | exact P].
Qed.
(** And the line is this. *)
Example total_command : eventually_prints None app_map app_fs (st "functions") [st "app::total"] [st "Found 1 function(s):"; st "  app::total: fn total(n: u32) (callable)"].
Proof.
  exists 40%nat. intros n Hn. exists 5%nat. intros k Hk.
  refine (one_answer _ app_lldb (st "/app/bin") 0%nat (debug_info isort app_map None n k app_binary plain_externals (fun s => s) (fun _ => []) (fun _ _ => []) (fun _ => false)) (st "functions") [st "app::total"] (Complete (PFunctions [function_info total_listed])) app_fits _ _ _ text_functions _ _ _ _ _).
  - apply ascii_texts; reflexivity.
  - unfold server_load. rewrite app_opened. reflexivity.
  - discriminate.
  - apply Forall_cons; [apply ascii_texts; reflexivity | apply Forall_nil].
  - change (Ret (respond PFunctions (rmap (map function_info) (BinaryModel.discover_functions n k app_binary (st "app::total")))) = Ret (Ok (Complete (PFunctions [function_info total_listed])))). rewrite (app_result n k Hn Hk). reflexivity.
  - cbn [server_fits payload_fits]. apply Forall_cons; [exact total_fits | apply Forall_nil].
  - intros repr. rewrite functions_lines. reflexivity.
Qed.

(** rd functions: the hypotheses hold, and both functions are listed. *)
Definition app_all : omap str dfunction := Eval vm_compute in (match BinaryModel.discover_all_functions 40 5 app_binary with Ok m => m | _ => [] end).
Lemma app_all_result : forall n k, (40 <= n)%nat -> (5 <= k)%nat -> BinaryModel.discover_all_functions n k app_binary = Ok app_all.
Proof. intros n k Hn Hk. replace n with (40 + (n - 40))%nat by lia. replace k with (5 + (k - 5))%nat by lia. generalize (n - 40)%nat as m, (k - 5)%nat as j. intros m j. vm_compute. reflexivity. Qed.
Lemma app_all_fits : Forall (fun x => function_fits (function_info (snd x))) app_all.
Proof. apply Forall_cons; [apply fits_ascii; [vm_compute; reflexivity | cbn; lia]|]. apply Forall_cons; [apply fits_ascii; [vm_compute; reflexivity | cbn; lia] | apply Forall_nil]. Qed.
Example all_command_listed : eventually (fun n k => exists m : list (str * dfunction), map fst m = [st "app::main"; st "app::total"] /\
  prints (server_load app_map app_fs (fun l => l) plain_externals isort None (fun s => s) (fun _ => []) (fun _ _ => []) (fun _ => false) n k) app_lldb (st "/app/bin") 0%nat (st "functions") [] (listing (map (fun nf => function_line (function_info (snd nf))) m))).
Proof.
  destruct (all_functions_command_printed_partial app_map app_fs (fun l => l) plain_externals isort None (fun s => s) (fun _ => []) (fun _ _ => []) (fun _ => false) nat app_lldb 0%nat (st "/app/bin") app_binary app_tables
    app_fits ltac:(apply ascii_texts; reflexivity) app_opened app_index app_made app_types_settled) as (n0 & F).
  - exists 40%nat. intros n Hn. exists 5%nat. intros k Hk r E. rewrite (app_all_result n k Hn Hk) in E. injection E as <-. exact app_all_fits.
  - exists n0. intros n Hn. destruct (F n Hn) as (k0 & K). exists k0. intros k Hk. destruct (K k Hk) as (m & Inc & Fm & All & P). exists m. split; [|exact P]. rewrite app_indexed in Fm, All.
    assert (Only : forall x, In x (map fst m) -> x = st "app::main" \/ x = st "app::total").
    { intros x Hx. apply in_map_iff in Hx. destruct Hx as (nf & <- & Hn'). rewrite Forall_forall in Fm. destruct (Fm nf Hn') as (y & debug & La & <- & _). apply is_last_in in La. destruct La as [[<- | [<- | []]] _]; [right | left]; reflexivity. }
    assert (H1 : In (st "app::total") (map fst m)) by (apply (All s_total); exists [], [s_main]; split; [reflexivity|]; split; [reflexivity|]; intros z [<- | []] Q; discriminate Q).
    assert (H2 : In (st "app::main") (map fst m)) by (apply (All s_main); exists [s_total], []; split; [reflexivity|]; split; [reflexivity|]; intros z []).
    clear - Inc Only H1 H2. generalize dependent (map fst m). clear m. intros l Inc Only H1 H2.
    assert (Irr : forall x y : str, cmp_str x y = Lt -> x <> y) by (intros x y C ->; assert (Q : cmp_str y y = Eq) by (apply (wo_refl cmp_str wo_str)); rewrite Q in C; discriminate).
    destruct l as [|a [|b [|c l]]].
    + contradiction.
    + destruct H1 as [H1 | []], H2 as [H2 | []]. rewrite H1 in H2. discriminate H2.
    + cbn [increasing] in Inc. destruct Inc as (A & _). pose proof (A b (or_introl eq_refl)) as Ab. destruct (Only a (or_introl eq_refl)) as [-> | ->], (Only b (or_intror (or_introl eq_refl))) as [-> | ->]; try reflexivity; try (contradiction (Irr _ _ Ab eq_refl)); vm_compute in Ab; discriminate Ab.
    + exfalso. cbn [increasing] in Inc. destruct Inc as (A & B & _). pose proof (Irr _ _ (A b (or_introl eq_refl))) as Ab. pose proof (Irr _ _ (A c (or_intror (or_introl eq_refl)))) as Ac. pose proof (Irr _ _ (B c (or_introl eq_refl))) as Bc.
      destruct (Only a (or_introl eq_refl)) as [-> | ->], (Only b (or_intror (or_introl eq_refl))) as [-> | ->], (Only c (or_intror (or_intror (or_introl eq_refl)))) as [-> | ->]; try contradiction; congruence.
Qed.

(** ** rd methods m::Point, on a binary whose unit is that of BinaryExample3 with a line table. *)
Definition shop_unit : bunit := BUnit u1 0 100 (Some (Some (st "/build/app"))) (Some (false, [FEntry (Some (st "src")) (Some (st "main.rs"))], None, [])) (fun h => None) (fun h => None).
Definition shop_object : object := Object true (flat_map snd point_files) [] [] [shop_unit].
Definition shop_fs (p : fpath) : option stored := if fpath_eqb p (pth ["app"; "bin"]%string) then Some (Stored (Some shop_object) None) else None.
Definition shop_file : bfile := BFile 0 false [shop_unit].
Definition shop_binary : binary := Binary point_ix [shop_file] [shop_file].
Example shop_opened : open_binary app_map shop_fs (fun l => l) plain_externals (components (st "/app/bin")) = Ok shop_binary.
Proof. vm_compute. reflexivity. Qed.
Example shop_view : unit_view shop_file shop_unit point_env.
Proof. exists 60%nat. intros n Hn. replace n with (60 + (n - 60))%nat by lia. generalize (n - 60)%nat as m. intros m. unfold unit_env, point_env. f_equal. Qed.
Example shop_local : workspace_file app_map workspace0 shop_file.
Proof.
  eexists shop_unit, false, _, None, _, _, main_rs. split; [left; reflexivity|]. split; [reflexivity|]. split; [reflexivity|]. split; [left; reflexivity|]. split; [vm_compute; reflexivity|].
  exists (skipn 4 main_rs). left. vm_compute. reflexivity.
Qed.
Example shop_selected : selects (workspace_file app_map workspace0) (bi_files shop_binary) [shop_file].
Proof. apply sel_take; [exact shop_local | apply sel_nil]. Qed.
Example shop_well : well_formed shop_file.
Proof.
  destruct point_well as ((z & Z1 & Z2) & D & A). split; [|split].
  - exists z. split; [|exact Z2]. intros u [<- | []]. exact (Z1 point_bunit (or_introl eq_refl)).
  - intros x1 x2 d1 d2 [<- | []] [<- | []] T1 T2 E. split; [reflexivity|]. exact (proj2 (D point_bunit point_bunit d1 d2 (or_introl eq_refl) (or_introl eq_refl) T1 T2 E)).
  - intros u [<- | []]. exact point_attrs.
Qed.
Lemma shop_apart : apart [shop_file].
Proof. intros f1 f2 w1 w2 d1 d2 [<- | []] [<- | []] _ _ _ _ _. reflexivity. Qed.
Example shop_enclosed : enclosed shop_unit point_die m_die [st "m"].
Proof. split; [apply subtrees_in; vm_compute; tauto | vm_compute; tauto]. Qed.
Lemma point_name_ok : name_ok (st "Point").
Proof. split; [lit_ident | lit_kw]. Qed.
Lemma m_name_ok : name_ok (st "m").
Proof. split; [lit_ident | lit_kw]. Qed.
Example shop_declared : declared_in [st "m"] [shop_file] = [point_die; pick 20].
Proof. vm_compute. reflexivity. Qed.
Example shop_ordinary : Forall (ordinary_member [st "m"]) (declared_in [st "m"] [shop_file]).
Proof.
  rewrite shop_declared. assert (NI : forall d s n, get_attr (d_entry d) At_name = Some (AStr (Some s)) -> ParserSpec.named d n -> n = s).
  { intros d s n E N. apply ex_attr in E. pose proof (has_attr_inj _ _ _ _ E N) as X. injection X as <-. reflexivity. }
  constructor; [|constructor; [|constructor]]; intros n T N; try (cbn in T; repeat destruct T as [T | T]; discriminate || contradiction).
  left. exists (st "Point"), []. split; [eapply NI; [|exact N]; reflexivity|]. split; [exact point_name_ok | constructor].
Qed.
Definition shop_methods : list dmethod := Eval vm_compute in (match BinaryModel.discover_methods 60 5 shop_binary plain_externals (fun s => s) (TD point (Some 11)) with Ok l => l | _ => [] end).
Example shop_result : forall n k, (60 <= n)%nat -> (5 <= k)%nat -> BinaryModel.discover_methods n k shop_binary plain_externals (fun s => s) (TD point (Some 11)) = Ok shop_methods.
Proof. intros n k Hn Hk. replace n with (60 + (n - 60))%nat by lia. replace k with (5 + (k - 5))%nat by lia. generalize (n - 60)%nat as m, (k - 5)%nat as j. intros m j. vm_compute. reflexivity. Qed.
Example shop_command : exists k0, forall k, (k0 <= k)%nat -> exists n0, forall n, (n0 <= n)%nat ->
  prints (server_load app_map shop_fs (fun l => l) plain_externals isort (Some workspace0) (fun s => s) (fun _ => []) (fun _ _ => []) (fun _ => false) n k) app_lldb (st "/app/bin") 0%nat (st "methods") [st "m::Point"]
    [st "Methods for m::Point:"; st "  - fn new() -> Point (callable)"; st "  - fn area(&self, n: u32) -> u64 (callable)"; st "  - fn grow(&mut self) (not callable)"; st "  - fn fmt(&self) (callable)"].
Proof.
  destruct (methods_command_printed_partial app_map shop_fs (fun l => l) plain_externals isort (Some workspace0) (fun s => s) (fun _ => []) (fun _ _ => []) (fun _ => false) nat app_lldb 0%nat (st "/app/bin") shop_binary
    app_fits ltac:(apply ascii_texts; reflexivity) shop_opened workspace0 [shop_file] (st "m") [] (st "Point") [] (EPath [st "m"; st "Point"]) [st "m::Point"] shop_file shop_unit point_die m_die [st "m"] point_env point eq_refl shop_selected) as (k0 & K).
  - apply Forall_cons; [exact shop_well | apply Forall_nil].
  - exact shop_apart.
  - apply Forall_cons; [exact shop_well | apply Forall_nil].
  - apply Forall_cons; [exact shop_well | apply Forall_nil].
  - exact shop_apart.
  - cbn. intuition discriminate.
  - apply Forall_cons; [exact m_name_ok | apply Forall_nil].
  - exact point_name_ok.
  - apply Forall_nil.
  - exact shop_ordinary.
  - rewrite shop_declared. exists [], [pick 20]. split; [reflexivity|]. split; [split; [cbn; tauto | apply ex_attr; reflexivity] | apply Forall_nil].
  - left. reflexivity.
  - left. reflexivity.
  - left. reflexivity.
  - reflexivity.
  - apply subtrees_in. vm_compute. tauto.
  - exact shop_enclosed.
  - exact shop_view.
  - exists 5%nat. vm_compute. reflexivity.
  - discriminate.
  - apply Forall_cons; [apply ascii_texts; reflexivity | apply Forall_nil].
  - vm_compute. reflexivity.
  - left. eexists. reflexivity.
  - vm_compute. reflexivity.
  - apply ascii_texts. vm_compute. reflexivity.
  - exists (k0 + 5)%nat. intros k Hk. destruct (K k ltac:(lia)) as (n0 & N). exists (n0 + 60)%nat. intros n Hn. destruct (N n shop_methods ltac:(lia) (shop_result n k ltac:(lia) ltac:(lia))) as [P _]; [|exact P].
    apply Forall_forall. intros m Hm. unfold method_fits. assert (G : forallb (fun m => forallb (forallb (fun c => (c <? 128)%N)) [mi_name (method_info m); mi_sig (method_info m); match mi_description (method_info m) with Some s => s | None => [] end]) shop_methods = true) by (vm_compute; reflexivity).
    rewrite forallb_forall in G. specialize (G m Hm). cbn [forallb] in G. rewrite !andb_true_iff in G. destruct G as (G1 & G2 & G3 & _). split; [apply ascii_texts; exact G1|]. split; [apply ascii_texts; exact G2|]. destruct (mi_description (method_info m)) as [s|]; [apply ascii_texts; exact G3 | exact I].
Qed.
Print Assumptions total_command_listed.
Print Assumptions shop_command.
