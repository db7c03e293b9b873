(** The binary of BinaryExample meets the hypotheses of C106-C108. *)
From Coq Require Import Ascii String List ZArith NArith Lia Bool Sorted.
From Verif Require Import Base NumText OMap AddrModel AddrSpec AddrProofs SymModel SymSpec SymProofs SymProps PathModel LinesModel LinesProps DieModel DieSpec ModuleModel ModuleSpec
  TypesModel ParserModel ParserSpec ParserProofs ResolveModel ResolveSpec ResolveProofs ResolveProps ResolveExample FnModel FnSpec FnProps SourceModel SourceProps LoadModel LoadProps
  DiscoverModel DiscoverSpec DiscoverFns TypeTextModel TypeTextSpec TypeNameSpec TypeNameProofs TypeNameProps LookupSpec LookupProps
  BinaryModel BinarySpec BinaryProofs BinaryProps BinaryTypes BinaryLines BinaryDiscover BinaryExample.
Import ListNotations.
Open Scope Z_scope.

Definition workspace0 : fpath := components (st "/home/u/app").
Definition main_rs : path := pth ["home"; "u"; "app"; "src"; "main.rs"]%string.
Example app_local : workspace_file app_map workspace0 app_file.
Proof.
  eexists app_unit, false, _, None, _, _, main_rs. split; [left; reflexivity|]. split; [reflexivity|]. split; [reflexivity|]. split; [left; reflexivity|]. split; [vm_compute; reflexivity|].
  exists (skipn 4 main_rs). left. vm_compute. reflexivity.
Qed.
Example app_selected : selects (workspace_file app_map workspace0) (bi_files app_binary) [app_file].
Proof. apply sel_take; [exact app_local | apply sel_nil]. Qed.
Example app_well : well_formed app_file.
Proof.
  split; [|split; [exact app_distinct | intros u [<- | []]; exact app_attrs]].
  exists (fun _ => bu_length app_unit). split; [intros u [<- | []]; reflexivity|]. split; [|split; exact Logic.I]. split; [reflexivity|]. split; [|split].
  - assert (O : forall e k, is_namespace e = false -> forallb (fun x => negb (is_namespace x)) (entries_list (match k with Some l => l | None => [] end)) = true -> ns_tree (Die e k)).
    { intros e k N F. apply ns_tree_other; [exact N|]. rewrite forallb_forall in F. apply Forall_forall. intros x Hx. apply F in Hx. destruct (is_namespace x); [discriminate | reflexivity]. }
    cbn [app_unit bu_die app_die d_kids]. apply Forall_cons; [apply O; reflexivity|]. apply Forall_cons; [|apply Forall_nil]. apply ns_tree_ns; [reflexivity | discriminate|].
    repeat (apply Forall_cons; [apply O; reflexivity|]). apply Forall_nil.
  - cbn. repeat (apply SSorted_cons || apply SSorted_nil || apply Forall_cons || apply Forall_nil); unfold by_offset; cbn; lia.
  - intros x Hx. cbn in Hx. repeat destruct Hx as [<- | Hx]; cbn; lia.
Qed.
Lemma app_apart : apart [app_file].
Proof. intros f1 f2 u1 u2 d1 d2 [<- | []] [<- | []] _ _ _ _ _. reflexivity. Qed.

(** C106: app::Order. *)
Definition order_ty : tdef := TD (LStruct (st "Order") 4 8 [(st "id", 0, TD (LUInt 4) (Some 10))]) (Some 90).
Example app_declared : declared_in [st "app"] [app_file] = [total; main; order].
Proof. vm_compute. reflexivity. Qed.
Lemma order_ok : name_ok (st "Order").
Proof. split; [lit_ident | lit_kw]. Qed.
Example app_ordinary : Forall (ordinary_member [st "app"]) (declared_in [st "app"] [app_file]).
Proof.
  rewrite app_declared. assert (NI : forall d s n, get_attr (d_entry d) At_name = Some (AStr (Some s)) -> named d n -> n = s).
  { intros d s n E N. apply ex_attr in E. pose proof (has_attr_inj _ _ _ _ E N) as X. injection X as <-. reflexivity. }
  constructor; [|constructor; [|constructor; [|constructor]]]; intros n T N; try (cbn in T; repeat destruct T as [T | T]; discriminate || contradiction).
  left. exists (st "Order"), []. split; [eapply NI; [|exact N]; reflexivity|]. split; [exact order_ok | constructor].
Qed.
Example app_order : exists k0, forall k, (k0 <= k)%nat -> exists n0, forall n, (n0 <= n)%nat ->
  lookup_type_by_name app_map (Some workspace0) n k app_binary (st "app::Order") = Ok (Some order_ty).
Proof.
  destruct (workspace_type_found app_map workspace0 app_binary [app_file] app_selected ltac:(apply Forall_cons; [exact app_well | apply Forall_nil]) app_apart (st "app") [] (st "Order") []) as [_ F].
  - cbn. intuition discriminate.
  - constructor; [split; [lit_ident | lit_kw] | constructor].
  - exact order_ok.
  - constructor.
  - exact app_ordinary.
  - refine (F app_file app_unit order app_env order_ty _ (or_introl eq_refl) (or_introl eq_refl) _ app_view _).
    + rewrite app_declared. exists [total; main], []. split; [reflexivity|]. split; [split; [cbn; tauto | apply ex_attr; reflexivity]|].
      repeat apply Forall_cons; try apply Forall_nil; intros [T _]; cbn in T; repeat destruct T as [T | T]; discriminate || contradiction.
    + apply subtrees_in. vm_compute. tauto.
    + exists 5%nat. vm_compute. reflexivity.
Qed.
(** Without a workspace it is not found. *)
Example app_order_unknown : forall n k, lookup_type_by_name app_map None n k app_binary (st "app::Order") = Ok None.
Proof. intros n k. reflexivity. Qed.

(** C107: main.rs:5 is the code of line 6. *)
Example app_lines : readable_file app_history app_file /\ ordinary_lines app_map app_history app_file.
Proof.
  split; [exact app_readable|]. split; [|repeat constructor].
  intros u v5 es zero rows [<- | []] E. injection E as <- <- <- <-. split; [reflexivity|]. split; [|split; [|split]].
  - intros r H. repeat destruct H as [<- | H]; cbn; try lia. contradiction.
  - intros [|[|i]] [|[|j]] x y p Hi Hj _ _; try reflexivity; discriminate.
  - intros r l H E. repeat destruct H as [<- | H]; try contradiction; try discriminate E; injection E as <-; cbn; unfold u64_last, two64; lia.
  - intros r d s lo hi Hr Hd L R. destruct (linked_only d s Hd L) as [[-> ->] | [-> ->]]; injection R as <- <-; repeat destruct Hr as [<- | Hr]; try contradiction; cbn; unfold two64; lia.
Qed.
Example app_line : exists n0, forall n, (n0 <= n)%nat -> find_address isort app_map n app_binary (st "main.rs") 5 = Ok (Some 4164).
Proof. exists 40%nat. intros n Hn. replace n with (40 + (n - 40))%nat by lia. generalize (n - 40)%nat as m. intros m. vm_compute. reflexivity. Qed.
Example app_line_code : line_code app_map app_history app_file main_rs 6 4164.
Proof.
  eexists app_unit, false, _, None, _, (Row 68 1 (Some 6) 9 false), _, total, s_total, 64, 96. split; [left; reflexivity|]. split; [eexists; reflexivity|]. split; [reflexivity|]. split; [right; left; reflexivity|].
  split; [reflexivity|]. split; [reflexivity|]. split; [reflexivity|]. split; [vm_compute; reflexivity|]. split; [rewrite app_visible; right; right; left; reflexivity|]. split; [exact linked_total|]. split; [reflexivity|]. split; [cbn; lia | reflexivity].
Qed.

(** C108: the functions ending in "total". *)
Example app_listed : exists n0 k0, forall n k, (n0 <= n)%nat -> (k0 <= k)%nat ->
  exists f, BinaryModel.discover_functions n k app_binary (st "app::total") = Ok [f] /\ df_full f = st "app::total" /\ df_addr f = 4160 /\ df_callable f = true /\
    df_sig f = st "fn total(n: u32)" /\ df_params f = [(Some (st "n"), u32t)].
Proof.
  exists 40%nat, 5%nat. intros n k Hn Hk. replace n with (40 + (n - 40))%nat by lia. replace k with (5 + (k - 5))%nat by lia. generalize (n - 40)%nat as m, (k - 5)%nat as j. intros m j.
  eexists. vm_compute. repeat (split; [reflexivity|]). reflexivity.
Qed.
Example app_made : forall f, In f (bi_made app_binary) -> readable_file (history plain_externals app_tables) f /\ well_formed f.
Proof. intros f [<- | []]. split; [exact app_readable | exact app_well]. Qed.
