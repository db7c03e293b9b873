(** C38, C39, C62: modules of DIEs. *)
From Coq Require Import Ascii String List ZArith Lia Bool Sorted.
From Verif Require Import Base DieModel DieSpec DieProofs DieProps ModuleModel ModuleSpec ModuleProofs.
Import ListNotations.
Open Scope Z_scope.

Definition contains (r : mrange) (o : Z) : Prop := mr_start r <= o < mr_end r.
(** C38. *)
Theorem module_lookup_innermost : forall recorded off,
  match find_by_offset (sort_ranges recorded) off with
  | Some r => In r recorded /\ contains r off /\ forall s, In s recorded -> contains s off -> mr_start s <= mr_start r
  | None => forall r, In r recorded -> ~ contains r off
  end.
Proof.
  intros rs off. unfold find_by_offset. pose proof (sort_is_sorted rs) as S.
  pose proof (find_rev_last (fun r => (mr_start r <=? off) && (off <? mr_end r)) _ (take_while_ss off _ S)) as F.
  pose proof (take_while_sorted off _ S) as TW.
  destruct (find _ _) as [r|].
  - destruct F as (F1 & F2 & F3). apply TW in F1. destruct F1 as [F1 _]. apply (proj1 (sort_in _ _)) in F1. split; [exact F1|]. split; [unfold contains; lia|].
    intros s Hs C. apply F3; [apply TW; split; [apply sort_in; exact Hs | apply C] | unfold contains in C; lia].
  - intros r Hr C. assert (X : (mr_start r <=? off) && (off <? mr_end r) = false) by (apply F; apply TW; split; [apply sort_in; exact Hr | apply C]).
    unfold contains in C. lia.
Qed.
Print Assumptions module_lookup_innermost.

(** C39. *)
Theorem die_module_is_enclosing_namespace_partial : forall ulen ds, good_file ulen (map fst ds) ->
  exists n0 ranges mods, (forall n, (n0 <= n)%nat -> module_index ulen n (file_toks ds) = Some (ranges, mods)) /\
    (forall d x p, In d (map fst ds) -> is_rust_cu (d_entry d) = true -> In (x, p) (paths [] d) -> get_containing_module ranges (e_off x) = Some p) /\
    (forall d x, In d (map fst ds) -> is_rust_cu (d_entry d) = false -> In x (entries d) -> get_containing_module ranges (e_off x) = None).
Proof.
  intros ulen ds G. destruct (file_walked ulen ds new_builder G) as (n0 & b & N & H1 & H2 & H3 & H4 & H5 & H6).
  cbn [new_builder b_ranges app] in H2. exists n0, N, (b_modules b).
  assert (SN : sort_ranges N = N) by (apply sort_sorted, ahead_sorted; [exact H3 | intros r Hr; apply (H4 r Hr)]).
  split; [intros n Hn; unfold module_index; rewrite H1 by exact Hn; rewrite H2, SN; reflexivity|].
  assert (UN : forall r s o, In r N -> In s N -> contains r o -> contains s o -> r = s).
  { intros r s o Hr Hs Cr Cs. unfold contains in *. clear - H3 Hr Hs Cr Cs. induction H3 as [|x l H IH F]; [destruct Hr|]. rewrite Forall_forall in F. unfold ahead in F.
    destruct Hr as [<- | Hr], Hs as [<- | Hs]; [reflexivity | specialize (F s Hs); lia | specialize (F r Hr); lia | apply IH; assumption]. }
  split.
  - intros d x p Hd HR Hx. destruct (H5 x p) as (r & Hr & C & P).
    { unfold rust_paths. apply in_flat_map. exists d. rewrite HR. auto. }
    unfold get_containing_module. pose proof (module_lookup_innermost N (e_off x)) as L. rewrite SN in L. destruct (find_by_offset N (e_off x)) as [s|].
    + destruct L as (L1 & L2 & _). rewrite (UN s r (e_off x) L1 Hr L2 C), P. reflexivity.
    + exfalso. exact (L r Hr C).
  - intros d x Hd HR Hx. unfold get_containing_module. pose proof (module_lookup_innermost N (e_off x)) as L. rewrite SN in L.
    destruct (find_by_offset N (e_off x)) as [s|]; [|reflexivity]. exfalso. destruct L as (L1 & L2 & _). destruct (H4 s L1) as (_ & _ & (d' & D1 & D2 & D3 & D4)).
    unfold contains in L2. assert (XB : forall d x, In d (map fst ds) -> In x (entries d) -> e_off (d_entry d) <= e_off x < e_off (d_entry d) + ulen (d_entry d)).
    { clear - G. induction ds as [|[d0 p0] ds IH]; intros d x Hd Hx; [destruct Hd|]. cbn [map fst good_file] in G. destruct G as ((_ & _ & S & B) & _ & G).
      destruct Hd as [<- | Hd]; [split; [apply head_first; assumption | apply B; exact Hx] | apply (IH G d x Hd Hx)]. }
    pose proof (XB d x Hd Hx) as B1.
    assert (SEP : forall a b, In a (map fst ds) -> In b (map fst ds) -> a = b \/ e_off (d_entry a) + ulen (d_entry a) <= e_off (d_entry b) \/ e_off (d_entry b) + ulen (d_entry b) <= e_off (d_entry a)).
    { clear - G. assert (LB : forall l d0, good_file ulen (d0 :: l) -> forall y, In y l -> e_off (d_entry d0) + ulen (d_entry d0) <= e_off (d_entry y)).
      { clear G. induction l as [|z l IH]; intros d0 G y Hy; [destruct Hy|]. destruct G as (G1 & G2 & G3). destruct Hy as [<- | Hy]; [exact G2|].
        specialize (IH z G3 y Hy). destruct G3 as ((_ & _ & S & B) & _). specialize (B (d_entry z) (head_in z)). lia. }
      induction (map fst ds) as [|d0 l IH]; intros a b Ha Hb; [destruct Ha|]. pose proof (LB l d0 G) as L0. destruct G as (_ & _ & G').
      destruct Ha as [<- | Ha], Hb as [<- | Hb]; [left; reflexivity | right; left; apply L0; exact Hb | right; right; apply L0; exact Ha | apply IH; assumption]. }
    destruct (SEP d d' Hd D1) as [-> | [SP | SP]]; [congruence | lia | lia].
Qed.
Print Assumptions die_module_is_enclosing_namespace_partial.

(** C62: by_name lists, under each path, the namespaces of that path in file order. *)
Lemma get_set_same l s f : get_sub (set_sub l s f) s = Some (f (match get_sub l s with Some m => m | None => empty_module end)).
Proof.
  induction l as [|[t m] l IH]; cbn; [rewrite str_eqb_refl; reflexivity|]. destruct (str_eqb t s) eqn:Q; cbn; rewrite Q; [reflexivity | exact IH].
Qed.
Lemma get_set_other l s t f : s <> t -> get_sub (set_sub l s f) t = get_sub l t.
Proof.
  intros D. induction l as [|[u m] l IH]; cbn.
  - replace (str_eqb s t) with false; [reflexivity|]. symmetry. apply str_eqb_neq. exact D.
  - destruct (str_eqb u s) eqn:Q; cbn; destruct (str_eqb u t) eqn:Q2; try reflexivity; try exact IH.
    apply str_eqb_eq in Q, Q2. congruence.
Qed.
Definition at_path (m : module) (p : list str) : list Z := match find_by_path m p with Some x => entries_of x | None => [] end.
Lemma at_path_empty p : at_path empty_module p = [].
Proof. destruct p as [|s p]; reflexivity. Qed.
Lemma at_path_add q o : forall m p, at_path (add_entry q o m) p = at_path m p ++ (if list_eq_dec str_eq_dec q p then [o] else []).
Proof.
  induction q as [|s q IH]; intros m p.
  - destruct p as [|t p]; cbn; [reflexivity|]. unfold at_path. cbn. rewrite app_nil_r. reflexivity.
  - destruct p as [|t p]; [unfold at_path; cbn; rewrite app_nil_r; reflexivity|]. unfold at_path. cbn [find_by_path add_entry subs_of].
    destruct (str_eq_dec s t) as [-> | D].
    + rewrite get_set_same. fold (at_path (add_entry q o (match get_sub (subs_of m) t with Some m0 => m0 | None => empty_module end)) p). rewrite IH.
      destruct (get_sub (subs_of m) t) as [m'|]; [|rewrite at_path_empty; cbn [app]]; destruct (list_eq_dec str_eq_dec q p) as [-> | D2];
        (destruct (list_eq_dec str_eq_dec (t :: _) (t :: p)); try congruence; reflexivity).
    + rewrite get_set_other by exact D. destruct (list_eq_dec str_eq_dec (s :: q) (t :: p)); [congruence|]. rewrite app_nil_r. reflexivity.
Qed.
Lemma find_add q o : forall m p, find_by_path (add_entry q o m) p <> None <-> find_by_path m p <> None \/ exists r, q = p ++ r.
Proof.
  induction q as [|s q IH]; intros m p.
  - destruct p as [|t p]; cbn; [split; [left; discriminate | discriminate]|]. split; [intros H; left; exact H | intros [H | [r E]]; [exact H | discriminate]].
  - destruct p as [|t p]; [cbn; split; [left; discriminate | discriminate]|]. cbn [find_by_path add_entry subs_of]. destruct (str_eq_dec s t) as [-> | D].
    + rewrite get_set_same, IH. destruct (get_sub (subs_of m) t) as [m'|]; split.
      * intros [H | [r ->]]; [left; exact H | right; exists r; reflexivity].
      * intros [H | [r E]]; [left; exact H | injection E as ->; right; exists r; reflexivity].
      * intros [H | [r ->]]; [|right; exists r; reflexivity]. destruct p as [|u p]; [right; exists q; reflexivity|]. cbn in H. congruence.
      * intros [H | [r E]]; [congruence | injection E as ->; right; exists r; reflexivity].
    + rewrite get_set_other by exact D. split; [intros H; left; exact H | intros [H | [r E]]; [exact H | cbn in E; injection E as -> _; contradiction]].
Qed.
Theorem module_found_by_path_partial : forall ulen ds, good_file ulen (map fst ds) ->
  exists n0 ranges mods, (forall n, (n0 <= n)%nat -> module_index ulen n (file_toks ds) = Some (ranges, mods)) /\
    forall path, let ns := namespaces (flat_map (fun d => if is_rust_cu (d_entry d) then paths [] d else []) (map fst ds)) in
    (forall m, find_by_path mods path = Some m -> entries_of m = map snd (filter (fun x => if list_eq_dec str_eq_dec (fst x) path then true else false) ns)) /\
    (find_by_path mods path = None <-> path <> [] /\ forall q, In q (map fst ns) -> ~ exists r, q = path ++ r).
Proof.
  intros ulen ds G. destruct (file_walked ulen ds new_builder G) as (n0 & b & N & H1 & H2 & H3 & H4 & H5 & H6).
  exists n0, (sort_ranges (b_ranges b)), (b_modules b). split; [intros n Hn; unfold module_index; rewrite H1 by exact Hn; reflexivity|].
  intros path ns. rewrite H6. cbn [new_builder b_modules]. fold (rust_paths (map fst ds)) in ns. unfold rust_paths, unit_paths. fold ns.
  assert (A : forall l m, at_path (add_all l m) path = at_path m path ++ map snd (filter (fun x => if list_eq_dec str_eq_dec (fst x) path then true else false) l)).
  { induction l as [|[q o] l IH]; intros m; cbn [add_all fold_left filter map]; [rewrite app_nil_r; reflexivity|]. unfold add_all in IH. rewrite IH, at_path_add. cbn [fst snd].
    destruct (list_eq_dec str_eq_dec q path); cbn [map snd]; [rewrite <- app_assoc; reflexivity | rewrite app_nil_r; reflexivity]. }
  assert (B : forall l m, find_by_path (add_all l m) path <> None <-> find_by_path m path <> None \/ exists q, In q (map fst l) /\ exists r, q = path ++ r).
  { induction l as [|[q o] l IH]; intros m; cbn [add_all fold_left map fst snd].
    - split; [intros H; left; exact H | intros [H | (q & [] & _)]; exact H].
    - unfold add_all in IH. rewrite IH, find_add. cbn [In]. split.
      + intros [[H | E] | (x & Hx & E)]; [left; exact H | right; exists q; auto | right; exists x; auto].
      + intros [H | (x & [<- | Hx] & E)]; [left; left; exact H | left; right; exact E | right; exists x; auto]. }
  split.
  - intros m Hm. specialize (A ns empty_module). unfold at_path at 1 in A. rewrite Hm, at_path_empty in A. exact A.
  - specialize (B ns empty_module). split.
    + intros E. rewrite E in B. split.
      * intros ->. discriminate.
      * intros q Hq HE. apply (proj2 B); [right; exists q; auto | reflexivity].
    + intros [P1 P2]. destruct (find_by_path (add_all ns empty_module) path) as [m|]; [|reflexivity]. exfalso. destruct (proj1 B ltac:(discriminate)) as [H | (q & Hq & HE)].
      * destruct path as [|s p]; [contradiction|]. apply H. reflexivity.
      * exact (P2 q Hq HE).
Qed.
Print Assumptions module_found_by_path_partial.

(** A unit whose root is not a compile unit (a type or partial unit) ends the walk: the units behind it are not indexed. *)
Theorem foreign_unit_hides_later_units_refuted : exists ulen first later x p, good_unit ulen later /\ is_rust_cu (d_entry later) = true /\
  In (x, p) (paths [] later) /\ p <> [] /\ e_tag (d_entry first) <> Tcompile_unit /\
  exists n0, forall n, (n0 <= n)%nat -> exists ranges mods, module_index ulen n (file_toks [(first, 0%nat); (later, 0%nat)]) = Some (ranges, mods) /\ get_containing_module ranges (e_off x) = None.
Proof.
  set (later := Die (Entry 61 Tcompile_unit [(At_language, ALang 28)] (Ok [])) (Some [Die (Entry 70 Tnamespace [(At_name, AStr (Some (st "a")))] (Ok [])) (Some [])])).
  exists (fun _ => 100), (Die (Entry 11 (Tother 65) [] (Ok [])) None), later, (Entry 70 Tnamespace [(At_name, AStr (Some (st "a")))] (Ok [])), [st "a"].
  split; [|split; [reflexivity|split; [right; left; reflexivity|split; [discriminate|split; [discriminate|]]]]].
  - split; [reflexivity|]. split; [constructor; [|constructor]; apply ns_tree_ns; [reflexivity | discriminate | constructor]|]. split.
    + cbn. repeat constructor; unfold by_offset; cbn; lia.
    + cbn. intros x [<- | [<- | []]]; cbn; lia.
  - exists 0%nat. intros n _. exists [], empty_module. split; reflexivity.
Qed.
Print Assumptions foreign_unit_hides_later_units_refuted.

(** Example: nested namespaces, trailing entries, a C unit in between. *)
Definition nsd (off : Z) (s : str) (kids : list die) : die := Die (Entry off Tnamespace [(At_name, AStr (Some s))] (Ok [])) (Some kids).
Definition leaf (off : Z) : die := Die (ent off Tstructure) None.
Definition cu (off lang : Z) (kids : list die) : die := Die (Entry off Tcompile_unit [(At_language, ALang lang)] (Ok [])) (Some kids).
Definition mod_example : list (die * nat) :=
  [(cu 11 28 [leaf 15; nsd 20 (st "a") [leaf 25; nsd 30 (st "b") [leaf 35]; leaf 40]; leaf 45; nsd 50 (st "c") [nsd 55 (st "d") [leaf 60]]], 1%nat);
   (cu 111 29 [leaf 120], 0%nat); (cu 211 28 [nsd 220 (st "a") [leaf 230]], 0%nat)].
Lemma mod_example_good : good_file (fun _ => 80) (map fst mod_example).
Proof.
  cbn [mod_example map fst good_file].
  assert (NO : forall o, ns_tree (leaf o)) by (intros o; apply ns_tree_other; [reflexivity | constructor]).
  assert (NN : forall o s k, Forall ns_tree k -> ns_tree (nsd o s k)) by (intros o s k H; apply ns_tree_ns; [reflexivity | discriminate | exact H]).
  repeat split; try (cbn; lia); try (cbn [cu d_kids]; repeat (apply Forall_cons; [solve [apply NO | repeat (apply NN; repeat (apply Forall_cons; [solve [apply NO | apply NN; repeat (apply Forall_cons; [apply NO|]); apply Forall_nil]|]); apply Forall_nil)]|]); apply Forall_nil);
  try (cbn; repeat constructor; unfold by_offset; cbn; lia); cbn; intros x H; repeat (destruct H as [<- | H]; [cbn; lia|]); destruct H.
Qed.
Example mod_example_index :
  match module_index (fun _ => 80) 60 (file_toks mod_example) with
  | Some (ranges, mods) =>
      map (get_containing_module ranges) [15; 20; 25; 35; 40; 45; 60; 120; 230] =
        [Some []; Some [st "a"]; Some [st "a"]; Some [st "a"; st "b"]; Some [st "a"]; Some []; Some [st "c"; st "d"]; None; Some [st "a"]] /\
      at_path mods [st "a"] = [20; 220]
  | None => False
  end.
Proof. vm_compute. auto. Qed.
