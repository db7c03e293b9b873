From Coq Require Import Ascii String List ZArith NArith Bool Arith Lia.
From Coq Require Import ZifyBool ZifyNat ZifyN.
From Verif Require Import Base NumText ExprModel OMap SymModel SymSpec SymProofs.
Import ListNotations.
Open Scope Z_scope.

Lemma trim_end_stop n s p : ends_with s p = false -> trim_end_fuel n s p = s.
Proof. destruct n; [reflexivity|]. simpl. destruct p; [reflexivity|]. intros ->. reflexivity. Qed.
Lemma trim_end_once t p : p <> [] -> ends_with t p = false -> trim_end_matches (t ++ p) p = t.
Proof.
  intros Hp Ht. unfold trim_end_matches. destruct (length (t ++ p)) as [|n] eqn:E.
  { rewrite app_length in E. destruct p; [congruence | simpl in E; lia]. }
  cbn [trim_end_fuel]. destruct p as [|c p]; [congruence|].
  assert (ends_with (t ++ c :: p) (c :: p) = true) as -> by (apply ends_with_spec; exists t; reflexivity).
  rewrite app_length. replace (length t + length (c :: p) - length (c :: p))%nat with (length t + 0)%nat by lia.
  rewrite firstn_app_2. cbn [firstn]. rewrite app_nil_r. apply trim_end_stop. exact Ht.
Qed.

Lemma ends_with_last s p : ends_with s p = true -> p <> [] ->
  exists s' p' c, s = s' ++ [c] /\ p = p' ++ [c].
Proof.
  intros H Hp. apply ends_with_spec in H. destruct H as [r ->].
  destruct (exists_last Hp) as [p' [c ->]]. exists (r ++ p'), p', c. split; [rewrite <- app_assoc; reflexivity | reflexivity].
Qed.

Lemma join_cons2 sep p q ps : join sep (p :: q :: ps) = p ++ sep ++ join sep (q :: ps).
Proof. reflexivity. Qed.
Lemma join_app_last sep l x : l <> [] -> join sep (l ++ [x]) = join sep l ++ sep ++ x.
Proof.
  induction l as [|a l IH]; intros H; [congruence|]. destruct l as [|b l]; [reflexivity|].
  change ((a :: b :: l) ++ [x]) with (a :: b :: (l ++ [x])). rewrite !join_cons2.
  change (b :: l ++ [x]) with ((b :: l) ++ [x]). rewrite IH by discriminate. rewrite <- !app_assoc. reflexivity.
Qed.

Lemma wf_no_trailing_colon s t : wf_segment s -> s <> t ++ [58%N].
Proof.
  intros [_ [Hc [Hd _]]] H. specialize (Hc t []). rewrite app_nil_r in Hc. specialize (Hc H).
  rewrite H, depth_after_app in Hd. simpl in Hd. congruence.
Qed.
Lemma join_no_trailing_colon ms f t : wf_segment f -> join (st "::") (ms ++ [f]) <> t ++ [58%N].
Proof.
  intros Hf H.
  assert (exists p, join (st "::") (ms ++ [f]) = p ++ f) as [p Hp].
  { destruct ms as [|m ms]; [exists []; reflexivity|].
    exists (join (st "::") (m :: ms) ++ st "::"). rewrite join_app_last by discriminate. rewrite <- app_assoc. reflexivity. }
  rewrite Hp in H. destruct Hf as [Hne Hf]. destruct (exists_last Hne) as [f' [c ->]].
  rewrite app_assoc in H. apply app_inj_tail in H. destruct H as [_ ->].
  apply (wf_no_trailing_colon (f' ++ [58%N]) f'); [split; assumption | reflexivity].
Qed.

Lemma no_trailing_sep ms f : wf_segment f -> ends_with (join (st "::") (ms ++ [f])) (st "::") = false.
Proof.
  intros Hf. destruct (ends_with (join (st "::") (ms ++ [f])) (st "::")) eqn:E; [|reflexivity].
  apply ends_with_last in E; [|discriminate]. destruct E as [s' [p' [c [H1 H2]]]].
  change (st "::") with ([58%N] ++ [58%N]) in H2. apply app_inj_tail in H2. destruct H2 as [_ <-].
  exfalso. exact (join_no_trailing_colon _ _ _ Hf H1).
Qed.

Lemma display_plain ms f n : Forall wf_segment (ms ++ [f]) -> ~ hash_like f ->
  sname_parse (join (st "::") (ms ++ [f])) = Ok n -> sname_display n = join (st "::") (ms ++ [f]).
Proof.
  intros Hw Hh H. unfold sname_parse in H. rewrite parse_symbol_plain in H by assumption.
  injection H as <-. unfold sname_display. cbn [full_path s_hash].
  assert (forall s, trim_end_matches s [] = s) as ->.
  { intros s. unfold trim_end_matches. destruct (length s); reflexivity. }
  unfold trim_end_matches. apply trim_end_stop. apply no_trailing_sep.
  apply Forall_app in Hw. destruct Hw as [_ Hw]. inv Hw. assumption.
Qed.

Lemma display_hash ms f h n : Forall wf_segment (ms ++ [f]) -> hash_like h ->
  sname_parse (join (st "::") (ms ++ [f; h])) = Ok n -> sname_display n = join (st "::") (ms ++ [f]).
Proof.
  intros Hw Hh H. unfold sname_parse in H. rewrite parse_symbol_hash in H by assumption.
  injection H as <-. unfold sname_display. cbn [full_path s_hash].
  replace (ms ++ [f; h]) with ((ms ++ [f]) ++ [h]) by (rewrite <- app_assoc; reflexivity).
  rewrite join_app_last by (destruct ms; discriminate).
  rewrite app_assoc, trim_end_once.
  - apply trim_end_once; [discriminate|]. apply no_trailing_sep.
    apply Forall_app in Hw. destruct Hw as [_ Hw]. inv Hw. assumption.
  - destruct Hh as [ds [-> _]]. discriminate.
  - destruct (ends_with (join (st "::") (ms ++ [f]) ++ st "::") h) eqn:E; [|reflexivity].
    apply ends_with_last in E; [|destruct Hh as [ds [-> _]]; discriminate].
    destruct E as [s' [p' [c [H1 H2]]]].
    change (st "::") with ([58%N] ++ [58%N]) in H1. rewrite app_assoc in H1. apply app_inj_tail in H1.
    destruct H1 as [_ <-]. destruct (hash_like_chars h Hh 58%N) as [Hx _]; [|congruence].
    rewrite H2. apply in_or_app. right. left. reflexivity.
Qed.

Lemma found_by_display X files s ms f : Forall no_colon (ms ++ [f]) ->
  In s (functions_of (history X files)) -> names_function ms f (sym_name s) ->
  sname_display (sym_name s) = join (st "::") (ms ++ [f]) ->
  exists n file, find_closest_function (index_symbol_map X files) (sname_display (sym_name s)) = Some (n, file)
    /\ names_function ms f n.
Proof.
  intros Hc Hs Hn Hd. rewrite Hd. pose proof (find_closest_spec X files ms f Hc) as H. cbv zeta in H.
  destruct (find_closest_function _ _) as [[n file]|].
  - exists n, file. tauto.
  - exfalso. exact (H s Hs Hn).
Qed.

Lemma found_by_own_name X files s ms f h :
  Forall no_colon (ms ++ [f]) -> Forall wf_segment (ms ++ [f]) -> ~ hash_like f -> hash_like h ->
  In s (functions_of (history X files)) ->
  full_path (sym_name s) = join (st "::") (ms ++ [f; h]) \/ full_path (sym_name s) = join (st "::") (ms ++ [f]) ->
  exists n file, find_closest_function (index_symbol_map X files) (sname_display (sym_name s)) = Some (n, file)
    /\ names_function ms f n.
Proof.
  intros Hc Hw Hf Hh Hs Hp.
  pose proof (g_parsed _ _ (i_functions _ _ (indexed_all X files)) s Hs) as Hparsed.
  apply parsed_full in Hparsed. apply found_by_display; try assumption.
  - destruct Hp as [Hp|Hp]; rewrite Hp in Hparsed; unfold sname_parse in Hparsed.
    + rewrite parse_symbol_hash in Hparsed by assumption. injection Hparsed as <-. split; [reflexivity|]. exists []. reflexivity.
    + rewrite parse_symbol_plain in Hparsed by assumption. injection Hparsed as <-. split; [reflexivity|]. exists []. reflexivity.
  - destruct Hp as [Hp|Hp]; rewrite Hp in Hparsed; [eapply display_hash | eapply display_plain]; eassumption.
Qed.
