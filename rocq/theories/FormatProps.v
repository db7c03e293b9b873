(** C54: formatted values. *)
From Coq Require Import Ascii String List ZArith NArith Lia Bool ZifyN ZifyBool.
From Verif Require Import Base NumText TypesModel ValueModel EvalModel FormatSpec.
Import ListNotations.
Open Scope Z_scope.

Section ValueInd.
Variable P : value -> Prop.
Hypothesis HS : forall ty x, P (VScalar ty x).
Hypothesis HA : forall ty l, Forall P l -> P (VArray ty l).
Hypothesis HR : forall ty l, Forall (fun f => P (snd f)) l -> P (VStruct ty l).
Hypothesis HT : forall ty l, Forall P l -> P (VTuple ty l).
Hypothesis HM : forall ty l, Forall (fun e => P (fst e) /\ P (snd e)) l -> P (VMap ty l).
Hypothesis HP : forall a t, P (VPtr a t).
Fixpoint value_nested (v : value) : P v :=
  match v with
  | VScalar ty x => HS ty x
  | VArray ty l => HA ty l ((fix all (l : list value) : Forall P l := match l with [] => Forall_nil _ | a :: l' => Forall_cons _ (value_nested a) (all l') end) l)
  | VStruct ty l => HR ty l ((fix all (l : list (str * value)) : Forall (fun f => P (snd f)) l := match l with [] => Forall_nil _ | a :: l' => Forall_cons _ (value_nested (snd a)) (all l') end) l)
  | VTuple ty l => HT ty l ((fix all (l : list value) : Forall P l := match l with [] => Forall_nil _ | a :: l' => Forall_cons _ (value_nested a) (all l') end) l)
  | VMap ty l => HM ty l ((fix all (l : list (value * value)) : Forall (fun e => P (fst e) /\ P (snd e)) l := match l with [] => Forall_nil _ | a :: l' => Forall_cons _ (conj (value_nested (fst a)) (value_nested (snd a))) (all l') end) l)
  | VPtr a t => HP a t
  end.
End ValueInd.

(** ** Joining and splitting lines *)
Lemma join_cons sep p ps : ps <> [] -> join sep (p :: ps) = p ++ sep ++ join sep ps.
Proof. destruct ps; [congruence | reflexivity]. Qed.
Lemma join_app sep ps qs : ps <> [] -> qs <> [] -> join sep (ps ++ qs) = join sep ps ++ sep ++ join sep qs.
Proof.
  intros Hp Hq. induction ps as [|p ps IH]; [congruence|]. destruct ps as [|p' ps].
  - cbn [app]. now rewrite join_cons.
  - change ((p :: p' :: ps) ++ qs) with (p :: ((p' :: ps) ++ qs)). rewrite join_cons by discriminate. rewrite IH by discriminate. rewrite (join_cons sep p (p' :: ps)) by discriminate. now rewrite <- !app_assoc.
Qed.
Lemma split_line l r : ~ In lf l -> split_lf (l ++ lf :: r) = (l, Some r).
Proof.
  induction l as [|c l IH]; intros H; [reflexivity|]. cbn [app split_lf]. destruct (N.eqb c lf) eqn:E; [apply N.eqb_eq in E; subst; destruct H; now left|]. rewrite IH; [reflexivity|]. intros I. apply H. now right.
Qed.
Lemma split_last l : ~ In lf l -> split_lf l = (l, None).
Proof.
  induction l as [|c l IH]; intros H; [reflexivity|]. cbn [split_lf]. destruct (N.eqb c lf) eqn:E; [apply N.eqb_eq in E; subst; destruct H; now left|]. rewrite IH; [reflexivity|]. intros I. apply H. now right.
Qed.
Lemma strip_none l : ~ In cr l -> strip_cr l = l.
Proof.
  intros H. unfold strip_cr. destruct (rev l) as [|c r] eqn:E; [reflexivity|]. destruct (N.eqb c cr) eqn:X; [|reflexivity]. apply N.eqb_eq in X. subst. destruct H. rewrite <- (rev_involutive l), E. apply in_rev. rewrite rev_involutive. now left.
Qed.
Lemma lines_join ls : ls <> [] -> Forall one_line ls -> last ls [] <> [] -> lines (join [lf] ls) = ls.
Proof.
  intros N F L. unfold lines. cut (forall n, (List.length (join [lf] ls) <= n)%nat -> lines_aux n (join [lf] ls) = ls); [intros K; now apply K|].
  induction ls as [|l ls IH]; [congruence|]. inversion F as [|? ? [F1 F2] F']; subst. intros n Hn. destruct ls as [|l' ls].
  - cbn [join last] in *. destruct n as [|n]; [destruct l; [congruence | cbn in Hn; lia]|]. destruct l as [|x l]; [congruence|]. cbn [lines_aux]. now rewrite split_last.
  - rewrite join_cons in * by discriminate. assert (E : l ++ [lf] ++ join [lf] (l' :: ls) = l ++ lf :: join [lf] (l' :: ls)) by reflexivity. rewrite E in *.
    destruct n as [|n]; [rewrite app_length in Hn; cbn in Hn; lia|]. cbn [lines_aux]. destruct (l ++ lf :: join [lf] (l' :: ls)) as [|x r] eqn:Ex; [destruct l; discriminate Ex|]. rewrite <- Ex.
    rewrite split_line by exact F1. rewrite strip_none by exact F2. f_equal. apply IH; [discriminate | exact F' | exact L|].
    rewrite <- Ex in Hn. rewrite app_length in Hn. cbn [List.length] in Hn. lia.
Qed.
(** ** Lists of lines *)
Lemma before_join x d : d <> [] -> x ++ join [lf] d = join [lf] (before x d).
Proof. destruct d as [|l [|m ls]]; [congruence | reflexivity|]. intros _. cbn [before]. rewrite !join_cons by discriminate. now rewrite app_assoc. Qed.
Lemma before_nil x d : d <> [] -> before x d <> [].
Proof. destruct d; [congruence | discriminate]. Qed.
Lemma behind_nil d x : d <> [] -> behind d x <> [].
Proof. destruct d as [|l [|m ls]]; [congruence | discriminate | discriminate]. Qed.
Lemma behind_join d x : d <> [] -> join [lf] d ++ x = join [lf] (behind d x).
Proof.
  induction d as [|l d IH]; [congruence|]. intros _. destruct d as [|m ls]; [reflexivity|]. change (behind (l :: m :: ls) x) with (l :: behind (m :: ls) x). rewrite (join_cons [lf] l (m :: ls)) by discriminate. rewrite (join_cons [lf] l (behind (m :: ls) x)) by (now apply behind_nil). rewrite <- IH by discriminate. now rewrite <- !app_assoc.
Qed.
Lemma glue_nil d x e : d <> [] -> e <> [] -> glue d x e <> [].
Proof. destruct d as [|l [|m ls]]; [congruence | | discriminate]. intros _ H. cbn. now apply before_nil. Qed.
Lemma glue_join d x e : d <> [] -> e <> [] -> join [lf] d ++ x ++ join [lf] e = join [lf] (glue d x e).
Proof.
  intros Nd Ne. induction d as [|l d IH]; [congruence|]. destruct d as [|m ls]; [cbn [glue join]; rewrite app_assoc; now apply before_join|].
  change (glue (l :: m :: ls) x e) with (l :: glue (m :: ls) x e). rewrite (join_cons [lf] l (m :: ls)) by discriminate. rewrite (join_cons [lf] l (glue (m :: ls) x e)) by (apply glue_nil; [discriminate | exact Ne]). rewrite <- IH by discriminate. now rewrite <- !app_assoc.
Qed.
Lemma listed_nil ds : ds <> [] -> Forall (fun d => d <> []) ds -> listed ds <> [].
Proof. destruct ds as [|d [|d' ds]]; [congruence | |]; intros _ F; inversion F as [|? ? H ?]; subst; [exact H|]. cbn [listed]. destruct (behind d (st ",")) eqn:E; [now apply behind_nil in E | discriminate]. Qed.
Lemma listed_join ds : Forall (fun d => d <> []) ds -> join (st "," ++ [lf]) (map (join [lf]) ds) = join [lf] (listed ds).
Proof.
  induction 1 as [|d ds Hd F IH]; [reflexivity|]. destruct ds as [|d' ds]; [reflexivity|]. cbn [map]. rewrite join_cons by discriminate. cbn [map] in IH. rewrite IH. change (listed (d :: d' :: ds)) with (behind d (st ",") ++ listed (d' :: ds)).
  rewrite join_app; [|now apply behind_nil | apply listed_nil; [discriminate | exact F]]. rewrite <- behind_join by exact Hd. now rewrite <- !app_assoc.
Qed.
Definition good_doc (d : list str) : Prop := d <> [] /\ Forall one_line d /\ last d [] <> [].
Lemma last_app_ne {A} (l m : list A) x : m <> [] -> last (l ++ m) x = last m x.
Proof. intros H. induction l as [|a l IH]; [reflexivity|]. cbn [app]. destruct (l ++ m) eqn:E; [destruct l; [cbn in E; congruence | discriminate]|]. exact IH. Qed.
Lemma ol_app x y : one_line x -> one_line y -> one_line (x ++ y).
Proof. intros [A B] [C D]. split; rewrite in_app_iff; tauto. Qed.
Lemma before_good x d : one_line x -> good_doc d -> good_doc (before x d).
Proof.
  intros Hx (N & F & L). destruct d as [|l d]; [congruence|]. inversion F; subst. split; [discriminate|]. split; [constructor; [now apply ol_app | assumption]|].
  destruct d as [|m ls]; [|exact L]. cbn [before last] in *. intros E. apply app_eq_nil in E. tauto.
Qed.
Lemma behind_lines d x : one_line x -> Forall one_line d -> Forall one_line (behind d x).
Proof.
  intros Hx. induction d as [|l d IH]; intros F; [constructor|]. inversion F; subst. destruct d as [|m ls]; [constructor; [now apply ol_app | constructor]|]. change (behind (l :: m :: ls) x) with (l :: behind (m :: ls) x). constructor; auto.
Qed.
Lemma glue_good d x e : one_line x -> good_doc d -> good_doc e -> good_doc (glue d x e).
Proof.
  intros Hx (N & F & _) He. induction d as [|l d IH]; [congruence|]. inversion F; subst. destruct d as [|m ls]; [cbn [glue]; apply before_good; [now apply ol_app | exact He]|].
  change (glue (l :: m :: ls) x e) with (l :: glue (m :: ls) x e). destruct IH as (N' & F' & L'); [discriminate | assumption|]. split; [discriminate|]. split; [now constructor|]. destruct (glue (m :: ls) x e); [congruence | exact L'].
Qed.
Lemma listed_good ds : ds <> [] -> Forall good_doc ds -> good_doc (listed ds).
Proof.
  intros N F. induction F as [|d ds Hd F IH]; [congruence|]. destruct ds as [|d' ds]; [exact Hd|]. destruct IH as (N' & F' & L'); [discriminate|]. change (listed (d :: d' :: ds)) with (behind d (st ",") ++ listed (d' :: ds)).
  destruct Hd as (Nd & Fd & _). split; [destruct (behind d (st ",")) eqn:E; [now apply behind_nil in E | discriminate]|]. split.
  - apply Forall_app. split; [|exact F']. apply behind_lines; [|exact Fd]. split; cbn; intuition discriminate.
  - rewrite last_app_ne; assumption.
Qed.
Lemma block_framed op ds cl : Forall good_doc ds -> block op (map (join [lf]) ds) cl = join [lf] (framed op ds cl).
Proof.
  intros F. unfold block, indent, framed. rewrite listed_join by (eapply Forall_impl; [|exact F]; intros d (H & _); exact H). destruct ds as [|d ds]; [reflexivity|].
  destruct (listed_good (d :: ds)) as (N & FL & L); [discriminate | exact F|]. rewrite lines_join by assumption. set (ls := listed (d :: ds)) in *.
  change (1 * 2)%nat with 2%nat. change (fun l : str => repeat (ch " ") 2 ++ l) with deeper.
  assert (Nm : map deeper ls <> []) by (destruct ls; [congruence | discriminate]). change ([op] ++ map deeper ls ++ [cl]) with (op :: (map deeper ls ++ [cl])).
  rewrite join_cons by (destruct (map deeper ls); discriminate). rewrite join_app by (assumption || discriminate). reflexivity.
Qed.
Lemma framed_good op ds cl : one_line op -> one_line cl -> cl <> [] -> Forall good_doc ds -> good_doc (framed op ds cl).
Proof.
  intros Ho Hc Nc F. unfold framed. split; [discriminate|]. split.
  - constructor; [exact Ho|]. apply Forall_app. split; [|constructor; [exact Hc | constructor]]. destruct ds as [|d ds]; [constructor; [split; intros [] | constructor]|].
    apply Forall_map. destruct (listed_good (d :: ds)) as (_ & FL & _); [discriminate | exact F|]. eapply Forall_impl; [|exact FL]. intros l H. apply ol_app; [|exact H]. split; cbn; intuition discriminate.
  - rewrite app_assoc, last_app_ne by discriminate. exact Nc.
Qed.
Lemma dec_one_line z : one_line (dec z).
Proof.
  assert (H : forall n, 0 <= n -> one_line (dec_nat n)).
  { intros n Hn. pose proof (dec_nat_digits n Hn) as F. rewrite forallb_forall in F. split; intros I; apply F in I; discriminate I. }
  unfold dec. destruct (z <? 0) eqn:E; [|apply H; lia]. destruct (H (- z)) as [A B]; [lia|]. split; (intros [X|X]; [discriminate X | tauto]).
Qed.
Lemma hex_digit_ok d : 0 <= d < 16 -> hex_digit d <> 10%N /\ hex_digit d <> 13%N.
Proof. unfold hex_digit. destruct (d <? 10) eqn:E; lia. Qed.
Lemma hex_aux_line f n acc : one_line acc -> one_line (hex_aux f n acc).
Proof.
  revert n acc. induction f as [|f IH]; intros n acc H; [exact H|]. cbn [hex_aux]. assert (K : one_line (hex_digit (n mod 16) :: acc)).
  { destruct H as [A B]. pose proof (hex_digit_ok (n mod 16) (Z.mod_pos_bound n 16 ltac:(lia))) as [C D]. split; (intros [X|X]; [congruence | tauto]). }
  cbv zeta. destruct (n / 16 =? 0); [exact K | now apply IH].
Qed.
Lemma st_line x : forallb (fun c => negb (N.eqb c 10) && negb (N.eqb c 13)) x = true -> one_line x.
Proof. rewrite forallb_forall. intros H. split; intros I; apply H in I; discriminate I. Qed.
Lemma hex_one_line z : one_line (hex z).
Proof. unfold hex. apply ol_app; [now apply st_line|]. apply hex_aux_line. split; intros []. Qed.
Lemma shown_good v : tidy v -> good_doc (shown v).
Proof.
  assert (One : forall x, one_line x -> x <> [] -> good_doc [x]) by (intros x H N; split; [discriminate|]; split; [constructor; auto | exact N]).
  induction v as [ty x|ty l IH|ty l IH|ty l IH|ty l IH|a t] using value_nested; intros T; inversion T; subst; cbn [shown].
  - now apply One.
  - destruct (_ <=? _)%nat.
    + apply framed_good; [now apply st_line | now apply st_line | discriminate|]. apply Forall_map. rewrite Forall_forall in *. auto.
    + apply One; [|discriminate]. repeat apply ol_app; [now apply st_line | apply dec_one_line | now apply st_line].
  - apply framed_good; [apply ol_app; [assumption | now apply st_line] | now apply st_line | discriminate|]. apply Forall_map. rewrite Forall_forall in *. intros f I. destruct (H2 f I) as [Hf Ht]. apply before_good; [|now apply IH]. apply ol_app; [exact Hf | now apply st_line].
  - apply framed_good; [apply ol_app; [assumption | now apply st_line] | now apply st_line | discriminate|]. apply Forall_map. rewrite Forall_forall in *. auto.
  - destruct (_ <=? _)%nat.
    + apply framed_good; [now apply st_line | now apply st_line | discriminate|]. apply Forall_map. rewrite Forall_forall in *. intros e I. destruct (H0 e I) as [Hk Hv]. destruct (IH e I) as [Ik Iv]. apply glue_good; [now apply st_line | auto ..].
    + apply One; [|discriminate]. repeat apply ol_app; [now apply st_line | apply dec_one_line | now apply st_line].
  - apply One; [|discriminate]. apply ol_app; [now apply st_line|]. apply ol_app; [assumption|]. apply ol_app; [now apply st_line|]. apply ol_app; [apply hex_one_line | now apply st_line].
Qed.
(** ** C54 *)
(** If its texts have no line breaks and its scalars are not empty, a value of any nesting is shown as the lines the
    specification lists: every field, every tuple entry and every entry of a collection of at most ten, in order, one level
    deeper than what holds it; a larger collection as its exact count. *)
Theorem formatted_exactly_partial : forall v, tidy v -> format_value v = join [lf] (shown v).
Proof.
  intros v. induction v as [ty x|ty l IH|ty l IH|ty l IH|ty l IH|a t] using value_nested; intros T; inversion T; subst; cbn [format_value shown]; try reflexivity.
  - destruct (_ <=? _)%nat; [|reflexivity]. rewrite <- block_framed by (apply Forall_map; rewrite Forall_forall in *; intros; apply shown_good; auto). f_equal. rewrite map_map. apply map_ext_in. rewrite Forall_forall in *. auto.
  - rewrite <- block_framed.
    + f_equal. rewrite map_map. apply map_ext_in. rewrite Forall_forall in *. intros f I. rewrite IH by (auto; now apply H2). destruct (H2 f I) as [Hf Ht]. rewrite app_assoc. apply before_join. now apply shown_good.
    + apply Forall_map. rewrite Forall_forall in *. intros f I. destruct (H2 f I) as [Hf Ht]. apply before_good; [|now apply shown_good]. apply ol_app; [exact Hf | now apply st_line].
  - rewrite <- block_framed by (apply Forall_map; rewrite Forall_forall in *; intros; apply shown_good; auto). f_equal. rewrite map_map. apply map_ext_in. rewrite Forall_forall in *. auto.
  - destruct (_ <=? _)%nat; [|reflexivity]. rewrite <- block_framed.
    + f_equal. rewrite map_map. apply map_ext_in. rewrite Forall_forall in *. intros e I. destruct (H0 e I) as [Hk Hv]. destruct (IH e I) as [Ik Iv]. rewrite Ik, Iv by assumption. apply glue_join; now apply shown_good.
    + apply Forall_map. rewrite Forall_forall in *. intros e I. destruct (H0 e I) as [Hk Hv]. apply glue_good; [now apply st_line | now apply shown_good ..].
Qed.
Print Assumptions formatted_exactly_partial.
(** Larger collections: the exact count and nothing else, whatever they hold. *)
Theorem large_array_counted : forall ty l, (10 < List.length l)%nat -> format_value (VArray ty l) = st "[" ++ dec (Z.of_nat (List.length l)) ++ st " items]".
Proof. intros ty l H. cbn [format_value]. destruct (_ <=? _)%nat eqn:E; [apply Nat.leb_le in E; lia | reflexivity]. Qed.
Print Assumptions large_array_counted.
Theorem large_map_counted : forall ty l, (10 < List.length l)%nat -> format_value (VMap ty l) = st "{ " ++ dec (Z.of_nat (List.length l)) ++ st " entries }".
Proof. intros ty l H. cbn [format_value]. destruct (_ <=? _)%nat eqn:E; [apply Nat.leb_le in E; lia | reflexivity]. Qed.
Print Assumptions large_map_counted.
(** Two collections with different counts are shown differently. *)
Theorem counts_distinguish : forall ty ty' l l', (10 < List.length l)%nat -> (10 < List.length l')%nat -> List.length l <> List.length l' -> format_value (VArray ty l) <> format_value (VArray ty' l').
Proof.
  intros ty ty' l l' H H' N E. rewrite !large_array_counted in E by assumption. apply app_inv_head in E. apply app_inv_tail in E. apply dec_inj in E. lia.
Qed.
Print Assumptions counts_distinguish.
(** Without the hypothesis it fails: an empty last entry is not shown at all, and a text with a line break is shown with its
    second line moved. *)
Theorem formatted_exactly_refuted :
  format_value (VArray [] [VScalar [] (st "1"); VScalar [] []]) = st "[" ++ [lf] ++ st "  1," ++ [lf] ++ st "]" /\
  format_value (VStruct (st "S") [(st "s", VScalar [] (st """a" ++ [lf] ++ st "b"""))]) = st "S {" ++ [lf] ++ st "  s: ""a" ++ [lf] ++ st "  b""" ++ [lf] ++ st "}" /\
  format_value (VArray [] [VScalar [] (st "a" ++ [cr; lf] ++ st "b")]) = format_value (VArray [] [VScalar [] (st "a" ++ [lf] ++ st "b")]).
Proof. repeat split; vm_compute; reflexivity. Qed.
(** A case: a struct with a nested array, a map and a large array. *)
Example formatted_case :
  let v := VStruct (st "Config") [(st "ids", VArray (st "Vec<u8>") [VScalar (st "u8") (st "1"); VScalar (st "u8") (st "2")]);
                                  (st "m", VMap (st "M") [(VScalar [] (st """k"""), VTuple (st "P") [VScalar [] (st "3")])]);
                                  (st "none", VArray [] []);
                                  (st "xs", VArray [] (repeat (VScalar [] (st "0")) 11))] in
  tidy v /\ shown v =
    [st "Config {"; st "  ids: ["; st "    1,"; st "    2"; st "  ],"; st "  m: {"; st "    ""k"": P ("; st "      3"; st "    )"; st "  },";
     st "  none: ["; st "  "; st "  ],"; st "  xs: [11 items]"; st "}"].
Proof.
  cbv zeta. split; [|vm_compute; reflexivity].
  repeat first [apply st_line; reflexivity | constructor | discriminate | apply conj | cbn [fst snd]; apply st_line; reflexivity].
  all: try (cbn; apply st_line; reflexivity); try discriminate.
Qed.
