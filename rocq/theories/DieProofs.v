(** The walker over the flat section computes the depth-first walk of the tree. *)
From Coq Require Import List ZArith Lia Bool.
From Verif Require Import Base DieModel DieSpec.
Import ListNotations.
Open Scope Z_scope.

Definition flats (l : list die) : list tok := flat_map toks l.
Lemma toks_some e l : toks (Die e (Some l)) = Ent e true :: flats l ++ [Null].
Proof. reflexivity. Qed.
Definition isk (d : die) : bool := match d with Die _ (Some _) => true | _ => false end.
Definition inner (d : die) : list tok := match d with Die _ (Some l) => flats l ++ [Null] | _ => [] end.
Lemma toks_inner d : toks d = Ent (d_entry d) (isk d) :: inner d.
Proof. destruct d as [e [l|]]; reflexivity. Qed.

Definition stream (ls : list (list die)) (k : nat) : list tok := flat_map (fun l => flats l ++ [Null]) ls ++ repeat Null k.
Lemma stream_cons l ls k : stream (l :: ls) k = flats l ++ Null :: stream ls k.
Proof. unfold stream. cbn [flat_map]. rewrite <- !app_assoc. reflexivity. Qed.
Lemma stream_nil ls k : stream ([] :: ls) k = Null :: stream ls k.
Proof. rewrite stream_cons. reflexivity. Qed.
Lemma stream_step x l ls k : stream ((x :: l) :: ls) k = Ent (d_entry x) (isk x) :: inner x ++ stream (l :: ls) k.
Proof. rewrite !stream_cons. unfold flats at 1. cbn [flat_map]. rewrite toks_inner, <- !app_assoc. reflexivity. Qed.
Lemma stream_inner e ks ls k : inner (Die e (Some ks)) ++ stream ls k = stream (ks :: ls) k.
Proof. cbn [inner]. rewrite stream_cons, <- app_assoc. reflexivity. Qed.

Fixpoint first_off (t : list tok) : option Z :=
  match t with [] => None | Ent e _ :: _ => Some (e_off e) | Null :: t' => first_off t' end.
Lemma first_off_nulls j t : first_off (repeat Null j ++ t) = first_off t.
Proof. induction j; [reflexivity | exact IHj]. Qed.
Lemma first_off_stream l ls k : first_off (stream (l :: ls) k) = next_of l (first_off (stream ls k)).
Proof. destruct l as [|x l]; [rewrite stream_nil; reflexivity | rewrite stream_step; reflexivity]. Qed.

Definition d01 (h : bool) : Z := if h then 1 else 0.
Definition pos (w : walker) (D : Z) (T : list tok) : Prop :=
  match w_next w with
  | Some (d, e) => exists k h, T = repeat Null k ++ Ent e h :: c_rest (w_cur w) /\ d = D - Z.of_nat k /\ w_depth w = d /\
      c_cur (w_cur w) = Some (e, h) /\ c_delta (w_cur w) = d01 h
  | None => (exists j, c_rest (w_cur w) = repeat Null j ++ T /\ w_depth w + c_delta (w_cur w) = D + Z.of_nat j) \/
      (c_rest (w_cur w) = [] /\ exists k, T = repeat Null k)
  end.
Lemma repeat_snoc {A} (x : A) n : repeat x n ++ [x] = x :: repeat x n.
Proof. induction n; cbn; [reflexivity | rewrite IHn; reflexivity]. Qed.
Lemma pos_null w D T : pos w D (Null :: T) -> pos w (D - 1) T.
Proof.
  unfold pos. destruct (w_next w) as [[d e]|].
  - intros (k & h & E & H). destruct k as [|k]; [discriminate|]. cbn in E. injection E as E. exists k, h.
    split; [exact E|]. split; [lia | apply H].
  - intros [(j & E & H) | (E & k & H)].
    + left. exists (S j). split; [|lia]. rewrite E. cbn [repeat]. change (Null :: repeat Null j) with ([Null] ++ repeat Null j).
      change (Null :: T) with ([Null] ++ T). rewrite app_assoc, repeat_snoc. reflexivity.
    + right. split; [exact E|]. destruct k; [discriminate|]. injection H as H. exists k. exact H.
Qed.
Lemma next_dfs_spec T : forall delta,
  match next_dfs_from T delta with
  | (c, Some (dl, e)) => exists k h, T = repeat Null k ++ Ent e h :: c_rest c /\ dl = delta - Z.of_nat k /\ c_cur c = Some (e, h) /\ c_delta c = d01 h
  | (c, None) => c_rest c = [] /\ exists k, T = repeat Null k
  end.
Proof.
  induction T as [|t T IH]; intros delta.
  - cbn. split; [reflexivity | exists 0%nat; reflexivity].
  - destruct t as [e h|].
    + cbn. exists 0%nat, h. cbn. repeat split; lia.
    + cbn [next_dfs_from]. specialize (IH (delta - 1)). destruct (next_dfs_from T (delta - 1)) as [c [[dl e]|]].
      * destruct IH as (k & h & E & H1 & H2). exists (S k), h. cbn [repeat app]. rewrite <- E. split; [reflexivity|]. split; [lia | exact H2].
      * destruct IH as (E & k & H). split; [exact E|]. exists (S k). cbn. rewrite <- H. reflexivity.
Qed.
Lemma nulls_ent k e h T j T' : repeat Null j ++ T' = repeat Null k ++ Ent e h :: T -> exists i, k = (j + i)%nat /\ T' = repeat Null i ++ Ent e h :: T.
Proof.
  revert k. induction j as [|j IH]; intros k E.
  - exists k. split; [reflexivity | exact E].
  - destruct k as [|k]; [discriminate|]. cbn in E. injection E as E. destruct (IH k E) as (i & -> & H). exists i. auto.
Qed.
Lemma nulls_nulls k j T' : repeat (@Null) j ++ T' = repeat Null k -> exists i, T' = repeat Null i.
Proof.
  revert k. induction j as [|j IH]; intros k E; [exists k; exact E|]. destruct k; [discriminate|]. injection E as E. exact (IH k E).
Qed.
Lemma peek_spec w D T : pos w D T ->
  w_level (fst (peek w)) = w_level w /\ pos (fst (peek w)) D T /\
  match snd (peek w) with
  | Some (d, e) => w_next (fst (peek w)) = Some (d, e)
  | None => w_next (fst (peek w)) = None /\ exists k, T = repeat Null k
  end.
Proof.
  intros H. unfold peek. destruct (w_next w) as [[d e]|] eqn:N.
  - cbn [fst snd]. rewrite N. auto.
  - unfold pos in H. rewrite N in H. unfold next_dfs. pose proof (next_dfs_spec (c_rest (w_cur w)) (c_delta (w_cur w))) as S.
    destruct (next_dfs_from _ _) as [c [[dl e]|]]; cbn [fst snd].
    + destruct S as (k & h & E & H1 & H2 & H3). split; [reflexivity|]. split; [|reflexivity].
      unfold pos. cbn [w_next w_cur w_depth]. destruct H as [(j & Ej & Hj) | (Ej & _)].
      * rewrite Ej in E. destruct (nulls_ent k e h (c_rest c) j T E) as (i & -> & Ei). exists i, h. repeat split; try assumption. lia.
      * rewrite Ej in E. destruct k; discriminate.
    + destruct S as (E & k & Hk). assert (HT : exists i, T = repeat Null i).
      { destruct H as [(j & Ej & _) | (_ & HT)]; [|exact HT]. rewrite Ej in Hk. exact (nulls_nulls k j T Hk). }
      split; [reflexivity|]. split; [unfold pos; cbn; right; split; assumption|]. split; [reflexivity | exact HT].
Qed.
Definition take_next (w : walker) : walker := Walker (w_cur w) (w_level w) None (w_depth w).
Lemma take_pos w D d e T : pos w D T -> w_next w = Some (d, e) ->
  exists k h T', T = repeat Null k ++ Ent e h :: T' /\ d = D - Z.of_nat k /\ w_depth w = d /\ c_rest (w_cur w) = T' /\
  c_cur (w_cur w) = Some (e, h) /\ pos (take_next w) (d + d01 h) T'.
Proof.
  intros H N. unfold pos in H. rewrite N in H. destruct H as (k & h & E & H1 & H2 & H3 & H4).
  exists k, h, (c_rest (w_cur w)). repeat split; auto. unfold pos, take_next. cbn. left. exists 0%nat. cbn. split; [reflexivity | lia].
Qed.

(** Skipping the remaining siblings. *)
Lemma sibling_from_tok d : forall R depth, 1 <= depth -> sibling_from (toks d ++ R) depth = sibling_from R depth.
Proof.
  induction d as [e kids IH] using die_ind2. intros R depth Hd. destruct kids as [l|].
  - rewrite toks_some. cbn [app sibling_from]. replace (depth =? 0) with false by lia.
    assert (F : forall R' depth', 1 <= depth' -> sibling_from (flats l ++ R') depth' = sibling_from R' depth').
    { specialize (IH l eq_refl). clear - IH. induction IH as [|x l Hx _ IHl]; intros R' depth' H'; [reflexivity|].
      unfold flats. cbn [flat_map]. rewrite <- app_assoc, Hx by exact H'. apply IHl. exact H'. }
    rewrite <- app_assoc, F by lia. cbn [app sibling_from]. replace (depth + 1 =? 0) with false by lia.
    replace (depth + 1 - 1) with depth by lia. reflexivity.
  - cbn [toks app sibling_from]. replace (depth =? 0) with false by lia. reflexivity.
Qed.
Lemma sibling_from_flats l R depth : 1 <= depth -> sibling_from (flats l ++ R) depth = sibling_from R depth.
Proof.
  intros H. induction l as [|x l IH]; [reflexivity|]. unfold flats in *. cbn [flat_map]. rewrite <- app_assoc, sibling_from_tok by exact H. exact IH.
Qed.
Lemma sibling_after_inner d R : sibling_from (inner d ++ R) (d01 (isk d)) = sibling_from R 0.
Proof.
  destruct d as [e [l|]]; cbn [inner isk d01]; [|reflexivity]. rewrite <- app_assoc, sibling_from_flats by lia.
  reflexivity.
Qed.
Lemma skip_siblings_spec ks T : forall n d c, (length ks < n)%nat -> c_cur c = Some (d_entry d, isk d) ->
  c_rest c = inner d ++ flats ks ++ Null :: T -> skip_siblings n c = Cursor T None (-1).
Proof.
  induction ks as [|x ks IH]; intros n d c Hn Hc Hr; (destruct n as [|n]; [lia|]); cbn [skip_siblings]; unfold c_next_sibling; rewrite Hc, Hr.
  - change (if isk d then 1 else 0) with (d01 (isk d)). rewrite sibling_after_inner. cbn. reflexivity.
  - change (if isk d then 1 else 0) with (d01 (isk d)). rewrite sibling_after_inner. unfold flats. cbn [flat_map]. rewrite toks_inner.
    cbn [app sibling_from Z.eqb]. apply (IH n x).
    + cbn in Hn. lia.
    + reflexivity.
    + cbn. rewrite <- app_assoc. reflexivity.
Qed.
Lemma flats_length ks : (length ks <= length (flats ks))%nat.
Proof.
  induction ks as [|x ks IH]; [cbn; lia|]. unfold flats in *. cbn [flat_map]. rewrite toks_inner. cbn [app length]. rewrite app_length. lia.
Qed.

(** next_sibling. *)
Definition entered (w : walker) (D : Z) (d : die) (ls : list (list die)) (k : nat) : Prop :=
  match d with Die _ (Some ks) => pos w (D + 1) (stream (ks :: ls) k) | Die _ None => pos w D (stream ls k) end.
Lemma next_sibling_some n w D x l ls k : (1 <= n)%nat -> w_level w = D -> pos w D (stream ((x :: l) :: ls) k) ->
  exists w', next_sibling n w = (w', Some (d_entry x)) /\ w_level w' = D /\ entered w' D x (l :: ls) k.
Proof.
  intros Hn HL HP. destruct n as [|n]; [lia|]. cbn [next_sibling]. destruct (peek_spec w D _ HP) as (P1 & P2 & P3).
  destruct (peek w) as [w' [[d e]|]]; cbn [fst snd] in *.
  - destruct (take_pos w' D d e _ P2 P3) as (j & h & T' & E & H1 & H2 & H3 & H4 & H5).
    rewrite stream_step in E. destruct j as [|j]; [|discriminate]. cbn [repeat app] in E. injection E as E1 E2 E3. subst e h.
    replace (d =? w_level w') with true by lia. eexists. split; [reflexivity|]. split; [cbn; lia|].
    change (entered (take_next w') D x (l :: ls) k). unfold entered. subst T'. destruct x as [ex [ks|]]; cbn [inner isk d01] in *.
    + rewrite <- app_assoc in H5. rewrite stream_cons. replace (D + 1) with (d + 1) by lia. exact H5.
    + replace D with (d + 0) by lia. exact H5.
  - destruct P3 as (_ & j & E). rewrite stream_step in E. destruct j; discriminate.
Qed.
Lemma next_sibling_none n w D ls k : (1 <= n)%nat -> w_level w = D -> pos w D (stream ([] :: ls) k) ->
  exists w', next_sibling n w = (w', None) /\ w_level w' = D /\ pos w' D (stream ([] :: ls) k).
Proof.
  intros Hn HL HP. destruct n as [|n]; [lia|]. cbn [next_sibling]. destruct (peek_spec w D _ HP) as (P1 & P2 & P3).
  destruct (peek w) as [w' [[d e]|]]; cbn [fst snd] in *.
  - destruct (take_pos w' D d e _ P2 P3) as (j & h & T' & E & H1 & _). rewrite stream_nil in E. destruct j as [|j]; [discriminate|].
    replace (d =? w_level w') with false by lia. replace (w_level w' <? d) with false by lia. exists w'. repeat split; [lia | exact P2].
  - exists w'. repeat split; [lia | exact P2].
Qed.
(** From inside the unvisited children, as from behind them. *)
Definition around (w : walker) (D : Z) (ls : list (list die)) (k : nat) : Prop :=
  pos w D (stream ls k) \/ exists ks, pos w (D + 1) (stream (ks :: ls) k).
Lemma around_skip n w D ls k : (2 <= n)%nat -> w_level w = D -> around w D ls k ->
  exists n' w', (1 <= n')%nat /\ next_sibling n w = next_sibling n' w' /\ w_level w' = D /\ pos w' D (stream ls k).
Proof.
  intros Hn HL [H | [ks H]]; [exists n, w; repeat split; auto; lia|].
  destruct ks as [|x ks].
  - exists n, w. repeat split; auto; [lia|]. rewrite stream_nil in H. apply pos_null in H. replace (D + 1 - 1) with D in H by lia. exact H.
  - destruct n as [|n]; [lia|]. cbn [next_sibling]. destruct (peek_spec w (D + 1) _ H) as (P1 & P2 & P3).
    destruct (peek w) as [w' [[d e]|]]; cbn [fst snd] in *.
    + destruct (take_pos w' (D + 1) d e _ P2 P3) as (j & h & T' & E & H1 & H2 & H3 & H4 & _).
      rewrite stream_step in E. destruct j as [|j]; [|discriminate]. cbn [repeat app] in E. injection E as E1 E2 E3. subst e h.
      replace (d =? w_level w') with false by lia. replace (w_level w' <? d) with true by lia.
      exists n. eexists. split; [lia|]. split; [reflexivity|]. split; [cbn; lia|].
      assert (E' : inner x ++ stream (ks :: ls) k = inner x ++ flats ks ++ Null :: stream ls k) by (rewrite stream_cons; reflexivity).
      rewrite (skip_siblings_spec ks (stream ls k) _ x).
      * unfold pos. cbn. left. exists 0%nat. cbn. split; [reflexivity | lia].
      * rewrite H3, <- E3, E'. rewrite !app_length. pose proof (flats_length ks). lia.
      * exact H4.
      * rewrite H3, <- E3, E'. reflexivity.
    + destruct P3 as (_ & j & E). rewrite stream_step in E. destruct j; discriminate.
Qed.
Lemma w_next_sibling_some w D x l ls k : w_level w = D -> around w D ((x :: l) :: ls) k ->
  exists w', w_next_sibling w = (w', Some (d_entry x)) /\ w_level w' = D /\ entered w' D x (l :: ls) k.
Proof.
  intros HL HA. unfold w_next_sibling. destruct (around_skip (S (S (length (c_rest (w_cur w))))) w D _ k ltac:(lia) HL HA) as (n' & w' & H1 & -> & H2 & H3).
  exact (next_sibling_some n' w' D x l ls k H1 H2 H3).
Qed.
Lemma w_next_sibling_none w D ls k : w_level w = D -> around w D ([] :: ls) k ->
  exists w', w_next_sibling w = (w', None) /\ w_level w' = D /\ pos w' D (stream ([] :: ls) k).
Proof.
  intros HL HA. unfold w_next_sibling. destruct (around_skip (S (S (length (c_rest (w_cur w))))) w D _ k ltac:(lia) HL HA) as (n' & w' & H1 & -> & H2 & H3).
  exact (next_sibling_none n' w' D ls k H1 H2 H3).
Qed.

Lemma peek_off w D T : pos w D T -> let (w', o) := peek_next_offset w in w_level w' = w_level w /\ pos w' D T /\ o = first_off T.
Proof.
  intros H. unfold peek_next_offset. destruct (peek_spec w D T H) as (P1 & P2 & P3). destruct (peek w) as [w' [[d e]|]]; cbn [fst snd] in *.
  - split; [exact P1|]. split; [exact P2|]. destruct (take_pos w' D d e T P2 P3) as (j & h & T' & -> & _). rewrite first_off_nulls. reflexivity.
  - split; [exact P1|]. split; [exact P2|]. destruct P3 as (_ & j & ->). rewrite <- (app_nil_r (repeat _ _)), first_off_nulls. reflexivity.
Qed.
Lemma finish_spec {V} (vis : visitor V) w D T v e : pos w D T ->
  let (w', v') := finish vis w v e in w_level w' = w_level w /\ pos w' D T /\ v' = close vis v e (first_off T).
Proof.
  intros H. unfold finish, close. destruct (v_post vis v e) as [v' | f]; [auto|]. pose proof (peek_off w D T H) as P.
  destruct (peek_next_offset w) as [w' o]. destruct P as (P1 & P2 & ->). auto.
Qed.

Definition walks {V} (vis : visitor V) (d : die) : Prop := forall w v D ls k, w_level w = D -> entered w D d ls k ->
  exists n0 w', (forall n, (n0 <= n)%nat ->
    visit vis n w v (d_entry d) = Some (w', fst (tree_walk vis d (first_off (stream ls k)) v), snd (tree_walk vis d (first_off (stream ls k)) v))) /\
    (snd (tree_walk vis d (first_off (stream ls k)) v) = true -> w_level w' = D /\ around w' D ls k).

Lemma walk_siblings_spec {V} (vis : visitor V) l : Forall (walks vis) l -> forall w v D ls k, w_level w = D -> around w D (l :: ls) k ->
  exists n0 w', (forall n, (n0 <= n)%nat ->
    walk_siblings vis n w v = Some (w', fst (list_walk vis l (first_off (stream ls k)) v), snd (list_walk vis l (first_off (stream ls k)) v))) /\
    (snd (list_walk vis l (first_off (stream ls k)) v) = true -> w_level w' = D /\ pos w' D (stream ([] :: ls) k)).
Proof.
  induction l as [|x l IH]; intros HF w v D ls k HL HA.
  - destruct (w_next_sibling_none w D ls k HL HA) as (w' & E & H1 & H2). exists 1%nat, w'. split; [|auto].
    intros n Hn. destruct n as [|n]; [lia|]. cbn [walk_siblings list_walk fst snd]. rewrite E. reflexivity.
  - inversion HF as [|? ? Hx Hl]; subst. destruct (w_next_sibling_some w (w_level w) x l ls k eq_refl HA) as (w1 & E1 & L1 & P1).
    destruct (Hx w1 v (w_level w) (l :: ls) k L1 P1) as (n1 & w2 & H1 & W2). rewrite first_off_stream in H1, W2.
    cbn [list_walk]. destruct (tree_walk vis x (next_of l (first_off (stream ls k))) v) as [v1 [|]] eqn:T; cbn [fst snd] in H1, W2.
    + destruct (W2 eq_refl) as [L2 A2]. destruct (IH Hl w2 v1 (w_level w) ls k L2 A2) as (n2 & w3 & H2 & W3).
      exists (S (n1 + n2)), w3. split; [|exact W3]. intros n Hn. destruct n as [|n]; [lia|]. cbn [walk_siblings]. rewrite E1, H1 by lia. apply H2. lia.
    + exists (S n1), w2. split; [|discriminate]. intros n Hn. destruct n as [|n]; [lia|]. cbn [walk_siblings]. rewrite E1, H1 by lia. reflexivity.
Qed.
Lemma tree_walk_eq {V} (vis : visitor V) e kids after v : tree_walk vis (Die e kids) after v =
  match v_pre vis v e with
  | (v1, Fail) => (v1, false)
  | (v1, Skip) => (close vis v1 e (next_of (match kids with Some l => l | None => [] end) after), true)
  | (v1, Descend) => match list_walk vis (match kids with Some l => l | None => [] end) after v1 with
      (v2, true) => (close vis v2 e after, true) | r => r end
  end.
Proof.
  cbn [tree_walk]. destruct (v_pre vis v e) as [v1 [| |]]; try reflexivity. destruct kids as [l|]; [|reflexivity].
  assert (E : forall l u, (fix go l v := match l with [] => (v, true) | x :: l' => match tree_walk vis x (next_of l' after) v with (v', true) => go l' v' | r => r end end) l u = list_walk vis l after u).
  { clear. induction l as [|x l IH]; intros u; [reflexivity|]. cbn [list_walk]. destruct (tree_walk vis x (next_of l after) u) as [u' [|]]; [apply IH | reflexivity]. }
  rewrite E. destruct (list_walk vis l after v1) as [v2 [|]]; reflexivity.
Qed.
Lemma walk_children_spec {V} (vis : visitor V) ks : Forall (walks vis) ks -> forall w v D ls k, w_level w = D -> pos w (D + 1) (stream (ks :: ls) k) ->
  exists n0 w', (forall n, (n0 <= n)%nat ->
    walk_children vis n w v = Some (w', fst (list_walk vis ks (first_off (stream ls k)) v), snd (list_walk vis ks (first_off (stream ls k)) v))) /\
    (snd (list_walk vis ks (first_off (stream ls k)) v) = true -> w_level w' = D /\ pos w' D (stream ls k)).
Proof.
  intros HF w v D ls k HL HP. destruct (peek_spec w (D + 1) _ HP) as (P1 & P2 & P3).
  assert (HC : exists w1 b, has_children w = (w1, b) /\ w_level w1 = D /\ pos w1 (D + 1) (stream (ks :: ls) k) /\ b = match ks with [] => false | _ => true end).
  { unfold has_children. destruct (peek w) as [w1 [[d e]|]]; cbn [fst snd] in *.
    - eexists _, _. split; [reflexivity|]. split; [lia|]. split; [exact P2|].
      destruct (take_pos w1 (D + 1) d e _ P2 P3) as (j & h & T' & E & H1 & _). destruct ks as [|x ks].
      + rewrite stream_nil in E. destruct j; [discriminate|]. lia.
      + rewrite stream_step in E. destruct j; [lia | discriminate].
    - eexists _, _. split; [reflexivity|]. split; [lia|]. split; [exact P2|]. destruct P3 as (_ & j & E).
      destruct ks as [|x ks]; [reflexivity|]. rewrite stream_step in E. destruct j; discriminate. }
  destruct HC as (w1 & b & E1 & L1 & Q1 & Eb). destruct ks as [|x ks].
  - subst b. exists 1%nat, w1. split.
    + intros n Hn. destruct n as [|n]; [lia|]. cbn [walk_children list_walk fst snd]. rewrite E1. reflexivity.
    + intros _. split; [exact L1|]. rewrite stream_nil in Q1. apply pos_null in Q1. replace (D + 1 - 1) with D in Q1 by lia. exact Q1.
  - subst b. set (w1' := Walker (w_cur w1) (w_level w1 + 1) (w_next w1) (w_depth w1)).
    assert (Q : around w1' (D + 1) ((x :: ks) :: ls) k) by (left; exact Q1).
    destruct (walk_siblings_spec vis (x :: ks) HF w1' v (D + 1) ls k ltac:(subst w1'; cbn; lia) Q) as (n0 & w2 & H2 & W2).
    destruct (list_walk vis (x :: ks) (first_off (stream ls k)) v) as [v' [|]]; cbn [fst snd] in H2, W2.
    + exists (S n0), (Walker (w_cur w2) (w_level w2 - 1) (w_next w2) (w_depth w2)). split.
      * intros n Hn. destruct n as [|n]; [lia|]. cbn [walk_children]. rewrite E1. fold w1'. rewrite H2 by lia. reflexivity.
      * intros _. destruct (W2 eq_refl) as [L2 P]. split; [cbn; lia|]. rewrite stream_nil in P. apply pos_null in P.
        replace (D + 1 - 1) with D in P by lia. exact P.
    + exists (S n0), w2. split; [|discriminate]. intros n Hn. destruct n as [|n]; [lia|]. cbn [walk_children]. rewrite E1. fold w1'. rewrite H2 by lia. reflexivity.
Qed.
Lemma no_children_spec {V} (vis : visitor V) w v D ls k : w_level w = D -> pos w D (stream ls k) ->
  exists w', (forall n, (1 <= n)%nat -> walk_children vis n w v = Some (w', v, true)) /\ w_level w' = D /\ pos w' D (stream ls k).
Proof.
  intros HL HP. destruct (peek_spec w D _ HP) as (P1 & P2 & P3).
  assert (HC : exists w1, has_children w = (w1, false) /\ w_level w1 = D /\ pos w1 D (stream ls k)).
  { unfold has_children. destruct (peek w) as [w1 [[d e]|]]; cbn [fst snd] in *.
    - destruct (take_pos w1 D d e _ P2 P3) as (j & h & T' & _ & H1 & _). exists w1. replace (d =? w_level w1 + 1) with false by lia.
      split; [reflexivity|]. split; [lia | exact P2].
    - exists w1. split; [reflexivity|]. split; [lia | exact P2]. }
  destruct HC as (w1 & E1 & L1 & Q1). exists w1. split; [|auto]. intros n Hn. destruct n as [|n]; [lia|]. cbn [walk_children]. rewrite E1. reflexivity.
Qed.
Theorem all_walk {V} (vis : visitor V) : forall d, walks vis d.
Proof.
  induction d as [e kids IH] using die_ind2. intros w v D ls k HL HE. rewrite tree_walk_eq. cbn [d_entry].
  destruct (v_pre vis v e) as [v1 [| |]] eqn:PR; cbn [fst snd].
  - (* Descend *)
    assert (CH : exists n0 w', (forall n, (n0 <= n)%nat -> walk_children vis n w v1 =
        Some (w', fst (list_walk vis (match kids with Some l => l | None => [] end) (first_off (stream ls k)) v1), snd (list_walk vis (match kids with Some l => l | None => [] end) (first_off (stream ls k)) v1))) /\
        (snd (list_walk vis (match kids with Some l => l | None => [] end) (first_off (stream ls k)) v1) = true -> w_level w' = D /\ pos w' D (stream ls k))).
    { destruct kids as [l|]; cbn [entered] in HE.
      - exact (walk_children_spec vis l (IH l eq_refl) w v1 D ls k HL HE).
      - destruct (no_children_spec vis w v1 D ls k HL HE) as (w' & H1 & H2). exists 1%nat, w'. cbn [list_walk fst snd]. split; [exact H1 | intros _; exact H2]. }
    destruct CH as (n0 & w1 & H1 & W1). destruct (list_walk vis _ (first_off (stream ls k)) v1) as [v2 [|]]; cbn [fst snd] in *.
    + destruct (W1 eq_refl) as [L1 Q1]. pose proof (finish_spec vis w1 D _ v2 e Q1) as F. destruct (finish vis w1 v2 e) as [w2 v3] eqn:FE.
      destruct F as (F1 & F2 & ->). exists (S n0), w2. split.
      * intros n Hn. destruct n as [|n]; [lia|]. cbn [visit]. rewrite PR, H1 by lia. rewrite FE. reflexivity.
      * intros _. split; [lia | left; exact F2].
    + exists (S n0), w1. split; [|discriminate]. intros n Hn. destruct n as [|n]; [lia|]. cbn [visit]. rewrite PR, H1 by lia. reflexivity.
  - (* Skip *)
    destruct kids as [l|]; cbn [entered] in HE.
    + pose proof (finish_spec vis w (D + 1) _ v1 e HE) as F. destruct (finish vis w v1 e) as [w2 v3] eqn:FE. destruct F as (F1 & F2 & ->).
      exists 1%nat, w2. rewrite <- first_off_stream. split.
      * intros n Hn. destruct n as [|n]; [lia|]. cbn [visit]. rewrite PR, FE. reflexivity.
      * intros _. split; [lia | right; exists l; exact F2].
    + pose proof (finish_spec vis w D _ v1 e HE) as F. destruct (finish vis w v1 e) as [w2 v3] eqn:FE. destruct F as (F1 & F2 & ->).
      exists 1%nat, w2. split.
      * intros n Hn. destruct n as [|n]; [lia|]. cbn [visit next_of]. rewrite PR, FE. reflexivity.
      * intros _. split; [lia | left; exact F2].
  - (* Fail *)
    exists 1%nat, w. split; [|discriminate]. intros n Hn. destruct n as [|n]; [lia|]. cbn [visit]. rewrite PR. reflexivity.
Qed.

(** Starting a walk. *)
Lemma take_start d ls k : exists w, w_take (new_walker (toks d ++ stream ls k)) = (w, Some (d_entry d)) /\ w_level w = 0 /\ entered w 0 d ls k.
Proof.
  rewrite toks_inner. cbn. eexists. split; [reflexivity|]. split; [reflexivity|]. destruct d as [e [ks|]]; cbn [entered isk d_entry]; unfold pos; cbn [w_next w_cur w_depth c_rest c_delta]; left; exists 0%nat.
  - cbn [inner]. rewrite stream_cons, <- app_assoc. split; [reflexivity | reflexivity].
  - split; reflexivity.
Qed.
(** A unit: its root's tree, followed by padding. *)
Definition unit_toks (d : die) (pad : nat) : list tok := toks d ++ repeat Null pad.
Theorem walk_unit_refines {V} (cv : cu_visitor V) (vis : visitor V) d pad v : e_tag (d_entry d) = Tcompile_unit ->
  exists n0, forall n, (n0 <= n)%nat -> walk_unit cv vis n (unit_toks d pad) v =
    Some (match cu_pre cv v (d_entry d) with
          | (v1, Fail) => (v1, false)
          | (v1, Skip) => (cu_post cv v1 (d_entry d), true)
          | (v1, Descend) => match list_walk vis (d_kids d) None v1 with (v2, true) => (cu_post cv v2 (d_entry d), true) | r => r end
          end).
Proof.
  intros HT. unfold unit_toks, walk_unit. destruct (take_start d [] pad) as (w & E & L & P). change (stream [] pad) with (repeat Null pad) in E. rewrite E.
  rewrite HT. destruct (cu_pre cv v (d_entry d)) as [v1 [| |]]; try (exists 0%nat; reflexivity).
  assert (FO : first_off (stream [] pad) = None) by (change (stream [] pad) with (repeat Null pad); rewrite <- (app_nil_r (repeat _ _)), first_off_nulls; reflexivity).
  assert (CH : exists n0 w', (forall n, (n0 <= n)%nat -> walk_children vis n w v1 = Some (w', fst (list_walk vis (d_kids d) None v1), snd (list_walk vis (d_kids d) None v1)))).
  { destruct d as [e [ks|]]; cbn [entered d_kids] in *.
    - destruct (walk_children_spec vis ks (proj2 (Forall_forall _ _) (fun x _ => all_walk vis x)) w v1 0 [] pad L P) as (n0 & w' & H & _).
      rewrite FO in H. exists n0, w'. exact H.
    - destruct (no_children_spec vis w v1 0 [] pad L P) as (w' & H & _). exists 1%nat, w'. exact H. }
  destruct CH as (n0 & w' & H). exists n0. intros n Hn. rewrite H by exact Hn. destruct (list_walk vis (d_kids d) None v1) as [v2 [|]]; reflexivity.
Qed.
Theorem walk_die_refines {V} (vis : visitor V) d ls pad v :
  exists n0, forall n, (n0 <= n)%nat -> walk_die vis n (toks d ++ stream ls pad) v = Some (tree_walk vis d (first_off (stream ls pad)) v).
Proof.
  unfold walk_die. destruct (take_start d ls pad) as (w & E & L & P). destruct (all_walk vis d w v 0 ls pad L P) as (n0 & w' & H & _).
  exists n0. intros n Hn. rewrite E, H by exact Hn. destruct (tree_walk _ _ _ _); reflexivity.
Qed.
