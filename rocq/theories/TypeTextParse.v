(** Parsing the tokens of a well-formed type yields that type. *)
From Coq Require Import Ascii String List ZArith NArith Lia Bool.
From Verif Require Import Base NumText TypesModel TypeTextModel TypeTextSpec TypeTextProofs.
Import ListNotations.
Open Scope nat_scope.

Lemma kids_ind (P : ty -> Prop) : (forall t, (forall u, In u (kids t) -> P u) -> P t) -> forall t, P t.
Proof.
  intros H. fix F 1. intros t. apply H.
  assert (FL : forall l : list ty, (forall u, In u l -> P u)).
  { fix G 1. intros [|a l] u Hu; [destruct Hu|]. destruct Hu as [<- | Hu]; [apply F | exact (G l u Hu)]. }
  destruct t as [t| |m t| |t k|b args ret|l|l|m t|segs]; intros u Hu; cbn [kids] in Hu.
  - destruct Hu as [<- | []]. apply F.
  - destruct Hu.
  - destruct Hu as [<- | []]. apply F.
  - destruct Hu.
  - destruct k as [[n|v]|].
    + destruct Hu as [<- | []]. apply F.
    + destruct Hu as [<- | [<- | []]]; apply F.
    + destruct Hu as [<- | []]. apply F.
  - apply in_app_or in Hu. destruct Hu as [Hu|Hu]; [exact (FL args u Hu)|].
    destruct ret as [r|]; [destruct Hu as [<- | []]; apply F | destruct Hu].
  - exact (FL l u Hu).
  - exact (FL l u Hu).
  - destruct Hu as [<- | []]. apply F.
  - revert u Hu. revert segs. fix G 1. intros [|s segs] u Hu; [destruct Hu|].
    cbn [flat_map] in Hu. apply in_app_or in Hu. destruct Hu as [Hu|Hu]; [|exact (G segs u Hu)].
    destruct s as [id [[args|ts]|] sh| | |]; cbn [seg_kids] in Hu; try destruct Hu.
    exact (FL args u Hu).
Qed.

Definition wf (t : ty) : Prop := plain t /\ sound t.
Lemma wf_here t : wf t -> plain1 t /\ sound1 t.
Proof. intros [A B]. split; [apply A | apply B]; constructor. Qed.
Lemma wf_kid t u : wf t -> In u (kids t) -> wf u.
Proof. intros [A B] H. split; intros v Hv; [apply A | apply B]; eapply sub_kid; eassumption. Qed.

(** The tokens of a type; the spacing of punctuation marks is only fixed where the parser looks at it. *)
Inductive sepd {A} (R : A -> list tree -> Prop) (D : list tree -> Prop) : list A -> list tree -> Prop :=
| sep_one a ts : R a ts -> sepd R D [a] ts
| sep_more a l ts ds us : R a ts -> D ds -> l <> [] -> sepd R D l us -> sepd R D (a :: l) (ts ++ ds ++ us).
Definition mark (c : char) (ds : list tree) : Prop := exists j, ds = [TP c j].
Definition colons (ds : list tree) : Prop := exists j, ds = [TP (ch ":") true; TP (ch ":") j].

Inductive tk : ty -> list tree -> Prop :=
| K_slice t ts j : tk t ts -> tk (YSlice t) [TP (ch "&") j; TG Brack ts]
| K_str j : tk YStr [TP (ch "&") j; TId (st "str")]
| K_refm t ts j : tk t ts -> tk (YRef true t) (TP (ch "&") j :: TId (st "mut") :: ts)
| K_ref t ts j : tk t ts -> tk (YRef false t) (TP (ch "&") j :: ts)
| K_never j : tk YNever [TP (ch "!") j]
| K_array t ts : tk t ts -> tk (YArray t None) [TG Brack ts]
| K_arrayn t ts j n : tk t ts -> tk (YArray t (Some (AFixed n))) [TG Brack (ts ++ [TP (ch ";") j; TLit (dec n)])]
| K_arrayd t ts j u us : tk t ts -> tk u us -> tk (YArray t (Some (ADyn u))) [TG Brack (ts ++ TP (ch ";") j :: us)]
| K_fn0 ret rs : tk_ret ret rs -> tk (YFn false [YPath []] ret) (TId (st "fn") :: TG Par [] :: rs)
| K_fn args us ret rs : sepd tk (mark c_comma) args us -> tk_ret ret rs ->
    tk (YFn false args ret) (TId (st "fn") :: TG Par us :: rs)
| K_dyn l us : sepd tk (mark (ch "+")) l us -> tk (YDyn l) (TId (st "dyn") :: us)
| K_unit : tk (YTuple []) [TG Par []]
| K_tuple1 t ts j : tk t ts -> tk (YTuple [t]) [TG Par (ts ++ [TP c_comma j])]
| K_tuple a b l us : sepd tk (mark c_comma) (a :: b :: l) us -> tk (YTuple (a :: b :: l)) [TG Par us]
| K_path segs us : sepd tk_seg colons segs us -> tk (YPath segs) us
with tk_ret : option ty -> list tree -> Prop :=
| K_none : tk_ret None []
| K_some r ts j : tk r ts -> tk_ret (Some r) (TP (ch "-") true :: TP (ch ">") j :: ts)
with tk_seg : seg -> list tree -> Prop :=
| K_seg id : tk_seg (SSeg id None false) [TId id]
| K_gen id args us j1 j2 : sepd tk (mark c_comma) args us ->
    tk_seg (SSeg id (Some (GParsed args)) false) (TId id :: TP c_lt j1 :: us ++ [TP c_gt j2]).

Definition stop_by (cs : str) (rest : list tree) : Prop :=
  match rest with [] => True | TP c _ :: _ => In c cs | _ => False end.
Definition stop : list tree -> Prop := stop_by [c_comma; c_gt; ch ";"].
Definition stop_plus : list tree -> Prop := stop_by [c_comma; c_gt; ch ";"; ch "+"].
Lemma stop_weak rest : stop rest -> stop_plus rest.
Proof. unfold stop, stop_plus, stop_by. destruct rest as [|[] rest]; auto. cbn [In]. tauto. Qed.

Lemma punct_no c rest cs : stop_by cs rest -> ~ In c cs -> exists e, p_punct c rest = Err e.
Proof.
  unfold stop_by, p_punct. destruct rest as [|[| |d j|] rest]; try (eexists; reflexivity). intros H N.
  destruct (N.eqb_spec c d) as [->|]; [contradiction | eexists; reflexivity].
Qed.
Lemma joint_no c rest cs : stop_by cs rest -> ~ In c cs -> exists e, p_joint c rest = Err e.
Proof.
  unfold stop_by, p_joint. destruct rest as [|[| |d []|] rest]; try (eexists; reflexivity). intros H N.
  destruct (N.eqb_spec c d) as [->|]; [contradiction | eexists; reflexivity].
Qed.
Ltac notin := let H := fresh in intros H; cbn in H; repeat destruct H as [H|H]; try discriminate H; exact H.

Lemma sepd_nonempty {A} (R : A -> list tree -> Prop) D l us : sepd R D l us -> l <> [].
Proof. intros H. inversion H; discriminate. Qed.
Lemma sepd_count {A} (R : A -> list tree -> Prop) (D : list tree -> Prop) l us : (forall ds, D ds -> ds <> []) -> sepd R D l us -> length l <= S (length us).
Proof.
  intros HD H. induction H as [a ts|a l ts ds us Ha Hd Hl Hs IH]; cbn [length]; [lia|].
  rewrite !app_length. specialize (HD ds Hd). destruct ds; [congruence|]. cbn [length]. lia.
Qed.

Lemma delimited_ok {A} (p : pars A) (d : pars unit) (R : A -> list tree -> Prop) (D : list tree -> Prop) l us :
  sepd R D l us -> forall rest m, length l <= m ->
  (forall a ts x, In a l -> R a ts -> trees_size ts <= trees_size us -> (x = rest \/ exists ds y, D ds /\ x = ds ++ y) -> p (ts ++ x) = Ok (a, x)) ->
  (forall ds y, D ds -> d (ds ++ y) = Ok (tt, y)) -> (exists e, d rest = Err e) ->
  p_delimited_n m p d (us ++ rest) = Ok (l, rest).
Proof.
  intros H. induction H as [a ts Ha|a l ts ds us Ha Hd Hl Hs IH]; intros rest m Hm Hp HD [e He]; (destruct m; cbn [length] in Hm; [lia|]); cbn [p_delimited_n].
  - rewrite (Hp a ts rest); [|left; reflexivity | exact Ha | lia | left; reflexivity]. rewrite He. reflexivity.
  - rewrite <- !app_assoc.
    rewrite (Hp a ts (ds ++ us ++ rest)); [|left; reflexivity | exact Ha | rewrite !trees_size_app; lia | right; eauto].
    rewrite (HD ds (us ++ rest) Hd). rewrite IH; [reflexivity | lia | | exact HD | eauto].
    intros b vs x Hb HR Hsz Hx. apply Hp; [right; exact Hb | exact HR | rewrite !trees_size_app; lia | exact Hx].
Qed.

Lemma mark_parsed c ds y : mark c ds -> p_punct c (ds ++ y) = Ok (tt, y).
Proof. intros [j ->]. cbn. rewrite N.eqb_refl. reflexivity. Qed.
Lemma mark_stop c cs ds y : mark c ds -> In c cs -> stop_by cs (ds ++ y).
Proof. intros [j ->] H. exact H. Qed.
Lemma colons_parsed ds y : colons ds -> p_pathsep (ds ++ y) = Ok (tt, y).
Proof. intros [j ->]. reflexivity. Qed.
Lemma mark_ne c ds : mark c ds -> ds <> [].
Proof. intros [j ->]. discriminate. Qed.
Lemma colons_ne ds : colons ds -> ds <> [].
Proof. intros [j ->]. discriminate. Qed.

(** What follows a path: the end, a closing or separating mark, or [::]. *)
Definition after_seg (x : list tree) : Prop :=
  match x with [] => True | TP c _ :: _ => In c [c_comma; c_gt; ch ";"; ch "+"; ch ":"] | _ => False end.
Lemma after_colons ds y : colons ds -> after_seg (ds ++ y).
Proof. intros [j ->]. cbn. tauto. Qed.
Lemma after_stop x : stop_plus x -> after_seg x.
Proof. destruct x as [|[] x]; cbn; tauto. Qed.
Lemma after_no_lt x : after_seg x -> exists e, p_punct c_lt x = Err e.
Proof. intros H. apply (punct_no c_lt x [c_comma; c_gt; ch ";"; ch "+"; ch ":"]); [exact H | notin]. Qed.
Lemma after_no_angle n x : after_seg x -> exists e, p_angle (S n) x = Err e.
Proof. intros H. destruct (after_no_lt x H) as [e He]. exists e. cbn [p_angle]. unfold p_seq at 1. rewrite He. reflexivity. Qed.
Lemma after_no_shim x : after_seg x -> exists e, p_shim x = Err e.
Proof. intros H. unfold p_shim, p_group. destruct x as [|[] x]; try (eexists; reflexivity). destruct H. Qed.
Lemma after_no_gargs pt n x : after_seg x -> exists e, p_gargs pt (S n) x = Err e.
Proof.
  intros H. destruct (after_no_angle n x H) as [e He]. destruct (after_no_lt x H) as [e' He'].
  unfold p_gargs, p_alt. unfold p_seq at 1. rewrite He'. cbn [bind]. unfold p_seq. rewrite He. eexists. reflexivity.
Qed.

(** How the tokens of a well-formed type begin. *)
Definition head_ok (t : ty) (h : tree) : Prop :=
  match h with
  | TP c _ => c = ch "&" \/ c = ch "!"
  | TG Brack _ => exists u k, t = YArray u k
  | TG Par _ => True
  | TId id => id <> st "mut" /\ id <> st "unsafe" /\ (id = st "str" -> exists g b l, t = YPath (SSeg id g b :: l))
  | _ => False
  end.
Lemma tk_head t ts : tk t ts -> wf t -> full t -> exists h tl, ts = h :: tl /\ head_ok t h.
Proof.
  intros H W F. destruct H; try (do 2 eexists; split; [reflexivity|]; cbn; eauto; fail).
  - do 2 eexists; split; [reflexivity|]. cbn. repeat split; [discriminate | discriminate | intros E; discriminate E].
  - do 2 eexists; split; [reflexivity|]. cbn. repeat split; [discriminate | discriminate | intros E; discriminate E].
  - do 2 eexists; split; [reflexivity|]. cbn. repeat split; [discriminate | discriminate | intros E; discriminate E].
  - pose proof (wf_here _ W) as [P _]. cbn [plain1] in P.
    assert (G : forall s l us', tk_seg s us' -> Forall plain_seg (s :: l) -> exists h tl, us' = h :: tl /\ head_ok (YPath (s :: l)) h).
    { intros s l us' Hs HP. inversion HP as [|? ? Hp _]; subst. destruct Hs as [id|id args vs j1 j2 Ha].
      - destruct Hp as (Hk & _). do 2 eexists; split; [reflexivity|]. cbn. split; [|split].
        + intros ->. apply Hk. cbn. tauto.
        + intros ->. apply Hk. cbn. tauto.
        + intros ->. eauto.
      - destruct Hp as (Hk & _). do 2 eexists; split; [reflexivity|]. cbn. split; [|split].
        + intros ->. apply Hk. cbn. tauto.
        + intros ->. apply Hk. cbn. tauto.
        + intros ->. eauto. }
    destruct H as [s ts Hs|s l ts ds us Hs Hd Hl Hss].
    + apply (G s [] ts Hs P).
    + destruct (G s l ts Hs P) as (h & tl & -> & Hh). cbn [app]. eauto.
Qed.
Lemma tk_nonempty t ts : tk t ts -> wf t -> full t -> ts <> [].
Proof. intros H W F. destruct (tk_head t ts H W F) as (h & tl & -> & _). discriminate. Qed.
Lemma size_pos ts : ts <> [] -> 1 <= trees_size ts.
Proof. destruct ts as [|t ts]; [congruence|]. intros _. rewrite trees_size_cons. pose proof (tree_size_pos t). lia. Qed.

Lemma p_type_unfold n ts : p_type (S n) ts = p_type_step (p_type n) n ts.
Proof. reflexivity. Qed.
Lemma p_type_nil n : 1 < n -> p_type n [] = Ok (YPath [], []).
Proof. intros H. destruct n as [|[|n]]; try lia. reflexivity. Qed.

(** Alternatives that cannot start with an identifier. *)
Lemma step_ident pt n id r : id <> st "fn" -> id <> st "dyn" -> id <> st "unsafe" ->
  p_type_step pt n (TId id :: r) = p_path pt n (TId id :: r).
Proof.
  intros H1 H2 H3. unfold p_type_step, p_alt.
  assert (E : forall k, id <> k -> p_kw k (TId id :: r) = Err "keyword").
  { intros k Hk. cbn [p_kw]. destruct (str_eqb k id) eqn:E; [|reflexivity]. apply str_eqb_eq in E. congruence. }
  assert (Ef : p_fn pt (TId id :: r) = Err "keyword").
  { unfold p_fn. unfold p_seq at 1. unfold p_opt. rewrite E by exact H3. cbn [bind]. unfold p_seq at 1. rewrite E by exact H1. reflexivity. }
  assert (Ed : p_dyn pt (TId id :: r) = Err "keyword").
  { unfold p_dyn. unfold p_seq at 1. rewrite E by exact H2. reflexivity. }
  rewrite Ef, Ed. reflexivity.
Qed.

Section Step.
Variable n : nat.
Hypothesis IH : forall t ts rest, tk t ts -> wf t -> S (trees_size ts) < n -> (stop rest \/ (is_path t /\ stop_plus rest)) ->
  p_type n (ts ++ rest) = Ok (t, rest).

Lemma types_ok l us rest : sepd tk (mark c_comma) l us -> (forall u, In u l -> wf u) -> S (trees_size us) < n ->
  stop rest -> (exists e, p_punct c_comma rest = Err e) -> p_delimited (p_type n) (p_punct c_comma) (us ++ rest) = Ok (l, rest).
Proof.
  intros H W Hn Hs He. unfold p_delimited. apply (delimited_ok _ _ tk (mark c_comma)).
  - exact H.
  - pose proof (sepd_count tk (mark c_comma) l us (mark_ne c_comma) H). rewrite app_length. lia.
  - intros a ts x Ha HR Hsz Hx. apply IH; [exact HR | apply W, Ha | lia | left].
    destruct Hx as [->|(ds & y & Hd & ->)]; [exact Hs | apply (mark_stop c_comma); [exact Hd | cbn; tauto]].
  - apply mark_parsed.
  - exact He.
Qed.
Lemma comma_nil : exists e, p_punct c_comma [] = Err e.
Proof. eexists. reflexivity. Qed.
Lemma types_all l us : sepd tk (mark c_comma) l us -> (forall u, In u l -> wf u) -> S (trees_size us) < n ->
  p_delimited (p_type n) (p_punct c_comma) us = Ok (l, []).
Proof. intros H W Hn. rewrite <- (app_nil_r us) at 1. apply types_ok; [exact H | exact W | exact Hn | exact Logic.I | apply comma_nil]. Qed.
Lemma type_all t ts : tk t ts -> wf t -> S (trees_size ts) < n -> p_type n ts = Ok (t, []).
Proof. intros H W Hn. rewrite <- (app_nil_r ts) at 1. apply IH; [exact H | exact W | exact Hn | left; exact Logic.I]. Qed.

Lemma opt_none {A} (p : pars A) x : (exists e, p x = Err e) -> p_opt p x = Ok (None, x).
Proof. intros [e He]. unfold p_opt. rewrite He. reflexivity. Qed.
Lemma seq_ok {A B} (p : pars A) (q : A -> pars B) x a y : p x = Ok (a, y) -> p_seq p q x = q a y.
Proof. intros H. unfold p_seq. rewrite H. reflexivity. Qed.
Lemma seq_err {A B} (p : pars A) (q : A -> pars B) x e : p x = Err e -> p_seq p q x = Err e.
Proof. intros H. unfold p_seq. rewrite H. reflexivity. Qed.
Lemma alt_ok {A} (p q : pars A) x a : p x = Ok a -> p_alt p q x = Ok a.
Proof. intros H. unfold p_alt. rewrite H. reflexivity. Qed.
Lemma alt_err {A} (p q : pars A) x : (exists e, p x = Err e) -> p_alt p q x = q x.
Proof. intros [e H]. unfold p_alt. rewrite H. reflexivity. Qed.
Lemma opt_ok {A} (p : pars A) x a y : p x = Ok (a, y) -> p_opt p x = Ok (Some a, y).
Proof. intros H. unfold p_opt. rewrite H. reflexivity. Qed.
Lemma group_ok {A} d (p : pars A) inner r a : p inner = Ok (a, []) -> p_group d p (TG d inner :: r) = Ok (a, r).
Proof. intros H. cbn [p_group]. destruct d; cbn [delim_eqb]; rewrite H; reflexivity. Qed.

Lemma seg_ok s ts x : tk_seg s ts -> (forall u, In u (seg_kids s) -> wf u) -> S (trees_size ts) <= n -> after_seg x ->
  p_path_segment (p_type n) n (ts ++ x) = Ok (s, x).
Proof.
  intros H W Hn Hx. unfold p_path_segment. apply alt_ok. unfold p_segment.
  assert (En : exists k, n = S k). { destruct n as [|k]; [|eauto]. pose proof (size_pos ts) as Hp. destruct H; cbn in Hn; lia. }
  destruct En as [k En].
  destruct H as [id|id args us j1 j2 Ha]; cbn [app].
  - rewrite (seq_ok _ _ _ id x) by reflexivity.
    rewrite (seq_ok _ _ _ None x); [|apply opt_none; rewrite En; apply after_no_gargs; exact Hx].
    rewrite (seq_ok _ _ _ None x); [reflexivity|]. apply opt_none, after_no_shim, Hx.
  - rewrite (seq_ok _ _ _ id (TP c_lt j1 :: (us ++ [TP c_gt j2]) ++ x)) by reflexivity.
    rewrite (seq_ok _ _ _ (Some (GParsed args)) x).
    + rewrite (seq_ok _ _ _ None x); [reflexivity|]. apply opt_none, after_no_shim, Hx.
    + apply opt_ok. unfold p_gargs. apply alt_ok.
      rewrite (seq_ok _ _ _ tt ((us ++ [TP c_gt j2]) ++ x)) by reflexivity.
      rewrite <- app_assoc. cbn [app].
      rewrite (seq_ok _ _ _ args (TP c_gt j2 :: x)); [reflexivity|].
      apply types_ok; [exact Ha | exact W | | cbn; tauto | eexists; reflexivity].
      rewrite !trees_size_cons, trees_size_app in Hn. cbn in Hn. lia.
Qed.

Lemma kids_seg segs s u : In s segs -> In u (seg_kids s) -> In u (kids (YPath segs)).
Proof. intros H1 H2. cbn [kids]. apply in_flat_map. eauto. Qed.

Lemma segs_ok segs us rest : sepd tk_seg colons segs us -> wf (YPath segs) -> S (trees_size us) <= n -> stop_plus rest ->
  p_path (p_type n) n (us ++ rest) = Ok (YPath segs, rest).
Proof.
  intros H W Hn Hr. unfold p_path. rewrite (seq_ok _ _ _ segs rest); [reflexivity|].
  unfold p_delimited. apply (delimited_ok _ _ tk_seg colons).
  - exact H.
  - pose proof (sepd_count tk_seg colons segs us colons_ne H). rewrite app_length. lia.
  - intros a ts x Ha HR Hsz Hx. apply seg_ok; [exact HR | | lia |].
    + intros u Hu. apply (wf_kid (YPath segs)); [exact W | eapply kids_seg; eassumption].
    + destruct Hx as [->|(ds & y & Hd & ->)]; [apply after_stop, Hr | apply after_colons, Hd].
  - apply colons_parsed.
  - unfold p_pathsep. destruct (joint_no (ch ":") rest [c_comma; c_gt; ch ";"; ch "+"] Hr ltac:(notin)) as [e He].
    exists e. apply seq_err. exact He.
Qed.

Lemma ret_ok ret rs rest : tk_ret ret rs -> (forall r, ret = Some r -> wf r) -> S (trees_size rs) < n -> stop rest ->
  p_opt (p_seq (p_joint (ch "-")) (fun _ => p_seq (p_punct c_gt) (fun _ => p_type n))) (rs ++ rest) = Ok (ret, rest).
Proof.
  intros H W Hn Hr. destruct H as [|r ts j Ht].
  - cbn [app]. apply opt_none. destruct (joint_no (ch "-") rest _ Hr ltac:(notin)) as [e He]. exists e. apply seq_err, He.
  - apply opt_ok. cbn [app]. rewrite (seq_ok _ _ _ tt (TP (ch ">") j :: ts ++ rest)) by reflexivity.
    rewrite (seq_ok _ _ _ tt (ts ++ rest)) by reflexivity.
    apply IH; [exact Ht | apply W; reflexivity | rewrite !trees_size_cons in Hn; cbn in Hn; lia | left; exact Hr].
Qed.

Lemma fn_ok args inner ret rs rest : p_delimited (p_type n) (p_punct c_comma) inner = Ok (args, []) ->
  tk_ret ret rs -> (forall r, ret = Some r -> wf r) -> S (trees_size rs) < n -> stop rest ->
  p_type_step (p_type n) n (TId (st "fn") :: TG Par inner :: rs ++ rest) = Ok (YFn false args ret, rest).
Proof.
  intros Ha Hr W Hn Hs. unfold p_type_step.
  do 5 (rewrite alt_err; [|eexists; reflexivity]). apply alt_ok. unfold p_fn.
  rewrite (seq_ok _ _ _ None (TId (st "fn") :: TG Par inner :: rs ++ rest)) by reflexivity.
  rewrite (seq_ok _ _ _ tt (TG Par inner :: rs ++ rest)) by reflexivity.
  rewrite (seq_ok _ _ _ args (rs ++ rest)) by (apply group_ok, Ha).
  rewrite (seq_ok _ _ _ ret rest) by (apply ret_ok; assumption). reflexivity.
Qed.

Lemma many_ok a l us : sepd tk (mark c_comma) (a :: l) us -> l <> [] -> (forall u, In u (a :: l) -> wf u /\ full u) -> S (trees_size us) < n ->
  forall m, length us < m ->
  exists ini z ts, a :: l = ini ++ [z] /\ ini <> [] /\ tk z ts /\ In z (a :: l) /\ trees_size ts <= trees_size us /\
  p_many_n m (p_type_comma (p_type n)) us = Ok (ini, ts).
Proof.
  revert a us. induction l as [|b l IHl]; intros a us H Hl W Hn m Hm; [congruence|].
  inversion H as [|a' l' ts ds us' Ha Hd Hl' Hs]; subst. destruct m as [|m]; [lia|].
  assert (E : p_type_comma (p_type n) (ts ++ ds ++ us') = Ok (a, us')).
  { unfold p_type_comma. rewrite (seq_ok _ _ _ a (ds ++ us')).
    - rewrite (seq_ok _ _ _ tt us') by (apply mark_parsed, Hd). reflexivity.
    - apply IH; [exact Ha | apply W; left; reflexivity | rewrite !trees_size_app in Hn; lia |].
      left. apply (mark_stop c_comma); [exact Hd | cbn; tauto]. }
  assert (L : length us' < m).
  { rewrite !app_length in Hm. destruct Hd as [j ->]. cbn [length] in Hm. lia. }
  cbn [p_many_n]. rewrite E.
  destruct l as [|c l].
  - inversion Hs as [z us2 Hz|]; subst; [|congruence].
    exists [a], b, us'. split; [reflexivity|]. split; [discriminate|]. split; [assumption|].
    split; [right; left; reflexivity|]. split; [rewrite !trees_size_app; lia|].
    destruct m as [|m]; [lia|]. cbn [p_many_n].
    assert (E2 : p_type_comma (p_type n) us' = Err "punct").
    { unfold p_type_comma. rewrite (seq_ok _ _ _ b []); [reflexivity|].
      apply type_all; [assumption | apply W; right; left; reflexivity | rewrite !trees_size_app in Hn; lia]. }
    rewrite E2. reflexivity.
  - assert (Hn' : S (trees_size us') < n) by (rewrite !trees_size_app in Hn; lia).
    destruct (IHl b us' Hs ltac:(discriminate)
                (fun u Hu => W u (or_intror Hu)) Hn' m L) as (ini & z & zs & E1 & E2 & Hz & Hin & Hsz & E3).
    exists (a :: ini), z, zs. split; [rewrite E1; reflexivity|]. split; [discriminate|]. split; [exact Hz|].
    split; [right; exact Hin|]. split; [rewrite !trees_size_app; lia|]. rewrite E3. reflexivity.
Qed.

Lemma step_ok t ts rest : tk t ts -> wf t -> trees_size ts < n -> (stop rest \/ (is_path t /\ stop_plus rest)) ->
  p_type_step (p_type n) n (ts ++ rest) = Ok (t, rest).
Proof.
  intros H W Hn Hr.
  assert (Hs : ~ is_path t -> stop rest) by (intros N; destruct Hr as [Hr|[N' _]]; [exact Hr | contradiction]).
  pose proof (wf_here _ W) as [P So].
  assert (Wk : forall u, In u (kids t) -> wf u) by (intros u Hu; eapply wf_kid; eassumption).
  assert (NP : (forall segs, t <> YPath segs) -> ~ is_path t) by (intros N; destruct t; cbn; auto; exfalso; eapply N; reflexivity).
  destruct H; try specialize (Hs (NP ltac:(discriminate))).
  - (* slice *)
    rewrite !trees_size_cons, tree_size_group in Hn. cbn [tree_size] in Hn. cbn [app]. unfold p_type_step. apply alt_ok.
    unfold p_slice. rewrite (seq_ok _ _ _ tt (TG Brack ts :: rest)) by reflexivity.
    rewrite (seq_ok _ _ _ t rest); [reflexivity|]. apply group_ok, type_all; [exact H | apply Wk; left; reflexivity | lia].
  - (* str *)
    cbn [app]. unfold p_type_step. rewrite alt_err; [|eexists; reflexivity]. reflexivity.
  - (* &mut *)
    rewrite !trees_size_cons in Hn. cbn [tree_size] in Hn. cbn [app]. unfold p_type_step.
    do 2 (rewrite alt_err; [|eexists; reflexivity]). apply alt_ok. unfold p_ref.
    rewrite (seq_ok _ _ _ tt (TId (st "mut") :: ts ++ rest)) by reflexivity.
    rewrite (seq_ok _ _ _ (Some tt) (ts ++ rest)) by reflexivity.
    rewrite (seq_ok _ _ _ t rest); [reflexivity|].
    apply IH; [exact H | apply Wk; left; reflexivity | lia | left; exact Hs].
  - (* & *)
    assert (Wt : wf t) by (apply Wk; left; reflexivity). cbn [plain1] in P. cbn [sound1] in So.
    destruct So as [So|So]; [discriminate|].
    rewrite trees_size_cons in Hn. cbn [tree_size] in Hn. cbn [app].
    destruct (tk_head t ts H Wt P) as (h & tl & -> & Hh).
    assert (E : p_type n ((h :: tl) ++ rest) = Ok (t, rest)) by (apply IH; [exact H | exact Wt | lia | left; exact Hs]).
    unfold p_type_step. rewrite alt_err. rewrite alt_err. apply alt_ok.
    + unfold p_ref. rewrite (seq_ok _ _ _ tt ((h :: tl) ++ rest)) by reflexivity.
      rewrite (seq_ok _ _ _ None ((h :: tl) ++ rest)).
      * rewrite (seq_ok _ _ _ t rest) by exact E. reflexivity.
      * apply opt_none. cbn [app p_kw]. destruct h as [id| | |]; try (eexists; reflexivity).
        destruct (str_eqb (st "mut") id) eqn:Em; [|eexists; reflexivity]. apply str_eqb_eq in Em. destruct Hh as [N _]. congruence.
    + unfold p_strslice. rewrite (seq_ok _ _ _ tt ((h :: tl) ++ rest)) by reflexivity.
      cbn [app]. unfold p_seq. cbn [p_kw]. destruct h as [id| | |]; try (eexists; reflexivity).
      destruct (str_eqb (st "str") id) eqn:Em; [|eexists; reflexivity]. apply str_eqb_eq in Em. subst id.
      destruct Hh as (_ & _ & Hh). destruct (Hh eq_refl) as (g & b & l & ->). congruence.
    + unfold p_slice. rewrite (seq_ok _ _ _ tt ((h :: tl) ++ rest)) by reflexivity.
      cbn [app]. destruct h as [| | |d inner]; try (eexists; reflexivity). destruct d; try (eexists; reflexivity).
      destruct Hh as (u & k & ->). rewrite trees_size_cons, tree_size_group in Hn. inversion H as [| | | | |? ? Hu|u' us' j' k' Hu|u' us' j' v vs Hu Hv| | | | | | |]; subst.
      * destruct So.
      * assert (Hu' : S (trees_size us') < n) by (rewrite trees_size_app in Hn; cbn in Hn; lia).
        assert (Wu : wf u) by (eapply wf_kid; [exact Wt | left; reflexivity]).
        exists "end of group"%string. apply seq_err. cbn [p_group delim_eqb].
        rewrite (IH u us'); [reflexivity | exact Hu | exact Wu | exact Hu' | left; cbn; tauto].
      * assert (Hu' : S (trees_size us') < n) by (rewrite trees_size_app in Hn; cbn in Hn; lia).
        assert (Wu : wf u) by (eapply wf_kid; [exact Wt | left; reflexivity]).
        exists "end of group"%string. apply seq_err. cbn [p_group delim_eqb].
        rewrite (IH u us'); [reflexivity | exact Hu | exact Wu | exact Hu' | left; cbn; tauto].
  - (* never *)
    cbn [app]. unfold p_type_step. do 3 (rewrite alt_err; [|eexists; reflexivity]). reflexivity.
  - (* array *)
    rewrite !trees_size_cons, tree_size_group in Hn.
    cbn [app]. unfold p_type_step. do 4 (rewrite alt_err; [|eexists; reflexivity]). apply alt_ok. unfold p_array. apply group_ok.
    rewrite (seq_ok _ _ _ t []); [reflexivity|]. apply type_all; [exact H | apply Wk; left; reflexivity | lia].
  - rewrite !trees_size_cons, tree_size_group, trees_size_app in Hn. cbn [plain1 sound1] in *.
    cbn [app]. unfold p_type_step. do 4 (rewrite alt_err; [|eexists; reflexivity]). apply alt_ok. unfold p_array. apply group_ok.
    rewrite (seq_ok _ _ _ t [TP (ch ";") j; TLit (dec n0)]).
    + rewrite (seq_ok _ _ _ (Some (AFixed n0)) []); [reflexivity|]. apply opt_ok.
      rewrite (seq_ok _ _ _ tt [TLit (dec n0)]) by reflexivity. unfold p_asize. apply alt_ok.
      rewrite (seq_ok _ _ _ n0 []); [reflexivity|]. cbn [p_usize].
      assert (Ed : parse_u64 (dec n0) = Some n0).
      { unfold in_u64, two64 in So. unfold dec. assert ((n0 <? 0)%Z = false) as -> by lia.
        rewrite parse_u64_dec by lia. destruct (_ <=? _)%Z eqn:El; [reflexivity|].
        unfold u64_max in El. lia. }
      rewrite Ed. reflexivity.
    + apply IH; [exact H | apply Wk; left; reflexivity | cbn in Hn; lia | left; cbn; tauto].
  - rewrite !trees_size_cons, tree_size_group, trees_size_app, trees_size_cons in Hn. cbn [plain1 sound1 kids] in *.
    destruct P as [Pt Pu].
    cbn [app]. unfold p_type_step. do 4 (rewrite alt_err; [|eexists; reflexivity]). apply alt_ok. unfold p_array. apply group_ok.
    assert (Wu : wf u) by (apply Wk; right; left; reflexivity).
    rewrite (seq_ok _ _ _ t (TP (ch ";") j :: us)).
    + rewrite (seq_ok _ _ _ (Some (ADyn u)) []); [reflexivity|]. apply opt_ok.
      rewrite (seq_ok _ _ _ tt us) by reflexivity. unfold p_asize.
      destruct (tk_head u us ltac:(assumption) Wu Pu) as (h & tl & Eh & Hh).
      rewrite alt_err.
      * rewrite (seq_ok _ _ _ u []); [reflexivity|]. apply type_all; [assumption | exact Wu |]. cbn in Hn. lia.
      * rewrite Eh. destruct h; try (eexists; reflexivity). destruct Hh.
    + apply IH; [exact H | apply Wk; left; reflexivity | cbn in Hn; lia | left; cbn; tauto].
  - (* fn() *)
    rewrite !trees_size_cons in Hn. cbn in Hn. cbn [app]. apply fn_ok; [| exact H | | lia | exact Hs].
    + unfold p_delimited. cbn [length p_delimited_n]. rewrite p_type_nil by lia. reflexivity.
    + intros r ->. apply Wk. cbn. tauto.
  - rewrite !trees_size_cons, tree_size_group in Hn. cbn [tree_size] in Hn. cbn [app]. apply fn_ok; [| assumption | | lia | exact Hs].
    + apply types_all; [assumption | | lia]. intros u Hu. apply Wk. cbn [kids]. apply in_or_app. left. exact Hu.
    + intros r ->. apply Wk. cbn [kids]. apply in_or_app. right. left. reflexivity.
  - (* dyn *)
    rewrite !trees_size_cons in Hn. cbn [tree_size] in Hn. cbn [app]. cbn [plain1] in P. destruct P as [_ P].
    unfold p_type_step. do 6 (rewrite alt_err; [|eexists; reflexivity]). apply alt_ok. unfold p_dyn.
    rewrite (seq_ok _ _ _ tt (us ++ rest)) by reflexivity.
    rewrite (seq_ok _ _ _ l rest); [reflexivity|].
    unfold p_delimited. apply (delimited_ok _ _ tk (mark (ch "+"))).
    + assumption.
    + pose proof (sepd_count tk (mark (ch "+")) l us (mark_ne (ch "+")) ltac:(assumption)). rewrite app_length. lia.
    + intros a ts x Ha HR Hsz Hx. apply IH; [exact HR | apply Wk, Ha | lia | right]. rewrite Forall_forall in P.
      split; [apply P, Ha|]. destruct Hx as [->|(ds & y & Hd & ->)]; [apply stop_weak, Hs | apply (mark_stop (ch "+")); [exact Hd | cbn; tauto]].
    + apply mark_parsed.
    + apply (punct_no (ch "+") rest _ Hs). notin.
  - (* unit *)
    cbn [app]. unfold p_type_step. do 7 (rewrite alt_err; [|eexists; reflexivity]). reflexivity.
  - (* (t,) *)
    rewrite !trees_size_cons, tree_size_group, trees_size_app in Hn. cbn in Hn. inversion P as [|? ? Pf _]; subst.
    pose proof (Wk t (or_introl eq_refl)) as Wt. pose proof (tk_nonempty t ts H Wt Pf) as Ne.
    cbn [app]. unfold p_type_step. do 7 (rewrite alt_err; [|eexists; reflexivity]). apply alt_ok. unfold p_tuple.
    rewrite alt_err.
    + apply alt_ok. apply group_ok. rewrite (seq_ok _ _ _ t []); [reflexivity|]. unfold p_type_opt_comma.
      rewrite (seq_ok _ _ _ t [TP c_comma j]); [reflexivity|]. apply IH; [exact H | exact Wt | lia | left; cbn; tauto].
    + destruct ts; [congruence|]. eexists. reflexivity.
  - (* (a, b, ..) *)
    rewrite !trees_size_cons, tree_size_group in Hn. cbn in Hn. cbn [plain1 kids] in *. rewrite Forall_forall in P.
    assert (Hn2 : S (trees_size us) < n) by (fold (trees_size us) in Hn; lia).
    assert (Ne : us <> []).
    { inversion H; subst; match goal with |- ?x ++ ?y ++ ?z <> [] => idtac end.
      match goal with Hd : mark _ ?ds |- _ => destruct Hd as [j ->] end. intros E. apply app_eq_nil in E. destruct E as [_ E]. discriminate. }
    cbn [app]. unfold p_type_step. do 7 (rewrite alt_err; [|eexists; reflexivity]). apply alt_ok. unfold p_tuple.
    rewrite alt_err; [|destruct us; [congruence|]; eexists; reflexivity].
    rewrite alt_err.
    + apply group_ok.
      destruct (many_ok a (b :: l) us H ltac:(discriminate) (fun u Hu => conj (Wk u Hu) (P u Hu)) Hn2 (S (length us)) ltac:(lia))
        as (ini & z & zs & E1 & E2 & Hz & Hin & Hsz & E3).
      rewrite (seq_ok _ _ _ ini zs).
      * rewrite (seq_ok _ _ _ z []); [rewrite E1; reflexivity|]. unfold p_type_opt_comma.
        rewrite (seq_ok _ _ _ z []); [reflexivity|]. apply type_all; [exact Hz | apply Wk, Hin | lia].
      * unfold p_many. rewrite E3. cbn [bind]. destruct ini; [congruence | reflexivity].
    + inversion H as [|a' l' ts ds us' Ha Hd Hl Hss]; subst. cbn [p_group delim_eqb].
      assert (E : p_type n (ts ++ ds ++ us') = Ok (a, ds ++ us')).
      { apply IH; [exact Ha | apply Wk; left; reflexivity | rewrite !trees_size_app in Hn2; lia|]. left.
        apply (mark_stop c_comma); [exact Hd | cbn; tauto]. }
      assert (Ne' : us' <> []).
      { inversion Hss as [z us2 Hz|z l2 ts2 ds2 us2 Hz Hd2 Hl2 Hs2]; subst.
        - eapply tk_nonempty; [eassumption | apply Wk; right; left; reflexivity | apply P; right; left; reflexivity].
        - destruct Hd2 as [j ->]. intros E0. apply app_eq_nil in E0. destruct E0 as [_ E0]. discriminate. }
      unfold p_seq at 1. unfold p_type_opt_comma. rewrite (seq_ok _ _ _ a (ds ++ us')) by exact E.
      rewrite (seq_ok _ _ _ (Some tt) us') by (apply opt_ok, mark_parsed, Hd). cbn [bind p_ret].
      destruct us'; [congruence|]. eexists. reflexivity.
  - (* path *)
    assert (Hp : stop_plus rest) by (destruct Hr as [Hr|[_ Hr]]; [apply stop_weak, Hr | exact Hr]).
    cbn [plain1] in P. rewrite Forall_forall in P.
    assert (G : exists id r, us ++ rest = TId id :: r /\ ~ keyword id).
    { inversion H as [s ts Hsg|s l ts ds us' Hsg Hd Hl Hss]; subst.
      - pose proof (P s (or_introl eq_refl)) as Ps. destruct Hsg as [id|id args vs j1 j2 Hv]; destruct Ps as (Hk & _); cbn [app]; eauto.
      - pose proof (P s (or_introl eq_refl)) as Ps. destruct Hsg as [id|id args vs j1 j2 Hv]; destruct Ps as (Hk & _); cbn [app]; eauto. }
    destruct G as (id & r & Eq & Hk). rewrite Eq, step_ident, <- Eq.
    + apply segs_ok; [exact H | exact W | lia | exact Hp].
    + intros ->. apply Hk. cbn. tauto.
    + intros ->. apply Hk. cbn. tauto.
    + intros ->. apply Hk. cbn. tauto.
Qed.
End Step.

Theorem parse_tk n t ts rest : tk t ts -> wf t -> S (trees_size ts) < n -> (stop rest \/ (is_path t /\ stop_plus rest)) ->
  p_type n (ts ++ rest) = Ok (t, rest).
Proof.
  revert t ts rest. induction n as [|n IH]; intros t ts rest H W Hn Hr; [lia|].
  rewrite p_type_unfold. apply step_ok; [exact IH | exact H | exact W | lia | exact Hr].
Qed.
