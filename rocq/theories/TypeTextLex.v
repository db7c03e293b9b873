(** Printed types split into the tokens of the type; round trips. *)
From Coq Require Import Ascii String List ZArith NArith Lia Bool.
From Verif Require Import Base NumText TypesModel TypeTextModel TypeTextSpec TypeTextProofs TypeTextParse.
Import ListNotations.

Fixpoint flat_tree (t : tree) : list lexeme :=
  match t with
  | TId s => [LxId s]
  | TLit s => [LxLit s]
  | TP c j => [LxP c j]
  | TG d ts => LxOpen d :: flat_map flat_tree ts ++ [LxClose d]
  end.
Definition flat (ts : list tree) : list lexeme := flat_map flat_tree ts.
Lemma flat_app a b : flat (a ++ b) = flat a ++ flat b.
Proof. apply flat_map_app. Qed.

Lemma build_tree t : forall ls acc stk, build (flat_tree t ++ ls) acc stk = build ls (t :: acc) stk.
Proof.
  revert t. fix F 1. intros [s|s|c j|d ts] ls acc stk; cbn [flat_tree app build]; try reflexivity.
  assert (G : forall ts ls acc stk, build (flat_map flat_tree ts ++ ls) acc stk = build ls (rev ts ++ acc) stk).
  { fix G 1. intros [|t us] ls' acc' stk'; [reflexivity|]. cbn [flat_map rev]. rewrite <- app_assoc, F, G.
    rewrite <- app_assoc. reflexivity. }
  rewrite <- app_assoc, G. cbn [app build]. rewrite app_nil_r, rev_involutive.
  destruct d; reflexivity.
Qed.
Lemma build_flat ts ls acc stk : build (flat ts ++ ls) acc stk = build ls (rev ts ++ acc) stk.
Proof.
  revert ls acc. induction ts as [|t ts IH]; intros ls acc; [reflexivity|].
  unfold flat in *. cbn [flat_map rev]. rewrite <- app_assoc, build_tree, IH, <- app_assoc. reflexivity.
Qed.

(** [a], followed by [k], is split into [ls]. *)
Definition lexes (a k : str) (ls : list lexeme) : Prop :=
  forall out, lx k [] = Ok out -> lx (a ++ k) [] = Ok (ls ++ out).
Definition no_word (k : str) : Prop := match k with c :: _ => is_word c = false | [] => True end.

Lemma lexes_nil k : lexes [] k [].
Proof. intros out H. exact H. Qed.
Lemma lexes_app a b k la lb : lexes a (b ++ k) la -> lexes b k lb -> lexes (a ++ b) k (la ++ lb).
Proof. intros Ha Hb out H. rewrite <- !app_assoc. apply Ha, Hb, H. Qed.
Lemma lx_word w : forall k v, forallb is_word w = true -> lx (w ++ k) v = lx k (v ++ w).
Proof.
  induction w as [|c w IH]; intros k v H; [rewrite app_nil_r; reflexivity|].
  cbn [forallb] in H. apply andb_true_iff in H. destruct H as [Hc Hw]. cbn [app lx]. rewrite Hc, IH by exact Hw.
  rewrite <- app_assoc. reflexivity.
Qed.
Lemma lx_flush k w out : no_word k -> lx k [] = Ok out -> lx k w = Ok (flush w ++ out).
Proof.
  destruct k as [|c k]; intros Hk H; cbn [lx] in *.
  - injection H as <-. rewrite app_nil_r. reflexivity.
  - cbn in Hk. rewrite Hk in *. cbn [flush app] in H.
    assert (G : forall (x : list lexeme), rmap (app x) (lx k []) = Ok out -> rmap (app (flush w ++ x)) (lx k []) = Ok (flush w ++ out)).
    { intros x Hx. destruct (lx k []) as [o| | |]; cbn in *; try discriminate. injection Hx as <-. rewrite <- app_assoc. reflexivity. }
    destruct (is_space c). { specialize (G [] H). rewrite app_nil_r in G. exact G. }
    destruct (is_punct c); [apply G, H|]. destruct (open_of c); [apply G, H|]. destruct (close_of c); [apply G, H | discriminate].
Qed.
Lemma lexes_word w k : w <> [] -> forallb is_word w = true -> no_word k -> lexes w k [word_lexeme w].
Proof.
  intros Hw Hc Hk out H. rewrite lx_word by exact Hc. cbn [app]. rewrite (lx_flush k w out Hk H).
  destruct w; [congruence | reflexivity].
Qed.
Lemma lexes_id w k : ident w -> no_word k -> lexes w k (flat [TId w]).
Proof.
  intros (c & v & -> & Hd & Hw) Hk. pose proof (lexes_word (c :: v) k ltac:(discriminate) Hw Hk) as H.
  cbn [word_lexeme] in H. rewrite Hd in H. exact H.
Qed.
Lemma lexes_punct c k : is_word c = false -> is_space c = false -> is_punct c = true -> lexes [c] k (flat [TP c (next_punct k)]).
Proof. intros H1 H2 H3 out H. cbn [app lx]. rewrite H1, H2, H3. cbn [flush app]. rewrite H. reflexivity. Qed.
Lemma lexes_space k : lexes (st " ") k [].
Proof. intros out H. cbn. rewrite H. reflexivity. Qed.
Lemma lexes_group d o c a k ts : is_word o = false -> is_space o = false -> is_punct o = false -> open_of o = Some d ->
  is_word c = false -> is_space c = false -> is_punct c = false -> open_of c = None -> close_of c = Some d ->
  lexes a (c :: k) (flat ts) -> lexes (o :: a ++ [c]) k (flat [TG d ts]).
Proof.
  intros O1 O2 O3 O4 C1 C2 C3 C4 C5 Ha out H. cbn [app lx]. rewrite O1, O2, O3, O4. cbn [flush app].
  rewrite <- app_assoc. cbn [app].
  rewrite (Ha (LxClose d :: out)).
  - unfold flat. cbn [flat_map flat_tree rmap bind app]. rewrite app_nil_r, <- app_assoc. reflexivity.
  - cbn [lx]. rewrite C1, C2, C3, C4, C5. cbn [flush app]. rewrite H. reflexivity.
Qed.
Lemma lexes_par a k ts : lexes a (st ")" ++ k) (flat ts) -> lexes (st "(" ++ a ++ st ")") k (flat [TG Par ts]).
Proof. intros H. apply (lexes_group Par 40%N 41%N a k ts); try reflexivity. exact H. Qed.
Lemma lexes_brack a k ts : lexes a (st "]" ++ k) (flat ts) -> lexes (st "[" ++ a ++ st "]") k (flat [TG Brack ts]).
Proof. intros H. apply (lexes_group Brack 91%N 93%N a k ts); try reflexivity. exact H. Qed.

Lemma lexes_flat_app a b k ta tb : lexes a (b ++ k) (flat ta) -> lexes b k (flat tb) -> lexes (a ++ b) k (flat (ta ++ tb)).
Proof. intros Ha Hb. rewrite flat_app. apply lexes_app; assumption. Qed.
Lemma lexes_pre_space a k ls : lexes a k ls -> lexes (st " " ++ a) k ls.
Proof. intros H. change ls with ([] ++ ls). apply lexes_app; [apply lexes_space | exact H]. Qed.

(** Printing and splitting, for lists with separators. *)
Lemma lexes_sep {A} (f : A -> str) (R : A -> list tree -> Prop) (D : list tree -> Prop) sep k l :
  no_word k ->
  (forall a k', In a l -> no_word k' -> exists ts, R a ts /\ lexes (f a) k' (flat ts)) ->
  (forall k', no_word (sep ++ k')) -> (forall k', exists ds, D ds /\ lexes sep k' (flat ds)) ->
  l <> [] -> exists us, sepd R D l us /\ lexes (join sep (map f l)) k (flat us).
Proof.
  intros Hk Hf Hw Hs. induction l as [|a l IH]; intros Hl; [congruence|]. clear Hl.
  destruct l as [|b l].
  - destruct (Hf a k (or_introl eq_refl) Hk) as (ts & HR & HL). exists ts. split; [constructor; exact HR | exact HL].
  - destruct IH as (us & Hus & HL); [intros x k' Hx; apply Hf; right; exact Hx | discriminate |].
    destruct (Hs (join sep (map f (b :: l)) ++ k)) as (ds & HD & HLd).
    destruct (Hf a (sep ++ join sep (map f (b :: l)) ++ k) (or_introl eq_refl) (Hw _)) as (ts & HR & HLa).
    exists (ts ++ ds ++ us). split; [apply sep_more; [exact HR | exact HD | discriminate | exact Hus]|].
    change (join sep (map f (a :: b :: l))) with (f a ++ sep ++ join sep (map f (b :: l))).
    apply lexes_flat_app; [rewrite <- app_assoc; exact HLa|]. apply lexes_flat_app; assumption.
Qed.
Lemma lexes_comma k : exists ds, mark c_comma ds /\ lexes (st ", ") k (flat ds).
Proof.
  exists [TP c_comma false]. split; [eexists; reflexivity|].
  change (st ", ") with ([c_comma] ++ st " "). change [TP c_comma false] with ([TP c_comma (next_punct (st " " ++ k))] ++ []).
  apply lexes_flat_app; [apply lexes_punct; reflexivity | apply lexes_space].
Qed.
Lemma lexes_plus k : exists ds, mark (ch "+") ds /\ lexes (st " + ") k (flat ds).
Proof.
  exists [TP (ch "+") false]. split; [eexists; reflexivity|].
  change (st " + ") with (st " " ++ [ch "+"] ++ st " "). apply lexes_pre_space.
  change [TP (ch "+") false] with ([TP (ch "+") (next_punct (st " " ++ k))] ++ []).
  apply lexes_flat_app; [apply lexes_punct; reflexivity | apply lexes_space].
Qed.
Lemma lexes_colons k : exists ds, colons ds /\ lexes (st "::") k (flat ds).
Proof.
  exists [TP (ch ":") true; TP (ch ":") (next_punct k)]. split; [eexists; reflexivity|].
  change (st "::") with ([ch ":"] ++ [ch ":"]).
  change [TP (ch ":") true; TP (ch ":") (next_punct k)] with ([TP (ch ":") (next_punct ([ch ":"] ++ k))] ++ [TP (ch ":") (next_punct k)]).
  apply lexes_flat_app; apply lexes_punct; reflexivity.
Qed.

Lemma digit_word c : is_digit c = true -> is_word c = true.
Proof. intros H. unfold is_word. rewrite H. destruct (is_upper c), (is_lower c); reflexivity. Qed.
Lemma lexes_dec n k : in_u64 n -> no_word k -> lexes (dec n) k (flat [TLit (dec n)]).
Proof.
  intros Hn Hk. unfold in_u64 in Hn. unfold dec. assert ((n <? 0)%Z = false) as -> by lia.
  pose proof (dec_nat_digits n ltac:(lia)) as Hd. pose proof (dec_nat_nonempty n) as Hne.
  assert (Hw : forallb is_word (dec_nat n) = true).
  { apply forallb_forall. intros x Hx. apply digit_word. rewrite forallb_forall in Hd. apply Hd, Hx. }
  pose proof (lexes_word (dec_nat n) k Hne Hw Hk) as H.
  destruct (dec_nat n) as [|c v]; [congruence|]. cbn [forallb] in Hd. apply andb_true_iff in Hd. destruct Hd as [Hd _].
  cbn [word_lexeme] in H. rewrite Hd in H. exact H.
Qed.
Lemma ident_lit (s : string) : ident (st s) -> ident (st s).
Proof. auto. Qed.
Ltac is_ident := eexists; eexists; split; [reflexivity | split; reflexivity].

Lemma show_tk : forall t, wf t -> full t -> forall k, no_word k -> exists ts, tk t ts /\ lexes (show t) k (flat ts).
Proof.
  apply (kids_ind (fun t => wf t -> full t -> forall k, no_word k -> exists ts, tk t ts /\ lexes (show t) k (flat ts))).
  intros t IH W F k Hk.
  assert (IHk : forall u, In u (kids t) -> full u -> forall k, no_word k -> exists ts, tk u ts /\ lexes (show u) k (flat ts)).
  { intros u Hu Fu. apply IH; [exact Hu | eapply wf_kid; eassumption | exact Fu]. }
  clear IH. pose proof (wf_here _ W) as [P So].
  assert (LS : forall l k, (forall u, In u l -> In u (kids t)) -> Forall full l -> l <> [] -> no_word k ->
            exists us, sepd tk (mark c_comma) l us /\ lexes (join (st ", ") (map show l)) k (flat us)).
  { intros l k' Hl Fl Ne Hk'. apply lexes_sep; [exact Hk' | | reflexivity | apply lexes_comma | exact Ne].
    intros a k2 Ha Hk2. rewrite Forall_forall in Fl. apply IHk; [apply Hl, Ha | apply Fl, Ha | exact Hk2]. }
  destruct t as [t| |m t| |t s|b args ret|l|l|m t|segs]; cbn [plain1 sound1 kids] in *.
  - (* slice *)
    destruct (IHk t (or_introl eq_refl) P (st "]" ++ k) eq_refl) as (ts & Ht & HL).
    exists [TP (ch "&") false; TG Brack ts]. split; [constructor; exact Ht|].
    change (show (YSlice t)) with ([ch "&"] ++ (st "[" ++ show t ++ st "]")).
    change [TP (ch "&") false; TG Brack ts] with ([TP (ch "&") (next_punct ((st "[" ++ show t ++ st "]") ++ k))] ++ [TG Brack ts]).
    apply lexes_flat_app; [apply lexes_punct; reflexivity | apply lexes_brack; exact HL].
  - exists [TP (ch "&") false; TId (st "str")]. split; [constructor|].
    change (show YStr) with ([ch "&"] ++ st "str").
    change [TP (ch "&") false; TId (st "str")] with ([TP (ch "&") (next_punct (st "str" ++ k))] ++ [TId (st "str")]).
    apply lexes_flat_app; [apply lexes_punct; reflexivity | apply lexes_id; [is_ident | exact Hk]].
  - destruct (IHk t (or_introl eq_refl) P k Hk) as (ts & Ht & HL). destruct m.
    + exists (TP (ch "&") false :: TId (st "mut") :: ts). split; [constructor; exact Ht|].
      change (show (YRef true t)) with ([ch "&"] ++ st "mut" ++ st " " ++ show t).
      change (TP (ch "&") false :: TId (st "mut") :: ts)
        with ([TP (ch "&") (next_punct ((st "mut" ++ st " " ++ show t) ++ k))] ++ [TId (st "mut")] ++ ts).
      apply lexes_flat_app; [apply lexes_punct; reflexivity|].
      apply lexes_flat_app; [apply lexes_id; [is_ident | reflexivity] | apply lexes_pre_space; exact HL].
    + exists ([TP (ch "&") (next_punct (show t ++ k))] ++ ts). split; [apply K_ref; exact Ht|].
      change (show (YRef false t)) with ([ch "&"] ++ show t).
      apply lexes_flat_app; [apply lexes_punct; reflexivity | exact HL].
  - eexists. split; [apply K_never|]. apply lexes_punct; reflexivity.
  - destruct P as [Pt Ps]. destruct s as [[n|u]|].
    + destruct (IHk t (or_introl eq_refl) Pt (st "; " ++ dec n ++ st "]" ++ k) eq_refl) as (ts & Ht & HL).
      exists [TG Brack (ts ++ [TP (ch ";") false; TLit (dec n)])]. split; [constructor; exact Ht|].
      change (show (YArray t (Some (AFixed n)))) with (st "[" ++ show t ++ (st "; " ++ dec n) ++ st "]").
      rewrite (app_assoc (show t)). apply lexes_brack. apply lexes_flat_app; [rewrite <- app_assoc; exact HL|].
      change (st "; " ++ dec n) with ([ch ";"] ++ (st " " ++ dec n)).
      change [TP (ch ";") false; TLit (dec n)] with ([TP (ch ";") (next_punct ((st " " ++ dec n) ++ st "]" ++ k))] ++ [TLit (dec n)]).
      apply lexes_flat_app; [apply lexes_punct; reflexivity|]. apply lexes_pre_space, lexes_dec; [exact So | reflexivity].
    + destruct (IHk u (or_intror (or_introl eq_refl)) Ps (st "]" ++ k) eq_refl) as (us & Hu & HLu).
      destruct (IHk t (or_introl eq_refl) Pt (st "; " ++ show u ++ st "]" ++ k) eq_refl) as (ts & Ht & HL).
      exists [TG Brack (ts ++ TP (ch ";") false :: us)]. split; [constructor; assumption|].
      change (show (YArray t (Some (ADyn u)))) with (st "[" ++ show t ++ (st "; " ++ show u) ++ st "]").
      rewrite (app_assoc (show t)). apply lexes_brack. apply lexes_flat_app; [rewrite <- app_assoc; exact HL|].
      change (st "; " ++ show u) with ([ch ";"] ++ (st " " ++ show u)).
      change (TP (ch ";") false :: us) with ([TP (ch ";") (next_punct ((st " " ++ show u) ++ st "]" ++ k))] ++ us).
      apply lexes_flat_app; [apply lexes_punct; reflexivity|]. apply lexes_pre_space. exact HLu.
    + destruct (IHk t (or_introl eq_refl) Pt (st "]" ++ k) eq_refl) as (ts & Ht & HL).
      exists [TG Brack ts]. split; [constructor; exact Ht|].
      change (show (YArray t None)) with (st "[" ++ show t ++ st "]"). apply lexes_brack. exact HL.
  - destruct P as (-> & Pa & Pr).
    assert (R : exists rs, tk_ret ret rs /\ lexes (match ret with Some r => st " -> " ++ show r | None => [] end) k (flat rs)).
    { destruct ret as [r|]; [|exists []; split; [constructor | apply lexes_nil]].
      destruct (IHk r ltac:(apply in_or_app; right; left; reflexivity) Pr k Hk) as (ts & Hr & HL).
      exists (TP (ch "-") true :: TP (ch ">") false :: ts). split; [constructor; exact Hr|].
      change (st " -> " ++ show r) with (st " " ++ [ch "-"] ++ [ch ">"] ++ st " " ++ show r).
      apply lexes_pre_space.
      change (TP (ch "-") true :: TP (ch ">") false :: ts) with
        ([TP (ch "-") (next_punct (([ch ">"] ++ st " " ++ show r) ++ k))] ++ [TP (ch ">") (next_punct ((st " " ++ show r) ++ k))] ++ ts).
      apply lexes_flat_app; [apply lexes_punct; reflexivity|]. apply lexes_flat_app; [apply lexes_punct; reflexivity|].
      apply lexes_pre_space. exact HL. }
    destruct R as (rs & Hr & HLr). set (rt := match ret with Some r => st " -> " ++ show r | None => [] end) in *.
    assert (A : exists us, tk (YFn false args ret) (TId (st "fn") :: TG Par us :: rs) /\
                lexes (join (st ", ") (map show args)) (st ")" ++ rt ++ k) (flat us)).
    { destruct Pa as [->|[Ne Fa]].
      - exists []. split; [apply K_fn0; exact Hr | apply lexes_nil].
      - destruct (LS args (st ")" ++ rt ++ k)) as (us & Hus & HL); [intros u Hu; apply in_or_app; left; exact Hu | exact Fa | exact Ne | reflexivity |].
        exists us. split; [apply K_fn; assumption | exact HL]. }
    destruct A as (us & Htk & HLa).
    exists (TId (st "fn") :: TG Par us :: rs). split; [exact Htk|].
    change (show (YFn false args ret)) with (st "fn" ++ st "(" ++ join (st ", ") (map show args) ++ st ")" ++ rt).
    change (TId (st "fn") :: TG Par us :: rs) with ([TId (st "fn")] ++ [TG Par us] ++ rs).
    apply lexes_flat_app; [apply lexes_id; [is_ident | reflexivity]|].
    replace (st "(" ++ join (st ", ") (map show args) ++ st ")" ++ rt) with ((st "(" ++ join (st ", ") (map show args) ++ st ")") ++ rt)
      by (rewrite <- !app_assoc; reflexivity).
    apply lexes_flat_app; [apply lexes_par; exact HLa | exact HLr].
  - destruct P as [Ne Pp].
    assert (G : exists us, sepd tk (mark (ch "+")) l us /\ lexes (join (st " + ") (map show l)) k (flat us)).
    { apply lexes_sep; [exact Hk | | reflexivity | apply lexes_plus | exact Ne].
      intros a k2 Ha Hk2. rewrite Forall_forall in Pp. apply IHk; [exact Ha | | exact Hk2].
      specialize (Pp a Ha). destruct a; try destruct Pp. destruct segs; [destruct Pp | discriminate]. }
    destruct G as (us & Hus & HL).
    exists ([TId (st "dyn")] ++ us). split; [apply K_dyn; exact Hus|].
    change (show (YDyn l)) with (st "dyn" ++ st " " ++ join (st " + ") (map show l)).
    apply lexes_flat_app; [apply lexes_id; [is_ident | reflexivity] | apply lexes_pre_space; exact HL].
  - destruct l as [|a [|b l]].
    + exists [TG Par []]. split; [constructor|]. apply (lexes_par [] k []). apply lexes_nil.
    + inversion P as [|? ? Fa _]; subst.
      destruct (IHk a (or_introl eq_refl) Fa (st "," ++ st ")" ++ k) eq_refl) as (ts & Ht & HL).
      exists [TG Par (ts ++ [TP c_comma false])]. split; [constructor; exact Ht|].
      change (show (YTuple [a])) with (st "(" ++ show a ++ (st "," ++ st ")")). rewrite (app_assoc (show a)).
      apply lexes_par. apply lexes_flat_app; [exact HL|].
      change [TP c_comma false] with [TP c_comma (next_punct (st ")" ++ k))]. apply lexes_punct; reflexivity.
    + destruct (LS (a :: b :: l) (st ")" ++ k)) as (us & Hus & HL); [auto | exact P | discriminate | reflexivity |].
      exists [TG Par us]. split; [constructor; exact Hus|].
      change (show (YTuple (a :: b :: l))) with (st "(" ++ join (st ", ") (map show (a :: b :: l)) ++ st ")").
      apply lexes_par. exact HL.
  - destruct P.
  - assert (Ne : segs <> []) by (intros ->; apply F; reflexivity).
    assert (G : exists us, sepd tk_seg colons segs us /\ lexes (join (st "::") (map (seg_text show) segs)) k (flat us)).
    { apply lexes_sep; [exact Hk | | reflexivity | apply lexes_colons | exact Ne].
      intros s k2 Hs Hk2. rewrite Forall_forall in P, So. specialize (P s Hs). specialize (So s Hs).
      destruct s as [id g sh| | |]; try destruct P. destruct H0 as [-> Hg]. destruct g as [[args|raw]|].
      - destruct Hg as [Na Fa].
        destruct (LS args (st ">" ++ k2)) as (us & Hus & HL).
        { intros u Hu. apply in_flat_map. exists (SSeg id (Some (GParsed args)) false). split; assumption. }
        { exact Fa. } { exact Na. } { reflexivity. }
        set (body := join (st ", ") (map show args)) in *.
        exists (TId id :: TP c_lt (next_punct ((body ++ st ">") ++ k2)) :: us ++ [TP c_gt (next_punct k2)]). split; [constructor; exact Hus|].
        change (seg_text show (SSeg id (Some (GParsed args)) false)) with (id ++ [c_lt] ++ body ++ [c_gt]).
        change (TId id :: TP c_lt (next_punct ((body ++ st ">") ++ k2)) :: us ++ [TP c_gt (next_punct k2)])
          with ([TId id] ++ [TP c_lt (next_punct ((body ++ st ">") ++ k2))] ++ us ++ [TP c_gt (next_punct k2)]).
        apply lexes_flat_app; [apply lexes_id; [exact So | reflexivity]|].
        apply lexes_flat_app; [apply lexes_punct; reflexivity|].
        apply lexes_flat_app; [exact HL | apply lexes_punct; reflexivity].
      - destruct Hg.
      - exists [TId id]. split; [constructor|]. cbn [seg_text]. rewrite app_nil_r. apply lexes_id; [exact So | exact Hk2]. }
    destruct G as (us & Hus & HL). exists us. split; [constructor; exact Hus | exact HL].
Qed.

Lemma tokenize_show t : wf t -> full t -> exists ts, tk t ts /\ tokenize (show t) = Ok ts.
Proof.
  intros W F. destruct (show_tk t W F [] Logic.I) as (ts & Ht & HL). exists ts. split; [exact Ht|].
  unfold tokenize. specialize (HL [] eq_refl). rewrite !app_nil_r in HL. rewrite HL. cbn [bind].
  rewrite <- (app_nil_r (flat ts)), build_flat. cbn [build]. rewrite app_nil_r, rev_involutive. reflexivity.
Qed.
(** A well-formed type is read back from its printed form. *)
Theorem parse_show t : wf t -> full t -> parse_type (show t) = Ok t.
Proof.
  intros W F. destruct (tokenize_show t W F) as (ts & Ht & E). unfold parse_type. rewrite E. cbn [bind].
  pose proof (parse_tk (S (S (trees_size ts))) t ts [] Ht W ltac:(lia) (or_introl Logic.I)) as Hp.
  rewrite app_nil_r in Hp. rewrite Hp. reflexivity.
Qed.
