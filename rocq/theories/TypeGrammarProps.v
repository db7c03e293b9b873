(** C122: type names are read as the language writes them. *)
From Coq Require Import Ascii String List ZArith NArith Lia Bool.
From Verif Require Import Base NumText TypesModel TypeTextModel TypeTextSpec TypeTextProofs TypeTextParse TypeTextLex TypeGrammar TypeGrammarProofs.
Import ListNotations.
Open Scope Z_scope.

(** ** What a compound name means follows from what its parts mean *)
Definition meaning (s : str) (l : layout) : Prop := typename_parse [] s = Ok l.
Lemma written_meaning t s : writes t s -> meaning s (as_layout t).
Proof. intros W. unfold meaning, typename_parse. cbn [full_name]. rewrite (written_type_read_partial t s W). reflexivity. Qed.
Lemma meaning_of t s l : writes t s -> meaning s l -> l = as_layout t.
Proof. intros W M. pose proof (written_meaning t s W) as Q. unfold meaning in *. congruence. Qed.
Lemma blank_space : blank 32%N.
Proof. left. reflexivity. Qed.
Lemma not_joint s : (forall c s', s = c :: s' -> ~ mark_char c) -> joint_to s false.
Proof. intros H. split; [discriminate|]. intros (c & s' & E & M). contradiction (H c s' E M). Qed.
Ltac name_word_ := eexists _, _; split; [reflexivity|]; split; [rewrite digit_is; discriminate | repeat (apply Forall_cons; [apply word_char_is; reflexivity|]); apply Forall_nil].
Ltac not_mark := apply not_joint; let c := fresh in let q := fresh in let E := fresh in let M := fresh in intros c q E M; cbn in E; injection E as <- _; vm_compute in M; repeat destruct M as [M | M]; try discriminate M; exact M.
Ltac ends_ := let H := fresh in hnf; intros H; apply word_char_is in H; vm_compute in H; discriminate H.
Lemma joint_any s : exists j, joint_to s j.
Proof.
  destruct s as [|c s]; [exists false; apply not_joint; discriminate|]. destruct (is_punct c) eqn:E.
  - exists true. split; [intros _; exists c, s; split; [reflexivity | now apply mark_is] | reflexivity].
  - exists false. apply not_joint. intros c' s' Q M. injection Q as <- <-. apply mark_is in M. congruence.
Qed.
Lemma mark_amp : mark_char (ch "&"). Proof. apply mark_is. reflexivity. Qed.
Lemma mark_star : mark_char (ch "*"). Proof. apply mark_is. reflexivity. Qed.
Lemma mark_comma : mark_char (ch ","). Proof. apply mark_is. reflexivity. Qed.
Lemma mark_semi : mark_char (ch ";"). Proof. apply mark_is. reflexivity. Qed.
Lemma mark_minus : mark_char (ch "-"). Proof. apply mark_is. reflexivity. Qed.
Lemma mark_gt : mark_char (ch ">"). Proof. apply mark_is. reflexivity. Qed.
Lemma mark_lt : mark_char (ch "<"). Proof. apply mark_is. reflexivity. Qed.

Lemma pointer_written (m : bool) t s : writes t s -> writes (YPtr m t) (st (if m then "*mut " else "*const ") ++ s).
Proof.
  intros (ts & Sp & R). exists (TP (ch "*") false :: TId (st (if m then "mut" else "const")) :: ts). split; [|destruct m; constructor; exact R].
  destruct m.
  - change (st "*mut " ++ s) with (ch "*" :: st "mut" ++ 32%N :: s). apply sp_mark; [exact mark_star | not_mark|]. apply sp_name; [name_word_ | ends_|]. apply sp_blank; [exact blank_space | exact Sp].
  - change (st "*const " ++ s) with (ch "*" :: st "const" ++ 32%N :: s). apply sp_mark; [exact mark_star | not_mark|]. apply sp_name; [name_word_ | ends_|]. apply sp_blank; [exact blank_space | exact Sp].
Qed.
Theorem pointer_means : forall t s l (m : bool), writes t s -> meaning s l -> meaning (st (if m then "*mut " else "*const ") ++ s) (LPointer m (td0 l)).
Proof. intros t s l m W M. rewrite (meaning_of t s l W M). exact (written_meaning _ _ (pointer_written m t s W)). Qed.
Lemma reference_written t s : referable t -> writes t s -> writes (YRef false t) (st "&" ++ s).
Proof. intros F (ts & Sp & R). destruct (joint_any s) as (j & J). exists (TP (ch "&") j :: ts). split; [apply sp_mark; [exact mark_amp | exact J | exact Sp] | constructor; assumption]. Qed.
Lemma mutable_written t s : writes t s -> writes (YRef true t) (st "&mut " ++ s).
Proof.
  intros (ts & Sp & R). exists (TP (ch "&") false :: TId (st "mut") :: ts). split; [|constructor; exact R].
  change (st "&mut " ++ s) with (ch "&" :: st "mut" ++ 32%N :: s). apply sp_mark; [exact mark_amp | not_mark|]. apply sp_name; [name_word_ | ends_|]. apply sp_blank; [exact blank_space | exact Sp].
Qed.
Theorem reference_means : forall t s l, writes t s -> meaning s l -> meaning (st "&mut " ++ s) (LReference true (td0 l)) /\ (referable t -> meaning (st "&" ++ s) (LReference false (td0 l))).
Proof.
  intros t s l W M. rewrite (meaning_of t s l W M). split; [exact (written_meaning _ _ (mutable_written t s W))|]. intros F. exact (written_meaning _ _ (reference_written t s F W)).
Qed.
Lemma spelled_then ts s : spelled ts s -> forall us k, spelled us k -> apart_from k -> spelled (ts ++ us) (s ++ k).
Proof.
  induction 1 as [|c ts s B _ IH|w ts s W E _ IH|w ts s W E _ IH|c j ts s M J _ IH|d inner a ts s Ha _ Hs IHs]; intros us k Hk A.
  - exact Hk.
  - cbn [app]. apply sp_blank; [exact B | exact (IH us k Hk A)].
  - rewrite <- app_assoc. cbn [app]. apply sp_name; [exact W | | exact (IH us k Hk A)]. pose proof (ends_no_word s k E A) as Q. destruct (s ++ k) as [|c r]; [exact Logic.I|]. cbn in Q |- *. rewrite word_char_is. congruence.
  - rewrite <- app_assoc. cbn [app]. apply sp_number; [exact W | | exact (IH us k Hk A)]. pose proof (ends_no_word s k E A) as Q. destruct (s ++ k) as [|c r]; [exact Logic.I|]. cbn in Q |- *. rewrite word_char_is. congruence.
  - cbn [app]. apply sp_mark; [exact M | | exact (IH us k Hk A)]. destruct s as [|c' s].
    + cbn [app]. split.
      * intros ->. destruct (proj1 J eq_refl) as (x & y & Q & _). discriminate Q.
      * intros (x & y & -> & Mx). apply mark_is in Mx. destruct A as [_ A]. congruence.
    + cbn [app]. split.
      * intros Hj. destruct (proj1 J Hj) as (x & y & Q & Mx). injection Q as <- <-. eauto.
      * intros (x & y & Q & Mx). injection Q as <- <-. apply (proj2 J). eauto.
  - cbn [app]. rewrite <- app_assoc. cbn [app]. apply sp_group; [exact Ha | exact (IHs us k Hk A)].
Qed.
Theorem slice_means : forall t s l, writes t s -> meaning s l -> meaning (st "&[" ++ s ++ st "]") (LSlice (td0 l) 0 0).
Proof.
  intros t s l W M. rewrite (meaning_of t s l W M). apply (written_meaning (YSlice t)). destruct W as (ts & Sp & R). exists [TP (ch "&") false; TG Brack ts]. split; [|constructor; exact R].
  change (st "&[" ++ s ++ st "]") with (ch "&" :: opening Brack :: s ++ closing Brack :: []). apply sp_mark; [exact mark_amp | not_mark|]. apply sp_group; [exact Sp | apply sp_end].
Qed.
Lemma digits_number n : 0 <= n -> number_word (dec n).
Proof.
  intros H. unfold dec. assert ((n <? 0) = false) as -> by lia. pose proof (dec_nat_digits n H) as D. pose proof (dec_nat_nonempty n) as Ne. destruct (dec_nat n) as [|c w]; [congruence|].
  exists c, w. split; [reflexivity|]. rewrite forallb_forall in D. split; [apply digit_is, D; left; reflexivity|]. apply Forall_forall. intros x Hx. apply word_char_is, digit_word, D, Hx.
Qed.

(** The spacing of a type's last mark does not matter. *)
Fixpoint with_last (b : bool) (ts : list tree) : list tree :=
  match ts with [] => [] | [TP c _] => [TP c b] | t :: r => t :: with_last b r end.
Lemma with_last_cons b t r : r <> [] -> with_last b (t :: r) = t :: with_last b r.
Proof. intros H. destruct r as [|u r]; [congruence|]. destruct t; reflexivity. Qed.
Lemma with_last_app b ts us : us <> [] -> with_last b (ts ++ us) = ts ++ with_last b us.
Proof. intros H. induction ts as [|t ts IH]; [reflexivity|]. cbn [app]. rewrite with_last_cons, IH; [reflexivity|]. intros E. apply app_eq_nil in E. tauto. Qed.
Lemma with_last_ne b ts : ts <> [] -> with_last b ts <> [].
Proof. destruct ts as [|[] [|]]; try congruence; discriminate. Qed.
Lemma separated_tokens {A} (R : A -> list tree -> Prop) D l us : separated R D l us -> (forall a ts, R a ts -> ts <> []) -> us <> [].
Proof. intros H Ne. destruct H as [a ts Ha|a l ts ds us Ha Hd Hs]; [exact (Ne a ts Ha)|]. intros E. apply app_eq_nil in E. destruct E as [E _]. exact (Ne a ts Ha E). Qed.
Lemma separated_last {A} (R : A -> list tree -> Prop) D b l us : separated R D l us -> (forall a ts, R a ts -> ts <> []) ->
  (forall a ts, R a ts -> (trees_size ts <= trees_size us)%nat -> R a (with_last b ts)) -> separated R D l (with_last b us).
Proof.
  induction 1 as [a ts Ha|a l ts ds us Ha Hd Hs IH]; intros Ne HR.
  - apply se_one, HR; [exact Ha | lia].
  - pose proof (separated_tokens R D l us Hs Ne) as Nu. rewrite !with_last_app by (try exact Nu; intros E; apply app_eq_nil in E; tauto).
    apply se_more; [exact Ha | exact Hd|]. apply IH; [exact Ne|]. intros a' ts' Ha' L. apply HR; [exact Ha'|]. rewrite !trees_size_app. lia.
Qed.
Lemma segment_ne s us : reads_segment s us -> us <> [].
Proof. intros H. destruct (segment_begins s us [] H) as (h & tl & -> & _). discriminate. Qed.
Lemma shim_last b shim zs : reads_shim shim zs -> with_last b zs = zs.
Proof. intros []; reflexivity. Qed.
Lemma segment_last b s us : reads_segment s us -> reads_segment s (with_last b us).
Proof.
  intros H. assert (Z : forall c j shim zs, reads_shim shim zs -> exists j', with_last b (TP c j :: zs) = TP c j' :: zs).
  { intros c j shim zs [|j0]; [exists b | exists j]; reflexivity. }
  destruct H as [id shim zs Hk Hz|id args us j1 j2 shim zs Hk Ha Hz|id us w o ts j1 j2 shim zs Hk Hb Ho Hz|o ts j1 j2 Ha| |j w k Hw].
  - destruct Hz; [apply (S_name id false); [exact Hk | constructor] | apply (S_name id true); [exact Hk | constructor]].
  - cbn [app]. rewrite with_last_cons by discriminate. rewrite with_last_cons by (intros E; apply app_eq_nil in E; destruct E as [_ E]; discriminate E). rewrite with_last_app by discriminate. destruct (Z (ch ">") j2 shim zs Hz) as (j' & E). rewrite E. apply (S_args id args us j1 j'); assumption.
  - cbn [app]. rewrite with_last_cons by discriminate. rewrite with_last_cons by (intros E; apply app_eq_nil in E; destruct E as [_ E]; discriminate E). rewrite with_last_app by discriminate. destruct (Z (ch ">") j2 shim zs Hz) as (j' & E). rewrite E. apply (S_const id us w o ts j1 j'); assumption.
  - rewrite with_last_cons by (intros E; apply app_eq_nil in E; destruct E as [_ E]; discriminate E). rewrite with_last_app by discriminate. cbn [with_last]. apply (S_qualified o ts j1 b). exact Ha.
  - exact S_vtable.
  - exact (S_impl j w k Hw).
Qed.
Lemma reads_last b : forall n t ts, (trees_size ts <= n)%nat -> reads t ts -> reads t (with_last b ts).
Proof.
  induction n as [|n IH]; intros t ts Hn H; [exfalso; pose proof (size_pos ts (reads_ne t ts H)); lia|].
  assert (Sep : forall c l us, separated reads (by_mark c) l us -> (trees_size us <= n)%nat -> separated reads (by_mark c) l (with_last b us)).
  { intros c l us Hs Hu. apply separated_last; [exact Hs | exact reads_ne|]. intros a ts' Ha L. apply IH; [lia | exact Ha]. }
  assert (Res : forall ret rs, reads_result ret rs -> (trees_size rs <= n)%nat -> rs = [] \/ rs <> [] /\ reads_result ret (with_last b rs)).
  { intros ret rs [|r ts' j Hr] Hu; [left; reflexivity|]. right. split; [discriminate|]. pose proof (reads_ne r ts' Hr) as Nr. rewrite with_last_cons by discriminate. rewrite with_last_cons by exact Nr. apply R_arrow. apply IH; [rewrite !trees_size_cons in Hu; cbn in Hu; lia | exact Hr]. }
  destruct H as [j|j|t ts j H|t ts j F H|t ts j H|t ts j H|t ts j H|t ts H|t ts j k w H Hw|t ts j u us H Hu|args us ret rs Ha Hr2|args us ret rs Ha Hr2|l us Fp Hl| |t ts j H|a a2 l us H|segs us H];
    try (constructor; assumption).
  - rewrite with_last_cons by (exact (reads_ne _ _ H)). apply R_ref; [exact F|]. apply IH; [rewrite trees_size_cons in Hn; cbn in Hn; lia | exact H].
  - rewrite with_last_cons by discriminate. rewrite with_last_cons by (exact (reads_ne _ _ H)). apply R_refmut. apply IH; [rewrite !trees_size_cons in Hn; cbn in Hn; lia | exact H].
  - rewrite with_last_cons by discriminate. rewrite with_last_cons by (exact (reads_ne _ _ H)). apply R_ptr. apply IH; [rewrite !trees_size_cons in Hn; cbn in Hn; lia | exact H].
  - rewrite with_last_cons by discriminate. rewrite with_last_cons by (exact (reads_ne _ _ H)). apply R_ptrmut. apply IH; [rewrite !trees_size_cons in Hn; cbn in Hn; lia | exact H].
  - rewrite !trees_size_cons in Hn. cbn [tree_size] in Hn. rewrite with_last_cons by discriminate. destruct (Res ret rs Hr2 ltac:(lia)) as [-> | [Ne R2]]; [constructor; assumption|]. rewrite with_last_cons by exact Ne. constructor; assumption.
  - rewrite !trees_size_cons in Hn. cbn [tree_size] in Hn. rewrite with_last_cons by discriminate. rewrite with_last_cons by discriminate. destruct (Res ret rs Hr2 ltac:(lia)) as [-> | [Ne R2]]; [constructor; assumption|]. rewrite with_last_cons by exact Ne. constructor; assumption.
  - rewrite trees_size_cons in Hn. cbn [tree_size] in Hn. rewrite with_last_cons by (exact (separated_tokens _ _ _ _ Hl reads_ne)). apply R_dyn; [exact Fp|]. apply Sep; [exact Hl | lia].
  - apply R_path. apply separated_last; [exact H | exact segment_ne|]. intros s vs Hs _. apply segment_last, Hs.
Qed.
Lemma spelled_nil ts : spelled ts [] -> ts = [].
Proof.
  intros H. remember [] as s eqn:E. destruct H as [|c ts s B _|w ts s (c & w' & -> & _) _ _|w ts s (c & w' & -> & _) _ _|c j ts s M J Hs|d inner a ts s Ha Hs]; [reflexivity | discriminate E..].
Qed.
(** A type's text followed by other text. *)
Lemma spelled_before ts s : spelled ts s -> forall us k, spelled us k -> word_ends k -> exists ts', spelled (ts' ++ us) (s ++ k) /\ (ts' = ts \/ exists b, ts' = with_last b ts).
Proof.
  induction 1 as [|c ts s B _ IH|w ts s W E _ IH|w ts s W E _ IH|c j ts s M J Hs IH|d inner a ts s Ha _ Hs IHs]; intros us k Hk A.
  - exists []. split; [exact Hk | left; reflexivity].
  - destruct (IH us k Hk A) as (ts' & S' & Q). exists ts'. split; [apply sp_blank; [exact B | exact S'] | exact Q].
  - destruct (IH us k Hk A) as (ts' & S' & Q). exists (TId w :: ts'). split.
    + rewrite <- app_assoc. cbn [app]. apply sp_name; [exact W | | exact S']. destruct s; [exact A | exact E].
    + destruct Q as [-> | (b & ->)]; [left; reflexivity|]. right. exists b. destruct ts; reflexivity.
  - destruct (IH us k Hk A) as (ts' & S' & Q). exists (TLit w :: ts'). split.
    + rewrite <- app_assoc. cbn [app]. apply sp_number; [exact W | | exact S']. destruct s; [exact A | exact E].
    + destruct Q as [-> | (b & ->)]; [left; reflexivity|]. right. exists b. destruct ts; reflexivity.
  - destruct s as [|c' s].
    + cbn [app]. assert (En : ts = []) by (exact (spelled_nil ts Hs)). subst ts. destruct (joint_any k) as (j' & J'). exists [TP c j']. split; [apply sp_mark; assumption | right; exists j'; reflexivity].
    + destruct (IH us k Hk A) as (ts' & S' & Q). exists (TP c j :: ts'). split.
      * cbn [app]. apply sp_mark; [exact M | | exact S']. split.
        -- intros Hj. destruct (proj1 J Hj) as (x & y & Q' & Mx). injection Q' as <- <-. eauto.
        -- intros (x & y & Q' & Mx). injection Q' as <- <-. apply (proj2 J). eauto.
      * destruct Q as [-> | (b & ->)]; [left; reflexivity|]. destruct ts as [|t ts]; [left; reflexivity|]. right. exists b. reflexivity.
  - destruct (IHs us k Hk A) as (ts' & S' & Q). exists (TG d inner :: ts'). split.
    + cbn [app]. rewrite <- app_assoc. cbn [app]. apply sp_group; [exact Ha | exact S'].
    + destruct Q as [-> | (b & ->)]; [left; reflexivity|]. right. exists b. destruct ts; reflexivity.
Qed.
Lemma writes_before t s : writes t s -> forall us k, spelled us k -> word_ends k -> exists ts, spelled (ts ++ us) (s ++ k) /\ reads t ts.
Proof.
  intros (ts & Sp & R) us k Hk A. destruct (spelled_before ts s Sp us k Hk A) as (ts' & S' & [-> | (b & ->)]); [eauto|].
  exists (with_last b ts). split; [exact S'|]. exact (reads_last b (trees_size ts) t ts (le_n _) R).
Qed.
Theorem array_means : forall t s l n, writes t s -> meaning s l -> 0 <= n < 2 ^ 64 -> meaning (st "[" ++ s ++ st "; " ++ dec n ++ st "]") (LArray (td0 l) n).
Proof.
  intros t s l n W M Hn. rewrite (meaning_of t s l W M). apply (written_meaning (YArray t (Some (AFixed n)))).
  assert (S0 : spelled [TP (ch ";") false; TLit (dec n)] (ch ";" :: 32%N :: dec n)).
  { apply sp_mark; [exact mark_semi | not_mark|]. apply sp_blank; [exact blank_space|]. rewrite <- (app_nil_r (dec n)) at 2. apply sp_number; [apply digits_number; lia | exact Logic.I | apply sp_end]. }
  destruct (writes_before t s W _ _ S0 ltac:(ends_)) as (ts & Sp & R). exists [TG Brack (ts ++ [TP (ch ";") false; TLit (dec n)])]. split.
  - replace (st "[" ++ s ++ st "; " ++ dec n ++ st "]") with (opening Brack :: (s ++ ch ";" :: 32%N :: dec n) ++ closing Brack :: []) by (rewrite <- app_assoc; reflexivity). apply sp_group; [exact Sp | apply sp_end].
  - apply R_arrayn; [exact R|]. unfold dec. assert ((n <? 0) = false) as -> by lia. rewrite parse_u64_dec by lia. destruct (n <=? u64_max) eqn:E; [reflexivity|]. unfold u64_max in E. apply Z.leb_gt in E. lia.
Qed.
(** Several names separated by commas. *)
Lemma list_written : forall parts ts, Forall2 (fun s t => writes t s) parts ts -> parts <> [] -> exists us, spelled us (Base.join (st ", ") parts) /\ separated reads (by_mark (ch ",")) ts us.
Proof.
  induction 1 as [|s t parts ts W F IH]; intros Ne; [congruence|]. clear Ne. destruct parts as [|s2 parts].
  - inversion F; subst. destruct W as (us & Sp & R). exists us. split; [exact Sp | apply se_one, R].
  - destruct (IH ltac:(discriminate)) as (us & Sp & Se).
    assert (S0 : spelled (TP (ch ",") false :: us) (ch "," :: 32%N :: Base.join (st ", ") (s2 :: parts))) by (apply sp_mark; [exact mark_comma | not_mark | apply sp_blank; [exact blank_space | exact Sp]]).
    destruct (writes_before t s W _ _ S0 ltac:(ends_)) as (vs & Sv & R). exists (vs ++ TP (ch ",") false :: us). split; [exact Sv|].
    apply (se_more reads (by_mark (ch ",")) t ts vs [TP (ch ",") false] us R); [eexists; reflexivity | exact Se].
Qed.
Lemma meanings parts ts ls : Forall2 (fun s t => writes t s) parts ts -> Forall2 meaning parts ls -> ls = map as_layout ts.
Proof. intros F. revert ls. induction F as [|s t parts ts W F IH]; intros ls M; inversion M; subst; [reflexivity|]. cbn [map]. f_equal; [eapply meaning_of; eassumption | apply IH; assumption]. Qed.
Lemma Forall2_len {A B} (R : A -> B -> Prop) l m : Forall2 R l m -> length l = length m.
Proof. induction 1; cbn [length]; congruence. Qed.
Theorem tuple_means : forall parts ts ls, Forall2 (fun s t => writes t s) parts ts -> Forall2 meaning parts ls -> (2 <= length parts)%nat ->
  meaning (st "(" ++ Base.join (st ", ") parts ++ st ")") (LTuple (map (fun l => (0, td0 l)) ls) 0).
Proof.
  intros parts ts ls F M L. rewrite (meanings parts ts ls F M). destruct (list_written parts ts F ltac:(destruct parts; [cbn in L; lia | discriminate])) as (us & Sp & Se).
  assert (Lt : (2 <= length ts)%nat) by (rewrite <- (Forall2_len _ _ _ F); exact L). destruct ts as [|a [|b ts]]; [cbn in Lt; lia | cbn in Lt; lia|].
  pose proof (written_meaning (YTuple (a :: b :: ts)) (st "(" ++ Base.join (st ", ") parts ++ st ")")) as Q. cbn [as_layout] in Q. rewrite map_map. apply Q.
  exists [TG Par us]. split; [apply (sp_group Par us _ [] []); [exact Sp | apply sp_end] | apply R_tuple, Se].
Qed.
Theorem function_means : forall parts ts ls s t l, Forall2 (fun s t => writes t s) parts ts -> Forall2 meaning parts ls -> parts <> [] -> writes t s -> meaning s l ->
  meaning (st "fn(" ++ Base.join (st ", ") parts ++ st ") -> " ++ s) (LFunction (Some (td0 l)) (map td0 ls)) /\ meaning (st "fn(" ++ Base.join (st ", ") parts ++ st ")") (LFunction None (map td0 ls)).
Proof.
  intros parts ts ls s t l F M Ne W Ms. rewrite (meanings parts ts ls F M), (meaning_of t s l W Ms). destruct (list_written parts ts F Ne) as (us & Sp & Se). rewrite map_map. split.
  - apply (written_meaning (YFn false ts (Some t))). destruct W as (vs & Sv & R). exists (TId (st "fn") :: TG Par us :: TP (ch "-") true :: TP (ch ">") false :: vs). split; [|apply R_fn; [exact Se | apply R_arrow, R]].
    change (st "fn(" ++ Base.join (st ", ") parts ++ st ") -> " ++ s) with (st "fn" ++ (opening Par :: Base.join (st ", ") parts ++ closing Par :: 32%N :: ch "-" :: ch ">" :: 32%N :: s)). apply sp_name; [name_word_ | ends_|]. apply sp_group; [exact Sp|].
    apply sp_blank; [exact blank_space|]. apply sp_mark; [exact mark_minus | split; [intros _; eexists _, _; split; [reflexivity | exact mark_gt] | reflexivity]|]. apply sp_mark; [exact mark_gt | not_mark|]. apply sp_blank; [exact blank_space | exact Sv].
  - apply (written_meaning (YFn false ts None)). exists [TId (st "fn"); TG Par us]. split; [|apply R_fn; [exact Se | constructor]].
    change (st "fn(" ++ Base.join (st ", ") parts ++ st ")") with (st "fn" ++ (opening Par :: Base.join (st ", ") parts ++ closing Par :: [])). apply sp_name; [name_word_ | ends_|]. apply sp_group; [exact Sp | apply sp_end].
Qed.
Print Assumptions written_type_read_partial.
Print Assumptions function_means.

(** ** What the grammar leaves out because the code reads it otherwise *)
Theorem written_type_read_refuted :
  (* a function without parameters gets one *)
  meaning (st "fn()") (LFunction None [td0 (LAlias [])]) /\
  (* parentheses make a tuple *)
  meaning (st "&(dyn A + B)") (LReference false (td0 (LTuple [(0, td0 (LAlias (st "dyn A + B")))] 0))) /\
  (* a trailing comma adds an element *)
  meaning (st "(u8, u16,)") (LTuple [(0, td0 (LUInt 1)); (0, td0 (LUInt 2)); (0, td0 (LAlias []))] 0) /\
  (* a slice behind a mutable reference is an array of length 0 *)
  meaning (st "&mut [u8]") (LReference true (td0 (LArray (td0 (LUInt 1)) 0))) /\
  (* closures have no name that can be read *)
  (exists m, typename_parse [] (st "a::{closure_env#0}") = Err m).
Proof. repeat apply conj; try (vm_compute; reflexivity). eexists. vm_compute. reflexivity. Qed.

(** ** Texts that meet the hypotheses *)
Ltac mark_ := apply sp_mark; [apply mark_is; reflexivity | first [not_mark | split; [intros _; eexists _, _; split; [reflexivity | apply mark_is; reflexivity] | reflexivity]]|].
Ltac name_ n := match goal with |- spelled _ ?s => change s with (st n ++ skipn (List.length (st n)) s) end; cbn [List.length st skipn]; apply sp_name; [name_word_ | first [ends_ | exact Logic.I]|].
Example u8_written : writes (YPath [SSeg (st "u8") None false]) (st "u8").
Proof.
  exists [TId (st "u8")]. split; [change (st "u8") with (st "u8" ++ []) at 2; apply sp_name; [name_word_ | exact Logic.I | apply sp_end]|].
  apply R_path, se_one. apply (S_name (st "u8") false []); [intros H; repeat destruct H as [H | H]; try discriminate H; exact H | constructor].
Qed.
Example pointer_example : meaning (st "*const *mut u8") (LPointer false (td0 (LPointer true (td0 (LUInt 1))))).
Proof. exact (pointer_means _ (st "*mut u8") _ false (pointer_written true _ _ u8_written) (pointer_means _ (st "u8") _ true u8_written eq_refl)). Qed.
Example function_example : meaning (st "fn(*const u8, [u8; 4]) -> u8") (LFunction (Some (td0 (LUInt 1))) [td0 (LPointer false (td0 (LUInt 1))); td0 (LArray (td0 (LUInt 1)) 4)]).
Proof. vm_compute. reflexivity. Qed.
(** [ArrayVec < u8, 16 >] and [<T as a::B>::Item] *)
Example const_written : exists g, writes (YPath [SSeg (st "ArrayVec") (Some (GRaw g)) false]) (st "ArrayVec < u8, 16 >").
Proof.
  eexists. exists (TId (st "ArrayVec") :: TP (ch "<") false :: ([TId (st "u8"); TP (ch ",") false] ++ [TLit (st "16")]) ++ [TP (ch ">") false]). split.
  - cbn [app]. change (st "ArrayVec < u8, 16 >") with (st "ArrayVec" ++ st " < u8, 16 >"). apply sp_name; [name_word_ | ends_|].
    apply sp_blank; [exact blank_space|]. apply sp_mark; [exact mark_lt | not_mark|]. apply sp_blank; [exact blank_space|].
    apply (sp_name (st "u8") _ (st ", 16 >")); [name_word_ | ends_|]. apply sp_mark; [exact mark_comma | not_mark|]. apply sp_blank; [exact blank_space|].
    apply (sp_number (st "16") _ (st " >")); [eexists _, _; split; [reflexivity|]; split; [apply digit_is; reflexivity | repeat (apply Forall_cons; [apply word_char_is; reflexivity|]); apply Forall_nil] | ends_|].
    apply sp_blank; [exact blank_space|]. apply sp_mark; [exact mark_gt | apply not_joint; discriminate | apply sp_end].
  - apply R_path, se_one. apply (S_const (st "ArrayVec") [TId (st "u8"); TP (ch ",") false] (st "16") [TId (st "u8"); TP (ch ",") false; TLit (st "16")] [] false false false []).
    + intros H; repeat destruct H as [H | H]; try discriminate H; exact H.
    + apply (B_next [YPath [SSeg (st "u8") None false]] [TId (st "u8")] false). apply se_one. apply R_path, se_one. apply (S_name (st "u8") false []); [intros H; repeat destruct H as [H | H]; try discriminate H; exact H | constructor].
    + apply an_token; [discriminate|]. apply an_token; [intros c j E; injection E as <- _; split; discriminate|]. apply an_token; [discriminate|]. apply an_end.
    + constructor.
Qed.
