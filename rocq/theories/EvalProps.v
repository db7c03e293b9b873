(** C45, C46, C55 and what evaluating an expression shows. *)
From Coq Require Import Ascii String List ZArith Lia Bool.
From Verif Require Import Base NumText OMap TypesModel ValueModel DataModel DataProofs AccessModel SynthModel LocModel FnModel DiscoverModel ExprModel ProcModel ProcSpec ProcProofs IoDataModel IoDataProofs EvalModel EvalSpec EvalProofs EvalDenote.
Import ListNotations.
Open Scope Z_scope.

(** ** C45: what evaluation does to the target *)
(** Whatever the client answers, evaluating an expression sends only events the expression's own calls account for. *)
Theorem evaluation_sends_only_permitted : forall D e pc, sends_only (permitted D e) (e_val (evaluate D e) pc) /\ sends_only (permitted D e) (e_ref (evaluate D e) pc).
Proof. intros D e pc. destruct (all_permitted D e) as (A & B & _). split; apply only_sends; [apply B | apply A]. Qed.
Print Assumptions evaluation_sends_only_permitted.
(** Without a call in the expression the target is only looked at. *)
Theorem inspection_only_looks : forall D e pc, no_calls e -> sends_only looks (e_val (evaluate D e) pc) /\ sends_only looks (e_ref (evaluate D e) pc).
Proof.
  intros D e pc H. assert (K : forall q, permitted D e q -> looks q).
  { intros q P. inversion P as [ | | |b m args t ms dm base xs sz Hp|f args df fs xs sz Hp|c args v k Hp Hc|c args v a d Hp Hc]; subst; try exact I.
    - destruct (H _ Hp).
    - destruct (H _ Hp).
    - specialize (H _ Hp). destruct Hc as [(b & m & ->)|(f & ->)]; destruct H.
    - specialize (H _ Hp). destruct Hc as [(b & m & ->)|(f & ->)]; destruct H. }
  destruct (evaluation_sends_only_permitted D e pc) as [A B]. split; intros S c s; eapply Forall_impl; try (apply A); try (apply B); intros x; apply K.
Qed.
Print Assumptions inspection_only_looks.

(** ** What evaluation shows *)
(** Against a stopped target, evaluating an expression without calls ends with exactly the result the expression denotes
    there, or fails if it denotes none; the target is as before. *)
Theorem evaluation_shows_the_target : forall S (c : client S) s D pc sp fp e,
  steady c s -> fst (c s GetFrameInfo) = Replied (FrameInfo pc sp fp) -> no_calls e ->
  (forall r, fst (outcome c (e_val (evaluate D e) None) s) = Ok r <-> shows_as c s D pc e r) /\
  after c (e_val (evaluate D e) None) s = s.
Proof.
  intros S c s D pc sp fp e St F N. destruct (as_val _ _ _ _ _ _ (all_denote c s D pc St (ex_intro _ sp (ex_intro _ fp F)) e N)) as (r & Y & K).
  destruct (Y None (or_introl eq_refl)) as (pc' & _ & Y1 & Y2). rewrite Y1. cbn [fst]. split; [exact K | exact Y2].
Qed.
Print Assumptions evaluation_shows_the_target.
Theorem places_are_found : forall S (c : client S) s D pc sp fp e,
  steady c s -> fst (c s GetFrameInfo) = Replied (FrameInfo pc sp fp) -> no_calls e ->
  (forall p, fst (outcome c (e_ref (evaluate D e) None) s) = Ok p <-> place c s D pc e p) /\
  after c (e_ref (evaluate D e) None) s = s.
Proof.
  intros S c s D pc sp fp e St F N. destruct (as_ref _ _ _ _ _ _ (all_denote c s D pc St (ex_intro _ sp (ex_intro _ fp F)) e N)) as (r & Y & K).
  destruct (Y None (or_introl eq_refl)) as (pc' & _ & Y1 & Y2). rewrite Y1. cbn [fst]. split; [exact K | exact Y2].
Qed.
Print Assumptions places_are_found.
(** A synthetic method on a place shows what it computes from memory, without running anything. *)
Theorem synthetic_methods_shown : forall S (c : client S) s D pc sp fp b m p,
  steady c s -> fst (c s GetFrameInfo) = Replied (FrameInfo pc sp fp) -> no_calls b -> place c s D pc b p -> In m (synthetic_methods (layOf (snd p))) ->
  (forall r, fst (outcome c (e_val (evaluate D (EMethodCall b m [])) None) s) = Ok r <->
     exists v, synthetic (shown_env c s (g_env D)) (fst p) (layOf (snd p)) m = Ok v /\ r = EResult (format_value v) (value_type v)) /\
  after c (e_val (evaluate D (EMethodCall b m [])) None) s = s.
Proof.
  intros S c s D pc sp fp b m p St F N P I. pose proof (all_denote c s D pc St (ex_intro _ sp (ex_intro _ fp F)) b N) as Hb.
  assert (X : settles c s pc (e_val (evaluate D (EMethodCall b m []))) (fun r => exists v, synthetic (shown_env c s (g_env D)) (fst p) (layOf (snd p)) m = Ok v /\ r = EResult (format_value v) (value_type v))).
  { cbn [evaluate e_val map]. unfold method_val.
    apply (settles_imp c s pc _ (fun r => exists q, place c s D pc b q /\ (q = p -> exists v, synthetic (shown_env c s (g_env D)) (fst p) (layOf (snd p)) m = Ok v /\ r = EResult (format_value v) (value_type v)))).
    - intros r. split.
      + intros (q & Q & H). apply H. destruct (as_ref _ _ _ _ _ _ Hb) as (x & _ & K). apply K in P. apply K in Q. congruence.
      + intros H. exists p. auto.
    - apply settles_bind; [apply (as_ref _ _ _ _ _ _ Hb)|]. intros q Q.
      assert (q = p) as -> by (destruct (as_ref _ _ _ _ _ _ Hb) as (x & _ & K); apply K in P; apply K in Q; congruence).
      assert (Sn : synthetic_name (layOf (snd p)) m = true).
      { unfold synthetic_name. apply existsb_exists. exists m. split; [exact I | apply str_eqb_refl]. }
      rewrite Sn. apply (settles_imp c s pc _ (fun r => exists v, synthetic (shown_env c s (g_env D)) (fst p) (layOf (snd p)) m = Ok v /\ r = EResult (format_value v) (value_type v))); [intros r; split; [auto | intros H; apply H; reflexivity]|].
      apply settles_bind; [apply settles_io; apply (y_synthetic S c s St (g_env D))|]. intros v _. apply settles_ret. }
  destruct X as (r & Y & K). destruct (Y None (or_introl eq_refl)) as (pc' & _ & Y1 & Y2). rewrite Y1. cbn [fst]. split; [exact K | exact Y2].
Qed.
Print Assumptions synthetic_methods_shown.

(** ** C46: expanding values *)
(** A value without pointers is left as it is, and the client is not asked anything. *)
Lemma exec_imapM_same {S A} (c : client S) (f : A -> io A) l s : Forall (fun a => exec c (f a) s = ([], Ok a, s)) l -> exec c (imapM f l) s = ([], Ok l, s).
Proof.
  induction 1 as [|a l Ha _ IH]; [reflexivity|]. cbn [imapM]. unfold ibind at 1. rewrite exec_bind, Ha. unfold ibind. rewrite exec_bind, IH. reflexivity.
Qed.
Theorem pointer_free_unchanged : forall S (c : client S) D k v s, pointer_free v -> exec c (expand D k v) s = ([], Ok v, s).
Proof.
  intros S c D k. induction k as [|k IH]; intros v s H; [reflexivity|]. cbn [expand]. destruct H as [ty x|ty l H|ty l H|ty l H|ty l H]; [reflexivity | ..].
  - unfold ibind at 1. rewrite exec_bind, exec_imapM_same; [reflexivity|]. eapply Forall_impl; [|exact H]. intros a Ha. now apply IH.
  - unfold ibind at 1. rewrite exec_bind, exec_imapM_same; [reflexivity|]. eapply Forall_impl; [|exact H]. intros a Ha. cbn beta in *. unfold ibind. rewrite exec_bind, IH by exact Ha. destruct a; reflexivity.
  - unfold ibind at 1. rewrite exec_bind, exec_imapM_same; [reflexivity|]. eapply Forall_impl; [|exact H]. intros a Ha. now apply IH.
  - unfold ibind at 1. rewrite exec_bind, exec_imapM_same; [reflexivity|]. eapply Forall_impl; [|exact H]. intros a [Ha Hb]. unfold ibind at 1. rewrite exec_bind, IH by exact Ha. unfold ibind. rewrite exec_bind, IH by exact Hb. destruct a; reflexivity.
Qed.
Print Assumptions pointer_free_unchanged.
(** Against a stopped target the result is the value unfolded to the given level, if everything on the way can be read. *)
Theorem expansion_exact : forall S (c : client S) s D k v, steady c s ->
  (forall w, outcome c (expand D k v) s = Ok w <-> unfolded c s D k v w) /\ after c (expand D k v) s = s.
Proof.
  intros S c s D k v St. destruct (y_expand c s D St k v) as [Y1 Y2]. rewrite Y1. split; [|exact Y2]. intros w. apply unfold_exact.
Qed.
Print Assumptions expansion_exact.
Lemma Forall2_in_right {A B} (R : A -> B -> Prop) l m b : Forall2 R l m -> In b m -> exists a, In a l /\ R a b.
Proof. induction 1 as [|x y l m H _ IH]; [easy|]. intros [<-|I]; [exists x; split; [now left | exact H]|]. destruct (IH I) as (a & Ia & Ra). exists a. split; [now right | exact Ra]. Qed.
Lemma under_leads E n d v p : pointer_under d v p -> leads E n v 0 d p.
Proof. induction 1; [constructor | eapply le_array | eapply le_struct | eapply le_tuple | eapply le_key | eapply le_val]; eauto. Qed.
(** A pointer still showing is at least [k] levels away from the value one started with, counting pointers followed and
    collections entered, and at most [k] pointers were followed to it. With [k] = 8: a value is followed through at most
    eight pointers, and everything nearer than eight levels is shown by its contents. *)
Theorem remaining_pointers_are_deep : forall S (c : client S) s D k v w d p, unfolded c s D k v w -> pointer_under d w p ->
  exists j, leads (shown_env c s (g_env D)) (g_fuel D) v j d p /\ (j <= k <= j + d)%nat.
Proof.
  intros S c s D k. induction k as [|k IH]; intros v w d p U P.
  - inversion U; subst. exists 0%nat. split; [now apply under_leads | lia].
  - inversion U as [|k' a t v' w' R U'|k' ty x|k' ty l l' F|k' ty l l' F|k' ty l l' F|k' ty l l' F]; subst.
    + destruct (IH _ _ _ _ U' P) as (j & L & B). exists (Datatypes.S j). split; [eapply le_follow; eauto | lia].
    + inversion P.
    + inversion P as [|d' ty' l'' v' p' I Pu| | | |]; subst. destruct (Forall2_in_right _ _ _ _ F I) as (a & Ia & Ra). destruct (IH _ _ _ _ Ra Pu) as (j & L & B). exists j. split; [eapply le_array; eauto | lia].
    + inversion P as [| |d' ty' l'' f p' I Pu| | |]; subst. destruct (Forall2_in_right _ _ _ _ F I) as (a & Ia & _ & Ra). destruct (IH _ _ _ _ Ra Pu) as (j & L & B). exists j. split; [eapply le_struct; eauto | lia].
    + inversion P as [| | |d' ty' l'' v' p' I Pu| |]; subst. destruct (Forall2_in_right _ _ _ _ F I) as (a & Ia & Ra). destruct (IH _ _ _ _ Ra Pu) as (j & L & B). exists j. split; [eapply le_tuple; eauto | lia].
    + inversion P as [| | | |d' ty' l'' e p' I Pu|d' ty' l'' e p' I Pu]; subst; destruct (Forall2_in_right _ _ _ _ F I) as (a & Ia & R1 & R2).
      * destruct (IH _ _ _ _ R1 Pu) as (j & L & B). exists j. split; [eapply le_key; eauto | lia].
      * destruct (IH _ _ _ _ R2 Pu) as (j & L & B). exists j. split; [eapply le_val; eauto | lia].
Qed.
Print Assumptions remaining_pointers_are_deep.

(** ** C46: an end, always *)
From Verif Require Import EvalTerm.
(** Let [T] be the types in play: what reading leads to from a type in [T] is in [T], and reading a value of a type in [T]
    passes through a bounded number of types before it reaches a struct, a collection or a scalar. Then reading and expanding
    come to an end with every client: whatever the memory holds, cycles included, however it changes meanwhile. *)
Theorem expansion_ends : forall D (T : tdef -> Prop), (forall l, i_resolve (g_env D) l <> Fuel) -> closed (g_env D) T -> (forall t, T t -> ends (g_env D) (g_fuel D) t) ->
  forall S (c : client S) s a t, T t -> outcome c (read_pointer D (a, t)) s <> Fuel /\ outcome c (pointer_to_result D (a, t)) s <> Fuel.
Proof.
  intros D T N C E S c s a t Ht. assert (R : lv (ptrs_in T) (read_pointer D (a, t))) by (apply (lv_read _ T N C); [exact Ht | now apply E]).
  split; [apply (lv_outcome _ _ _ c s R)|].
  apply (lv_outcome (fun _ => True) _ _ c s). eapply lv_bind; [exact R|]. intros v V. eapply lv_bind; [apply lv_expand; eassumption|]. intros w _. now apply lv_ret.
Qed.
Print Assumptions expansion_ends.

(** ** C55: a value as an index *)
(** A text that is a number: decimal digits, with an optional plus sign, or [0x] and hexadecimal digits, of at most 64 bits. *)
Definition written_number (x : str) (k : Z) : Prop :=
  0 <= k < 2 ^ 64 /\
  ((exists ds, (x = ds \/ x = ch "+" :: ds) /\ ds <> [] /\ (forall d, In d ds -> is_digit d = true) /\ digits_value 10 ds = k) \/
   (exists hs, (x = st "0x" ++ hs \/ x = st "0x+" ++ hs) /\ hs <> [] /\ (forall d, In d hs -> is_hexdigit d = true) /\ digits_value 16 hs = k)).
Lemma digits_nonneg r ds : 1 <= r -> forallb is_hexdigit ds = true -> 0 <= digits_value r ds.
Proof. intros H K. apply (fold_value_ge r ds 0); [exact H | lia | exact K]. Qed.
Lemma all_digits (f : char -> bool) ds : forallb f ds = true <-> forall d, In d ds -> f d = true.
Proof. apply forallb_forall. Qed.
Lemma parse_u64_exact x k : parse_u64 x = Some k <->
  (0 <= k < 2 ^ 64 /\ exists ds, (x = ds \/ x = ch "+" :: ds) /\ ds <> [] /\ (forall d, In d ds -> is_digit d = true) /\ digits_value 10 ds = k).
Proof.
  assert (A : forall ds, ds <> [] -> forallb is_digit ds = true -> parse_acc u64_max 10 ds 0 = if digits_value 10 ds <=? u64_max then Some (digits_value 10 ds) else None).
  { intros ds _ H. rewrite parse_acc_spec; [reflexivity | lia | unfold u64_max; lia | now apply forallb_digit_hex]. }
  assert (B : forall ds, ds <> [] -> forallb is_digit ds = true -> forall k, parse_acc u64_max 10 ds 0 = Some k <-> digits_value 10 ds = k /\ 0 <= k < 2 ^ 64).
  { intros ds N H k'. rewrite (A ds N H). pose proof (digits_nonneg 10 ds ltac:(lia) (forallb_digit_hex _ H)). unfold u64_max. destruct (_ <=? _) eqn:L; split; intros X.
    - injection X as <-. lia.
    - f_equal. lia.
    - discriminate.
    - lia. }
  unfold parse_u64. split.
  - intros H. destruct x as [|c0 r]; [discriminate|]. destruct (N.eqb c0 43) eqn:P.
    + apply N.eqb_eq in P. subst c0. destruct r as [|d r]; [discriminate|]. destruct (forallb is_digit (d :: r)) eqn:F; [|discriminate]. apply B in H; [|discriminate | exact F]. destruct H as [H L]. split; [exact L|]. exists (d :: r). repeat split; [now right | discriminate | now apply all_digits | exact H].
    + destruct (forallb is_digit (c0 :: r)) eqn:F; [|discriminate]. apply B in H; [|discriminate | exact F]. destruct H as [H L]. split; [exact L|]. exists (c0 :: r). repeat split; [now left | discriminate | now apply all_digits | exact H].
  - intros (L & ds & X & N & F & V). apply all_digits in F.
    assert (Y : (match x with c :: r => if N.eqb c 43 then r else x | [] => x end) = ds).
    { destruct X as [-> | ->]; [|reflexivity]. destruct ds as [|d r]; [reflexivity|]. cbn [forallb] in F. apply andb_true_iff in F. destruct F as [F _]. destruct (N.eqb d 43) eqn:P; [|reflexivity]. apply N.eqb_eq in P. subst. discriminate. }
    rewrite Y. destruct ds as [|d r]; [congruence|]. rewrite F. apply B; auto.
Qed.
Theorem int_of_text_exact : forall x k, int_of_text x = Ok k <-> written_number x k.
Proof.
  intros x k. unfold int_of_text, written_number. destruct (parse_u64 x) as [n|] eqn:P.
  - apply parse_u64_exact in P. destruct P as (L & ds & X & N & F & V). split.
    + intros E. injection E as <-. split; [exact L|]. left. exists ds. auto.
    + intros (Lk & [K | (hs & Y & Nh & Fh & Vh)]).
      * assert (Pk : parse_u64 x = Some k) by (apply parse_u64_exact; auto). assert (Pn : parse_u64 x = Some n) by (apply parse_u64_exact; eauto 10). congruence.
      * exfalso. assert (In (ch "x") ds). { destruct X as [<- | X]; [|destruct Y as [-> | ->]; discriminate X]. destruct Y as [-> | ->]; right; left; reflexivity. }
        apply F in H. discriminate H.
  - assert (ND : forall ds, ~ ((x = ds \/ x = ch "+" :: ds) /\ ds <> [] /\ (forall d, In d ds -> is_digit d = true) /\ digits_value 10 ds = k /\ 0 <= k < 2 ^ 64)).
    { intros ds (X & N & F & V & L). assert (parse_u64 x = Some k) by (apply parse_u64_exact; eauto 10). congruence. }
    assert (HX : starts_with x (st "0x") = true <-> exists r, x = st "0x" ++ r).
    { apply starts_with_spec. }
    assert (HD : forall hs, hs <> [] -> forallb is_hexdigit hs = true -> u64_from_digits 16 hs = Ok k <-> digits_value 16 hs = k /\ 0 <= k < 2 ^ 64).
    { intros hs N F. rewrite u64_from_digits_spec by (lia || assumption). pose proof (digits_nonneg 16 hs ltac:(lia) F). unfold u64_max. destruct (_ <=? _) eqn:L; split; intros X.
      - injection X as <-. lia.
      - f_equal. lia.
      - discriminate.
      - lia. }
    destruct (starts_with x (st "0x")) eqn:Sx.
    + destruct (proj1 HX eq_refl) as (r & ->). change (skipn 2 (st "0x" ++ r)) with r. split.
      * intros E. set (hs := match r with c :: r0 => if (c =? 43)%N then r0 else c :: r0 | [] => [] end) in E.
        assert (Hr : r = hs \/ r = ch "+" :: hs).
        { unfold hs. destruct r as [|c0 r]; [now left|]. destruct (N.eqb c0 43) eqn:Pc; [|now left]. apply N.eqb_eq in Pc. subst. now right. }
        clearbody hs. assert (Nh : hs <> []) by (intros Eh; rewrite Eh in E; discriminate E). assert (Fh : forallb is_hexdigit hs = true).
        { destruct hs as [|h hs']; [congruence|]. destruct (forallb is_hexdigit (h :: hs')); [reflexivity | discriminate E]. }
        assert (E2 : u64_from_digits 16 hs = Ok k). { destruct hs as [|h hs']; [congruence|]. rewrite Fh in E. exact E. }
        apply HD in E2; auto. destruct E2 as [V L]. split; [exact L|]. right. exists hs. repeat split; auto; [|now apply all_digits]. destruct Hr as [-> | ->]; [now left | now right].
      * intros (L & [(ds & X & N & F & V)|(hs & X & N & F & V)]); [exfalso; apply (ND ds); auto|]. apply all_digits in F.
        assert (Y : (match r with c :: r0 => if (c =? 43)%N then r0 else c :: r0 | [] => [] end) = hs).
        { assert (r = hs \/ r = ch "+" :: hs) as [-> | ->] by (destruct X as [X | X]; [left | right]; apply (f_equal (skipn 2)) in X; exact X); [|reflexivity].
          destruct hs as [|h hs']; [reflexivity|]. destruct (N.eqb h 43) eqn:Pc; [|reflexivity]. apply N.eqb_eq in Pc. subst. cbn [forallb] in F. discriminate F. }
        rewrite Y. destruct hs as [|h hs']; [congruence|]. rewrite F. apply HD; auto.
    + split; [discriminate|]. intros (L & [(ds & X & N & F & V)|(hs & X & N & F & V)]); [exfalso; apply (ND ds); auto|].
      assert (false = true); [|discriminate]. apply HX. destruct X as [-> | ->]; eexists; [reflexivity|]. instantiate (1 := ch "+" :: hs). reflexivity.
Qed.
Print Assumptions int_of_text_exact.
(** The displayed text of an integer is that integer as a number, if it is not negative and has at most 64 bits. *)
Theorem displayed_integer_is_index : forall z k, int_of_text (dec z) = Ok k <-> k = z /\ 0 <= z < 2 ^ 64.
Proof.
  intros z k. unfold dec. destruct (z <? 0) eqn:Neg.
  - rewrite int_of_text_exact. split; [|lia]. intros (_ & [(ds & X & N & F & _)|(hs & X & _)]).
    + exfalso. destruct X as [X|X]; [|discriminate X]. assert (is_digit 45%N = true) by (apply F; rewrite <- X; now left). discriminate.
    + destruct X as [X|X]; discriminate X.
  - unfold int_of_text. rewrite parse_u64_dec by lia. unfold u64_max. destruct (z <=? _) eqn:L.
    + split; [intros E; injection E as <-; lia|]. intros [-> _]. reflexivity.
    + split; [|lia]. assert (starts_with (dec_nat z) (st "0x") = false) as ->; [|discriminate].
      pose proof (dec_nat_digits z ltac:(lia)) as Hd. destruct (starts_with (dec_nat z) (st "0x")) eqn:Sx; [|reflexivity]. apply starts_with_spec in Sx. destruct Sx as (r & E). rewrite E in Hd. discriminate Hd.
Qed.
Print Assumptions displayed_integer_is_index.

Section Index.
Context {S : Type} (c : client S) (s : S) (D : dbg) (pc sp fp : Z).
Hypothesis stopped : steady c s.
Hypothesis frame : fst (c s GetFrameInfo) = Replied (FrameInfo pc sp fp).
Lemma place_unique e p q : no_calls e -> place c s D pc e p -> place c s D pc e q -> p = q.
Proof.
  intros N P Q. destruct (as_ref _ _ _ _ _ _ (all_denote c s D pc stopped (ex_intro _ sp (ex_intro _ fp frame)) e N)) as (r & _ & K). apply K in P. apply K in Q. congruence.
Qed.
(** The value displayed for a place is the one used when it serves as an index, if it is a scalar whose text is a number;
    anything else is rejected. *)
Theorem index_uses_displayed_value : forall e p ty x, no_calls e -> place c s D pc e p -> read (shown_env c s (g_env D)) (g_fuel D) (fst p) (snd p) = Ok (VScalar ty x) ->
  fst (outcome c (e_val (evaluate D e) None) s) = Ok (EResult x (tname (snd p))) /\
  (forall k, fst (outcome c (e_int (evaluate D e) None) s) = Ok k <-> written_number x k).
Proof.
  intros e p ty x N P R. pose proof (all_denote c s D pc stopped (ex_intro _ sp (ex_intro _ fp frame)) e N) as A. split.
  - destruct (evaluation_shows_the_target S c s D pc sp fp e stopped frame N) as [H _]. apply H. eapply (sh_place c s D pc e p _ (VScalar ty x)); [exact P | exact R|]. constructor.
  - intros k. destruct (as_int _ _ _ _ _ _ A) as (r & Y & K). destruct (Y None (or_introl eq_refl)) as (pc' & _ & Y1 & _). rewrite Y1. cbn [fst]. rewrite K. rewrite <- int_of_text_exact. split.
    + intros Nu. inversion Nu as [v|e' k' Nu'|e' q ty' x' k' P' R' X]; subst.
      * inversion P.
      * inversion P.
      * pose proof (place_unique _ _ _ N P P'). subst q. rewrite R in R'. injection R' as <- <-. exact X.
    + intros X. eapply nu_place; eauto.
Qed.
(** An integer variable as an index: [a[i]] is the place [a[z]], where [z] is the value displayed for [i], and nothing if
    [z] is negative. *)
Theorem variable_index_exact : forall b i p pi ty z q, no_calls b -> no_calls i -> place c s D pc b p -> is_map (layOf (snd p)) = false ->
  place c s D pc i pi -> read (shown_env c s (g_env D)) (g_fuel D) (fst pi) (snd pi) = Ok (VScalar ty (dec z)) ->
  (place c s D pc (EIndex b i) q <-> 0 <= z < 2 ^ 64 /\ place c s D pc (EIndex b (ENumber z)) q).
Proof.
  intros b i p pi ty z q Nb Ni Pb M Pi R.
  assert (NM : forall kt vt mv, layOf (snd p) <> LMap kt vt mv) by (intros kt vt mv E; rewrite E in M; discriminate M).
  assert (NU : forall k, number c s D pc i k <-> k = z /\ 0 <= z < 2 ^ 64).
  { intros k. rewrite <- displayed_integer_is_index. split.
    - intros Nu. inversion Nu as [v|e' k' Nu'|e' q' ty' x' k' P' R' X]; subst; try (inversion Pi; fail).
      pose proof (place_unique _ _ _ Ni Pi P'). subst q'. rewrite R in R'. injection R' as <- <-. exact X.
    - intros X. eapply nu_place; eauto. }
  split.
  - intros H. inversion H as [| |b' i' p' k' q' Pb' NM' Nu I|b' i' p' kt vt mv k' q' Pb' Lm _ _]; subst.
    + pose proof (place_unique _ _ _ Nb Pb Pb'). subst p'. apply NU in Nu. destruct Nu as [-> L]. split; [exact L|]. eapply pl_index; eauto. constructor.
    + pose proof (place_unique _ _ _ Nb Pb Pb'). subst p'. destruct (NM _ _ _ Lm).
  - intros [L H]. inversion H as [| |b' i' p' k' q' Pb' NM' Nu I|b' i' p' kt vt mv k' q' Pb' Lm _ _]; subst.
    + pose proof (place_unique _ _ _ Nb Pb Pb'). subst p'. inversion Nu as [v| |e' q' ty' x' k2 P']; subst; [|inversion P']. eapply pl_index; eauto. apply NU. auto.
    + pose proof (place_unique _ _ _ Nb Pb Pb'). subst p'. destruct (NM _ _ _ Lm).
Qed.
(** Values of integer types are displayed as the integer in memory, so the two theorems above apply to them. *)
Theorem integers_displayed_exactly : forall p n v, read (shown_env c s (g_env D)) (g_fuel D) (fst p) (snd p) = Ok v -> layOf (snd p) = LUInt n \/ layOf (snd p) = LInt n ->
  exists m, shown_memory c s (fst p) n = Ok m /\ Z.of_nat (List.length m) = n /\
    v = VScalar (tname (snd p)) (dec (match layOf (snd p) with LUInt _ => le m | _ => signed n (le m) end)).
Proof.
  intros p n v R L. destruct (g_fuel D) as [|f]; [discriminate R|]. cbn [read] in R. unfold tname. 
  destruct L as [L|L]; rewrite L in *; cbn [read_primitive] in R; apply bind_ok in R; destruct R as (m & Rm & R); destruct (mem_z n int_sizes); try discriminate R; apply bind_ok in R; destruct R as (u & U & R); injection R as <-;
  unfold le_unwrap in U; destruct (_ =? _) eqn:Ln; try discriminate U; injection U as <-; exists m; (repeat split; [exact Rm | now apply Z.eqb_eq]).
Qed.
(** A value that is not a scalar is no index. *)
Theorem only_scalars_index : forall e p v k, no_calls e -> place c s D pc e p -> read (shown_env c s (g_env D)) (g_fuel D) (fst p) (snd p) = Ok v ->
  match v with VScalar _ _ => False | _ => True end -> fst (outcome c (e_int (evaluate D e) None) s) <> Ok k.
Proof.
  intros e p v k N P R V H. destruct (as_int _ _ _ _ _ _ (all_denote c s D pc stopped (ex_intro _ sp (ex_intro _ fp frame)) e N)) as (r & Y & K). destruct (Y None (or_introl eq_refl)) as (pc' & _ & Y1 & _). rewrite Y1 in H. cbn [fst] in H. apply K in H.
  inversion H as [v'|e' k' Nu'|e' q ty' x' k' P' R' X]; subst; try (inversion P; fail). pose proof (place_unique _ _ _ N P P'). subst q. rewrite R in R'. injection R' as ->. exact V.
Qed.
End Index.
Print Assumptions index_uses_displayed_value.
Print Assumptions variable_index_exact.
Print Assumptions integers_displayed_exactly.
Print Assumptions only_scalars_index.
