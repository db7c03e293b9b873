(** How often evaluation runs code of the target, and what it makes of the result. *)
From Coq Require Import Ascii String List ZArith Lia Bool.
From Verif Require Import Base NumText OMap TypesModel ValueModel DataModel AccessModel SynthModel LocModel FnModel DiscoverModel ExprModel ProcModel ProcSpec ProcProofs IoDataModel IoDataProofs EvalModel EvalSpec EvalProofs EvalDenote.
Import ListNotations.
Open Scope Z_scope.

(** ** Specification *)
(** Events that run code of the target. *)
Definition runs_code (q : request) : bool := match q with ExecuteMethod _ _ _ _ | ExecuteFunction _ _ _ => true | _ => false end.
Definition runs (t : list (request * answer)) : nat := List.length (filter (fun e => runs_code (fst e)) t).
(** The calls written in an expression. *)
Fixpoint calls (e : expr) : nat :=
  match e with
  | EField b _ => calls b
  | EIndex b i => calls b + calls i
  | EDeref i | EAddressOf _ i | EParen i => calls i
  | EMethodCall b _ args => 1 + calls b + list_sum (map calls args)
  | ECall _ args => 1 + list_sum (map calls args)
  | _ => 0
  end%nat.
(** The same with the calls in arguments counted twice per level of nesting. *)
Fixpoint worst (e : expr) : nat :=
  match e with
  | EField b _ => worst b
  | EIndex b i => worst b + worst i
  | EDeref i | EAddressOf _ i | EParen i => worst i
  | EMethodCall b _ args => 1 + worst b + 2 * list_sum (map worst args)
  | ECall _ args => 1 + 2 * list_sum (map worst args)
  | _ => 0
  end%nat.
(** No call is an argument, or inside an argument, of another. *)
Definition plain_arguments (e : expr) : Prop :=
  forall x, part x e -> match x with EMethodCall _ _ args | ECall _ args => Forall no_calls args | _ => True end.

(** ** Counting *)
Fixpoint atmost {A} (n : nat) (p : prog A) : Prop :=
  match p with
  | Ret _ => True
  | Ask q k => if runs_code q then (1 <= n)%nat /\ forall x, atmost (n - 1) (k x) else forall x, atmost n (k x)
  end.
Lemma atmost_le {A} n m (p : prog A) : (n <= m)%nat -> atmost n p -> atmost m p.
Proof.
  revert n m. induction p as [a|q k IH]; intros n m L; cbn [atmost]; [auto|]. destruct (runs_code q).
  - intros [L1 H]. split; [lia|]. intros x. eapply IH; [|apply H]. lia.
  - intros H x. eapply IH; [exact L | apply H].
Qed.
Lemma atmost_bind {A B} n m (p : prog A) (f : A -> prog B) : atmost n p -> (forall a, atmost m (f a)) -> atmost (n + m) (pbind p f).
Proof.
  revert n. induction p as [a|q k IH]; intros n H K; cbn [pbind]; [eapply atmost_le; [|apply K]; lia|]. cbn [atmost] in *. destruct (runs_code q).
  - destruct H as [L H]. split; [lia|]. intros x. replace (n + m - 1)%nat with (n - 1 + m)%nat by lia. now apply IH.
  - intros x. now apply IH.
Qed.
Lemma atmost_runs {A} n (p : prog A) S (c : client S) s : atmost n p -> (runs (events c p s) <= n)%nat.
Proof.
  unfold events. revert n s. induction p as [a|q k IH]; intros n s H; cbn [exec]; [cbn; lia|]. cbn [atmost] in H. destruct (c s q) as [x s1].
  destruct (runs_code q) eqn:R.
  - destruct H as [L H]. specialize (IH x _ s1 (H x)). destruct (exec c (k x) s1) as [[t a] s2]. cbn [fst] in *. unfold runs in *. cbn [filter fst]. rewrite R. cbn [List.length]. lia.
  - specialize (IH x _ s1 (H x)). destruct (exec c (k x) s1) as [[t a] s2]. cbn [fst] in *. unfold runs in *. cbn [filter fst]. rewrite R. exact IH.
Qed.
Lemma only_atmost {A} (P : request -> Prop) (p : prog A) : (forall q, P q -> runs_code q = false) -> only P p -> atmost 0 p.
Proof. intros H. induction p as [a|q k IH]; cbn; [auto|]. intros [Hq Hk]. rewrite (H q Hq). auto. Qed.
Lemma look_atmost {A} (p : prog A) : only inspects p -> atmost 0 p.
Proof. apply only_atmost. intros q [H | ->]; [|reflexivity]. destruct q; destruct H; reflexivity. Qed.
Lemma read_atmost {A} (p : prog A) : only reads_only p -> atmost 0 p.
Proof. intros H. apply look_atmost, inspects_reads, H. Qed.
Definition eatmost {A} (n : nat) (x : ev A) : Prop := forall pc, atmost n (x pc).
Lemma eat_le {A} n m (x : ev A) : (n <= m)%nat -> eatmost n x -> eatmost m x.
Proof. intros L H pc. eapply atmost_le; [exact L | apply H]. Qed.
Lemma eat_bind {A B} n m k (x : ev A) (f : A -> ev B) : (n + m <= k)%nat -> eatmost n x -> (forall a, eatmost m (f a)) -> eatmost k (ebind x f).
Proof. intros L H K pc. eapply atmost_le; [exact L|]. apply atmost_bind; [apply H|]. intros [[a|e|e|] pc']; cbn [fst snd]; [apply K | exact I ..]. Qed.
Lemma eat_match {A B} n m l k (x : ev A) (f : A -> ev B) y : (n + m <= k)%nat -> (n + l <= k)%nat -> eatmost n x -> (forall a, eatmost m (f a)) -> eatmost l y -> eatmost k (ematch x f y).
Proof. intros L1 L2 H K Y pc. eapply (atmost_le (n + Nat.max m l)); [lia|]. apply atmost_bind; [apply H|]. intros [[a|e|e|] pc']; cbn [fst snd]; [eapply atmost_le; [|apply K]; lia | eapply atmost_le; [|apply Y]; lia | exact I ..]. Qed.
Lemma eat_only {A} n (P : request -> Prop) (x : ev A) : (forall q, P q -> runs_code q = false) -> eonly P x -> eatmost n x.
Proof. intros H K pc. eapply (atmost_le 0); [lia|]. eapply only_atmost; [exact H | apply K]. Qed.
Lemma quiet q : inspects q -> runs_code q = false.
Proof. intros [H | ->]; [|reflexivity]. destruct q; destruct H; reflexivity. Qed.
Lemma eat_look {A} n (x : ev A) : eonly inspects x -> eatmost n x.
Proof. apply eat_only, quiet. Qed.
Lemma eat_read {A} n (p : io A) : only reads_only p -> eatmost n (eio p).
Proof. intros H. apply eat_look, eonly_io, inspects_reads, H. Qed.
Lemma eat_lift {A} n (r : res A) : eatmost n (elift r).
Proof. intros pc. exact I. Qed.
Lemma eat_fail {A} n m : @eatmost A n (efail m).
Proof. intros pc. exact I. Qed.
Lemma eat_ret {A} n (a : A) : eatmost n (eret a).
Proof. intros pc. exact I. Qed.

Section Runs.
Variable D : dbg.
Definition all_at (n : nat) (x : evs) : Prop := eatmost n (e_ref x) /\ eatmost n (e_val x) /\ eatmost n (e_int x) /\ eatmost n (e_str x).
Lemma at_of_ref n r : eatmost n r -> all_at n (of_ref D r).
Proof.
  intros H. repeat split; cbn [of_ref e_ref e_val e_int e_str]; auto; (eapply (eat_bind n 0); [lia | exact H|]); intros p; apply eat_read; [apply only_result | apply only_read_int | apply only_read_str].
Qed.
Lemma at_le n m x : (n <= m)%nat -> all_at n x -> all_at m x.
Proof. intros L (A & B & C & E). repeat split; eapply eat_le; eauto. Qed.
Lemma at_no n : all_at n (Evs no no no no).
Proof. repeat split; apply eat_fail. Qed.
Lemma eat_arg n a x t : all_at n x -> eatmost (2 * n) (convert_arg D a x t).
Proof.
  intros (Hr & Hv & _). assert (F : eatmost (2 * n) (ematch (e_ref x) (fun p => let^ s := elift (tsize (snd p)) in eret (MArg (hex (fst p)) APointer s)) (let^ r := e_val x in elift (fallback_arg D r)))).
  { eapply (eat_match n 0 n); [lia | lia | exact Hr | |].
    - intros p. eapply (eat_bind 0 0); [lia | apply eat_lift | intros; apply eat_ret].
    - eapply (eat_bind n 0); [lia | exact Hv | intros; apply eat_lift]. }
  destruct a; cbn [convert_arg]; try exact F; try apply eat_fail; try apply eat_ret.
  destruct t as [t|]; [|apply eat_fail]. eapply (eat_bind 0 0); [lia | | intros; eapply (eat_bind 0 0); [lia | apply eat_lift | intros; apply eat_ret]].
  apply (eat_only _ (fun q => reads_only q \/ acts q /\ runs_code q = false)).
  - intros q [H | [_ H]]; [|exact H]. destruct q; destruct H; reflexivity.
  - apply eonly_io, only_create; [auto | intros; right; split; [exact I | reflexivity] ..].
Qed.
Lemma eat_args (args : list (expr * evs)) (w : expr * evs -> nat) ps : Forall (fun a => all_at (w a) (snd a)) args -> eatmost (2 * list_sum (map w args)) (convert_args D args ps).
Proof.
  intros H. revert ps. induction H as [|a args Ha H IH]; intros ps; cbn [convert_args]; [apply eat_ret|]. cbn [map list_sum fold_right].
  eapply (eat_bind (2 * w a) (2 * list_sum (map w args))); [unfold list_sum; cbn [fold_right]; lia | now apply eat_arg|]. intros x.
  eapply (eat_bind _ 0); [|apply IH | intros; apply eat_ret]. lia.
Qed.
Lemma eat_result n r t : eatmost n (eio (result_val D t r)).
Proof. apply eat_read. unfold result_val. destruct r; [exact I|]. destruct t; [apply only_result | exact I]. Qed.
Theorem worst_case e : all_at (worst e) (evaluate D e).
Proof.
  induction e as [n|s|b g|b f Hb|b i Hb Hi|e He|mm e He|v|v|e He|b m l Hb Hl|f l Hl] using expr_nested_ind; cbn [evaluate worst]; try apply at_no.
  - apply at_of_ref, eat_look, eonly_variable.
  - apply at_of_ref. eapply (eat_bind _ 0); [|apply Hb | intros; apply eat_lift]. lia.
  - apply at_of_ref. destruct Hb as (Hb & _). destruct Hi as (_ & _ & Hi & Hs). eapply (eat_bind _ (worst i)); [|exact Hb|]; [lia|]. intros p. destruct (is_map _).
    + eapply (eat_bind _ 0); [|exact Hs | intros; apply eat_read, only_index_map]. lia.
    + eapply (eat_bind _ 0); [|exact Hi | intros; apply eat_read, only_index_int]. lia.
  - destruct He as (_ & A & B & C). split; [apply eat_fail | auto].
  - set (xs := map (fun a => (a, evaluate D a)) l). set (w := list_sum (map worst l)).
    assert (Hxs : Forall (fun a => all_at (worst (fst a)) (snd a)) xs) by (apply Forall_map; exact Hl).
    assert (Hw : list_sum (map (fun a : expr * evs => worst (fst a)) xs) = w) by (unfold xs, w; rewrite map_map; reflexivity).
    assert (Hc : forall p, eatmost (1 + 2 * w) (call_method D p m xs)).
    { intros p. eapply (eat_bind 0 (1 + 2 * w)); [lia | apply eat_lift|]. intros d. eapply (eat_bind (2 * w) 1); [lia | rewrite <- Hw; now apply (eat_args xs (fun a => worst (fst a)))|]. intros ys. eapply (eat_bind 0 1); [lia | apply eat_lift|]. intros sz.
      eapply (eat_bind 1 0); [lia | | intros; apply eat_ret]. intros pc. cbn. split; [lia|]. intros x. exact I. }
    destruct Hb as (Hb & _). unfold all_at; repeat apply conj; cbn [e_ref e_val e_int e_str]; try apply eat_fail; (eapply (eat_bind (worst b) (1 + 2 * w)); [lia | exact Hb|]); intros p; destruct (synthetic_name _ _); try apply eat_fail.
    + eapply (eat_bind _ 0); [|apply Hc | intros; apply eat_lift]. lia.
    + destruct xs; [|apply eat_fail]. eapply (eat_bind 0 0); [lia | apply eat_read, only_synthetic | intros; apply eat_ret].
    + eapply (eat_bind _ 0); [|apply Hc | intros; apply eat_result]. lia.
  - set (xs := map (fun a => (a, evaluate D a)) l). set (w := list_sum (map worst l)).
    assert (Hxs : Forall (fun a => all_at (worst (fst a)) (snd a)) xs) by (apply Forall_map; exact Hl).
    assert (Hw : list_sum (map (fun a : expr * evs => worst (fst a)) xs) = w) by (unfold xs, w; rewrite map_map; reflexivity).
    assert (Hc : eatmost (1 + 2 * w) (call_function D f xs)).
    { eapply (eat_bind 0 (1 + 2 * w)); [lia | apply eat_lift|]. intros d. eapply (eat_bind (2 * w) 1); [lia | rewrite <- Hw; now apply (eat_args xs (fun a => worst (fst a)))|]. intros ys. eapply (eat_bind 0 1); [lia | apply eat_lift|]. intros sz.
      eapply (eat_bind 1 0); [lia | | intros; apply eat_ret]. intros pc. cbn. split; [lia|]. intros x. exact I. }
    unfold all_at; repeat apply conj; cbn [e_ref e_val e_int e_str]; try apply eat_fail; (eapply (eat_bind _ 0); [|exact Hc | intros; first [apply eat_lift | apply eat_result]]); lia.
Qed.
End Runs.
Lemma list_sum_0 {A} (f : A -> nat) l : Forall (fun a => f a = 0%nat) l -> list_sum (map f l) = 0%nat.
Proof. induction 1 as [|a l H _ IH]; [reflexivity|]. cbn. rewrite H. exact IH. Qed.
Lemma no_calls_part x e : no_calls e -> part x e -> no_calls x.
Proof. intros H K y P. apply H. eapply part_trans; eauto. Qed.
Lemma no_calls_0 e : no_calls e -> calls e = 0%nat /\ worst e = 0%nat.
Proof.
  induction e as [n|s|b g|b f Hb|b i Hb Hi|e He|mm e He|v|v|e He|b m l Hb Hl|f l Hl] using expr_nested_ind; intros N; cbn [calls worst]; auto.
  - apply Hb. eapply no_calls_part; [exact N | apply part_field, part_self].
  - destruct Hb as [B1 B2]; [eapply no_calls_part; [exact N | apply part_base, part_self]|]. destruct Hi as [I1 I2]; [eapply no_calls_part; [exact N | apply part_index, part_self]|]. lia.
  - apply He. eapply no_calls_part; [exact N | apply part_deref, part_self].
  - apply He. eapply no_calls_part; [exact N | apply part_addr, part_self].
  - apply He. eapply no_calls_part; [exact N | apply part_paren, part_self].
  - destruct (N _ (part_self _)).
  - destruct (N _ (part_self _)).
Qed.
Lemma plain_part x e : plain_arguments e -> part x e -> plain_arguments x.
Proof. intros H K y P. apply H. eapply part_trans; eauto. Qed.
Lemma plain_worst e : plain_arguments e -> worst e = calls e.
Proof.
  induction e as [n|s|b g|b f Hb|b i Hb Hi|e He|mm e He|v|v|e He|b m l Hb Hl|f l Hl] using expr_nested_ind; intros N; cbn [calls worst]; auto.
  - apply Hb. eapply plain_part; [exact N | apply part_field, part_self].
  - rewrite Hb, Hi; [reflexivity | eapply plain_part; [exact N | apply part_index, part_self] | eapply plain_part; [exact N | apply part_base, part_self]].
  - apply He. eapply plain_part; [exact N | apply part_deref, part_self].
  - apply He. eapply plain_part; [exact N | apply part_addr, part_self].
  - apply He. eapply plain_part; [exact N | apply part_paren, part_self].
  - rewrite Hb by (eapply plain_part; [exact N | apply part_object, part_self]). specialize (N _ (part_self _)). cbn in N.
    rewrite !list_sum_0; [reflexivity | |]; (eapply Forall_impl; [|exact N]); intros a Ha; now apply no_calls_0 in Ha.
  - specialize (N _ (part_self _)). cbn in N. rewrite !list_sum_0; [reflexivity | |]; (eapply Forall_impl; [|exact N]); intros a Ha; now apply no_calls_0 in Ha.
Qed.

(** ** Theorems *)
(** Whatever the client answers, an evaluation runs code of the target at most [worst e] times. *)
Theorem runs_bounded : forall D e pc S (c : client S) s,
  (runs (events c (e_val (evaluate D e) pc) s) <= worst e)%nat /\ (runs (events c (e_ref (evaluate D e) pc) s) <= worst e)%nat.
Proof. intros D e pc S c s. destruct (worst_case D e) as (A & B & _). split; apply atmost_runs; [apply B | apply A]. Qed.
Print Assumptions runs_bounded.
(** If no call is written inside an argument of another, every call written is run at most once. *)
Theorem each_call_runs_once_partial : forall D e pc S (c : client S) s, plain_arguments e ->
  (runs (events c (e_val (evaluate D e) pc) s) <= calls e)%nat /\ (runs (events c (e_ref (evaluate D e) pc) s) <= calls e)%nat.
Proof. intros D e pc S c s N. rewrite <- (plain_worst e N). apply runs_bounded. Qed.
Print Assumptions each_call_runs_once_partial.

(** ** What a call shows *)
Lemma exec_ebind {A B} (x : ev A) (f : A -> ev B) pc S (c : client S) s t b pc2 s2 : exec c (ebind x f pc) s = (t, (Ok b, pc2), s2) ->
  exists t1 a pc1 s1 t2, exec c (x pc) s = (t1, (Ok a, pc1), s1) /\ exec c (f a pc1) s1 = (t2, (Ok b, pc2), s2) /\ t = t1 ++ t2.
Proof.
  unfold ebind. rewrite exec_bind. destruct (exec c (x pc) s) as [[t1 [[a|m|m|] pc1]] s1]; cbn [fst snd]; try (cbn; intros H; discriminate H).
  destruct (exec c (f a pc1) s1) as [[t2 r] s3] eqn:E. intros H. injection H as <- -> ->. exists t1, a, pc1, s1, t2. auto.
Qed.
Lemma exec_eio {A} (p : io A) pc S (c : client S) s t b pc2 s2 : exec c (eio p pc) s = (t, (Ok b, pc2), s2) -> exec c p s = (t, Ok b, s2) /\ pc2 = pc.
Proof. unfold eio. rewrite exec_bind. destruct (exec c p s) as [[t1 r] s1]. cbn. rewrite app_nil_r. intros H. injection H as <- -> -> ->. auto. Qed.
Lemma exec_elift {A} (r : res A) pc S (c : client S) s t b pc2 s2 : exec c (elift r pc) s = (t, (Ok b, pc2), s2) -> r = Ok b /\ t = [] /\ pc2 = pc /\ s2 = s.
Proof. cbn. intros H. injection H as <- -> -> ->. auto. Qed.
(** What the reply to a call is shown as: a simple value as the number it is, anything else by what is in memory at the
    address the callee returned. *)
Definition shown_reply {S} (D : dbg) (c : client S) (ret : option tdef) (r : callres) (s : S) (out : eresult) (t : list (request * answer)) (s2 : S) : Prop :=
  match r, ret with
  | Simple v ty, _ => out = EResult (dec v) ty /\ t = [] /\ s2 = s
  | ComplexPtr a _ _, Some rt => exec c (pointer_to_result D (a, rt)) s = (t, Ok out, s2)
  | ComplexPtr a _ _, None => out = EResult (st "<complex value at " ++ hex a ++ st ">") (st "unknown") /\ t = [] /\ s2 = s
  end.
Lemma shown_reply_ok {S} D (c : client S) rt r s t out s2 : exec c (result_val D rt r) s = (t, Ok out, s2) -> shown_reply D c rt r s out t s2.
Proof. unfold result_val, shown_reply. destruct r as [v ty|a z ty]; [|destruct rt as [x|]]; [| auto |]; cbn; intros H; injection H as <- <- <-; auto. Qed.
(** A method call that is shown was run: after the object and the arguments were evaluated, the method found for the object's
    type was executed on the object's address, and what is shown is what the client replied. *)
Theorem method_result_shown : forall D b m args pc S (c : client S) s t out pc2 s2,
  exec c (e_val (evaluate D (EMethodCall b m args)) pc) s = (t, (Ok out, pc2), s2) ->
  exists p t1 pc1 s1, exec c (e_ref (evaluate D b) pc) s = (t1, (Ok p, pc1), s1) /\
    (synthetic_name (layOf (snd p)) m = true \/
     exists d xs sz r t3 s3 t4 s4 t5, find_method D p m = Ok d /\ return_size (dm_ret d) = Ok sz /\
       exec c (convert_args D (map (fun a => (a, evaluate D a)) args) (dm_params d) pc1) s1 = (t3, (Ok xs, pc2), s3) /\
       c s3 (ExecuteMethod (dm_addr d) (fst p) xs sz) = (Replied (MethodResult r), s4) /\
       t4 = [(ExecuteMethod (dm_addr d) (fst p) xs sz, Replied (MethodResult r))] /\
       shown_reply D c (dm_ret d) r s4 out t5 s2 /\ t = t1 ++ t3 ++ t4 ++ t5).
Proof.
  intros D b m args pc S c s t out pc2 s2 H. cbn [evaluate e_val] in H. unfold method_val in H. apply exec_ebind in H. destruct H as (t1 & p & pc1 & s1 & t2 & E1 & E2 & ->). exists p, t1, pc1, s1. split; [exact E1|].
  destruct (synthetic_name _ _); [now left | right]. apply exec_ebind in E2. destruct E2 as (ta & cr & pca & sa & tb & Ec & Er & ->). unfold call_method in Ec.
  apply exec_ebind in Ec. destruct Ec as (u1 & d & q1 & w1 & v1 & F & Ec & ->). apply exec_elift in F. destruct F as (Fd & -> & -> & ->).
  apply exec_ebind in Ec. destruct Ec as (u2 & xs & q2 & w2 & v2 & Fx & Ec & ->). apply exec_ebind in Ec. destruct Ec as (u3 & sz & q3 & w3 & v3 & F & Ec & ->). apply exec_elift in F. destruct F as (Fs & -> & -> & ->).
  apply exec_ebind in Ec. destruct Ec as (u4 & r & q4 & w4 & v4 & F & Ec & ->). apply exec_eio in F. destruct F as [F ->]. cbn in Ec. injection Ec as <- <- <- <-.
  cbn [fst snd] in Er. apply exec_eio in Er. destruct Er as [Er ->]. apply shown_reply_ok in Er. cbn in F. destruct (c w2 _) as [x w5] eqn:Cx. injection F as <- F <-.
  destruct x as [[]|]; try discriminate F. injection F as ->. exists d, xs, sz, r, u2, w2. eexists _, w5, tb. split; [exact Fd|]. split; [exact Fs|]. split; [exact Fx|]. split; [exact Cx|]. split; [reflexivity|]. split; [exact Er|]. cbn. now rewrite <- !app_assoc.
Qed.
Print Assumptions method_result_shown.
Theorem function_result_shown : forall D f args pc S (c : client S) s t out pc2 s2,
  exec c (e_val (evaluate D (ECall f args)) pc) s = (t, (Ok out, pc2), s2) ->
  exists d xs sz r t3 s3 t4 s4 t5, find_function D f (List.length args) = Ok d /\ return_size (df_ret d) = Ok sz /\
    exec c (convert_args D (map (fun a => (a, evaluate D a)) args) (df_params d) pc) s = (t3, (Ok xs, pc2), s3) /\
    c s3 (ExecuteFunction (df_addr d) xs sz) = (Replied (FunctionResult r), s4) /\
    t4 = [(ExecuteFunction (df_addr d) xs sz, Replied (FunctionResult r))] /\
    shown_reply D c (df_ret d) r s4 out t5 s2 /\ t = t3 ++ t4 ++ t5.
Proof.
  intros D f args pc S c s t out pc2 s2 H. cbn [evaluate e_val] in H. unfold function_val in H.
  apply exec_ebind in H. destruct H as (ta & cr & pca & sa & tb & Ec & Er & ->). unfold call_function in Ec.
  apply exec_ebind in Ec. destruct Ec as (u1 & d & q1 & w1 & v1 & F & Ec & ->). apply exec_elift in F. destruct F as (Fd & -> & -> & ->). rewrite map_length in Fd.
  apply exec_ebind in Ec. destruct Ec as (u2 & xs & q2 & w2 & v2 & Fx & Ec & ->). apply exec_ebind in Ec. destruct Ec as (u3 & sz & q3 & w3 & v3 & F & Ec & ->). apply exec_elift in F. destruct F as (Fs & -> & -> & ->).
  apply exec_ebind in Ec. destruct Ec as (u4 & r & q4 & w4 & v4 & F & Ec & ->). apply exec_eio in F. destruct F as [F ->]. cbn in Ec. injection Ec as <- <- <- <-.
  cbn [fst snd] in Er. apply exec_eio in Er. destruct Er as [Er ->]. apply shown_reply_ok in Er. cbn in F. destruct (c w2 _) as [x w5] eqn:Cx. injection F as <- F <-.
  destruct x as [[]|]; try discriminate F. injection F as ->. exists d, xs, sz, r, u2, w2. eexists _, w5, tb. split; [exact Fd|]. split; [exact Fs|]. split; [exact Fx|]. split; [exact Cx|]. split; [reflexivity|]. split; [exact Er|]. cbn. now rewrite <- !app_assoc.
Qed.
Print Assumptions function_result_shown.

(** ** Arguments *)
(** What is passed for an argument written as a number or as a place: the number in decimal; the address of the place, in
    hexadecimal, with the size of its type. *)
Inductive passed {S} (c : client S) (s : S) (D : dbg) (pc : Z) : expr -> marg -> Prop :=
| pa_number v : passed c s D pc (ENumber v) (MArg (dec_nat v) AInteger None)
| pa_place e a t sz : place c s D pc e (a, t) -> tsize t = Ok sz -> passed c s D pc e (MArg (hex a) APointer sz).
Definition is_string (e : expr) : Prop := match e with EString _ => True | _ => False end.
(** Against a stopped target, the arguments passed are exactly those, in the order written; if one has no such form the
    call is not made. *)
Theorem arguments_passed : forall S (c : client S) s D pc sp fp ps args, steady c s -> fst (c s GetFrameInfo) = Replied (FrameInfo pc sp fp) ->
  Forall no_calls args -> Forall (fun e => ~ is_string e) args -> forall p0, p0 = None \/ p0 = Some pc ->
  (forall xs, fst (outcome c (convert_args D (map (fun a => (a, evaluate D a)) args) ps p0) s) = Ok xs <-> Forall2 (passed c s D pc) args xs) /\
  after c (convert_args D (map (fun a => (a, evaluate D a)) args) ps p0) s = s.
Proof.
  intros S c s D pc sp fp ps args St F N NS p0 P0.
  assert (One : forall a t, no_calls a -> ~ is_string a -> settles c s pc (convert_arg D a (evaluate D a) t) (passed c s D pc a)).
  { intros a t Na Ns. pose proof (all_denote c s D pc St (ex_intro _ sp (ex_intro _ fp F)) a Na) as A.
    assert (M : by_place a -> settles c s pc (ematch (e_ref (evaluate D a)) (fun p => let^ s := elift (tsize (snd p)) in eret (MArg (hex (fst p)) APointer s)) (let^ r := e_val (evaluate D a) in elift (fallback_arg D r))) (passed c s D pc a)).
    { intros BP.
      (* when the pointer cannot be had, neither can the value *)
      assert (Ev : exists r, e_val (evaluate D a) = (let^ p := r in eio (pointer_to_result D p)) /\ e_ref (evaluate D a) = r) by (destruct a; try destruct BP; eexists; split; reflexivity).
      destruct Ev as (r & E1 & E2). rewrite E1, E2. pose proof (as_ref _ _ _ _ _ _ A) as (rr & Yr & Kr). rewrite E2 in Yr.
      assert (Sh : forall x, passed c s D pc a x <-> exists p sz, rr = Ok p /\ tsize (snd p) = Ok sz /\ x = MArg (hex (fst p)) APointer sz).
      { intros x. split.
        - intros H. inversion H as [v|e ad tt sz Pl Sz]; subst; [destruct BP|]. apply Kr in Pl. exists (ad, tt), sz. auto.
        - intros (p & sz & E & Sz & ->). apply Kr in E. destruct p as [ad tt]. econstructor; eauto. }
      exists (match rr with Ok p => sz <- tsize (snd p) ;; Ok (MArg (hex (fst p)) APointer sz) | Err m => Err m | Panic m => Panic m | Fuel => Fuel end). split.
      - intros q Hq. destruct (Yr q Hq) as (q1 & H1 & Y1). unfold ematch. destruct rr as [p|m|m|].
        + exists q1. split; [exact H1|]. eapply yields_pbind; [exact Y1|]. cbn [fst snd]. unfold ebind, elift. cbn [pbind fst snd]. destruct (tsize (snd p)); apply yields_ret.
        + destruct (Yr q1 H1) as (q2 & H2 & Y2). exists q2. split; [exact H2|]. eapply yields_pbind; [exact Y1|]. cbn [fst snd]. unfold ebind at 1. eapply yields_pbind; [|].
          * unfold ebind. eapply yields_pbind; [exact Y2|]. cbn [fst snd]. apply yields_ret.
          * cbn [fst snd]. apply yields_ret.
        + exists q1. split; [exact H1|]. eapply yields_pbind; [exact Y1|]. apply yields_ret.
        + exists q1. split; [exact H1|]. eapply yields_pbind; [exact Y1|]. apply yields_ret.
      - intros x. rewrite Sh. destruct rr as [p|m|m|]; try (split; [discriminate | intros (? & ? & H & _); discriminate H]).
        destruct (tsize (snd p)) as [z|m|m|] eqn:Sz; cbn [bind]; split; try discriminate; try (intros (p' & sz & H & Sz' & _); injection H as <-; congruence).
        + intros H. injection H as <-. exists p, z. auto.
        + intros (p' & sz & H & Sz' & ->). injection H as <-. congruence. }
    destruct a; cbn [convert_arg]; try (apply M; exact I); try (apply settles_none; intros x H; inversion H as [|e ad tt sz Pl]; subst; inversion Pl).
    - apply (settles_imp c s pc _ (fun x => x = MArg (dec_nat v) AInteger None)); [|apply settles_ret]. intros x. split; [intros ->; constructor|]. intros H. inversion H as [|e ad tt sz Pl]; subst; [reflexivity | inversion Pl].
    - destruct (Ns I).
    - destruct (Na _ (part_self _)).
    - destruct (Na _ (part_self _)). }
  assert (All : settles c s pc (convert_args D (map (fun a => (a, evaluate D a)) args) ps) (Forall2 (passed c s D pc) args)).
  { revert ps. induction args as [|a args IH]; intros ps; cbn [map convert_args].
    - apply (settles_imp c s pc _ (fun x => x = [])); [|apply settles_ret]. intros x. split; [intros ->; constructor | intros H; now inversion H].
    - inversion N as [|? ? Na N']; subst. inversion NS as [|? ? Ns NS']; subst. cbn [fst snd].
      apply (settles_imp c s pc _ (fun xs => exists x, passed c s D pc a x /\ exists r, Forall2 (passed c s D pc) args r /\ xs = x :: r)).
      + intros xs. split; [intros (x & Hx & r & Hr & ->); now constructor|]. intros H. inversion H; subst. eauto.
      + apply settles_bind; [now apply One|]. intros x _. apply settles_bind; [now apply IH|]. intros r _. apply settles_ret. }
  destruct All as (r & Y & K). destruct (Y p0 P0) as (pc' & _ & Y1 & Y2). rewrite Y1. cbn [fst]. split; [exact K | exact Y2].
Qed.
Print Assumptions arguments_passed.
