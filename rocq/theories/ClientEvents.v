(** C92, C93: LLDB does what the server asks, for every event and every behaviour of LLDB; calls are made as asked. *)
From Coq Require Import Ascii String List ZArith NArith Lia Bool.
From Coq Require Import ZifyBool ZifyNat ZifyN.
From Verif Require Import Base NumText Utf8 DataSpec ExprModel ProcModel EvalModel ServerModel JsonModel WireModel WireProps ClientModel ClientSpec.
Import ListNotations.
Open Scope Z_scope.

(** ** Reading the fields of an event *)
Definition parg_of (a : marg) : parg := PArg (st (type_text (ma_type a))) (ma_value a) (ma_size a).
Lemma p_arg_enc a : p_arg (enc_arg a) = Some (parg_of a).
Proof. destruct a as [v t [n|]]; destruct t; reflexivity. Qed.
Lemma p_args_enc xs : all_some p_arg (map enc_arg xs) = Some (map parg_of xs).
Proof. induction xs as [|a xs IH]; [reflexivity|]. cbn [map all_some]. now rewrite p_arg_enc, IH. Qed.
Lemma ints_enc l : all_some py_int (map JNum l) = Some l.
Proof. induction l as [|a l IH]; [reflexivity|]. cbn [map all_some py_int]. now rewrite IH. Qed.

(** ** The text of a call *)
Lemma c_type_of a : c_type (parg_of a) = fst (c_argument a).
Proof. destruct a as [v t [n|]]; destruct t; reflexivity. Qed.
Lemma lower_is c d : lower c = d -> (97 <= d <= 122)%N -> c = d \/ c = (d - 32)%N.
Proof. unfold lower. destruct ((65 <=? c) && (c <=? 90))%N eqn:E; lia. Qed.
Lemma lower_digit c d : lower c = d -> (d < 65)%N -> c = d.
Proof. unfold lower. destruct ((65 <=? c) && (c <=? 90))%N eqn:E; lia. Qed.
Lemma says_true_lower v : str_eqb (map lower v) (st "true") || str_eqb (map lower v) (st "1") = says_true v.
Proof.
  apply eq_true_iff_eq. unfold says_true. rewrite orb_true_iff, existsb_exists. split.
  - intros [H | H]; apply str_eqb_eq in H.
    + destruct v as [|a [|b [|c [|d [|e v]]]]]; try discriminate H. cbn [map] in H. injection H as Ha Hb Hc Hd.
      apply lower_is in Ha, Hb, Hc, Hd; try (vm_compute; split; discriminate). exists [a; b; c; d]. split; [|apply str_eqb_eq; reflexivity].
      destruct Ha as [-> | ->], Hb as [-> | ->], Hc as [-> | ->], Hd as [-> | ->]; vm_compute; tauto.
    + destruct v as [|a [|b v]]; try discriminate H. cbn [map] in H. injection H as Ha. apply lower_digit in Ha; [|reflexivity]. subst a. exists (st "1"). split; [left; reflexivity | reflexivity].
  - intros (x & Hx & E). apply str_eqb_eq in E. subst x. cbn [map In] in Hx. destruct Hx as [<- | Hx]; [right; reflexivity | left]. repeat destruct Hx as [<- | Hx]; try reflexivity. destruct Hx.
Qed.
Lemma c_value_of a : c_value (parg_of a) = snd (c_argument a).
Proof. destruct a as [v t [n|]]; destruct t; try reflexivity; unfold c_value, c_argument, parg_of; cbn [ma_type ma_value ma_size pa_type pa_value pa_size snd fst]; rewrite <- says_true_lower; reflexivity. Qed.
Definition def_of (n : Z) : str := st "struct Arg_" ++ dec n ++ st " { unsigned char bytes[" ++ dec n ++ st "]; }".
Lemma struct_def_of n : struct_def "Arg_" n = def_of n.
Proof. reflexivity. Qed.
Lemma dec_word z : Forall (fun c => c <> 32%N) (dec z).
Proof.
  assert (G : forall n, 0 <= n -> Forall (fun c => c <> 32%N) (dec_nat n)).
  { intros n H. pose proof (dec_nat_digits n H) as D. apply Forall_forall. intros c Hc. rewrite forallb_forall in D. specialize (D c Hc). unfold is_digit in D. lia. }
  unfold dec. destruct (z <? 0) eqn:S; [constructor; [lia|]|]; apply G; lia.
Qed.
Lemma prefix_word (a b : str) (r1 r2 : str) : Forall (fun c => c <> 32%N) a -> Forall (fun c => c <> 32%N) b -> a ++ 32%N :: r1 = b ++ 32%N :: r2 -> a = b.
Proof.
  revert b. induction a as [|x a IH]; intros b Ha Hb E; destruct b as [|y b]; cbn [app] in E.
  - reflexivity.
  - inversion Hb; subst. injection E as E _. congruence.
  - inversion Ha; subst. injection E as E _. congruence.
  - inversion Ha; subst. inversion Hb; subst. injection E as -> E. f_equal. eapply IH; eassumption.
Qed.
Lemma def_inj n m : def_of n = def_of m -> n = m.
Proof.
  unfold def_of. intros E. apply app_inv_head in E. apply prefix_word in E; [now apply dec_inj | apply dec_word | apply dec_word].
Qed.
Lemma existsb_defs n ns : existsb (str_eqb (def_of n)) (map def_of ns) = true <-> In n ns.
Proof.
  rewrite existsb_exists. split.
  - intros (d & Hd & E). apply str_eqb_eq in E. subst d. apply in_map_iff in Hd. destruct Hd as (m & E & Hm). apply def_inj in E. now subst.
  - intros H. exists (def_of n). split; [now apply in_map | now apply str_eqb_eq].
Qed.
Fixpoint add_new (l seen : list Z) : list Z :=
  match l with [] => seen | n :: l' => if in_dec Z.eq_dec n seen then add_new l' seen else add_new l' (seen ++ [n]) end.
Lemma struct_defs_of xs seen : struct_defs (map parg_of xs) (map def_of seen) = map def_of (add_new (sizes_of xs) seen).
Proof.
  revert seen. induction xs as [|a xs IH]; intros seen; [reflexivity|]. cbn [map struct_defs sizes_of flat_map]. change (pa_size (parg_of a)) with (ma_size a).
  destruct (ma_size a) as [n|]; cbn [app add_new]; [|apply IH]. rewrite struct_def_of. destruct (existsb (str_eqb (def_of n)) (map def_of seen)) eqn:E.
  - apply existsb_defs in E. destruct (in_dec Z.eq_dec n seen); [apply IH | contradiction].
  - destruct (in_dec Z.eq_dec n seen) as [I|I]; [apply existsb_defs in I; congruence|]. change [def_of n] with (map def_of [n]). rewrite <- map_app. apply IH.
Qed.
Lemma nodup_snoc l n : nodup Z.eq_dec (rev (l ++ [n])) = if in_dec Z.eq_dec n (rev l) then nodup Z.eq_dec (rev l) else n :: nodup Z.eq_dec (rev l).
Proof. rewrite rev_app_distr. reflexivity. Qed.
Lemma distinct_snoc l n : distinct (l ++ [n]) = if in_dec Z.eq_dec n l then distinct l else distinct l ++ [n].
Proof.
  unfold distinct. rewrite nodup_snoc. destruct (in_dec Z.eq_dec n (rev l)) as [I|I]; destruct (in_dec Z.eq_dec n l) as [J|J]; try reflexivity; exfalso; [apply J | apply I]; [now rewrite in_rev | now rewrite <- in_rev].
Qed.
Lemma in_distinct n l : In n (distinct l) <-> In n l.
Proof. unfold distinct. rewrite <- in_rev, nodup_In, <- in_rev. reflexivity. Qed.
Lemma add_new_distinct l p : add_new l (distinct p) = distinct (p ++ l).
Proof.
  revert p. induction l as [|n l IH]; intros p; cbn [add_new]; [now rewrite app_nil_r|]. replace (p ++ n :: l) with ((p ++ [n]) ++ l) by (rewrite <- app_assoc; reflexivity).
  rewrite <- IH, distinct_snoc. destruct (in_dec Z.eq_dec n (distinct p)) as [I|I]; destruct (in_dec Z.eq_dec n p) as [J|J]; try reflexivity; exfalso; [apply J; now apply in_distinct | apply I; now apply in_distinct].
Qed.
Lemma defs_exact xs : struct_defs (map parg_of xs) [] = map def_of (distinct (sizes_of xs)).
Proof. change (@nil str) with (map def_of []). rewrite struct_defs_of. f_equal. apply (add_new_distinct (sizes_of xs) []). Qed.
Lemma Forall2_defines ns : Forall2 defines (map def_of ns) ns.
Proof. induction ns; constructor; [reflexivity | assumption]. Qed.
Lemma join_flat (sep : str) l : join sep l ++ (match l with [] => [] | _ => sep end) = flat_map (fun d => d ++ sep) l.
Proof.
  induction l as [|x l IH]; [reflexivity|]. cbn [flat_map]. rewrite <- IH. destruct l as [|y l]; [cbn; now rewrite app_nil_r|]. cbn [join]. rewrite <- !app_assoc. reflexivity.
Qed.
Lemma join_snoc (sep : str) l x : join sep (l ++ [x]) = flat_map (fun d => d ++ sep) l ++ x.
Proof. induction l as [|y l IH]; [reflexivity|]. cbn [app flat_map]. rewrite <- app_assoc, <- IH. destruct l; cbn [app join]; rewrite <- ?app_assoc; reflexivity. Qed.
Definition call_args (recv : list Z) (xs : list marg) : list (str * str) := map (fun b => (st "void*", st "(void*)" ++ hex b)) recv ++ map c_argument xs.
Lemma map_nil_iff {A B} (f : A -> B) l (x y : str) : (match map f l with [] => x | _ => y end) = match l with [] => x | _ => y end.
Proof. destruct l; reflexivity. Qed.
Lemma call_expr_says addr recv none xs ret : says_call (call_expr addr recv none (map parg_of xs) ret) addr (call_args recv xs) none (sizes_of xs) ret.
Proof.
  exists (map def_of (distinct (sizes_of xs))). split; [apply Forall2_defines|].
  assert (Ty : map (fun _ : Z => st "void*") recv ++ map c_type (map parg_of xs) = map fst (call_args recv xs)).
  { unfold call_args. rewrite map_app, !map_map. f_equal. apply map_ext. apply c_type_of. }
  assert (Va : map (fun b => st "(void*)" ++ hex b) recv ++ map c_value (map parg_of xs) = map snd (call_args recv xs)).
  { unfold call_args. rewrite map_app, !map_map. f_equal. apply map_ext. apply c_value_of. }
  unfold call_expr. cbv zeta. rewrite Ty, Va, defs_exact. set (defs := map def_of (distinct (sizes_of xs))). set (args := call_args recv xs).
  assert (Q : forall r, signature r (map fst args) none addr = st "((" ++ r ++ st " (*)(" ++ (match args with [] => st none | _ => join (st ", ") (map fst args) end) ++ st "))" ++ hex addr ++ st ")").
  { intros r. unfold signature. rewrite map_nil_iff. reflexivity. }
  assert (C1 : forall x, st ")(" ++ x = st ")" ++ st "(" ++ x) by reflexivity.
  assert (C2 : forall x, st "struct ReturnBuffer_" ++ x = st "struct " ++ st "ReturnBuffer_" ++ x) by reflexivity.
  assert (C3 : forall x, st "]; }; auto result = " ++ x = st "]; }" ++ st "; auto result = " ++ x) by reflexivity.
  assert (C4 : st "); &result" = st ")" ++ st "; &result") by reflexivity.
  unfold call_of. destruct ret as [n|]; rewrite Q.
  - rewrite join_snoc. rewrite C4. unfold struct_def. rewrite <- !app_assoc. rewrite !C1, C3, !C2. reflexivity.
  - rewrite app_assoc, join_flat. rewrite <- !app_assoc. rewrite C1. reflexivity.
Qed.
Lemma says_call_fun t1 t2 addr args none sizes ret : says_call t1 addr args none sizes ret -> says_call t2 addr args none sizes ret -> t1 = t2.
Proof.
  intros (d1 & F1 & E1) (d2 & F2 & E2). assert (D : d1 = d2).
  { clear E1 E2. revert d2 F2. induction F1 as [|x n l1 l2 H F IH]; intros d2 F2; inversion F2; subst; [reflexivity|]. f_equal; [|now apply IH]. unfold defines in *. congruence. }
  subst d2. congruence.
Qed.

(** ** Events *)
Section Events.
Context {St : Type}.
Variable L : debugger St.
Definition body (s : St) (q : request) : reply * St :=
  match q with
  | ReadMemory a n => match l_memory L s a n with Some d => (MemoryData d, s) | None => refuse L s end
  | ReadRegister n =>
      if negb (l_thread L s && l_frame L s) then refuse L s
      else or_refuse L s (option_map (fun r => RegisterData (snd (fst r))) (find (fun r => str_eqb (fst (fst r)) n) (concat (l_registers L s))))
  | ReadRegisterByIndex i =>
      if negb (l_thread L s && l_frame L s) then refuse L s
      else if i <? 0 then refuse L s else or_refuse L s (option_map RegisterData (nth_register i (l_registers L s)))
  | GetFrameInfo => if negb (l_thread L s && l_frame L s) then refuse L s else (FrameInfo (l_pc L s) (l_sp L s) (l_fp L s), s)
  | GetThreadInfo => if negb (l_thread L s) then refuse L s else (ThreadInfo (l_tid L s) (match l_name L s with [] => None | n => Some n end), s)
  | GetBaseAddress => or_refuse L s (option_map BaseAddress (l_base L s))
  | EvaluateLLDB e => let '(v, s1) := l_eval L s e in if v_valid v then (ExpressionResult (v_text v), s1) else refuse L s1
  | ExecuteMethod m b xs ret =>
      match all_some p_arg (map enc_arg xs) with
      | Some ps => let '(v, s1) := l_eval L s (call_expr m [b] "" ps ret) in
                   match call_result v ret with Some r => (MethodResult r, s1) | None => refuse L s1 end
      | None => refuse L s
      end
  | ExecuteFunction f xs ret =>
      match all_some p_arg (map enc_arg xs) with
      | Some ps => let '(v, s1) := l_eval L s (call_expr f [] "void" ps ret) in
                   match call_result v ret with Some r => (FunctionResult r, s1) | None => refuse L s1 end
      | None => refuse L s
      end
  | GetVariableType n => (VariableTypeResult (if l_thread L s && l_frame L s then l_variable L s n else None), s)
  | AllocateMemory n =>
      let '(v, s1) := l_eval L s (st "(void*)malloc(" ++ dec n ++ st ")") in
      if v_valid v && negb (v_failed v) then (MemoryAllocated (v_unsigned v), s1) else refuse L s1
  | WriteMemory a d =>
      match all_some py_int (map JNum d) with
      | Some d => if forallb (fun b => (0 <=? b) && (b <? 256)) d
                  then let '(ok, s1) := l_write L s a d in if ok then (MemoryWritten, s1) else refuse L s1
                  else refuse L s
      | None => refuse L s
      end
  end.
Lemma event_fields s q fs : enc_server (Event q) = JObj fs ->
  handle_event L fs s = if negb (l_target L s && l_process L s) then refuse L s else body s q.
Proof.
  intros E. injection E as <-. unfold handle_event. destruct (negb (l_target L s && l_process L s)); [reflexivity|].
  destruct q; try reflexivity.
  - destruct return_type_size; reflexivity.
  - destruct return_type_size; reflexivity.
Qed.
Lemma client_body s q : python_client L s q = let '(r, s1) := if negb (l_target L s && l_process L s) then refuse L s else body s q in (Replied r, s1).
Proof. unfold python_client. destruct (enc_server (Event q)) as [| | | | | |fs] eqn:E; try discriminate. rewrite (event_fields s q fs E). reflexivity. Qed.
Lemma stopped_dec s : (l_thread L s && l_frame L s = true <-> stopped_at_frame L s) .
Proof. unfold stopped_at_frame. apply andb_true_iff. Qed.
Lemma find_first n sets x : find (fun r : str * Z * Z => str_eqb (fst (fst r)) n) sets = Some x <->
  exists l1 l2, sets = l1 ++ x :: l2 /\ fst (fst x) = n /\ ~ In n (map (fun r => fst (fst r)) l1).
Proof.
  induction sets as [|y sets IH]; cbn [find].
  - split; [discriminate|]. intros (l1 & l2 & E & _). destruct l1; discriminate.
  - destruct (str_eqb (fst (fst y)) n) eqn:E.
    + apply str_eqb_eq in E. split.
      * intros H. injection H as ->. exists [], sets. cbn. auto.
      * intros (l1 & l2 & H & H1 & H2). destruct l1 as [|z l1]; [cbn in H; injection H as -> _; reflexivity|]. cbn in H. injection H as -> H. exfalso. apply H2. left. exact E.
    + apply str_eqb_neq in E. rewrite IH. split.
      * intros (l1 & l2 & -> & H1 & H2). exists (y :: l1), l2. cbn. repeat split; auto. intros [H|H]; auto.
      * intros (l1 & l2 & H & H1 & H2). destruct l1 as [|z l1]; [cbn in H; injection H as -> _; contradiction|]. cbn in H. injection H as -> H. exists l1, l2. repeat split; auto. intros I. apply H2. right. exact I.
Qed.
Lemma nth_register_first i sets v : 0 <= i -> nth_register i sets = Some v <->
  exists l1 x l2 r, sets = l1 ++ x :: l2 /\ Forall (fun y => Z.of_nat (List.length y) <= i) l1 /\ nth_error x (Z.to_nat i) = Some r /\ v = snd r.
Proof.
  intros Hi. induction sets as [|y sets IH]; cbn [nth_register].
  - split; [discriminate|]. intros (l1 & x & l2 & r & E & _). destruct l1; discriminate.
  - destruct (nth_error y (Z.to_nat i)) as [r|] eqn:E.
    + split.
      * intros H. injection H as <-. exists [], y, sets, r. cbn. auto.
      * intros (l1 & x & l2 & r' & H & F & N & ->). destruct l1 as [|z l1]; [cbn in H; injection H as -> _; congruence|]. cbn in H. injection H as -> H. inversion F; subst.
        match goal with K : nth_error ?z _ = Some r |- _ => assert (NN : nth_error z (Z.to_nat i) <> None) by congruence end. apply nth_error_Some in NN. lia.
    + apply nth_error_None in E. rewrite IH. split.
      * intros (l1 & x & l2 & r & -> & F & N & ->). exists (y :: l1), x, l2, r. repeat split; auto. constructor; [lia | exact F].
      * intros (l1 & x & l2 & r & H & F & N & ->). destruct l1 as [|z l1].
        { cbn in H. injection H as -> _. apply nth_error_None in E. congruence. }
        cbn in H. injection H as -> H. inversion F; subst. exists l1, x, l2, r. auto.
Qed.
Lemma call_result_returns v ret r : call_result v ret = Some r <-> returns v ret r.
Proof.
  unfold call_result, returns, invalid_address. destruct (v_valid v); [|split; [discriminate | intros (H & _); discriminate]]. destruct (v_failed v); cbn [negb andb]; [split; [discriminate | intros (_ & H & _); discriminate]|].
  destruct ret as [n|]; [|split; [intros H; injection H as <-; auto | intros (_ & _ & ->); reflexivity]].
  set (a := if v_unsigned v =? 0 then _ else _).
  assert (A : forall b, (b = v_unsigned v /\ b <> 0 \/ v_unsigned v = 0 /\ (b = v_load v \/ v_load v = two64 - 1 /\ b = v_addr v)) -> b <> two64 - 1 -> a = b).
  { intros b H Hb. subst a. destruct (Z.eqb_spec (v_unsigned v) 0) as [Z0|Z0]; [|destruct H as [[-> _]|[H _]]; [reflexivity | contradiction]].
    destruct H as [[-> H]|[_ H]]; [contradiction|]. destruct (Z.eqb_spec (v_load v) (two64 - 1)) as [I|I]; destruct H as [-> |[H ->]]; congruence. }
  assert (B : a = v_unsigned v /\ a <> 0 \/ v_unsigned v = 0 /\ (a = v_load v \/ v_load v = two64 - 1 /\ a = v_addr v)).
  { subst a. destruct (Z.eqb_spec (v_unsigned v) 0) as [Z0|Z0]; [|left; auto]. right. split; [exact Z0|]. destruct (Z.eqb_spec (v_load v) (two64 - 1)); auto. }
  destruct (Z.eqb_spec a (two64 - 1)) as [I|I]; split.
  - discriminate.
  - intros (_ & _ & b & -> & Hb & H). exfalso. apply Hb. rewrite <- (A b H Hb). exact I.
  - intros H. injection H as <-. repeat split. exists a. auto.
  - intros (_ & _ & b & -> & Hb & H). rewrite (A b H Hb). reflexivity.
Qed.
Lemma bytes_ok d : Forall byte d -> forallb (fun b => (0 <=? b) && (b <? 256)) d = true.
Proof. intros H. apply forallb_forall. intros b Hb. rewrite Forall_forall in H. specialize (H b Hb). unfold byte in H. lia. Qed.
(** The request is carried out, or refused. *)
Lemma body_performs s q : request_fits q ->
  (forall r s1, body s q = (r, s1) -> performs L s q r s1 \/ r = ErrorReply (l_error L s1) /\ tried L s q s1)
  /\ (forall r s1, performs L s q r s1 -> body s q = (r, s1)).
Proof.
  intros F. split.
  - intros r s1. unfold refuse, or_refuse, refuse. destruct q; cbn [body].
    + destruct (l_memory L s address size) as [d|] eqn:E; intros H; injection H as <- <-; [left; now constructor | right; split; [reflexivity | now left]].
    + destruct (l_thread L s && l_frame L s) eqn:T; cbn [negb]; [apply stopped_dec in T | intros H; injection H as <- <-; right; split; [reflexivity | now left]].
      destruct (find _ _) as [[[x v] w]|] eqn:E; cbn [option_map or_refuse]; unfold refuse; intros H; injection H as <- <-; [left | right; split; [reflexivity | now left]].
      apply find_first in E. destruct E as (l1 & l2 & E & N & I). cbn in N. subst x. cbn. eapply p_register; eassumption.
    + destruct (l_thread L s && l_frame L s) eqn:T; cbn [negb]; [apply stopped_dec in T | intros H; injection H as <- <-; right; split; [reflexivity | now left]].
      cbn in F. unfold u64 in F. destruct (Z.ltb_spec index 0); [lia|].
      destruct (nth_register index (l_registers L s)) as [v|] eqn:E; cbn [option_map or_refuse]; unfold refuse; intros K; injection K as <- <-; [left | right; split; [reflexivity | now left]].
      apply nth_register_first in E; [|lia]. destruct E as (l1 & x & l2 & r0 & E & F1 & N & ->). eapply p_register_index; eassumption || lia.
    + destruct (l_thread L s && l_frame L s) eqn:T; cbn [negb]; intros H; injection H as <- <-; [left; constructor; now apply stopped_dec | right; split; [reflexivity | now left]].
    + destruct (l_thread L s) eqn:T; cbn [negb]; intros H; injection H as <- <-; [left | right; split; [reflexivity | now left]].
      constructor; [exact T | destruct (l_name L s); split; congruence | destruct (l_name L s); congruence].
    + destruct (l_base L s) as [a|] eqn:E; cbn [option_map or_refuse]; unfold refuse; intros H; injection H as <- <-; [left; now constructor | right; split; [reflexivity | now left]].
    + destruct (l_eval L s expr) as [v s2] eqn:E. destruct (v_valid v) eqn:V; intros H; injection H as <- <-; [left; now constructor | right; split; [reflexivity | right; eexists; exact E]].
    + rewrite p_args_enc. pose proof (call_expr_says method_address [base_address] "" args return_type_size) as C. set (t := call_expr _ _ _ _ _) in *. clearbody t.
      destruct (l_eval L s t) as [v s2] eqn:E. destruct (call_result v return_type_size) as [r0|] eqn:R; intros H; injection H as <- <-.
      * left. apply call_result_returns in R. eapply p_method; [exact C | exact E | exact R].
      * right. split; [reflexivity|]. right. exists t, v. split; [exact C | exact E].
    + rewrite p_args_enc. pose proof (call_expr_says function_address [] "void" args return_type_size) as C. set (t := call_expr _ _ _ _ _) in *. clearbody t.
      destruct (l_eval L s t) as [v s2] eqn:E. destruct (call_result v return_type_size) as [r0|] eqn:R; intros H; injection H as <- <-.
      * left. apply call_result_returns in R. eapply p_function; [exact C | exact E | exact R].
      * right. split; [reflexivity|]. right. exists t, v. split; [exact C | exact E].
    + intros H. injection H as <- <-. left. destruct (l_thread L s && l_frame L s) eqn:T; constructor; auto; intros K; try (apply stopped_dec in K; congruence). apply stopped_dec in T. contradiction.
    + destruct (l_eval L s _) as [v s2] eqn:E. destruct (v_valid v) eqn:V; [destruct (v_failed v) eqn:W|]; cbn [negb andb]; intros H; injection H as <- <-.
      * right; split; [reflexivity | right; eexists; exact E].
      * left. now constructor.
      * right; split; [reflexivity | right; eexists; exact E].
    + rewrite ints_enc. cbn in F. rewrite bytes_ok by tauto. destruct (l_write L s address data) as [[] s2] eqn:E; intros H; injection H as <- <-; [left; now constructor | right; split; [reflexivity | right; exact E]].
  - intros r s1 H. destruct H as [a n d H0 | n v w l1 l2 H0 H1 H2 | i l1 x l2 r0 H0 H1 H2 H3 H4 | H0 | n H0 H1 H2 | a H0 | e v s1 H0 H1 | m b xs ret t v s1 r0 H0 H1 H2 | f xs ret t v s1 r0 H0 H1 H2 | n t H0 H1 | n v s1 H0 H1 H2 | a d s1 H0]; cbn [body].
    + now rewrite H0.
    + apply stopped_dec in H0. rewrite H0. cbn [negb]. assert (E : find (fun r : str * Z * Z => str_eqb (fst (fst r)) n) (concat (l_registers L s)) = Some (n, v, w)) by (apply find_first; eauto 6). rewrite E. reflexivity.
    + apply stopped_dec in H0. rewrite H0. cbn [negb]. destruct (Z.ltb_spec i 0); [lia|]. assert (E : nth_register i (l_registers L s) = Some (snd r0)) by (apply nth_register_first; [lia|]; eauto 8). rewrite E. reflexivity.
    + apply stopped_dec in H0. now rewrite H0.
    + rewrite H0. cbn [negb]. f_equal. f_equal. destruct n as [x|].
      * rewrite (H2 x eq_refl). destruct (l_name L s) eqn:N; [|reflexivity]. destruct H1 as [_ H1]. specialize (H1 eq_refl). discriminate H1.
      * destruct H1 as [H1 _]. now rewrite H1.
    + now rewrite H0.
    + rewrite H0, H1. reflexivity.
    + rewrite p_args_enc. pose proof (call_expr_says m [b] "" xs ret) as C. rewrite (says_call_fun _ _ _ _ _ _ _ C H0), H1. apply call_result_returns in H2. now rewrite H2.
    + rewrite p_args_enc. pose proof (call_expr_says f [] "void" xs ret) as C. rewrite (says_call_fun _ _ _ _ _ _ _ C H0), H1. apply call_result_returns in H2. now rewrite H2.
    + destruct (l_thread L s && l_frame L s) eqn:T; [apply stopped_dec in T; now rewrite H0 by exact T|]. rewrite H1; [reflexivity|]. intros K. apply stopped_dec in K. congruence.
    + rewrite H0, H1, H2. reflexivity.
    + rewrite ints_enc. cbn in F. rewrite bytes_ok by tauto. rewrite H0. reflexivity.
Qed.
End Events.
(** C92: for every behaviour of LLDB, the client answers each event of the server, and its answer is either what LLDB gave
    for exactly that request, or an error (then at most that request was tried). *)
Theorem events_are_performed : forall S (L : debugger S) s q, request_fits q ->
  exists r s1, python_client L s q = (Replied r, s1) /\
    ((forall m, r <> ErrorReply m) -> l_target L s = true /\ l_process L s = true /\ performs L s q r s1) /\
    (forall m, r = ErrorReply m -> tried L s q s1).
Proof.
  intros S L s q F. rewrite client_body. destruct (body_performs L s q F) as [B _]. destruct (l_target L s && l_process L s) eqn:T; cbn [negb].
  - apply andb_true_iff in T. destruct (body L s q) as [r s1] eqn:E. exists r, s1. split; [reflexivity|]. destruct (B r s1 eq_refl) as [P|[-> P]].
    + split; [tauto|]. intros m ->. inversion P.
    + split; [intros N; exfalso; eapply N; reflexivity | auto].
  - eexists _, _. split; [reflexivity|]. split; [intros N; exfalso; eapply N; reflexivity | intros; now left].
Qed.
Print Assumptions events_are_performed.
(** The other way round: what LLDB can do is done. *)
Theorem events_are_not_refused : forall S (L : debugger S) s q r s1, request_fits q -> l_target L s = true -> l_process L s = true -> performs L s q r s1 ->
  python_client L s q = (Replied r, s1).
Proof.
  intros S L s q r s1 F T P H. rewrite client_body, T, P. cbn [negb andb]. destruct (body_performs L s q F) as [_ B]. rewrite (B r s1 H). reflexivity.
Qed.
Print Assumptions events_are_not_refused.
(** Every answer is of the kind the server expects. *)
Theorem answers_have_the_kind : forall S (L : debugger S) s q, exists r s1, python_client L s q = (Replied r, s1) /\ kind_fits q r.
Proof.
  intros S L s q. rewrite client_body. destruct (negb (l_target L s && l_process L s)).
  - eexists _, _. split; [reflexivity|]. destruct q; exact I.
  - destruct (body L s q) as [r s1] eqn:E. exists r, s1. split; [reflexivity|]. revert E. unfold body, or_refuse, refuse. destruct q; cbn [kind_fits];
      repeat match goal with
      | |- context [match ?x with _ => _ end] => match x with
          | r => fail 1
          | _ => let Q := fresh "Q" in destruct x eqn:Q end
      end; intros E; try (injection E as <- <-); try discriminate; try exact I;
    match goal with K : option_map _ ?o = Some ?z |- _ => destruct o; [injection K as <-; exact I | discriminate K] end.
Qed.
Print Assumptions answers_have_the_kind.
