(** Properties C94, C96, C97: the rd command: what is printed, what is sent for a typed line, and to whom. *)
From Coq Require Import Ascii String List ZArith NArith Lia Bool.
From Coq Require Import ZifyBool ZifyNat ZifyN.
From Verif Require Import Base NumText ExprModel ExprSpec ExprLexProofs ProcModel EvalModel ServerModel JsonModel WireModel ClientModel SessionModel.
From Verif Require Import ExprModel.
Import ListNotations.
Open Scope Z_scope.

(** ** C94: printing *)
Definition the_fields (j : json) : fields := match j with JObj fs => fs | _ => [] end.
Definition printed (repr : json -> str) (cmd : str) (m : smsg) : list str := print_response repr cmd (the_fields (enc_server m)).
(** An error is printed as such, whatever the command. *)
Theorem error_printed : forall repr cmd e, printed repr cmd (ErrorMsg e) = [st "Error: " ++ e].
Proof. reflexivity. Qed.
(** A value: its type and its text. *)
Theorem value_printed : forall repr cmd r, cmd <> st "methods" -> printed repr cmd (Complete (PValue r)) = [st "type: " ++ er_type r; st "value: " ++ er_value r].
Proof. intros repr cmd r H. unfold printed. cbn [enc_server enc_payload]. assert (E : str_eqb cmd (st "methods") = false) by now apply str_eqb_neq. unfold the_fields, obj, print_response. cbn -[str_eqb st]. rewrite E. reflexivity. Qed.
(** Methods: the others first, each with whether it can be called; then the synthetic ones. *)
Definition method_line (m : minfo) : str := st "  - " ++ mi_sig m ++ st (if mi_callable m then " (callable)" else " (not callable)").
Definition synthetic_line (m : minfo) : str := st "  - " ++ mi_sig m.
Lemma filter_methods (f : json -> bool) (g : minfo -> bool) l : (forall m, f (enc_method m) = g m) -> filter f (map enc_method l) = map enc_method (filter g l).
Proof. intros H. induction l as [|m l IH]; [reflexivity|]. cbn [map filter]. rewrite H, IH. destruct (g m); reflexivity. Qed.
Lemma all_dicts {A} (f : A -> json) l : (forall a, is_dict (f a) = true) -> filter is_dict (map f l) = map f l.
Proof. intros H. induction l as [|a l IH]; [reflexivity|]. cbn [map filter]. now rewrite H, IH. Qed.
Theorem methods_printed : forall repr r,
  let own := filter (fun m => negb (mi_synthetic m)) (mr_methods r) in
  let synthetic := filter mi_synthetic (mr_methods r) in
  printed repr (st "methods") (Complete (PMethods r)) =
    [st "Methods for " ++ mr_type r ++ st ":"] ++
    (match own with [] => [st "  (no methods found)"] | _ => map method_line own end) ++
    (match synthetic with [] => [] | _ => (10%N :: st "Synthetic methods (debug helpers):") :: map synthetic_line synthetic end).
Proof.
  intros repr [ty ms] own synthetic. subst own synthetic. unfold printed. cbn [enc_server enc_payload mr_type mr_methods].
  change (print_methods repr [(st "methods", JArr (map enc_method ms)); (st "type_name", JStr ty)] =
    [st "Methods for " ++ ty ++ st ":"] ++
    (match filter (fun m => negb (mi_synthetic m)) ms with [] => [st "  (no methods found)"] | _ => map method_line (filter (fun m => negb (mi_synthetic m)) ms) end) ++
    (match filter mi_synthetic ms with [] => [] | _ => (10%N :: st "Synthetic methods (debug helpers):") :: map synthetic_line (filter mi_synthetic ms) end)).
  unfold print_methods.
  change (items (get_or "methods" (JArr []) [(st "methods", JArr (map enc_method ms)); (st "type_name", JStr ty)])) with (map enc_method ms).
  change (py_show repr (get_or "type_name" (jtext "Unknown") [(st "methods", JArr (map enc_method ms)); (st "type_name", JStr ty)])) with ty.
  rewrite all_dicts by reflexivity. cbv zeta.
  rewrite (filter_methods _ (fun m => negb (mi_synthetic m))) by reflexivity. rewrite (filter_methods _ mi_synthetic) by reflexivity.
  f_equal. f_equal.
  - destruct (filter (fun m => negb (mi_synthetic m)) ms) as [|x l]; [reflexivity|]. change (map method_line (x :: l)) with (method_line x :: map method_line l). cbn [map]. apply f_equal2; [reflexivity|]. rewrite map_map. apply map_ext. reflexivity.
  - destruct (filter mi_synthetic ms) as [|x l]; [reflexivity|]. cbn [map]. apply f_equal2; [reflexivity|]. apply f_equal2; [reflexivity|]. rewrite map_map. apply map_ext. reflexivity.
Qed.
(** Functions: one line each, with the full path. *)
Definition function_line (f : fninfo) : str :=
  st "  " ++ flat_map (fun x => x ++ st "::") (fn_module f) ++ fn_name f ++ st ": " ++ fn_sig f ++ st (if fn_callable f then " (callable)" else " (not callable)").
Lemma join_path (l : list str) x : l <> [] -> join (st "::") (l ++ [x]) = flat_map (fun y => y ++ st "::") l ++ x.
Proof.
  induction l as [|a l IH]; [contradiction|]. intros _. destruct l as [|b l]; [cbn; rewrite <- !app_assoc; reflexivity|].
  change (join (st "::") ((a :: b :: l) ++ [x])) with (a ++ st "::" ++ join (st "::") ((b :: l) ++ [x])). rewrite IH by discriminate. cbn [flat_map]. rewrite <- !app_assoc. reflexivity.
Qed.
Theorem functions_printed : forall repr l,
  printed repr (st "functions") (Complete (PFunctions l)) =
    match l with [] => [st "No functions found"] | _ => (st "Found " ++ dec (Z.of_nat (List.length l)) ++ st " function(s):") :: map function_line l end.
Proof.
  intros repr l. unfold printed. cbn [enc_server enc_payload].
  change (print_functions repr (map enc_function l) = match l with [] => [st "No functions found"] | _ => (st "Found " ++ dec (Z.of_nat (List.length l)) ++ st " function(s):") :: map function_line l end).
  unfold print_functions. destruct l as [|f l]; [reflexivity|]. set (fs := f :: l).
  assert (E : map enc_function fs = enc_function f :: map enc_function l) by reflexivity. rewrite E at 1. cbv iota beta. rewrite map_length. f_equal.
  rewrite all_dicts by reflexivity. rewrite map_map. apply map_ext. intros [n fu g a c mo]. unfold print_function, function_line.
  change (dict (enc_function (FnInfo n fu g a c mo))) with (the_fields (enc_function (FnInfo n fu g a c mo))).
  set (d := the_fields _).
  assert (G1 : py_show repr (get_or "name" (jtext "") d) = n) by reflexivity. assert (G2 : py_show repr (get_or "signature" (jtext "") d) = g) by reflexivity.
  assert (G3 : map (py_show repr) (items (get_or "module_path" (JArr []) d)) = mo) by (transitivity (map (py_show repr) (map JStr mo)); [reflexivity|]; rewrite map_map; apply map_id).
  assert (G4 : truthy (get "callable" d) = c) by reflexivity. cbv zeta. rewrite G1, G2, G3, G4. cbn [fn_module fn_name fn_sig fn_callable].
  destruct mo as [|m mo]; [reflexivity|]. rewrite join_path by discriminate. rewrite <- !app_assoc. reflexivity.
Qed.
Print Assumptions methods_printed.
Print Assumptions functions_printed.

(** ** C97: to whom commands are sent *)
(** Full claim: a command goes to a connection made for the binary of the selected target. It holds while the target stays
    the same. *)
Definition right_connection (step : option str * bool) (use : option str) : Prop := use = None \/ use = fst step.
Theorem connection_follows_target_partial : forall (p : str) steps, Forall (fun s => fst s = None \/ fst s = Some p) steps -> Forall2 right_connection steps (connections None steps).
Proof.
  intros p steps H. assert (G : forall conn, conn = None \/ conn = Some p -> Forall2 right_connection steps (connections conn steps)); [|apply G; now left].
  induction H as [|[t up] steps Ht F IH]; intros conn Hc; [constructor|]. cbn [fst] in Ht. cbn [connections].
  destruct Ht as [-> | ->]; cbn [get_connection].
  - constructor; [now left | now apply IH].
  - destruct Hc as [-> | ->]; [destruct up|]; (constructor; [|apply IH; auto]); [right; reflexivity | now left | right; reflexivity].
Qed.
(** With another target selected, commands still go to the first one's debug info. *)
Theorem connection_follows_target_refuted : forall p q : str, p <> q -> exists steps, ~ Forall2 right_connection steps (connections None steps).
Proof.
  intros p q H. exists [(Some p, true); (Some q, true)]. cbn. intros F. inversion F as [|? ? ? ? _ F2]; subst. inversion F2 as [|? ? ? ? [R|R] _]; subst; cbn in R; congruence.
Qed.
Print Assumptions connection_follows_target_partial.
