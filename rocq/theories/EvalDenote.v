(** Evaluating against a stopped target: what an expression without calls shows is what the target's memory holds. *)
From Coq Require Import Ascii String List ZArith Lia Bool.
From Verif Require Import Base NumText OMap TypesModel ValueModel DataModel AccessModel SynthModel LocModel FnModel DiscoverModel ExprModel ProcModel ProcSpec ProcProofs IoDataModel IoDataProofs EvalModel EvalSpec EvalProofs.
Import ListNotations.
Open Scope Z_scope.

(** Reading a value never gives a bare pointer. *)
Definition bare (v : value) : Prop := match v with VPtr _ _ => False | _ => True end.
Lemma bare_map_type f v : bare v -> bare (map_type f v).
Proof. destruct v; auto. Qed.
Lemma read_bare E n a t v : read E n a t = Ok v -> bare v.
Proof.
  revert a t v. induction n as [|n IH]; intros a t v H; [discriminate|]. cbn [read] in H.
  assert (P : forall l w, read_primitive E (read E n) a l = Ok w -> bare w).
  { intros l w Q. unfold read_primitive in Q. destruct l; try discriminate;
    repeat match goal with
    | Q : bind _ _ = Ok _ |- _ => apply bind_ok in Q; destruct Q as (? & ? & Q)
    | Q : Ok _ = Ok _ |- _ => injection Q as <-
    | Q : (if ?x then _ else _) = Ok _ |- _ => destruct x; try discriminate
    | Q : match ?x with _ => _ end = Ok _ |- _ => destruct x; try discriminate
    end; try exact I; apply bare_map_type; eapply IH; eassumption. }
  assert (Q0 : forall l w, read_std E (read E n) a l = Ok w -> bare w).
  { intros l w Q. unfold read_std, read_option in Q. destruct l; try discriminate;
    repeat match goal with
    | Q : bind _ _ = Ok _ |- _ => apply bind_ok in Q; destruct Q as (? & ? & Q)
    | Q : Ok _ = Ok _ |- _ => injection Q as <-
    | Q : (if ?x then _ else _) = Ok _ |- _ => destruct x; try discriminate
    | Q : (let '(_, _) := ?x in _) = Ok _ |- _ => destruct x
    | Q : match ?x with _ => _ end = Ok _ |- _ => destruct x; try discriminate
    end; try exact I; apply bare_map_type; try exact I; try (eapply IH; eassumption). }
  destruct (layOf t) eqn:L; try (eapply P; eassumption); try (eapply Q0; eassumption).
  - apply bind_ok in H. destruct H as (m & _ & H). injection H as <-. exact I.
  - unfold read_enum in H. apply bind_ok in H. destruct H as (dd & _ & H). apply bind_ok in H. destruct H as (w & _ & H). apply bind_ok in H. destruct H as (x & H & F). injection F as <-. apply IH in H.
    unfold variant_value. destruct x; try exact H. destruct fields; [exact I|]. destruct (forallb _ _); exact I.
  - unfold read_c_enum in H. apply bind_ok in H. destruct H as (dd & _ & H). destruct (find _ _); [injection H as <-; exact I | discriminate].
  - apply bind_ok in H. destruct H as (u & _ & H). eapply IH; exact H.
Qed.

Section Stopped.
Context {S : Type} (c : client S) (s : S) (D : dbg) (pc0 : Z).
Hypothesis stopped : steady c s.
Hypothesis frame : exists sp fp, fst (c s GetFrameInfo) = Replied (FrameInfo pc0 sp fp).
Let E := shown_env c s (g_env D).
Let n := g_fuel D.
Definition pc_ok (pc : option Z) : Prop := pc = None \/ pc = Some pc0.
Definition eval_to {A} (x : ev A) (r : res A) : Prop := forall pc, pc_ok pc -> exists pc', pc_ok pc' /\ yields c s (x pc) (r, pc').
Lemma eval_lift {A} (r : res A) : eval_to (elift r) r.
Proof. intros pc H. exists pc. split; [exact H | apply yields_ret]. Qed.
Lemma eval_io {A} (p : io A) r : yields c s p r -> eval_to (eio p) r.
Proof. intros Y pc H. exists pc. split; [exact H|]. eapply yields_pbind; [exact Y | apply yields_ret]. Qed.
Lemma eval_bind {A B} (x : ev A) (f : A -> ev B) r r' :
  eval_to x r -> (forall a, r = Ok a -> eval_to (f a) (r' a)) -> eval_to (ebind x f) (bind r r').
Proof.
  intros H K pc P. destruct (H pc P) as (pc1 & P1 & Y). destruct r as [a|m|m|]; cbn [bind].
  - destruct (K a eq_refl pc1 P1) as (pc2 & P2 & Y2). exists pc2. split; [exact P2|]. eapply yields_pbind; [exact Y | exact Y2].
  - exists pc1. split; [exact P1|]. eapply yields_pbind; [exact Y | apply yields_ret].
  - exists pc1. split; [exact P1|]. eapply yields_pbind; [exact Y | apply yields_ret].
  - exists pc1. split; [exact P1|]. eapply yields_pbind; [exact Y | apply yields_ret].
Qed.
Lemma eval_pc : eval_to get_pc (Ok pc0).
Proof.
  intros pc [-> | ->].
  - exists (Some pc0). split; [now right|]. destruct frame as (sp & fp & F). pose proof (stopped GetFrameInfo Logic.I) as T. unfold yields, outcome, after. cbn. destruct (c s GetFrameInfo) as [x s1]. cbn in *. subst. auto.
  - exists (Some pc0). split; [now right | apply yields_ret].
Qed.
(** A step that ends, with a value exactly when [R] holds of it. *)
Definition settles {A} (x : ev A) (R : A -> Prop) : Prop := exists r, eval_to x r /\ forall a, r = Ok a <-> R a.
Lemma settles_lift {A} (r : res A) : settles (elift r) (fun a => r = Ok a).
Proof. exists r. split; [apply eval_lift | tauto]. Qed.
Lemma settles_io {A} (p : io A) r : yields c s p r -> settles (eio p) (fun a => r = Ok a).
Proof. exists r. split; [now apply eval_io | tauto]. Qed.
Lemma settles_ret {A} (a : A) : settles (eret a) (fun b => b = a).
Proof. exists (Ok a). split; [apply eval_lift|]. intros b. split; congruence. Qed.
Lemma settles_fail {A} m : @settles A (efail m) (fun _ => False).
Proof. exists (Err m). split; [apply eval_lift|]. intros b. split; [discriminate | tauto]. Qed.
Lemma settles_imp {A} (x : ev A) R R' : (forall a, R a <-> R' a) -> settles x R -> settles x R'.
Proof. intros H (r & Y & K). exists r. split; [exact Y|]. intros a. now rewrite K. Qed.
Lemma settles_bind {A B} (x : ev A) (f : A -> ev B) R Q : settles x R -> (forall a, R a -> settles (f a) (Q a)) -> settles (ebind x f) (fun b => exists a, R a /\ Q a b).
Proof.
  intros (r & Y & K) H. destruct r as [a|m|m|].
  - pose proof (proj1 (K a) eq_refl) as Ra. destruct (H a Ra) as (r' & Y' & K'). exists r'. split.
    + intros pc P. destruct (Y pc P) as (pc1 & P1 & Y1). destruct (Y' pc1 P1) as (pc2 & P2 & Y2). exists pc2. split; [exact P2|]. eapply yields_pbind; [exact Y1 | exact Y2].
    + intros b. rewrite K'. split; [eauto|]. intros (a' & Ra' & Qb). apply K in Ra'. injection Ra' as <-. exact Qb.
  - exists (Err m). split; [apply (eval_bind x f (Err m) (fun _ => Err m) Y); discriminate|]. intros b. split; [discriminate|]. intros (a & Ra & _). apply K in Ra. discriminate.
  - exists (Panic m). split; [apply (eval_bind x f (Panic m) (fun _ => Panic m) Y); discriminate|]. intros b. split; [discriminate|]. intros (a & Ra & _). apply K in Ra. discriminate.
  - exists Fuel. split; [apply (eval_bind x f Fuel (fun _ => Fuel) Y); discriminate|]. intros b. split; [discriminate|]. intros (a & Ra & _). apply K in Ra. discriminate.
Qed.
Lemma settles_then {A B} (x : ev A) (p : A -> io B) R (r : A -> res B) : settles x R -> (forall a, yields c s (p a) (r a)) ->
  settles (ebind x (fun a => eio (p a))) (fun b => exists a, R a /\ r a = Ok b).
Proof. intros H K. apply (settles_bind _ _ R (fun a b => r a = Ok b)); [exact H|]. intros a _. now apply settles_io. Qed.
Lemma settles_det {A} (x : ev A) R R' : settles x R -> settles x R' -> forall a, R a <-> R' a.
Proof.
  intros (r & Y & K) (r' & Y' & K') a. rewrite <- K, <- K'. destruct (Y None (or_introl eq_refl)) as (p1 & _ & Z1). destruct (Y' None (or_introl eq_refl)) as (p2 & _ & Z2).
  pose proof (yields_fun _ _ _ _ _ Z1 Z2) as F. injection F as -> _. tauto.
Qed.

(** ** Values *)
Lemma y_pointer p : yields c s (read_pointer D p) (read E n (fst p) (snd p)).
Proof. unfold read_pointer. apply (y_read S c s stopped (g_env D)). Qed.
Definition scalar_text {A} (f : str -> res A) (m : string) (v : value) : res A := match v with VScalar _ x => f x | _ => Err m end.
Lemma y_int p : yields c s (read_int D n p) (v <- read E n (fst p) (snd p) ;; scalar_text int_of_text "Expected scalar integer value" v).
Proof.
  pose proof (y_pointer p) as Y. destruct n as [|n']; [apply yields_ret|]. cbn [read_int]. apply yields_bind; [exact Y|]. intros v R. apply read_bare in R. destruct v; first [apply yields_ret | destruct R].
Qed.
Lemma y_str p : yields c s (read_str D n p) (v <- read E n (fst p) (snd p) ;; scalar_text (fun x => Ok (trim_matches (ch """") x)) "Expected scalar string value" v).
Proof.
  pose proof (y_pointer p) as Y. destruct n as [|n']; [apply yields_ret|]. cbn [read_str]. apply yields_bind; [exact Y|]. intros v R. apply read_bare in R. destruct v; first [apply yields_ret | destruct R].
Qed.
(** Unfolding for a fixed memory. *)
Fixpoint unfold_value (k : nat) (v : value) : res value :=
  match k with
  | O => Ok v
  | Datatypes.S k' =>
      match v with
      | VPtr a t => x <- read E n a t ;; unfold_value k' x
      | VScalar _ _ => Ok v
      | VArray ty l => r <- mapM (unfold_value k') l ;; Ok (VArray ty r)
      | VStruct ty l => r <- mapM (fun f => x <- unfold_value k' (snd f) ;; Ok (fst f, x)) l ;; Ok (VStruct ty r)
      | VTuple ty l => r <- mapM (unfold_value k') l ;; Ok (VTuple ty r)
      | VMap ty l => r <- mapM (fun e => a <- unfold_value k' (fst e) ;; b <- unfold_value k' (snd e) ;; Ok (a, b)) l ;; Ok (VMap ty r)
      end
  end.
Lemma y_expand k v : yields c s (expand D k v) (unfold_value k v).
Proof.
  revert v. induction k as [|k IH]; intros v; [apply yields_ret|]. cbn [expand unfold_value]. destruct v as [ty x|ty l|ty l|ty l|ty l|a t].
  - apply yields_ret.
  - apply yields_bind; [apply yields_imapM; intros; apply IH|]. intros; apply yields_ret.
  - apply yields_bind; [apply (yields_imapM c s _ (fun f => x <- unfold_value k (snd f) ;; Ok (fst f, x))); intros; apply yields_bind; [apply IH | intros; apply yields_ret]|]. intros; apply yields_ret.
  - apply yields_bind; [apply yields_imapM; intros; apply IH|]. intros; apply yields_ret.
  - apply yields_bind; [apply (yields_imapM c s _ (fun e => a <- unfold_value k (fst e) ;; b <- unfold_value k (snd e) ;; Ok (a, b))); intros; apply yields_bind; [apply IH | intros; apply yields_bind; [apply IH | intros; apply yields_ret]]|]. intros; apply yields_ret.
  - apply yields_bind; [apply y_pointer|]. intros; apply IH.
Qed.
Lemma mapM_exact {A B} (f : A -> res B) (R : A -> B -> Prop) l r : (forall a b, f a = Ok b <-> R a b) -> mapM f l = Ok r <-> Forall2 R l r.
Proof.
  intros H. revert r. induction l as [|a l IH]; intros r; cbn [mapM].
  - split; [intros Q; injection Q as <-; constructor | intros Q; inversion Q; reflexivity].
  - rewrite bind_ok. split.
    + intros (b & Fb & Q). apply bind_ok in Q. destruct Q as (bs & Fbs & Q). injection Q as <-. constructor; [now apply H | now apply IH].
    + intros Q. inversion Q as [|a' b l' bs Rb Rbs]; subst. exists b. split; [now apply H|]. apply bind_ok. exists bs. split; [now apply IH | reflexivity].
Qed.
Lemma unfold_exact k v w : unfold_value k v = Ok w <-> unfolded c s D k v w.
Proof.
  revert v w. induction k as [|k IH]; intros v w; cbn [unfold_value].
  - split; [intros Q; injection Q as <-; constructor | intros Q; inversion Q; reflexivity].
  - destruct v as [ty x|ty l|ty l|ty l|ty l|a t].
    + split; [intros Q; injection Q as <-; constructor | intros Q; inversion Q; reflexivity].
    + rewrite bind_ok. split.
      * intros (r & Q & F). injection F as <-. constructor. now apply (mapM_exact _ _ _ _ (fun a b => IH a b)).
      * intros Q. inversion Q; subst. exists l'. split; [now apply (mapM_exact _ _ _ _ (fun a b => IH a b)) | reflexivity].
    + assert (X : forall r, mapM (fun f => x <- unfold_value k (snd f) ;; Ok (fst f, x)) l = Ok r <-> Forall2 (fun f g => fst g = fst f /\ unfolded c s D k (snd f) (snd g)) l r).
      { intros r. apply mapM_exact. intros f g. rewrite bind_ok. split.
        - intros (x & Q & F). injection F as <-. cbn. split; [reflexivity | now apply IH].
        - intros (N & Q). exists (snd g). split; [now apply IH|]. destruct g; cbn in *. now subst. }
      rewrite bind_ok. split.
      * intros (r & Q & F). injection F as <-. constructor. now apply X.
      * intros Q. inversion Q; subst. exists l'. split; [now apply X | reflexivity].
    + rewrite bind_ok. split.
      * intros (r & Q & F). injection F as <-. constructor. now apply (mapM_exact _ _ _ _ (fun a b => IH a b)).
      * intros Q. inversion Q; subst. exists l'. split; [now apply (mapM_exact _ _ _ _ (fun a b => IH a b)) | reflexivity].
    + assert (X : forall r, mapM (fun e => a <- unfold_value k (fst e) ;; b <- unfold_value k (snd e) ;; Ok (a, b)) l = Ok r <-> Forall2 (fun f g => unfolded c s D k (fst f) (fst g) /\ unfolded c s D k (snd f) (snd g)) l r).
      { intros r. apply mapM_exact. intros f g. rewrite bind_ok. split.
        - intros (x & Q & F). apply bind_ok in F. destruct F as (y & F & G). injection G as <-. cbn. split; now apply IH.
        - intros (N & Q). exists (fst g). split; [now apply IH|]. apply bind_ok. exists (snd g). split; [now apply IH | now destruct g]. }
      rewrite bind_ok. split.
      * intros (r & Q & F). injection F as <-. constructor. now apply X.
      * intros Q. inversion Q; subst. exists l'. split; [now apply X | reflexivity].
    + rewrite bind_ok. split.
      * intros (x & R & Q). econstructor; [exact R | now apply IH].
      * intros Q. inversion Q; subst. eexists. split; [eassumption | now apply IH].
Qed.
Lemma y_result p : yields c s (pointer_to_result D p) (v <- read E n (fst p) (snd p) ;; w <- unfold_value 8 v ;; Ok (EResult (format_value w) (tname (snd p)))).
Proof. apply yields_bind; [apply y_pointer|]. intros. apply yields_bind; [apply y_expand|]. intros; apply yields_ret. Qed.

(** ** Expressions *)
Lemma settles_pc : settles get_pc (fun a => a = pc0).
Proof. exists (Ok pc0). split; [apply eval_pc|]. intros a. split; congruence. Qed.
Lemma settles_variable x : settles (variable_ref D x) (place c s D pc0 (EVariable x)).
Proof.
  set (Q := fun (o : option vplan) (b : tptr) => match o with None => False | Some pl => exists a, resolve_data_location (shown_regs c s) (vp_fb pl) (vp_base pl) (vp_loc pl) = Ok (Some a) /\ exists t, vp_ty pl = Ok t /\ b = (a, t) end).
  apply (settles_imp _ (fun b => exists a, a = pc0 /\ exists o, g_variable D a x = Ok o /\ Q o b)).
  - intros b. split.
    + intros (p & -> & o & V & H). destruct o as [pl|]; [|destruct H]. destruct H as (a & L & t & T & ->). econstructor; eassumption.
    + intros H. inversion H; subst. exists pc0. split; [reflexivity|]. eexists. split; [eassumption|]. cbn. eauto.
  - apply (settles_bind _ _ _ (fun a b => exists o, g_variable D a x = Ok o /\ Q o b)); [apply settles_pc|]. intros a _. apply settles_bind; [apply settles_lift|]. intros o _.
    destruct o as [pl|]; [|apply settles_fail].
    apply (settles_imp _ (fun b => exists oa, resolve_data_location (shown_regs c s) (vp_fb pl) (vp_base pl) (vp_loc pl) = Ok oa /\ exists t, vp_ty pl = Ok t /\ match oa with None => False | Some a => b = (a, t) end)).
    + intros b. split.
      * intros (oa & L & t & T & H). destruct oa as [a'|]; [|destruct H]. exists a'. split; [exact L|]. eauto.
      * intros (a' & L & t & T & H). exists (Some a'). split; [exact L|]. eauto.
    + apply (settles_bind _ _ _ (fun oa b => exists t, vp_ty pl = Ok t /\ match oa with None => False | Some a => b = (a, t) end)).
      * apply settles_io. apply (y_location S c s stopped).
      * intros oa _. apply (settles_bind _ _ _ (fun t b => match oa with None => False | Some a => b = (a, t) end)); [apply settles_lift|]. intros t _. destruct oa; [apply settles_ret | apply settles_fail].
Qed.
(** The four evaluations of an expression that stands for a place. *)
Record all_settle (e : expr) (x : evs) : Prop := {
  as_ref : settles (e_ref x) (place c s D pc0 e);
  as_val : settles (e_val x) (shows_as c s D pc0 e);
  as_int : settles (e_int x) (number c s D pc0 e);
  as_str : settles (e_str x) (text c s D pc0 e) }.
Definition by_place (e : expr) : Prop := match e with EVariable _ | EField _ _ | EIndex _ _ => True | _ => False end.
Lemma all_of_place e r : by_place e -> settles r (place c s D pc0 e) -> all_settle e (of_ref D r).
Proof.
  intros B H. constructor; cbn [of_ref e_ref e_val e_int e_str]; [exact H | ..].
  - eapply settles_imp; [|eapply settles_then; [exact H | apply y_result]]. intros b. cbn beta. split.
    + intros (p & P & Q). apply bind_ok in Q. destruct Q as (v & R & Q). apply bind_ok in Q. destruct Q as (w & U & Q). injection Q as <-. econstructor; [exact P | exact R | now apply unfold_exact].
    + intros Q. inversion Q; subst; try (destruct B). exists p. split; [assumption|]. apply bind_ok. exists v. split; [assumption|]. apply bind_ok. exists w. split; [now apply unfold_exact | reflexivity].
  - eapply settles_imp; [|eapply settles_then; [exact H | apply y_int]]. intros b. cbn beta. split.
    + intros (p & P & Q). apply bind_ok in Q. destruct Q as (v & R & Q). destruct v; try discriminate. eapply nu_place; eassumption.
    + intros Q. inversion Q; subst; try (destruct B). exists p. split; [assumption|]. apply bind_ok. eexists. split; [eassumption | assumption].
  - eapply settles_imp; [|eapply settles_then; [exact H | apply y_str]]. intros b. cbn beta. split.
    + intros (p & P & Q). apply bind_ok in Q. destruct Q as (v & R & Q). destruct v; try discriminate. injection Q as <-. eapply tx_place; eassumption.
    + intros Q. inversion Q; subst; try (destruct B). exists p. split; [assumption|]. apply bind_ok. eexists. split; [eassumption | reflexivity].
Qed.
Lemma no_place e p : ~ by_place e -> ~ place c s D pc0 e p.
Proof. intros H P. inversion P; subst; apply H; exact I. Qed.
Lemma settles_none {A} m (R : A -> Prop) : (forall a, ~ R a) -> settles (efail m) R.
Proof. intros H. eapply settles_imp; [|apply settles_fail]. intros a. split; [tauto | apply H]. Qed.
Lemma settles_index b i x y : all_settle b x -> all_settle i y -> settles (index_ref D x y) (place c s D pc0 (EIndex b i)).
Proof.
  intros Hb Hi.
  apply (settles_imp _ (fun q => exists p, place c s D pc0 b p /\
    if is_map (layOf (snd p)) then exists k, text c s D pc0 i k /\ index_map E n (fst p) (snd p) (VScalar (st "String") k) = Ok q
    else exists k, number c s D pc0 i k /\ index_int E n (fst p) (snd p) k = Ok q)).
  - intros q. split.
    + intros (p & P & H). destruct (is_map (layOf (snd p))) eqn:M.
      * destruct H as (k & T & H). destruct (layOf (snd p)) eqn:L; try discriminate. eapply pl_key; eassumption.
      * destruct H as (k & N & H). eapply pl_index; [exact P | | exact N | exact H]. intros kt vt mv L. rewrite L in M. discriminate.
    + intros H. inversion H as [| |b' i' p k q' P NM N X|b' i' p kt vt mv k q' P L T X]; subst; exists p; (split; [exact P|]).
      * destruct (is_map (layOf (snd p))) eqn:M; [destruct (layOf (snd p)) eqn:L; try discriminate; destruct (NM _ _ _ eq_refl)|]. eauto.
      * rewrite L. cbn [is_map]. eauto.
  - apply settles_bind; [apply (as_ref _ _ Hb)|]. intros p _. destruct (is_map (layOf (snd p))).
    + apply settles_bind; [apply (as_str _ _ Hi)|]. intros k _. apply settles_io. apply (y_index_map S c s stopped (g_env D)).
    + apply settles_bind; [apply (as_int _ _ Hi)|]. intros k _. apply settles_io. apply (y_index_int S c s stopped (g_env D)).
Qed.
Lemma not_by_place e : match e with EVariable _ | EField _ _ | EIndex _ _ => False | _ => True end -> forall p, ~ place c s D pc0 e p.
Proof. intros H p. apply no_place. destruct e; cbn in *; tauto. Qed.
Lemma all_denote e : no_calls e -> all_settle e (evaluate D e).
Proof.
  induction e as [x|g|b g|b f Hb|b i Hb Hi|e He|mm e He|v|v|e He|b m l Hb Hl|f l Hl] using expr_nested_ind; intros NC; cbn [evaluate].
  - apply all_of_place; [exact I | apply settles_variable].
  - constructor; apply settles_none; intros a Q; inversion Q; subst; eapply not_by_place; try eassumption; exact I.
  - constructor; apply settles_none; intros a Q; inversion Q; subst; eapply not_by_place; try eassumption; exact I.
  - apply all_of_place; [exact I|]. apply (settles_imp _ (fun q => exists p, place c s D pc0 b p /\ get_struct_field (fst p) (snd p) f = Ok q)).
    + intros q. split; [intros (p & P & F); econstructor; eassumption | intros Q; inversion Q; subst; eauto].
    + apply settles_bind; [apply (as_ref b)|intros; apply settles_lift]. apply Hb. intros x P. apply NC. now apply part_field.
  - apply all_of_place; [exact I|]. apply settles_index; [apply Hb | apply Hi]; intros x P; apply NC; [now apply part_base | now apply part_index].
  - constructor; apply settles_none; intros a Q; inversion Q; subst; eapply not_by_place; try eassumption; exact I.
  - constructor; apply settles_none; intros a Q; inversion Q; subst; eapply not_by_place; try eassumption; exact I.
  - constructor; cbn [e_ref e_val e_int e_str].
    + apply settles_none. intros a Q. inversion Q.
    + eapply settles_imp; [|apply settles_ret]. intros a. split; [intros ->; constructor | intros Q; inversion Q; subst; [reflexivity | exfalso; eapply not_by_place; [|eassumption]; exact I]].
    + eapply settles_imp; [|apply settles_ret]. intros a. split; [intros ->; constructor | intros Q; inversion Q; subst; [reflexivity | exfalso; eapply not_by_place; [|eassumption]; exact I]].
    + apply settles_none. intros a Q. inversion Q; subst. eapply not_by_place; [|eassumption]; exact I.
  - constructor; cbn [e_ref e_val e_int e_str].
    + apply settles_none. intros a Q. inversion Q.
    + eapply settles_imp; [|apply settles_ret]. intros a. split; [intros ->; constructor | intros Q; inversion Q; subst; [reflexivity | exfalso; eapply not_by_place; [|eassumption]; exact I]].
    + apply settles_none. intros a Q. inversion Q; subst. eapply not_by_place; [|eassumption]; exact I.
    + eapply settles_imp; [|apply settles_ret]. intros a. split; [intros ->; constructor | intros Q; inversion Q; subst; [reflexivity | exfalso; eapply not_by_place; [|eassumption]; exact I]].
  - assert (H : all_settle e (evaluate D e)) by (apply He; intros x P; apply NC; now apply part_paren). constructor; cbn [e_ref e_val e_int e_str].
    + apply settles_none. intros a Q. inversion Q.
    + eapply settles_imp; [|apply (as_val _ _ H)]. intros a. split; [now constructor | intros Q; inversion Q; subst; [assumption | exfalso; eapply not_by_place; [|eassumption]; exact I]].
    + eapply settles_imp; [|apply (as_int _ _ H)]. intros a. split; [now constructor | intros Q; inversion Q; subst; [assumption | exfalso; eapply not_by_place; [|eassumption]; exact I]].
    + eapply settles_imp; [|apply (as_str _ _ H)]. intros a. split; [now constructor | intros Q; inversion Q; subst; [assumption | exfalso; eapply not_by_place; [|eassumption]; exact I]].
  - destruct (NC _ (part_self _)).
  - destruct (NC _ (part_self _)).
Qed.
End Stopped.
