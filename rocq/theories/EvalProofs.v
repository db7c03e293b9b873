(** C45: which events an evaluation sends. *)
From Coq Require Import Ascii String List ZArith Lia Bool.
From Verif Require Import Base NumText OMap TypesModel ValueModel DataModel AccessModel SynthModel LocModel FnModel DiscoverModel ExprModel ProcModel ProcSpec ProcProofs IoDataModel IoDataProofs EvalModel EvalSpec.
Import ListNotations.
Open Scope Z_scope.

Section ExprInd.
Variable P : expr -> Prop.
Hypothesis HV : forall n, P (EVariable n).
Hypothesis HP : forall s, P (EPath s).
Hypothesis HG : forall b a, P (EGeneric b a).
Hypothesis HF : forall b f, P b -> P (EField b f).
Hypothesis HI : forall b i, P b -> P i -> P (EIndex b i).
Hypothesis HD : forall e, P e -> P (EDeref e).
Hypothesis HA : forall m e, P e -> P (EAddressOf m e).
Hypothesis HN : forall v, P (ENumber v).
Hypothesis HS : forall v, P (EString v).
Hypothesis HPa : forall e, P e -> P (EParen e).
Hypothesis HM : forall b m args, P b -> Forall P args -> P (EMethodCall b m args).
Hypothesis HC : forall f args, Forall P args -> P (ECall f args).
Fixpoint expr_nested_ind (e : expr) : P e :=
  let all := fix all (l : list expr) : Forall P l := match l with [] => Forall_nil _ | a :: l' => Forall_cons _ (expr_nested_ind a) (all l') end in
  match e with
  | EVariable n => HV n | EPath s => HP s | EGeneric b a => HG b a
  | EField b f => HF b f (expr_nested_ind b) | EIndex b i => HI b i (expr_nested_ind b) (expr_nested_ind i)
  | EDeref i => HD i (expr_nested_ind i) | EAddressOf m i => HA m i (expr_nested_ind i)
  | ENumber v => HN v | EString v => HS v | EParen i => HPa i (expr_nested_ind i)
  | EMethodCall b m args => HM b m args (expr_nested_ind b) (all args)
  | ECall f args => HC f args (all args)
  end.
End ExprInd.

(** The events of the evaluator's steps. *)
Definition eonly {A} (P : request -> Prop) (x : ev A) : Prop := forall pc, only P (x pc).
Lemma eonly_imp {A} (P Q : request -> Prop) (x : ev A) : (forall q, P q -> Q q) -> eonly P x -> eonly Q x.
Proof. intros H K pc. eapply only_imp; [exact H | apply K]. Qed.
Lemma eonly_bind {A B} P (x : ev A) (f : A -> ev B) : eonly P x -> (forall a, eonly P (f a)) -> eonly P (ebind x f).
Proof. intros H K pc. apply only_bind; [apply H|]. intros [[a|m|m|] pc1]; cbn; try exact I. apply K. Qed.
Lemma eonly_match {A B} P (x : ev A) (f : A -> ev B) y : eonly P x -> (forall a, eonly P (f a)) -> eonly P y -> eonly P (ematch x f y).
Proof. intros H K L pc. apply only_bind; [apply H|]. intros [[a|m|m|] pc1]; cbn; try exact I; [apply K | apply L]. Qed.
Lemma eonly_lift {A} P (r : res A) : eonly P (elift r).
Proof. intros pc. exact I. Qed.
Lemma eonly_ret {A} P (a : A) : eonly P (eret a).
Proof. intros pc. exact I. Qed.
Lemma eonly_fail {A} P m : @eonly A P (efail m).
Proof. intros pc. exact I. Qed.
Lemma eonly_io {A} P (p : io A) : only P p -> eonly P (eio p).
Proof. intros H pc. apply only_bind; [exact H|]. intros; exact I. Qed.
(** A bind whose continuation may use what the first step can return. *)
Lemma eonly_lift_bind {A B} P (r : res A) (f : A -> ev B) : (forall a, r = Ok a -> eonly P (f a)) -> eonly P (ebind (elift r) f).
Proof. intros H pc. cbn. destruct r as [a|m|m|]; try exact I. now apply H. Qed.


Section Events.
Variable D : dbg.
(** Memory, registers and the frame. *)
Definition inspects (q : request) : Prop := reads_only q \/ q = GetFrameInfo.
Lemma inspects_reads {A} (p : prog A) : only reads_only p -> only inspects p.
Proof. apply only_imp. intros q H. now left. Qed.
Lemma only_pointer p : only reads_only (read_pointer D p).
Proof. apply only_read. Qed.
Lemma only_expand d v : only reads_only (expand D d v).
Proof.
  revert v. induction d as [|d IH]; intros v; [exact I|]. cbn [expand]. destruct v as [ty x|ty l|ty l|ty l|ty l|a t]; try exact I.
  - apply only_ibind; [apply only_imapM; intros; apply IH|]. intros; exact I.
  - apply only_ibind; [apply only_imapM; intros; apply only_ibind; [apply IH | intros; exact I]|]. intros; exact I.
  - apply only_ibind; [apply only_imapM; intros; apply IH|]. intros; exact I.
  - apply only_ibind; [apply only_imapM; intros; apply only_ibind; [apply IH | intros; apply only_ibind; [apply IH | intros; exact I]]|]. intros; exact I.
  - apply only_ibind; [apply only_pointer|]. intros; apply IH.
Qed.
Lemma only_result p : only reads_only (pointer_to_result D p).
Proof. apply only_ibind; [apply only_pointer|]. intros. apply only_ibind; [apply only_expand|]. intros; exact I. Qed.
Lemma only_read_int n p : only reads_only (read_int D n p).
Proof. revert p. induction n as [|n IH]; intros p; [exact I|]. cbn [read_int]. apply only_ibind; [apply only_pointer|]. intros []; cbn; auto. Qed.
Lemma only_read_str n p : only reads_only (read_str D n p).
Proof. revert p. induction n as [|n IH]; intros p; [exact I|]. cbn [read_str]. apply only_ibind; [apply only_pointer|]. intros []; cbn; auto. Qed.
Lemma eonly_pc : eonly inspects get_pc.
Proof. intros [p|]; cbn; [exact I|]. split; [now right|]. intros [[]|]; exact I. Qed.
Lemma eonly_variable x : eonly inspects (variable_ref D x).
Proof.
  apply eonly_bind; [apply eonly_pc|]. intros pc. apply eonly_bind; [apply eonly_lift|]. intros [pl|]; [|apply eonly_fail].
  apply eonly_bind; [apply eonly_io, inspects_reads, only_location|]. intros a. apply eonly_bind; [apply eonly_lift|]. intros t. destruct a; [apply eonly_ret | apply eonly_fail].
Qed.
(** All four ways of evaluating. *)
Definition all_only (P : request -> Prop) (x : evs) : Prop := eonly P (e_ref x) /\ eonly P (e_val x) /\ eonly P (e_int x) /\ eonly P (e_str x).
Lemma all_of_ref (P : request -> Prop) r : (forall q, inspects q -> P q) -> eonly P r -> all_only P (of_ref D r).
Proof.
  intros H K. assert (L : forall A (p : io A), only reads_only p -> eonly P (eio p)) by (intros; apply eonly_io; eapply only_imp; [exact H | now apply inspects_reads]).
  repeat split; cbn [of_ref e_ref e_val e_int e_str]; auto; (apply eonly_bind; [exact K|]); intros p; apply L; [apply only_result | apply only_read_int | apply only_read_str].
Qed.
Lemma all_no P : all_only P (Evs no no no no).
Proof. repeat split; apply eonly_fail. Qed.
Lemma eonly_index (P : request -> Prop) x y : (forall q, inspects q -> P q) -> all_only P x -> all_only P y -> eonly P (index_ref D x y).
Proof.
  intros H (Hx & _) (_ & _ & Hi & Hs). apply eonly_bind; [exact Hx|]. intros p. destruct (is_map _).
  - apply eonly_bind; [exact Hs|]. intros. apply eonly_io. eapply only_imp; [exact H|]. apply inspects_reads, only_index_map.
  - apply eonly_bind; [exact Hi|]. intros. apply eonly_io. eapply only_imp; [exact H|]. apply inspects_reads, only_index_int.
Qed.
Lemma only_create (P : request -> Prop) v t : (forall q, reads_only q -> P q) -> (forall n, P (AllocateMemory n)) -> (forall a d, P (WriteMemory a d)) -> only P (icreate_typed_value v t).
Proof.
  intros R Al W.
  assert (HA : forall n, only P (ialloc n)) by (intros; apply only_ask; auto).
  assert (HW : forall a d, only P (iwrite a d)) by (intros; apply only_ask; auto).
  assert (HR : forall a n, only P (rdm a n)) by (intros; apply only_ask; apply R; exact I).
  unfold icreate_typed_value, icreate_str_slice, icreate_string. destruct (layOf t); try exact I.
  all: repeat first [exact I | apply HA | apply HW | apply HR | apply only_ibind; [|intros] | match goal with |- only _ (if ?x then _ else _) => destruct x end].
Qed.

(** What calls a part of [e] contribute is permitted in [e]. *)
Lemma part_trans x y z : part x y -> part y z -> part x z.
Proof.
  intros H K. induction K; [exact H | apply part_field | apply part_base | apply part_index | apply part_deref | apply part_addr | apply part_paren
    | apply part_object | eapply part_marg; [eassumption|] | eapply part_farg; [eassumption|]]; auto.
Qed.
Lemma permitted_part x e q : part x e -> permitted D x q -> permitted D e q.
Proof.
  intros H K. inversion K; subst; try (now constructor).
  - eapply may_method; eauto. eapply part_trans; eauto.
  - eapply may_function; eauto. eapply part_trans; eauto.
  - eapply may_allocate; [|eassumption ..]. eapply part_trans; eauto.
  - eapply may_write; [|eassumption ..]. eapply part_trans; eauto.
Qed.
Lemma inspects_permitted e q : inspects q -> permitted D e q.
Proof. intros [H | ->]; [|constructor]. destruct q; try destruct H; constructor. Qed.
Lemma all_part x e y : part x e -> all_only (permitted D x) y -> all_only (permitted D e) y.
Proof. intros H (A & B & C & F). repeat split; (eapply eonly_imp; [intros q; apply permitted_part, H | assumption]). Qed.
(** Converting an argument [a] of the call [c]. *)
Lemma eonly_arg c args a x t : (exists b m, c = EMethodCall b m args) \/ (exists f, c = ECall f args) -> In a args ->
  all_only (permitted D c) x -> eonly (permitted D c) (convert_arg D a x t).
Proof.
  intros K I (Hr & Hv & _). assert (F : eonly (permitted D c) (ematch (e_ref x)
        (fun p => let^ s := elift (tsize (snd p)) in eret (MArg (hex (fst p)) APointer s))
        (let^ r := e_val x in elift (fallback_arg D r)))).
  { apply eonly_match; [exact Hr | | apply eonly_bind; [exact Hv | intros; apply eonly_lift]]. intros p. apply eonly_bind; [apply eonly_lift | intros; apply eonly_ret]. }
  destruct a as [n|s|b g|b f|b i|e|m e|v|v|e|b m l|f l]; cbn [convert_arg]; try exact F; try apply eonly_fail; try apply eonly_ret.
  destruct t as [t|]; [|apply eonly_fail]. apply eonly_bind; [apply eonly_io, only_create|].
  - intros q Hq. apply inspects_permitted. now left.
  - intros. eapply may_allocate; [apply part_self | exact K | exact I].
  - intros. eapply may_write; [apply part_self | exact K | exact I].
  - intros a. apply eonly_bind; [apply eonly_lift | intros; apply eonly_ret].
Qed.
(** Postcondition of a step: what every result of it satisfies, on every path. *)
Fixpoint leaves {A} (P : request -> Prop) (Q : A -> Prop) (p : prog A) : Prop :=
  match p with Ret a => Q a | Ask q k => P q /\ forall x, leaves P Q (k x) end.
Lemma leaves_bind {A B} P (Q : A -> Prop) (R : B -> Prop) (p : prog A) (f : A -> prog B) :
  leaves P Q p -> (forall a, Q a -> leaves P R (f a)) -> leaves P R (pbind p f).
Proof. intros H K. induction p as [a|q k IH]; cbn [pbind leaves]; [apply K, H|]. destruct H as [Hq Hk]. split; [exact Hq|]. intros x. apply IH, Hk. Qed.
Lemma leaves_only {A} P (Q : A -> Prop) p : leaves P Q p -> only P p.
Proof. induction p as [a|q k IH]; cbn; [auto|]. intros [Hq Hk]. split; auto. Qed.
Lemma only_leaves {A} P (p : prog A) : only P p -> leaves P (fun _ => True) p.
Proof. induction p as [a|q k IH]; cbn; [auto|]. intros [Hq Hk]. split; auto. Qed.
Definition eleaves {A} P (Q : A -> Prop) (x : ev A) : Prop := forall pc, leaves P (fun r => forall a, fst r = Ok a -> Q a) (x pc).
Lemma eleaves_bind {A B} P (Q : A -> Prop) (R : B -> Prop) (x : ev A) (f : A -> ev B) :
  eleaves P Q x -> (forall a, Q a -> eleaves P R (f a)) -> eleaves P R (ebind x f).
Proof.
  intros H K pc. eapply leaves_bind; [apply H|]. intros [[a|m|m|] pc1] Hq; cbn [fst snd]; try (intros ? F; discriminate F). apply K. apply Hq. reflexivity.
Qed.
Lemma eleaves_only {A} P (Q : A -> Prop) (x : ev A) : eleaves P Q x -> eonly P x.
Proof. intros H pc. eapply leaves_only, H. Qed.
Lemma eonly_leaves {A} P (x : ev A) : eonly P x -> eleaves P (fun _ => True) x.
Proof. intros H pc. generalize (H pc). generalize (x pc). induction p as [a|q k IH]; cbn; [auto|]. intros [Hq Hk]. split; auto. Qed.
Lemma eleaves_lift {A} P (Q : A -> Prop) r : (forall a, r = Ok a -> Q a) -> eleaves P Q (elift r).
Proof. intros H pc a E. apply H, E. Qed.
Lemma eleaves_ret {A} P (Q : A -> Prop) a : Q a -> eleaves P Q (eret a).
Proof. intros H pc b E. injection E as <-. exact H. Qed.
Lemma eleaves_args P args ps : Forall (fun a => forall t, eonly P (convert_arg D (fst a) (snd a) t)) args ->
  eleaves P (fun xs => List.length xs = List.length args) (convert_args D args ps).
Proof.
  intros H. revert ps. induction H as [|a args Ha H IH]; intros ps; cbn [convert_args]; [now apply eleaves_ret|].
  eapply eleaves_bind; [apply eonly_leaves, Ha|]. intros x _. eapply eleaves_bind; [apply IH|]. intros xs L. apply eleaves_ret. cbn. now rewrite L.
Qed.
Lemma found_method p m d : find_method D p m = Ok d -> exists ms, g_methods D (snd p) = Ok ms /\ In d ms /\ dm_name d = m /\ dm_self d <> None /\ dm_addr d <> 0.
Proof.
  unfold find_method. intros E. apply bind_ok in E. destruct E as (ms & E & F). unfold rmap in E. apply bind_ok in E. destruct E as (all & E & G). injection G as <-.
  destruct (find _ _) as [d'|] eqn:Fd; [|discriminate]. destruct (dm_addr d' =? 0) eqn:Z0; [discriminate|]. injection F as <-. apply find_some in Fd. destruct Fd as [I N]. apply filter_In in I. destruct I as [I Hs].
  exists all. repeat split; auto; [now apply str_eqb_eq in N | unfold has_self in Hs; destruct (dm_self d'); congruence | now apply Z.eqb_neq].
Qed.
Lemma found_function f n d : find_function D f n = Ok d -> exists fs, g_functions D f = Ok (d :: fs) /\ df_addr d <> 0 /\ n = List.length (df_params d).
Proof.
  unfold find_function. intros E. apply bind_ok in E. destruct E as (fs & E & F). destruct fs as [|d' fs]; [discriminate|]. destruct (df_addr d' =? 0) eqn:Z0; [discriminate|].
  destruct (_ =? _)%nat eqn:L; [|discriminate]. injection F as <-. exists fs. repeat split; auto; [now apply Z.eqb_neq | now apply Nat.eqb_eq].
Qed.
Lemma eonly_call_method b m args xs p : map fst xs = args -> Forall (fun a => all_only (permitted D (EMethodCall b m args)) (snd a)) xs ->
  eonly (permitted D (EMethodCall b m args)) (call_method D p m xs).
Proof.
  intros Hx H. set (c := EMethodCall b m args) in *. apply (eleaves_only _ (fun _ => True)).
  eapply eleaves_bind; [apply eleaves_lift; intros d E; exact E|]. intros d E. destruct (found_method _ _ _ E) as (ms & M & I & Nm & Sf & Ad). 
  eapply eleaves_bind.
  - apply eleaves_args. rewrite Forall_forall in *. intros a Ia t. apply (eonly_arg c args); [left; unfold c; eauto | rewrite <- Hx; now apply in_map | now apply H].
  - intros ys L. eapply eleaves_bind; [apply eleaves_lift; intros z E'; exact E'|]. intros sz Sz. eapply eleaves_bind; [apply eonly_leaves, eonly_io, only_ask|].
    + eapply may_method; [apply part_self | exact M | exact I | exact Nm | exact Sf | exact Ad | rewrite L, <- Hx; now rewrite map_length | exact Sz].
    + intros r _. now apply eleaves_ret.
Qed.
Lemma eonly_call_function f args xs : map fst xs = args -> Forall (fun a => all_only (permitted D (ECall f args)) (snd a)) xs ->
  eonly (permitted D (ECall f args)) (call_function D f xs).
Proof.
  intros Hx H. set (c := ECall f args) in *. apply (eleaves_only _ (fun _ => True)).
  assert (Ln : List.length xs = List.length args) by (rewrite <- Hx; now rewrite map_length).
  eapply eleaves_bind; [apply eleaves_lift; intros d E; exact E|]. intros d E. destruct (found_function _ _ _ E) as (fs & M & Ad & Lp).
  eapply eleaves_bind.
  - apply eleaves_args. rewrite Forall_forall in *. intros a Ia t. apply (eonly_arg c args); [right; unfold c; eauto | rewrite <- Hx; now apply in_map | now apply H].
  - intros ys L. eapply eleaves_bind; [apply eleaves_lift; intros z E'; exact E'|]. intros sz Sz. eapply eleaves_bind; [apply eonly_leaves, eonly_io, only_ask|].
    + eapply may_function; [apply part_self | exact M | exact Ad | congruence | congruence | exact Sz].
    + intros r _. now apply eleaves_ret.
Qed.
Lemma all_permitted e : all_only (permitted D e) (evaluate D e).
Proof.
  assert (IP := inspects_permitted).
  induction e as [n|s|b g|b f Hb|b i Hb Hi|e He|mm e He|v|v|e He|b m l Hb Hl|f l Hl] using expr_nested_ind; cbn [evaluate].
  - apply all_of_ref; [apply IP|]. eapply eonly_imp; [apply IP | apply eonly_variable].
  - apply all_no.
  - apply all_no.
  - apply all_of_ref; [apply IP|]. apply eonly_bind; [|intros; apply eonly_lift]. apply (all_part b (EField b f)) in Hb; [|apply part_field, part_self]. apply Hb.
  - apply all_of_ref; [apply IP|]. apply eonly_index; [apply IP | |]; eapply all_part; [apply part_base, part_self | exact Hb | apply part_index, part_self | exact Hi].
  - apply all_no.
  - apply all_no.
  - repeat split; cbn; first [apply eonly_ret | apply eonly_fail].
  - repeat split; cbn; first [apply eonly_ret | apply eonly_fail].
  - apply (all_part e (EParen e)) in He; [|apply part_paren, part_self]. destruct He as (_ & A & B & C). split; [apply eonly_fail | auto].
  - set (c := EMethodCall b m l). apply (all_part b c) in Hb; [|apply part_object, part_self]. destruct Hb as (Hb & _).
    assert (Hx : map fst (map (fun a => (a, evaluate D a)) l) = l) by (rewrite map_map; apply map_id).
    assert (Hxs : Forall (fun a => all_only (permitted D c) (snd a)) (map (fun a => (a, evaluate D a)) l)).
    { apply Forall_map. cbn [snd]. rewrite Forall_forall in *. intros a Ia. eapply all_part; [|apply Hl, Ia]. eapply part_marg; [exact Ia | apply part_self]. }
    repeat split; cbn [e_ref e_val e_int e_str]; try apply eonly_fail; (apply eonly_bind; [exact Hb|]); intros p; destruct (synthetic_name _ _); try apply eonly_fail.
    + apply eonly_bind; [apply eonly_call_method; assumption | intros; apply eonly_lift].
    + destruct (map _ l) eqn:El; [|apply eonly_fail]. apply eonly_bind; [apply eonly_io; eapply only_imp; [apply IP | apply inspects_reads, only_synthetic] | intros; apply eonly_ret].
    + apply eonly_bind; [apply eonly_call_method; assumption|]. intros r. apply eonly_io. eapply only_imp; [apply IP | apply inspects_reads].
      unfold result_val. destruct (snd r); [exact I|]. destruct (dm_ret (fst r)); [apply only_result | exact I].
  - set (c := ECall f l).
    assert (Hx : map fst (map (fun a => (a, evaluate D a)) l) = l) by (rewrite map_map; apply map_id).
    assert (Hxs : Forall (fun a => all_only (permitted D c) (snd a)) (map (fun a => (a, evaluate D a)) l)).
    { apply Forall_map. cbn [snd]. rewrite Forall_forall in *. intros a Ia. eapply all_part; [|apply Hl, Ia]. eapply part_farg; [exact Ia | apply part_self]. }
    repeat split; cbn [e_ref e_val e_int e_str]; try apply eonly_fail; (apply eonly_bind; [apply eonly_call_function; assumption|]); intros r; [apply eonly_lift|].
    apply eonly_io. eapply only_imp; [apply IP | apply inspects_reads]. unfold result_val. destruct (snd r); [exact I|]. destruct (df_ret (fst r)); [apply only_result | exact I].
Qed.
End Events.
