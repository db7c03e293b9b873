(** Properties C89-C91: messages cross the connection unchanged. *)
From Coq Require Import Ascii String List ZArith NArith Lia Bool Permutation.
From Coq Require Import ZifyBool ZifyNat ZifyN.
From Verif Require Import Base NumText DataSpec Utf8 JsonModel JsonProofs JsonProps ExprModel SymModel ProcModel EvalModel ServerModel WireModel.
Import ListNotations.
Open Scope Z_scope.

(** ** What can be sent: texts of Unicode scalar values, 64-bit numbers, bytes *)
Definition u64 (z : Z) : Prop := 0 <= z < two64.
Definition opt {A} (P : A -> Prop) (o : option A) : Prop := match o with Some a => P a | None => True end.
Definition call_fits (c : callres) : Prop :=
  match c with Simple v t => u64 v /\ text t | ComplexPtr a n t => u64 a /\ u64 n /\ text t end.
Definition reply_fits (r : reply) : Prop :=
  match r with
  | MemoryData d => Forall byte d
  | RegisterData v => u64 v
  | FrameInfo p s f => u64 p /\ u64 s /\ u64 f
  | ThreadInfo t n => u64 t /\ opt text n
  | BaseAddress a => u64 a
  | ExpressionResult v => text v
  | MethodResult c | FunctionResult c => call_fits c
  | VariableTypeResult t => opt text t
  | MemoryAllocated a => u64 a
  | MemoryWritten => True
  | ErrorReply m => text m
  end.
Definition client_fits (m : cmsg) : Prop :=
  match m with
  | Init p => text p
  | Command c xs => text c /\ Forall text xs
  | EventResponse r => reply_fits r
  end.

(** ** Lines *)
Definition no_break (bs : list Z) : Prop := Forall (fun b => b <> 10) bs.
Lemma split_line l rest : no_break l -> split_lines (l ++ 10 :: rest) = (l ++ [10]) :: split_lines rest.
Proof.
  induction 1 as [|b l Hb F IH]; [reflexivity|]. cbn [app split_lines]. destruct (Z.eqb_spec b 10); [contradiction|]. rewrite IH. reflexivity.
Qed.
Lemma lines_cons l rest : no_break l -> lines_of (l ++ 10 :: rest) = line_of (l ++ [10]) :: lines_of rest.
Proof. intros H. unfold lines_of. rewrite split_line by exact H. reflexivity. Qed.
Lemma utf8_no_break s : Forall visible s -> no_break (utf8 s).
Proof.
  induction 1 as [|c s Hc F IH]; [constructor|]. cbn [utf8 flat_map]. apply Forall_app. split; [|exact IH].
  unfold visible in Hc. unfold utf8_char. repeat match goal with |- context [if ?b then _ else _] => destruct b eqn:? end;
    repeat constructor; Z.div_mod_to_equations; lia.
Qed.
Lemma text_of_utf8 s : text s -> text_of (utf8 s) = Some s.
Proof. intros H. unfold text_of. rewrite utf8_roundtrip by exact H. destruct (list_eq_dec Z.eq_dec (utf8 s) (utf8 s)); [reflexivity | contradiction]. Qed.
Lemma trim_line o s c : is_whitespace o = false -> is_whitespace c = false -> trim ((o :: s ++ [c]) ++ [10%N]) = o :: s ++ [c].
Proof.
  intros Ho Hc. unfold trim.
  assert (A : trim_start ((o :: s ++ [c]) ++ [10%N]) = (o :: s ++ [c]) ++ [10%N]) by (cbn [app trim_start]; now rewrite Ho).
  rewrite A, rev_app_distr. cbn [rev app]. rewrite rev_app_distr. cbn [rev app].
  change (trim_start (10%N :: c :: rev s ++ [o])) with (trim_start (c :: rev s ++ [o])). cbn [trim_start]. rewrite Hc.
  cbn [rev]. rewrite rev_app_distr, rev_involutive. reflexivity.
Qed.
Lemma ascii_text s : Forall ascii_visible s -> text s.
Proof. intros H. eapply Forall_impl; [|exact H]. intros c. unfold ascii_visible, scalar. lia. Qed.
Lemma obj_dumps l : exists s, dumps (obj l) = 123%N :: s ++ [125%N].
Proof. unfold dumps, obj. cbn [write]. eexists. reflexivity. Qed.

(** ** Encoded messages are plain JSON *)
Lemma text_st s : forallb (fun c => (c <=? 55295)%N) (st s) = true -> text (st s).
Proof. intros H. apply Forall_forall. intros c Hc. rewrite forallb_forall in H. specialize (H c Hc). unfold scalar. lia. Qed.
Ltac txt := apply text_st; reflexivity.
Lemma plain_jopt {A} (f : A -> json) (P : A -> Prop) o : (forall a, P a -> plain_json (f a)) -> opt P o -> plain_json (jopt f o).
Proof. intros H. destruct o; cbn; auto. Qed.
Lemma plain_num z : u64 z -> plain_json (JNum z).
Proof. unfold u64. cbn. lia. Qed.
Lemma plain_nums l : Forall byte l -> plain_json (JArr (map JNum l)).
Proof. intros H. apply plain_arr. apply Forall_map. eapply Forall_impl; [|exact H]. unfold byte. cbn. intros. unfold two64. lia. Qed.
Lemma plain_texts l : Forall text l -> plain_json (JArr (map JStr l)).
Proof. intros H. apply plain_arr. apply Forall_map. exact H. Qed.
Lemma plain_call c : call_fits c -> plain_json (enc_call c).
Proof.
  destruct c; cbn [call_fits enc_call]; intros H; apply plain_obj; constructor; try constructor; try txt; cbn [snd]; apply plain_obj;
    repeat (apply Forall_cons; [split; [txt | cbn [snd]; first [apply plain_num; tauto | cbn; tauto]]|]); constructor.
Qed.
Lemma plain_client m : client_fits m -> plain_json (enc_client m).
Proof.
  destruct m as [p | c xs | r]; cbn [client_fits enc_client client_fields].
  - intros H. apply plain_obj. repeat (constructor; [split; [txt | try txt; try exact H]|]). constructor.
  - intros [H1 H2]. apply plain_obj. repeat (constructor; [split; [txt | try txt; try exact H1; try (apply plain_texts; exact H2)]|]). constructor.
  - destruct r; cbn [reply_fits enc_reply]; intros H; apply plain_obj;
      repeat (constructor; [split; [txt | cbn [snd]; first [txt | apply plain_nums; exact H | apply plain_num; tauto | exact H | now apply plain_call | idtac]]|]); try constructor.
    + apply plain_jopt with (P := text); [auto | tauto].
    + apply plain_jopt with (P := text); [auto | tauto].
Qed.
Lemma depth_flat l : Forall (fun x => depth x = 0%nat) l -> (depth (JArr l) <= 1)%nat.
Proof. intros H. apply depth_arr. eapply Forall_impl; [|exact H]. cbn. intros. lia. Qed.
Lemma depth_jopt {A} (f : A -> json) o : (forall a, depth (f a) = 0%nat) -> depth (jopt f o) = 0%nat.
Proof. destruct o; cbn; auto. Qed.
Lemma flat_map_json {A} (f : A -> json) l : (forall a, depth (f a) = 0%nat) -> (depth (JArr (map f l)) <= 1)%nat.
Proof. intros H. apply depth_flat. apply Forall_map. apply Forall_forall. auto. Qed.
Ltac shallow := cbn [snd]; first [apply flat_map_json; reflexivity | cbn; lia | rewrite depth_jopt by reflexivity; lia].
Lemma depth_client m : (depth (enc_client m) <= 3)%nat.
Proof.
  destruct m as [p | c xs | r]; cbn [enc_client client_fields]; apply depth_obj; cbn [map fst snd].
  - repeat (apply Forall_cons; [shallow|]); constructor.
  - repeat (apply Forall_cons; [cbn [snd]; try (etransitivity; [apply flat_map_json; reflexivity | lia]); cbn; lia|]). constructor.
  - destruct r; cbn [enc_reply map fst snd];
      repeat (apply Forall_cons; [cbn [snd]; first [etransitivity; [apply flat_map_json; reflexivity | lia] | rewrite depth_jopt by reflexivity; lia | cbn; lia | destruct r; cbn; lia]|]); constructor.
Qed.

(** ** Decoding what was encoded *)
Lemma d_u64_ok z : u64 z -> d_u64 (JNum z) = Ok z.
Proof. unfold u64, d_u64, d_uint. intros H. destruct ((0 <=? z) && (z <=? two64 - 1)) eqn:E; [reflexivity | lia]. Qed.
Lemma d_u8_ok z : byte z -> d_u8 (JNum z) = Ok z.
Proof. unfold byte, d_u8, d_uint. intros H. destruct ((0 <=? z) && (z <=? 255)) eqn:E; [reflexivity | lia]. Qed.
Lemma d_bytes_ok l : Forall byte l -> d_vec d_u8 (JArr (map JNum l)) = Ok l.
Proof. intros H. cbn [d_vec]. induction H as [|z l Hz F IH]; [reflexivity|]. cbn [map mapM]. rewrite d_u8_ok, IH by exact Hz. reflexivity. Qed.
Lemma d_texts_ok l : d_vec d_str (JArr (map JStr l)) = Ok l.
Proof. cbn [d_vec]. induction l as [|z l IH]; [reflexivity|]. cbn [map mapM]. rewrite IH. reflexivity. Qed.
Lemma d_opt_ok o : d_option d_str (jopt JStr o) = Ok o.
Proof. destruct o; reflexivity. Qed.
Ltac step := lazy -[str char d_str d_u64 d_u8 d_vec d_option jopt u64 text d_call enc_call byte].
Lemma d_call_ok c : call_fits c -> d_call (enc_call c) = Ok c.
Proof.
  destruct c; cbn [call_fits]; intros H; lazy -[str char d_u64 u64 text]; repeat rewrite d_u64_ok by tauto; reflexivity.
Qed.
Lemma decode_client m : client_fits m -> d_client (enc_client m) = Ok m.
Proof.
  destruct m as [p | c xs | r]; cbn [client_fits].
  - intros _. step. reflexivity.
  - intros _. pose proof (d_texts_ok xs) as T. unfold enc_client, client_fields. set (J := JArr (map JStr xs)) in *. clearbody J. step. cbn [d_str]. rewrite T. reflexivity.
  - destruct r; cbn [reply_fits]; intros H; unfold enc_client, client_fields, enc_reply;
      try (pose proof (d_bytes_ok _ H) as T; set (J := JArr (map JNum data)) in *; clearbody J);
      step; cbn [d_str]; repeat rewrite d_u64_ok by tauto; rewrite ?d_opt_ok; try rewrite T; rewrite ?d_call_ok by exact H; reflexivity.
Qed.
Lemma client_line m : client_fits m -> exists l, client_bytes m = l ++ [10] /\ no_break l /\ line_of (l ++ [10]) = Msg m.
Proof.
  intros H. unfold client_bytes. exists (utf8 (dumps (enc_client m))).
  pose proof (plain_client m H) as P. pose proof (json_one_line _ (plain_no_real _ P)) as [_ A].
  destruct (obj_dumps (client_fields m)) as [s E]. change (obj (client_fields m)) with (enc_client m) in E.
  split; [reflexivity|]. split; [apply utf8_no_break; eapply Forall_impl; [|exact A]; intros c; unfold ascii_visible, visible; lia|].
  unfold line_of. change [10] with (utf8 [10%N]). unfold utf8 at 1 2. rewrite <- flat_map_app. fold (utf8 (dumps (enc_client m) ++ [10%N])).
  rewrite text_of_utf8; [|apply Forall_app; split; [apply ascii_text; exact A | constructor; [unfold scalar; lia | constructor]]].
  rewrite E, trim_line by reflexivity.
  destruct (json_text_roundtrip (enc_client m) P) as [_ R]; [pose proof (depth_client m); lia|]. 
  rewrite E in R. change (match bind (from_str (123%N :: s ++ [125%N])) d_client with Ok m0 => Msg m0 | _ => Bad end = Msg m).
  rewrite R. cbn [bind]. rewrite decode_client by exact H. reflexivity.
Qed.
(** C89: whatever messages the client sends, and whatever follows them, the server reads exactly those messages, in order. *)
Theorem client_messages_arrive : forall ms rest, Forall client_fits ms ->
  lines_of (flat_map client_bytes ms ++ rest) = map Msg ms ++ lines_of rest.
Proof.
  intros ms rest. induction 1 as [|m ms H F IH]; [reflexivity|]. cbn [flat_map map app]. rewrite <- app_assoc.
  destruct (client_line m H) as (l & -> & NB & L). rewrite <- app_assoc. cbn [app]. rewrite lines_cons, L, IH by exact NB. reflexivity.
Qed.
Print Assumptions client_messages_arrive.
(** A line that is no message is reported as one bad line and does not affect the following ones. *)
Theorem bad_line_contained : forall l rest, no_break l -> (forall m, line_of (l ++ [10]) <> Msg m) -> lines_of (l ++ 10 :: rest) = Bad :: lines_of rest.
Proof. intros l rest H N. rewrite lines_cons by exact H. destruct (line_of (l ++ [10])) as [m|] eqn:E; [exfalso; eapply N; exact eq_refl | reflexivity]. Qed.
Print Assumptions bad_line_contained.
