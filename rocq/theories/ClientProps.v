(** Properties C91-C94: the two ends understand each other, LLDB does what the server asks, and what rd prints. *)
From Coq Require Import Ascii String List ZArith NArith Lia Bool.
From Coq Require Import ZifyBool ZifyNat ZifyN.
From Verif Require Import Base NumText Utf8 DataSpec ExprModel ProcModel EvalModel ServerModel JsonModel JsonProofs JsonProps WireModel WireProps ClientModel ClientSpec.
Import ListNotations.
Open Scope Z_scope.

(** ** Server messages as JSON *)
Lemma plain_opt_num o : opt u64 o -> plain_json (jopt JNum o).
Proof. apply plain_jopt. intros a H. now apply plain_num. Qed.
Lemma plain_opt_str o : opt text o -> plain_json (jopt JStr o).
Proof. apply plain_jopt. auto. Qed.
Ltac plainf := apply plain_obj; repeat (apply Forall_cons; [split; [txt | cbn [snd]; first [txt | exact I | apply plain_num; tauto | apply plain_opt_num; tauto | apply plain_opt_str; tauto | cbn; tauto | idtac]]|]); try constructor.
Lemma plain_arg a : arg_fits a -> plain_json (enc_arg a).
Proof. intros [H1 H2]. plainf. destruct (ma_type a); txt. Qed.
Lemma plain_list {A} (f : A -> json) (P : A -> Prop) l : (forall a, P a -> plain_json (f a)) -> Forall P l -> plain_json (JArr (map f l)).
Proof. intros H F. apply plain_arr. apply Forall_map. eapply Forall_impl; [|exact F]. exact H. Qed.
Lemma plain_server m : server_fits m -> plain_json (enc_server m).
Proof.
  destruct m as [q | p | e]; cbn [server_fits enc_server]; intros H.
  - destruct q; cbn [request_fits] in H; cbn [enc_request]; plainf.
    + apply (plain_list _ arg_fits); [exact plain_arg | tauto].
    + apply (plain_list _ arg_fits); [exact plain_arg | tauto].
    + apply plain_nums. tauto.
  - plainf. destruct p as [r | r | l |]; cbn [payload_fits] in H; cbn [enc_payload].
    + plainf.
    + plainf. apply (plain_list _ method_fits); [|tauto]. intros [n g d c sy] (A & B & C). cbn in A, B, C. plainf.
    + apply (plain_list _ function_fits); [|exact H]. intros [n fu g a c mo] (A & B & C & D & E). cbn in A, B, C, D, E. plainf. apply plain_texts. exact E.
    + plainf.
  - plainf.
Qed.
Lemma depth_obj_le l d : Forall (fun kv => (depth (snd kv) <= d)%nat) l -> (depth (obj l) <= S d)%nat.
Proof. intros H. apply depth_obj. apply Forall_map. exact H. Qed.
Lemma depth_list {A} (f : A -> json) l d : (forall a, depth (f a) <= d)%nat -> (depth (JArr (map f l)) <= S d)%nat.
Proof. intros H. apply depth_arr. apply Forall_map. apply Forall_forall. intros x _. apply H. Qed.
Lemma depth_arg a : (depth (enc_arg a) <= 1)%nat.
Proof. apply depth_obj_le. repeat (apply Forall_cons; [cbn [snd]; first [rewrite depth_jopt by reflexivity | cbn]; lia|]); constructor. Qed.
Ltac low := cbn [snd]; first [etransitivity; [apply (depth_list _ _ 1); exact depth_arg | lia] | etransitivity; [apply (depth_list _ _ 0); intros; cbn; lia | lia] | rewrite depth_jopt by reflexivity; lia | cbn; lia].
Lemma depth_server m : (depth (enc_server m) <= 5)%nat.
Proof.
  destruct m as [q | p | e]; cbn [enc_server].
  - apply depth_obj_le. destruct q; cbn [enc_request]; repeat (apply Forall_cons; [low|]); constructor.
  - apply depth_obj_le. repeat (apply Forall_cons; [try (cbn; lia)|]); try apply Forall_nil. cbn [snd]. destruct p as [r | r | l |]; cbn [enc_payload].
    + etransitivity; [apply (depth_obj_le _ 0); repeat (apply Forall_cons; [cbn; lia|]); constructor | lia].
    + apply depth_obj_le. repeat (apply Forall_cons; [try (cbn; lia)|]); try apply Forall_nil. cbn [snd]. etransitivity; [apply (depth_list _ _ 1) | lia]. intros mi. apply depth_obj_le. repeat (apply Forall_cons; [low|]); constructor.
    + etransitivity; [apply (depth_list _ _ 2) | lia]. intros f. apply depth_obj_le. repeat (apply Forall_cons; [low|]); constructor.
    + cbn. lia.
  - apply depth_obj_le. repeat (apply Forall_cons; [cbn; lia|]); constructor.
Qed.

(** ** Lines the client reads *)
Definition no_end (s : str) : Prop := Forall visible s.
Lemma py_line s rest : no_end s -> py_lines (s ++ 10%N :: rest) = (s ++ [10%N]) :: py_lines rest.
Proof.
  induction 1 as [|c s Hc F IH]; [reflexivity|]. cbn [app py_lines]. unfold visible in Hc.
  destruct (N.eqb_spec c 10); [lia|]. destruct (N.eqb_spec c 13); [lia|]. rewrite IH. reflexivity.
Qed.
Lemma strip_line o s c : py_space o = false -> py_space c = false -> strip ((o :: s ++ [c]) ++ [10%N]) = o :: s ++ [c].
Proof.
  intros Ho Hc. unfold strip.
  assert (A : lstrip ((o :: s ++ [c]) ++ [10%N]) = (o :: s ++ [c]) ++ [10%N]) by (cbn [app lstrip]; now rewrite Ho).
  rewrite A, rev_app_distr. cbn [rev app]. rewrite rev_app_distr. cbn [rev app].
  change (lstrip (10%N :: c :: rev s ++ [o])) with (lstrip (c :: rev s ++ [o])). cbn [lstrip]. rewrite Hc.
  cbn [rev]. rewrite rev_app_distr, rev_involutive. reflexivity.
Qed.
Lemma obj_to_string l : exists s, to_string (obj l) = 123%N :: s ++ [125%N].
Proof. unfold to_string, obj. cbn [write]. eexists. reflexivity. Qed.
Lemma server_object m : exists l, enc_server m = obj l.
Proof. destruct m; eexists; reflexivity. Qed.
(** Writing a value whose texts are Unicode gives Unicode. *)
Lemma write_text w comma colon : (forall c, scalar c -> text (w c)) -> text comma -> text colon -> forall j, plain_json j -> text (write w comma colon j).
Proof.
  intros HW HC HO. unfold text in *.
  assert (S : forall s, Forall scalar s -> Forall scalar (write_string w s)).
  { intros s Hs. unfold write_string. constructor; [unfold scalar; lia|]. apply Forall_app. split; [|constructor; [unfold scalar; lia | constructor]].
    induction Hs as [|c s Hc Fs IH]; cbn; [constructor|]. apply Forall_app. split; [now apply HW | exact IH]. }
  assert (B : forall c, (32 <= c <= 126)%N -> scalar c) by (intros c Hc; unfold scalar; lia).
  induction j as [| b | z | t | s | l IH | l IH] using json_ind'; intros P; cbn [write].
  - txt.
  - destruct b; txt.
  - apply ascii_text, dec_ascii.
  - destruct P.
  - apply S. exact P.
  - constructor; [apply B; lia|]. apply Forall_app. split; [|constructor; [apply B; lia | constructor]]. apply plain_arr in P.
    induction l as [|x l IHl]; [constructor|]. inversion P; subst. inversion IH; subst. destruct l as [|y l]; [auto|]. apply Forall_app. split; [auto|]. apply Forall_app. split; [exact HC | auto].
  - constructor; [apply B; lia|]. apply Forall_app. split; [|constructor; [apply B; lia | constructor]]. apply plain_obj in P.
    induction l as [|[k x] l IHl]; [constructor|]. inversion P as [|? ? [P1 P2] P3]; subst. inversion IH; subst. cbn [fst snd] in *.
    destruct l as [|y l]; [apply Forall_app; split; [auto|]; apply Forall_app; split; [exact HO | auto]|].
    apply Forall_app. split; [auto|]. apply Forall_app. split; [exact HO|]. apply Forall_app. split; [auto|]. apply Forall_app. split; [exact HC | auto].
Qed.
Lemma serde_text c : scalar c -> text (serde_char c).
Proof.
  intros H. unfold serde_char. destruct (short_escape c) as [e|] eqn:E; [apply ascii_text; eapply short_ascii; exact E|].
  destruct (c <? 32)%N; [apply ascii_text, escape_ascii | constructor; [exact H | constructor]].
Qed.
(** C91: whatever the server writes, the client reads exactly those messages. *)
Theorem server_messages_arrive : forall ms, Forall server_fits ms -> py_messages (flat_map server_bytes ms) = map (fun m => Ok (enc_server m)) ms.
Proof.
  intros ms H. unfold py_messages.
  assert (T : utf8_lossy (flat_map server_bytes ms) = flat_map (fun m => to_string (enc_server m) ++ [10%N]) ms).
  { assert (E : flat_map server_bytes ms = utf8 (flat_map (fun m => to_string (enc_server m) ++ [10%N]) ms)).
    { clear H. induction ms as [|m ms IH]; [reflexivity|]. cbn [flat_map]. rewrite IH. unfold server_bytes, utf8. rewrite !flat_map_app. cbn [flat_map app utf8_char]. reflexivity. }
    rewrite E. apply utf8_roundtrip. clear E. induction H as [|m ms Hm F IH]; [constructor|]. cbn [flat_map]. apply Forall_app. split; [|exact IH].
    apply Forall_app. split; [|constructor; [unfold scalar; lia | constructor]]. apply write_text; [exact serde_text | txt | txt | now apply plain_server]. }
  rewrite T. clear T. induction H as [|m ms Hm F IH]; [reflexivity|]. cbn [flat_map map]. rewrite <- app_assoc. cbn [app].
  pose proof (plain_server m Hm) as P. pose proof (json_one_line _ (plain_no_real _ P)) as [V _].
  rewrite py_line by exact V. cbn [map]. rewrite IH. f_equal. unfold py_message.
  destruct (server_object m) as [l El]. destruct (obj_to_string l) as [s E]. rewrite <- El in E. rewrite E, strip_line by reflexivity.
  destruct (json_text_roundtrip (enc_server m) P) as [R _]; [pose proof (depth_server m); lia|]. rewrite E in R. exact R.
Qed.
Print Assumptions server_messages_arrive.
