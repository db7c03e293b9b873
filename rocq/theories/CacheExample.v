(** A database shared by two connections while their binary is rebuilt. *)
From Coq Require Import Ascii String List ZArith NArith Lia Bool Arith.
From Verif Require Import Base OMap Utf8 SymModel PathModel LinesModel DieModel LocModel SourceModel LoadModel LoadProps BinaryModel BinaryExample SymProps. From Verif Require Import CacheModel CacheSpec CacheProofs CacheProps.
Import ListNotations.
Open Scope nat_scope.

(** Asking for everything ends. *)
Lemma whole_ends K V body f : ends K V body (whole K V f).
Proof.
  assert (G : forall l k, (forall m, ends K V body (k m)) -> ends K V body (gather K V l k)) by (induction l as [|[i r] l IH]; intros k H; cbn [gather]; [apply H|]; constructor; intros us; apply IH; intros m; apply H).
  constructor. intros y. apply G. intros m. apply G. intros g. constructor.
Qed.

(** Version [n] of a binary and of the object file its debug map names: the static LIMIT at [addr], one unit of length [len]. *)
Definition unit_of (len : Z) : bunit := BUnit app_die 0 len None None (fun _ => None) (fun _ => None).
Definition program (addr : Z) : object := Object false [] [(utf8 (st "/app/a.o"), None)] [(0, mk_raw (Some (st "app::LIMIT")) addr false)] [].
Definition part (len : Z) : object := Object true [] [] [] [unit_of len].
Definition version (addr len : Z) (p : fpath) : option stored :=
  if fpath_eqb p (components (st "/app/bin")) then Some (Stored (Some (program addr)) None)
  else if fpath_eqb p (components (st "/app/a.o")) then Some (Stored (Some (part len)) None) else None.
Definition old : fpath -> option stored := version 8192 100.
Definition new : fpath -> option stored := version 8448 120.
(** Where LIMIT is, and the lengths of the units of the debug files: a question through a tracked function, or directly. *)
Definition limits (B : binary) : Z * list Z :=
  (match find_symbol_by_name B (st "LIMIT") with Some y => sym_addr y | None => 0%Z end, map bu_length (flat_map bf_units (bi_files B))).
Definition direct : query unit (Z * list Z) := whole unit _ limits.
Definition tracked : query unit (Z * list Z) := Call tt (fun v => Answer v).
Definition same (a b : unit) : bool := true.
Lemma same_keys a b : same a b = true -> a = b.
Proof. now destruct a, b. Qed.
Definition shared (disk : nat -> fpath -> option stored) := run [] disk (fun l => l) plain_externals unit (Z * list Z) same (fun _ => direct) 1.
Definition bin : fpath := components (st "/app/bin").
(** Rebuilt after the first connection was answered (a connection and its first question access files five times). *)
Definition rebuilt (t : nat) : fpath -> option stored := if t <? 4 then old else new.
Definition session : list (event unit (Z * list Z)) := [Connects bin; Asks 0 tracked; Connects bin; Asks 1 direct; Asks 0 direct; Asks 1 tracked; Asks 0 tracked; Asks 2 direct; Connects (components (st "/gone"))].
Example session_answered : exists s, shared rebuilt session empty_db =
  Some ([Opened 0; Answered (8192%Z, [100%Z]); Opened 1; Answered (8448%Z, [120%Z]); Answered (8192%Z, [100%Z]); Answered (8448%Z, [120%Z]); Answered (8192%Z, [100%Z]); Nobody; Refused], s).
Proof. eexists. vm_compute. reflexivity. Qed.
Example session_ends : Forall (fun e => match e with Asks _ q => ends unit _ (fun _ => direct) q | _ => True end) session.
Proof. repeat (apply Forall_cons; [first [exact I | apply whole_ends | constructor; [apply whole_ends | intros x; constructor]]|]). apply Forall_nil. Qed.
(** The second connection meets the hypotheses of answers_of_unchanged_files, and is answered from the new files. *)
Example second_connection : exists os s0, shared rebuilt (firstn 2 session) empty_db = Some (os, s0) /\ (forall t, now s0 <= t -> rebuilt t = new) /\ exists B, open_binary [] new (fun l => l) plain_externals bin = Ok B /\ limits B = (8448%Z, [120%Z]).
Proof.
  eexists _, _. split; [vm_compute; reflexivity|]. split.
  - intros t H. cbn in H. unfold rebuilt. destruct (Nat.ltb_spec t 4); [lia|reflexivity].
  - eexists. split; vm_compute; reflexivity.
Qed.

(** A rebuilt binary is not noticed by a connection that was asked something before: it goes on answering from the old
    files, although the new ones have long been in place. *)
Theorem rebuild_noticed_refuted : exists disk fs p es outs s j f v B os s',
  shared disk es empty_db = Some (outs, s) /\ nth_error es 0 = Some (Connects p) /\ nth_error es j = Some (Asks 0 (whole unit _ f)) /\ nth_error outs j = Some (Answered v) /\
  shared disk (firstn j es) empty_db = Some (os, s') /\ (forall t, now s' <= t -> disk t = fs) /\
  open_binary [] fs (fun l => l) plain_externals p = Ok B /\ v <> f B.
Proof.
  exists rebuilt, new, bin, session. do 2 eexists. exists 4, limits. do 4 eexists.
  split; [vm_compute; reflexivity|]. split; [reflexivity|]. split; [reflexivity|]. split; [reflexivity|]. split; [vm_compute; reflexivity|].
  split; [intros t H; cbn in H; unfold rebuilt; destruct (Nat.ltb_spec t 4); [lia|reflexivity]|]. split; [vm_compute; reflexivity|]. vm_compute. discriminate.
Qed.
(** Asked while the files are being rebuilt, a connection mixes versions: its answer is that of neither. *)
Definition midway (t : nat) : fpath -> option stored := if t <? 2 then old else new.
Theorem one_version_refuted : exists disk fs1 fs2 p es outs s f v B1 B2,
  (forall t, disk t = fs1 \/ disk t = fs2) /\ shared disk es empty_db = Some (outs, s) /\
  nth_error es 0 = Some (Connects p) /\ nth_error es 1 = Some (Asks 0 (whole unit _ f)) /\ nth_error outs 1 = Some (Answered v) /\
  open_binary [] fs1 (fun l => l) plain_externals p = Ok B1 /\ open_binary [] fs2 (fun l => l) plain_externals p = Ok B2 /\ v <> f B1 /\ v <> f B2.
Proof.
  exists midway, old, new, bin, [Connects bin; Asks 0 direct]. do 2 eexists. exists limits. do 3 eexists.
  split; [intros t; unfold midway; destruct (t <? 2); auto|]. split; [vm_compute; reflexivity|]. split; [reflexivity|]. split; [reflexivity|]. split; [reflexivity|].
  split; [vm_compute; reflexivity|]. split; [vm_compute; reflexivity|]. split; vm_compute; discriminate.
Qed.
