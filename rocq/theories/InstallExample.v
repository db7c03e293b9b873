(** An installation, and the two ways it reports success without LLDB importing the script. *)
From Coq Require Import Ascii String List ZArith NArith Lia Bool.
From Verif Require Import Base NumText JsonModel SymModel WireModel WireProps InstallModel InstallProps Utf8.
Import ListNotations.
Open Scope Z_scope.

Definition q (s : string) : str := [34%N] ++ st s ++ [34%N].
Definition asset (n u : string) : str := st "{" ++ q "name" ++ st ": " ++ q n ++ st ", " ++ q "browser_download_url" ++ st ": " ++ q u ++ st "}".
Definition release (t : string) (l : list str) : str := st "{" ++ q "tag_name" ++ st ": " ++ q t ++ st ", " ++ q "assets" ++ st ": [" ++ join (st ", ") l ++ st "]}".
(** The newest release is of another crate. *)
Definition body0 : str := st "[" ++ release "rudy-db-v0.3.0" [asset "rudy_lldb.py" "https://x/wrong"] ++ st ", " ++
  release "rudy-lldb-v0.2.0" [asset "notes.txt" "https://x/notes"; asset "rudy_lldb.py" "https://x/2"] ++ st ", " ++ release "rudy-lldb-v0.1.0" [asset "rudy_lldb.py" "https://x/1"] ++ st "]".
Definition web (u : str) : res str := if str_eqb u (st "https://x/2") then Ok (st "# two") else if str_eqb u (st "https://x/1") then Ok (st "# one") else Err "404".
Definition mac : machine := Machine (Some (st "/home/u")) (fun _ => true) (fun _ => true) (Ok body0) web.
Definition dir0 : str := st "~/.lldb".
Definition lldbinit : str := st "/home/u/.lldbinit".
Definition script : str := st "/home/u/.lldb/rudy_lldb.py".
Definition line0 : str := st "command script import /home/u/.lldb/rudy_lldb.py".
Definition with_init (s : str) : fs := fun p => if str_eqb p lldbinit then Some (utf8 s) else None.
Example paths : script_path mac dir0 = script /\ lldbinit_path mac = lldbinit /\ import_line mac dir0 = line0 /\ text (import_line mac dir0).
Proof. repeat apply conj; try reflexivity. change (import_line mac dir0) with line0. unfold text, line0, st. cbn. repeat (apply Forall_cons; [left; vm_compute; discriminate|]). apply Forall_nil. Qed.
Example second_release : fetch mac = Ok (st "# two").
Proof. vm_compute. reflexivity. Qed.
Definition nl : str := [10%N].
Definition show_after (s : str) : option (list Z) * option (list Z) := let f := snd (install mac dir0 false true [] (with_init s)) in (f script, f lldbinit).
Example installed : show_after (st "settings set a b" ++ nl) = (Some (utf8 (st "# two")), Some (utf8 (st "settings set a b" ++ nl ++ line0 ++ nl))) /\
  show_after (st "settings set a b" ++ nl ++ line0 ++ nl) = (Some (utf8 (st "# two")), Some (utf8 (st "settings set a b" ++ nl ++ line0 ++ nl))).
Proof. split; vm_compute; reflexivity. Qed.
(** The hypotheses of [install_installs_partial]. *)
Definition init0 : str := st "settings set a b" ++ nl.
Example meets_install : m_mkdir mac (expand_dir mac dir0) = true /\ m_writable mac (script_path mac dir0) = true /\ m_writable mac (lldbinit_path mac) = true /\ offered mac (st "# two") /\
  holds (with_init init0) (lldbinit_path mac) init0 /\ (exists s', init0 = s' ++ [newline]) /\ (forall a b, init0 = a ++ import_line mac dir0 ++ b -> has_line (import_line mac dir0) init0).
Proof.
  repeat apply conj; try reflexivity.
  - apply fetch_offered. exact second_release.
  - unfold text, init0, nl, st. cbn. repeat (apply Forall_cons; [left; vm_compute; discriminate|]). apply Forall_nil.
  - exists (st "settings set a b"). reflexivity.
  - intros a b H. exfalso. assert (C : contains (import_line mac dir0) init0 = true) by (apply contains_spec; exists a, b; exact H). vm_compute in C. discriminate C.
Qed.

(** The hypotheses of [import_follows_answer] are these and that no import is there; three answers. *)
Example meets_answer : forall x y, init0 <> x ++ import_line mac dir0 ++ y.
Proof. intros a b H. assert (C : contains (import_line mac dir0) init0 = true) by (apply contains_spec; exists a, b; exact H). vm_compute in C. discriminate C. Qed.
Example asked : let after a := snd (install mac dir0 false false [Some a] (with_init init0)) lldbinit in
  after nl = Some (utf8 (init0 ++ line0 ++ nl)) /\ after (st " Yes" ++ nl) = Some (utf8 (init0 ++ line0 ++ nl)) /\ after (st "no" ++ nl) = Some (utf8 init0).
Proof. split; [|split]; vm_compute; reflexivity. Qed.

(** ** Defects *)
(** No final line feed: the import is glued to the last line. *)
Lemma has_line_bytes (l s : str) : has_line l s -> exists a b, s = a ++ l ++ b /\ (a = [] \/ last a 0%N = newline).
Proof. intros (a & b & E & A & _). exists a, b. split; [exact E|]. destruct A as [-> | [a' ->]]; [left; reflexivity | right; apply last_last]. Qed.
(** Where in a text another stands. *)
Fixpoint places (l s : str) : list nat := (if starts_with s l then [0%nat] else []) ++ match s with [] => [] | _ :: r => map S (places l r) end.
Lemma places_spec l : forall a b, In (List.length a) (places l (a ++ l ++ b)).
Proof.
  induction a as [|c a IH]; intros b.
  - cbn [app List.length]. assert (G : starts_with (l ++ b) l = true) by (apply starts_with_spec; exists b; reflexivity). destruct (l ++ b) as [|x r] eqn:E; cbn [places]; rewrite <- E in *; rewrite G; left; reflexivity.
  - cbn [app List.length places]. apply in_or_app. right. apply in_map. apply IH.
Qed.
Lemma no_line l s : forallb (fun n => match n with O => false | S k => negb (nth k s 0 =? newline)%N end) (places l s) = true -> ~ has_line l s.
Proof.
  intros H (a & b & E & A & _). rewrite forallb_forall in H. pose proof (places_spec l a b) as P. rewrite <- E in P. specialize (H _ P).
  destruct A as [-> | [a' ->]]; [discriminate H|]. rewrite app_length in H. cbn [List.length] in H. rewrite Nat.add_comm in H. cbn in H. rewrite E, <- app_assoc, app_nth2, Nat.sub_diag in H by lia. cbn in H. discriminate H.
Qed.
Definition claim (s : str) : Prop := forall w dir i f f2, holds f (lldbinit_path w) s -> install w dir false true i f = (Ok tt, f2) -> imported w dir f2.
Lemma text_of_holds f p s t : holds f p s -> f p = Some (utf8 t) -> text t -> s = t.
Proof. intros [Ts H] E T. rewrite E in H. apply (f_equal utf8_lossy) in H. rewrite !utf8_roundtrip in H by assumption. now symmetry. Qed.
Ltac ascii_text := unfold text; cbn; repeat (apply Forall_cons; [left; vm_compute; discriminate|]); apply Forall_nil.
Lemma refute (s t : str) : text s -> text t -> snd (install mac dir0 false true [] (with_init s)) lldbinit = Some (utf8 t) -> fst (install mac dir0 false true [] (with_init s)) = Ok tt ->
  forallb (fun n => match n with O => false | S k => negb (nth k t 0 =? newline)%N end) (places line0 t) = true -> ~ claim s.
Proof.
  intros Ts Tt A O P H. destruct (install mac dir0 false true [] (with_init s)) as [o f2] eqn:E. cbn [fst snd] in *. subst o.
  destruct (H mac dir0 [] (with_init s) f2) as (u & Hu & L).
  - split; [exact Ts|]. reflexivity.
  - exact E.
  - rewrite (text_of_holds _ _ _ _ Hu A Tt) in L. exact (no_line _ _ P L).
Qed.
Theorem last_line_glued_refuted : ~ claim (st "settings set a b").
Proof. apply (refute _ (st "settings set a b" ++ line0 ++ nl)); [ascii_text | ascii_text | vm_compute; reflexivity..]. Qed.
Print Assumptions last_line_glued_refuted.
(** The import is mentioned in a comment: taken as present. *)
Theorem mention_is_not_import_refuted : ~ claim (st "# " ++ line0 ++ nl).
Proof. apply (refute _ (st "# " ++ line0 ++ nl)); [ascii_text | ascii_text | vm_compute; reflexivity..]. Qed.
Print Assumptions mention_is_not_import_refuted.
(** A directory given as ~ alone is not the home directory. *)
Example tilde_alone : script_path mac (st "~") = st "~/rudy_lldb.py".
Proof. reflexivity. Qed.
