(** C96: how a typed line is cut into words, and what is sent for it. *)
From Coq Require Import Ascii String List ZArith NArith Lia Bool.
From Coq Require Import ZifyBool ZifyNat ZifyN.
From Verif Require Import Base NumText ExprModel ExprSpec JsonModel ClientModel TypedProps.
Import ListNotations.
Open Scope N_scope.

(** ** Specification *)
(** The characters Python's str.isspace holds of. *)
Definition python_white_space : list char :=
  [9; 10; 11; 12; 13; 28; 29; 30; 31; 32; 133; 160; 5760; 8192; 8193; 8194; 8195; 8196; 8197; 8198; 8199; 8200; 8201; 8202; 8232; 8233; 8239; 8287; 12288].
Definition blank (c : char) : Prop := In c python_white_space.
(** The words of a text: its longest runs without white space. *)
Inductive cut : str -> list str -> Prop :=
| cut_none s : Forall blank s -> cut s []
| cut_word l w r ws : Forall blank l -> w <> [] -> Forall (fun c => ~ blank c) w -> (r = [] \/ exists c r', r = c :: r' /\ blank c) -> cut r ws -> cut (l ++ w ++ r) (w :: ws).

(** ** Proofs *)
Lemma blank_iff c : blank c <-> py_space c = true.
Proof.
  unfold blank, py_space, is_whitespace, python_white_space. split.
  - intros H. cbn in H. repeat destruct H as [<- | H]; try reflexivity. destruct H.
  - intros H. cbn [In]. lia.
Qed.
Lemma blanks l : Forall blank l <-> Forall (fun c => py_space c = true) l.
Proof. rewrite !Forall_forall. split; intros H c Hc; apply blank_iff; auto. Qed.
Lemma no_blanks l : Forall (fun c => ~ blank c) l <-> Forall (fun c => py_space c = false) l.
Proof.
  rewrite !Forall_forall. split; intros H c Hc; specialize (H c Hc).
  - destruct (py_space c) eqn:E; [|reflexivity]. exfalso. apply H, blank_iff, E.
  - intros B. apply blank_iff in B. congruence.
Qed.
Lemma gap_iff r : gap r <-> (r = [] \/ exists c r', r = c :: r' /\ blank c).
Proof.
  destruct r as [|c r]; cbn [gap]; [tauto|]. rewrite <- blank_iff. split; [intros H; right; eauto | intros [E | (c' & r' & E & B)]; [discriminate | injection E as -> ->; exact B]].
Qed.
Lemma skip_blanks l s : Forall (fun c => py_space c = true) l -> py_split (l ++ s) = py_split s.
Proof. induction 1 as [|c l Hc _ IH]; [reflexivity|]. cbn [app]. rewrite py_split_space by exact Hc. exact IH. Qed.
Lemma cut_split s ws : cut s ws -> py_split s = ws.
Proof.
  induction 1 as [s B | l w r ws Bl Nw Fw G C IH].
  - apply blanks in B. rewrite <- (app_nil_r s), skip_blanks by exact B. reflexivity.
  - apply blanks in Bl. apply no_blanks in Fw. apply gap_iff in G. rewrite skip_blanks by exact Bl. rewrite py_split_word by (try split; assumption). now rewrite IH.
Qed.
(** Every text has exactly one list of words, and it is what rd works with. *)
Theorem typed_words : forall line ws, cut line ws <-> py_split line = ws.
Proof.
  intros line ws. split; [apply cut_split|]. intros <-.
  assert (G : forall k s, (List.length s < k)%nat -> cut s (py_split s)); [|apply (G (S (List.length line))); lia].
  induction k as [|k IH]; intros s Hk; [lia|]. destruct (first_word s) as [[-> F] | (l & w & r & -> & Fl & [Nw Fw] & Gr & ->)].
  - apply cut_none, blanks, F.
  - apply cut_word; [apply blanks, Fl | exact Nw | apply no_blanks, Fw | apply gap_iff, Gr|]. apply IH. rewrite !app_length in Hk. destruct w; [contradiction|]. cbn in Hk. lia.
Qed.
Lemma means_iff w c : means w c <-> shortcode w = c.
Proof.
  split; [apply means_shortcode|]. intros <-. unfold means, shortcode.
  destruct (str_eqb w (st "e")) eqn:E1; [apply str_eqb_eq in E1; subst; left; left; reflexivity|].
  destruct (str_eqb w (st "f")) eqn:E2; [apply str_eqb_eq in E2; subst; left; right; left; reflexivity|].
  destruct (str_eqb w (st "m")) eqn:E3; [apply str_eqb_eq in E3; subst; left; do 2 right; left; reflexivity|].
  destruct (str_eqb w (st "p")) eqn:E4; [apply str_eqb_eq in E4; subst; left; do 3 right; left; reflexivity|].
  destruct (str_eqb w (st "s")) eqn:E5; [apply str_eqb_eq in E5; subst; left; do 4 right; left; reflexivity|].
  right. split; [reflexivity|]. intros H. cbn [short_forms map fst] in H. apply str_eqb_neq in E1, E2, E3, E4, E5. repeat destruct H as [H | H]; try congruence. destruct H.
Qed.
(** What is sent for a line: the command its first word means, with the other words; nothing for a line without words and for status. *)
Theorem line_sent : forall line c args, typed line = Some (c, args) <-> exists w, cut line (w :: args) /\ means w c /\ c <> st "status".
Proof.
  intros line c args. unfold typed. destruct (py_split line) as [|w ws] eqn:Sp.
  - split; [discriminate|]. intros (w & C & _). apply typed_words in C. congruence.
  - split.
    + destruct (str_eqb (shortcode w) (st "status")) eqn:E; [discriminate|]. intros H. injection H as <- <-. exists w. split; [apply typed_words; exact Sp|]. split; [apply means_iff; reflexivity | apply str_eqb_neq; exact E].
    + intros (w' & C & M & N). apply typed_words in C. rewrite Sp in C. injection C as -> ->. apply means_iff in M. subst c. apply str_eqb_neq in N. rewrite N. reflexivity.
Qed.
Theorem line_not_sent : forall line, typed line = None <-> cut line [] \/ exists w args, cut line (w :: args) /\ means w (st "status").
Proof.
  intros line. unfold typed. destruct (py_split line) as [|w ws] eqn:Sp.
  - split; [intros _; left; apply typed_words, Sp | reflexivity].
  - split.
    + destruct (str_eqb (shortcode w) (st "status")) eqn:E; [|discriminate]. intros _. right. exists w, ws. split; [apply typed_words; exact Sp|]. apply means_iff, str_eqb_eq, E.
    + intros [C | (w' & a & C & M)]; apply typed_words in C; [congruence|]. rewrite Sp in C. injection C as -> ->. apply means_iff in M. rewrite M, str_eqb_refl. reflexivity.
Qed.
Example line_sent_example : typed (st "  e   o .inner ") = Some (st "eval", [st "o"; st ".inner"]).
Proof.
  apply line_sent. exists (st "e"). split; [|split; [left; left; reflexivity | discriminate]].
  change (st "  e   o .inner ") with (st "  " ++ st "e" ++ st "   " ++ st "o" ++ st " " ++ st ".inner" ++ st " "). apply cut_word; [repeat constructor; apply blank_iff; reflexivity | discriminate | apply no_blanks; repeat constructor | right; do 2 eexists; split; [reflexivity | apply blank_iff; reflexivity]|].
  apply cut_word; [repeat constructor; apply blank_iff; reflexivity | discriminate | apply no_blanks; repeat constructor | right; do 2 eexists; split; [reflexivity | apply blank_iff; reflexivity]|].
  apply cut_word; [repeat constructor; apply blank_iff; reflexivity | discriminate | apply no_blanks; repeat constructor | right; do 2 eexists; split; [reflexivity | apply blank_iff; reflexivity]|]. apply cut_none. repeat constructor; apply blank_iff; reflexivity.
Qed.
Print Assumptions typed_words.
Print Assumptions line_sent.
Print Assumptions line_not_sent.
