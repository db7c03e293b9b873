(** C119: installing the LLDB script. *)
From Coq Require Import Ascii String List ZArith NArith Lia Bool.
From Verif Require Import Base NumText ExprModel JsonModel SymModel WireModel WireProps InstallModel Utf8.
Import ListNotations.
Open Scope Z_scope.

(** ** Specification *)
Definition newline : char := 10%N.
(** One of the lines of the text [s] is exactly [l]. *)
Definition has_line (l s : str) : Prop :=
  exists a b, s = a ++ l ++ b /\ (a = [] \/ exists a', a = a' ++ [newline]) /\ (b = [] \/ exists b', b = newline :: b').
(** The text of a file (nothing when there is none). *)
Definition holds (f : fs) (p s : str) : Prop := text s /\ match f p with Some bs => bs = utf8 s | None => s = [] end.
(** What LLDB runs at its start: the import of the installed script is a line of ~/.lldbinit. *)
Definition imported (w : machine) (dir : str) (f : fs) : Prop := exists s, holds f (lldbinit_path w) s /\ has_line (import_line w dir) s.
(** The script the web offers: the asset rudy_lldb.py of the first release whose tag begins with rudy-lldb-. *)
Definition tag_of (j : json) (t : str) : Prop := at_key "tag_name" j = JStr t.
Definition ours (j : json) : Prop := exists t, tag_of j (st "rudy-lldb-" ++ t).
Definition named_script (j : json) : Prop := at_key "name" j = JStr (st "rudy_lldb.py").
Definition offered (w : machine) (content : str) : Prop :=
  exists body newer r older before a behind u,
    m_releases w = Ok body /\ from_str body = Ok (JArr (newer ++ r :: older)) /\ ours r /\ (forall x, In x newer -> ~ ours x) /\
    at_key "assets" r = JArr (before ++ a :: behind) /\ named_script a /\ (forall x, In x before -> ~ named_script x) /\
    at_key "browser_download_url" a = JStr u /\ m_download w u = Ok content.

(** ** Proofs *)
Lemma find_first_split {A} (p : A -> bool) l x : find p l = Some x -> exists a b, l = a ++ x :: b /\ p x = true /\ forall y, In y a -> p y = false.
Proof.
  induction l as [|y l IH]; [discriminate|]. cbn. destruct (p y) eqn:E.
  - intros H. injection H as ->. exists [], l. split; [reflexivity|]. split; [exact E | intros z []].
  - intros H. destruct (IH H) as (a & b & -> & P & F). exists (y :: a), b. split; [reflexivity|]. split; [exact P|]. intros z [<- | Hz]; [exact E | exact (F z Hz)].
Qed.
Lemma is_release_ours j : is_release j = true <-> ours j.
Proof.
  unfold is_release, ours, tag_of. destruct (at_key "tag_name" j) as [| | | |t| |] eqn:E; cbn [as_str]; split; try discriminate; try (intros [t' Q]; discriminate Q).
  - intros H. apply starts_with_spec in H. destruct H as [r ->]. exists r. reflexivity.
  - intros [t' Q]. injection Q as ->. apply starts_with_spec. exists t'. reflexivity.
Qed.
Lemma is_script_named j : is_script j = true <-> named_script j.
Proof.
  unfold is_script, named_script. destruct (at_key "name" j) as [| | | |t| |] eqn:E; cbn [as_str]; split; try discriminate; intros H.
  - apply str_eqb_eq in H. now rewrite H.
  - injection H as ->. now apply str_eqb_eq.
Qed.
Lemma fetch_offered w content : fetch w = Ok content -> offered w content.
Proof.
  unfold fetch, script_url. destruct (m_releases w) as [body|m|m|] eqn:B; try discriminate. cbn [bind]. destruct (from_str body) as [j|m|m|] eqn:J; try discriminate. cbn [bind].
  destruct j as [| | | | |rs|]; try discriminate. destruct (find is_release rs) as [r|] eqn:R; [|discriminate].
  destruct (at_key "assets" r) as [| | | | |ats|] eqn:A; try discriminate. destruct (find is_script ats) as [a|] eqn:F; [|discriminate].
  destruct (at_key "browser_download_url" a) as [| | | |u| |] eqn:U; try discriminate. cbn [as_str bind]. intros D.
  apply find_first_split in R. destruct R as (newer & older & -> & Y & N). apply find_first_split in F. destruct F as (before & behind & -> & Z & M).
  exists body, newer, r, older, before, a, behind, u. repeat apply conj; auto.
  - now apply is_release_ours.
  - intros x Hx O. apply is_release_ours in O. rewrite (N x Hx) in O. discriminate O.
  - now apply is_script_named.
  - intros x Hx O. apply is_script_named in O. rewrite (M x Hx) in O. discriminate O.
Qed.
Lemma find_at {A} (p : A -> bool) a x b : (forall y, In y a -> p y = false) -> p x = true -> find p (a ++ x :: b) = Some x.
Proof. intros F P. induction a as [|y a IH]; cbn; [now rewrite P|]. rewrite (F y (or_introl eq_refl)). apply IH. intros z Hz. apply F. now right. Qed.
Lemma offered_fetch w content : offered w content -> fetch w = Ok content.
Proof.
  intros (body & newer & r & older & before & a & behind & u & B & J & O & N & A & S & M & U & D). unfold fetch, script_url. rewrite B. cbn [bind]. rewrite J. cbn [bind].
  rewrite find_at; [|intros y Hy; destruct (is_release y) eqn:E; [destruct (N y Hy); now apply is_release_ours | reflexivity] | now apply is_release_ours]. rewrite A.
  rewrite find_at; [|intros y Hy; destruct (is_script y) eqn:E; [destruct (M y Hy); now apply is_script_named | reflexivity] | now apply is_script_named]. rewrite U. exact D.
Qed.
Lemma set_same f p bs : set_file f p bs p = Some bs.
Proof. unfold set_file. replace (str_eqb p p) with true by (symmetry; now apply str_eqb_eq). reflexivity. Qed.
Lemma set_other f p bs q : q <> p -> set_file f p bs q = f q.
Proof. intros N. unfold set_file. destruct (str_eqb q p) eqn:E; [apply str_eqb_eq in E; contradiction | reflexivity]. Qed.
Lemma inside_ends dir name : exists a, inside dir name = a ++ name.
Proof. unfold inside. destruct dir as [|c d]; [exists []; reflexivity|]. destruct (_ =? _)%N; [eexists; reflexivity | exists ((c :: d) ++ st "/"); now rewrite <- app_assoc]. Qed.
Lemma two_files w dir : script_path w dir <> lldbinit_path w.
Proof.
  unfold script_path, lldbinit_path. destruct (inside_ends (expand_dir w dir) (st "rudy_lldb.py")) as [a ->]. destruct (inside_ends (home w) (st ".lldbinit")) as [b ->].
  intros H. apply (f_equal (@rev char)) in H. rewrite !rev_app_distr in H. vm_compute in H. discriminate H.
Qed.
Lemma contains_spec l s : contains l s = true <-> exists a b, s = a ++ l ++ b.
Proof.
  induction s as [|c s IH]; cbn [contains]; rewrite orb_true_iff, starts_with_spec.
  - split; [intros [[r H]|H]; [exists [], r; exact H | discriminate] | intros (a & b & H); left; exists b; destruct a; [exact H | discriminate H]].
  - rewrite IH. split.
    + intros [[r H]|(a & b & ->)]; [exists [], r; exact H | exists (c :: a), b; reflexivity].
    + intros (a & b & H). destruct a as [|x a]; [left; exists b; exact H|]. right. injection H as -> ->. exists a, b. reflexivity.
Qed.
Lemma utf8_app a b : utf8 (a ++ b) = utf8 a ++ utf8 b.
Proof. apply flat_map_app. Qed.
(** What happens to ~/.lldbinit. *)
Lemma add_import_cases w dir yes i f : let '(o, f1) := add_import w dir yes i f in
  f1 = f \/ (o = Ok tt /\ f1 = set_file f (lldbinit_path w) (match f (lldbinit_path w) with Some bs => bs | None => [] end ++ utf8 (import_line w dir) ++ [10])).
Proof.
  unfold add_import. cbv zeta. destruct (match f (lldbinit_path w) with None => _ | Some bs => _ end) as [s|m|m|]; try (left; reflexivity).
  destruct (match f (lldbinit_path w) with Some _ => contains _ s | None => false end); [left; reflexivity|].
  destruct (if yes then Ok true else _) as [[]|m|m|]; try (left; reflexivity). destruct (m_writable w (lldbinit_path w)); [right; split; reflexivity | left; reflexivity].
Qed.
(** What an installation does to the files, all cases. *)
Lemma install_cases w dir skip yes i f : let '(o, f2) := install w dir skip yes i f in
  f2 = f \/ exists content i1, fetch w = Ok content /\ m_writable w (script_path w dir) = true /\
    ((skip = true /\ o = Ok tt /\ f2 = set_file f (script_path w dir) (utf8 content)) \/
     (skip = false /\ (o, f2) = add_import w dir yes i1 (set_file f (script_path w dir) (utf8 content)))).
Proof.
  destruct (install w dir skip yes i f) as [o f2] eqn:E. unfold install in E. cbv zeta in E. destruct (negb (m_mkdir w (expand_dir w dir))); [injection E as <- <-; left; reflexivity|].
  match type of E with (let '(_, _) := ?x in _) = _ => destruct x as [go i1] end.
  destruct go as [[]|m|m|]; try (injection E as <- <-; left; reflexivity). destruct (fetch w) as [content|m|m|]; try (injection E as <- <-; left; reflexivity).
  destruct (m_writable w (script_path w dir)); [|injection E as <- <-; left; reflexivity].
  right. exists content, i1. split; [reflexivity|]. split; [reflexivity|]. destruct skip; [left; injection E as <- <-; tauto | right; split; [reflexivity | now symmetry]].
Qed.

(** ** C119 *)
(** No file but the script and ~/.lldbinit is touched, whatever happens. *)
Theorem install_touches_only : forall w dir skip yes i f q, q <> script_path w dir -> q <> lldbinit_path w -> snd (install w dir skip yes i f) q = f q.
Proof.
  intros w dir skip yes i f q N1 N2. pose proof (install_cases w dir skip yes i f) as H. destruct (install w dir skip yes i f) as [o f2]. cbn [snd].
  destruct H as [-> | (content & i1 & _ & _ & [(_ & _ & ->)|(_ & H)])]; [reflexivity | now apply set_other|].
  pose proof (add_import_cases w dir yes i1 (set_file f (script_path w dir) (utf8 content))) as A. rewrite <- H in A. destruct A as [-> | [_ ->]]; [now apply set_other|]. rewrite !set_other by assumption. reflexivity.
Qed.
Print Assumptions install_touches_only.
(** ~/.lldbinit keeps everything it held: at most the import is added at its end; not at all when it is to be skipped, and
    not when the installation fails. *)
Theorem install_keeps_lldbinit : forall w dir skip yes i f o f2, install w dir skip yes i f = (o, f2) -> let p := lldbinit_path w in
  f2 p = f p \/ (skip = false /\ o = Ok tt /\ f2 p = Some (match f p with Some bs => bs | None => [] end ++ utf8 (import_line w dir) ++ [10])).
Proof.
  intros w dir skip yes i f o f2 E p. pose proof (install_cases w dir skip yes i f) as H. rewrite E in H. pose proof (two_files w dir) as D. subst p.
  destruct H as [-> | (content & i1 & _ & _ & [(_ & _ & ->)|(-> & H)])]; [left; reflexivity | left; apply set_other; congruence|].
  pose proof (add_import_cases w dir yes i1 (set_file f (script_path w dir) (utf8 content))) as A. rewrite <- H in A. destruct A as [-> | [-> ->]]; [left; apply set_other; congruence|].
  right. split; [reflexivity|]. split; [reflexivity|]. rewrite set_same, set_other by congruence. reflexivity.
Qed.
Print Assumptions install_keeps_lldbinit.
(** The script file is left alone or becomes what the web offers, completely. *)
Theorem install_writes_offered : forall w dir skip yes i f o f2, install w dir skip yes i f = (o, f2) -> let p := script_path w dir in
  f2 p = f p \/ exists content, offered w content /\ f2 p = Some (utf8 content).
Proof.
  intros w dir skip yes i f o f2 E p. pose proof (install_cases w dir skip yes i f) as H. rewrite E in H. pose proof (two_files w dir) as D. subst p.
  destruct H as [-> | (content & i1 & F & _ & H)]; [left; reflexivity|]. right. exists content. split; [now apply fetch_offered|].
  destruct H as [(_ & _ & ->)|(-> & H)]; [apply set_same|].
  pose proof (add_import_cases w dir yes i1 (set_file f (script_path w dir) (utf8 content))) as A. rewrite <- H in A. destruct A as [-> | [-> ->]]; [apply set_same|]. rewrite set_other by exact D. apply set_same.
Qed.
Print Assumptions install_writes_offered.
(** An existing script is not overwritten without consent: -y, or an answer beginning with y or Y. *)
Definition consents (a : str) : Prop := exists c r, trim a = c :: r /\ (c = ch "y" \/ c = ch "Y").
Lemma says_yes_consents a : says_yes a = true <-> consents a.
Proof.
  unfold says_yes, consents. destruct (trim a) as [|c r]; split; try discriminate.
  - intros (c & r & H & _). discriminate H.
  - intros H. exists c, r. split; [reflexivity|]. apply orb_true_iff in H. destruct H as [H|H]; apply N.eqb_eq in H; rewrite H; [left | right]; reflexivity.
  - intros (x & y & E & H). injection E as <- <-. apply orb_true_iff. destruct H as [-> | ->]; [left | right]; reflexivity.
Qed.
Theorem install_asks_first : forall w dir skip a i f bs, m_mkdir w (expand_dir w dir) = true -> f (script_path w dir) = Some bs -> ~ consents a -> install w dir skip false (Some a :: i) f = (Ok tt, f).
Proof.
  intros w dir skip a i f bs M F N. unfold install. cbv zeta. rewrite M, F. cbn [negb read_answer rmap bind].
  destruct (says_yes a) eqn:E; [destruct (N (proj1 (says_yes_consents a) E)) | reflexivity].
Qed.
Print Assumptions install_asks_first.
(** When nothing goes wrong: the script is there, and with the import wanted and ~/.lldbinit a text file that ends in a
    line feed (or is empty, or absent) and mentions the import nowhere except as a line, LLDB imports it. *)
Theorem install_installs_partial : forall w dir i f s content, m_mkdir w (expand_dir w dir) = true -> m_writable w (script_path w dir) = true -> m_writable w (lldbinit_path w) = true ->
  offered w content -> text (import_line w dir) -> holds f (lldbinit_path w) s ->
  (s = [] \/ exists s', s = s' ++ [newline]) -> (forall a b, s = a ++ import_line w dir ++ b -> has_line (import_line w dir) s) ->
  exists f2, install w dir false true i f = (Ok tt, f2) /\ f2 (script_path w dir) = Some (utf8 content) /\ imported w dir f2.
Proof.
  intros w dir i f s content M W1 W2 O T [Ts H] E C. apply offered_fetch in O. pose proof (two_files w dir) as D. unfold install. cbv zeta. rewrite M. cbn [negb].
  set (p := script_path w dir) in *. set (q := lldbinit_path w) in *. set (l := import_line w dir) in *.
  replace (match f p with Some _ => false | None => false end) with false by (destruct (f p); reflexivity). rewrite O, W1.
  set (f1 := set_file f p (utf8 content)). assert (Q : f1 q = f q) by (apply set_other; congruence).
  unfold add_import. cbv zeta. fold q. fold l. rewrite Q. destruct (f q) as [bs|] eqn:Fq.
  - subst bs. rewrite (text_of_utf8 s Ts). destruct (contains l s) eqn:K.
    + exists f1. split; [reflexivity|]. split; [apply set_same|]. exists s. split; [split; [exact Ts | fold q; rewrite Q; reflexivity]|]. apply contains_spec in K. destruct K as (a & b & K). exact (C a b K).
    + rewrite W2. eexists. split; [reflexivity|]. split; [rewrite set_other by exact D; apply set_same|]. exists (s ++ l ++ [newline]). split.
      * split; [apply Forall_app; split; [exact Ts|]; apply Forall_app; split; [exact T|]; apply Forall_cons; [left; vm_compute; discriminate | constructor]|]. fold q. rewrite set_same, !utf8_app. reflexivity.
      * exists s, [newline]. split; [reflexivity|]. split; [exact E | right; exists []; reflexivity].
  - subst s. rewrite W2. eexists. split; [reflexivity|]. split; [rewrite set_other by exact D; apply set_same|]. exists (l ++ [newline]). split.
    + split; [apply Forall_app; split; [exact T|]; apply Forall_cons; [left; vm_compute; discriminate | constructor]|]. fold q. rewrite set_same, !utf8_app. reflexivity.
    + exists [], [newline]. split; [reflexivity|]. split; [left; reflexivity | right; exists []; reflexivity].
Qed.
Print Assumptions install_installs_partial.
(** Without --yes, on a first installation: the import is added when the question about it is answered by nothing or by
    something that begins with y, and not after any other answer; the script is installed in either case. *)
Definition blank (a : str) : Prop := forall c, In c a -> is_whitespace c = true.
Lemma trim_start_blank s : trim_start s = [] <-> blank s.
Proof.
  unfold blank. induction s as [|c s IH]; cbn [trim_start]; [split; [intros _ c [] | reflexivity]|]. destruct (is_whitespace c) eqn:E.
  - rewrite IH. split; [intros H x [<- | Hx]; auto | intros H x Hx; apply H; now right].
  - split; [discriminate | intros H; rewrite (H c (or_introl eq_refl)) in E; discriminate E].
Qed.
Lemma says_nothing_blank a : says_nothing a = true <-> blank a.
Proof.
  unfold says_nothing, trim. rewrite <- trim_start_blank. destruct (trim_start a) as [|c s] eqn:E.
  - cbn. split; reflexivity.
  - split; [|discriminate]. destruct (rev (trim_start (rev (c :: s)))) eqn:Q; [|discriminate]. apply (f_equal (@rev char)) in Q. rewrite rev_involutive in Q. cbn [rev] in Q.
    pose proof (proj1 (trim_start_blank (rev s ++ [c])) Q) as B. assert (W : is_whitespace c = true) by (apply B, in_or_app; right; left; reflexivity).
    exfalso. revert E W. clear. induction a as [|d a IH]; cbn; [discriminate|]. destruct (is_whitespace d) eqn:D; [exact IH | intros E; injection E as -> _; congruence].
Qed.
Theorem import_follows_answer : forall w dir a i f s content, m_mkdir w (expand_dir w dir) = true -> m_writable w (script_path w dir) = true -> m_writable w (lldbinit_path w) = true ->
  offered w content -> f (script_path w dir) = None -> holds f (lldbinit_path w) s -> (forall x y, s <> x ++ import_line w dir ++ y) ->
  exists f2, install w dir false false (Some a :: i) f = (Ok tt, f2) /\ f2 (script_path w dir) = Some (utf8 content) /\
    (consents a \/ blank a -> f2 (lldbinit_path w) = Some (utf8 (s ++ import_line w dir ++ [newline]))) /\
    (~ consents a -> ~ blank a -> f2 (lldbinit_path w) = f (lldbinit_path w)).
Proof.
  intros w dir a i f s content M W1 W2 O F [Ts H] N. apply offered_fetch in O. pose proof (two_files w dir) as D. unfold install. cbv zeta. rewrite M, F. cbn [negb]. rewrite O, W1.
  set (p := script_path w dir) in *. set (q := lldbinit_path w) in *. set (l := import_line w dir) in *.
  set (f1 := set_file f p (utf8 content)). assert (Q : f1 q = f q) by (apply set_other; congruence).
  unfold add_import. cbv zeta. fold q. fold l. rewrite Q.
  assert (K : contains l s = false) by (destruct (contains l s) eqn:K; [apply contains_spec in K; destruct K as (x & y & K); destruct (N x y K) | reflexivity]).
  assert (A : says_nothing a || says_yes a = true <-> consents a \/ blank a) by (rewrite orb_true_iff, says_nothing_blank, says_yes_consents; tauto).
  assert (E : forall b, (match f q with None => Ok [] | Some bs => match text_of bs with Some s0 => Ok s0 | None => Err b end end = Ok s) /\ (match f q with Some _ => contains l s | None => false end = false)).
  { intros b. destruct (f q) as [bs|]; [subst bs; rewrite (text_of_utf8 s Ts); split; [reflexivity | exact K] | subst s; split; reflexivity]. }
  destruct (E "stream did not contain valid UTF-8"%string) as [E1 E2]. rewrite E1, E2. cbn [read_answer fst rmap bind]. destruct (says_nothing a || says_yes a) eqn:S1.
  - rewrite W2. eexists. split; [reflexivity|]. split; [rewrite set_other by exact D; apply set_same|]. split.
    + intros _. rewrite set_same, !utf8_app. destruct (f q) as [bs|]; [now subst bs | subst s; reflexivity].
    + intros C B. exfalso. destruct (proj1 A eq_refl); contradiction.
  - exists f1. split; [reflexivity|]. split; [apply set_same|]. split; [intros C; apply A in C; discriminate C | intros _ _; exact Q].
Qed.
Print Assumptions import_follows_answer.
(** Without HOME, ~ is the current directory. *)
Theorem without_home : forall w dir, m_home w = None -> lldbinit_path w = st "./.lldbinit" /\ script_path w (st "~/" ++ dir) = script_path w (st "./" ++ dir).
Proof.
  intros w dir H. unfold lldbinit_path, script_path, expand_dir, home. rewrite H. split; [reflexivity|].
  replace (starts_with (st "~/" ++ dir) (st "~/")) with true by (symmetry; apply starts_with_spec; exists dir; reflexivity).
  replace (starts_with (st "./" ++ dir) (st "~/")) with false by reflexivity. reflexivity.
Qed.
Print Assumptions without_home.
(** Installing again changes nothing (the web offering the same). *)
Theorem install_idempotent : forall w dir skip i i' f s f2, text (import_line w dir) -> holds f (lldbinit_path w) s -> install w dir skip true i f = (Ok tt, f2) ->
  exists f3, install w dir skip true i' f2 = (Ok tt, f3) /\ forall q, f3 q = f2 q.
Proof.
  intros w dir skip i i' f s f2 T [Ts H] E. pose proof (two_files w dir) as D. unfold install in *. cbv zeta in *. destruct (m_mkdir w (expand_dir w dir)); [|discriminate E]. cbn [negb] in *.
  set (p := script_path w dir) in *. set (q := lldbinit_path w) in *. set (l := import_line w dir) in *.
  replace (match f p with Some _ => false | None => false end) with false in E by (destruct (f p); reflexivity).
  replace (match f2 p with Some _ => false | None => false end) with false by (destruct (f2 p); reflexivity).
  destruct (fetch w) as [content|m|m|]; try discriminate E. destruct (m_writable w p); [|discriminate E].
  set (f1 := set_file f p (utf8 content)) in *. assert (Q : f1 q = f q) by (apply set_other; congruence).
  destruct skip.
  { injection E as <-. eexists. split; [reflexivity|]. intros x. unfold f1. unfold set_file. destruct (str_eqb x p); reflexivity. }
  unfold add_import in *. cbv zeta in *. fold q in E |- *. fold l in E |- *. rewrite Q in E.
  assert (G : forall t, contains l t = true -> text t -> f2 p = Some (utf8 content) -> f2 q = Some (utf8 t) ->
    exists f3, (let f1 := set_file f2 p (utf8 content) in match (match f1 q with None => Ok [] | Some bs => match text_of bs with Some s => Ok s | None => Err "stream did not contain valid UTF-8" end end) with
      | Ok s => if match f1 q with Some _ => contains l s | None => false end then (Ok tt, f1) else (if m_writable w q then (Ok tt, set_file f1 q (match f1 q with Some bs => bs | None => [] end ++ utf8 l ++ [10])) else (Err "cannot open .lldbinit", f1))
      | Err m => (Err m, f1) | Panic m => (Panic m, f1) | Fuel => (Fuel, f1) end) = (Ok tt, f3) /\ forall x, f3 x = f2 x).
  { intros t K Tt P2 Q2. cbv zeta. rewrite set_other by congruence. rewrite Q2, (text_of_utf8 t Tt), K. eexists. split; [reflexivity|]. intros x. unfold set_file. destruct (str_eqb x p) eqn:X; [apply str_eqb_eq in X; subst x; now symmetry | reflexivity]. }
  assert (Tn : text (l ++ [newline])) by (apply Forall_app; split; [exact T | apply Forall_cons; [left; vm_compute; discriminate | constructor]]).
  destruct (f q) as [bs|] eqn:Fq.
  - subst bs. rewrite (text_of_utf8 s Ts) in E. destruct (contains l s) eqn:K.
    + injection E as <-. apply (G s K Ts); [apply set_same | exact Q].
    + destruct (m_writable w q); [|discriminate E]. injection E as <-. apply (G (s ++ l ++ [newline])).
      * apply contains_spec. exists s, [newline]. reflexivity.
      * apply Forall_app; split; assumption.
      * rewrite set_other by exact D. apply set_same.
      * rewrite set_same, !utf8_app. reflexivity.
  - destruct (m_writable w q); [|discriminate E]. injection E as <-. apply (G (l ++ [newline])).
    + apply contains_spec. exists [], [newline]. reflexivity.
    + exact Tn.
    + rewrite set_other by exact D. apply set_same.
    + rewrite set_same, !utf8_app. reflexivity.
Qed.
Print Assumptions install_idempotent.
