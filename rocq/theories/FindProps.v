(** C131: whether an LLDB started later finds the installed script. What LLDB makes of a line of ~/.lldbinit is the specification:
    words are separated by blanks (quotes and backslashes are left open), and the words after "command script import" are files,
    a relative one being looked for in the directory LLDB was started in. *)
From Coq Require Import Ascii String List ZArith NArith Lia Bool.
From Verif Require Import Base NumText ExprModel JsonModel SymModel WireModel WireProps InstallModel InstallProps InstallExample Utf8.
Import ListNotations.
Open Scope Z_scope.

(** ** Specification *)
Definition blank_char (c : char) : bool := existsb (N.eqb c) [32; 9; 11; 12; 13]%N.
Definition quoting (c : char) : bool := existsb (N.eqb c) [ch "'"; ch "`"; 34; 92]%N.
Fixpoint pieces (s : str) : list str :=
  match s with
  | [] => [[]]
  | c :: r => if blank_char c then [] :: pieces r else match pieces r with w :: ws => (c :: w) :: ws | [] => [[c]] end
  end.
Definition words (s : str) : list str := filter (fun w => match w with [] => false | _ => true end) (pieces s).
(** The debugger's way to read a line: a parameter, known for lines without quoting. *)
Definition reads_words (L : str -> list str) : Prop := forall s, (forall c, In c s -> quoting c = false) -> L s = words s.
Definition absolute (p : str) : Prop := exists r, p = ch "/" :: r.
(** A file named in a directory. *)
Definition at_dir (cwd p : str) : str := if starts_with p (st "/") then p else cwd ++ st "/" ++ p.
Definition import_words : list str := map st ["command"; "script"; "import"]%string.
(** LLDB, started in [cwd] with [s] in ~/.lldbinit, imports [file]. *)
Definition loads (L : str -> list str) (cwd s file : str) : Prop :=
  exists line files f, has_line line s /\ ~ In newline line /\ L line = import_words ++ files /\ In f files /\ at_dir cwd f = file.
Definition ordinary (p : str) : Prop := forall c, In c p -> blank_char c = false /\ quoting c = false /\ c <> newline.

(** ** Proofs *)
Lemma pieces_word p : (forall c, In c p -> blank_char c = false) -> pieces p = [p].
Proof.
  induction p as [|c p IH]; intros H; cbn [pieces]; [reflexivity|]. rewrite (H c (or_introl eq_refl)), IH by (intros x Hx; apply H; right; exact Hx). reflexivity.
Qed.
Lemma pieces_cut a b p : (forall c, In c a -> blank_char c = false) -> blank_char b = true -> pieces (a ++ b :: p) = a :: pieces p.
Proof.
  intros H B. induction a as [|c a IH]; cbn [app pieces]; [rewrite B; reflexivity|].
  rewrite (H c (or_introl eq_refl)), IH by (intros x Hx; apply H; right; exact Hx). reflexivity.
Qed.
Lemma words_import p : words (st "command script import " ++ p) = import_words ++ words p.
Proof.
  unfold words. replace (st "command script import " ++ p) with (st "command" ++ 32%N :: st "script" ++ 32%N :: st "import" ++ 32%N :: p) by reflexivity.
  assert (D : forall s, forallb (fun c => negb (blank_char c)) (st s) = true -> forall c, In c (st s) -> blank_char c = false).
  { intros s H c Hc. rewrite forallb_forall in H. specialize (H c Hc). destruct (blank_char c); [discriminate | reflexivity]. }
  rewrite !pieces_cut by (try reflexivity; apply D; reflexivity). reflexivity.
Qed.
Lemma words_one p : p <> [] -> (forall c, In c p -> blank_char c = false) -> words p = [p].
Proof. intros N H. unfold words. rewrite pieces_word by exact H. destruct p; [congruence | reflexivity]. Qed.
Lemma import_plain p : (forall c, In c p -> quoting c = false) -> forall c, In c (st "command script import " ++ p) -> quoting c = false.
Proof.
  intros H c Hc. apply in_app_or in Hc as [Hc | Hc]; [|apply H; exact Hc].
  assert (F : forallb (fun x => negb (quoting x)) (st "command script import ") = true) by reflexivity. rewrite forallb_forall in F. specialize (F c Hc).
  destruct (quoting c); [discriminate | reflexivity].
Qed.
Lemma script_named w dir : script_path w dir <> [].
Proof. unfold script_path. destruct (inside_ends (expand_dir w dir) (st "rudy_lldb.py")) as [a ->]. destruct a; discriminate. Qed.
Lemma ordinary_no_newline w dir : ordinary (script_path w dir) -> ~ In newline (import_line w dir).
Proof.
  intros O H. unfold import_line in H. apply in_app_or in H as [H | H]; [|apply O in H; destruct H as (_ & _ & H); apply H; reflexivity].
  assert (F : forallb (fun x => negb (x =? newline)%N) (st "command script import ") = true) by reflexivity. rewrite forallb_forall in F. specialize (F _ H). discriminate F.
Qed.
Lemma import_reads L w dir : reads_words L -> ordinary (script_path w dir) -> L (import_line w dir) = import_words ++ [script_path w dir].
Proof.
  intros R O. unfold import_line. rewrite R by (apply import_plain; intros c Hc; apply O; exact Hc). rewrite words_import.
  rewrite words_one by (try apply script_named; intros c Hc; apply O; exact Hc). reflexivity.
Qed.
(** In a directory with an absolute path of ordinary characters, the script is found wherever LLDB is started. *)
Theorem installed_found_partial : forall L w dir i f s content, reads_words L -> m_mkdir w (expand_dir w dir) = true -> m_writable w (script_path w dir) = true -> m_writable w (lldbinit_path w) = true ->
  offered w content -> text (import_line w dir) -> holds f (lldbinit_path w) s ->
  (s = [] \/ exists s', s = s' ++ [newline]) -> (forall a b, s = a ++ import_line w dir ++ b -> has_line (import_line w dir) s) ->
  absolute (script_path w dir) -> ordinary (script_path w dir) ->
  exists f2 s2, install w dir false true i f = (Ok tt, f2) /\ f2 (script_path w dir) = Some (utf8 content) /\ holds f2 (lldbinit_path w) s2 /\
    forall cwd, loads L cwd s2 (script_path w dir).
Proof.
  intros L w dir i f s content R M W1 W2 O T H E C [r A] P.
  destruct (install_installs_partial w dir i f s content M W1 W2 O T H E C) as (f2 & I1 & I2 & s2 & H2 & HL).
  exists f2, s2. split; [exact I1|]. split; [exact I2|]. split; [exact H2|]. intros cwd.
  exists (import_line w dir), [script_path w dir], (script_path w dir). split; [exact HL|]. split; [apply ordinary_no_newline; exact P|].
  split; [apply import_reads; assumption|]. split; [left; reflexivity|]. unfold at_dir. rewrite A.
  assert (S : starts_with (ch "/" :: r) (st "/") = true) by (apply starts_with_spec; exists r; reflexivity). rewrite S. reflexivity.
Qed.
Print Assumptions installed_found_partial.
(** The only line of a text of one line. *)
Lemma only_line l line : ~ In newline l -> ~ In newline line -> has_line line (l ++ [newline]) -> line = l \/ line = [].
Proof.
  intros Nl Nx (a & b & E & A & B). destruct A as [-> | [a' ->]].
  - destruct B as [-> | [b' ->]].
    + exfalso. apply Nx. cbn [app] in E. rewrite app_nil_r in E. rewrite <- E. apply in_or_app. right. left. reflexivity.
    + left. cbn [app] in E. revert E Nl Nx. clear. revert l. induction line as [|c line IH]; intros l E Nl Nx.
      * destruct l as [|d l]; [reflexivity|]. exfalso. apply Nl. left. exact (f_equal (fun z => hd 0%N z) E).
      * destruct l as [|d l]; [exfalso; apply Nx; left; exact (eq_sym (f_equal (fun z => hd 0%N z) E))|]. pose proof (f_equal (fun z => hd 0%N z) E) as E1. apply (f_equal (@tl char)) in E. cbn [hd tl app] in E1, E. subst d. f_equal. apply (IH l E).
        -- intros H. apply Nl. right. exact H.
        -- intros H. apply Nx. right. exact H.
  - right. destruct line as [|c line]; [reflexivity|]. exfalso. rewrite <- app_assoc in E. cbn [app] in E.
    assert (K : forall (x y : str), l ++ [newline] = x ++ newline :: y -> y = []).
    { revert Nl. clear. induction l as [|d l IH]; intros Nl x y E.
      - destruct x as [|e x]; [apply (f_equal (@tl char)) in E; symmetry; exact E | apply (f_equal (@tl char)) in E; cbn [tl app] in E; destruct x; discriminate E].
      - destruct x as [|e x]; [exfalso; apply Nl; left; exact (f_equal (fun z => hd 0%N z) E)|]. apply (f_equal (@tl char)) in E. cbn [tl app] in E. apply (IH (fun H => Nl (or_intror H)) x y E). }
    apply K in E. discriminate E.
Qed.
(** After a first installation nothing else is imported. *)
Lemma fresh_loads L w dir cwd file : reads_words L -> ~ In newline (import_line w dir) -> loads L cwd (import_line w dir ++ [newline]) file ->
  exists files f, L (import_line w dir) = import_words ++ files /\ In f files /\ at_dir cwd f = file.
Proof.
  intros R N (line & files & f & H & Nl & E & Hf & A). destruct (only_line _ _ N Nl H) as [-> | ->]; [exists files, f; auto|].
  exfalso. rewrite R in E by (intros c []). cbn in E. discriminate E.
Qed.
Lemma first_install w dir i f content : m_mkdir w (expand_dir w dir) = true -> m_writable w (script_path w dir) = true -> m_writable w (lldbinit_path w) = true ->
  offered w content -> (forall p, f p = None) -> exists f2, install w dir false true i f = (Ok tt, f2) /\ f2 (script_path w dir) = Some (utf8 content) /\
    f2 (lldbinit_path w) = Some (utf8 (import_line w dir ++ [newline])).
Proof.
  intros M W1 W2 O F. apply offered_fetch in O. pose proof (two_files w dir) as D. unfold install. cbv zeta. rewrite M, F. cbn [negb]. rewrite O, W1.
  unfold add_import. cbv zeta. rewrite (set_other f (script_path w dir) _ (lldbinit_path w)) by congruence. rewrite F, W2. eexists. split; [reflexivity|].
  split; [rewrite set_other by exact D; apply set_same|]. rewrite set_same, utf8_app. reflexivity.
Qed.
(** Installed under a relative directory, the script is found from the directory the installer ran in and from no other. *)
Theorem relative_found_only_there_refuted : forall L w dir i f content, reads_words L -> m_mkdir w (expand_dir w dir) = true -> m_writable w (script_path w dir) = true -> m_writable w (lldbinit_path w) = true ->
  offered w content -> (forall p, f p = None) -> ~ absolute (script_path w dir) -> ordinary (script_path w dir) ->
  exists f2, install w dir false true i f = (Ok tt, f2) /\ f2 (script_path w dir) = Some (utf8 content) /\
    let s2 := import_line w dir ++ [newline] in f2 (lldbinit_path w) = Some (utf8 s2) /\
    forall here cwd, loads L cwd s2 (at_dir here (script_path w dir)) <-> cwd = here.
Proof.
  intros L w dir i f content R M W1 W2 O F NA P. destruct (first_install w dir i f content M W1 W2 O F) as (f2 & I1 & I2 & I3).
  exists f2. split; [exact I1|]. split; [exact I2|]. split; [exact I3|]. intros here cwd.
  assert (S : starts_with (script_path w dir) (st "/") = false).
  { destruct (starts_with (script_path w dir) (st "/")) eqn:S; [|reflexivity]. apply starts_with_spec in S as [r S]. destruct NA. exists r. exact S. }
  pose proof (import_reads L w dir R P) as E. split.
  - intros H. apply (fresh_loads L w dir cwd _ R (ordinary_no_newline w dir P)) in H as (files & g & E2 & Hg & A). rewrite E in E2.
    apply app_inv_head in E2. subst files. destruct Hg as [<- | []]. unfold at_dir in A. rewrite S in A. apply app_inv_tail in A. exact A.
  - intros ->. exists (import_line w dir), [script_path w dir], (script_path w dir). split; [|split; [apply ordinary_no_newline; exact P | split; [exact E | split; [left; reflexivity | reflexivity]]]].
    exists [], [newline]. split; [reflexivity|]. split; [left; reflexivity | right; exists []; reflexivity].
Qed.
Print Assumptions relative_found_only_there_refuted.
Lemma ordinary_check p : forallb (fun c => negb (blank_char c) && negb (quoting c) && negb (c =? newline)%N) p = true -> ordinary p.
Proof.
  intros H c Hc. rewrite forallb_forall in H. specialize (H c Hc). apply andb_true_iff in H as [H H3]. apply andb_true_iff in H as [H1 H2].
  apply negb_true_iff in H1, H2, H3. split; [exact H1|]. split; [exact H2|]. apply N.eqb_neq. exact H3.
Qed.
(** A directory with a space in its name: found from nowhere. *)
Definition spaced : str := st "/home/u/My Tools".
Theorem space_never_found_refuted : forall L i, reads_words L -> exists f2, install mac spaced false true i (fun _ => None) = (Ok tt, f2) /\
  f2 (script_path mac spaced) = Some (utf8 (st "# two")) /\ exists s2, holds f2 (lldbinit_path mac) s2 /\ forall cwd, ~ loads L cwd s2 (script_path mac spaced).
Proof.
  intros L i R. assert (P : script_path mac spaced = st "/home/u/My Tools/rudy_lldb.py") by (vm_compute; reflexivity).
  destruct (first_install mac spaced i (fun _ => None) (st "# two")) as (f2 & I1 & I2 & I3); try reflexivity; [apply fetch_offered; exact second_release|].
  exists f2. split; [exact I1|]. split; [exact I2|]. exists (import_line mac spaced ++ [newline]). split.
  - split; [|rewrite I3; reflexivity]. unfold import_line. rewrite P. unfold text, newline. cbn. repeat (apply Forall_cons; [left; vm_compute; discriminate|]). apply Forall_nil.
  - intros cwd H. apply (fresh_loads L mac spaced cwd _ R) in H as (files & f & E & Hf & A).
    + rewrite R in E. 2:{ unfold import_line. apply import_plain. rewrite P. intros c Hc.
        assert (F : forallb (fun x => negb (quoting x)) (st "/home/u/My Tools/rudy_lldb.py") = true) by reflexivity. rewrite forallb_forall in F. specialize (F c Hc). destruct (quoting c); [discriminate | reflexivity]. }
      unfold import_line in E. rewrite words_import, P in E. apply app_inv_head in E. subst files.
      assert (Wd : words (st "/home/u/My Tools/rudy_lldb.py") = [st "/home/u/My"; st "Tools/rudy_lldb.py"]) by (vm_compute; reflexivity).
      rewrite Wd in Hf. rewrite P in A. destruct Hf as [<- | [<- | []]]; [vm_compute in A; discriminate A|].
      change (at_dir cwd (st "Tools/rudy_lldb.py")) with (cwd ++ (st "/" ++ st "Tools/rudy_lldb.py")) in A.
      change (st "/home/u/My Tools/rudy_lldb.py") with (st "/home/u/M" ++ st "y " ++ st "Tools/rudy_lldb.py") in A. rewrite !app_assoc in A. apply app_inv_tail in A.
      apply (f_equal (fun l => last l 0%N)) in A. change (st "/") with [ch "/"] in A. rewrite last_last in A. vm_compute in A. discriminate A.
    + unfold import_line. rewrite P. intros Hn. vm_compute in Hn. repeat destruct Hn as [Hn | Hn]; try discriminate Hn. contradiction.
Qed.
Print Assumptions space_never_found_refuted.
(** Examples: the hypotheses. *)
Example reads_exists : reads_words words.
Proof. intros s _. reflexivity. Qed.
Example home_found : absolute (script_path mac dir0) /\ ordinary (script_path mac dir0).
Proof. split; [eexists; vm_compute; reflexivity | apply ordinary_check; vm_compute; reflexivity]. Qed.
Example tools_relative : script_path mac (st "tools") = st "tools/rudy_lldb.py" /\ ~ absolute (script_path mac (st "tools")) /\ ordinary (script_path mac (st "tools")).
Proof. split; [vm_compute; reflexivity|]. split; [intros [r E]; vm_compute in E; discriminate E | apply ordinary_check; vm_compute; reflexivity]. Qed.
Example home_loads : forall cwd, loads words cwd (init0 ++ line0 ++ [newline]) script.
Proof.
  intros cwd. exists line0, [script], script. split; [exists init0, [newline]; split; [reflexivity|]; split; [right; exists (st "settings set a b"); reflexivity | right; exists []; reflexivity]|].
  split; [intros H; vm_compute in H; repeat destruct H as [H | H]; try discriminate H; contradiction|]. split; [vm_compute; reflexivity|]. split; [left; reflexivity | reflexivity].
Qed.
