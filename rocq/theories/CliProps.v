(** C130: how a command may be written on the server's command line. The specification ([spelling]) lists the ways an argument can
    be spelled; it is independent of the parser. *)
From Coq Require Import Ascii String List ZArith NArith Lia Bool.
From Verif Require Import Base NumText ExprModel CliModel.
Import ListNotations.
Open Scope Z_scope.

(** ** Specification *)
(** An option or flag is given as the pair of its long name and its value. *)
Notation dash := (ch "-") (only parsing).
Definition long (a : arg) : str := st "--" ++ a_long a.
(** A value in an argument of its own: it does not look like an option. *)
Definition plain (v : str) : Prop := v = st "-" \/ forall c r, v = c :: r -> c <> ch "-".
Definition flags (T : list arg) (fs : list arg) : Prop := forall f, In f fs -> In f T /\ a_value f = false.
Definition on (fs : list arg) : settings := map (fun f => (a_long f, st "true")) fs.
Definition shorts (fs : list arg) : str := ch "-" :: map a_short fs.
Inductive spelling (T : list arg) : list str -> settings -> Prop :=
| nothing_said : spelling T [] []
| dashes : spelling T [st "--"] []
(** --port 5737 *)
| long_next a v ts l : In a T -> a_value a = true -> plain v -> spelling T ts l -> spelling T (long a :: v :: ts) ((a_long a, v) :: l)
(** --port=5737 *)
| long_equals a v ts l : In a T -> a_value a = true -> spelling T ts l -> spelling T ((long a ++ st "=" ++ v) :: ts) ((a_long a, v) :: l)
(** --yes *)
| long_flag a ts l : In a T -> a_value a = false -> spelling T ts l -> spelling T (long a :: ts) ((a_long a, st "true") :: l)
(** -sy *)
| short_flags fs ts l : fs <> [] -> flags T fs -> spelling T ts l -> spelling T (shorts fs :: ts) (on fs ++ l)
(** -p 5737, -syd dir *)
| short_next fs a v ts l : flags T fs -> In a T -> a_value a = true -> plain v -> spelling T ts l ->
    spelling T ((shorts fs ++ [a_short a]) :: v :: ts) (on fs ++ (a_long a, v) :: l)
(** -p5737 *)
| short_glued fs a c v ts l : flags T fs -> In a T -> a_value a = true -> c <> ch "=" -> spelling T ts l ->
    spelling T ((shorts fs ++ a_short a :: c :: v) :: ts) (on fs ++ (a_long a, c :: v) :: l)
(** -p=5737 *)
| short_equals fs a v ts l : flags T fs -> In a T -> a_value a = true -> spelling T ts l ->
    spelling T ((shorts fs ++ a_short a :: st "=" ++ v) :: ts) (on fs ++ (a_long a, v) :: l).
(** The text of a port: decimal digits, perhaps with a sign. *)
Inductive signed : str -> Z -> Prop :=
| unsigned_text s n : s <> [] -> (forall c, In c s -> (48 <= c <= 57)%N) -> n = digits_value 10 s -> signed s n
| plus_text s n : s <> [] -> (forall c, In c s -> (48 <= c <= 57)%N) -> n = digits_value 10 s -> signed (ch "+" :: s) n
| minus_text s n : s <> [] -> (forall c, In c s -> (48 <= c <= 57)%N) -> n = - digits_value 10 s -> signed (ch "-" :: s) n.
Definition port_text (v : str) (n : Z) : Prop := signed v n /\ 0 <= n <= 65535.
(** Nothing twice, and a port that is one. *)
Definition acceptable (l : settings) : Prop := NoDup (map fst l) /\ forall v, In (st "port", v) l -> exists n, port_text v n.
Definition says (l : settings) (k v : str) : Prop := In (k, v) l.
Definition silent (l : settings) (k : str) : Prop := forall v, ~ In (k, v) l.
Definition says_or (l : settings) (k d v : str) : Prop := says l k v \/ silent l k /\ v = d.
Definition says_whether (l : settings) (k : str) (b : bool) : Prop := b = true <-> exists v, says l k v.
Definition server_says (l : settings) (port : Z) (host : str) : Prop :=
  (exists p, says_or l (st "port") (st "5737") p /\ port_text p port) /\ says_or l (st "host") (st "127.0.0.1") host.
Definition install_says (l : settings) (dir : str) (skip yes : bool) : Prop :=
  says_or l (st "dir") (st "~/.lldb") dir /\ says_whether l (st "skip-lldbinit") skip /\ says_whether l (st "yes") yes.

(** ** The parser's pieces *)
Record table_ok (T : list arg) : Prop := {
  t_long : forall a b, In a T -> In b T -> a_long a = a_long b -> a = b;
  t_short : forall a b, In a T -> In b T -> a_short a = a_short b -> a = b;
  t_name : forall a, In a T -> a_long a <> [] /\ ~ In (ch "=") (a_long a) /\ a_long a <> st "help";
  t_char : forall a, In a T -> a_short a <> ch "h" /\ a_short a <> ch "-" }.

Lemma eqb_no (a b : char) : a <> b -> (a =? b)%N = false.
Proof. intros H. apply N.eqb_neq. exact H. Qed.
Lemma at_equals_found n v : ~ In (ch "=") n -> at_equals (n ++ ch "=" :: v) = (n, Some v).
Proof.
  induction n as [|c n IH]; intros H; cbn [at_equals app]; [rewrite N.eqb_refl; reflexivity|].
  rewrite eqb_no by (intros E; apply H; left; exact E). rewrite IH by (intros Hi; apply H; right; exact Hi). reflexivity.
Qed.
Lemma at_equals_none n : ~ In (ch "=") n -> at_equals n = (n, None).
Proof.
  induction n as [|c n IH]; intros H; cbn [at_equals]; [reflexivity|].
  rewrite eqb_no by (intros E; apply H; left; exact E). rewrite IH by (intros Hi; apply H; right; exact Hi). reflexivity.
Qed.
Lemma at_equals_inv s n v : at_equals s = (n, v) -> match v with Some x => s = n ++ ch "=" :: x | None => s = n end.
Proof.
  revert n v. induction s as [|c s IH]; intros n v; cbn [at_equals].
  - intros E. inversion E; subst. reflexivity.
  - destruct (c =? ch "=")%N eqn:Ec.
    + intros E. inversion E; subst. apply N.eqb_eq in Ec. rewrite Ec. reflexivity.
    + destruct (at_equals s) as [n0 v0] eqn:E0. intros E. inversion E; subst. specialize (IH _ _ eq_refl).
      destruct v; rewrite IH; reflexivity.
Qed.
Lemma token_long r : r <> [] -> token_of (st "--" ++ r) = let '(n, v) := at_equals r in Long n v.
Proof. destruct r as [|c r]; [congruence|]. intros _. cbn -[at_equals]. reflexivity. Qed.
Lemma token_shorts c r : c <> ch "-" -> token_of (ch "-" :: c :: r) = Shorts (c :: r).
Proof. intros H. unfold token_of. rewrite N.eqb_refl, (eqb_no _ _ H). reflexivity. Qed.
Lemma token_inv t :
  match token_of t with
  | Word => plain t
  | Escape => t = st "--"
  | Long n v => t <> st "--" /\ t = st "--" ++ n ++ match v with Some x => ch "=" :: x | None => [] end
  | Shorts cs => cs <> [] /\ t = ch "-" :: cs
  end.
Proof.
  unfold token_of. destruct t as [|c r]; [right; congruence|].
  destruct (c =? ch "-")%N eqn:Ec; [|apply N.eqb_neq in Ec; right; intros c0 r0 E; inversion E; subst; exact Ec].
  apply N.eqb_eq in Ec. subst c. destruct r as [|d r2]; [left; reflexivity|].
  destruct (d =? ch "-")%N eqn:Ed; [|split; [discriminate | reflexivity]].
  apply N.eqb_eq in Ed. subst d. destruct r2 as [|e r3]; [reflexivity|].
  destruct (at_equals (e :: r3)) as [n v] eqn:E. apply at_equals_inv in E. split; [discriminate|].
  destruct v; rewrite E; [reflexivity | rewrite app_nil_r; reflexivity].
Qed.
Lemma word_plain v : is_word v = true <-> plain v.
Proof.
  unfold is_word. split.
  - pose proof (token_inv v) as H. destruct (token_of v); try discriminate. intros _. exact H.
  - intros [-> | H]; [reflexivity|]. destruct v as [|c r]; [reflexivity|]. unfold token_of. rewrite (eqb_no _ _ (H c r eq_refl)). reflexivity.
Qed.

(** Ports. *)
Lemma unsigned_spec s n : unsigned s = Some n <-> s <> [] /\ (forall c, In c s -> (48 <= c <= 57)%N) /\ n = digits_value 10 s.
Proof.
  assert (F : forallb is_digit s = true <-> forall c, In c s -> (48 <= c <= 57)%N).
  { rewrite forallb_forall. unfold is_digit. split; intros H c Hc; specialize (H c Hc); [apply andb_true_iff in H as [H1 H2]; apply N.leb_le in H1, H2; lia|].
    apply andb_true_iff. split; apply N.leb_le; lia. }
  unfold unsigned. split.
  - destruct ((match s with [] => false | _ => true end) && forallb is_digit s) eqn:E; [|discriminate].
    apply andb_true_iff in E as [E1 E2]. intros E. inversion E; subst. split; [destruct s; congruence|]. split; [apply F; exact E2 | reflexivity].
  - intros (H1 & H2 & ->). apply F in H2. rewrite H2. destruct s; [congruence | reflexivity].
Qed.
Lemma port_value_spec v n : port_value v = Some n <-> port_text v n.
Proof.
  assert (E0 : forall x : option Z, match x with Some m => if (0 <=? m) && (m <=? 65535) then Some m else None | None => None end = Some n
                         <-> x = Some n /\ 0 <= n <= 65535).
  { intros [m|]; [|split; [discriminate | intros [? _]; discriminate]]. destruct ((0 <=? m) && (m <=? 65535)) eqn:E.
    - apply andb_true_iff in E as [E1 E2]. apply Z.leb_le in E1, E2. split; [intros H; inversion H; subst; auto | intros [H _]; inversion H; subst; reflexivity].
    - split; [discriminate|]. intros [H Hn]. inversion H; subst. apply andb_false_iff in E as [E|E]; apply Z.leb_gt in E; lia. }
  unfold port_value, port_text. rewrite E0. apply and_iff_compat_r. clear E0.
  destruct v as [|c r]; [split; [discriminate|]; intros H; inversion H; subst; exfalso; match goal with F : [] <> [] |- _ => apply F; reflexivity end|].
  destruct (c =? ch "+")%N eqn:Ep.
  - apply N.eqb_eq in Ep. subst c. rewrite unsigned_spec. split.
    + intros (H1 & H2 & H3). apply plus_text; assumption.
    + intros H. inversion H; subst; [|auto]. specialize (H1 (ch "+") (or_introl eq_refl)). cbn in H1. lia.
  - apply N.eqb_neq in Ep. destruct (c =? ch "-")%N eqn:Em.
    + apply N.eqb_eq in Em. subst c. split.
      * destruct (unsigned r) as [m|] eqn:E; [|discriminate]. apply unsigned_spec in E as (H1 & H2 & H3). intros H. inversion H; subst. apply minus_text; auto.
      * intros H. inversion H; subst; [specialize (H1 (ch "-") (or_introl eq_refl)); cbn in H1; lia|].
        assert (E : unsigned r = Some (digits_value 10 r)) by (apply unsigned_spec; auto). rewrite E. reflexivity.
    + apply N.eqb_neq in Em. rewrite unsigned_spec. split.
      * intros (H1 & H2 & H3). apply unsigned_text; assumption.
      * intros H. inversion H; subst; [auto | exfalso; apply Ep; reflexivity | exfalso; apply Em; reflexivity].
Qed.

(** Settings one after another. *)
Definition put (k v : str) (l : settings) : option settings := take (Arg k 0%N true) v l.
Fixpoint puts (l : settings) (l0 : settings) : option settings :=
  match l with [] => Some l0 | (k, v) :: r => match put k v l0 with Some l1 => puts r l1 | None => None end end.
Lemma take_put a v l : take a v l = put (a_long a) v l.
Proof. reflexivity. Qed.
Lemma puts_app a b l : puts (a ++ b) l = match puts a l with Some l1 => puts b l1 | None => None end.
Proof. revert l. induction a as [|[k v] a IH]; intros l; cbn [puts app]; [reflexivity|]. destruct (put k v l); [apply IH | reflexivity]. Qed.
Lemma setting_spec k l : setting k l = None <-> ~ In k (map fst l).
Proof.
  unfold setting. induction l as [|[a b] l IH]; cbn -[str_eqb]; [split; [tauto | reflexivity]|].
  destruct (str_eqb a k) eqn:E.
  - apply str_eqb_eq in E. cbn. split; [discriminate | intros H; exfalso; apply H; left; exact E].
  - apply str_eqb_neq in E. rewrite IH. split; [intros H [H1 | H1]; auto | intros H H1; apply H; right; exact H1].
Qed.
Lemma put_spec k v l l1 : put k v l = Some l1 <-> l1 = (k, v) :: l /\ ~ In k (map fst l) /\ (k = st "port" -> exists n, port_text v n).
Proof.
  unfold put, take. cbn [a_long]. destruct (setting k l) as [x|] eqn:E.
  - split; [discriminate|]. intros (_ & H & _). apply setting_spec in H. congruence.
  - apply setting_spec in E. destruct (str_eqb k (st "port")) eqn:Ek.
    + apply str_eqb_eq in Ek. destruct (port_value v) as [n|] eqn:Ep.
      * split; [intros H; inversion H; subst | intros (-> & _ & _); reflexivity].
        split; [reflexivity|]. split; [exact E|]. intros _. exists n. apply port_value_spec. exact Ep.
      * split; [discriminate|]. intros (_ & _ & H). destruct (H Ek) as [n Hn]. apply port_value_spec in Hn. congruence.
    + apply str_eqb_neq in Ek. split; [intros H; inversion H; subst | intros (-> & _ & _); reflexivity]. split; [reflexivity|]. split; [exact E | congruence].
Qed.
Lemma puts_spec l l0 l1 :
  puts l l0 = Some l1 <-> l1 = rev l ++ l0 /\ NoDup (map fst l) /\ (forall k, In k (map fst l) -> ~ In k (map fst l0)) /\
    (forall v, In (st "port", v) l -> exists n, port_text v n).
Proof.
  revert l0. induction l as [|[k v] l IH]; intros l0; cbn [puts].
  - split; [intros E; inversion E; subst | intros (-> & _); reflexivity]. cbn. split; [reflexivity|]. split; [constructor|]. split; intros; contradiction.
  - split.
    + destruct (put k v l0) as [l2|] eqn:E; [|discriminate]. apply put_spec in E as (-> & H1 & H2). intros H. apply IH in H as (-> & H3 & H4 & H5).
      cbn [rev map fst]. split; [rewrite <- app_assoc; reflexivity|]. split; [constructor; [|exact H3]; intros Hk; apply (H4 k Hk); left; reflexivity|].
      split; [intros k0 [<- | Hk]; [exact H1|]; intros Hk0; apply (H4 k0 Hk); right; exact Hk0|].
      intros v0 [Hv | Hv]; [injection Hv as -> ->; apply H2; reflexivity | apply H5; exact Hv].
    + intros (-> & H1 & H2 & H3). cbn [map fst] in H1. inversion H1 as [|x y Hx Hy]; subst.
      assert (E : put k v l0 = Some ((k, v) :: l0)).
      { apply put_spec. split; [reflexivity|]. split; [apply H2; left; reflexivity|]. intros ->. apply H3. left. reflexivity. }
      rewrite E. apply IH. cbn [rev]. split; [rewrite <- app_assoc; reflexivity|]. split; [exact Hy|]. split.
      * intros k0 Hk [<- | Hk0]; [exact (Hx Hk)|]. apply (H2 k0); [right; exact Hk | exact Hk0].
      * intros v0 Hv. apply H3. right. exact Hv.
Qed.
Lemma puts_acceptable l l1 : puts l [] = Some l1 <-> l1 = rev l /\ acceptable l.
Proof.
  rewrite puts_spec, app_nil_r. unfold acceptable. split; [intros (H1 & H2 & _ & H3); auto|]. intros (H1 & H2 & H3). split; [exact H1|]. split; [exact H2|].
  split; [intros k _ []|exact H3].
Qed.

(** ** The parser reads exactly the spellings *)
Definition glued (d : char) (r : str) : str := if (d =? ch "=")%N then r else d :: r.
Section Table.
Variable T : list arg.
Hypothesis OK : table_ok T.
Lemma find_long a : In a T -> find (fun b => str_eqb (a_long b) (a_long a)) T = Some a.
Proof.
  intros H. destruct (find (fun b => str_eqb (a_long b) (a_long a)) T) as [b|] eqn:E.
  - apply find_some in E as [Hb E]. apply str_eqb_eq in E. f_equal. apply (t_long T OK); assumption.
  - apply (find_none _ _ E) in H. rewrite str_eqb_refl in H. discriminate.
Qed.
Lemma find_short a : In a T -> find (fun b => (a_short b =? a_short a)%N) T = Some a.
Proof.
  intros H. destruct (find (fun b => (a_short b =? a_short a)%N) T) as [b|] eqn:E.
  - apply find_some in E as [Hb E]. apply N.eqb_eq in E. f_equal. apply (t_short T OK); assumption.
  - apply (find_none _ _ E) in H. rewrite N.eqb_refl in H. discriminate.
Qed.
Lemma cluster_flags fs r l : flags T fs -> cluster T (map a_short fs ++ r) l = match puts (on fs) l with Some l1 => cluster T r l1 | None => Wrong end.
Proof.
  revert l. induction fs as [|f fs IH]; intros l H; [reflexivity|]. destruct (H f (or_introl eq_refl)) as [Hf Vf].
  cbn [map app cluster on puts]. rewrite (eqb_no _ _ (proj1 (t_char T OK f Hf))), (find_short f Hf), Vf, take_put.
  destruct (put (a_long f) (st "true") l) as [l1|]; [|reflexivity]. apply IH. intros g Hg. apply H. right. exact Hg.
Qed.
Lemma cluster_value a r l : In a T -> a_value a = true ->
  cluster T (a_short a :: r) l = match r with [] => Wants a l | d :: r2 => match put (a_long a) (if (d =? ch "=")%N then r2 else r) l with Some l2 => Said l2 | None => Wrong end end.
Proof. intros H V. cbn [cluster]. rewrite (eqb_no _ _ (proj1 (t_char T OK a H))), (find_short a H), V. reflexivity. Qed.
Lemma cluster_inv cs l :
  match cluster T cs l with
  | Said l1 => (exists fs, flags T fs /\ cs = map a_short fs /\ puts (on fs) l = Some l1) \/
      (exists fs a d r, flags T fs /\ In a T /\ a_value a = true /\ cs = map a_short fs ++ a_short a :: d :: r /\
        puts (on fs ++ [(a_long a, glued d r)]) l = Some l1)
  | Wants a l1 => exists fs, flags T fs /\ In a T /\ a_value a = true /\ cs = map a_short fs ++ [a_short a] /\ puts (on fs) l = Some l1
  | _ => True
  end.
Proof.
  revert l. induction cs as [|c cs IH]; intros l; cbn [cluster].
  - left. exists []. split; [intros f []|]. split; reflexivity.
  - destruct (c =? ch "h")%N; [exact I|]. destruct (find (fun a => (a_short a =? c)%N) T) as [a|] eqn:Ef; [|exact I].
    apply find_some in Ef as [Ha Ec]. apply N.eqb_eq in Ec. subst c. destruct (a_value a) eqn:Va.
    + destruct cs as [|d r2].
      * exists []. split; [intros f []|]. split; [exact Ha|]. split; [exact Va|]. split; reflexivity.
      * rewrite take_put. destruct (put (a_long a) (if (d =? ch "=")%N then r2 else d :: r2) l) as [l2|] eqn:E; [|exact I].
        right. exists [], a, d, r2. split; [intros f []|]. split; [exact Ha|]. split; [exact Va|]. split; [reflexivity|].
        change (match put (a_long a) (if (d =? ch "=")%N then r2 else d :: r2) l with Some l1 => Some l1 | None => None end = Some l2). rewrite E. reflexivity.
    + rewrite take_put. destruct (put (a_long a) (st "true") l) as [l2|] eqn:E; [|exact I].
      assert (Fl : forall fs, flags T fs -> flags T (a :: fs)) by (intros fs H f [<- | Hf]; [auto | apply H; exact Hf]).
      specialize (IH l2). destruct (cluster T cs l2) as [l1 | b l1 | |]; try exact I.
      * destruct IH as [(fs & H1 & -> & H3) | (fs & b & d & r & H1 & H2 & H3 & -> & H5)].
        -- left. exists (a :: fs). split; [auto|]. split; [reflexivity|]. cbn [on map puts]. rewrite E. exact H3.
        -- right. exists (a :: fs), b, d, r. split; [auto|]. split; [exact H2|]. split; [exact H3|]. split; [reflexivity|].
           change (on (a :: fs)) with ((a_long a, st "true") :: on fs). rewrite <- app_comm_cons. change (puts ((a_long a, st "true") :: ?x) l) with (match put (a_long a) (st "true") l with Some l1 => puts x l1 | None => None end). rewrite E. exact H5.
      * destruct IH as (fs & H1 & H2 & H3 & -> & H5). exists (a :: fs). split; [auto|]. split; [exact H2|]. split; [exact H3|]. split; [reflexivity|].
        cbn [on map puts]. rewrite E. exact H5.
Qed.
Lemma scan_spelled ts l : spelling T ts l -> forall l0 l1, puts l l0 = Some l1 -> scan T ts l0 = Given l1.
Proof.
  assert (Lg : forall a, In a T -> token_of (long a) = Long (a_long a) None).
  { intros a Ha. destruct (t_name T OK a Ha) as (N1 & N2 & N3). unfold long. rewrite token_long by exact N1. rewrite at_equals_none by exact N2. reflexivity. }
  assert (Nh : forall a, In a T -> str_eqb (a_long a) (st "help") = false) by (intros a Ha; apply str_eqb_neq; apply (t_name T OK a Ha)).
  assert (Sh : forall fs a r, flags T fs -> In a T -> token_of (shorts fs ++ a_short a :: r) = Shorts (map a_short fs ++ a_short a :: r)).
  { intros fs a r Hf Ha. unfold shorts. cbn [app]. destruct fs as [|f fs]; cbn [map app]; apply token_shorts; [apply (t_char T OK a Ha)|].
    apply (t_char T OK f). apply (Hf f). left. reflexivity. }
  induction 1 as [| |a v ts l Ha Va Hv _ IH|a v ts l Ha Va _ IH|a ts l Ha Va _ IH|fs ts l Hn Hf _ IH|fs a v ts l Hf Ha Va Hv _ IH|fs a c v ts l Hf Ha Va Hc _ IH|fs a v ts l Hf Ha Va _ IH];
    intros l0 l1 E.
  - inversion E; subst. reflexivity.
  - inversion E; subst. reflexivity.
  - cbn [scan]. rewrite (Lg a Ha), (Nh a Ha), (find_long a Ha), Va, (proj2 (word_plain v) Hv), take_put. cbn [puts] in E.
    destruct (put (a_long a) v l0) as [l2|]; [|discriminate]. apply IH. exact E.
  - cbn [scan]. destruct (t_name T OK a Ha) as (N1 & N2 & N3). unfold long. rewrite <- app_assoc. rewrite token_long by (destruct (a_long a); [congruence | discriminate]).
    change (st "=" ++ v) with (ch "=" :: v). rewrite at_equals_found by exact N2. rewrite (Nh a Ha), (find_long a Ha), Va, take_put. cbn [puts] in E.
    destruct (put (a_long a) v l0) as [l2|]; [|discriminate]. apply IH. exact E.
  - cbn [scan]. rewrite (Lg a Ha), (Nh a Ha), (find_long a Ha), Va, take_put. cbn [puts] in E.
    destruct (put (a_long a) (st "true") l0) as [l2|]; [|discriminate]. apply IH. exact E.
  - cbn [scan]. rewrite puts_app in E. destruct (puts (on fs) l0) as [l2|] eqn:E2; [|discriminate].
    assert (Et : token_of (shorts fs) = Shorts (map a_short fs)).
    { destruct fs as [|f fs]; [congruence|]. apply token_shorts. apply (t_char T OK f). apply (Hf f). left. reflexivity. }
    rewrite Et. rewrite <- (app_nil_r (map a_short fs)), cluster_flags by exact Hf. rewrite E2. cbn [cluster]. apply IH. exact E.
  - cbn [scan]. rewrite (Sh fs a [] Hf Ha), cluster_flags by exact Hf. rewrite puts_app in E. destruct (puts (on fs) l0) as [l2|]; [|discriminate].
    rewrite (cluster_value a [] l2 Ha Va), (proj2 (word_plain v) Hv), take_put. cbn [puts] in E. destruct (put (a_long a) v l2) as [l3|]; [|discriminate]. apply IH. exact E.
  - cbn [scan]. rewrite (Sh fs a (c :: v) Hf Ha), cluster_flags by exact Hf. rewrite puts_app in E. destruct (puts (on fs) l0) as [l2|]; [|discriminate].
    rewrite (cluster_value a (c :: v) l2 Ha Va), (eqb_no _ _ Hc). cbn [puts] in E. destruct (put (a_long a) (c :: v) l2) as [l3|]; [|discriminate]. apply IH. exact E.
  - cbn [scan]. change (st "=" ++ v) with (ch "=" :: v). rewrite (Sh fs a (ch "=" :: v) Hf Ha), cluster_flags by exact Hf. rewrite puts_app in E.
    destruct (puts (on fs) l0) as [l2|]; [|discriminate]. rewrite (cluster_value a (ch "=" :: v) l2 Ha Va), N.eqb_refl. cbn [puts] in E.
    destruct (put (a_long a) v l2) as [l3|]; [|discriminate]. apply IH. exact E.
Qed.
Lemma spelled_scan n ts l0 l1 : (List.length ts <= n)%nat -> scan T ts l0 = Given l1 -> exists l, spelling T ts l /\ puts l l0 = Some l1.
Proof.
  revert ts l0 l1. induction n as [|n IH]; intros ts l0 l1 Hn.
  - destruct ts; [|cbn in Hn; lia]. intros E. inversion E; subst. exists []. split; [constructor | reflexivity].
  - destruct ts as [|t r]; [intros E; inversion E; subst; exists []; split; [constructor | reflexivity]|]. cbn in Hn.
    cbn [scan]. pose proof (token_inv t) as Ht. destruct (token_of t) as [nm v | cs | |].
    + destruct Ht as [Hd ->]. destruct (str_eqb nm (st "help")); [destruct v; discriminate|].
      destruct (find (fun a => str_eqb (a_long a) nm) T) as [a|] eqn:Ef; [|discriminate].
      apply find_some in Ef as [Ha E]. apply str_eqb_eq in E. subst nm. destruct (a_value a) eqn:Va.
      * destruct v as [x|].
        -- rewrite take_put. destruct (put (a_long a) x l0) as [l2|] eqn:E; [|discriminate]. intros H. apply IH in H as (l & H1 & H2); [|lia].
           exists ((a_long a, x) :: l). split; [|cbn [puts]; rewrite E; exact H2].
           replace (st "--" ++ a_long a ++ ch "=" :: x) with (long a ++ st "=" ++ x) by (unfold long; rewrite <- app_assoc; reflexivity).
           apply long_equals; assumption.
        -- destruct r as [|x r2]; [discriminate|]. destruct (is_word x) eqn:Ex; [|discriminate]. apply word_plain in Ex.
           rewrite take_put. destruct (put (a_long a) x l0) as [l2|] eqn:E; [|discriminate]. intros H. apply IH in H as (l & H1 & H2); [|cbn in Hn; lia].
           exists ((a_long a, x) :: l). split; [|cbn [puts]; rewrite E; exact H2]. rewrite app_nil_r. apply long_next; assumption.
      * destruct v as [x|]; [discriminate|]. rewrite take_put. destruct (put (a_long a) (st "true") l0) as [l2|] eqn:E; [|discriminate].
        intros H. apply IH in H as (l & H1 & H2); [|lia]. exists ((a_long a, st "true") :: l). split; [|cbn [puts]; rewrite E; exact H2].
        rewrite app_nil_r. apply long_flag; assumption.
    + destruct Ht as [Hc ->]. pose proof (cluster_inv cs l0) as Hcl. destruct (cluster T cs l0) as [l2 | a l2 | |]; try discriminate.
      * intros H. apply IH in H as (l & H1 & H2); [|lia]. destruct Hcl as [(fs & F & -> & P) | (fs & a & d & r0 & F & Ha & Va & -> & P)].
        -- exists (on fs ++ l). split; [|rewrite puts_app, P; exact H2]. apply short_flags; [destruct fs; [exfalso; apply Hc; reflexivity | discriminate] | exact F | exact H1].
        -- exists (on fs ++ (a_long a, glued d r0) :: l). split.
           ++ unfold glued. destruct (d =? ch "=")%N eqn:Ed.
              ** apply N.eqb_eq in Ed. subst d. exact (short_equals T fs a r0 r l F Ha Va H1).
              ** apply N.eqb_neq in Ed. exact (short_glued T fs a d r0 r l F Ha Va Ed H1).
           ++ pose proof (puts_app (on fs ++ [(a_long a, glued d r0)]) l l0) as Q. rewrite P, <- app_assoc in Q. etransitivity; [exact Q | exact H2].
      * destruct r as [|x r2]; [discriminate|]. destruct (is_word x) eqn:Ex; [|discriminate]. apply word_plain in Ex.
        destruct Hcl as (fs & F & Ha & Va & -> & P). rewrite take_put. destruct (put (a_long a) x l2) as [l3|] eqn:E; [|discriminate].
        intros H. apply IH in H as (l & H1 & H2); [|cbn in Hn; lia]. exists (on fs ++ (a_long a, x) :: l). split.
        -- exact (short_next T fs a x r2 l F Ha Va Ex H1).
        -- rewrite puts_app, P. cbn [puts]. rewrite E. exact H2.
    + subst t. destruct r; [|discriminate]. intros E. inversion E; subst. exists []. split; [constructor | reflexivity].
    + discriminate.
Qed.
Lemma scan_exact ts l1 : scan T ts [] = Given l1 <-> exists l, spelling T ts l /\ acceptable l /\ l1 = rev l.
Proof.
  split.
  - intros H. apply (spelled_scan (List.length ts)) in H as (l & H1 & H2); [|lia]. apply puts_acceptable in H2 as [-> H2]. exists l. auto.
  - intros (l & H1 & H2 & ->). apply (scan_spelled ts l H1). apply puts_acceptable. auto.
Qed.
End Table.

(** ** What main is asked to do *)
Inductive understood (ts : list str) : command -> Prop :=
| start_words r l port host : ts = st "start" :: r -> spelling server_args r l -> acceptable l -> server_says l port host -> understood ts (Start port host)
| stop_words r l port host : ts = st "stop" :: r -> spelling server_args r l -> acceptable l -> server_says l port host -> understood ts (Stop port host)
| install_words r l dir skip yes : ts = st "install" :: r -> spelling install_args r l -> acceptable l -> install_says l dir skip yes ->
    understood ts (Install dir skip yes).

Lemma table_check T :
  forallb (fun a => forallb (fun b => implb (str_eqb (a_long a) (a_long b) || (a_short a =? a_short b)%N)
    (str_eqb (a_long a) (a_long b) && (a_short a =? a_short b)%N && Bool.eqb (a_value a) (a_value b))) T) T = true ->
  forallb (fun a => negb (str_eqb (a_long a) []) && negb (existsb (N.eqb (ch "=")) (a_long a)) && negb (str_eqb (a_long a) (st "help")) &&
    negb (a_short a =? ch "h")%N && negb (a_short a =? ch "-")%N) T = true -> table_ok T.
Proof.
  intros H1 H2. rewrite forallb_forall in H1, H2.
  assert (K : forall a b, In a T -> In b T -> a_long a = a_long b \/ a_short a = a_short b -> a = b).
  { intros a b Ha Hb H. specialize (H1 a Ha). rewrite forallb_forall in H1. specialize (H1 b Hb).
    assert (E : str_eqb (a_long a) (a_long b) || (a_short a =? a_short b)%N = true).
    { apply orb_true_iff. destruct H as [H|H]; [left; apply str_eqb_eq | right; apply N.eqb_eq]; exact H. }
    rewrite E in H1. cbn [implb] in H1. apply andb_true_iff in H1 as [H1 H5]. apply andb_true_iff in H1 as [H3 H4].
    apply str_eqb_eq in H3. apply N.eqb_eq in H4. apply Bool.eqb_prop in H5. destruct a, b. cbn in *. congruence. }
  split.
  - intros a b Ha Hb H. apply K; auto.
  - intros a b Ha Hb H. apply K; auto.
  - intros a Ha. specialize (H2 a Ha). repeat (apply andb_true_iff in H2 as [H2 ?]). repeat match goal with H : negb _ = true |- _ => apply negb_true_iff in H end.
    split; [intros E; rewrite E in H2; discriminate|]. split; [|apply str_eqb_neq; assumption]. intros Hi.
    match goal with H : existsb _ _ = false |- _ => assert (E : existsb (N.eqb (ch "=")) (a_long a) = true) by (apply existsb_exists; exists (ch "="); split; [exact Hi | apply N.eqb_refl]); congruence end.
  - intros a Ha. specialize (H2 a Ha). repeat (apply andb_true_iff in H2 as [H2 ?]). repeat match goal with H : negb _ = true |- _ => apply negb_true_iff in H end.
    split; apply N.eqb_neq; assumption.
Qed.
Lemma server_table : table_ok server_args.
Proof. apply table_check; vm_compute; reflexivity. Qed.
Lemma install_table : table_ok install_args.
Proof. apply table_check; vm_compute; reflexivity. Qed.

Lemma setting_in l k v : NoDup (map fst l) -> (setting k (rev l) = Some v <-> says l k v).
Proof.
  intros N. assert (N2 : NoDup (map fst (rev l))) by (rewrite map_rev; apply NoDup_rev; exact N).
  unfold says. rewrite (in_rev l). revert N2. generalize (rev l). clear N l. intros l N. unfold setting.
  induction l as [|[a b] l IH]; cbn -[str_eqb]; [split; [discriminate | tauto]|]. inversion N as [|x y Hx Hy]; subst.
  destruct (str_eqb a k) eqn:E.
  - apply str_eqb_eq in E. subst a. cbn. split; [intros H; inversion H; auto|]. intros [H|H]; [inversion H; reflexivity|].
    exfalso. apply Hx. apply (in_map fst) in H. exact H.
  - apply str_eqb_neq in E. rewrite (IH Hy). split; [auto|]. intros [H|H]; [inversion H; congruence | exact H].
Qed.
Lemma setting_silent l k : NoDup (map fst l) -> (setting k (rev l) = None <-> silent l k).
Proof.
  intros N. split.
  - intros E v H. apply (setting_in l k v N) in H. congruence.
  - intros H. destruct (setting k (rev l)) as [v|] eqn:E; [|reflexivity]. apply setting_in in E; [|exact N]. exfalso. exact (H v E).
Qed.
Lemma value_or_spec l k d v : NoDup (map fst l) -> (value_or k d (rev l) = v <-> says_or l k d v).
Proof.
  intros N. unfold value_or, says_or. destruct (setting k (rev l)) as [x|] eqn:E.
  - apply setting_in in E; [|exact N]. split; [intros <-; left; exact E|]. intros [H | [H _]]; [|exfalso; exact (H x E)].
    apply (setting_in l k v N) in H. apply (setting_in l k x N) in E. congruence.
  - apply setting_silent in E; [|exact N]. split; [intros <-; right; auto|]. intros [H | [_ H]]; [exfalso; exact (E v H) | auto].
Qed.
Lemma given_spec l k b : NoDup (map fst l) -> (given k (rev l) = b <-> says_whether l k b).
Proof.
  intros N. unfold given, says_whether. destruct (setting k (rev l)) as [x|] eqn:E.
  - apply setting_in in E; [|exact N]. split; [intros <-; split; [exists x; exact E | reflexivity]|]. intros [_ H]. symmetry. apply H. exists x. exact E.
  - apply setting_silent in E; [|exact N]. split; [intros <-; split; [discriminate | intros [v H]; exfalso; exact (E v H)]|].
    intros [H _]. destruct b; [|reflexivity]. destruct (H eq_refl) as [v Hv]. exfalso. exact (E v Hv).
Qed.
Lemma port_of_spec l n : acceptable l -> (port_of (rev l) = n <-> exists p, says_or l (st "port") (st "5737") p /\ port_text p n).
Proof.
  intros [N P]. unfold port_of. pose proof (proj1 (value_or_spec l (st "port") (st "5737") (value_or (st "port") (st "5737") (rev l)) N) eq_refl) as K1.
  set (v := value_or (st "port") (st "5737") (rev l)) in *.
  assert (Ex : exists m, port_text v m).
  { destruct K1 as [H | [_ ->]]; [apply P; exact H|]. exists 5737. split; [apply unsigned_text; [discriminate | | reflexivity] | lia].
    intros c Hc. cbn in Hc. repeat destruct Hc as [<- | Hc]; try contradiction; lia. }
  destruct Ex as [m Hm]. rewrite (proj2 (port_value_spec v m) Hm). split.
  - intros <-. exists v. auto.
  - intros (p & Hp & Hn). apply (value_or_spec l _ _ _ N) in Hp. fold v in Hp. rewrite <- Hp in Hn.
    apply port_value_spec in Hm, Hn. congruence.
Qed.
Theorem command_line_exact ts c : command_line ts = Runs c <-> understood ts c.
Proof.
  assert (G : forall T r f, table_ok T -> finish f (scan T r []) = Runs c <-> exists l, spelling T r l /\ acceptable l /\ c = f (rev l)).
  { intros T r f HT. split.
    - intros H. destruct (scan T r []) as [l1 | |] eqn:E; try discriminate. apply (scan_exact T HT) in E as (l & H1 & H2 & ->).
      exists l. inversion H. auto.
    - intros (l & H1 & H2 & ->). rewrite (proj2 (scan_exact T HT r (rev l))) by (exists l; auto). reflexivity. }
  split.
  - unfold command_line. destruct ts as [|t r]; [discriminate|].
    destruct (str_eqb t (st "start")) eqn:E1.
    { apply str_eqb_eq in E1. subst t. rewrite (G _ _ _ server_table). intros (l & H1 & H2 & ->). eapply start_words; [reflexivity | exact H1 | exact H2|].
      split; [apply port_of_spec; [exact H2 | reflexivity] | apply (value_or_spec l); [apply H2 | reflexivity]]. }
    destruct (str_eqb t (st "stop")) eqn:E2.
    { apply str_eqb_eq in E2. subst t. rewrite (G _ _ _ server_table). intros (l & H1 & H2 & ->). eapply stop_words; [reflexivity | exact H1 | exact H2|].
      split; [apply port_of_spec; [exact H2 | reflexivity] | apply (value_or_spec l); [apply H2 | reflexivity]]. }
    destruct (str_eqb t (st "install")) eqn:E3.
    { apply str_eqb_eq in E3. subst t. rewrite (G _ _ _ install_table). intros (l & H1 & H2 & ->). unfold install_of. eapply install_words; [reflexivity | exact H1 | exact H2|].
      split; [apply (value_or_spec l); [apply H2 | reflexivity]|]. split; apply given_spec; try (apply H2); reflexivity. }
    destruct (str_eqb t (st "help")).
    { unfold help_about. destruct r as [|x [|y r]]; try discriminate. destruct (existsb (str_eqb x) _); discriminate. }
    destruct (token_of t) as [n v | cs | |]; try discriminate.
    + destruct v; [discriminate|]. destruct (str_eqb n (st "help") || str_eqb n (st "version")); discriminate.
    + destruct cs as [|x cs]; [discriminate|]. destruct ((x =? ch "h")%N || (x =? ch "V")%N); discriminate.
  - intros H. destruct H as [r l port host E H1 H2 [Hp Hh] | r l port host E H1 H2 [Hp Hh] | r l dir skip yes E H1 H2 (Hd & Hs & Hy)]; rewrite E; clear E; unfold command_line.
    + rewrite str_eqb_refl. apply (G _ _ _ server_table). exists l. split; [exact H1|]. split; [exact H2|].
      apply (port_of_spec l port H2) in Hp. unfold host_of. apply (value_or_spec l) in Hh; [|apply H2]. rewrite Hp, Hh. reflexivity.
    + change (str_eqb (st "stop") (st "start")) with false. rewrite str_eqb_refl. apply (G _ _ _ server_table). exists l. split; [exact H1|]. split; [exact H2|].
      apply (port_of_spec l port H2) in Hp. unfold host_of. apply (value_or_spec l) in Hh; [|apply H2]. rewrite Hp, Hh. reflexivity.
    + change (str_eqb (st "install") (st "start")) with false. change (str_eqb (st "install") (st "stop")) with false. rewrite str_eqb_refl.
      apply (G _ _ _ install_table). exists l. split; [exact H1|]. split; [exact H2|]. unfold install_of.
      apply (value_or_spec l) in Hd; [|apply H2]. apply (given_spec l) in Hs; [|apply H2]. apply (given_spec l) in Hy; [|apply H2]. rewrite Hd, Hs, Hy. reflexivity.
Qed.

(** The words the LLDB client starts a server with (rudy_lldb.py 882-904), after the name of the program. *)
From Verif Require AutoModel.
Definition client_words (port : Z) (host : str) : list str := [st "start"; st "--port"; dec port; st "--host"; host].
Lemma client_starts {W} (M : AutoModel.machine W) C : exists program, AutoModel.server_command M C = program ++ client_words (AutoModel.port C) (AutoModel.host C).
Proof. unfold AutoModel.server_command. eexists. reflexivity. Qed.
Theorem client_words_understood port host c :
  command_line (client_words port host) = Runs c <-> c = Start port host /\ 0 <= port <= 65535 /\ plain host.
Proof.
  assert (D : 0 <= port -> dec port <> [] /\ (forall c, In c (dec port) -> (48 <= c <= 57)%N) /\ digits_value 10 (dec port) = port).
  { intros H. assert (E : dec port = dec_nat port) by (unfold dec; rewrite (proj2 (Z.ltb_ge port 0) H); reflexivity). rewrite E.
    split; [apply dec_nat_nonempty|]. split; [|apply dec_nat_value; exact H].
    assert (F := dec_nat_digits port H). rewrite forallb_forall in F. intros x Hx. specialize (F x Hx). unfold is_digit in F.
    apply andb_true_iff in F as [F1 F2]. apply N.leb_le in F1, F2. split; assumption. }
  assert (P1 : token_of (st "--port") = Long (st "port") None) by reflexivity.
  assert (P2 : token_of (st "--host") = Long (st "host") None) by reflexivity.
  assert (E : command_line (client_words port host) =
    if is_word (dec port) then match port_value (dec port) with Some n => if is_word host then Runs (Start n host) else Refuses | None => Refuses end else Refuses).
  { unfold command_line, client_words. rewrite str_eqb_refl. cbn [scan]. rewrite P1, P2.
    change (str_eqb (st "port") (st "help")) with false. change (str_eqb (st "host") (st "help")) with false.
    change (find (fun a => str_eqb (a_long a) (st "port")) server_args) with (Some (Arg (st "port") (ch "p") true)).
    change (find (fun a => str_eqb (a_long a) (st "host")) server_args) with (Some (Arg (st "host") (ch "H") true)). cbn [a_value].
    destruct (is_word (dec port)); [|reflexivity]. unfold take. cbn [a_long]. change (setting (st "port") []) with (@None str).
    change (str_eqb (st "port") (st "port")) with true. cbv iota. destruct (port_value (dec port)) as [n|] eqn:En; [|reflexivity].
    destruct (is_word host); [|reflexivity].
    change (setting (st "host") [(st "port", dec port)]) with (@None str). change (str_eqb (st "host") (st "port")) with false. cbv iota.
    unfold finish, port_of, host_of, value_or.
    change (setting (st "port") [(st "host", host); (st "port", dec port)]) with (Some (dec port)).
    change (setting (st "host") [(st "host", host); (st "port", dec port)]) with (Some host). cbv iota. rewrite En. reflexivity. }
  rewrite E. clear E. split.
  - destruct (is_word (dec port)) eqn:Ew; [|discriminate]. destruct (port_value (dec port)) as [n|] eqn:En; [|discriminate].
    destruct (is_word host) eqn:Eh; [|discriminate]. intros H. injection H as <-. apply word_plain in Eh. apply port_value_spec in En as [Hs Hn].
    assert (Hp : 0 <= port).
    { apply word_plain in Ew. destruct (Z.ltb_spec port 0) as [Hlt|]; [|lia]. exfalso. unfold dec in Ew. rewrite (proj2 (Z.ltb_lt port 0) Hlt) in Ew.
      destruct Ew as [Ew | Ew]; [|apply (Ew _ _ eq_refl); reflexivity]. assert (Ew2 : dec_nat (- port) = []) by (injection Ew; auto). exact (dec_nat_nonempty _ Ew2). }
    destruct (D Hp) as (D1 & D2 & D3). rewrite <- D3. inversion Hs as [s m A B Cc Es | s m A B Cc Es | s m A B Cc Es]; subst.
    + split; [f_equal; congruence|]. split; [lia | exact Eh].
    + exfalso. specialize (D2 (ch "+")). rewrite <- Es in D2. specialize (D2 (or_introl eq_refl)). cbn in D2. lia.
    + exfalso. specialize (D2 (ch "-")). rewrite <- Es in D2. specialize (D2 (or_introl eq_refl)). cbn in D2. lia.
  - intros (-> & Hp & Hh). destruct (D (proj1 Hp)) as (D1 & D2 & D3).
    assert (Ew : is_word (dec port) = true).
    { apply word_plain. right. intros x r Ex ->. specialize (D2 (ch "-")). rewrite Ex in D2. specialize (D2 (or_introl eq_refl)). cbn in D2. lia. }
    assert (En : port_value (dec port) = Some port).
    { apply port_value_spec. split; [|exact Hp]. apply unsigned_text; auto. }
    rewrite Ew, En, (proj2 (word_plain host) Hh). reflexivity.
Qed.

(** Examples. *)
Example install_spelled : understood (map st ["install"; "-syd"; "/tmp/x"]%string) (Install (st "/tmp/x") true true).
Proof.
  eapply install_words with (l := [(st "skip-lldbinit", st "true"); (st "yes", st "true"); (st "dir", st "/tmp/x")]); [reflexivity | | |].
  - refine (short_next install_args [Arg (st "skip-lldbinit") (ch "s") false; Arg (st "yes") (ch "y") false] (Arg (st "dir") (ch "d") true) (st "/tmp/x") [] [] _ _ _ _ _).
    + intros f [<- | [<- | []]]; split; cbn; auto.
    + left. reflexivity.
    + reflexivity.
    + right. intros c r E. injection E as <- _. discriminate.
    + constructor.
  - split; [repeat constructor; cbn; intros H; repeat destruct H as [H|H]; try discriminate H; contradiction|].
    intros v H. cbn in H. repeat destruct H as [H|H]; try discriminate H. contradiction.
  - split; [left; cbn; auto|]. split; (split; [intros _; eexists; cbn; eauto | reflexivity]).
Qed.
Example port_spelled : command_line (map st ["stop"; "-p=+80"; "--host=a"]%string) = Runs (Stop 80 (st "a")).
Proof. vm_compute. reflexivity. Qed.
Example port_refused : command_line (client_words 70000 (st "127.0.0.1")) = Refuses /\ command_line (client_words 5737 (st "-x")) = Refuses.
Proof. split; vm_compute; reflexivity. Qed.
