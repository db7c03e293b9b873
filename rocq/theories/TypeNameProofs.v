From Coq Require Import Ascii String List ZArith NArith Lia Bool.
From Verif Require Import Base NumText TypesModel TypesProofs TypeTextModel TypeTextSpec TypeTextProofs TypeTextParse TypeTextLex TypeTextSound TypeNameSpec.
Import ListNotations.
Open Scope Z_scope.

Lemma legible_wf t : legible t <-> wf t /\ full t.
Proof. unfold legible, wf. tauto. Qed.
Lemma wf_mk t : plain1 t -> sound1 t -> (forall u, In u (TypeTextSpec.kids t) -> wf u) -> wf t.
Proof.
  intros H1 H2 H. split; intros u Hu; inversion Hu; subst; try assumption; eapply H; eassumption.
Qed.
Definition seg1 (id : str) (args : list ty) : ty := YPath [SSeg id (match args with [] => None | _ => Some (GParsed args) end) false].
Lemma seg1_show id args : show (seg1 id args) = match args with [] => id | _ => id ++ st "<" ++ join (st ", ") (map show args) ++ st ">" end.
Proof. unfold seg1. cbn [show map join]. destruct args; cbn [seg_text]; [|reflexivity]. rewrite ?app_nil_r. reflexivity. Qed.
Lemma seg1_wf id args : ident id -> ~ keyword id -> Forall (fun t => wf t /\ full t) args -> wf (seg1 id args) /\ full (seg1 id args).
Proof.
  intros Hi Hk Ha. split; [|discriminate]. apply wf_mk.
  - cbn [plain1 seg1]. constructor; [|constructor]. cbn [plain_seg]. split; [exact Hk|]. split; [reflexivity|].
    destruct args; [exact Logic.I|]. split; [discriminate|]. eapply Forall_impl; [|exact Ha]. intros a [_ F]. exact F.
  - cbn [sound1 seg1]. constructor; [exact Hi | constructor].
  - intros u Hu. unfold seg1 in Hu. cbn [TypeTextSpec.kids flat_map seg_kids] in Hu. rewrite app_nil_r in Hu.
    rewrite Forall_forall in Ha. destruct args; [destruct Hu|]. apply Ha, Hu.
Qed.

Lemma str_eqb_ne a b : a <> b -> str_eqb a b = false.
Proof. intros H. destruct (str_eqb a b) eqn:E; [|reflexivity]. apply str_eqb_eq in E. contradiction. Qed.
Definition prim_names : list str := map st
  ["u8"; "u16"; "u32"; "u64"; "u128"; "usize"; "i8"; "i16"; "i32"; "i64"; "i128"; "isize"; "f32"; "f64"; "bool"; "char"; "str"; "()"]%string.
Lemma primitive_none s : ~ In s prim_names -> primitive_named s = None.
Proof.
  intros H. unfold primitive_named. unfold prim_names in H. cbn [map In] in H.
  rewrite !str_eqb_ne; [reflexivity | ..]; intros E; apply H; rewrite E; tauto.
Qed.
Lemma primitive_generic id r : primitive_named (id ++ st "<" ++ r) = None.
Proof.
  apply primitive_none. intros H.
  assert (G : forall s, In s prim_names -> forallb (fun c => negb (N.eqb c (ch "<"))) s = true).
  { intros s Hs. revert s Hs. apply Forall_forall. unfold prim_names. cbn [map]. repeat constructor. }
  apply G in H. rewrite !forallb_app in H. apply andb_prop in H. destruct H as [_ H]. apply andb_prop in H. destruct H as [H _].
  vm_compute in H. discriminate.
Qed.
Lemma ident_not_unit id : ident id -> id <> st "()".
Proof. intros (c & w & -> & _ & H) E. rewrite E in H. vm_compute in H. discriminate. Qed.
Lemma primitive_user id : ident id -> ~ In id builtin_names -> primitive_named id = None.
Proof.
  intros Hi H. apply primitive_none. intros P. unfold prim_names in P. cbn [map In] in P. unfold builtin_names in H. cbn [map In] in H.
  pose proof (ident_not_unit id Hi). intuition congruence.
Qed.
Lemma std_user id g : ~ In id builtin_names -> std_named id g = None.
Proof.
  intros H. unfold std_named, smart_named. unfold builtin_names in H. cbn [map In] in H.
  rewrite !str_eqb_ne; [reflexivity | ..]; intros E; apply H; rewrite E; tauto.
Qed.
Lemma seg1_layout id args : as_layout (seg1 id args) =
  match primitive_named (show (seg1 id args)) with
  | Some l => l
  | None => match std_named id (map as_layout args) with Some l => l | None => LAlias (show (seg1 id args)) end
  end.
Proof.
  unfold seg1. cbn [as_layout map]. unfold path_layout, segments. cbn [map length Nat.eqb last show join].
  set (tx := seg_text show _). destruct (primitive_named tx); [reflexivity|]. rewrite orb_true_r.
  replace (last [seg_generics as_layout (SSeg id match args with [] => None | _ => Some (GParsed args) end false)] []) with (map as_layout args)
    by (destruct args; reflexivity).
  cbn [last]. destruct args; reflexivity.
Qed.

(** [t] is the written form of the layout [l]. *)
Definition written (l : layout) (t : ty) : Prop :=
  wf t /\ full t /\ show t = display_name l /\ as_layout t = skeleton l /\ (l = LStr \/ ref_form false t).

Ltac lit_ident := eexists _, _; repeat split; reflexivity.
Ltac lit_kw := match goal with |- ~ keyword _ => let H := fresh in intros H; unfold keyword in H; cbn [map In] in H; repeat (destruct H as [H|H]; [discriminate H|]); destruct H end.

Lemma written_word (w : string) l : ident (st w) -> ~ keyword (st w) -> display_name l = st w -> l = LStr \/ st w <> st "str" ->
  primitive_named (st w) = Some (skeleton l) \/ (primitive_named (st w) = None /\ std_named (st w) [] = Some (skeleton l)) -> written l (seg1 (st w) []).
Proof.
  intros Hi Hk Hd Hr Hp. destruct (seg1_wf _ [] Hi Hk (Forall_nil _)) as [W F].
  unfold written. split; [exact W|]. split; [exact F|]. split; [rewrite seg1_show, Hd; reflexivity|]. split.
  - rewrite seg1_layout, seg1_show. destruct Hp as [-> | [-> E]]; [reflexivity|]. cbn [map]. rewrite E. reflexivity.
  - destruct Hr as [-> | Hr]; [left; reflexivity | right; right]. exact Hr.
Qed.
Lemma written_generic (w : str) l args : ident w -> ~ keyword w -> w <> st "str" -> args <> [] ->
  Forall (fun t => wf t /\ full t) args -> display_name l = w ++ st "<" ++ join (st ", ") (map show args) ++ st ">" ->
  std_named w (map as_layout args) = Some (skeleton l) -> written l (seg1 w args).
Proof.
  intros Hi Hk Hs Hne Ha Hd Hp. destruct (seg1_wf _ args Hi Hk Ha) as [W F].
  unfold written. split; [exact W|]. split; [exact F|]. rewrite seg1_layout, seg1_show. destruct args as [|a args]; [congruence|].
  split; [rewrite Hd; reflexivity|]. split; [|right; right; exact Hs]. rewrite primitive_generic, Hp. reflexivity.
Qed.
Lemma written_user l n : user_name n -> display_name l = n -> skeleton l = LAlias n -> exists t, written l t.
Proof.
  intros U Hd Hs. unfold written. rewrite Hd, Hs. destruct U as [id Hi Hk Hb | id args Hi Hk Hb Hne Ha | ls Hne Hp Ha].
  - exists (seg1 id []). destruct (seg1_wf id [] Hi Hk (Forall_nil _)) as [W F]. rewrite seg1_layout, seg1_show.
    rewrite primitive_user, std_user by assumption. repeat (split; [assumption || reflexivity|]).
    right. right. intros E. apply Hb. rewrite E. vm_compute. tauto.
  - exists (seg1 id args). assert (Ha' : Forall (fun t => wf t /\ full t) args) by (eapply Forall_impl; [|exact Ha]; intros; apply legible_wf; assumption).
    destruct (seg1_wf id args Hi Hk Ha') as [W F]. rewrite seg1_layout, seg1_show. destruct args as [|a args]; [congruence|].
    rewrite primitive_generic, std_user by assumption. repeat (split; [assumption || reflexivity|]).
    right. right. intros E. apply Hb. rewrite E. vm_compute. tauto.
  - exists (YDyn ls). split; [|split; [discriminate|]]; [|split; [reflexivity|]; split; [reflexivity|]; right; right; exact Logic.I].
    apply wf_mk; [split; assumption | exact Logic.I|]. cbn [TypeTextSpec.kids]. rewrite Forall_forall in Ha. intros u Hu. apply legible_wf, Ha, Hu.
Qed.
Lemma written_list {A} (f : A -> layout) (l : list A) : (forall a, In a l -> exists t, written (f a) t) ->
  exists ts, Forall2 (fun a t => written (f a) t) l ts.
Proof.
  induction l as [|a l IH]; intros H; [exists []; constructor|].
  destruct (H a (or_introl eq_refl)) as (t & Ht). destruct IH as (ts & Hts); [intros; apply H; right; assumption|].
  exists (t :: ts). constructor; assumption.
Qed.
Lemma written_all {A} (f : A -> layout) (l : list A) ts : Forall2 (fun a t => written (f a) t) l ts ->
  Forall (fun t => wf t /\ full t) ts /\ map show ts = map (fun a => display_name (f a)) l /\ map as_layout ts = map (fun a => skeleton (f a)) l /\ length ts = length l.
Proof.
  induction 1 as [|a t l ts (W & F & S & L & _) H IH]; [repeat split; constructor|].
  destruct IH as (I1 & I2 & I3 & I4). repeat split; cbn [map length]; try congruence. constructor; [split; assumption | exact I1].
Qed.
Lemma written_ref m l p t : written l t -> m = true \/ l <> LStr -> written (LReference m (TD l p)) (YRef m t).
Proof.
  intros (W & F & S & L & R) H. split.
  { apply wf_mk; [exact F | | intros u [<- | []]; exact W]. cbn [sound1]. destruct m; [left; reflexivity|].
    destruct R as [R|R]; [destruct H; congruence | exact R]. }
  split; [discriminate|]. cbn [show display_name as_layout skeleton]. rewrite S, L. repeat split. right. right. exact Logic.I.
Qed.
Lemma fold_all {A} (P : A -> Prop) l : fold_right (fun a Q => P a /\ Q) True l <-> forall a, In a l -> P a.
Proof.
  induction l as [|x l IH]; cbn [fold_right In]; [split; [intros _ a [] | auto]|]. rewrite IH.
  split; [intros [H1 H2] a [<- | H]; auto | auto].
Qed.

Lemma fa1 t : wf t -> full t -> Forall (fun t => wf t /\ full t) [t].
Proof. auto. Qed.
Lemma fa2 t u : wf t -> full t -> wf u -> full u -> Forall (fun t => wf t /\ full t) [t; u].
Proof. auto. Qed.
Theorem nameable_written : forall l, nameable l -> exists t, written l t.
Proof.
  assert (wd : forall l t, written l t -> wf t /\ full t) by (intros l t (? & ? & _); auto).
  intros l. induction l as [l IH] using layout_ind'. intros N.
  destruct l as [[e p] n| | |s|r args|s| |m p|m [e p]|[e p] a b| |a b|es z| |s|[i p] a b v|[k pk] [x px] v|nm d o [i p] z
                |nm d [o po] a [e pe] b z|a b c i|a b c [i p]|nm z al fs|nm d vs z|nm d vs z|nm]; cbn [nameable] in N; cbn [TypesProofs.kids layOf In] in IH.
  - destruct N as [N Hn]. destruct (IH e (or_introl eq_refl) N) as (t & W & F & S & L & _). exists (YArray t (Some (AFixed n))).
    split. { apply wf_mk; [split; [exact F | exact Logic.I] | exact Hn | intros u [<- | []]; exact W]. }
    split; [discriminate|]. cbn [show display_name as_layout skeleton]. rewrite S, L. unfold usz. rewrite ?app_assoc. repeat split. right. right. exact Logic.I.
  - exists (seg1 (st "bool") []). apply written_word; [lit_ident | lit_kw | reflexivity | right; discriminate | left; reflexivity].
  - exists (seg1 (st "char") []). apply written_word; [lit_ident | lit_kw | reflexivity | right; discriminate | left; reflexivity].
  - destruct N as [<- | [<- | []]].
    + exists (seg1 (st "f32") []). apply written_word; [lit_ident | lit_kw | reflexivity | right; discriminate | left; reflexivity].
    + exists (seg1 (st "f64") []). apply written_word; [lit_ident | lit_kw | reflexivity | right; discriminate | left; reflexivity].
  - destruct N as (Nr & Na & Nl).
    destruct (written_list layOf args) as (ts & Hts).
    { intros a Ha. rewrite fold_all in Nl. specialize (Nl a Ha). apply IH; [|destruct a; exact Nl].
      destruct r as [[r q]|]; [right|]; apply in_map, Ha. }
    destruct (written_all _ _ _ Hts) as (H1 & H2 & H3 & H4).
    assert (Hr : exists rt, match r, rt with Some q, Some u => written (layOf q) u | None, None => True | _, _ => False end).
    { destruct r as [[q pq]|]; [|exists None; exact Logic.I]. destruct (IH q (or_introl eq_refl) Nr) as (u & Hu). exists (Some u). exact Hu. }
    destruct Hr as (rt & Hrt). exists (YFn false ts rt).
    assert (E1 : map (fun t : tdefOf layout => match t with TD l' _ => display_name l' end) args = map show ts).
    { rewrite H2. apply map_ext. intros []; reflexivity. }
    assert (E2 : map (fun t : tdefOf layout => match t with TD l' _ => td0 (skeleton l') end) args = map (fun t => td0 (as_layout t)) ts).
    { rewrite <- (map_map as_layout td0), H3, map_map. apply map_ext. intros []; reflexivity. }
    split.
    { apply wf_mk; [split; [reflexivity|]; split; [right; split|] | exact Logic.I|].
      - destruct ts, args; cbn in H4; congruence.
      - eapply Forall_impl; [|exact H1]. intros u [_ F]. exact F.
      - destruct r as [[q pq]|], rt as [u|]; try contradiction; [apply (wd _ _ Hrt) | exact Logic.I].
      - cbn [TypeTextSpec.kids]. intros u Hu. apply in_app_or in Hu. rewrite Forall_forall in H1. destruct Hu as [Hu|Hu]; [apply H1, Hu|].
        destruct r as [[q pq]|], rt as [u'|]; try contradiction; destruct Hu as [<- | []]. apply (wd _ _ Hrt). }
    split; [discriminate|]. cbn [show display_name as_layout skeleton]. rewrite E1, E2.
    destruct r as [[q pq]|], rt as [u|]; try contradiction.
    + destruct Hrt as (_ & _ & S & L & _). cbn [layOf] in *. rewrite S, L. repeat split. right. right. exact Logic.I.
    + repeat split. right. right. exact Logic.I.
  - repeat (destruct N as [<- | N]); [.. | destruct N].
    + exists (seg1 (st "i8") []). apply written_word; [lit_ident | lit_kw | reflexivity | right; discriminate | left; reflexivity].
    + exists (seg1 (st "i16") []). apply written_word; [lit_ident | lit_kw | reflexivity | right; discriminate | left; reflexivity].
    + exists (seg1 (st "i32") []). apply written_word; [lit_ident | lit_kw | reflexivity | right; discriminate | left; reflexivity].
    + exists (seg1 (st "i64") []). apply written_word; [lit_ident | lit_kw | reflexivity | right; discriminate | left; reflexivity].
    + exists (seg1 (st "i128") []). apply written_word; [lit_ident | lit_kw | reflexivity | right; discriminate | left; reflexivity].
  - exists YNever. split; [apply wf_mk; [exact Logic.I | exact Logic.I | intros u []]|]. split; [discriminate|]. repeat split. right. right. exact Logic.I.
  - destruct N.
  - destruct N as [N Hm]. destruct (IH e (or_introl eq_refl) N) as (t & Ht). exists (YRef m t). apply written_ref; assumption.
  - destruct (IH e (or_introl eq_refl) N) as (t & W & F & S & L & _). exists (YSlice t).
    split. { apply wf_mk; [exact F | exact Logic.I | intros u [<- | []]; exact W]. }
    split; [discriminate|]. cbn [show display_name as_layout skeleton]. rewrite S, L. repeat split. right. right. exact Logic.I.
  - exists (seg1 (st "str") []). apply written_word; [lit_ident | lit_kw | reflexivity | left; reflexivity | left; reflexivity].
  - exists YStr. split; [apply wf_mk; [exact Logic.I | exact Logic.I | intros u []]|]. split; [discriminate|]. repeat split. right. right. exact Logic.I.
  - destruct N as (Nn & Nl).
    destruct (written_list (fun p => layOf (snd p)) es) as (ts & Hts).
    { intros a Ha. rewrite fold_all in Nl. specialize (Nl a Ha). apply IH; [apply (in_map (fun p => layOf (snd p))), Ha|].
      destruct a as [o [q pq]]. exact Nl. }
    destruct (written_all _ _ _ Hts) as (H1 & H2 & H3 & H4). exists (YTuple ts).
    assert (E1 : map (fun p : Z * tdefOf layout => let (_, t) := p in match t with TD l' _ => display_name l' end) es = map show ts).
    { rewrite H2. apply map_ext. intros [? []]; reflexivity. }
    assert (E2 : map (fun p : Z * tdefOf layout => let (_, t) := p in (0, match t with TD l' _ => td0 (skeleton l') end)) es = map (fun t => (0, td0 (as_layout t))) ts).
    { rewrite <- (map_map as_layout (fun l => (0, td0 l))), H3, map_map. apply map_ext. intros [? []]; reflexivity. }
    split.
    { apply wf_mk; [eapply Forall_impl; [|exact H1]; intros u [_ F]; exact F | exact Logic.I|].
      cbn [TypeTextSpec.kids]. rewrite Forall_forall in H1. intros u Hu. apply H1, Hu. }
    split; [discriminate|]. cbn [display_name skeleton]. rewrite E1, E2.
    destruct ts as [|t1 [|t2 ts]]; cbn in H4; [rewrite <- H4 in Nn; lia | rewrite <- H4 in Nn; lia |]. repeat split. right. right. exact Logic.I.
  - exists (YTuple []). split; [apply wf_mk; [constructor | exact Logic.I | intros u []]|]. split; [discriminate|]. repeat split. right. right. exact Logic.I.
  - repeat (destruct N as [<- | N]); [.. | destruct N].
    + exists (seg1 (st "u8") []). apply written_word; [lit_ident | lit_kw | reflexivity | right; discriminate | left; reflexivity].
    + exists (seg1 (st "u16") []). apply written_word; [lit_ident | lit_kw | reflexivity | right; discriminate | left; reflexivity].
    + exists (seg1 (st "u32") []). apply written_word; [lit_ident | lit_kw | reflexivity | right; discriminate | left; reflexivity].
    + exists (seg1 (st "u64") []). apply written_word; [lit_ident | lit_kw | reflexivity | right; discriminate | left; reflexivity].
    + exists (seg1 (st "u128") []). apply written_word; [lit_ident | lit_kw | reflexivity | right; discriminate | left; reflexivity].
  - destruct (IH i (or_introl eq_refl) N) as (t & W & F & S & L & _).
    exists (seg1 (spv_name v) [t]); destruct v; apply written_generic; try lit_kw; try discriminate; try lit_ident;
      try exact (fa1 _ W F); cbn [display_name skeleton map join spv_name]; rewrite ?S, ?L; reflexivity.
  - destruct N as (Nk & Nx & Nv). destruct (IH k (or_introl eq_refl) Nk) as (t & W & F & S & L & _).
    destruct (IH x (or_intror (or_introl eq_refl)) Nx) as (t' & W' & F' & S' & L' & _).
    exists (seg1 (mapv_name v) [t; t']); destruct v; [| |congruence]; apply written_generic; try lit_kw; try discriminate; try lit_ident;
      try first [exact (fa1 _ W F) | exact (fa2 _ _ W F W' F')]; cbn [display_name skeleton map join mapv_name]; rewrite ?S, ?L, ?S', ?L', <- ?app_assoc; reflexivity.
  - destruct (IH i (or_introl eq_refl) N) as (t & W & F & S & L & _). exists (seg1 (st "Option") [t]).
    apply written_generic; try lit_kw; try discriminate; try lit_ident; try first [exact (fa1 _ W F) | exact (fa2 _ _ W F W' F')];
      cbn [display_name skeleton map join]; rewrite ?S, ?L; reflexivity.
  - destruct N as (No & Ne). destruct (IH o (or_introl eq_refl) No) as (t & W & F & S & L & _).
    destruct (IH e (or_intror (or_introl eq_refl)) Ne) as (t' & W' & F' & S' & L' & _). exists (seg1 (st "Result") [t; t']).
    apply written_generic; try lit_kw; try discriminate; try lit_ident; try first [exact (fa1 _ W F) | exact (fa2 _ _ W F W' F')];
      cbn [display_name skeleton map join]; rewrite ?S, ?L, ?S', ?L', <- ?app_assoc; reflexivity.
  - exists (seg1 (st "String") []). apply written_word; [lit_ident | lit_kw | reflexivity | right; discriminate | right; split; reflexivity].
  - destruct (IH i (or_introl eq_refl) N) as (t & W & F & S & L & _). exists (seg1 (st "Vec") [t]).
    apply written_generic; try lit_kw; try discriminate; try lit_ident; try first [exact (fa1 _ W F) | exact (fa2 _ _ W F W' F')];
      cbn [display_name skeleton map join]; rewrite ?S, ?L; reflexivity.
  - eapply written_user; [exact N | reflexivity | reflexivity].
  - eapply written_user; [exact N | reflexivity | reflexivity].
  - eapply written_user; [exact N | reflexivity | reflexivity].
  - eapply written_user; [exact N | reflexivity | reflexivity].
Qed.
