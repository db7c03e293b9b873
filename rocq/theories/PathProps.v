(** Properties of source path remapping (C47). *)
From Coq Require Import Ascii String List ZArith Lia Bool.
From Verif Require Import Base PathModel.
Import ListNotations.
Open Scope Z_scope.

(** Specification: [p] lies under [s] with remainder [r]. *)
Definition under (p s r : fpath) : Prop := p = s ++ r.
(** A relative remainder: what follows a directory in a path. *)
Definition relative (r : fpath) : Prop := match r with CRoot :: _ | CCur :: _ => False | _ => True end.
(** No mapping of [m] applies to [p]. *)
Definition unmapped (m : list (fpath * fpath)) (p : fpath) : Prop :=
  Forall (fun st => fst st = snd st \/ forall r, ~ under p (fst st) r) m.

Lemma comp_eqb_eq a b : comp_eqb a b = true <-> a = b.
Proof.
  destruct a, b; simpl; split; intros H; try reflexivity; try discriminate; [apply str_eqb_eq in H; now subst|]. injection H as ->. apply str_eqb_eq. reflexivity.
Qed.
Lemma fpath_eqb_eq a b : fpath_eqb a b = true <-> a = b.
Proof.
  revert b. induction a as [|x a IH]; intros [|y b]; simpl; split; intros H; try reflexivity; try discriminate.
  - apply andb_true_iff in H. destruct H as [E F]. apply comp_eqb_eq in E. apply IH in F. now subst.
  - injection H as -> ->. apply andb_true_iff. split; [now apply comp_eqb_eq | now apply IH].
Qed.
Lemma strip_prefix_some p s r : strip_prefix p s = Some r <-> under p s r.
Proof.
  unfold under. revert p. induction s as [|x s IH]; intros p; simpl.
  - split; [intros E; congruence | now intros ->].
  - destruct p as [|y p]; [split; discriminate|]. destruct (comp_eqb x y) eqn:E.
    + apply comp_eqb_eq in E. subst y. rewrite IH. split; [now intros -> | intros F; now injection F].
    + split; [discriminate|]. intros F. injection F as -> ->. rewrite (proj2 (comp_eqb_eq x x) eq_refl) in E. discriminate.
Qed.
Lemma join_relative t r : relative r -> join t r = t ++ r.
Proof. destruct r as [|[| | |] r]; simpl; intros H; try reflexivity; contradiction. Qed.

(** A path under no mapped prefix (or only under prefixes mapped to themselves) is left alone. *)
Theorem unmapped_path_unchanged m p : unmapped m p -> remap_path m p = p.
Proof.
  unfold unmapped. induction m as [|[s t] m IH]; intros U; [reflexivity|]. inversion U as [|? ? H F]; subst. simpl in *. specialize (IH F).
  destruct (fpath_eqb s t) eqn:E; [exact IH|]. destruct (strip_prefix p s) as [r|] eqn:S; [|exact IH].
  apply strip_prefix_some in S. destruct H as [H|H]; [apply fpath_eqb_eq in H; congruence | destruct (H r S)].
Qed.
(** A path under a mapped prefix gets the target prefix and keeps its remainder, provided no earlier mapping applies to
    it and no later one applies to the result. *)
Theorem mapped_path_rewritten_partial m1 s t m2 r :
  s <> t -> relative r -> unmapped m1 (s ++ r) -> unmapped m2 (t ++ r) ->
  remap_path (m1 ++ (s, t) :: m2) (s ++ r) = t ++ r.
Proof.
  intros N R U1 U2. induction m1 as [|[a b] m1 IH].
  - simpl. destruct (fpath_eqb s t) eqn:E; [apply fpath_eqb_eq in E; contradiction|]. rewrite (proj2 (strip_prefix_some (s ++ r) s r) eq_refl).
    rewrite join_relative by exact R. now apply unmapped_path_unchanged.
  - inversion U1 as [|? ? H F]; subst. simpl. destruct (fpath_eqb a b) eqn:E; [now apply IH|].
    destruct (strip_prefix (s ++ r) a) as [x|] eqn:S; [|now apply IH]. apply strip_prefix_some in S. simpl in H.
    destruct H as [H|H]; [apply fpath_eqb_eq in H; congruence | destruct (H x S)].
Qed.
(** In particular with a single mapping, which may be given with any number of identity mappings. *)
Theorem single_mapping s t r : s <> t -> relative r -> remap_path [(s, t)] (s ++ r) = t ++ r.
Proof. intros N R. apply (mapped_path_rewritten_partial [] s t []); [exact N | exact R | constructor | constructor]. Qed.
Theorem identity_mappings_ignored m1 s m2 p : remap_path (m1 ++ (s, s) :: m2) p = remap_path (m1 ++ m2) p.
Proof.
  revert p. induction m1 as [|[a b] m1 IH]; intros p; simpl.
  - rewrite (proj2 (fpath_eqb_eq s s) eq_refl). reflexivity.
  - destruct (fpath_eqb a b); [apply IH|]. destruct (strip_prefix p a); apply IH.
Qed.
(** Mapping the empty (relative) directory affects no absolute path. *)
Theorem absolute_path_not_relative m p : Forall (fun st => fst st = []) m -> remap_path m (CRoot :: p) = CRoot :: p.
Proof.
  induction m as [|[s t] m IH]; intros F; [reflexivity|]. inversion F as [|? ? E F']; subst. simpl in E. subst s. simpl. specialize (IH F').
  destruct t; exact IH.
Qed.
(** The result of any source map: a chain of rewrites, each replacing a whole prefix. *)
Inductive rewrites : fpath -> fpath -> Prop :=
| rw_done p : rewrites p p
| rw_step s t r q : rewrites (join t r) q -> rewrites (s ++ r) q.
Theorem remapping_only_replaces_prefixes m p : rewrites p (remap_path m p).
Proof.
  revert p. induction m as [|[s t] m IH]; intros p; [constructor|]. simpl. destruct (fpath_eqb s t); [apply IH|].
  destruct (strip_prefix p s) as [r|] eqn:S; [|apply IH]. apply strip_prefix_some in S. rewrite S. apply (rw_step s t r). apply IH.
Qed.
(** Without the provisos the rewriting can be wrong: mappings are chained, so exchanging two directories is impossible. *)
Theorem mapped_path_rewritten_refuted :
  let a := [CRoot; CName (st "a")] in let b := [CRoot; CName (st "b")] in let f := [CName (st "f")] in
  remap_path [(a, b); (b, a)] (a ++ f) = a ++ f /\ a ++ f <> b ++ f.
Proof. split; [reflexivity | discriminate]. Qed.
(** Non-vacuity. *)
Example remap_example :
  let p := [CRoot; CName (st "rustc"); CName (st "abc"); CName (st "lib.rs")] in
  unmapped [([CRoot; CName (st "home")], [CRoot; CName (st "h")])] p /\
  remap_path [([CRoot; CName (st "home")], [CRoot; CName (st "h")]); ([CRoot; CName (st "rustc"); CName (st "abc")], [CRoot; CName (st "src")])] p =
  [CRoot; CName (st "src"); CName (st "lib.rs")].
Proof. split; [constructor; [right; intros r H; discriminate | constructor] | reflexivity]. Qed.
