(** C109: the methods of a type of a binary, from the stored files. *)
From Coq Require Import Ascii String List ZArith NArith Lia Bool.
From Verif Require Import Base NumText OMap Utf8 AddrModel SymModel SymSpec SymProofs SymProps PathModel LinesModel LinesProps DieModel DieSpec DieProofs ModuleModel ModuleSpec ModuleProofs ModuleProps ModulePlaces TypesModel
  ParserModel ParserSpec ParserProofs ResolveModel ResolveSpec ResolveProps SynthModel DiscoverModel DiscoverSpec DiscoverProps LookupSpec LookupProps SourceModel LoadModel BinaryModel BinarySpec BinaryProofs BinaryTypes.
Import ListNotations.
Open Scope Z_scope.

(** The namespaces called [path] in the Rust units of a file, in file order. *)
Definition scopes (path : list str) (f : bfile) : list (bfile * bunit * die) :=
  flat_map (fun u => if is_rust_cu (d_entry (bu_die u))
                     then flat_map (fun x => if list_eq_dec str_eq_dec (fst x) path then [(f, u, snd x)] else []) (ns_dies [] (bu_die u))
                     else []) (bf_units f).
(** The functions declared inside the struct DIEs of the type, in one such namespace. *)
Definition declared_methods (X : externals) (ix : symbol_index) (target : layout) (s : bfile * bunit * die) (ms : list dmethod) : Prop :=
  exists v ts, unit_view (fst (fst s)) (snd (fst s)) v /\ selects (same_type v target) (d_kids (snd s)) ts /\ Forall2 (describes X ix v target) (flat_map DiscoverSpec.functions_in ts) ms.
(** [scope] is the innermost namespace around [d] in the unit, called [path] (the unit itself outside namespaces). *)
Definition enclosed (u : bunit) (d scope : die) (path : list str) : Prop :=
  in_tree (bu_die u) scope /\ In (d_entry d, (path, e_off (d_entry scope))) (unit_spots (bu_die u)).
(** A later DIE of the unit is in another namespace. *)
Definition followed (u : bunit) (d scope : die) (path : list str) : Prop :=
  exists y q, In (y, q) (unit_spots (bu_die u)) /\ e_off (d_entry d) <= e_off y /\ q <> (path, e_off (d_entry scope)).

Lemma module_dies_spec f us path : file_of f us -> module_dies f path =
  map (fun x => h_of (snd x)) (filter (fun x => if list_eq_dec str_eq_dec (fst x) path then true else false) (flat_map (fun d => if is_rust_cu (d_entry d) then ns_dies [] d else []) us)).
Proof.
  intros FO. destruct FO as [(ulen & ps & n & ranges & E & G & MI) _]. rewrite <- E in G. destruct (module_found_by_path_partial ulen ps G) as (n0 & r' & mods & MI' & MP).
  assert (mods = fl_modules f). { specialize (MI (max n n0) ltac:(lia)). specialize (MI' (max n n0) ltac:(lia)). congruence. } subst mods.
  specialize (MP path). cbv zeta in MP. rewrite E in MP.
  assert (NS : namespaces (flat_map (fun d => if is_rust_cu (d_entry d) then paths [] d else []) us) =
    map (fun x => (fst x, h_of (snd x))) (flat_map (fun d => if is_rust_cu (d_entry d) then ns_dies [] d else []) us)).
  { rewrite namespaces_flat. clear. induction us as [|d l IH]; [reflexivity|]. cbn [flat_map]. rewrite map_app, IH. f_equal. destruct (is_rust_cu (d_entry d)); [apply ns_dies_namespaces | reflexivity]. }
  rewrite NS in MP. destruct MP as [MP1 MP2]. set (all := flat_map (fun d => if is_rust_cu (d_entry d) then ns_dies [] d else []) us) in *.
  assert (FM : map snd (filter (fun x : list str * Z => if list_eq_dec str_eq_dec (fst x) path then true else false) (map (fun x => (fst x, h_of (snd x))) all)) =
    map (fun x => h_of (snd x)) (filter (fun x => if list_eq_dec str_eq_dec (fst x) path then true else false) all)).
  { clear. induction all as [|[q x] l IH]; [reflexivity|]. cbn [map filter fst snd]. destruct (list_eq_dec str_eq_dec q path); cbn [map snd]; rewrite IH; reflexivity. }
  unfold module_dies. destruct (find_by_path (fl_modules f) path) as [m|] eqn:FP; [rewrite (MP1 m eq_refl), FM; reflexivity|].
  destruct (proj1 MP2 eq_refl) as [_ NO]. destruct (filter _ all) as [|[q x] l] eqn:SE; [reflexivity|]. exfalso.
  assert (In (q, x) (filter (fun x => if list_eq_dec str_eq_dec (fst x) path then true else false) all)) as H by (rewrite SE; left; reflexivity).
  apply filter_In in H. destruct H as [H1 H2]. cbn [fst] in H2. destruct (list_eq_dec str_eq_dec q path) as [-> |]; [|discriminate]. apply (NO path).
  - rewrite map_map. apply (in_map (fun x => fst (fst x, h_of (snd x))) all (path, x) H1).
  - exists []. rewrite app_nil_r. reflexivity.
Qed.
Lemma scopes_in path f g u x : In (g, u, x) (scopes path f) -> g = f /\ In u (bf_units f) /\ in_tree (bu_die u) x.
Proof.
  unfold scopes. intros H. apply in_flat_map in H. destruct H as (w & Hw & H). destruct (is_rust_cu (d_entry (bu_die w))); [|destruct H]. apply in_flat_map in H. destruct H as ([q y] & Hy & H). cbn [fst snd] in H.
  destruct (list_eq_dec str_eq_dec q path); [|destruct H]. destruct H as [H | []]. injection H as <- <- <-. split; [reflexivity|]. split; [exact Hw|]. apply (ns_dies_in _ _ _ _ Hy).
Qed.
Lemma file_scopes n f path : distinct_dies f -> file_of (discovery_file n f) (units_of f) ->
  map (fun m => (fl_env (discovery_file n f) m, m)) (module_dies (discovery_file n f) path) = map (fun s => (unit_env n (fst (fst s)) (snd (fst s)), h_of (snd s))) (scopes path f).
Proof.
  intros D FO. rewrite (module_dies_spec _ _ path FO). unfold scopes, units_of.
  assert (K : forall us, (forall u, In u us -> In u (bf_units f)) -> map (fun m => (fl_env (discovery_file n f) m, m)) (map (fun x => h_of (snd x))
     (filter (fun x => if list_eq_dec str_eq_dec (fst x) path then true else false) (flat_map (fun d => if is_rust_cu (d_entry d) then ns_dies [] d else []) (map bu_die us)))) =
     map (fun s : bfile * bunit * die => (unit_env n (fst (fst s)) (snd (fst s)), h_of (snd s)))
       (flat_map (fun u => if is_rust_cu (d_entry (bu_die u)) then flat_map (fun x => if list_eq_dec str_eq_dec (fst x) path then [(f, u, snd x)] else []) (ns_dies [] (bu_die u)) else []) us)).
  { induction us as [|u us IH]; intros S; [reflexivity|]. cbn [map flat_map]. rewrite filter_app, !map_app, (IH (fun w Hw => S w (or_intror Hw))). f_equal.
    destruct (is_rust_cu (d_entry (bu_die u))); [|reflexivity]. pose proof (fun q x H => proj1 (ns_dies_in (bu_die u) [] q x H)) as T. induction (ns_dies [] (bu_die u)) as [|[q x] l IHl]; [reflexivity|].
    cbn [filter flat_map fst snd]. specialize (IHl (fun q0 x0 H => T q0 x0 (or_intror H))). destruct (list_eq_dec str_eq_dec q path); cbn [map app fst snd]; rewrite IHl; [|reflexivity]. f_equal. f_equal.
    cbn [discovery_file fl_env]. unfold file_env. change (h_of x) with (e_off (d_entry x)). rewrite (unit_at_spec f u x D (S u (or_introl eq_refl)) (T q x (or_introl eq_refl))). reflexivity. }
  exact (K (bf_units f) (fun u H => H)).
Qed.
Lemma view_spots f u v d scope path : well_formed f -> In u (bf_units f) -> is_rust_cu (d_entry (bu_die u)) = true -> unit_view f u v -> enclosed u d scope path ->
  exists r, find_by_offset (en_ranges v) (h_of d) = Some r /\ mr_path r = path /\
    (mr_die r = h_of scope \/ mr_die r = h_of (bu_die u) /\ ~ followed u d scope path).
Proof.
  intros W Hu R [m V] [T I]. destruct (well_parts f W) as (G & D & A). set (ds := map (fun u => (bu_die u, bu_pad u)) (bf_units f)).
  destruct (die_range_found (root_length (bf_units f)) ds) as (n0 & ranges & mods & M & P). { unfold ds. rewrite map_map. exact G. }
  assert (FM : forall n, (n0 <= n)%nat -> file_modules n f = (ranges, mods)).
  { intros n Hn. unfold file_modules. specialize (M n Hn). unfold ds, file_toks in M. rewrite map_map in M. change (map utoks (bf_units f)) with (map (fun x => unit_toks (fst (bu_die x, bu_pad x)) (snd (bu_die x, bu_pad x))) (bf_units f)). rewrite M. reflexivity. }
  assert (en_ranges v = ranges) as ->. { rewrite <- (V (m + n0)%nat ltac:(lia)). unfold unit_env. rewrite FM by lia. reflexivity. }
  destruct (P (bu_die u) (d_entry d) (path, e_off (d_entry scope))) as (r & E & Pa & Q); [unfold ds; rewrite map_map; exact (in_map bu_die _ _ Hu) | exact R | exact I|].
  exists r. split; [exact E|]. split; [exact Pa|]. destruct Q as [Q | [Q1 Q2]]; [left; exact Q | right]. split; [exact Q1|]. intros (y & q & Hy & L & N). exact (N (Q2 y q Hy L)).
Qed.

Section Methods.
Variables (X : externals) (B : binary) (sig_of : str -> str).
Hypothesis Hmade : Forall well_formed (bi_made B).
Hypothesis Hfiles : Forall well_formed (bi_files B).
Hypothesis Hapart : apart (bi_made B).

Lemma die_env_known n f u d : In f (bi_made B) -> In u (bf_units f) -> in_tree (bu_die u) d -> die_env n B (h_of d) = unit_env n f u.
Proof.
  intros Hf Hu T. unfold die_env. rewrite Forall_forall in Hmade. destruct (find (fun f => existsb (holds (h_of d)) (bf_units f)) (bi_made B)) as [g|] eqn:E.
  - apply find_some in E. destruct E as [Hg H]. apply existsb_exists in H. destruct H as (w & Hw & H). apply holds_spec in H. destruct H as (d' & T' & E).
    pose proof (Hapart f g u w d d' Hf Hg Hu Hw T T' (eq_sym E)) as <-. unfold file_env. change (h_of d) with (e_off (d_entry d)). destruct (Hmade f Hf) as (_ & D & _). rewrite (unit_at_spec f u d D Hu T). reflexivity.
  - exfalso. pose proof (find_none _ _ E f Hf) as F. cbn beta in F. assert (existsb (holds (h_of d)) (bf_units f) = true); [|congruence]. apply existsb_exists. exists u. split; [exact Hu|]. apply holds_spec. eauto.
Qed.
(** The methods listed for a type declared at the DIE [d]: the functions declared inside the struct DIEs of the same type
    in every namespace of the same path, over all debug files; the methods on such an object in the impl blocks beside
    it; and the synthetic methods of its layout. (The impl blocks are found when another namespace follows in the unit.) *)
Theorem methods_listed_partial : forall f u d scope path v target,
  In f (bi_made B) -> In u (bf_units f) -> is_rust_cu (d_entry (bu_die u)) = true -> in_tree (bu_die u) d -> enclosed u d scope path -> unit_view f u v ->
  exists n0, forall n k l, (n0 <= n)%nat -> BinaryModel.discover_methods n k B X sig_of (TD target (Some (h_of d))) = Ok l ->
  exists direct traits built, l = concat direct ++ traits ++ built /\ DiscoverSpec.built_ins sig_of target built /\
    Forall2 (declared_methods X (bi_index B) target) (flat_map (scopes path) (bi_files B)) direct /\
    (implemented_here X (bi_index B) target v scope traits \/
     ~ followed u d scope path /\ implemented_here X (bi_index B) target v (bu_die u) traits).
Proof.
  intros f u d scope path v target Hf Hu Ru T En V. pose proof Hmade as Hm. rewrite Forall_forall in Hm. pose proof (Hm f Hf) as W. pose proof W as (_ & D & A).
  destruct (good_view f u v D (A u Hu) Hu V) as [Ge Eu]. destruct (view_spots f u v d scope path W Hu Ru V En) as (r & Fo & Pa & Q). pose proof V as [nv Nv].
  destruct (files_known (bi_files B) Hfiles) as (n1 & K). exists (nv + n1)%nat. intros n k l Hn E. destruct (K n ltac:(lia)) as [F2 Vs]. unfold BinaryModel.discover_methods, ix in E. cbn [locOf layOf] in E.
  rewrite (die_env_known n f u d Hf Hu T), (Nv n ltac:(lia)) in E.
  assert (FS : Forall (fun g => file_of (discovery_file n g) (units_of g)) (bi_files B)) by (clear - F2; induction (bi_files B) as [|g l IH]; [constructor|]; inversion F2; subst; constructor; [assumption | apply IH; assumption]).
  assert (SC : flat_map (fun f0 => map (fun m => (fl_env f0 m, m)) (module_dies f0 path)) (map (discovery_file n) (bi_files B)) = map (fun s => (unit_env n (fst (fst s)) (snd (fst s)), h_of (snd s))) (flat_map (scopes path) (bi_files B))).
  { clear - FS Hfiles. induction FS as [|g l Fg _ IH]; [reflexivity|]. inversion Hfiles as [|? ? Wg Wl]; subst. cbn [map flat_map]. rewrite map_app, IH by exact Wl. rewrite (file_scopes n g path (proj1 (proj2 Wg)) Fg). reflexivity. }
  assert (SV : forall g w x, In (g, w, x) (flat_map (scopes path) (bi_files B)) -> unit_view g w (unit_env n g w) /\ good_env (unit_env n g w) /\ en_unit (unit_env n g w) = bu_die w /\ in_tree (bu_die w) x).
  { intros g w x H. apply in_flat_map in H. destruct H as (g' & Hg & H). apply scopes_in in H. destruct H as (-> & Hw & Tx). pose proof (Vs g' w Hg Hw) as Vw. rewrite Forall_forall in Hfiles. destruct (Hfiles g' Hg) as (_ & Dg & Ag).
    cbn [discovery_file fl_env] in Vw. unfold file_env in Vw. change (h_of (bu_die w)) with (e_off (d_entry (bu_die w))) in Vw. rewrite (unit_at_spec g' w (bu_die w) Dg Hw (in_here _)) in Vw.
    destruct (good_view g' w _ Dg (Ag w Hw) Hw Vw) as [Gw Ew]. auto. }
  assert (Mod : forall f0 m, In f0 (map (discovery_file n) (bi_files B)) -> In m (module_dies f0 path) -> good_env (fl_env f0 m) /\ exists s, node (fl_env f0 m) m s).
  { intros f0 m Hf0 Hm0. assert (I : In (fl_env f0 m, m) (flat_map (fun f1 => map (fun m => (fl_env f1 m, m)) (module_dies f1 path)) (map (discovery_file n) (bi_files B)))) by (apply in_flat_map; exists f0; split; [exact Hf0 | exact (in_map (fun m => (fl_env f0 m, m)) _ _ Hm0)]).
    rewrite SC in I. apply in_map_iff in I. destruct I as ([[g w] x] & Ex & I). cbn [fst snd] in Ex. destruct (SV g w x I) as (_ & Gw & Ew & Tx). apply (f_equal fst) in Ex as E1. apply (f_equal snd) in Ex. cbn [fst snd] in E1, Ex. rewrite <- E1, <- Ex. split; [exact Gw|]. exists x. split; [rewrite Ew; exact Tx | reflexivity]. }
  assert (Dir : forall direct, Forall2 (declared_here X (bi_index B) target) (flat_map (fun f0 => map (fun m => (fl_env f0 m, m)) (module_dies f0 path)) (map (discovery_file n) (bi_files B))) direct -> Forall2 (declared_methods X (bi_index B) target) (flat_map (scopes path) (bi_files B)) direct).
  { intros direct Fd. rewrite SC in Fd. clear - Fd SV. revert direct Fd. induction (flat_map (scopes path) (bi_files B)) as [|[[g w] x] l IH]; intros direct Fd; inversion Fd as [|? ? ? ? P Pl]; subst; constructor.
    - destruct (SV g w x (or_introl eq_refl)) as (Vw & Gw & Ew & Tx). destruct P as (sc & ts & [N1 N2] & Se & De). cbn [fst snd] in *. exists (unit_env n g w), ts. cbn [fst snd]. split; [exact Vw|].
      destruct (lookup_ok (unit_env n g w) (h_of x) x Gw) as [_ L1]. destruct (lookup_ok (unit_env n g w) (h_of x) sc Gw) as [_ L2]. rewrite (L2 (conj N1 N2)) in L1. specialize (L1 (conj (eq_ind_r (fun t => in_tree t x) Tx Ew) eq_refl)). injection L1 as ->. auto.
    - apply IH; [intros g' w' x' H; apply SV; right; exact H | assumption]. }
  destruct Q as [Q | [Q NF]].
  - destruct (methods_of_type_exact_partial X (bi_index B) k (map (discovery_file n) (bi_files B)) sig_of v (h_of d) target l r scope Ge Fo) as (direct & traits & built & El & Bu & Fd & Ft); [rewrite Q; split; [rewrite Eu; apply En | reflexivity] | rewrite Pa; exact Mod | exact E|].
    rewrite Pa in Fd. exists direct, traits, built. split; [exact El|]. split; [exact Bu|]. split; [exact (Dir direct Fd) | left; exact Ft].
  - destruct (methods_of_type_exact_partial X (bi_index B) k (map (discovery_file n) (bi_files B)) sig_of v (h_of d) target l r (bu_die u) Ge Fo) as (direct & traits & built & El & Bu & Fd & Ft); [rewrite Q; split; [rewrite Eu; apply in_here | reflexivity] | rewrite Pa; exact Mod | exact E|].
    rewrite Pa in Fd. exists direct, traits, built. split; [exact El|]. split; [exact Bu|]. split; [exact (Dir direct Fd) | right; split; assumption].
Qed.
End Methods.
Print Assumptions methods_listed_partial.
