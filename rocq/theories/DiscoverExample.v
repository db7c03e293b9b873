(** Concrete files in which the theorems of DiscoverProps and DiscoverFns apply. *)
From Coq Require Import Ascii String List ZArith NArith Lia Bool.
From Verif Require Import Base NumText OMap SymModel SymSpec SymProofs SymProps DieModel DieSpec ModuleModel ModuleSpec TypesModel ParserModel ParserSpec ParserProofs ResolveModel ResolveSpec ResolveProofs ResolveProofs2 ResolveProps ResolveExample FnModel FnSpec FnProofs FnProps SynthModel DiscoverModel DiscoverSpec DiscoverProofs DiscoverProps DiscoverFns.
Import ListNotations.
Open Scope Z_scope.

Definition param (o : Z) (s : string) (ty : Z) : die := nd o Tparameter [nm s; (At_type, AUnitRef ty)] [].
Definition fn (o : Z) (s link : string) (ret : list (attr_name * attr_value)) (ps : list die) : die :=
  nd o Tsubprogram ([nm s; (At_linkage_name, AStr (Some (st link)))] ++ ret) ps.
(** mod m { struct Point { x: u32 } impl Point { fn new() -> Point; fn area(&self, n: u32) -> u64; fn grow(&mut self) }
    impl T for Point { fn fmt(&self); fn make() } }, followed by the given DIEs. *)
Definition point_unit (more : list die) : die := nd 1 Tcompile_unit [(At_language, ALang 28)]
  ([ base 2 "u32" 4; base 3 "u64" 8
   ; nd 10 Tnamespace [nm "m"]
       [ nd 11 Tstructure [nm "Point"; (At_byte_size, AUdata 4); (At_alignment, AUdata 4)]
           [ mem 12 "x" 0 2
           ; fn 13 "new" "m::Point::new::h01" [(At_type, AUnitRef 11)] []
           ; fn 14 "area" "m::Point::area::h02" [(At_type, AUnitRef 3)] [param 15 "self" 40; param 16 "n" 2; nd 17 Tparameter [nm "lost"] []]
           ; fn 18 "grow" "m::Point::grow::h03" [] [param 19 "self" 41] ]
       ; nd 20 Tnamespace [nm "{impl#0}"]
           [ fn 21 "fmt" "<m::Point as T>::fmt::h04" [] [param 22 "self" 40]
           ; fn 23 "make" "<m::Point as T>::make::h05" [(At_type, AUnitRef 11)] [] ] ] ] ++ more ++ [ptr 40 "&m::Point" 11; ptr 41 "&mut m::Point" 11]).
Definition point_parse (p : list str) (s : str) : option layout :=
  if str_eqb s (st "&m::Point") then Some (LReference false any) else if str_eqb s (st "&mut m::Point") then Some (LReference true any) else ex_parse p s.
(** The module ranges and modules of the file, as the code computes them. *)
Definition indexed_file (u : die) (ranges : list mrange) (mods : module) : Prop := module_index (fun _ => 100) 200 [toks u] = Some (ranges, mods).
Definition u1 := point_unit [nd 30 Tnamespace [nm "z"] [base 31 "u8" 1]].
Definition ranges1 : list mrange :=
  [MRange [] 1 1 10; MRange [st "m"] 10 10 20; MRange [st "m"; st "{impl#0}"] 20 20 30; MRange [st "z"] 30 30 40; MRange [] 1 40 101].
Definition mods1 : module := Module [(st "m", Module [(st "{impl#0}", Module [] [20])] [10]); (st "z", Module [] [30])] [].
Example indexed1 : indexed_file u1 ranges1 mods1.
Proof. vm_compute. reflexivity. Qed.
Definition v1 : env := Env u1 ranges1 point_parse.
Definition f1 : dfile := DFile mods1 (fun _ => v1).
Definition raw (s : string) (a : Z) : raw_entry := mk_raw (Some (st s)) a true.
Definition point_files : list (N * list raw_entry) :=
  [(0%N, [raw "m::Point::new::h01" 100; raw "m::Point::area::h02" 200; raw "<m::Point as T>::fmt::h04" 400; raw "k::area" 300])].
Definition point_ix := index_symbol_map plain_externals point_files.
Definition point : layout := LStruct (st "Point") 4 4 [(st "x", 0, TD (LUInt 4) (Some 2))].
Definition brief (m : dmethod) := (dm_name m, dm_full m, dm_sig m, dm_addr m, dm_self m, dm_callable m).
Definition files1 : list dfile := [f1].
Example ex_methods : exists l, methods_for_type plain_externals point_ix 5 files1 (fun _ => []) v1 11 point = Ok l /\ map brief l =
  [ (st "new", st "m::Point::new", st "fn new() -> Point", 100, None, true)
  ; (st "area", st "m::Point::area", st "fn area(&self, n: u32) -> u64", 200, Some Borrowed, true)
  ; (st "grow", st "grow::(direct)", st "fn grow(&mut self)", 0, Some BorrowedMut, false)
  ; (st "fmt", st "<m::Point as T>::fmt (from T>)", st "fn fmt(&self)", 400, Some Borrowed, true) ].
Proof. eexists. split; [vm_compute; reflexivity | vm_compute; reflexivity]. Qed.
Lemma v1_good : good_env v1.
Proof. apply good_by_computation. vm_compute. reflexivity. Qed.
Lemma v1_node h d : lookup v1 h = Ok d -> node v1 h d.
Proof. exact (proj1 (lookup_ok v1 h d v1_good)). Qed.
(** The hypotheses of [methods_of_type_exact_partial] hold here. *)
Example ex_methods_exact : exists scope direct traits l, methods_for_type plain_externals point_ix 5 files1 (fun _ => []) v1 11 point = Ok l /\
  l = concat direct ++ traits ++ [] /\ node v1 10 scope /\ Forall2 (declared_here plain_externals point_ix point) [(v1, 10)] direct /\
  implemented_here plain_externals point_ix point v1 scope traits.
Proof.
  destruct ex_methods as (l & E & _). destruct (lookup v1 10) as [scope| | |] eqn:L; try (vm_compute in L; discriminate). pose proof (v1_node 10 scope L) as N.
  destruct (methods_of_type_exact_partial plain_externals point_ix 5 files1 (fun _ => []) v1 11 point l (MRange [st "m"] 10 10 20) scope v1_good eq_refl N) as (direct & traits & built & E' & Bu & D & T).
  - intros f n [<-|[]] I. change (module_dies f1 [st "m"]) with [10] in I. destruct I as [<-|[]]. split; [exact v1_good | exists scope; exact N].
  - exact E.
  - exists scope, direct, traits, l. split; [exact E|]. split; [destruct Bu as (names & -> & F); assert (Hb : built = []) by (inversion F; reflexivity); rewrite Hb in E'; exact E'|]. split; [exact N|]. split; [exact D | exact T].
Qed.

(** Functions by name: with debug information for one of the two functions called area. *)
Definition point_fidx (file : N) : omap sname (env * Z) :=
  match sname_parse (st "m::Point::area::h02") with Ok n => [(n, (v1, 14))] | _ => [] end.
Definition brief_fn (f : dfunction) := (df_name f, df_full f, df_sig f, df_addr f, df_callable f).
Example ex_functions : exists r, discover_functions 5 point_ix point_fidx (st "area") = Ok r /\ map brief_fn r =
  [ (st "area", st "k::area", st "fn k::area(?)", 300, false)
  ; (st "area", st "m::Point::area", st "fn area(self: &Point, n: u32) -> u64", 200, true) ].
Proof. eexists. split; [vm_compute; reflexivity | vm_compute; reflexivity]. Qed.
Lemma point_index_good : good_index point_fidx.
Proof.
  intros file n v h E. unfold point_fidx in E. destruct (sname_parse _) as [m| | |]; try discriminate. cbn [oget] in E. destruct (cmp_sname n m); try discriminate. injection E as <- <-.
  split; [exact v1_good|]. destruct (lookup v1 14) as [d| | |] eqn:L; try (vm_compute in L; discriminate). exists d. exact (v1_node 14 d L).
Qed.
Lemma area_segment : wf_segment (st "area").
Proof.
  split; [discriminate|]. split; [|split; [reflexivity|]].
  - intros a b E. exfalso. assert (I : In 58%N (st "area")) by (rewrite E; apply in_or_app; right; now left). repeat destruct I as [I|I]; try discriminate; destruct I.
  - split; [reflexivity|]. split.
    + intros c I. repeat destruct I as [<-|I]; try destruct I; repeat split; discriminate.
    + intros a b E. assert (I : In 32%N (st "area")) by (rewrite E; apply in_or_app; right; now left). repeat destruct I as [I|I]; try discriminate; destruct I.
Qed.
Example ex_functions_exact : exists r ys, discover_functions 5 point_ix point_fidx (st "area") = Ok r /\ length ys = 2%nat /\
  Forall2 (fun y d => exists debug, entry_die point_fidx y debug /\ presents debug y d) ys r.
Proof.
  destruct ex_functions as (r & E & B). destruct (discover_functions_exact plain_externals point_files 5 point_fidx [] (st "area") r) as (ys & _ & _ & F).
  - constructor; [exact area_segment | constructor].
  - intros (ds & H & _). discriminate.
  - exact point_index_good.
  - exact E.
  - exists r, ys. split; [exact E|]. split; [|exact F]. assert (Ln : forall A B (R : A -> B -> Prop) l m, Forall2 R l m -> length l = length m) by (induction 1; cbn; congruence). rewrite (Ln _ _ _ _ _ F). rewrite <- (map_length brief_fn), B. reflexivity.
Qed.
Definition all_fidx (file : N) : omap sname (env * Z) :=
  match sname_parse (st "<m::Point as T>::fmt::h04"), sname_parse (st "m::Point::new::h01") with Ok n, Ok n' => [(n, (v1, 21)); (n', (v1, 13))] | _, _ => [] end.
Example ex_all_methods : exists m, discover_all_methods 5 (fun _ _ _ => None) (fun _ => true) point_ix all_fidx = Ok m /\
  map (fun r => (fst r, map (fun d => (dm_full d, dm_self d)) (snd r))) m = [(st "Point", [(st "<m::Point as T>::fmt", Some Borrowed)])].
Proof. eexists. split; [vm_compute; reflexivity | vm_compute; reflexivity]. Qed.

(** Findings. A type declared after the impl blocks of the last module of its unit: they are looked for in the unit's
    root instead, and its trait methods are not listed. *)
Definition late_unit : die := nd 1 Tcompile_unit [(At_language, ALang 28)]
  [ base 2 "u32" 4; ptr 4 "&m::Point" 30
  ; nd 10 Tnamespace [nm "m"]
       [ nd 20 Tnamespace [nm "{impl#0}"] [fn 21 "fmt" "<m::Point as T>::fmt::h04" [] [param 22 "self" 4]]
       ; nd 30 Tstructure [nm "Point"; (At_byte_size, AUdata 4); (At_alignment, AUdata 4)] [mem 31 "x" 0 2] ] ].
Definition late_ranges : list mrange :=
  [MRange [] 1 1 10; MRange [st "m"] 10 10 20; MRange [st "m"; st "{impl#0}"] 20 20 30; MRange [st "m"] 1 30 101].
Definition late_mods : module := Module [(st "m", Module [(st "{impl#0}", Module [] [20])] [10])] [].
Example late_indexed : indexed_file late_unit late_ranges late_mods.
Proof. vm_compute. reflexivity. Qed.
Definition late_env : env := Env late_unit late_ranges point_parse.
Lemma late_good : good_env late_env.
Proof. apply good_by_computation. vm_compute. reflexivity. Qed.
Theorem trait_methods_of_last_module_refuted : exists d b t, node late_env 10 d /\ In b (d_kids d) /\ impl_block b /\ In t (d_kids d) /\ h_of t = 30 /\ same_type late_env point t /\
  (exists f m, In f (functions_in b) /\ describes plain_externals point_ix late_env point f m /\ on_object m) /\
  methods_for_type plain_externals point_ix 5 [DFile late_mods (fun _ => late_env)] (fun _ => []) late_env 30 point = Ok [].
Proof.
  set (b := nd 20 Tnamespace [nm "{impl#0}"] [fn 21 "fmt" "<m::Point as T>::fmt::h04" [] [param 22 "self" 4]]).
  set (t := nd 30 Tstructure [nm "Point"; (At_byte_size, AUdata 4); (At_alignment, AUdata 4)] [mem 31 "x" 0 2]).
  exists (nd 10 Tnamespace [nm "m"] [b; t]), b, t. split; [apply (proj1 (lookup_ok late_env 10 _ late_good)); reflexivity|]. split; [left; reflexivity|].
  split; [split; [reflexivity | exists (st "0"); apply ex_attr; reflexivity]|]. split; [right; left; reflexivity|]. split; [reflexivity|].
  split; [split; [reflexivity | exists (TD point (Some 30)); split; [exists 5%nat; vm_compute; reflexivity | vm_compute; reflexivity]]|]. split; [|vm_compute; reflexivity].
  exists (fn 21 "fmt" "<m::Point as T>::fmt::h04" [] [param 22 "self" 4]). eexists. split; [left; reflexivity|]. split; [apply method_described with (k := 5%nat); vm_compute; reflexivity|]. eexists. reflexivity.
Qed.
(** One function whose nameless or [self] first parameter cannot be resolved: no method of the type is listed. *)
Definition broken_unit : die := nd 1 Tcompile_unit [(At_language, ALang 28)]
  [ base 2 "u32" 4; ptr 4 "&m::Point" 11
  ; nd 10 Tnamespace [nm "m"]
       [ nd 11 Tstructure [nm "Point"; (At_byte_size, AUdata 4); (At_alignment, AUdata 4)]
           [ mem 12 "x" 0 2
           ; fn 14 "area" "m::Point::area::h02" [] [param 15 "self" 4]
           ; fn 16 "odd" "m::Point::odd::h06" [] [param 17 "self" 99] ]
       ; base 20 "u8" 1 ] ].
Definition broken_ranges : list mrange := [MRange [] 1 1 10; MRange [st "m"] 1 10 101].
Definition broken_mods : module := Module [(st "m", Module [] [10])] [].
Example broken_indexed : indexed_file broken_unit broken_ranges broken_mods.
Proof. vm_compute. reflexivity. Qed.
Definition broken_env : env := Env broken_unit broken_ranges point_parse.
Theorem one_bad_method_hides_all_refuted :
  (exists m, describes plain_externals point_ix broken_env point (fn 14 "area" "m::Point::area::h02" [] [param 15 "self" 4]) m /\ on_object m) /\
  exists msg, methods_for_type plain_externals point_ix 5 [DFile broken_mods (fun _ => broken_env)] (fun _ => []) broken_env 11 point = Err msg.
Proof.
  split; [|eexists; vm_compute; reflexivity]. eexists. split; [apply method_described with (k := 5%nat); vm_compute; reflexivity | eexists; reflexivity].
Qed.
Print Assumptions ex_methods_exact.
Print Assumptions ex_functions_exact.
Print Assumptions trait_methods_of_last_module_refuted.
Print Assumptions one_bad_method_hides_all_refuted.
