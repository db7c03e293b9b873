(** C78, C32, C33: strings written as call arguments, created through the client; results of calls used as places. *)
From Coq Require Import Ascii String List ZArith Lia Bool.
From Verif Require Import Base NumText OMap TypesModel ValueModel DataModel DataSpec DataProofs MemExample Utf8 TextProps CreateModel CreateProps
  AccessModel SynthModel LocModel FnModel DiscoverModel ExprModel ProcModel ProcSpec ProcProofs IoDataModel IoDataProofs EvalModel EvalSpec EvalProofs EvalDenote EvalCalls.
Import ListNotations.
Open Scope Z_scope.

(** A client in front of a target with memory: [tgt] is the target in a client state. It answers reads from the memory, performs
    writes, and allocates with [pick]. *)
Definition serves_target {S} (c : client S) (tgt : S -> target) (pick : list (Z * Z) -> Z -> res Z) : Prop := forall s,
  (forall n, match pick (t_blocks (tgt s)) n with
             | Ok a => fst (c s (AllocateMemory n)) = Replied (MemoryAllocated a) /\
                       tgt (snd (c s (AllocateMemory n))) = Target (t_mem (tgt s)) ((a, n) :: t_blocks (tgt s)) (t_writes (tgt s))
             | Err _ => (exists m, fst (c s (AllocateMemory n)) = Replied (ErrorReply m)) /\ tgt (snd (c s (AllocateMemory n))) = tgt s
             | _ => False
             end) /\
  (forall a d, fst (c s (WriteMemory a d)) = Replied MemoryWritten /\
               tgt (snd (c s (WriteMemory a d))) = Target (store (t_mem (tgt s)) a d) (t_blocks (tgt s)) ((a, d) :: t_writes (tgt s))) /\
  (forall a n, match read_bytes (t_mem (tgt s)) a (Z.to_nat n) with
               | Some bs => fst (c s (ReadMemory a n)) = Replied (MemoryData bs)
               | None => exists m, fst (c s (ReadMemory a n)) = Replied (ErrorReply m)
               end /\ tgt (snd (c s (ReadMemory a n))) = tgt s).

Definition alike {A} (x y : res A) : Prop :=
  match x, y with Ok a, Ok b => a = b | Err _, Err _ => True | Panic a, Panic b => a = b | Fuel, Fuel => True | _, _ => False end.

Section Sim.
Context {S : Type} (c : client S) (tgt : S -> target) (pick : list (Z * Z) -> Z -> res Z).
Hypothesis T : serves_target c tgt pick.

Definition sim {A} (p : io A) (m : tm A) : Prop := forall s,
  alike (outcome c p s) (fst (m (tgt s))) /\ tgt (after c p s) = snd (m (tgt s)).
Lemma sim_lift {A} (r : res A) : sim (lift r) (tlift r).
Proof. intros s. split; [|reflexivity]. cbn. destruct r; cbn; auto. Qed.
Lemma sim_ret {A} (a : A) : sim (ret a) (tret a).
Proof. intros s. split; reflexivity. Qed.
Lemma sim_fail {A} m m' : @sim A (fail m) (tfail m').
Proof. intros s. split; [exact I | reflexivity]. Qed.
Lemma sim_bind {A B} (p : io A) (m : tm A) (f : A -> io B) (g : A -> tm B) : sim p m -> (forall a, sim (f a) (g a)) -> sim (ibind p f) (tbind m g).
Proof.
  intros H K s. destruct (H s) as [H1 H2]. unfold outcome, after, tbind, ibind in *. rewrite exec_bind.
  destruct (exec c p s) as [[t a] s1]. cbn [fst snd] in *. destruct (m (tgt s)) as [b T1]. cbn [fst snd] in *. subst T1.
  destruct a as [a|e|e|], b as [b|e'|e'|]; cbn in H1; try contradiction; try (subst; cbn; auto; fail).
  subst b. destruct (K a s1) as [K1 K2]. unfold outcome, after in *. destruct (exec c (f a) s1) as [[t2 x] s2]. cbn [fst snd] in *. auto.
Qed.
Lemma sim_alloc n : sim (ialloc n) (t_alloc pick n).
Proof.
  intros s. destruct (T s) as (H & _). specialize (H n). unfold ialloc, ask, outcome, after, t_alloc. cbn [pbind exec].
  destruct (pick (t_blocks (tgt s)) n) as [a|e|e|]; try contradiction; destruct (c s (AllocateMemory n)) as [x s1]; cbn [fst snd exec] in *.
  - destruct H as [-> H]. cbn. auto.
  - destruct H as [[m ->] H]. cbn. auto.
Qed.
Lemma sim_write a d : sim (iwrite a d) (t_write a d).
Proof.
  intros s. destruct (T s) as (_ & H & _). specialize (H a d). unfold iwrite, ask, outcome, after, t_write. cbn [pbind exec].
  destruct (c s (WriteMemory a d)) as [x s1]; cbn [fst snd exec] in *. destruct H as [-> H]. cbn. auto.
Qed.
Lemma sim_read a n : sim (rdm a n) (t_read a n).
Proof.
  intros s. destruct (T s) as (_ & _ & H). specialize (H a n). unfold rdm, ask, outcome, after, t_read. cbn [pbind exec].
  destruct (c s (ReadMemory a n)) as [x s1]; cbn [fst snd exec] in *. destruct H as [H1 H2].
  destruct (read_bytes (t_mem (tgt s)) a (Z.to_nat n)); cbn [fst snd]; [rewrite H1 | destruct H1 as [m ->]]; cbn; auto.
Qed.
Lemma sim_if {A} (b : bool) (p q : io A) m n : sim p m -> sim q n -> sim (if b then p else q) (if b then m else n).
Proof. destruct b; auto. Qed.
Ltac sim := repeat first [apply sim_if | apply sim_fail | apply sim_ret | apply sim_bind; [first [apply sim_alloc | apply sim_write | apply sim_read | apply sim_lift] | intros ?]].
Lemma sim_create v t : sim (icreate_typed_value v t) (create_typed_value pick v t).
Proof.
  unfold icreate_typed_value, create_typed_value. destruct (layOf t); try apply sim_fail; unfold icreate_str_slice, create_str_slice, icreate_string, create_string; sim.
Qed.
Lemma target_serves s I : serves (shown_env c s I) (t_mem (tgt s)).
Proof.
  intros a bs H. cbn [shown_env rd]. unfold shown_memory. destruct (T s) as (_ & _ & R). destruct (R a (Z.of_nat (List.length bs))) as [R1 _].
  rewrite Nat2Z.id, read_bytes_holds' in R1 by exact H. rewrite R1. reflexivity.
Qed.
End Sim.

(** Creating a value through the client does to the target exactly what C32 and C33 describe. *)
Theorem creation_through_client : forall S (c : client S) tgt pick v t s, serves_target c tgt pick ->
  alike (outcome c (icreate_typed_value v t) s) (fst (create_typed_value pick v t (tgt s))) /\
  tgt (after c (icreate_typed_value v t) s) = snd (create_typed_value pick v t (tgt s)).
Proof. intros S c tgt pick v t s T. exact (sim_create c tgt pick T v t s). Qed.
Print Assumptions creation_through_client.

Lemma create_exec {S} (c : client S) tgt pick v t s a T' : serves_target c tgt pick -> create_typed_value pick v t (tgt s) = (Ok a, T') ->
  exists tr s', exec c (icreate_typed_value v t) s = (tr, Ok a, s') /\ tgt s' = T'.
Proof.
  intros T E. destruct (creation_through_client S c tgt pick v t s T) as [H1 H2]. rewrite E in H1, H2. unfold outcome, after in *.
  destruct (exec c (icreate_typed_value v t) s) as [[tr r] s']. cbn in H1, H2. destruct r; cbn in H1; try contradiction. subst. eauto.
Qed.
Lemma string_arg_exec {S} D (c : client S) v x t sz pc s tr a s' : exec c (icreate_typed_value v t) s = (tr, Ok a, s') -> tsize t = Ok sz ->
  exec c (convert_arg D (EString v) x (Some t) pc) s = (tr, (Ok (MArg (hex a) APointer sz), pc), s').
Proof.
  intros E Sz. cbn [convert_arg]. unfold ebind at 1, eio. rewrite exec_bind, exec_bind, E. cbn. unfold ebind, elift. rewrite Sz. cbn. rewrite !app_nil_r. reflexivity.
Qed.

(** A text written as an argument for a [String] parameter: the argument passed is the address of 24 bytes in the target that
    read as a [String] with that text. *)
Theorem string_argument_passed : forall S (c : client S) tgt pick D I v x lo dpo co it p pc s b1 b2,
  serves_target c tgt pick -> sound_allocator pick -> Utf8.text v -> blen v < two64 -> string_fields lo dpo co -> i_lossy I = utf8_lossy ->
  pick (t_blocks (tgt s)) (blen v) = Ok b1 -> pick ((b1, blen v) :: t_blocks (tgt s)) 24 = Ok b2 ->
  let t := TD (LString lo dpo co it) p in
  exists tr s', exec c (convert_arg D (EString v) x (Some t) pc) s = (tr, (Ok (MArg (hex b2) APointer (Some 24)), pc), s') /\
    (forall fuel, read (shown_env c s' I) (Datatypes.S fuel) b2 t = Ok (VScalar (st "String") (quoted v))) /\
    (forall y, ~ within y b1 (blen v) -> ~ within y b2 24 -> t_mem (tgt s') y = t_mem (tgt s) y).
Proof.
  intros S c tgt pick D I v x lo dpo co it p pc s b1 b2 T A Tx Bl F L P1 P2 t.
  destruct (created_string_reads_back pick v lo dpo co it p (tgt s) b1 b2 A Tx Bl F P1 P2) as (T' & E & R & _ & _ & _ & _ & _ & Fr & _).
  destruct (create_exec c tgt pick v t s b2 T' T E) as (tr & s' & X & <-). exists tr, s'. split; [|split; [|exact Fr]].
  - apply (string_arg_exec D c v x t (Some 24) pc s tr b2 s' X). reflexivity.
  - intros fuel. apply R; [apply (target_serves c tgt pick T) | exact L].
Qed.
Print Assumptions string_argument_passed.
(** The same for a [&str] parameter. *)
Theorem str_argument_passed_partial : forall S (c : client S) tgt pick D I v x dpo lo p pc s b,
  serves_target c tgt pick -> sound_allocator pick -> Utf8.text v -> blen v <= mib -> str_fields dpo lo -> i_lossy I = utf8_lossy ->
  pick (t_blocks (tgt s)) (blen v + 16) = Ok b ->
  let t := TD (LStrSlice dpo lo) p in
  exists tr s', exec c (convert_arg D (EString v) x (Some t) pc) s = (tr, (Ok (MArg (hex (b + blen v)) APointer (Some 16)), pc), s') /\
    (forall fuel, read (shown_env c s' I) (Datatypes.S fuel) (b + blen v) t = Ok (VScalar (st "str") (quoted v))) /\
    (forall y, ~ within y b (blen v + 16) -> t_mem (tgt s') y = t_mem (tgt s) y).
Proof.
  intros S c tgt pick D I v x dpo lo p pc s b T A Tx Bl F L P t.
  destruct (created_str_reads_back_partial pick v dpo lo p (tgt s) b A Tx Bl F P) as (T' & E & R & _ & Fr & _).
  destruct (create_exec c tgt pick v t s (b + blen v) T' T E) as (tr & s' & X & <-). exists tr, s'. split; [|split; [|exact Fr]].
  - apply (string_arg_exec D c v x t (Some 16) pc s tr (b + blen v) s' X). reflexivity.
  - intros fuel. apply R; [apply (target_serves c tgt pick T) | exact L].
Qed.
Print Assumptions str_argument_passed_partial.
(** A text for a parameter of any other type, or for no parameter, is refused before anything is sent. *)
Theorem other_string_arguments_refused : forall S (c : client S) D v x t pc s, (forall u, t = Some u -> match layOf u with LString _ _ _ _ | LStrSlice _ _ => False | _ => True end) ->
  exists m, exec c (convert_arg D (EString v) x t pc) s = ([], (Err m, pc), s).
Proof.
  intros S c D v x t pc s H. destruct t as [u|]; [|eexists; reflexivity]. specialize (H u eq_refl). cbn [convert_arg]. unfold ebind, eio, icreate_typed_value.
  destruct (layOf u); try contradiction; eexists; reflexivity.
Qed.
Print Assumptions other_string_arguments_refused.

(** ** A call whose result is used as a place *)
Theorem method_result_used : forall D b m args pc S (c : client S) s t q pc2 s2,
  exec c (e_ref (evaluate D (EMethodCall b m args)) pc) s = (t, (Ok q, pc2), s2) ->
  exists p t1 pc1 s1 d xs sz z ty t3 s3, exec c (e_ref (evaluate D b) pc) s = (t1, (Ok p, pc1), s1) /\
     synthetic_name (layOf (snd p)) m = false /\ find_method D p m = Ok d /\ return_size (dm_ret d) = Ok sz /\
     exec c (convert_args D (map (fun a => (a, evaluate D a)) args) (dm_params d) pc1) s1 = (t3, (Ok xs, pc2), s3) /\
     c s3 (ExecuteMethod (dm_addr d) (fst p) xs sz) = (Replied (MethodResult (ComplexPtr (fst q) z ty)), s2) /\
     dm_ret d = Some (snd q) /\
     t = t1 ++ t3 ++ [(ExecuteMethod (dm_addr d) (fst p) xs sz, Replied (MethodResult (ComplexPtr (fst q) z ty)))].
Proof.
  intros D b m args pc S c s t q pc2 s2 H. cbn [evaluate e_ref] in H. unfold method_ref in H. apply exec_ebind in H. destruct H as (t1 & p & pc1 & s1 & t2 & E1 & E2 & ->). exists p, t1, pc1, s1.
  destruct (synthetic_name _ _); [discriminate E2|]. apply exec_ebind in E2. destruct E2 as (ta & cr & pca & sa & tb & Ec & Er & ->). unfold call_method in Ec.
  apply exec_ebind in Ec. destruct Ec as (u1 & d & q1 & w1 & v1 & F & Ec & ->). apply exec_elift in F. destruct F as (Fd & -> & -> & ->).
  apply exec_ebind in Ec. destruct Ec as (u2 & xs & q2 & w2 & v2 & Fx & Ec & ->). apply exec_ebind in Ec. destruct Ec as (u3 & sz & q3 & w3 & v3 & F & Ec & ->). apply exec_elift in F. destruct F as (Fs & -> & -> & ->).
  apply exec_ebind in Ec. destruct Ec as (u4 & r & q4 & w4 & v4 & F & Ec & ->). apply exec_eio in F. destruct F as [F ->]. cbn in Ec. injection Ec as <- <- <- <-.
  cbn [fst snd] in Er. apply exec_elift in Er. destruct Er as (Er & -> & -> & ->). cbn in F. destruct (c w2 _) as [x w5] eqn:Cx. injection F as <- F <-.
  destruct x as [[]|]; try discriminate F. injection F as ->. unfold result_ref in Er. destruct r as [v ty|a z ty]; [discriminate|].
  destruct (dm_ret d) as [rt|] eqn:Rt; [|discriminate]. injection Er as <-. exists d, xs, sz, z, ty, u2, w2. cbn [fst snd].
  rewrite Rt. repeat (split; [assumption || reflexivity|]). cbn. now rewrite ?app_nil_r.
Qed.
Print Assumptions method_result_used.
Theorem function_result_used : forall D f args pc S (c : client S) s t q pc2 s2,
  exec c (e_ref (evaluate D (ECall f args)) pc) s = (t, (Ok q, pc2), s2) ->
  exists d xs sz z ty t3 s3, find_function D f (List.length args) = Ok d /\ return_size (df_ret d) = Ok sz /\
     exec c (convert_args D (map (fun a => (a, evaluate D a)) args) (df_params d) pc) s = (t3, (Ok xs, pc2), s3) /\
     c s3 (ExecuteFunction (df_addr d) xs sz) = (Replied (FunctionResult (ComplexPtr (fst q) z ty)), s2) /\
     df_ret d = Some (snd q) /\
     t = t3 ++ [(ExecuteFunction (df_addr d) xs sz, Replied (FunctionResult (ComplexPtr (fst q) z ty)))].
Proof.
  intros D f args pc S c s t q pc2 s2 H. cbn [evaluate e_ref] in H. unfold function_ref in H.
  apply exec_ebind in H. destruct H as (ta & cr & pca & sa & tb & Ec & Er & ->). unfold call_function in Ec.
  apply exec_ebind in Ec. destruct Ec as (u1 & d & q1 & w1 & v1 & F & Ec & ->). apply exec_elift in F. destruct F as (Fd & -> & -> & ->). rewrite map_length in Fd.
  apply exec_ebind in Ec. destruct Ec as (u2 & xs & q2 & w2 & v2 & Fx & Ec & ->). apply exec_ebind in Ec. destruct Ec as (u3 & sz & q3 & w3 & v3 & F & Ec & ->). apply exec_elift in F. destruct F as (Fs & -> & -> & ->).
  apply exec_ebind in Ec. destruct Ec as (u4 & r & q4 & w4 & v4 & F & Ec & ->). apply exec_eio in F. destruct F as [F ->]. cbn in Ec. injection Ec as <- <- <- <-.
  cbn [fst snd] in Er. apply exec_elift in Er. destruct Er as (Er & -> & -> & ->). cbn in F. destruct (c w2 _) as [x w5] eqn:Cx. injection F as <- F <-.
  destruct x as [[]|]; try discriminate F. injection F as ->. unfold result_ref in Er. destruct r as [v ty|a z ty]; [discriminate|].
  destruct (df_ret d) as [rt|] eqn:Rt; [|discriminate]. injection Er as <-. exists d, xs, sz, z, ty, u2, w2. cbn [fst snd].
  rewrite Rt. repeat (split; [assumption || reflexivity|]). cbn. now rewrite ?app_nil_r.
Qed.
Print Assumptions function_result_used.

(** Such a client exists: the target itself, answering. *)
Definition mem_client (pick : list (Z * Z) -> Z -> res Z) : client target := fun s q =>
  match q with
  | AllocateMemory n => match pick (t_blocks s) n with
                        | Ok a => (Replied (MemoryAllocated a), Target (t_mem s) ((a, n) :: t_blocks s) (t_writes s))
                        | _ => (Replied (ErrorReply []), s)
                        end
  | WriteMemory a d => (Replied MemoryWritten, Target (store (t_mem s) a d) (t_blocks s) ((a, d) :: t_writes s))
  | ReadMemory a n => match read_bytes (t_mem s) a (Z.to_nat n) with Some bs => (Replied (MemoryData bs), s) | None => (Replied (ErrorReply []), s) end
  | _ => (Replied (ErrorReply []), s)
  end.
Example mem_client_serves : serves_target (mem_client bump) (fun s => s) bump.
Proof.
  intros s. split; [|split].
  - intros n. unfold mem_client. destruct (bump (t_blocks s) n) as [a|e|e|] eqn:E; cbn; eauto; unfold bump in E; destruct (_ && _) in E; discriminate.
  - intros a d. split; reflexivity.
  - intros a n. unfold mem_client. destruct (read_bytes _ _ _); cbn; eauto.
Qed.
Example string_argument_case : forall D x pc,
  let c := mem_client bump in let t := TD (LString 16 8 0 (TD (LUInt 1) None)) None in let s := Target (fun _ => None) [] [] in
  let '(tr, r, s') := exec c (convert_arg D (EString (st "hi")) x (Some t) pc) s in
  r = (Ok (MArg (st "0x1002") APointer (Some 24)), pc) /\ List.length tr = 7%nat /\ read_bytes (t_mem s') 4096 2 = Some [104; 105].
Proof. intros D x pc. vm_compute. auto. Qed.
