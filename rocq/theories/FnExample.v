(** A concrete unit in which the hypotheses of the theorems on variables and signatures hold. *)
From Coq Require Import Ascii String List ZArith NArith Lia Bool.
From Verif Require Import Base NumText DieModel ModuleModel TypesModel LinesModel ParserModel ParserSpec ParserProofs ResolveModel ResolveSpec ResolveProofs ResolveProofs2 ResolveProps ResolveExample LocModel FnModel FnSpec FnProofs FnProps.
Import ListNotations.
Open Scope Z_scope.

Definition decl (o : Z) (t : tag) (s : string) (ty line : Z) : die :=
  nd o t [nm s; (At_decl_file, AFile 1); (At_decl_line, AUdata line); (At_type, AUnitRef ty)] [].
(** fn area(&self, n: u32, <untyped>) -> u64 { let x: u64; { let y: u32; } <inlined call with a parameter> } *)
Definition fn_die : die := nd 50 Tsubprogram [nm "area"; (At_type, AUnitRef 11)]
  [ decl 51 Tparameter "self" 13 4
  ; decl 52 Tparameter "n" 10 4
  ; decl 54 Tvariable "x" 11 5
  ; nd 55 Tvariable [nm "lost"] []
  ; nd 60 Tblock [] [decl 61 Tvariable "y" 10 7; nd 62 Tblock [] [nd 63 Tvariable [(At_type, AUnitRef 11)] []]]
  ; nd 70 Tinlined [] [decl 71 Tparameter "hidden" 10 20]
  ; decl 80 Tvariable "x" 10 9 ].
Definition fn_unit : die := nd 1 Tcompile_unit []
  [ base 10 "u32" 4; base 11 "u64" 8; struct_ 12 "Point" 8 []; ptr 13 "&Point" 12; fn_die ].
Definition fn_env : env := Env fn_unit [MRange [] 1 1 1000] ex_parse.
Definition fn_files (i : Z) : option path := if i =? 1 then Some [PathModel.CName (st "main.rs")] else None.
Example fn_good : good_env fn_env.
Proof. apply good_by_computation. vm_compute. reflexivity. Qed.
Lemma fn_node h d : lookup fn_env h = Ok d -> node fn_env h d.
Proof. exact (proj1 (lookup_ok fn_env h d fn_good)). Qed.
Lemma fn_resolves h t : shallow 5 fn_env h = Ok t -> resolves fn_env h t.
Proof. intros E. exists 5%nat. exact E. Qed.

Definition u32 := TD (LUInt 4) (Some 10).
Definition u64 := TD (LUInt 8) (Some 11).
Definition self_ty := TD (LReference false (TD (LAlias (st "Point")) (Some 12))) (Some 13).
Definition at_line (l : Z) : option (path * Z) := Some ([PathModel.CName (st "main.rs")], l).
Definition fn_params : list (option var) :=
  [Some (Var (Some (st "self")) self_ty (at_line 4) 51); Some (Var (Some (st "n")) u32 (at_line 4) 52)].
Definition fn_locals : list (option var) :=
  [Some (Var (Some (st "x")) u64 (at_line 5) 54); None; Some (Var (Some (st "y")) u32 (at_line 7) 61);
   Some (Var None u64 None 63); Some (Var (Some (st "x")) u32 (at_line 9) 80)].
Lemma decl_says o t s ty line x : shallow 5 fn_env ty = Ok (va_ty x) -> x = Var (Some (st s)) (va_ty x) (at_line line) o ->
  var_says fn_env fn_files (decl o t s ty line) x.
Proof.
  intros R ->. unfold var_says. cbn [va_name va_ty va_loc va_die at_line]. split; [apply ex_attr; reflexivity|].
  split; [exists ty; split; [apply ex_attr; reflexivity | apply fn_resolves; exact R]|]. split; [|reflexivity].
  exists 1. split; [apply ex_attr; reflexivity|]. split; [reflexivity|]. left. apply ex_attr. reflexivity.
Qed.
Lemma no_attr d a x : get_attr (d_entry d) a = None -> ~ has_attr d a x.
Proof. intros E H. apply (proj2 (get_attr_spec d a x)) in H. congruence. Qed.
Example ex_params : Forall2 (reported fn_env fn_files) (declared Tparameter fn_die) fn_params.
Proof. repeat (apply Forall2_cons; [constructor; apply decl_says; [vm_compute; reflexivity | reflexivity]|]). constructor. Qed.
Example ex_locals : Forall2 (reported fn_env fn_files) (declared Tvariable fn_die) fn_locals.
Proof.
  apply Forall2_cons; [constructor; apply decl_says; [vm_compute; reflexivity | reflexivity]|].
  apply Forall2_cons; [apply rep_untyped; intros t H; revert H; apply no_attr; reflexivity|].
  apply Forall2_cons; [constructor; apply decl_says; [vm_compute; reflexivity | reflexivity]|].
  apply Forall2_cons.
  - constructor. unfold var_says. cbn [va_name va_ty va_loc va_die]. split; [intros s; apply no_attr; reflexivity|].
    split; [exists 11; split; [apply ex_attr; reflexivity | apply fn_resolves; vm_compute; reflexivity]|]. split; [left; intros f; apply no_attr; reflexivity | reflexivity].
  - apply Forall2_cons; [constructor; apply decl_says; [vm_compute; reflexivity | reflexivity]|]. constructor.
Qed.
Example ex_variables : exists k0, forall k, (k0 <= k)%nat -> exists n0, forall n, (n0 <= n)%nat ->
  resolve_function_variables fn_files n k 3 fn_env 50 = Ok (somes fn_params, somes fn_locals).
Proof. exact (function_variables_exact fn_env fn_files 50 fn_die 3 _ _ fn_good (fn_node 50 fn_die eq_refl) ex_params ex_locals). Qed.
Example ex_stack_variable : exists k0, forall k, (k0 <= k)%nat -> exists n0, forall n, (n0 <= n)%nat ->
  (vars <- resolve_function_variables fn_files n k 3 fn_env 50 ;;
   variable_at k fn_env (Regs (fun r => Ok (r * 1000)) (Ok 0)) (Some [OReg 7]) 0 (fun o => Some [OFbreg (- o)]) vars (st "y")) =
  Ok (Some (VInfo (st "y") (Some ((7000 + -61) mod two64)) u32)).
Proof.
  refine (stack_variable_found fn_env fn_files 50 fn_die 3 _ _ (Var (Some (st "y")) u32 (at_line 7) 61) u32 (Regs (fun r => Ok (r * 1000)) (Ok 0)) (Some [OReg 7]) 7 7000 (-61) 0 (fun o => Some [OFbreg (- o)]) fn_good (fn_node 50 fn_die eq_refl) ex_params ex_locals _ _ eq_refl eq_refl eq_refl _).
  - exists (firstn 3 (somes fn_params ++ somes fn_locals)), (skipn 4 (somes fn_params ++ somes fn_locals)). split; [reflexivity|]. split; [reflexivity|]. repeat constructor; discriminate.
  - reflexivity.
Qed.
Example ex_signature : exists k0, forall k, (k0 <= k)%nat -> exists s, resolve_function_signature fn_files k fn_env 50 = Ok s /\
  sg_name s = st "area" /\ sg_params s = somes fn_params /\ sg_ret s = Some u64 /\ (forall kind, sg_self s = Some kind <-> takes (somes fn_params) kind).
Proof.
  apply (signature_exact fn_env fn_files 50 fn_die (st "area") (somes fn_params) (Some u64) fn_good (fn_node 50 fn_die eq_refl)).
  - apply ex_attr. reflexivity.
  - exists 11. split; [apply ex_attr; reflexivity | apply fn_resolves; vm_compute; reflexivity].
  - repeat (apply Forall2_cons; [apply decl_says; [vm_compute; reflexivity | reflexivity]|]). constructor.
Qed.
Example ex_takes : takes (somes fn_params) Borrowed.
Proof. eexists _, _. split; [reflexivity|]. split; [left; reflexivity | eexists; reflexivity]. Qed.
