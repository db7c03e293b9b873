(** Properties of variable locations (C56). *)
From Coq Require Import Ascii String List ZArith Lia Bool.
From Verif Require Import Base LocModel.
Import ListNotations.
Open Scope Z_scope.

(** Specification: a variable at a signed distance from a base, with any number of constants added (what rustc emits for
    a variable in memory, also inside an aggregate). *)
Inductive base_op := Frame (off : Z) | Register (r off : Z).
Definition ops_of (b : base_op) (adds : list Z) : list dop :=
  match b with Frame o => OFbreg o | Register r o => OBreg r o end :: map OPlusUconst adds.
Definition total (adds : list Z) : Z := fold_right Z.add 0 adds.
(** The frame base the function declares is the value of register [r]. *)
Definition frame_in_register (fb : option (list dop)) (r : Z) : Prop := fb = Some [OReg r].

Lemma run_adds ask adds : forall a s, run ask (map OPlusUconst adds) (wrap a :: s) [] = Ok [LocAddress (wrap (a + total adds))].
Proof.
  induction adds as [|n adds IH]; intros a s; cbn [map run].
  - unfold wrap. rewrite Z.mod_mod by (unfold two64; lia). do 3 f_equal. unfold total. simpl. f_equal. lia.
  - unfold wrap at 1 2. rewrite Zplus_mod_idemp_l. fold (wrap (a + n)). rewrite IH. do 3 f_equal. unfold total. simpl. f_equal. lia.
Qed.
(** A stack variable is at the frame base plus its signed offset (plus constants), modulo 2^64. *)
Theorem frame_variable_located_partial c fb r v off adds base :
  frame_in_register fb r -> get_register c r = Ok v ->
  resolve_data_location c fb base (Some (ops_of (Frame off) adds)) = Ok (Some ((v + off + total adds) mod two64)).
Proof.
  unfold frame_in_register. intros -> E. unfold resolve_data_location, ops_of. cbn [run]. unfold frame_base. cbn [run bind]. rewrite E. cbn [bind]. rewrite run_adds. reflexivity.
Qed.
(** A variable relative to a register is at that register's value plus its signed offset. *)
Theorem register_variable_located c fb r v off adds base :
  get_register c r = Ok v ->
  resolve_data_location c fb base (Some (ops_of (Register r off) adds)) = Ok (Some ((v + off + total adds) mod two64)).
Proof. intros E. unfold resolve_data_location, ops_of. cbn [run]. rewrite E. cbn [bind]. rewrite run_adds. reflexivity. Qed.
(** A variable without a location expression is unavailable. *)
Theorem no_location_unavailable c fb base : resolve_data_location c fb base None = Ok None.
Proof. reflexivity. Qed.
(** If a register or the frame base cannot be read, there is no address. *)
Theorem unreadable_register_no_address c fb r off adds base :
  is_ok (get_register c r) = false ->
  forall a, resolve_data_location c fb base (Some (ops_of (Register r off) adds)) <> Ok a /\
            (frame_in_register fb r -> resolve_data_location c fb base (Some (ops_of (Frame off) adds)) <> Ok a).
Proof.
  intros E a. split.
  - unfold resolve_data_location, ops_of. cbn [run]. destruct (get_register c r); [discriminate| | |]; cbn [bind]; discriminate.
  - intros ->. unfold resolve_data_location, ops_of. cbn [run]. unfold frame_base. cbn [run bind]. destruct (get_register c r); [discriminate| | |]; cbn [bind]; discriminate.
Qed.
(** Other forms are not reported as unavailable: a variable in a register, a computed value or one in pieces aborts the
    debugger, *)
Theorem other_locations_panic_refuted c fb base r n : (exists v, get_register c r = Ok v) ->
  (exists m, resolve_data_location c fb base (Some [OReg r]) = Panic m) /\
  (exists m, resolve_data_location c fb base (Some [OLit n; OStackValue]) = Panic m) /\
  (exists m, resolve_data_location c fb base (Some [OReg r; OPiece 4; OReg r; OPiece 4]) = Panic m) /\
  exists m, resolve_data_location c fb base (Some [OCallFrameCfa]) = Panic m.
Proof. intros _. repeat split; eexists; reflexivity. Qed.
(** a frame base relative to a register aborts it too, *)
Theorem register_relative_frame_base_panics_refuted c r o off base :
  exists m, resolve_data_location c (Some [OBreg r o]) base (Some [OFbreg off]) = Panic m.
Proof. eexists. reflexivity. Qed.
(** a static variable gets the address of the function added, *)
Theorem static_location_refuted c fb base a : in_u64 (base + a) -> 0 < base ->
  exists b, resolve_data_location c fb base (Some [OAddr a]) = Ok (Some b) /\ b <> a.
Proof.
  intros U B. exists (base + a). split; [|lia]. unfold resolve_data_location. cbn [run]. unfold add64, u64_ok. unfold in_u64 in U.
  destruct (Z.leb_spec 0 (base + a)), (Z.ltb_spec (base + a) two64); try lia. cbn. unfold wrap. rewrite Z.mod_mod by (unfold two64; lia). rewrite Z.mod_small by lia. reflexivity.
Qed.
(** and the canonical frame address is taken to be the stack pointer, which differs whenever the frame is not empty. *)
Theorem cfa_taken_for_stack_pointer_refuted c sp cfa off base :
  get_stack_pointer c = Ok sp -> in_u64 sp -> in_u64 cfa -> in_u64 (sp + off) -> in_u64 (cfa + off) -> sp <> cfa ->
  resolve_data_location c (Some [OCallFrameCfa]) base (Some [OFbreg off]) <> Ok (Some (cfa + off)).
Proof.
  intros E A B C D N. unfold resolve_data_location. cbn [run]. unfold frame_base. cbn [run]. rewrite E. cbn [bind run]. unfold wrap, in_u64 in *.
  rewrite !(Z.mod_small sp) by lia. rewrite !(Z.mod_small (sp + off)) by lia. intros X. injection X. lia.
Qed.
Example location_example :
  resolve_data_location (Regs (fun r => if r =? 6 then Ok 4096 else Err "no") (Err "no")) (Some [OReg 6]) 100 (Some [OFbreg (-24); OPlusUconst 8]) = Ok (Some 4080).
Proof. apply (frame_variable_located_partial _ _ 6 4096 (-24) [8]); reflexivity. Qed.
Example unreadable_example : is_ok (get_register (Regs (fun _ => Err "no") (Err "no")) 6) = false.
Proof. reflexivity. Qed.
