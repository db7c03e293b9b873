(** C59, C60: text, booleans, characters, and values behind pointers. *)
From Coq Require Import Ascii String List ZArith NArith Bool Lia.
From Coq Require Import ZifyBool ZifyNat ZifyN.
From Verif Require Import Base NumText OMap TypesModel TypesSpec TypesProofs ValueModel DataModel DataSpec DataProofs DataProofs2 MemExample Utf8.
Import ListNotations.
Open Scope Z_scope.

Definition quoted (s : str) : str := st """" ++ s ++ st """".

(** C59. A String whose header points at the UTF-8 encoding of a text reads as that text, quoted. *)
Theorem string_read_exactly : forall E m, serves E m -> lossy E = utf8_lossy ->
  forall fuel a lo dpo co it p ptr s, text s ->
  0 <= a + lo < two64 -> 0 <= a + dpo < two64 ->
  holds_uint m (a + lo) 8 (Z.of_nat (List.length (utf8 s))) -> holds_uint m (a + dpo) 8 ptr -> holds m ptr (utf8 s) ->
  read E (S fuel) a (TD (LString lo dpo co it) p) = Ok (VScalar (st "String") (quoted s)).
Proof.
  intros E m HS HL fuel a lo dpo co it p ptr s Ht H1 H2 Hl Hp Hb.
  cbn [read layOf read_std]. rewrite (add64_ok a lo) by lia. cbn [bind].
  destruct (rd_uint E m HS (a + lo) 8 _ ltac:(lia) Hl) as (bs & R & L & V). rewrite R. cbn [bind]. rewrite L. cbn [Z.eqb Pos.eqb bind].
  rewrite (add64_ok a dpo) by lia. cbn [bind]. rewrite (read_address_holds E m HS _ _ Hp). cbn [bind].
  rewrite V, (HS ptr _ Hb). cbn [bind]. rewrite HL, utf8_roundtrip by exact Ht. reflexivity.
Qed.
Print Assumptions string_read_exactly.
Theorem str_read_exactly : forall E m, serves E m -> lossy E = utf8_lossy ->
  forall fuel a dpo lo p ptr s, text s ->
  0 <= a + lo < two64 -> 0 <= a + dpo < two64 ->
  holds_uint m (a + lo) 8 (Z.of_nat (List.length (utf8 s))) -> holds_uint m (a + dpo) 8 ptr -> holds m ptr (utf8 s) ->
  read E (S fuel) a (TD (LStrSlice dpo lo) p) = Ok (VScalar (st "str") (quoted s)).
Proof.
  intros E m HS HL fuel a dpo lo p ptr s Ht H1 H2 Hl Hp Hb.
  cbn [read layOf read_primitive]. rewrite (add64_ok a dpo), (add64_ok a lo) by lia. cbn [bind].
  rewrite (read_address_holds E m HS _ _ Hp). cbn [bind]. rewrite (read_u64_holds E m HS _ _ Hl). cbn [bind].
  rewrite (HS ptr _ Hb). cbn [bind]. rewrite HL, utf8_roundtrip by exact Ht. reflexivity.
Qed.
Print Assumptions str_read_exactly.
(** Two strings that are shown alike hold the same text: the display loses nothing. *)
Theorem string_display_injective : forall s t, quoted s = quoted t -> s = t.
Proof. unfold quoted. intros s t H. apply app_inv_head in H. apply app_inv_tail in H. exact H. Qed.
Print Assumptions string_display_injective.
(** A bool is shown true exactly for a nonzero byte. *)
Theorem bool_read_exactly : forall E m, serves E m -> forall fuel a p b, holds m a [b] ->
  read E (S fuel) a (TD LBool p) = Ok (VScalar (st "bool") (if b =? 0 then st "false" else st "true")).
Proof.
  intros E m HS fuel a p b H. cbn [read layOf read_primitive]. pose proof (HS a [b] H) as R. cbn [List.length] in R.
  change (Z.of_nat 1) with 1 in R. rewrite R. cbn [bind]. unfold bool_text. destruct (b =? 0); reflexivity.
Qed.
Print Assumptions bool_read_exactly.
(** A char is shown exactly when the stored word is a Unicode scalar value, and then as that character. *)
Theorem char_read_exactly : forall E m, serves E m -> forall fuel a p u, holds_uint m a 4 u ->
  (scalar (Z.to_N u) -> read E (S fuel) a (TD LChar p) = Ok (VScalar (st "char") (st "'" ++ [Z.to_N u] ++ st "'"))) /\
  (~ scalar (Z.to_N u) -> is_err (read E (S fuel) a (TD LChar p)) = true).
Proof.
  intros E m HS fuel a p u H. destruct (rd_uint E m HS a 4 u ltac:(lia) H) as (bs & R & L & V).
  destruct H as [Hu _]. cbn [read layOf read_primitive]. rewrite R. cbn [bind]. unfold le_unwrap. rewrite L. cbn [Z.eqb Pos.eqb bind]. rewrite V.
  unfold scalar, valid_char. split; intros S.
  - replace (((0 <=? u) && (u <=? 55295)) || ((57344 <=? u) && (u <=? 1114111))) with true by lia. reflexivity.
  - replace (((0 <=? u) && (u <=? 55295)) || ((57344 <=? u) && (u <=? 1114111))) with false by lia. reflexivity.
Qed.
Print Assumptions char_read_exactly.
Example text_example :
  let m := mem_of [(4096, encode 8 6); (4104, encode 8 8192); (8192, [104; 195; 169; 226; 130; 172])] in
  let E := Env (rd (mem_env m)) (resolve (mem_env m)) utf8_lossy (float_text (mem_env m)) in
  serves E m /\ text [104; 233; 8364]%N /\ holds_uint m 4096 8 6 /\ holds m 8192 (utf8 [104; 233; 8364]%N) /\
  read E 1 4096 (TD (LString 0 8 16 (TD (LUInt 1) None)) None) = Ok (VScalar (st "String") [34; 104; 233; 8364; 34]%N).
Proof.
  cbv zeta. sp; [exact (mem_env_serves _) | unfold text, scalar; repeat constructor; lia | mem | apply holdsb_ok; vm_compute; reflexivity | vm_compute; reflexivity].
Qed.

(** C60. A pointer, reference, Box, Rc, Arc, RefCell or Mutex reads as the value it designates, with only the
    type name changed. *)
Definition contents (v : value) : value :=
  match v with
  | VScalar _ x => VScalar [] x
  | VArray _ l => VArray [] l
  | VStruct _ f => VStruct [] f
  | VTuple _ l => VTuple [] l
  | VMap _ l => VMap [] l
  | VPtr a t => VPtr a t
  end.
Definition same_contents (v w : value) : Prop := contents v = contents w.

(** Where the value behind each kind of pointer lies. *)
Inductive designates (m : memory) (a : Z) : layout -> Z -> tdef -> Prop :=
| des_ptr : forall mu t b, holds_uint m a 8 b -> designates m a (LPointer mu t) b t
| des_ref : forall mu t b, holds_uint m a 8 b -> designates m a (LReference mu t) b t
| des_box : forall t io dpo b, holds_uint m a 8 b -> designates m a (LSmartPtr t io dpo SBox) b t
| des_rc : forall t io dpo v b, v = SRc \/ v = SArc -> 0 <= a + io < two64 -> holds_uint m (a + io) 8 b ->
    0 <= b + dpo < two64 -> designates m a (LSmartPtr t io dpo v) (b + dpo) t
| des_cell : forall t io dpo v, v = SRefCell \/ v = SMutex -> 0 <= a + io < two64 ->
    designates m a (LSmartPtr t io dpo v) (a + io) t.

Theorem pointers_read_their_target_partial : forall E m, serves E m ->
  forall fuel a l p b t v, designates m a l b t -> read E fuel b t = Ok v ->
  exists w, read E (S fuel) a (TD l p) = Ok w /\ same_contents v w.
Proof.
  intros E m HS fuel a l p b t v D R.
  inversion D as [mu t' b' H|mu t' b' H|t' io dpo b' H|t' io dpo v' b' Hv H1 H H2|t' io dpo v' Hv H1]; subst; cbn [read layOf read_primitive read_std].
  - rewrite (read_address_holds E m HS _ _ H). cbn [bind]. rewrite R. cbn [bind]. eexists. split; [reflexivity|]. destruct v; reflexivity.
  - rewrite (read_address_holds E m HS _ _ H). cbn [bind]. rewrite R. cbn [bind]. eexists. split; [reflexivity|]. destruct v; reflexivity.
  - rewrite (read_address_holds E m HS _ _ H). cbn [bind]. rewrite R. cbn [bind]. eexists. split; [reflexivity|]. destruct v; reflexivity.
  - destruct Hv as [-> | ->]; rewrite (add64_ok a io) by lia; cbn [bind]; rewrite (read_address_holds E m HS _ _ H); cbn [bind];
      rewrite (add64_ok b' dpo) by lia; cbn [bind]; rewrite R; cbn [bind]; eexists; (split; [reflexivity|]); destruct v; reflexivity.
  - destruct Hv as [-> | ->]; rewrite (add64_ok a io) by lia; cbn [bind]; rewrite R; cbn [bind]; eexists; (split; [reflexivity|]); destruct v; reflexivity.
Qed.
Print Assumptions pointers_read_their_target_partial.
(** Chains: following any number of pointers ends at the same contents. *)
Inductive chain (m : memory) : nat -> Z -> tdef -> Z -> tdef -> Prop :=
| chain_nil : forall a t, chain m 0 a t a t
| chain_cons : forall n a l p b t c u, designates m a l b t -> chain m n b t c u -> chain m (S n) a (TD l p) c u.
Theorem pointer_chains_read_their_end : forall E m, serves E m ->
  forall n fuel a t b u v, chain m n a t b u -> read E fuel b u = Ok v ->
  exists w, read E (n + fuel) a t = Ok w /\ same_contents v w.
Proof.
  intros E m HS n fuel a t b u v C R. induction C as [a t|n a l p b t c u D C IH].
  - exists v. split; [exact R | reflexivity].
  - destruct (IH R) as (w & Rw & Sw). destruct (pointers_read_their_target_partial E m HS (n + fuel) a l p b t w D Rw) as (x & Rx & Sx).
    exists x. split; [exact Rx|]. unfold same_contents in *. congruence.
Qed.
Print Assumptions pointer_chains_read_their_end.
(** Cell, UnsafeCell and RwLock are not readable: the reader aborts. *)
Theorem cells_unreadable_refuted : forall E fuel a t io dpo v p, v = SCell \/ v = SUnsafeCell \/ v = SRwLock ->
  exists s, read E (S fuel) a (TD (LSmartPtr t io dpo v) p) = Panic s.
Proof. intros E fuel a t io dpo v p [-> | [-> | ->]]; eexists; reflexivity. Qed.
Print Assumptions cells_unreadable_refuted.
Example chain_example :
  let m := mem_of [(4096, encode 8 8192); (8192, encode 8 12288); (12304, [7; 0; 0; 0])] in
  chain m 2 4096 (TD (LReference false (TD (LSmartPtr (TD (LInt 4) None) 0 16 SRc) None)) None) 12304 (TD (LInt 4) None) /\
  read (mem_env m) 3 4096 (TD (LReference false (TD (LSmartPtr (TD (LInt 4) None) 0 16 SRc) None)) None)
    = Ok (VScalar (st "&Rc<i32>") (st "7")).
Proof.
  cbv zeta. split; [|vm_compute; reflexivity].
  eapply chain_cons; [apply des_ref with (b := 8192); mem|].
  eapply chain_cons; [|apply chain_nil].
  change 12304 with (12288 + 16). apply des_rc; [left; reflexivity | unfold two64; lia | mem | unfold two64; lia].
Qed.
