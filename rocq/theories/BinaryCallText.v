(** C114: texts written as arguments of calls, from the stored files and the stopped target to the call LLDB runs and the printed text. *)
From Coq Require Import Ascii String List ZArith NArith Lia Bool Arith Sorted Permutation.
From Coq Require Import ZifyBool ZifyNat ZifyN.
From Verif Require Import Base NumText OMap AddrModel AddrSpec SymModel SymSpec SymProofs SymProps PathModel LinesModel LinesProps DieModel DieSpec ModuleModel ParserSpec
  TypesModel ValueModel DataModel DataSpec DataProofs ParserModel ResolveModel ResolveSpec ResolveProps LocModel FnModel FnSpec FnProps SourceModel LoadModel LoadProps ParserProofs DiscoverModel DiscoverSpec DiscoverProofs DiscoverProps DiscoverFns CreateModel CreateProps BinaryModel BinarySpec BinaryProofs BinaryProps BinaryVars BinaryTypes BinaryDiscover BinaryMethods.
From Verif Require Import AccessModel ExprModel ProcModel ProcSpec IoDataModel EvalModel EvalSpec ServerModel ServerSpec ServerProofs ServerProps JsonModel WireModel WireProps ClientModel ClientSpec ClientProps ClientEvents
  SessionModel SessionSpec SessionProofs SessionProps RdProps ProcProofs FormatSpec FormatProps BinarySession BinarySpec AccessProps EvalProps PlainSpec PlainProofs BinaryEval BinaryCall.
From Verif Require Import DataModel ParserModel ValueModel DataSpec Utf8.
Import ListNotations.
Open Scope Z_scope.

(** ** Specification *)
(** The program stays where it stopped. *)
Record same_stop {St} (L : debugger St) (s s1 : St) : Prop := SameStop {
  ss_target : l_target L s1 = l_target L s; ss_process : l_process L s1 = l_process L s; ss_thread : l_thread L s1 = l_thread L s; ss_frame : l_frame L s1 = l_frame L s;
  ss_pc : l_pc L s1 = l_pc L s; ss_registers : l_registers L s1 = l_registers L s }.
(** A target with a heap: [mem] is the memory in use, and [room s n] says that [n] more bytes can be allocated. Evaluating a [malloc] in
    the target takes a block that was not in use and changes nothing else; writing to memory in use changes those bytes only. *)
Record has_heap {St} (L : debugger St) (mem : St -> memory) (room : St -> Z -> Prop) : Prop := HasHeap {
  hh_served : forall s, served (l_memory L s) (mem s);
  hh_malloc : forall s n k, 0 < n -> 0 <= k -> room s (n + k) -> exists x s1, l_eval L s (st "(void*)malloc(" ++ dec n ++ st ")") = (x, s1) /\ v_valid x = true /\ v_failed x = false /\
    0 < v_unsigned x /\ v_unsigned x + n <= two64 /\ same_stop L s s1 /\ room s1 k /\
    forall y, (within y (v_unsigned x) n -> mem s y = None /\ mem s1 y <> None) /\ (~ within y (v_unsigned x) n -> mem s1 y = mem s y);
  hh_write : forall s a d, d <> [] -> Forall byte d -> (forall y, within y a (Z.of_nat (List.length d)) -> mem s y <> None) -> exists s1, l_write L s a d = (true, s1) /\ same_stop L s s1 /\
    (forall k, room s k -> room s1 k) /\ forall y, mem s1 y = store (mem s) a d y }.
(** The text [x] is in the memory, as a value of the type [ty] at the address [a]: the word for its data points to its bytes, and the words
    for its length, and its capacity where the type has one, hold their number. *)
Definition text_at (M : memory) (ty : tdef) (x : str) (a : Z) : Prop :=
  match layOf ty with
  | LString lo dpo co _ => exists c, holds_uint M (a + dpo) 8 c /\ holds M c (utf8 x) /\ holds_uint M (a + lo) 8 (blen x) /\ holds_uint M (a + co) 8 (blen x)
  | LStrSlice dpo lo => exists c, holds_uint M (a + dpo) 8 c /\ holds M c (utf8 x) /\ holds_uint M (a + lo) 8 (blen x)
  | _ => False
  end.
(** A text can be passed as a [String] or a [&str], the latter up to 1 MiB; it takes that many bytes. *)
Inductive text_param (x : str) : tdef -> Z -> Prop :=
| tp_string lo dpo co it p : string_fields lo dpo co -> text_param x (TD (LString lo dpo co it) p) (blen x + 24)
| tp_str dpo lo p : str_fields dpo lo -> blen x <= mib -> text_param x (TD (LStrSlice dpo lo) p) (blen x + 16).
Section Sent.
Variables (v : env) (u : bunit) (vars : list var) (b : Z) (floats : Z -> list Z -> str) (m : memory).
(** The arguments can be passed for the parameters, and their texts take [n] bytes. *)
Inductive sendable : list expr -> list (option str * tdef) -> Z -> Prop :=
| sd_nil ps : sendable [] ps 0
| sd_plain e c es ps n : passes v u vars b floats m e c -> sendable es (tl ps) n -> sendable (e :: es) ps n
| sd_text x ty k es name ps n : text x -> x <> [] -> text_param x ty k -> sendable es ps n -> sendable (EString x :: es) ((name, ty) :: ps) (k + n).
(** What is passed: a number or a place as above, a text as the value of the type of the parameter that is in the memory [M]. *)
Inductive sent (M : memory) : list expr -> list (option str * tdef) -> list ((str * str) * list Z) -> Prop :=
| se_nil ps : sent M [] ps []
| se_plain e c es ps cs : passes v u vars b floats m e c -> sent M es (tl ps) cs -> sent M (e :: es) ps (c :: cs)
| se_text x ty a size es name ps cs : text_at M ty x a -> tsize ty = Ok (Some size) -> sent M es ps cs ->
    sent M (EString x :: es) ((name, ty) :: ps) (((st "struct Arg_" ++ dec size, st "*((struct Arg_" ++ dec size ++ st "*)" ++ hex a ++ st ")"), [size]) :: cs).
End Sent.
(** Everything in memory stays, and the program stays where it stopped. *)
Definition carries {St} (L : debugger St) (mem : St -> memory) (s s1 : St) : Prop := same_stop L s s1 /\ forall y c, mem s y = Some c -> mem s1 y = Some c.

(** ** Proofs *)
Lemma same_stop_refl {St} (L : debugger St) s : same_stop L s s.
Proof. constructor; reflexivity. Qed.
Lemma same_stop_trans {St} (L : debugger St) s1 s2 s3 : same_stop L s1 s2 -> same_stop L s2 s3 -> same_stop L s1 s3.
Proof. intros [A1 A2 A3 A4 A5 A6] [B1 B2 B3 B4 B5 B6]. constructor; congruence. Qed.
Lemma carries_refl {St} (L : debugger St) mem s : carries L mem s s.
Proof. split; [apply same_stop_refl | auto]. Qed.
Lemma carries_trans {St} (L : debugger St) mem s1 s2 s3 : carries L mem s1 s2 -> carries L mem s2 s3 -> carries L mem s1 s3.
Proof. intros [A1 A2] [B1 B2]. split; [exact (same_stop_trans L _ _ _ A1 B1) | auto]. Qed.
Lemma holds_carried (M M' : memory) a bs : (forall y c, M y = Some c -> M' y = Some c) -> holds M a bs -> holds M' a bs.
Proof. intros H [H1 H2]. split; [exact H1|]. intros i c Hi. apply H, H2, Hi. Qed.
Lemma uint_carried (M M' : memory) a n w : (forall y c, M y = Some c -> M' y = Some c) -> holds_uint M a n w -> holds_uint M' a n w.
Proof. intros H [H1 H2]. split; [exact H1 | exact (holds_carried _ _ _ _ H H2)]. Qed.
Lemma text_carried (M M' : memory) ty x a : (forall y c, M y = Some c -> M' y = Some c) -> text_at M ty x a -> text_at M' ty x a.
Proof.
  intros H. pose proof (fun b n w => uint_carried M M' b n w H) as Hu. pose proof (fun b bs => holds_carried M M' b bs H) as Hh. unfold text_at. destruct (layOf ty); try tauto.
  - intros (c & Q1 & Q2 & Q3). exists c. auto.
  - intros (c & Q1 & Q2 & Q3 & Q4). exists c. auto 6.
Qed.
Lemma sent_carried v u vars b floats m (M M' : memory) es ps cs : (forall y c, M y = Some c -> M' y = Some c) -> sent v u vars b floats m M es ps cs -> sent v u vars b floats m M' es ps cs.
Proof.
  intros H. induction 1 as [ps | e c es ps cs P _ IH | x ty a size es name ps cs T Sz _ IH]; [apply se_nil | apply se_plain; assumption | apply se_text; [exact (text_carried _ _ _ _ _ H T) | exact Sz | exact IH]].
Qed.

(** Requests that change the target. *)
Definition igoes {St} (L : debugger St) {A} (p : io A) (s : St) (a : A) (s1 : St) : Prop :=
  exists t, exec (python_client L) p s = (t, Ok a, s1) /\ Forall (fun x => request_fits (fst x)) t.
Lemma igoes_bind {St} (L : debugger St) {A B} (p : io A) (f : A -> io B) s a s1 b s2 : igoes L p s a s1 -> igoes L (f a) s1 b s2 -> igoes L (ibind p f) s b s2.
Proof. intros (t1 & E1 & F1) (t2 & E2 & F2). exists (t1 ++ t2). split; [|apply Forall_app; split; assumption]. unfold ibind. rewrite exec_bind, E1, E2. reflexivity. Qed.
Lemma igoes_lift {St} (L : debugger St) {A} r s (a : A) : r = Ok a -> igoes L (lift r) s a s.
Proof. intros ->. exists []. split; [reflexivity | constructor]. Qed.
Lemma igoes_ret {St} (L : debugger St) {A} s (a : A) : igoes L (ret a) s a s.
Proof. exists []. split; [reflexivity | constructor]. Qed.
Lemma igoes_ask {St} (L : debugger St) {A} (q : request) (r : reply) (g : answer -> res A) s a s1 : request_fits q -> l_target L s = true -> l_process L s = true -> performs L s q r s1 -> g (Replied r) = Ok a ->
  igoes L (pbind (ask q) (fun x => Ret (g x))) s a s1.
Proof.
  intros Q T P H G. exists [(q, Replied r)]. split; [|apply Forall_cons; [exact Q | apply Forall_nil]]. unfold ask. cbn [pbind exec]. rewrite (events_are_not_refused St L s q r s1 Q T P H). cbn [exec]. rewrite G. reflexivity.
Qed.
Lemma goes_io {St} (L : debugger St) {A} (p : io A) pc s (a : A) s1 : igoes L p s a s1 -> goes L (eio p) pc s a pc s1.
Proof. intros (t & E & F). exists t. split; [|exact F]. unfold eio. rewrite exec_bind, E. cbn [exec]. rewrite app_nil_r. reflexivity. Qed.

Section Heap.
Context {St : Type} (L : debugger St) (mem : St -> memory) (room : St -> Z -> Prop).
Hypothesis H : has_heap L mem room.
Definition live (s : St) : Prop := l_target L s = true /\ l_process L s = true.
Lemma live_same s s1 : same_stop L s s1 -> live s -> live s1.
Proof. intros [A1 A2 _ _ _ _] [B1 B2]. split; congruence. Qed.
(** The block is in use. *)
Definition owns (s : St) (a n : Z) : Prop := forall y, within y a n -> mem s y <> None.
(** The block was not in use. *)
Definition fresh (s : St) (a n : Z) : Prop := forall y, within y a n -> mem s y = None.
Lemma owns_within s a n b k : owns s a n -> a <= b -> b + k <= a + n -> owns s b k.
Proof. intros O H1 H2 y Hy. apply O. unfold within in *. lia. Qed.
Lemma fresh_before s0 s a n : carries L mem s0 s -> fresh s a n -> fresh s0 a n.
Proof. intros [_ C] F y Hy. destruct (mem s0 y) as [c|] eqn:E; [|reflexivity]. specialize (F y Hy). rewrite (C y c E) in F. discriminate. Qed.
Lemma taken s n k : live s -> 0 < n -> 0 <= k -> room s (n + k) -> exists a s1, igoes L (ialloc n) s a s1 /\ 0 < a /\ a + n <= two64 /\ carries L mem s s1 /\ room s1 k /\ fresh s a n /\ owns s1 a n /\
  (forall y, mem s y <> None -> mem s1 y <> None).
Proof.
  intros [T P] Hn Hk R. destruct (hh_malloc L mem room H s n k Hn Hk R) as (x & s1 & E & V & F & A1 & A2 & S & R1 & M). exists (v_unsigned x), s1.
  assert (C : forall y c, mem s y = Some c -> mem s1 y = Some c).
  { intros y c Q. destruct (M y) as [M1 M2]. destruct (Z_le_dec (v_unsigned x) y); [destruct (Z_lt_dec y (v_unsigned x + n))|].
    - destruct (M1 ltac:(split; assumption)) as [M3 _]. congruence.
    - rewrite M2; [exact Q | unfold within; lia].
    - rewrite M2; [exact Q | unfold within; lia]. }
  split; [|split; [exact A1|split; [exact A2|split; [split; assumption|split; [exact R1|split; [|split]]]]]].
  - unfold ialloc. apply (igoes_ask L _ (MemoryAllocated (v_unsigned x))); [split; lia | exact T | exact P | apply (p_allocate L s n x s1 E V F) | reflexivity].
  - intros y Hy. exact (proj1 (proj1 (M y) Hy)).
  - intros y Hy. exact (proj2 (proj1 (M y) Hy)).
  - intros y Hy. destruct (mem s y) as [c|] eqn:E'; [rewrite (C y c E'); discriminate | congruence].
Qed.
Lemma wrote s0 s a d b n : live s -> d <> [] -> Forall byte d -> carries L mem s0 s -> fresh s0 b n -> owns s b n -> b <= a -> a + Z.of_nat (List.length d) <= b + n -> 0 <= b -> b + n <= two64 ->
  exists s1, igoes L (iwrite a d) s tt s1 /\ carries L mem s0 s1 /\ live s1 /\ (forall k, room s k -> room s1 k) /\ (forall y, mem s y <> None -> mem s1 y <> None) /\ (forall y, mem s1 y = store (mem s) a d y).
Proof.
  intros [T P] Nd Bd [C1 C2] F O H1 H2 H3 H4. destruct (hh_write L mem room H s a d Nd Bd) as (s1 & E & S & R & M).
  { intros y Hy. apply O. unfold within in *. lia. }
  exists s1. assert (Ld : 0 < Z.of_nat (List.length d)) by (destruct d; [congruence | cbn [List.length]; lia]).
  split; [|split; [split; [exact (same_stop_trans L _ _ _ C1 S)|]|split; [exact (live_same _ _ S (conj T P))|split; [exact R|split; [|exact M]]]]].
  - unfold iwrite. apply (igoes_ask L _ MemoryWritten); [split; [split; lia | exact Bd] | exact T | exact P | apply (p_write L s a d s1 E) | reflexivity].
  - intros y c Q. rewrite M, store_out; [exact (C2 y c Q)|]. intros Hy. specialize (F y ltac:(unfold within in *; lia)). congruence.
  - intros y Hy. rewrite M. unfold store. destruct ((a <=? y) && (y <? a + Z.of_nat (List.length d))) eqn:Eb; [|exact Hy]. apply nth_error_Some. lia.
Qed.
Lemma was_read s a bs : live s -> u64 a -> bs <> [] -> Z.of_nat (List.length bs) < two64 -> holds (mem s) a bs -> igoes L (rdm a (Z.of_nat (List.length bs))) s bs s.
Proof.
  intros [T P] Ua Nb Hl Hh. unfold rdm. apply (igoes_ask L _ (MemoryData bs)); [split; [exact Ua | split; lia] | exact T | exact P | apply p_memory; apply (hh_served L mem room H s); assumption | reflexivity].
Qed.
Lemma holds_ext (M M' : memory) a bs : (forall y, M' y = M y) -> holds M a bs -> holds M' a bs.
Proof. intros E [H1 H2]. split; [exact H1|]. intros i c Hi. rewrite E. apply H2, Hi. Qed.
Lemma uint_ext (M M' : memory) a n w : (forall y, M' y = M y) -> holds_uint M a n w -> holds_uint M' a n w.
Proof. intros E [H1 H2]. split; [exact H1 | exact (holds_ext _ _ _ _ E H2)]. Qed.
Lemma encode_not_nil w : encode 8 w <> [].
Proof. intros E. apply (f_equal (@List.length Z)) in E. rewrite encode_length in E. discriminate. Qed.
Lemma utf8_not_nil x : x <> [] -> utf8 x <> [].
Proof. destruct x as [|c x]; [congruence|]. intros _. cbn [utf8 flat_map]. unfold utf8_char. repeat match goal with |- context [if ?q then _ else _] => destruct q end; discriminate. Qed.
(** A [String]. *)
Lemma string_made s x lo dpo co it p k : live s -> text x -> x <> [] -> string_fields lo dpo co -> 0 <= k -> room s (blen x + 24 + k) ->
  exists a s1, igoes L (icreate_typed_value x (TD (LString lo dpo co it) p)) s a s1 /\ u64 a /\ carries L mem s s1 /\ room s1 k /\ text_at (mem s1) (TD (LString lo dpo co it) p) x a.
Proof.
  intros Lv Tx Nx (F1 & F2 & F3 & F4 & F5 & F6) Hk R. assert (Np : 0 < blen x) by (pose proof (utf8_not_nil x Nx); unfold blen; destruct (utf8 x); [congruence | cbn [List.length]; lia]).
  replace (blen x + 24 + k) with (blen x + (24 + k)) in R by lia.
  destruct (taken s (blen x) (24 + k) Lv Np ltac:(lia) R) as (b1 & s1 & G1 & A1 & A2 & C1 & R1 & Fr1 & O1 & _). pose proof (live_same s s1 (proj1 C1) Lv) as L1.
  destruct (wrote s s1 b1 (utf8 x) b1 (blen x) L1 (utf8_not_nil x Nx) (utf8_bytes x Tx) C1 Fr1 O1 ltac:(lia) ltac:(unfold blen; lia) ltac:(lia) A2) as (s2 & G2 & C2 & L2 & R2 & K2 & M2).
  assert (H2 : holds (mem s2) b1 (utf8 x)) by (apply (holds_ext _ _ _ _ M2), holds_store, utf8_bytes, Tx).
  destruct (taken s2 24 k L2 ltac:(lia) Hk (R2 _ R1)) as (b2 & s3 & G3 & B1 & B2 & C3 & R3 & Fr3 & O3 & K3). pose proof (live_same s2 s3 (proj1 C3) L2) as L3.
  assert (Ap : forall y, within y b1 (blen x) -> within y b2 24 -> False).
  { intros y Y1 Y2. apply (K2 y (O1 y Y1)). exact (Fr3 y Y2). }
  pose proof (carries_trans L mem _ _ _ C2 C3) as C3'. pose proof (fresh_before s s2 b2 24 C2 Fr3) as Fr.
  assert (H3 : holds (mem s3) b1 (utf8 x)) by exact (holds_carried _ _ _ _ (proj2 C3) H2).
  destruct (wrote s s3 b2 (repeat 0 24) b2 24 L3 ltac:(discriminate) ltac:(repeat (apply Forall_cons; [unfold byte; lia|]); apply Forall_nil) C3' Fr O3 ltac:(lia) ltac:(rewrite repeat_length; lia) ltac:(lia) B2) as (s4 & G4 & C4 & L4 & R4 & K4 & M4).
  assert (O4 : owns s4 b2 24) by (intros y Hy; apply K4, O3, Hy).
  destruct (wrote s s4 (b2 + lo) (encode 8 (blen x)) b2 24 L4 (encode_not_nil _) (encode_bytes _ _) C4 Fr O4 ltac:(lia) ltac:(rewrite encode_length; lia) ltac:(lia) B2) as (s5 & G5 & C5 & L5 & R5 & K5 & M5).
  assert (O5 : owns s5 b2 24) by (intros y Hy; apply K5, O4, Hy).
  destruct (wrote s s5 (b2 + dpo) (encode 8 b1) b2 24 L5 (encode_not_nil _) (encode_bytes _ _) C5 Fr O5 ltac:(lia) ltac:(rewrite encode_length; lia) ltac:(lia) B2) as (s6 & G6 & C6 & L6 & R6 & K6 & M6).
  assert (O6 : owns s6 b2 24) by (intros y Hy; apply K6, O5, Hy).
  destruct (wrote s s6 (b2 + co) (encode 8 (blen x)) b2 24 L6 (encode_not_nil _) (encode_bytes _ _) C6 Fr O6 ltac:(lia) ltac:(rewrite encode_length; lia) ltac:(lia) B2) as (s7 & G7 & C7 & L7 & R7 & K7 & M7).
  exists b2, s7. split; [|split; [split; lia|split; [exact C7|split; [auto|]]]].
  - unfold icreate_typed_value. cbn [layOf]. unfold icreate_string. cbv zeta. fold (blen x).
    eapply igoes_bind; [exact G1|]. eapply igoes_bind; [exact G2|]. eapply igoes_bind; [apply igoes_lift; reflexivity|]. eapply igoes_bind; [exact G3|]. eapply igoes_bind; [exact G4|].
    eapply igoes_bind; [apply igoes_lift; apply DataProofs.add64_ok; unfold two64 in *; lia|]. eapply igoes_bind; [exact G5|].
    eapply igoes_bind; [apply igoes_lift; apply DataProofs.add64_ok; unfold two64 in *; lia|]. eapply igoes_bind; [exact G6|].
    eapply igoes_bind; [apply igoes_lift; apply DataProofs.add64_ok; unfold two64 in *; lia|]. eapply igoes_bind; [exact G7|]. apply igoes_ret.
  - assert (Fw : forall (M : memory) o w, 0 <= o <= 16 -> holds M b1 (utf8 x) -> holds (store M (b2 + o) (encode 8 w)) b1 (utf8 x)).
    { intros M o w Ho Hh. apply holds_frame; [exact Hh|]. rewrite encode_length. fold (blen x). intros y [Y1 Y2]. apply (Ap y Y2). unfold within in *. lia. }
    assert (Bx : 0 <= blen x < two64) by lia. assert (Bb : 0 <= b1 < two64) by lia.
    assert (H4 : holds (mem s4) b1 (utf8 x)).
    { apply (holds_ext _ _ _ _ M4). apply holds_frame; [exact H3|]. rewrite repeat_length. fold (blen x). intros y [Y1 Y2]. exact (Ap y Y2 Y1). }
    assert (H5 : holds (mem s5) b1 (utf8 x)) by (apply (holds_ext _ _ _ _ M5); apply Fw; assumption).
    assert (H6 : holds (mem s6) b1 (utf8 x)) by (apply (holds_ext _ _ _ _ M6); apply Fw; assumption).
    assert (H7 : holds (mem s7) b1 (utf8 x)) by (apply (holds_ext _ _ _ _ M7); apply Fw; assumption).
    unfold text_at. cbn [layOf]. exists b1. split; [|split; [exact H7|split]].
    + apply (uint_ext _ _ _ _ _ M7). apply uint_frame; [|rewrite encode_length; apply apart_le; lia]. apply (uint_ext _ _ _ _ _ M6). apply uint_store. exact Bb.
    + apply (uint_ext _ _ _ _ _ M7). apply uint_frame; [|rewrite encode_length; apply apart_le; lia]. apply (uint_ext _ _ _ _ _ M6). apply uint_frame; [|rewrite encode_length; apply apart_le; lia]. apply (uint_ext _ _ _ _ _ M5). apply uint_store. exact Bx.
    + apply (uint_ext _ _ _ _ _ M7). apply uint_store. exact Bx.
Qed.
(** A [&str]. *)
Lemma str_made s x dpo lo p k : live s -> text x -> x <> [] -> str_fields dpo lo -> blen x <= mib -> 0 <= k -> room s (blen x + 16 + k) ->
  exists a s1, igoes L (icreate_typed_value x (TD (LStrSlice dpo lo) p)) s a s1 /\ u64 a /\ carries L mem s s1 /\ room s1 k /\ text_at (mem s1) (TD (LStrSlice dpo lo) p) x a.
Proof.
  intros Lv Tx Nx F Bm Hk R. assert (Np : 0 < blen x) by (pose proof (utf8_not_nil x Nx); unfold blen; destruct (utf8 x); [congruence | cbn [List.length]; lia]).
  assert (Ff : 0 <= dpo <= 8 /\ 0 <= lo <= 8 /\ 8 <= Z.abs (dpo - lo)) by (unfold str_fields in F; lia). clear F. destruct Ff as (F1 & F2 & F3). unfold mib in Bm.
  set (w := blen x + 16) in *. assert (Hw : 0 < w) by (unfold w; lia).
  destruct (taken s w k Lv Hw Hk R) as (b & s1 & G1 & A1 & A2 & C1 & R1 & Fr & O1 & _). pose proof (live_same s s1 (proj1 C1) Lv) as L1.
  destruct (wrote s s1 b (utf8 x) b w L1 (utf8_not_nil x Nx) (utf8_bytes x Tx) C1 Fr O1 ltac:(lia) ltac:(fold (blen x); lia) ltac:(lia) A2) as (s2 & G2 & C2 & L2 & R2 & K2 & M2).
  assert (O2 : owns s2 b w) by (intros y Hy; apply K2, O1, Hy).
  destruct (wrote s s2 (b + blen x + dpo) (encode 8 b) b w L2 (encode_not_nil _) (encode_bytes _ _) C2 Fr O2 ltac:(lia) ltac:(rewrite encode_length; lia) ltac:(lia) A2) as (s3 & G3 & C3 & L3 & R3 & K3 & M3).
  assert (O3 : owns s3 b w) by (intros y Hy; apply K3, O2, Hy).
  destruct (wrote s s3 (b + blen x + lo) (encode 8 (blen x)) b w L3 (encode_not_nil _) (encode_bytes _ _) C3 Fr O3 ltac:(lia) ltac:(rewrite encode_length; lia) ltac:(lia) A2) as (s4 & G4 & C4 & L4 & R4 & K4 & M4).
  assert (Bx : 0 <= blen x < two64) by lia. assert (Bb : 0 <= b < two64) by lia.
  assert (Hc : holds (mem s4) b (utf8 x)).
  { apply (holds_ext _ _ _ _ M4). apply holds_frame; [|rewrite encode_length; fold (blen x); apply apart_le; lia]. apply (holds_ext _ _ _ _ M3). apply holds_frame; [|rewrite encode_length; fold (blen x); apply apart_le; lia].
    apply (holds_ext _ _ _ _ M2). apply holds_store, utf8_bytes, Tx. }
  assert (Hp : holds_uint (mem s4) (b + blen x + dpo) 8 b).
  { apply (uint_ext _ _ _ _ _ M4). apply uint_frame; [|rewrite encode_length; apply apart_le; lia]. apply (uint_ext _ _ _ _ _ M3). apply uint_store. exact Bb. }
  assert (Hl : holds_uint (mem s4) (b + blen x + lo) 8 (blen x)) by (apply (uint_ext _ _ _ _ _ M4); apply uint_store; exact Bx).
  exists (b + blen x), s4. split; [|split; [split; lia|split; [exact C4|split; [auto|]]]].
  - unfold icreate_typed_value. cbn [layOf]. unfold icreate_str_slice. cbv zeta. fold (blen x). replace ((16 <? dpo) || (16 <? lo)) with false by lia. fold w.
    eapply igoes_bind; [exact G1|]. eapply igoes_bind; [exact G2|]. eapply igoes_bind; [apply igoes_lift; apply DataProofs.add64_ok; unfold two64 in *; lia|].
    eapply igoes_bind; [apply igoes_lift; apply DataProofs.add64_ok; unfold two64 in *; lia|]. eapply igoes_bind; [exact G3|].
    eapply igoes_bind; [apply igoes_lift; apply DataProofs.add64_ok; unfold two64 in *; lia|]. eapply igoes_bind; [exact G4|].
    eapply igoes_bind. { pose proof (was_read s4 (b + blen x + dpo) (encode 8 b) L4 ltac:(split; lia) (encode_not_nil _) ltac:(rewrite encode_length; reflexivity) (proj2 Hp)) as Q. rewrite encode_length in Q. exact Q. }
    eapply igoes_bind. { pose proof (was_read s4 (b + blen x + lo) (encode 8 (blen x)) L4 ltac:(split; lia) (encode_not_nil _) ltac:(rewrite encode_length; reflexivity) (proj2 Hl)) as Q. rewrite encode_length in Q. exact Q. }
    eapply igoes_bind. { apply igoes_lift. unfold le_unwrap. rewrite encode_length. change (Z.of_nat 8 =? 8) with true. rewrite le_encode by (change (256 ^ Z.of_nat 8) with two64; exact Bb). reflexivity. }
    eapply igoes_bind. { apply igoes_lift. unfold le_unwrap. rewrite encode_length. change (Z.of_nat 8 =? 8) with true. rewrite le_encode by (change (256 ^ Z.of_nat 8) with two64; exact Bx). reflexivity. }
    rewrite !Z.eqb_refl. cbn [negb]. replace (1048576 <? blen x) with false by lia.
    eapply igoes_bind; [apply (was_read s4 b (utf8 x) L4 Bb (utf8_not_nil x Nx)); [fold (blen x); lia | exact Hc]|].
    rewrite utf8_roundtrip by exact Tx. rewrite str_eqb_refl. cbn [negb]. apply igoes_ret.
  - unfold text_at. cbn [layOf]. exists b. auto.
Qed.
Lemma text_made s x ty n k : live s -> text x -> x <> [] -> text_param x ty n -> 0 <= k -> room s (n + k) ->
  exists size a s1, tsize ty = Ok (Some size) /\ u64 size /\ igoes L (icreate_typed_value x ty) s a s1 /\ u64 a /\ carries L mem s s1 /\ room s1 k /\ text_at (mem s1) ty x a.
Proof.
  intros Lv Tx Nx P Hk R. destruct P as [lo dpo co it p F | dpo lo p F Bm].
  - destruct (string_made s x lo dpo co it p k Lv Tx Nx F Hk R) as (a & s1 & Q). exists 24, a, s1. split; [reflexivity|]. split; [split; reflexivity || lia | exact Q].
  - destruct (str_made s x dpo lo p k Lv Tx Nx F Bm Hk R) as (a & s1 & Q). exists 16, a, s1. split; [reflexivity|]. split; [split; reflexivity || lia | exact Q].
Qed.
End Heap.

Lemma needs_nonneg v u vars b floats m es ps n : sendable v u vars b floats m es ps n -> 0 <= n.
Proof. induction 1 as [|e c es ps n _ _ IH|x ty k es name ps n _ _ P _ IH]; [lia | exact IH|]. destruct P; pose proof (blen_nonneg x); lia. Qed.
Section Arguments.
Context {St : Type} (L : debugger St) (mem : St -> memory) (room : St -> Z -> Prop).
Hypothesis H : has_heap L mem room.
Variable s : St.
Hypotheses (HT : l_target L s = true) (HP : l_process L s = true) (HH : l_thread L s = true) (HF : l_frame L s = true).
Variable floats : Z -> list Z -> str.
Variables (v : env) (u : bunit) (vars : list var) (b r base : Z).
Hypotheses (Ur : u64 r) (Rg : nth_register r (l_registers L s) = Some b).
Lemma served_later s1 : carries L mem s s1 -> served (l_memory L s1) (mem s).
Proof. intros [_ C] a bs Nb Hh. apply (hh_served L mem room H s1); [exact Nb | exact (holds_carried _ _ _ _ C Hh)]. Qed.
Lemma sent_run es ps n : sendable v u vars b floats (mem s) es ps n -> forall s1 j, carries L mem s s1 -> 0 <= j -> room s1 (n + j) ->
  exists xs cs s2 k0, map c_argument xs = map fst cs /\ sizes_of xs = flat_map snd cs /\ Forall arg_fits xs /\ carries L mem s1 s2 /\ room s2 j /\ sent v u vars b floats (mem s) (mem s2) es ps cs /\
    forall k D, (k0 <= k)%nat -> answers_variables L s D u v vars (Some [OReg r]) base k -> knows floats D v k -> forall pc, at_pc L s pc -> exists pc', at_pc L s pc' /\ goes L (convert_args D (map (fun a => (a, evaluate D a)) es) ps) pc s1 xs pc' s2.
Proof.
  induction 1 as [ps | e c es ps n P Sd IH | x ty q es name ps n Tx Nx P Sd IH]; intros s1 j C Hj R.
  - exists [], [], s1, 0%nat. split; [reflexivity|]. split; [reflexivity|]. split; [apply Forall_nil|]. split; [apply carries_refl|]. split; [exact R|]. split; [apply se_nil|]. intros k D _ _ _ pc Hpc. exists pc. split; [exact Hpc | apply goes_ret].
  - pose proof C as [[E1 E2 E3 E4 E5 E6] _]. destruct (argument_runs L s1 ltac:(congruence) ltac:(congruence) ltac:(congruence) ltac:(congruence) (mem s) floats (served_later s1 C) v u vars b r base Ur ltac:(congruence) e c P) as (x & k1 & B1 & B2 & B3 & B4).
    destruct (IH s1 j C Hj R) as (xs & cs & s2 & k0 & A1 & A2 & A3 & A4 & A5 & A6 & A7). exists (x :: xs), (c :: cs), s2, (k0 + k1)%nat. cbn [map]. unfold sizes_of in *. cbn [flat_map]. rewrite A1, A2, B1, B2. split; [reflexivity|]. split; [reflexivity|]. split; [apply Forall_cons; assumption|].
    split; [exact A4|]. split; [exact A5|]. split; [apply se_plain; assumption|]. intros k D Hk G Kn pc Hpc. cbn [convert_args fst snd].
    assert (G' : answers_variables L s1 D u v vars (Some [OReg r]) base k) by (unfold answers_variables in *; rewrite E5; exact G).
    assert (Hpc' : at_pc L s1 pc) by (unfold at_pc in *; rewrite E5; exact Hpc).
    destruct (B4 k D (match ps with p :: _ => Some (snd p) | [] => None end) ltac:(lia) G' Kn pc Hpc') as (pc1 & H1 & R1). unfold at_pc in H1. rewrite E5 in H1. destruct (A7 k D ltac:(lia) G Kn pc1 H1) as (pc2 & H2 & R2).
    exists pc2. split; [exact H2|]. eapply goes_bind; [exact R1|]. eapply goes_bind; [exact R2|]. apply goes_ret.
  - replace (q + n + j) with (q + (n + j)) in R by lia. assert (Lv : live L s1) by (apply (live_same L s s1 (proj1 C)); split; assumption).
    destruct (text_made L mem room H s1 x ty q (n + j) Lv Tx Nx P ltac:(pose proof (needs_nonneg v u vars b floats (mem s) es ps n Sd); lia) R) as (size & a & s2 & Sz & Us & G0 & Ua & C2 & R2 & T2).
    destruct (IH s2 j (carries_trans L mem _ _ _ C C2) Hj R2) as (xs & cs & s3 & k0 & A1 & A2 & A3 & A4 & A5 & A6 & A7).
    exists (MArg (hex a) APointer (Some size) :: xs), (((st "struct Arg_" ++ dec size, st "*((struct Arg_" ++ dec size ++ st "*)" ++ hex a ++ st ")"), [size]) :: cs), s3, k0.
    cbn [map]. unfold sizes_of in *. cbn [flat_map]. rewrite A1, A2. split; [reflexivity|]. split; [reflexivity|]. split; [apply Forall_cons; [split; [apply hex_text | exact Us] | exact A3]|].
    split; [exact (carries_trans L mem _ _ _ C2 A4)|]. split; [exact A5|]. split; [apply se_text; [exact (text_carried _ _ _ _ _ (proj2 A4) T2) | exact Sz | exact A6]|].
    intros k D Hk G Kn pc Hpc. cbn [convert_args fst snd tl convert_arg]. destruct (A7 k D Hk G Kn pc Hpc) as (pc2 & H2 & Rr). exists pc2. split; [exact H2|].
    eapply goes_bind; [eapply goes_bind; [apply goes_io; exact G0|]; eapply goes_bind; [apply goes_lift; exact Sz | apply goes_ret]|]. eapply goes_bind; [exact Rr | apply goes_ret].
Qed.
End Arguments.

Section Files.
Variables (smap : list (fpath * fpath)) (fs : fpath -> option stored) (order : list nat -> list nat) (X : externals)
  (sort : (AddrModel.finfo -> Z) -> list AddrModel.finfo -> list AddrModel.finfo) (workspace : option fpath)
  (sig_of : str -> str) (show_float : Z -> list Z -> str) (is_float : str -> bool).
Hypothesis Hsort : sorts sort.
Notation prints_leaving := (prints_leaving smap fs order X sort workspace sig_of show_float is_float).
(** [rd eval name(arg, ...)], some of the arguments being texts: before the call each text is in the target's memory, as a value of
    the type of its parameter; nothing else in use is changed, and the program is still where it stopped. LLDB then evaluates one C
    expression, which calls the function with the arguments, the texts as those values; the printed lines are the type and the value
    of the result. *)
Theorem function_call_with_texts : forall St (L : debugger St) mem room s p B tables,
  debugger_fits L -> has_heap L mem room -> l_target L s = true -> l_process L s = true -> l_thread L s = true -> l_frame L s = true -> text p ->
  open_binary smap fs order X (components p) = Ok B -> bi_index B = index_symbol_map X tables -> Forall well_formed (bi_made B) -> BinaryTypes.apart (bi_made B) ->
  forall f u d v ps ls r b args ms fn es y f2 u2 d2 v2 qs rt rs n, stopped smap X L s B tables f u d v ps ls r b ->
  args <> [] -> Forall text args -> parse_expression (Base.join (st " ") args) = Ok (ECall (Base.join (st "::") (ms ++ [fn])) es) -> Forall wf_segment (ms ++ [fn]) -> ~ hash_like fn ->
  callee (history X tables) ms fn y -> declares (history X tables) B y f2 u2 d2 v2 qs rt -> 0 < sym_addr y < two64 -> List.length es = List.length qs ->
  sendable v u (somes ps ++ somes ls) b show_float (mem s) es qs n -> room s n -> result_size rt rs -> opt u64 rs ->
  exists s2 cs, carries L mem s s2 /\ sent v u (somes ps ++ somes ls) b show_float (mem s) (mem s2) es qs cs /\
    forall ctext x s1 lines, says_call ctext (sym_addr y) (map fst cs) "void" (flat_map snd cs) rs -> l_eval L s2 ctext = (x, s1) -> outcome L v2 show_float x s1 rt rs lines ->
    exists k0, forall k, (k0 <= k)%nat -> exists n0, forall n, (n0 <= n)%nat -> prints_leaving L s p n k args lines s1.
Proof.
  intros St L mem room s p B tables Fits Hp HT HP HH HF Tp Op Hix Hmade Hapart f u d v ps ls r b args ms fn es y f2 u2 d2 v2 qs rt rs need Sp Na Ta Pe Wf Hh Cy De Ay Le Pa Ro Sz Urs.
  pose proof Sp as (sa & l & si & _ & _ & _ & Ur & Rg). destruct (stopped_answers smap X sort workspace sig_of show_float is_float Hsort St L s B tables f u d v ps ls r b Hix Hmade Hapart Sp) as (base & k1 & K1).
  destruct (callee_listed smap fs order X sort workspace sig_of show_float is_float B tables ms fn y f2 u2 d2 v2 qs rt Hix Hmade Wf Hh Cy De) as (k2 & K2).
  destruct (sent_run L mem room Hp s HT HP HH HF show_float v u (somes ps ++ somes ls) b r base Ur Rg es qs need Pa s 0 (carries_refl L mem s) (Z.le_refl 0) ltac:(rewrite Z.add_0_r; exact Ro)) as (xs & cs & s2 & k3 & A1 & A2 & A3 & A4 & _ & A6 & A7).
  exists s2, cs. split; [exact A4|]. split; [exact A6|]. intros ctext x s1 lines Sc Ev Ou.
  destruct (outcome_shown L v2 show_float x s1 rt rs lines Ou (df_eval L Fits s2 ctext x s1 Ev)) as (z & value & ty & k4 & R1 & -> & Tv & Tt & R2).
  destruct De as (Fi & _ & _ & Hu2 & _ & V2 & _). pose proof (made_here B _ f2 Fi) as Hf2. pose proof Hmade as Hmade'. rewrite Forall_forall in Hmade'. destruct (well_parts f2 (Hmade' f2 Hf2)) as (_ & D2 & Aa2). destruct (good_view f2 u2 v2 D2 (Aa2 u2 Hu2) Hu2 V2) as [_ En2]. destruct V2 as [nv V2].
  exists (k1 + k2 + k3 + k4)%nat. intros k Hk. destruct (K1 k ltac:(clear - Hk; lia)) as (n1 & N1). destruct (K2 k ltac:(clear - Hk; lia)) as (n2 & N2). exists (n1 + n2 + nv)%nat. intros n Hn. destruct (N1 n ltac:(clear - Hn; lia)) as [Gv Kn]. destruct (N2 n ltac:(clear - Hn; lia)) as (g & G1 & G2 & G3 & G4).
  set (DB := debug_info sort smap workspace n k B X sig_of utf8_lossy show_float is_float) in *.
  pose proof (knows_unit smap X sort workspace sig_of show_float is_float n k B f2 u2 v2 Hmade Hapart Hf2 Hu2 (V2 n ltac:(clear - Hn; lia)) En2) as Kn2. fold DB in Kn2.
  destruct (A7 k DB ltac:(clear - Hk; lia) Gv Kn None (or_introl eq_refl)) as (pc & _ & Ra).
  apply (goes_prints smap fs order X sort workspace sig_of show_float is_float St L s p B n k args _ value ty pc s1 Fits Tp Op Na Ta Pe); [|exact Tv | exact Tt]. fold DB. cbn [evaluate e_val]. unfold function_val, call_function.
  apply (goes_bind L _ _ None s (g, z) pc s1 _ pc s1); [|cbn [fst snd]; rewrite G4; apply (R2 k DB pc ltac:(clear - Hk; lia) Kn2)].
  eapply goes_bind; [apply goes_lift; unfold find_function; change (g_functions DB (Base.join (st "::") (ms ++ [fn]))) with (BinaryModel.discover_functions n k B (Base.join (st "::") (ms ++ [fn]))); rewrite G1; cbn [bind]; rewrite G2, G3, map_length; destruct (Z.eqb_spec (sym_addr y) 0) as [E0|_]; [clear - Ay E0; lia|]; rewrite Le, Nat.eqb_refl; reflexivity|].
  eapply goes_bind; [rewrite G3; exact Ra|]. eapply goes_bind; [apply goes_lift; rewrite G4; unfold return_size; destruct rt as [t|]; [exact Sz | cbn in Sz; rewrite Sz; reflexivity]|].
  pose proof (live_same L s s2 (proj1 A4) (conj HT HP)) as [HT2 HP2].
  apply (goes_bind L _ _ pc s2 z pc s1 _ pc s1); [|apply goes_ret]. eapply goes_ask; [| exact HT2 | exact HP2 | |].
  - rewrite G2. cbn [request_fits]. split; [exact (conj (Z.lt_le_incl _ _ (proj1 Ay)) (proj2 Ay))|]. split; [exact A3 | exact Urs].
  - eapply p_function; [rewrite A1, A2, G2; exact Sc | exact Ev | exact R1].
  - reflexivity.
Qed.
(** The same for [rd eval object.method(arg, ...)]. *)
Theorem method_call_with_texts : forall St (L : debugger St) mem room s p B tables,
  debugger_fits L -> has_heap L mem room -> l_target L s = true -> l_process L s = true -> l_thread L s = true -> l_frame L s = true -> text p ->
  open_binary smap fs order X (components p) = Ok B -> bi_index B = index_symbol_map X tables -> Forall well_formed (bi_made B) -> BinaryTypes.apart (bi_made B) ->
  forall f u d v ps ls r b args e a ty method es l me f2 u2 v2 rs n, stopped smap X L s B tables f u d v ps ls r b ->
  args <> [] -> Forall text args -> parse_expression (Base.join (st " ") args) = Ok (EMethodCall e method es) ->
  stands v u (somes ps ++ somes ls) b show_float (mem s) e a ty -> u64 a -> (forall names, built_in_names (layOf ty) names -> ~ In method names) ->
  methods_are X sig_of B ty l -> first_of (fun q => on_object q /\ dm_name q = method) l me -> 0 < dm_addr me < two64 -> In f2 (bi_made B) -> In u2 (bf_units f2) -> unit_view f2 u2 v2 ->
  sendable v u (somes ps ++ somes ls) b show_float (mem s) es (dm_params me) n -> room s n -> result_size (dm_ret me) rs -> opt u64 rs ->
  exists s2 cs, carries L mem s s2 /\ sent v u (somes ps ++ somes ls) b show_float (mem s) (mem s2) es (dm_params me) cs /\
    forall ctext x s1 lines, says_call ctext (dm_addr me) ((st "void*", st "(void*)" ++ hex a) :: map fst cs) "" (flat_map snd cs) rs -> l_eval L s2 ctext = (x, s1) -> outcome L v2 show_float x s1 (dm_ret me) rs lines ->
    exists k0, forall k, (k0 <= k)%nat -> exists n0, forall n, (n0 <= n)%nat -> prints_leaving L s p n k args lines s1.
Proof.
  intros St L mem room s p B tables Fits Hp HT HP HH HF Tp Op Hix Hmade Hapart f u d v ps ls r b args e a ty method es l me f2 u2 v2 rs need Sp Na Ta Pe Sd Ua Nb (k2 & K2) Fm Ay Hf2 Hu2 V2 Pa Ro Sz Urs.
  pose proof Sp as (sa & l' & si & _ & _ & _ & Ur & Rg). destruct (stopped_answers smap X sort workspace sig_of show_float is_float Hsort St L s B tables f u d v ps ls r b Hix Hmade Hapart Sp) as (base & k1 & K1).
  destruct (sent_run L mem room Hp s HT HP HH HF show_float v u (somes ps ++ somes ls) b r base Ur Rg es (dm_params me) need Pa s 0 (carries_refl L mem s) (Z.le_refl 0) ltac:(rewrite Z.add_0_r; exact Ro)) as (xs & cs & s2 & k3 & A1 & A2 & A3 & A4 & _ & A6 & A7).
  exists s2, cs. split; [exact A4|]. split; [exact A6|]. intros ctext x s1 lines Sc Ev Ou.
  destruct (outcome_shown L v2 show_float x s1 (dm_ret me) rs lines Ou (df_eval L Fits s2 ctext x s1 Ev)) as (z & value & vt & k4 & R1 & -> & Tv & Tt & R2).
  destruct (stands_ref L s HT HP HH HF (mem s) show_float (hh_served L mem room Hp s) v u (somes ps ++ somes ls) b r base Ur Rg e a ty Sd) as (k5 & K5).
  pose proof Hmade as Hmade'. rewrite Forall_forall in Hmade'. destruct (well_parts f2 (Hmade' f2 Hf2)) as (_ & D2 & Aa2). destruct (good_view f2 u2 v2 D2 (Aa2 u2 Hu2) Hu2 V2) as [_ En2]. destruct V2 as [nv V2].
  exists (k1 + k2 + k3 + k4 + k5)%nat. intros k Hk. destruct (K1 k ltac:(clear - Hk; lia)) as (n1 & N1). destruct (K2 k ltac:(clear - Hk; lia)) as (n2 & N2). exists (n1 + n2 + nv)%nat. intros n Hn. destruct (N1 n ltac:(clear - Hn; lia)) as [Gv Kn].
  set (DB := debug_info sort smap workspace n k B X sig_of utf8_lossy show_float is_float) in *.
  pose proof (knows_unit smap X sort workspace sig_of show_float is_float n k B f2 u2 v2 Hmade Hapart Hf2 Hu2 (V2 n ltac:(clear - Hn; lia)) En2) as Kn2. fold DB in Kn2.
  destruct (K5 k DB ltac:(clear - Hk; lia) Gv Kn) as [E5 _].
  destruct (A7 k DB ltac:(clear - Hk; lia) Gv Kn (Some (l_pc L s)) (or_intror eq_refl)) as (pc & _ & Ra).
  apply (goes_prints smap fs order X sort workspace sig_of show_float is_float St L s p B n k args _ value vt pc s1 Fits Tp Op Na Ta Pe); [|exact Tv | exact Tt]. fold DB. cbn [evaluate e_val]. unfold method_val.
  eapply goes_bind; [exact (E5 None (or_introl eq_refl))|]. cbn [fst snd].
  assert (Sn : synthetic_name (layOf ty) method = false).
  { unfold synthetic_name. destruct (existsb (str_eqb method) (SynthModel.synthetic_methods (layOf ty))) eqn:Ex; [|reflexivity]. exfalso. apply existsb_exists in Ex. destruct Ex as (q & Iq & Q). apply str_eqb_eq in Q. subst q. revert Iq. apply Nb. destruct (layOf ty); reflexivity. }
  rewrite Sn. unfold call_method. apply (goes_bind L _ _ (Some (l_pc L s)) s (me, z) pc s1 _ pc s1); [|cbn [fst snd]; apply (R2 k DB pc ltac:(clear - Hk; lia) Kn2)].
  pose proof (live_same L s s2 (proj1 A4) (conj HT HP)) as [HT2 HP2].
  apply (goes_bind L _ _ (Some (l_pc L s)) s me (Some (l_pc L s)) s _ pc s1).
  - apply goes_lift. unfold find_method. cbn [snd]. change (g_methods DB ty) with (BinaryModel.discover_methods n k B X sig_of ty). rewrite (N2 n ltac:(clear - Hn; lia)). unfold rmap. cbn [bind].
    assert (Fi : find (fun q => str_eqb (dm_name q) method) (filter has_self l) = Some me).
    { destruct Fm as (l1 & l2 & -> & [[kk Hs] Hnm] & F1). rewrite filter_app. clear - Hs Hnm F1. induction F1 as [|q l1 Nq _ IH]; [cbn [filter app]; unfold has_self at 1; rewrite Hs; cbn [find]; rewrite Hnm, str_eqb_refl; reflexivity|].
      cbn [filter]. unfold has_self at 1. destruct (dm_self q) as [qs|] eqn:Eq; [|exact IH]. cbn [app find]. destruct (str_eqb (dm_name q) method) eqn:En; [|exact IH]. exfalso. apply Nq. split; [exists qs; exact Eq | apply str_eqb_eq; exact En]. }
    rewrite Fi. destruct (Z.eqb_spec (dm_addr me) 0) as [E0|_]; [clear - Ay E0; lia | reflexivity].
  - eapply goes_bind; [exact Ra|]. eapply goes_bind; [apply goes_lift; unfold return_size; unfold result_size in Sz; destruct (dm_ret me) as [t|]; [exact Sz | rewrite Sz; reflexivity]|].
    apply (goes_bind L _ _ pc s2 z pc s1 _ pc s1); [|apply goes_ret]. eapply goes_ask; [| exact HT2 | exact HP2 | |].
    + cbn [request_fits fst snd]. split; [exact (conj (Z.lt_le_incl _ _ (proj1 Ay)) (proj2 Ay))|]. split; [exact Ua|]. split; [exact A3 | exact Urs].
    + cbn [fst snd]. eapply p_method; [rewrite A1, A2; exact Sc | exact Ev | exact R1].
    + reflexivity.
Qed.
End Files.
Print Assumptions function_call_with_texts.
Print Assumptions method_call_with_texts.
