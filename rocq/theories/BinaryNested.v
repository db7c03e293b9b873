(** C127: calls inside expressions: from the stored files and the stopped target to the calls LLDB runs, in order, and the printed text. *)
From Coq Require Import Ascii String List ZArith NArith Lia Bool Arith Sorted Permutation.
From Coq Require Import ZifyBool ZifyNat ZifyN.
From Verif Require Import Base NumText OMap AddrModel AddrSpec SymModel SymSpec SymProofs SymProps PathModel LinesModel LinesProps DieModel DieSpec ModuleModel ParserSpec
  TypesModel ValueModel DataModel DataSpec DataProofs ParserModel ResolveModel ResolveSpec ResolveProps LocModel FnModel FnSpec FnProps SourceModel LoadModel LoadProps ParserProofs DiscoverModel DiscoverSpec DiscoverProofs DiscoverProps DiscoverFns CreateModel CreateProps BinaryModel BinarySpec BinaryProofs BinaryProps BinaryVars BinaryTypes BinaryDiscover BinaryMethods.
From Verif Require Import AccessModel ExprModel ProcModel ProcSpec IoDataModel EvalModel EvalSpec ServerModel ServerSpec ServerProofs ServerProps JsonModel WireModel WireProps ClientModel ClientSpec ClientProps ClientEvents
  SessionModel SessionSpec SessionProofs SessionProps RdProps ProcProofs FormatSpec FormatProps BinarySession BinarySpec AccessProps EvalProps PlainSpec PlainProofs BinaryEval BinarySynth BinaryCall BinaryCallText.
From Verif Require JsonProofs.
From Verif Require Import DataModel ParserModel ValueModel DataSpec Utf8.
Import ListNotations.
Open Scope Z_scope.

(** ** Specification *)
(** A path, not itself a call. *)
Definition is_path (e : expr) : Prop := match e with EVariable _ | EField _ _ | EIndex _ _ => True | _ => False end.
(** A bare value of the type named [t], shown as [x], as a C argument. *)
Definition bare (t x : str) (c : str * str) : Prop := t = st "bool" /\ c = (st "int", if str_eqb x (st "true") then st "1" else st "0") \/ t = st "usize" /\ c = (st "unsigned long", x).
(** Making a text in the target's memory, as a value of the type of a parameter: a [String] takes two blocks, for the bytes and for the three
    words, which are first cleared; a [&str] one block, for the bytes and then the two words, and is read back. *)
Section Makes.
Context {St : Type} (L : debugger St).
Definition takes (s : St) (n a : Z) (s1 : St) : Prop :=
  0 < n /\ 0 < a /\ a + n <= two64 /\ same_stop L s s1 /\ exists x, l_eval L s (st "(void*)malloc(" ++ dec n ++ st ")") = (x, s1) /\ v_valid x = true /\ v_failed x = false /\ v_unsigned x = a.
Inductive writes : St -> list (Z * list Z) -> St -> Prop :=
| wr_nil s : writes s [] s
| wr_cons s a d s1 l s2 : l_write L s a d = (true, s1) -> same_stop L s s1 -> writes s1 l s2 -> writes s ((a, d) :: l) s2.
Inductive makes : St -> str -> tdef -> Z -> Z -> St -> Prop :=
| mk_string s x lo dpo co it p c s1 s2 a s3 s4 : string_fields lo dpo co -> takes s (blen x) c s1 -> writes s1 [(c, utf8 x)] s2 -> takes s2 24 a s3 ->
    writes s3 [(a, repeat 0 24); (a + lo, encode 8 (blen x)); (a + dpo, encode 8 c); (a + co, encode 8 (blen x))] s4 -> makes s x (TD (LString lo dpo co it) p) 24 a s4
| mk_str s x dpo lo p c s1 s2 m : str_fields dpo lo -> blen x <= mib -> takes s (blen x + 16) c s1 ->
    writes s1 [(c, utf8 x); (c + blen x + dpo, encode 8 c); (c + blen x + lo, encode 8 (blen x))] s2 ->
    served (l_memory L s2) m -> holds m c (utf8 x) -> holds_uint m (c + blen x + dpo) 8 c -> holds_uint m (c + blen x + lo) 8 (blen x) -> makes s x (TD (LStrSlice dpo lo) p) 16 (c + blen x) s2.
End Makes.
Section Nested.
Context {St : Type} (L : debugger St).
Variables (X : externals) (sig_of : str -> str) (tables : list (N * list raw_entry)) (B : binary).
Variables (v : env) (u : bunit) (vars : list var) (b : Z) (floats : Z -> list Z -> str).
(** The program is stopped in a function with the variables [vars], of the unit [u] with the types [v], and the frame base [b].
    [reaches s e w a ty s1]: evaluating [e] takes the target from [s] to [s1] and gives the place [a], of the type [ty] of the unit [w]: a
    variable; what a call returned; a field of a struct; an element of an array or of a vector; the value of a map under a key.
    [calls s e w rt rs x s1]: [e] is a call; what its object and its arguments say having been done, LLDB evaluates the one C expression
    that calls the function with them; it takes the target to [s1] and has the value [x]. The declared result is [rt], of size [rs].
    [indexes s e i s1] and [keys s e x s1]: [e] is the index [i], the key [x]. [sends s es ps cs s1]: the arguments [es] are, one after the
    other, made into the C arguments [cs]. *)
Inductive reaches : St -> expr -> env -> Z -> tdef -> St -> Prop :=
| re_variable s name x off ty : first_of (fun y => va_name y = Some name) vars x -> bu_loc u (va_die x) = Some [OFbreg off] -> complete_type v (va_ty x) ty ->
    reaches s (EVariable name) v ((b + off) mod two64) ty s
| re_field s e w a ty s1 n sz al fs name f : reaches s e w a ty s1 -> layOf ty = LStruct n sz al fs -> first_of (fun g => f_name g = name) fs f -> u64 (a + f_offset f) ->
    reaches s (EField e name) w (a + f_offset f) (f_type f) s1
| re_element s e w a ty s1 t len e' i size s2 : reaches s e w a ty s1 -> layOf ty = LArray t len -> indexes s1 e' i s2 -> 0 <= i < len -> tsize t = Ok (Some size) -> u64 (i * size) -> u64 (a + i * size) ->
    reaches s (EIndex e e') w (a + i * size) t s2
| re_item s e w a ty s1 lo dpo co t base len e' i size s2 m : reaches s e w a ty s1 -> layOf ty = LVec lo dpo co t -> indexes s1 e' i s2 -> served (l_memory L s2) m ->
    u64 (a + lo) -> u64 (a + dpo) -> holds_uint m (a + lo) 8 len -> holds_uint m (a + dpo) 8 base -> 0 <= i < len -> tsize t = Ok (Some size) -> u64 (i * size) -> u64 (base + i * size) ->
    reaches s (EIndex e e') w (base + i * size) t s2
| re_entry s e w a ty s1 k vt mv pre ka va post e' x s2 m : reaches s e w a ty s1 -> layOf ty = LMap k vt mv -> keys s1 e' x s2 -> served (l_memory L s2) m ->
    entries m a k vt mv (pre ++ (ka, va) :: post) -> key_is w floats m k ka x -> Forall (fun en => exists y, key_is w floats m k (fst en) y /\ y <> x) pre ->
    reaches s (EIndex e e') w va vt s2
| re_result s e w t n x a s1 : calls s e w (Some t) (Some n) x s1 -> returns x (Some n) (ComplexPtr a n (st "complex")) -> same_stop L s s1 -> reaches s e w a t s1
with calls : St -> expr -> env -> option tdef -> option Z -> evres -> St -> Prop :=
| ca_function s ms fn es y f2 u2 d2 w qs rt cs rs ctext x s1 s2 : Forall wf_segment (ms ++ [fn]) -> ~ hash_like fn -> callee (history X tables) ms fn y -> declares (history X tables) B y f2 u2 d2 w qs rt ->
    0 < sym_addr y < two64 -> List.length es = List.length qs -> sends s es qs cs s1 -> result_size rt rs -> opt u64 rs ->
    says_call ctext (sym_addr y) (map fst cs) "void" (flat_map snd cs) rs -> l_eval L s1 ctext = (x, s2) ->
    calls s (ECall (Base.join (st "::") (ms ++ [fn])) es) w rt rs x s2
| ca_method s e w0 a ty s1 method es l me f2 u2 w cs rs ctext x s2 s3 : reaches s e w0 a ty s1 -> u64 a -> (forall names, built_in_names (layOf ty) names -> ~ In method names) ->
    methods_are X sig_of B ty l -> first_of (fun q => on_object q /\ dm_name q = method) l me -> 0 < dm_addr me < two64 -> In f2 (bi_made B) -> In u2 (bf_units f2) -> unit_view f2 u2 w ->
    sends s1 es (dm_params me) cs s2 -> result_size (dm_ret me) rs -> opt u64 rs ->
    says_call ctext (dm_addr me) ((st "void*", st "(void*)" ++ hex a) :: map fst cs) "" (flat_map snd cs) rs -> l_eval L s2 ctext = (x, s3) ->
    calls s (EMethodCall e method es) w (dm_ret me) rs x s3
with indexes : St -> expr -> Z -> St -> Prop :=
| ix_literal s i : indexes s (ENumber i) i s
| ix_place s e w a ty s1 m t j i : reaches s e w a ty s1 -> is_path e -> served (l_memory L s1) m -> found w floats m j a ty (VScalar t (dec i)) -> 0 <= i < 2 ^ 64 -> indexes s e i s1
| ix_paren s e i s1 : indexes s e i s1 -> indexes s (EParen e) i s1
with keys : St -> expr -> str -> St -> Prop :=
| ke_literal s x : no_quote_ends x -> keys s (EString x) x s
| ke_place s e w a ty s1 m t j z x : reaches s e w a ty s1 -> is_path e -> served (l_memory L s1) m -> found w floats m j a ty (VScalar t z) -> denotes z x -> keys s e x s1
| ke_paren s e x s1 : keys s e x s1 -> keys s (EParen e) x s1
with sends : St -> list expr -> list (option str * tdef) -> list ((str * str) * list Z) -> St -> Prop :=
| sn_nil s ps : sends s [] ps [] s
| sn_number s n es ps cs s1 : 0 <= n -> sends s es (tl ps) cs s1 -> sends s (ENumber n :: es) ps (((st "unsigned long", dec n), []) :: cs) s1
| sn_block s e w a ty s1 size es ps cs s2 : reaches s e w a ty s1 -> tsize ty = Ok (Some size) -> u64 size -> sends s1 es (tl ps) cs s2 ->
    sends s (e :: es) ps (((st "struct Arg_" ++ dec size, st "*((struct Arg_" ++ dec size ++ st "*)" ++ hex a ++ st ")"), [size]) :: cs) s2
| sn_address s e w a ty s1 es ps cs s2 : reaches s e w a ty s1 -> tsize ty = Ok None -> sends s1 es (tl ps) cs s2 -> sends s (e :: es) ps (((st "void*", st "(void*)" ++ hex a), []) :: cs) s2
| sn_built_in s e a ty m method t x c es ps cs s1 : stands v u vars b floats m e a ty -> served (l_memory L s) m -> reports m a ty method t x -> bare t x c -> sends s es (tl ps) cs s1 ->
    sends s (EMethodCall e method [] :: es) ps ((c, []) :: cs) s1
| sn_text s x ty size a s1 es name ps cs s2 : text x -> x <> [] -> makes L s x ty size a s1 -> sends s1 es ps cs s2 ->
    sends s (EString x :: es) ((name, ty) :: ps) (((st "struct Arg_" ++ dec size, st "*((struct Arg_" ++ dec size ++ st "*)" ++ hex a ++ st ")"), [size]) :: cs) s2.
Scheme reaches_ind2 := Minimality for reaches Sort Prop with calls_ind2 := Minimality for calls Sort Prop with indexes_ind2 := Minimality for indexes Sort Prop
  with keys_ind2 := Minimality for keys Sort Prop with sends_ind2 := Minimality for sends Sort Prop.
Combined Scheme nested_ind from reaches_ind2, calls_ind2, indexes_ind2, keys_ind2, sends_ind2.
(** [shows s e lines s1]: [rd eval e] prints [lines], and leaves the target in [s1]. *)
Inductive shows : St -> expr -> list str -> St -> Prop :=
| sh_number s n : 0 <= n -> shows s (ENumber n) [st "type: u64"; st "value: " ++ dec n] s
| sh_text s x : text x -> shows s (EString x) [st "type: String"; st "value: " ++ [ch """"] ++ x ++ [ch """"]] s
| sh_place s e w a ty s1 m z : reaches s e w a ty s1 -> is_path e -> served (l_memory L s1) m -> found w floats m 8 a ty z -> tidy z -> text (tname ty) -> Forall text (shown z) ->
    shows s e [st "type: " ++ tname ty; st "value: " ++ Base.join [lf] (shown z)] s1
| sh_call s e w rt rs x s1 lines : calls s e w rt rs x s1 -> outcome L w floats x s1 rt rs lines -> shows s e lines s1
| sh_built_in s e w a ty s1 m method t x : reaches s e w a ty s1 -> served (l_memory L s1) m -> reports m a ty method t x -> shows s (EMethodCall e method []) [st "type: " ++ t; st "value: " ++ x] s1
| sh_paren s e lines s1 : shows s e lines s1 -> shows s (EParen e) lines s1.
End Nested.

(** ** Proofs *)
(** For all large enough budgets of the model. *)
Definition late (P : nat -> nat -> Prop) : Prop := exists k0, forall k, (k0 <= k)%nat -> exists n0, forall n, (n0 <= n)%nat -> P n k.
Lemma late_and (P Q : nat -> nat -> Prop) : late P -> late Q -> late (fun n k => P n k /\ Q n k).
Proof.
  intros (k1 & K1) (k2 & K2). exists (k1 + k2)%nat. intros k Hk. destruct (K1 k ltac:(lia)) as (n1 & N1). destruct (K2 k ltac:(lia)) as (n2 & N2). exists (n1 + n2)%nat. intros n Hn. split; [apply N1 | apply N2]; lia.
Qed.
Lemma late_imp (P Q : nat -> nat -> Prop) : late P -> (forall n k, P n k -> Q n k) -> late Q.
Proof. intros (k1 & K1) H. exists k1. intros k Hk. destruct (K1 k Hk) as (n1 & N1). exists n1. intros n Hn. apply H, N1, Hn. Qed.
Lemma late_k (P : nat -> nat -> Prop) k0 : (forall n k, (k0 <= k)%nat -> P n k) -> late P.
Proof. intros H. exists k0. intros k Hk. exists 0%nat. intros n _. apply H, Hk. Qed.
Lemma late_n (P : nat -> nat -> Prop) n0 : (forall n k, (n0 <= n)%nat -> P n k) -> late P.
Proof. intros H. exists 0%nat. intros k _. exists n0. intros n Hn. apply H, Hn. Qed.

Section Files.
Variables (smap : list (fpath * fpath)) (fs : fpath -> option stored) (order : list nat -> list nat) (X : externals)
  (sort : (AddrModel.finfo -> Z) -> list AddrModel.finfo -> list AddrModel.finfo) (workspace : option fpath)
  (sig_of : str -> str) (show_float : Z -> list Z -> str) (is_float : str -> bool).
Hypothesis Hsort : sorts sort.
(** A decimal number is read as a floating-point number. *)
Hypothesis Hfloat : forall i, is_float (dec i) = true.
Notation prints_leaving := (prints_leaving smap fs order X sort workspace sig_of show_float is_float).

Section Run.
Context {St : Type} (L : debugger St) (s0 : St) (B : binary) (tables : list (N * list raw_entry)).
Hypotheses (Fits : debugger_fits L) (HT : l_target L s0 = true) (HP : l_process L s0 = true) (HH : l_thread L s0 = true) (HF : l_frame L s0 = true).
Hypotheses (Hix : bi_index B = index_symbol_map X tables) (Hmade : Forall well_formed (bi_made B)) (Hapart : BinaryTypes.apart (bi_made B)).
Variables (v : env) (u : bunit) (vars : list var) (r b base : Z).
Hypotheses (Ur : u64 r) (Rg : nth_register r (l_registers L s0) = Some b).
Let DB n k := debug_info sort smap workspace n k B X sig_of utf8_lossy show_float is_float.
Hypothesis Hvars : late (fun n k => answers_variables L s0 (DB n k) u v vars (Some [OReg r]) base k /\ knows show_float (DB n k) v k).
Notation reaches := (reaches L X sig_of tables B v u vars b show_float).
Notation calls := (calls L X sig_of tables B v u vars b show_float).
Notation indexes := (indexes L X sig_of tables B v u vars b show_float).
Notation keys := (keys L X sig_of tables B v u vars b show_float).
Notation sends := (sends L X sig_of tables B v u vars b show_float).
Notation shows := (shows L X sig_of tables B v u vars b show_float).
(** Evaluating to [a], whatever the program counter cached. *)
Definition does {A} (p : nat -> nat -> ev A) (s : St) (a : A) (s1 : St) : Prop :=
  late (fun n k => forall pc, at_pc L s0 pc -> exists pc', at_pc L s0 pc' /\ goes L (p n k) pc s a pc' s1).
Lemma does_bind {A C} (p : nat -> nat -> ev A) (f : nat -> nat -> A -> ev C) s a s1 c s2 : does p s a s1 -> does (fun n k => f n k a) s1 c s2 -> does (fun n k => ebind (p n k) (f n k)) s c s2.
Proof.
  intros H1 H2. apply (late_imp _ _ (late_and _ _ H1 H2)). intros n k [G1 G2] pc Hpc. destruct (G1 pc Hpc) as (pc1 & P1 & E1). destruct (G2 pc1 P1) as (pc2 & P2 & E2). exists pc2. split; [exact P2|]. eapply goes_bind; eassumption.
Qed.
Lemma does_ret {A} s (a : A) : does (fun _ _ => eret a) s a s.
Proof. apply (late_k _ 0%nat). intros n k _ pc Hpc. exists pc. split; [exact Hpc | apply goes_ret]. Qed.
Lemma does_lift {A} (x : nat -> nat -> res A) s (a : A) : late (fun n k => x n k = Ok a) -> does (fun n k => elift (x n k)) s a s.
Proof. intros H. apply (late_imp _ _ H). intros n k E pc Hpc. exists pc. split; [exact Hpc | apply goes_lift; exact E]. Qed.
Lemma does_io {A} (p : nat -> nat -> io A) s a : late (fun n k => runs L s (p n k) a) -> does (fun n k => eio (p n k)) s a s.
Proof. intros H. apply (late_imp _ _ H). intros n k E pc Hpc. exists pc. split; [exact Hpc | apply eruns_goes, eruns_io; exact E]. Qed.
Lemma does_imp {A} (p q : nat -> nat -> ev A) s a s1 : does p s a s1 -> (forall n k, q n k = p n k) -> does q s a s1.
Proof. intros H E. apply (late_imp _ _ H). intros n k. rewrite E. exact (fun y => y). Qed.
Lemma late_const (P : Prop) : P -> late (fun _ _ => P).
Proof. intros H. apply (late_k _ 0%nat). intros. exact H. Qed.
Definition known (w : env) : Prop := late (fun n k => knows show_float (DB n k) w k).
Definition reach_runs s e w a ty s1 : Prop := same_stop L s0 s -> same_stop L s0 s1 /\ known w /\ does (fun n k => e_ref (evaluate (DB n k) e)) s (a, ty) s1.
(** Evaluating to an error. *)
Definition breaks {A} (p : ev A) (pc : option Z) (s : St) (msg : string) (pc' : option Z) (s1 : St) : Prop :=
  exists t, exec (python_client L) (p pc) s = (t, (Err msg, pc'), s1) /\ Forall (fun x => request_fits (fst x)) t.
Lemma goes_breaks {A C} (p : ev A) (f : A -> ev C) pc s a pc1 s1 msg pc2 s2 : goes L p pc s a pc1 s1 -> breaks (f a) pc1 s1 msg pc2 s2 -> breaks (ebind p f) pc s msg pc2 s2.
Proof.
  intros (t1 & E1 & F1) (t2 & E2 & F2). exists (t1 ++ t2). split; [|apply Forall_app; split; assumption]. unfold ebind. rewrite exec_bind, E1. cbn [fst snd]. rewrite E2. reflexivity.
Qed.
Lemma breaks_lift {A} (x : res A) pc s msg : x = Err msg -> breaks (elift x) pc s msg pc s.
Proof. intros ->. exists []. split; [reflexivity | constructor]. Qed.
(** A call: as a place, and as a result shown. *)
Definition call_runs s e w rt rs x s1 : Prop := same_stop L s0 s -> known w /\ value_fits x /\ forall z, returns x rs z ->
    (forall p, result_ref rt z = Ok p -> does (fun n k => e_ref (evaluate (DB n k) e)) s p s1) /\
    (forall msg, result_ref rt z = Err msg -> late (fun n k => forall pc, at_pc L s0 pc -> exists pc', at_pc L s0 pc' /\ breaks (e_ref (evaluate (DB n k) e)) pc s msg pc' s1)) /\
    (forall q, does (fun n k => eio (result_val (DB n k) rt z)) s1 q s1 -> does (fun n k => e_val (evaluate (DB n k) e)) s q s1).
Definition index_runs s e i s1 : Prop := same_stop L s0 s -> same_stop L s0 s1 /\ does (fun n k => e_int (evaluate (DB n k) e)) s i s1.
Definition key_runs s e x s1 : Prop := no_quote_ends x /\ (same_stop L s0 s -> same_stop L s0 s1 /\ does (fun n k => e_str (evaluate (DB n k) e)) s x s1).
Definition send_runs s es ps cs s1 : Prop := same_stop L s0 s -> same_stop L s0 s1 /\ exists xs, map c_argument xs = map fst cs /\ sizes_of xs = flat_map snd cs /\ Forall arg_fits xs /\
  does (fun n k => convert_args (DB n k) (map (fun a => (a, evaluate (DB n k) a)) es) ps) s xs s1.
Lemma stop_at s : same_stop L s0 s -> l_target L s = true /\ l_process L s = true /\ l_thread L s = true /\ l_frame L s = true /\ l_pc L s = l_pc L s0 /\ nth_register r (l_registers L s) = Some b.
Proof. intros [A1 A2 A3 A4 A5 A6]. repeat split; congruence. Qed.
Lemma fuel_late w m j a ty t z s : same_stop L s0 s -> known w -> served (l_memory L s) m -> found w show_float m j a ty (VScalar t z) ->
  late (fun n k => (1 <= k)%nat /\ g_fuel (DB n k) = k /\ runs L s (read_pointer (DB n k) (a, ty)) (VScalar t z)).
Proof.
  intros Ss Kw Hm F. destruct (stop_at s Ss) as (T & P & _). destruct (scalar_reads L s T P m show_float Hm w j a ty t z F) as (k0 & R).
  refine (late_imp _ _ (late_and _ _ Kw (late_k (fun _ k => (S k0 <= k)%nat) (S k0) (fun _ k H => H))) _). intros n k [Kn Hk]. split; [lia|]. split; [reflexivity|]. unfold read_pointer. cbn [fst snd]. apply (R k (DB n k) ltac:(lia) Kn). cbn. lia.
Qed.
Lemma unit_known f2 u2 w : In f2 (bi_made B) -> In u2 (bf_units f2) -> unit_view f2 u2 w -> known w.
Proof.
  intros Hf2 Hu2 V2. pose proof Hmade as Hmade'. rewrite Forall_forall in Hmade'. destruct (well_parts f2 (Hmade' f2 Hf2)) as (_ & D2 & Aa2). destruct (good_view f2 u2 w D2 (Aa2 u2 Hu2) Hu2 V2) as [_ En2]. destruct V2 as [nv V2].
  apply (late_n _ nv). intros n k Hn. exact (knows_unit smap X sort workspace sig_of show_float is_float n k B f2 u2 w Hmade Hapart Hf2 Hu2 (V2 n Hn) En2).
Qed.
Lemma path_eq D e : is_path e -> evaluate D e = of_ref D (e_ref (evaluate D e)).
Proof. destruct e; cbn [is_path]; intros H; try contradiction H; reflexivity. Qed.
(** Arguments that are places. *)
Lemma argument_goes e n k target pc s a ty pc' s1 size : (match e with EVariable _ | EField _ _ | EIndex _ _ | EMethodCall _ _ _ | ECall _ _ => True | _ => False end) ->
  goes L (e_ref (evaluate (DB n k) e)) pc s (a, ty) pc' s1 -> tsize ty = Ok size -> goes L (convert_arg (DB n k) e (evaluate (DB n k) e) target) pc s (MArg (hex a) APointer size) pc' s1.
Proof.
  intros He (t & E & Ft) Sz.
  assert (Q : goes L (ematch (e_ref (evaluate (DB n k) e)) (fun p => ebind (elift (tsize (snd p))) (fun q => eret (MArg (hex (fst p)) APointer q))) (ebind (e_val (evaluate (DB n k) e)) (fun q => elift (fallback_arg (DB n k) q)))) pc s (MArg (hex a) APointer size) pc' s1).
  { exists t. split; [|exact Ft]. unfold ematch. rewrite exec_bind, E. cbn [fst snd]. rewrite Sz. unfold ebind, elift, eret. cbn [pbind exec fst snd]. rewrite app_nil_r. reflexivity. }
  destruct e; try contradiction He; exact Q.
Qed.
Lemma reaches_shape s e w a ty s1 : reaches s e w a ty s1 -> match e with EVariable _ | EField _ _ | EIndex _ _ | EMethodCall _ _ _ | ECall _ _ => True | _ => False end.
Proof. intros [ | | | | | ? ? ? ? ? ? ? ? C _ _]; try exact I. destruct C; exact I. Qed.
Lemma sends_one e es ps (x : marg) xs s s1 s2 : does (fun n k => convert_arg (DB n k) e (evaluate (DB n k) e) (match ps with p :: _ => Some (snd p) | [] => None end)) s x s1 ->
  does (fun n k => convert_args (DB n k) (map (fun a => (a, evaluate (DB n k) a)) es) (tl ps)) s1 xs s2 -> does (fun n k => convert_args (DB n k) (map (fun a => (a, evaluate (DB n k) a)) (e :: es)) ps) s (x :: xs) s2.
Proof.
  intros H1 H2. apply (does_bind (fun n k => convert_arg (DB n k) e (evaluate (DB n k) e) (match ps with p :: _ => Some (snd p) | [] => None end))
    (fun n k y => ebind (convert_args (DB n k) (map (fun a => (a, evaluate (DB n k) a)) es) (tl ps)) (fun l => eret (y :: l))) s x s1 _ s2 H1).
  apply (does_bind _ (fun _ _ l => eret (x :: l)) s1 xs s2 _ s2 H2). apply does_ret.
Qed.
Lemma report_texts m a ty method t x : reports m a ty method t x -> text t /\ text x /\ one_line x /\ x <> [] /\ (t = st "bool" -> exists q, x = truth q) /\ (t = st "usize" -> is_float x = true).
Proof.
  intros Re. assert (Td : forall n, text (dec n) /\ one_line (dec n) /\ dec n <> []).
  { intros n. split; [apply dec_text|]. split; [apply dec_one_line|]. destruct (JsonProofs.dec_head [] [] eq_refl eq_refl n) as (c & r' & Q & _). rewrite Q. discriminate. }
  assert (Tb : forall q, text (truth q) /\ one_line (truth q) /\ truth q <> []).
  { intros []; (split; [unfold truth; txt|]); (split; [|discriminate]); split; intros I; cbn in I; repeat (destruct I as [I | I]; [discriminate I|]); exact I. }
  clear - Re Td Tb Hfloat. destruct Re; (split; [txt|]); match goal with |- context [dec ?i] => destruct (Td i) as (Q1 & Q2 & Q3) | |- context [truth ?i] => destruct (Tb i) as (Q1 & Q2 & Q3) end; (split; [exact Q1|]); (split; [exact Q2|]); (split; [exact Q3|]);
    (split; [intros E; first [discriminate E | eexists; reflexivity] | intros E; first [discriminate E | apply Hfloat]]).
Qed.
(** Texts. *)
Lemma took s n a s1 : same_stop L s0 s -> takes L s n a s1 -> igoes L (ialloc n) s a s1 /\ same_stop L s0 s1.
Proof.
  intros Ss (Hn & Ha & Le & Sm & x & E & V & F & <-). destruct (stop_at s Ss) as (T & P & _). split; [|exact (same_stop_trans L _ _ _ Ss Sm)].
  unfold ialloc. apply (igoes_ask L _ (MemoryAllocated (v_unsigned x))); [split; clear - Hn Ha Le; lia | exact T | exact P | apply (p_allocate L s n x s1 E V F) | reflexivity].
Qed.
Lemma wrote_one s a d s1 : same_stop L s0 s -> l_write L s a d = (true, s1) -> same_stop L s s1 -> u64 a -> Forall byte d -> igoes L (iwrite a d) s tt s1 /\ same_stop L s0 s1.
Proof.
  intros Ss E Sm Ua Bd. destruct (stop_at s Ss) as (T & P & _). split; [|exact (same_stop_trans L _ _ _ Ss Sm)].
  unfold iwrite. apply (igoes_ask L _ MemoryWritten); [split; [exact Ua | exact Bd] | exact T | exact P | apply (p_write L s a d s1 E) | reflexivity].
Qed.
Lemma read_one s m a bs : same_stop L s0 s -> served (l_memory L s) m -> u64 a -> bs <> [] -> Z.of_nat (List.length bs) < two64 -> holds m a bs -> igoes L (rdm a (Z.of_nat (List.length bs))) s bs s.
Proof.
  intros Ss Hm Ua Nb Hl Hh. destruct (stop_at s Ss) as (T & P & _). unfold rdm. apply (igoes_ask L _ (MemoryData bs)); [split; [exact Ua | split; [clear; lia | exact Hl]] | exact T | exact P | apply p_memory; apply Hm; assumption | reflexivity].
Qed.
Lemma made s x ty size a s1 : same_stop L s0 s -> text x -> x <> [] -> makes L s x ty size a s1 -> tsize ty = Ok (Some size) /\ u64 size /\ igoes L (icreate_typed_value x ty) s a s1 /\ same_stop L s0 s1.
Proof.
  intros Ss Tx Nx Mk. revert Ss Tx Nx. destruct Mk as [s' x' lo dpo co it p c s1' s2 a' s3 s4 (F1 & F2 & F3 & F4 & F5 & F6) T1 W1 T2 W2 | s' x' dpo lo p c s1' s2 m F Bm T1 W Hm Hc Hp Hl]; intros Ss Tx Nx.
  - destruct (took _ _ _ _ Ss T1) as [G1 S1]. destruct T1 as (N1 & C1 & C2 & _). inversion W1 as [|? ? ? sa ? ? E1 Q1 W1']; subst. inversion W1'; subst. destruct (wrote_one _ _ _ _ S1 E1 Q1 ltac:(split; lia) (utf8_bytes x' Tx)) as [G2 S2].
    destruct (took _ _ _ _ S2 T2) as [G3 S3]. destruct T2 as (_ & A1 & A2 & _). clear W1 W1'.
    inversion W2 as [|? ? ? sb ? ? E2 Q2 W3]; subst. inversion W3 as [|? ? ? sc ? ? E3 Q3 W4]; subst. inversion W4 as [|? ? ? sd ? ? E4 Q4 W5]; subst. inversion W5 as [|? ? ? se ? ? E5 Q5 W6]; subst. inversion W6; subst.
    destruct (wrote_one _ _ _ _ S3 E2 Q2 ltac:(split; lia) ltac:(repeat (apply Forall_cons; [unfold byte; lia|]); apply Forall_nil)) as [G4 S4].
    destruct (wrote_one _ _ _ _ S4 E3 Q3 ltac:(split; lia) (encode_bytes _ _)) as [G5 S5]. destruct (wrote_one _ _ _ _ S5 E4 Q4 ltac:(split; lia) (encode_bytes _ _)) as [G6 S6]. destruct (wrote_one _ _ _ _ S6 E5 Q5 ltac:(split; lia) (encode_bytes _ _)) as [G7 S7].
    split; [reflexivity|]. split; [split; reflexivity || lia|]. split; [|exact S7].
    unfold icreate_typed_value. cbn [layOf]. unfold icreate_string. cbv zeta. fold (blen x').
    eapply igoes_bind; [exact G1|]. eapply igoes_bind; [exact G2|]. eapply igoes_bind; [apply igoes_lift; reflexivity|]. eapply igoes_bind; [exact G3|]. eapply igoes_bind; [exact G4|].
    eapply igoes_bind; [apply igoes_lift; apply DataProofs.add64_ok; unfold two64 in *; lia|]. eapply igoes_bind; [exact G5|].
    eapply igoes_bind; [apply igoes_lift; apply DataProofs.add64_ok; unfold two64 in *; lia|]. eapply igoes_bind; [exact G6|].
    eapply igoes_bind; [apply igoes_lift; apply DataProofs.add64_ok; unfold two64 in *; lia|]. eapply igoes_bind; [exact G7|]. apply igoes_ret.
  - assert (Ff : 0 <= dpo <= 8 /\ 0 <= lo <= 8 /\ 8 <= Z.abs (dpo - lo)) by (unfold str_fields in F; lia). clear F. destruct Ff as (F1 & F2 & F3). unfold mib in Bm. pose proof (blen_nonneg x') as Bn.
    destruct (took _ _ _ _ Ss T1) as [G1 S1]. destruct T1 as (N1 & C1 & C2 & _). inversion W as [|? ? ? sb ? ? E2 Q2 W3]; subst. inversion W3 as [|? ? ? sc ? ? E3 Q3 W4]; subst. inversion W4 as [|? ? ? sd ? ? E4 Q4 W5]; subst. inversion W5; subst.
    destruct (wrote_one _ _ _ _ S1 E2 Q2 ltac:(split; lia) (utf8_bytes x' Tx)) as [G2 S2]. destruct (wrote_one _ _ _ _ S2 E3 Q3 ltac:(split; lia) (encode_bytes _ _)) as [G3 S3]. destruct (wrote_one _ _ _ _ S3 E4 Q4 ltac:(split; lia) (encode_bytes _ _)) as [G4 S4].
    assert (Bx : 0 <= blen x' < two64) by lia. assert (Bb : 0 <= c < two64) by lia.
    split; [reflexivity|]. split; [split; reflexivity || lia|]. split; [|exact S4].
    unfold icreate_typed_value. cbn [layOf]. unfold icreate_str_slice. cbv zeta. fold (blen x'). replace ((16 <? dpo) || (16 <? lo)) with false by lia.
    eapply igoes_bind; [exact G1|]. eapply igoes_bind; [exact G2|]. eapply igoes_bind; [apply igoes_lift; apply DataProofs.add64_ok; unfold two64 in *; lia|].
    eapply igoes_bind; [apply igoes_lift; apply DataProofs.add64_ok; unfold two64 in *; lia|]. eapply igoes_bind; [exact G3|].
    eapply igoes_bind; [apply igoes_lift; apply DataProofs.add64_ok; unfold two64 in *; lia|]. eapply igoes_bind; [exact G4|].
    eapply igoes_bind. { pose proof (read_one _ m (c + blen x' + dpo) (encode 8 c) S4 Hm ltac:(split; lia) (encode_not_nil _) ltac:(rewrite encode_length; reflexivity) (proj2 Hp)) as Q. rewrite encode_length in Q. exact Q. }
    eapply igoes_bind. { pose proof (read_one _ m (c + blen x' + lo) (encode 8 (blen x')) S4 Hm ltac:(split; lia) (encode_not_nil _) ltac:(rewrite encode_length; reflexivity) (proj2 Hl)) as Q. rewrite encode_length in Q. exact Q. }
    eapply igoes_bind. { apply igoes_lift. unfold le_unwrap. rewrite encode_length. change (Z.of_nat 8 =? 8) with true. rewrite le_encode by (change (256 ^ Z.of_nat 8) with two64; exact Bb). reflexivity. }
    eapply igoes_bind. { apply igoes_lift. unfold le_unwrap. rewrite encode_length. change (Z.of_nat 8 =? 8) with true. rewrite le_encode by (change (256 ^ Z.of_nat 8) with two64; exact Bx). reflexivity. }
    rewrite !Z.eqb_refl. cbn [negb]. replace (1048576 <? blen x') with false by lia.
    eapply igoes_bind; [apply (read_one _ m c (utf8 x') S4 Hm Bb (utf8_not_nil x' Nx)); [fold (blen x'); lia | exact Hc]|].
    rewrite utf8_roundtrip by exact Tx. rewrite str_eqb_refl. cbn [negb]. apply igoes_ret.
Qed.
Lemma all_run : (forall s e w a ty s1, reaches s e w a ty s1 -> reach_runs s e w a ty s1) /\ (forall s e w rt rs x s1, calls s e w rt rs x s1 -> call_runs s e w rt rs x s1) /\
  (forall s e i s1, indexes s e i s1 -> index_runs s e i s1) /\ (forall s e x s1, keys s e x s1 -> key_runs s e x s1) /\ (forall s es ps cs s1, sends s es ps cs s1 -> send_runs s es ps cs s1).
Proof.
  apply nested_ind.
  - (* a variable *)
    intros s name x off ty F Lo Ct Ss. destruct (stop_at s Ss) as (T & P & H & Fr & Pc & Rs). split; [exact Ss|]. split; [exact (late_imp _ _ Hvars (fun _ _ y => proj2 y))|].
    destruct (complete_known v (va_ty x) ty Ct) as (k0 & K). refine (late_imp _ _ (late_and _ _ Hvars (late_k (fun _ k => (k0 <= k)%nat) k0 (fun _ k Hk => Hk))) _). intros n k [[G _] Hk] pc Hpc.
    exists (Some (l_pc L s0)). split; [right; reflexivity|]. rewrite <- Pc. apply eruns_goes. cbn [evaluate of_ref e_ref]. unfold variable_ref.
    eapply eruns_bind; [apply (eruns_pc L s T P H Fr); unfold at_pc in *; rewrite Pc; exact Hpc|]. eapply eruns_bind; [apply eruns_lift; rewrite Pc; apply (G name x F)|]. cbn [vp_fb vp_base vp_loc vp_ty]. rewrite Lo. eapply eruns_bind; [apply eruns_io; apply (runs_location L s T P H Fr); [destruct Ur; assumption | exact Ur | exact Rs]|].
    eapply eruns_bind; [apply eruns_lift; apply (K k Hk)|]. exists []. split; [reflexivity | constructor].
  - (* a field *)
    intros s e w a ty s1 n0 sz al fl name f _ IH El Ff Ua Ss. destruct (IH Ss) as (S1 & Kw & Do). split; [exact S1|]. split; [exact Kw|].
    refine (does_bind _ (fun _ _ p => elift (get_struct_field (fst p) (snd p) name)) s (a, ty) s1 _ s1 Do _). apply does_lift, late_const. cbn [fst snd]. unfold get_struct_field. rewrite El.
    assert (Fi : find (fun g : str * Z * tdef => str_eqb (fst (fst g)) name) fl = Some f) by (apply (proj2 (ParserProofs.find_first (fun g : str * Z * tdef => str_eqb (fst (fst g)) name) (fun g => f_name g = name) fl f (fun y _ => str_eqb_eq (fst (fst y)) name))); exact Ff).
    rewrite Fi. change (snd (fst f)) with (f_offset f). unfold add64. rewrite u64_in by exact Ua. reflexivity.
  - (* an element of an array *)
    intros s e w a ty s1 t len e' i size s2 _ IH El _ IH' Hi Sz Ui Ua Ss. destruct (IH Ss) as (S1 & Kw & Do). destruct (IH' S1) as (S2 & Do'). split; [exact S2|]. split; [exact Kw|].
    refine (does_bind _ (fun n k p => if is_map (layOf (snd p)) then _ else ebind (e_int (evaluate (DB n k) e')) (fun i => eio (iindex_int (g_env (DB n k)) (g_fuel (DB n k)) (fst p) (snd p) i))) s (a, ty) s1 _ s2 Do _). cbn [fst snd]. rewrite El. cbn [is_map].
    refine (does_bind _ (fun n k i => eio (iindex_int (g_env (DB n k)) (g_fuel (DB n k)) a ty i)) s1 i s2 _ s2 Do' _). apply does_io, (late_k _ 0%nat). intros n k _. unfold iindex_int. rewrite El. apply runs_lift. destruct (Z.leb_spec len i) as [Q|_]; [clear - Hi Q; lia|]. unfold element_at. rewrite Sz. cbn [bind].
    unfold mul64, add64. rewrite (u64_in _ Ui). cbn [bind]. rewrite (u64_in _ Ua). reflexivity.
  - (* an item of a vector *)
    intros s e w a ty s1 lo dpo co t q len e' i size s2 m _ IH El _ IH' Hm U1 U2 H1 H2 Hi Sz Ui Ua Ss. destruct (IH Ss) as (S1 & Kw & Do). destruct (IH' S1) as (S2 & Do'). destruct (stop_at s2 S2) as (T & P & _). split; [exact S2|]. split; [exact Kw|].
    refine (does_bind _ (fun n k p => if is_map (layOf (snd p)) then _ else ebind (e_int (evaluate (DB n k) e')) (fun i => eio (iindex_int (g_env (DB n k)) (g_fuel (DB n k)) (fst p) (snd p) i))) s (a, ty) s1 _ s2 Do _). cbn [fst snd]. rewrite El. cbn [is_map].
    refine (does_bind _ (fun n k i => eio (iindex_int (g_env (DB n k)) (g_fuel (DB n k)) a ty i)) s1 i s2 _ s2 Do' _). apply does_io, (late_k _ 0%nat). intros n k _. unfold iindex_int. rewrite El. eapply runs_bind; [apply (runs_vec_info L s2 T P m Hm show_float a lo dpo len q U1 U2 H1 H2)|]. cbn beta iota.
    apply runs_lift. destruct (Z.leb_spec len i) as [Q|_]; [clear - Hi Q; lia|]. unfold element_at. rewrite Sz. cbn [bind]. unfold mul64, add64. rewrite (u64_in _ Ui). cbn [bind]. rewrite (u64_in _ Ua). reflexivity.
  - (* the value under a key *)
    intros s e w a ty s1 kt vt mv pre ka va post e' x s2 m _ IH El _ [Q IH'] Hm En Kx Fp Ss. destruct (IH Ss) as (S1 & Kw & Do). destruct (IH' S1) as (S2 & Do'). destruct (stop_at s2 S2) as (T & P & H & Fr & _). split; [exact S2|]. split; [exact Kw|].
    refine (does_bind _ (fun n k p => if is_map (layOf (snd p)) then ebind (e_str (evaluate (DB n k) e')) (fun key => eio (iindex_map (g_env (DB n k)) (g_fuel (DB n k)) (fst p) (snd p) (VScalar (st "String") key))) else _) s (a, ty) s1 _ s2 Do _). cbn [fst snd]. rewrite El. cbn [is_map].
    refine (does_bind _ (fun n k key => eio (iindex_map (g_env (DB n k)) (g_fuel (DB n k)) a ty (VScalar (st "String") key))) s1 x s2 _ s2 Do' _). destruct (runs_key L s2 T P H Fr m show_float Hm w kt vt x va ka post pre Q Kx Fp) as (k0 & R).
    apply does_io. refine (late_imp _ _ (late_and _ _ Kw (late_k (fun _ k => (k0 <= k)%nat) k0 (fun _ k Hk => Hk))) _). intros n k [Kn Hk]. unfold iindex_map. rewrite El. eapply runs_bind; [apply (runs_entries L s2 T P m Hm a kt vt mv _ En)|]. cbn beta. apply (R k (DB n k)); [exact Hk | exact Kn|]. exact Hk.
  - (* what a call returned *)
    intros s e w t n0 x a s1 _ IH Re Sm Ss. destruct (IH Ss) as (Kw & _ & C). split; [exact (same_stop_trans L _ _ _ Ss Sm)|]. split; [exact Kw|]. apply (proj1 (C _ Re)). reflexivity.
  - (* a function *)
    intros s ms fn es y f2 u2 d2 w qs rt cs rs ctext x s1 s2 Wf Hh Cy De Ay Le _ IH Sz Urs Sc Ev Ss. destruct (IH Ss) as (S1 & xs & A1 & A2 & A3 & Do). destruct (stop_at s1 S1) as (T & P & _).
    pose proof (callee_listed smap fs order X sort workspace sig_of show_float is_float B tables ms fn y f2 u2 d2 w qs rt Hix Hmade Wf Hh Cy De) as Li.
    destruct De as (Fi & _ & _ & Hu2 & _ & V2 & _). split; [exact (unit_known f2 u2 w (made_here B _ f2 Fi) Hu2 V2)|]. split; [exact (df_eval L Fits s1 ctext x s2 Ev)|]. intros z Rz.
    assert (Cf : late (fun n k => exists g, df_ret g = rt /\ forall pc, at_pc L s0 pc -> exists pc', at_pc L s0 pc' /\ goes L (call_function (DB n k) (Base.join (st "::") (ms ++ [fn])) (map (fun a => (a, evaluate (DB n k) a)) es)) pc s (g, z) pc' s2)).
    { refine (late_imp _ _ (late_and _ _ Li Do) _). intros n k [(g & G1 & G2 & G3 & G4) Da]. exists g. split; [exact G4|]. intros pc Hpc. destruct (Da pc Hpc) as (pc' & Hpc' & Ra). exists pc'. split; [exact Hpc'|]. unfold call_function.
      eapply goes_bind; [apply goes_lift; unfold find_function; change (g_functions (DB n k) (Base.join (st "::") (ms ++ [fn]))) with (BinaryModel.discover_functions n k B (Base.join (st "::") (ms ++ [fn]))); rewrite G1; cbn [bind]; rewrite G2, G3, map_length; destruct (Z.eqb_spec (sym_addr y) 0) as [E0|_]; [clear - Ay E0; lia|]; rewrite Le, Nat.eqb_refl; reflexivity|].
      eapply goes_bind; [rewrite G3; exact Ra|]. eapply goes_bind; [apply goes_lift; rewrite G4; unfold return_size; destruct rt as [t|]; [exact Sz | cbn in Sz; rewrite Sz; reflexivity]|].
      apply (goes_bind L _ _ pc' s1 z pc' s2 _ pc' s2); [|apply goes_ret]. eapply goes_ask; [| exact T | exact P | |].
      + rewrite G2. cbn [request_fits]. split; [exact (conj (Z.lt_le_incl _ _ (proj1 Ay)) (proj2 Ay))|]. split; [exact A3 | exact Urs].
      + eapply p_function; [rewrite A1, A2, G2; exact Sc | exact Ev | exact Rz].
      + reflexivity. }
    split; [|split].
    + intros p Rr. refine (late_imp _ _ Cf _). intros n k (g & Gr & C) pc Hpc. destruct (C pc Hpc) as (pc' & Hpc' & R). exists pc'. split; [exact Hpc'|]. cbn [evaluate e_ref]. unfold function_ref. eapply goes_bind; [exact R|]. apply goes_lift. cbn [fst snd]. rewrite Gr. exact Rr.
    + intros msg Rr. refine (late_imp _ _ Cf _). intros n k (g & Gr & C) pc Hpc. destruct (C pc Hpc) as (pc' & Hpc' & R). exists pc'. split; [exact Hpc'|]. cbn [evaluate e_ref]. unfold function_ref. eapply goes_breaks; [exact R|]. apply breaks_lift. cbn [fst snd]. rewrite Gr. exact Rr.
    + intros q Dq. refine (late_imp _ _ (late_and _ _ Cf Dq) _). intros n k [(g & Gr & C) C2] pc Hpc. destruct (C pc Hpc) as (pc' & Hpc' & R). destruct (C2 pc' Hpc') as (pc2 & Hpc2 & R2). exists pc2. split; [exact Hpc2|]. cbn [evaluate e_val]. unfold function_val. eapply goes_bind; [exact R|]. cbn [fst snd]. rewrite Gr. exact R2.
  - (* a method *)
    intros s e w0 a ty s1 method es l me f2 u2 w cs rs ctext x s2 s3 _ IH0 Ua Nb Li Fm Ay Hf2 Hu2 V2 _ IH Sz Urs Sc Ev Ss. destruct (IH0 Ss) as (S1 & _ & D0). destruct (IH S1) as (S2 & xs & A1 & A2 & A3 & Do). destruct (stop_at s2 S2) as (T & P & _).
    split; [exact (unit_known f2 u2 w Hf2 Hu2 V2)|]. split; [exact (df_eval L Fits s2 ctext x s3 Ev)|]. intros z Rz.
    assert (Sn : synthetic_name (layOf ty) method = false).
    { unfold synthetic_name. destruct (existsb (str_eqb method) (SynthModel.synthetic_methods (layOf ty))) eqn:Ex; [|reflexivity]. exfalso. apply existsb_exists in Ex. destruct Ex as (q & Iq & Q). apply str_eqb_eq in Q. subst q. revert Iq. apply Nb. destruct (layOf ty); reflexivity. }
    assert (Cf : does (fun n k => call_method (DB n k) (a, ty) method (map (fun a => (a, evaluate (DB n k) a)) es)) s1 (me, z) s3).
    { refine (late_imp _ _ (late_and _ _ Li Do) _). intros n k [Li' Da] pc Hpc. destruct (Da pc Hpc) as (pc' & Hpc' & Ra). exists pc'. split; [exact Hpc'|]. unfold call_method.
      apply (goes_bind L _ _ pc s1 me pc s1 _ pc' s3).
      - apply goes_lift. unfold find_method. cbn [snd]. change (g_methods (DB n k) ty) with (BinaryModel.discover_methods n k B X sig_of ty). rewrite Li'. unfold rmap. cbn [bind].
        assert (Fi : find (fun q => str_eqb (dm_name q) method) (filter has_self l) = Some me).
        { destruct Fm as (l1 & l2 & -> & [[kk Hs] Hnm] & F1). rewrite filter_app. clear - Hs Hnm F1. induction F1 as [|q l1 Nq _ IH]; [cbn [filter app]; unfold has_self at 1; rewrite Hs; cbn [find]; rewrite Hnm, str_eqb_refl; reflexivity|].
          cbn [filter]. unfold has_self at 1. destruct (dm_self q) as [qs|] eqn:Eq; [|exact IH]. cbn [app find]. destruct (str_eqb (dm_name q) method) eqn:En; [|exact IH]. exfalso. apply Nq. split; [exists qs; exact Eq | apply str_eqb_eq; exact En]. }
        rewrite Fi. destruct (Z.eqb_spec (dm_addr me) 0) as [E0|_]; [clear - Ay E0; lia | reflexivity].
      - eapply goes_bind; [exact Ra|]. eapply goes_bind; [apply goes_lift; unfold return_size; unfold result_size in Sz; destruct (dm_ret me) as [t|]; [exact Sz | rewrite Sz; reflexivity]|].
        apply (goes_bind L _ _ pc' s2 z pc' s3 _ pc' s3); [|apply goes_ret]. eapply goes_ask; [| exact T | exact P | |].
        + cbn [request_fits fst snd]. split; [exact (conj (Z.lt_le_incl _ _ (proj1 Ay)) (proj2 Ay))|]. split; [exact Ua|]. split; [exact A3 | exact Urs].
        + cbn [fst snd]. eapply p_method; [rewrite A1, A2; exact Sc | exact Ev | exact Rz].
        + reflexivity. }
    split; [|split].
    + intros p Rr. refine (does_bind _ (fun n k p => if synthetic_name (layOf (snd p)) method then _ else ebind (call_method (DB n k) p method (map (fun a => (a, evaluate (DB n k) a)) es)) (fun c => elift (result_ref (dm_ret (fst c)) (snd c)))) s (a, ty) s1 _ s3 D0 _). cbn [snd]. rewrite Sn.
      refine (does_bind _ (fun n k c => elift (result_ref (dm_ret (fst c)) (snd c))) s1 (me, z) s3 _ s3 Cf _). apply does_lift, late_const. exact Rr.
    + intros msg Rr. refine (late_imp _ _ (late_and _ _ D0 Cf) _). intros n k [G0 G1] pc Hpc. destruct (G0 pc Hpc) as (pc1 & Hpc1 & R0). destruct (G1 pc1 Hpc1) as (pc2 & Hpc2 & R1). exists pc2. split; [exact Hpc2|]. cbn [evaluate e_ref]. unfold method_ref. eapply goes_breaks; [exact R0|]. cbn [snd]. rewrite Sn. eapply goes_breaks; [exact R1|]. apply breaks_lift. exact Rr.
    + intros q Dq. refine (does_bind _ (fun n k p => if synthetic_name (layOf (snd p)) method then _ else ebind (call_method (DB n k) p method (map (fun a => (a, evaluate (DB n k) a)) es)) (fun c => eio (result_val (DB n k) (dm_ret (fst c)) (snd c)))) s (a, ty) s1 _ s3 D0 _). cbn [snd]. rewrite Sn.
      refine (does_bind _ (fun n k c => eio (result_val (DB n k) (dm_ret (fst c)) (snd c))) s1 (me, z) s3 _ s3 Cf _). exact Dq.
  - intros s i Ss. split; [exact Ss|]. apply does_ret.
  - (* a place that holds a number *)
    intros s e w a ty s1 m t j i _ IH Ip Hm F Hi Ss. destruct (IH Ss) as (S1 & Kw & Do). split; [exact S1|]. refine (does_imp (fun n k => ebind (e_ref (evaluate (DB n k) e)) (fun p => eio (read_int (DB n k) (g_fuel (DB n k)) p))) _ s i s1 _ _); [|intros n k; rewrite (path_eq (DB n k) e Ip) at 1; reflexivity].
    refine (does_bind _ (fun n k p => eio (read_int (DB n k) (g_fuel (DB n k)) p)) s (a, ty) s1 _ s1 Do _). apply does_io. refine (late_imp _ _ (fuel_late w m j a ty t _ s1 S1 Kw Hm F) _). intros n k (Hk & Fu & R). rewrite Fu. destruct k as [|k]; [lia|]. cbn [read_int]. eapply runs_bind; [exact R|]. cbn beta iota.
    apply runs_lift. apply displayed_integer_is_index. split; [reflexivity | exact Hi].
  - intros s e i s1 _ IH Ss. exact (IH Ss).
  - intros s x Q. split; [exact Q|]. intros Ss. split; [exact Ss|]. apply does_ret.
  - (* a place that holds a key *)
    intros s e w a ty s1 m t j z x _ IH Ip Hm F Dz. split; [apply Dz|]. intros Ss. destruct (IH Ss) as (S1 & Kw & Do). split; [exact S1|]. refine (does_imp (fun n k => ebind (e_ref (evaluate (DB n k) e)) (fun p => eio (read_str (DB n k) (g_fuel (DB n k)) p))) _ s x s1 _ _); [|intros n k; rewrite (path_eq (DB n k) e Ip) at 1; reflexivity].
    refine (does_bind _ (fun n k p => eio (read_str (DB n k) (g_fuel (DB n k)) p)) s (a, ty) s1 _ s1 Do _). apply does_io. refine (late_imp _ _ (fuel_late w m j a ty t _ s1 S1 Kw Hm F) _). intros n k (Hk & Fu & R). rewrite Fu. destruct k as [|k]; [lia|]. cbn [read_str]. eapply runs_bind; [exact R|]. cbn beta iota.
    change (ch """") with quote. rewrite (trim_denotes z x Dz). apply runs_ret.
  - intros s e x s1 _ [Q IH]. split; [exact Q | exact IH].
  - intros s ps Ss. split; [exact Ss|]. exists []. split; [reflexivity|]. split; [reflexivity|]. split; [apply Forall_nil|]. apply does_ret.
  - (* a number *)
    intros s n0 es ps cs s1 Hn _ IH Ss. destruct (IH Ss) as (S1 & xs & A1 & A2 & A3 & Do). split; [exact S1|]. exists (MArg (dec_nat n0) AInteger None :: xs). assert (En : dec_nat n0 = dec n0) by (unfold dec; destruct (Z.ltb_spec n0 0) as [Q|_]; [clear - Hn Q; lia | reflexivity]). rewrite En.
    unfold sizes_of in *. cbn [map flat_map fst snd c_argument ma_type ma_value ma_size app]. rewrite A1, A2. split; [reflexivity|]. split; [reflexivity|]. split; [apply Forall_cons; [split; [apply dec_text | exact I] | exact A3]|].
    refine (sends_one (ENumber n0) es ps _ xs s s s1 _ Do). cbn [convert_arg]. rewrite En. apply does_ret.
  - (* a place passed by value *)
    intros s e w a ty s1 size es ps cs s2 Re IH0 Sz Us _ IH Ss. destruct (IH0 Ss) as (S1 & _ & D0). destruct (IH S1) as (S2 & xs & A1 & A2 & A3 & Do). split; [exact S2|]. exists (MArg (hex a) APointer (Some size) :: xs).
    unfold sizes_of in *. cbn [map flat_map fst snd c_argument ma_type ma_value ma_size app]. rewrite A1, A2. split; [reflexivity|]. split; [reflexivity|]. split; [apply Forall_cons; [split; [apply hex_text | exact Us] | exact A3]|].
    refine (sends_one e es ps _ xs s s1 s2 _ Do). refine (late_imp _ _ D0 _). intros n k D1 pc Hpc. destruct (D1 pc Hpc) as (pc' & Hpc' & G). exists pc'. split; [exact Hpc'|]. exact (argument_goes e n k _ pc s a ty pc' s1 _ (reaches_shape _ _ _ _ _ _ Re) G Sz).
  - (* a place passed by its address *)
    intros s e w a ty s1 es ps cs s2 Re IH0 Sz _ IH Ss. destruct (IH0 Ss) as (S1 & _ & D0). destruct (IH S1) as (S2 & xs & A1 & A2 & A3 & Do). split; [exact S2|]. exists (MArg (hex a) APointer None :: xs).
    unfold sizes_of in *. cbn [map flat_map fst snd c_argument ma_type ma_value ma_size app]. rewrite A1, A2. split; [reflexivity|]. split; [reflexivity|]. split; [apply Forall_cons; [split; [apply hex_text | exact I] | exact A3]|].
    refine (sends_one e es ps _ xs s s1 s2 _ Do). refine (late_imp _ _ D0 _). intros n k D1 pc Hpc. destruct (D1 pc Hpc) as (pc' & Hpc' & G). exists pc'. split; [exact Hpc'|]. exact (argument_goes e n k _ pc s a ty pc' s1 _ (reaches_shape _ _ _ _ _ _ Re) G Sz).
  - (* a built-in method *)
    intros s e a ty m method t x c es ps cs s1 Sd Hm Re Bc _ IH Ss. destruct (IH Ss) as (S1 & xs & A1 & A2 & A3 & Do). split; [exact S1|]. destruct (stop_at s Ss) as (T & P & H & Fr & Pc & Rs).
    destruct (report_texts m a ty method t x Re) as (Tt & Tx & Ol & Nx & Hb & Hu). destruct (runs_reports L s T P H Fr m show_float Hm a ty method t x Re) as [Sn Rr].
    destruct (stands_ref L s T P H Fr m show_float Hm v u vars b r base Ur Rs e a ty Sd) as (k0 & K0).
    assert (Cc : exists y, c_argument y = c /\ ma_size y = None /\ arg_fits y /\ does (fun n k => convert_arg (DB n k) (EMethodCall e method []) (evaluate (DB n k) (EMethodCall e method [])) (match ps with p :: _ => Some (snd p) | [] => None end)) s y s).
    { assert (Y : exists y, c_argument y = c /\ ma_size y = None /\ arg_fits y /\ forall n k, fallback_arg (DB n k) (EResult x t) = Ok y).
      { clear - Bc Hb Hu Tx. destruct Bc as [[-> ->] | [-> ->]].
        - destruct (Hb eq_refl) as [[] ->]; eexists; (split; [|split; [|split; [|intros; reflexivity]]]); [reflexivity | reflexivity | split; [txt | exact I] | reflexivity | reflexivity | split; [txt | exact I]].
        - exists (MArg x AInteger None). split; [reflexivity|]. split; [reflexivity|]. split; [split; [exact Tx | exact I]|]. intros n k. unfold fallback_arg. cbn [er_type er_value]. change (g_float (DB n k) x) with (is_float x). rewrite (Hu eq_refl). reflexivity. }
      destruct Y as (y & Y1 & Y2 & Y3 & Y4). exists y. split; [exact Y1|]. split; [exact Y2|]. split; [exact Y3|].
      refine (late_imp _ _ (late_and _ _ Hvars (late_k (fun _ k => (k0 <= k)%nat) k0 (fun _ k Hk => Hk))) _). intros n k [[G Kn] Hk] pc Hpc. exists (Some (l_pc L s0)). split; [right; reflexivity|].
      assert (G' : answers_variables L s (DB n k) u v vars (Some [OReg r]) base k) by (unfold answers_variables in *; rewrite Pc; exact G). destruct (K0 k (DB n k) Hk G' Kn) as [E _].
      assert (Hpc' : at_pc L s pc) by (unfold at_pc in *; rewrite Pc; exact Hpc). pose proof (E pc Hpc') as E1. pose proof (E (Some (l_pc L s0)) ltac:(right; rewrite Pc; reflexivity)) as E2. rewrite Pc in E1, E2.
      assert (Bk : breaks (e_ref (evaluate (DB n k) (EMethodCall e method []))) pc s "Synthetic method cannot be used as an argument" (Some (l_pc L s0)) s).
      { cbn [evaluate e_ref map]. unfold method_ref. eapply goes_breaks; [exact E1|]. cbn [snd]. rewrite Sn. apply breaks_lift. reflexivity. }
      assert (Gv : goes L (e_val (evaluate (DB n k) (EMethodCall e method []))) (Some (l_pc L s0)) s (EResult x t) (Some (l_pc L s0)) s).
      { cbn [evaluate e_val map]. unfold method_val. eapply goes_bind; [exact E2|]. cbn [fst snd]. rewrite Sn. eapply goes_bind; [apply eruns_goes, eruns_io; exact Rr|]. rewrite (formatted_exactly_partial (VScalar t x) (ti_scalar t x Ol Nx)). cbn [shown Base.join value_type]. apply goes_ret. }
      destruct Bk as (t1 & X1 & F1). destruct Gv as (t2 & X2 & F2). exists (t1 ++ t2). split; [|apply Forall_app; split; assumption]. cbn [convert_arg]. unfold ematch. rewrite exec_bind, X1. cbn [fst snd]. unfold ebind at 1. rewrite exec_bind, X2. cbn [fst snd]. unfold elift. rewrite Y4. cbn [exec]. rewrite app_nil_r. reflexivity. }
    destruct Cc as (y & Y1 & Y2 & Y3 & Dy). exists (y :: xs). unfold sizes_of in *. cbn [map flat_map fst snd app]. rewrite A1, A2, Y1, Y2. split; [reflexivity|]. split; [reflexivity|]. split; [apply Forall_cons; assumption|].
    exact (sends_one (EMethodCall e method []) es ps y xs s s s1 Dy Do).
  - (* a text *)
    intros s x ty size a s1 es name ps cs s2 Tx Nx Mk _ IH Ss. destruct (made s x ty size a s1 Ss Tx Nx Mk) as (Sz & Us & G0 & S1). destruct (IH S1) as (S2 & xs & A1 & A2 & A3 & Do). split; [exact S2|]. exists (MArg (hex a) APointer (Some size) :: xs).
    unfold sizes_of in *. cbn [map flat_map fst snd c_argument ma_type ma_value ma_size app]. rewrite A1, A2. split; [reflexivity|]. split; [reflexivity|]. split; [apply Forall_cons; [split; [apply hex_text | exact Us] | exact A3]|].
    refine (sends_one (EString x) es ((name, ty) :: ps) _ xs s s1 s2 _ Do). apply (late_k _ 0%nat). intros n k _ pc Hpc. exists pc. split; [exact Hpc|]. cbn [convert_arg snd].
    eapply goes_bind; [apply goes_io; exact G0|]. eapply goes_bind; [apply goes_lift; exact Sz | apply goes_ret].
Qed.
Lemma shows_run s e lines s1 : shows s e lines s1 -> same_stop L s0 s -> exists value ty, lines = [st "type: " ++ ty; st "value: " ++ value] /\ text value /\ text ty /\ does (fun n k => e_val (evaluate (DB n k) e)) s (EResult value ty) s1.
Proof.
  destruct all_run as (R & C & _). induction 1 as [s n0 Hn | s x Tx | s e w a ty s1 m z Re Ip Hm Fo Ti Tt Tw | s e w rt rs x s1 lines Ca Ou | s e w a ty s1 m method t x Re Hm Rp | s e lines s1 _ IH]; intros Ss.
  - exists (dec n0), (st "u64"). split; [reflexivity|]. split; [apply dec_text|]. split; [txt|]. assert (En : dec_nat n0 = dec n0) by (unfold dec; destruct (Z.ltb_spec n0 0) as [Q|_]; [clear - Hn Q; lia | reflexivity]). cbn [evaluate e_val]. rewrite En. apply does_ret.
  - exists ([ch """"] ++ x ++ [ch """"]), (st "String"). split; [reflexivity|]. split; [|split; [txt|]].
    + apply Forall_app. split; [apply Forall_cons; [|apply Forall_nil]; change (ch """") with 34%N; unfold scalar; lia|]. apply Forall_app. split; [exact Tx|]. apply Forall_cons; [|apply Forall_nil]. change (ch """") with 34%N. unfold scalar; lia.
    + apply does_ret.
  - destruct (R _ _ _ _ _ _ Re Ss) as (S1 & Kw & Do). destruct (stop_at s1 S1) as (T & P & _). exists (Base.join [lf] (shown z)), (tname ty). split; [reflexivity|]. split; [apply join_text; exact Tw|]. split; [exact Tt|].
    refine (does_imp (fun n k => ebind (e_ref (evaluate (DB n k) e)) (fun p => eio (pointer_to_result (DB n k) p))) _ s _ s1 _ _); [|intros n k; rewrite (path_eq (DB n k) e Ip) at 1; reflexivity].
    refine (does_bind _ (fun n k p => eio (pointer_to_result (DB n k) p)) s (a, ty) s1 _ s1 Do _). destruct (found_reads L s1 T P m Hm show_float w 8 a ty z Fo) as (k1 & K1).
    apply does_io. refine (late_imp _ _ (late_and _ _ Kw (late_k (fun _ k => (k1 <= k)%nat) k1 (fun _ k Hk => Hk))) _). intros n k [Kn Hk]. destruct (K1 k (DB n k) Hk Kn) as (y & X1 & X2 & _). unfold pointer_to_result.
    eapply runs_bind; [unfold read_pointer; cbn [fst snd]; apply X1; exact Hk|]. eapply runs_bind; [specialize (X2 (fun y => y)); rewrite !map_type_id in X2; exact X2|]. rewrite (formatted_exactly_partial z Ti). apply runs_ret.
  - destruct (C _ _ _ _ _ _ _ Ca Ss) as (Kw & Fx & Cz). destruct (outcome_shown L w show_float x s1 rt rs lines Ou Fx) as (z & value & ty & k4 & R1 & -> & Tv & Tt & R2). exists value, ty. split; [reflexivity|]. split; [exact Tv|]. split; [exact Tt|].
    destruct (Cz z R1) as (_ & _ & Cv). apply Cv. refine (late_imp _ _ (late_and _ _ Kw (late_k (fun _ k => (k4 <= k)%nat) k4 (fun _ k Hk => Hk))) _). intros n k [Kn Hk] pc Hpc. exists pc. split; [exact Hpc|]. exact (R2 k (DB n k) pc Hk Kn).
  - destruct (R _ _ _ _ _ _ Re Ss) as (S1 & Kw & Do). destruct (stop_at s1 S1) as (T & P & H & Fr & _). destruct (report_texts m a ty method t x Rp) as (Tt & Tx & Ol & Nx & _ & _). destruct (runs_reports L s1 T P H Fr m show_float Hm a ty method t x Rp) as [Sn Rr].
    exists x, t. split; [reflexivity|]. split; [exact Tx|]. split; [exact Tt|]. refine (late_imp _ _ Do _). intros n k D1 pc Hpc. destruct (D1 pc Hpc) as (pc' & Hpc' & G). exists pc'. split; [exact Hpc'|].
    cbn [evaluate e_val map]. unfold method_val. eapply goes_bind; [exact G|]. cbn [fst snd]. rewrite Sn. eapply goes_bind; [apply eruns_goes, eruns_io; exact Rr|]. rewrite (formatted_exactly_partial (VScalar t x) (ti_scalar t x Ol Nx)). cbn [shown Base.join value_type]. apply goes_ret.
  - destruct (IH Ss) as (value & ty & E & Tv & Tt & Do). exists value, ty. split; [exact E|]. split; [exact Tv|]. split; [exact Tt | exact Do].
Qed.
(** A call that returns a bare number, as the only argument of a function: it is run for the attempt to see it as a place, and again. *)
Lemma again_run s e w rt x1 s1 w' rt' x2 s2 : calls s e w rt None x1 s1 -> returns x1 None (Simple (v_unsigned x1) (st "usize")) -> same_stop L s s1 -> calls s1 e w' rt' None x2 s2 -> returns x2 None (Simple (v_unsigned x2) (st "usize")) -> same_stop L s1 s2 -> same_stop L s0 s ->
  forall target, does (fun n k => convert_arg (DB n k) e (evaluate (DB n k) e) target) s (MArg (dec (v_unsigned x2)) AInteger None) s2.
Proof.
  destruct all_run as (_ & C & _). intros C1 R1 Sm1 C2 R2 Sm2 Ss target. pose proof (same_stop_trans L _ _ _ Ss Sm1) as S1. assert (He : match e with EMethodCall _ _ _ | ECall _ _ => True | _ => False end) by (destruct C1; exact I).
  destruct (C _ _ _ _ _ _ _ C1 Ss) as (_ & _ & Z1). destruct (Z1 _ R1) as (_ & E1 & _). destruct (C _ _ _ _ _ _ _ C2 S1) as (_ & _ & Z2). destruct (Z2 _ R2) as (_ & _ & E2).
  specialize (E1 _ eq_refl). assert (D2 : does (fun n k => e_val (evaluate (DB n k) e)) s1 (EResult (dec (v_unsigned x2)) (st "usize")) s2).
  { apply E2. apply (late_k _ 0%nat). intros n k _ pc Hpc. exists pc. split; [exact Hpc|]. exists []. split; [reflexivity | constructor]. }
  refine (late_imp _ _ (late_and _ _ E1 D2) _). intros n k [G1 G2] pc Hpc. destruct (G1 pc Hpc) as (pc1 & Hpc1 & t1 & X1 & F1). destruct (G2 pc1 Hpc1) as (pc2 & Hpc2 & t2 & X2 & F2). exists pc2. split; [exact Hpc2|].
  assert (Q : goes L (ematch (e_ref (evaluate (DB n k) e)) (fun p => ebind (elift (tsize (snd p))) (fun q => eret (MArg (hex (fst p)) APointer q))) (ebind (e_val (evaluate (DB n k) e)) (fun q => elift (fallback_arg (DB n k) q)))) pc s (MArg (dec (v_unsigned x2)) AInteger None) pc2 s2).
  { exists (t1 ++ t2). split; [|apply Forall_app; split; assumption]. unfold ematch. rewrite exec_bind, X1. cbn [fst snd]. unfold ebind at 1. rewrite exec_bind, X2. cbn [fst snd]. unfold elift, fallback_arg. cbn [er_type er_value]. change (g_float (DB n k) (dec (v_unsigned x2))) with (is_float (dec (v_unsigned x2))). rewrite Hfloat.
    change (str_eqb (st "usize") (st "bool")) with false. cbn [andb]. change (contains (st "usize") (st "f32") || contains (st "usize") (st "f64")) with false. cbn [exec]. rewrite app_nil_r. reflexivity. }
  destruct e; try contradiction He; exact Q.
Qed.
End Run.

(** ** C127 *)
(** [rd eval <expression>], with calls anywhere in it: as the object of a field, an index or another call, and as an argument when it
    returns a value of known size. The calls are run one after the other, each once and in the state the ones before it left; the printed
    lines are the type and the value that [shows] says. *)
Theorem nested_expression_printed_partial : forall St (L : debugger St) s p B tables,
  debugger_fits L -> l_target L s = true -> l_process L s = true -> l_thread L s = true -> l_frame L s = true -> text p ->
  open_binary smap fs order X (components p) = Ok B -> bi_index B = index_symbol_map X tables -> Forall well_formed (bi_made B) -> BinaryTypes.apart (bi_made B) ->
  forall f u d v ps ls r b args e lines s1, stopped smap X L s B tables f u d v ps ls r b ->
  args <> [] -> Forall text args -> parse_expression (Base.join (st " ") args) = Ok e ->
  shows L X sig_of tables B v u (somes ps ++ somes ls) b show_float s e lines s1 ->
  exists k0, forall k, (k0 <= k)%nat -> exists n0, forall n, (n0 <= n)%nat -> prints_leaving L s p n k args lines s1.
Proof.
  intros St L s p B tables Fits HT HP HH HF Tp Op Hix Hmade Hapart f u d v ps ls r b args e lines s1 Sp Na Ta Pe Sh.
  pose proof Sp as (sa & l & si & _ & _ & _ & Ur & Rg). destruct (stopped_answers smap X sort workspace sig_of show_float is_float Hsort St L s B tables f u d v ps ls r b Hix Hmade Hapart Sp) as (base & Hv).
  destruct (shows_run L s B tables Fits HT HP HH HF Hix Hmade Hapart v u (somes ps ++ somes ls) r b base Ur Rg Hv s e lines s1 Sh (same_stop_refl L s)) as (value & ty & -> & Tv & Tt & Do).
  refine (late_imp _ _ Do _). intros n k Dn. destruct (Dn None (or_introl eq_refl)) as (pc & _ & G).
  exact (goes_prints smap fs order X sort workspace sig_of show_float is_float St L s p B n k args e value ty pc s1 Fits Tp Op Na Ta Pe G Tv Tt).
Qed.
(** But a call that returns a number of unknown size, written as an argument, is run twice, and what the second run gives is passed. *)
Theorem argument_call_runs_once_refuted : forall St (L : debugger St) s p B tables,
  debugger_fits L -> l_target L s = true -> l_process L s = true -> l_thread L s = true -> l_frame L s = true -> text p ->
  open_binary smap fs order X (components p) = Ok B -> bi_index B = index_symbol_map X tables -> Forall well_formed (bi_made B) -> BinaryTypes.apart (bi_made B) ->
  forall f u d v ps ls r b args e w rt x1 s1 w' rt' x2 s2 ms fn y f2 u2 d2 w2 q rt2 rs ctext x s3 lines, stopped smap X L s B tables f u d v ps ls r b ->
  args <> [] -> Forall text args -> parse_expression (Base.join (st " ") args) = Ok (ECall (Base.join (st "::") (ms ++ [fn])) [e]) ->
  let runs_to := calls L X sig_of tables B v u (somes ps ++ somes ls) b show_float in
  runs_to s e w rt None x1 s1 -> returns x1 None (Simple (v_unsigned x1) (st "usize")) -> same_stop L s s1 ->
  runs_to s1 e w' rt' None x2 s2 -> returns x2 None (Simple (v_unsigned x2) (st "usize")) -> same_stop L s1 s2 ->
  Forall wf_segment (ms ++ [fn]) -> ~ hash_like fn -> callee (history X tables) ms fn y -> declares (history X tables) B y f2 u2 d2 w2 [q] rt2 -> 0 < sym_addr y < two64 -> result_size rt2 rs -> opt u64 rs ->
  says_call ctext (sym_addr y) [(st "unsigned long", dec (v_unsigned x2))] "void" [] rs -> l_eval L s2 ctext = (x, s3) -> outcome L w2 show_float x s3 rt2 rs lines ->
  exists k0, forall k, (k0 <= k)%nat -> exists n0, forall n, (n0 <= n)%nat -> prints_leaving L s p n k args lines s3.
Proof.
  intros St L s p B tables Fits HT HP HH HF Tp Op Hix Hmade Hapart f u d v ps ls r b args e w rt x1 s1 w' rt' x2 s2 ms fn y f2 u2 d2 w2 q rt2 rs ctext x s3 lines Sp Na Ta Pe runs_to C1 R1 Sm1 C2 R2 Sm2 Wf Hh Cy De Ay Sz Urs Sc Ev Ou.
  pose proof Sp as (sa & l & si & _ & _ & _ & Ur & Rg). destruct (stopped_answers smap X sort workspace sig_of show_float is_float Hsort St L s B tables f u d v ps ls r b Hix Hmade Hapart Sp) as (base & Hv).
  pose proof (again_run L s B tables Fits HT HP HH HF Hix Hmade Hapart v u (somes ps ++ somes ls) r b base Ur Rg Hv s e w rt x1 s1 w' rt' x2 s2 C1 R1 Sm1 C2 R2 Sm2 (same_stop_refl L s)) as Ag.
  pose proof (callee_listed smap fs order X sort workspace sig_of show_float is_float B tables ms fn y f2 u2 d2 w2 [q] rt2 Hix Hmade Wf Hh Cy De) as Li.
  destruct (outcome_shown L w2 show_float x s3 rt2 rs lines Ou (df_eval L Fits s2 ctext x s3 Ev)) as (z & value & ty & k4 & Rz & -> & Tv & Tt & Rr).
  destruct De as (Fi & _ & _ & Hu2 & _ & V2 & _). pose proof (unit_known B Hmade Hapart f2 u2 w2 (made_here B _ f2 Fi) Hu2 V2) as Kw.
  destruct (stop_at L s HT HP HH HF r b Rg s2 (same_stop_trans L _ _ _ Sm1 Sm2)) as (T & P & _).
  refine (late_imp _ _ (late_and _ _ (late_and _ _ (Ag (Some (snd q))) Li) (late_and _ _ Kw (late_k (fun _ k => (k4 <= k)%nat) k4 (fun _ k Hk => Hk)))) _). intros n k [[Da (g & G1 & G2 & G3 & G4)] [Kn Hk]].
  destruct (Da None (or_introl eq_refl)) as (pc & _ & Ra). set (DB := debug_info sort smap workspace n k B X sig_of utf8_lossy show_float is_float) in *.
  apply (goes_prints smap fs order X sort workspace sig_of show_float is_float St L s p B n k args _ value ty pc s3 Fits Tp Op Na Ta Pe); [|exact Tv | exact Tt]. fold DB. cbn [evaluate e_val]. unfold function_val, call_function.
  apply (goes_bind L _ _ None s (g, z) pc s3 _ pc s3); [|cbn [fst snd]; rewrite G4; apply (Rr k DB pc Hk Kn)].
  eapply goes_bind; [apply goes_lift; unfold find_function; change (g_functions DB (Base.join (st "::") (ms ++ [fn]))) with (BinaryModel.discover_functions n k B (Base.join (st "::") (ms ++ [fn]))); rewrite G1; cbn [bind]; rewrite G2, G3, map_length; destruct (Z.eqb_spec (sym_addr y) 0) as [E0|_]; [clear - Ay E0; lia|]; reflexivity|].
  eapply goes_bind; [rewrite G3; cbn [map convert_args fst snd]; eapply goes_bind; [exact Ra|]; eapply goes_bind; [apply goes_ret|]; apply goes_ret|]. eapply goes_bind; [apply goes_lift; rewrite G4; unfold return_size; destruct rt2 as [t|]; [exact Sz | cbn in Sz; rewrite Sz; reflexivity]|].
  apply (goes_bind L _ _ pc s2 z pc s3 _ pc s3); [|apply goes_ret]. eapply goes_ask; [| exact T | exact P | |].
  - rewrite G2. cbn [request_fits]. split; [exact (conj (Z.lt_le_incl _ _ (proj1 Ay)) (proj2 Ay))|]. split; [apply Forall_cons; [split; [apply dec_text | exact I] | apply Forall_nil] | exact Urs].
  - eapply p_function; [rewrite G2; exact Sc | exact Ev | exact Rz].
  - reflexivity.
Qed.
End Files.
Print Assumptions nested_expression_printed_partial.
Print Assumptions argument_call_runs_once_refuted.
