(** Specification: how Rust type names are written, in two layers: how a text is cut into tokens, and which tokens write
    which type. It does not mention the parser. *)
From Coq Require Import Ascii String List ZArith NArith Lia Bool.
From Verif Require Import Base NumText TypesModel TypeTextModel TypeTextSpec.
Import ListNotations.
Open Scope Z_scope.

(** ** Words, marks, brackets and white space *)
Definition blank (c : char) : Prop := In c [32; 10; 9; 13]%N.
Definition word_char (c : char) : Prop := (65 <= c <= 90 \/ 97 <= c <= 122 \/ 48 <= c <= 57 \/ c = 95)%N.
Definition digit_char (c : char) : Prop := (48 <= c <= 57)%N.
Definition mark_char (c : char) : Prop := In c (st "~!@#$%^&*-=+|;:,<.>?").
(** A word of letters, digits and underscores; a number when it begins with a digit. *)
Definition name_word (w : str) : Prop := exists c w', w = c :: w' /\ ~ digit_char c /\ Forall word_char w.
Definition number_word (w : str) : Prop := exists c w', w = c :: w' /\ digit_char c /\ Forall word_char w.
(** The text goes on with something that does not lengthen a word. *)
Definition word_ends (s : str) : Prop := match s with c :: _ => ~ word_char c | [] => True end.
(** A mark is joint when another mark follows it at once. *)
Definition joint_to (s : str) (j : bool) : Prop := j = true <-> exists c s', s = c :: s' /\ mark_char c.
Definition opening (d : delim) : char := match d with Par => ch "(" | Brack => ch "[" | Brace => ch "{" end.
Definition closing (d : delim) : char := match d with Par => ch ")" | Brack => ch "]" | Brace => ch "}" end.
Inductive spelled : list tree -> str -> Prop :=
| sp_end : spelled [] []
| sp_blank c ts s : blank c -> spelled ts s -> spelled ts (c :: s)
| sp_name w ts s : name_word w -> word_ends s -> spelled ts s -> spelled (TId w :: ts) (w ++ s)
| sp_number w ts s : number_word w -> word_ends s -> spelled ts s -> spelled (TLit w :: ts) (w ++ s)
| sp_mark c j ts s : mark_char c -> joint_to s j -> spelled ts s -> spelled (TP c j :: ts) (c :: s)
| sp_group d inner a ts s : spelled inner a -> spelled ts s -> spelled (TG d inner :: ts) (opening d :: a ++ closing d :: s).

(** ** Types *)
(** One or more items, with a separator between each two. *)
Inductive separated {A} (R : A -> list tree -> Prop) (D : list tree -> Prop) : list A -> list tree -> Prop :=
| se_one a ts : R a ts -> separated R D [a] ts
| se_more a l ts ds us : R a ts -> D ds -> separated R D l us -> separated R D (a :: l) (ts ++ ds ++ us).
Definition by_mark (c : char) (ds : list tree) : Prop := exists j, ds = [TP c j].
Definition by_colons (ds : list tree) : Prop := exists j, ds = [TP (ch ":") true; TP (ch ":") j].
(** The contents of unparsed angle brackets, which must be balanced; what is kept of them is the tokens, the brackets
    themselves without their spacing. *)
Inductive angles : list tree -> list tree -> Prop :=
| an_end : angles [] []
| an_token t o ts : (forall c j, t = TP c j -> c <> ch "<" /\ c <> ch ">") -> angles o ts -> angles (t :: o) (t :: ts)
| an_nested j1 j2 o1 t1 o2 t2 : angles o1 t1 -> angles o2 t2 ->
    angles (TP (ch "<") false :: o1 ++ [TP (ch ">") false] ++ o2) (TP (ch "<") j1 :: t1 ++ [TP (ch ">") j2] ++ t2).
(** [dyn]'s operands are paths; [& str] and [& [T]] have readings of their own. *)
Definition a_path (t : ty) : Prop := exists s l, t = YPath (s :: l).
Definition referable (t : ty) : Prop :=
  match t with YArray _ None => False | YPath (SSeg id _ _ :: _) => id <> st "str" | _ => True end.
Definition reserved (id : str) : Prop := In id (map st ["dyn"; "fn"; "mut"; "unsafe"]%string).

Inductive reads : ty -> list tree -> Prop :=
(** [!], [&str], [&[T]], [&T], [&mut T], [*const T], [*mut T] *)
| R_never j : reads YNever [TP (ch "!") j]
| R_str j : reads YStr [TP (ch "&") j; TId (st "str")]
| R_slice t ts j : reads t ts -> reads (YSlice t) [TP (ch "&") j; TG Brack ts]
| R_ref t ts j : referable t -> reads t ts -> reads (YRef false t) (TP (ch "&") j :: ts)
| R_refmut t ts j : reads t ts -> reads (YRef true t) (TP (ch "&") j :: TId (st "mut") :: ts)
| R_ptr t ts j : reads t ts -> reads (YPtr false t) (TP (ch "*") j :: TId (st "const") :: ts)
| R_ptrmut t ts j : reads t ts -> reads (YPtr true t) (TP (ch "*") j :: TId (st "mut") :: ts)
(** [[T]], [[T; 4]], [[T; N]] *)
| R_array t ts : reads t ts -> reads (YArray t None) [TG Brack ts]
| R_arrayn t ts j n w : reads t ts -> parse_u64 w = Some n -> reads (YArray t (Some (AFixed n))) [TG Brack (ts ++ [TP (ch ";") j; TLit w])]
| R_arrayd t ts j u us : reads t ts -> reads u us -> reads (YArray t (Some (ADyn u))) [TG Brack (ts ++ TP (ch ";") j :: us)]
(** [fn(A, B) -> R], [unsafe fn(A)] *)
| R_fn args us ret rs : separated reads (by_mark (ch ",")) args us -> reads_result ret rs -> reads (YFn false args ret) (TId (st "fn") :: TG Par us :: rs)
| R_unsafe args us ret rs : separated reads (by_mark (ch ",")) args us -> reads_result ret rs -> reads (YFn true args ret) (TId (st "unsafe") :: TId (st "fn") :: TG Par us :: rs)
(** [dyn A + B] *)
| R_dyn l us : Forall a_path l -> separated reads (by_mark (ch "+")) l us -> reads (YDyn l) (TId (st "dyn") :: us)
(** [()], [(T,)], [(A, B)] *)
| R_unit : reads (YTuple []) [TG Par []]
| R_one t ts j : reads t ts -> reads (YTuple [t]) [TG Par (ts ++ [TP (ch ",") j])]
| R_tuple a b l us : separated reads (by_mark (ch ",")) (a :: b :: l) us -> reads (YTuple (a :: b :: l)) [TG Par us]
(** [a::B<C>] *)
| R_path segs us : separated reads_segment by_colons segs us -> reads (YPath segs) us
with reads_result : option ty -> list tree -> Prop :=
| R_nothing : reads_result None []
| R_arrow r ts j : reads r ts -> reads_result (Some r) (TP (ch "-") true :: TP (ch ">") j :: ts)
(** [name], [name<A, B>], [name<A, 3>], each perhaps with [{{vtable.shim}}]; [<A as B>], [{vtable_type}], [{impl#3}] *)
with reads_segment : seg -> list tree -> Prop :=
| S_name id shim zs : ~ reserved id -> reads_shim shim zs -> reads_segment (SSeg id None shim) (TId id :: zs)
| S_args id args us j1 j2 shim zs : ~ reserved id -> separated reads (by_mark (ch ",")) args us -> reads_shim shim zs ->
    reads_segment (SSeg id (Some (GParsed args)) shim) (TId id :: TP (ch "<") j1 :: us ++ [TP (ch ">") j2] ++ zs)
| S_const id us w o ts j1 j2 shim zs : ~ reserved id -> reads_before_number us -> angles o (us ++ TLit w :: ts) -> reads_shim shim zs ->
    reads_segment (SSeg id (Some (GRaw (TP (ch "<") false :: o ++ [TP (ch ">") false]))) shim) (TId id :: TP (ch "<") j1 :: (us ++ TLit w :: ts) ++ [TP (ch ">") j2] ++ zs)
| S_qualified o ts j1 j2 : angles o ts -> reads_segment (SQual (TP (ch "<") false :: o ++ [TP (ch ">") false])) (TP (ch "<") j1 :: ts ++ [TP (ch ">") j2])
| S_vtable : reads_segment SVtable [TG Brace [TId (st "vtable_type")]]
| S_impl j w n : parse_u64 w = Some n -> reads_segment (SImpl n) [TG Brace [TId (st "impl"); TP (ch "#") j; TLit w]]
with reads_before_number : list tree -> Prop :=
| B_first : reads_before_number []
| B_next args us j : separated reads (by_mark (ch ",")) args us -> reads_before_number (us ++ [TP (ch ",") j])
with reads_shim : bool -> list tree -> Prop :=
| Z_none : reads_shim false []
| Z_shim j : reads_shim true [TG Brace [TG Brace [TId (st "vtable"); TP (ch ".") j; TId (st "shim")]]].

(** A text that writes a type. *)
Definition writes (t : ty) (s : str) : Prop := exists ts, spelled ts s /\ reads t ts.
