(** Specification of the expression language: a grammar over tokens, written
    without reference to the parser's control flow. *)
From Coq Require Import Ascii String List ZArith NArith Bool.
From Verif Require Import Base NumText ExprModel.
Import ListNotations.

Definition ascii_str (s : str) : Prop := Forall (fun c => (c < 128)%N) s.

(** [:: s1 :: s2 ...] *)
Definition path_toks (tail : list str) : list token :=
  flat_map (fun s => [TPathSep; TIdent s]) tail.

(** Type names and type argument lists, with the text they denote. *)
Inductive GType : list token -> str -> Prop :=
| GT_plain name tail :
    GType (TIdent name :: path_toks tail) (join (st "::") (name :: tail))
| GT_args name tail ats args :
    GTypeArgs ats args ->
    GType (TIdent name :: path_toks tail ++ TLAngle :: ats ++ [TRAngle])
          (join (st "::") (name :: tail) ++ st "<" ++ join (st ", ") args ++ st ">")
with GTypeArgs : list token -> list str -> Prop :=
| GTA_none : GTypeArgs [] []
| GTA_some ts args : GTypeList ts args -> GTypeArgs ts args
with GTypeList : list token -> list str -> Prop :=
| GTL_one ts a : GType ts a -> GTypeList ts [a]
| GTL_more ts l ts' a : GTypeList ts l -> GType ts' a -> GTypeList (ts ++ TComma :: ts') (l ++ [a]).

(** Expressions: unary > postfix > primary, from loosest to tightest binding. *)
Inductive GUnary : list token -> expr -> Prop :=
| GU_deref ts e : GUnary ts e -> GUnary (TStar :: ts) (EDeref e)
| GU_ref ts e : GUnary ts e -> GUnary (TAmp :: ts) (EAddressOf false e)
| GU_mut ts e : GUnary ts e -> GUnary (TAmp :: TMut :: ts) (EAddressOf true e)
| GU_postfix ts e : GPostfix ts e -> GUnary ts e
with GPostfix : list token -> expr -> Prop :=
| GP_primary ts e : GPrimary ts e -> GPostfix ts e
| GP_field ts e f : GPostfix ts e -> GPostfix (ts ++ [TDot; TIdent f]) (EField e f)
| GP_method ts e m ats args : GPostfix ts e -> GArgs ats args ->
    GPostfix (ts ++ TDot :: TIdent m :: TLParen :: ats ++ [TRParen]) (EMethodCall e m args)
| GP_index ts e its i : GPostfix ts e -> GUnary its i ->
    GPostfix (ts ++ TLBracket :: its ++ [TRBracket]) (EIndex e i)
with GPrimary : list token -> expr -> Prop :=
| GR_var name : GPrimary [TIdent name] (EVariable name)
| GR_path name s tail : GPrimary (TIdent name :: path_toks (s :: tail)) (EPath (name :: s :: tail))
| GR_generic name tail ats args : GTypeArgs ats args ->
    GPrimary (TIdent name :: path_toks tail ++ TLAngle :: ats ++ [TRAngle])
             (EGeneric (join (st "::") (name :: tail)) args)
| GR_call name tail ats args : GArgs ats args ->
    GPrimary (TIdent name :: path_toks tail ++ TLParen :: ats ++ [TRParen])
             (ECall (join (st "::") (name :: tail)) args)
| GR_number v : GPrimary [TNumber v] (ENumber v)
| GR_string s : GPrimary [TString s] (EString s)
| GR_paren ts e : GUnary ts e -> GPrimary (TLParen :: ts ++ [TRParen]) (EParen e)
with GArgs : list token -> list expr -> Prop :=
| GA_none : GArgs [] []
| GA_some ts args : GArgList ts args -> GArgs ts args
with GArgList : list token -> list expr -> Prop :=
| GAL_one ts e : GUnary ts e -> GArgList ts [e]
| GAL_more ts l ts' e : GArgList ts l -> GUnary ts' e -> GArgList (ts ++ TComma :: ts') (l ++ [e]).

(** Tokens that can extend a complete expression to their left. *)
Definition continues (t : token) : bool :=
  match t with TDot | TLBracket | TLParen | TLAngle | TPathSep => true | _ => false end.
Definition stops (rest : list token) : Prop :=
  match rest with t :: _ => continues t = false | [] => True end.

(** Content of a string literal: plain characters, or a backslash and any character. *)
Inductive literal_content : str -> Prop :=
| LC_nil : literal_content []
| LC_plain c s : c <> 34%N -> c <> 92%N -> literal_content s -> literal_content (c :: s)
| LC_escape c s : literal_content s -> literal_content (92%N :: c :: s).
