(** Specification vocabulary for symbol paths and the symbol index. *)
From Coq Require Import Ascii String List ZArith NArith Bool.
From Verif Require Import Base NumText ExprModel OMap SymModel.
Import ListNotations.
Open Scope Z_scope.

(** Nesting depth after reading [s], each [<] opening and each [>] closing a bracket. *)
Fixpoint depth_after (d : Z) (s : str) : Z :=
  match s with
  | [] => d
  | c :: r => depth_after (if N.eqb c 60 then d + 1 else if N.eqb c 62 then d - 1 else d) r
  end.
(** Every colon of [s] is inside brackets. *)
Definition colons_nested (s : str) : Prop :=
  forall a b, s = a ++ [58%N] ++ b -> depth_after 0 a <> 0.
(** Whitespace is a single space between two visible characters. *)
Definition spaces_normal (s : str) : Prop :=
  trim s = s
  /\ (forall c, In c s -> c <> 9%N /\ c <> 10%N /\ c <> 13%N)
  /\ (forall a b, s <> a ++ [32; 32]%N ++ b).
(** A path segment in the sense of C12. *)
Definition wf_segment (s : str) : Prop :=
  s <> [] /\ colons_nested s /\ depth_after 0 s = 0 /\ spaces_normal s.
(** [h] followed by hexadecimal digits. *)
Definition hash_like (s : str) : Prop :=
  exists ds, s = ch "h" :: ds /\ Forall (fun c => is_hexdigit c = true) ds.

(** What was indexed: (is a function, raw name, symbol), oldest first; unreadable and
    undemanglable entries leave no trace. *)
Definition entry_event (X : externals) (file : N) (e : raw_entry) : list (bool * list N * symbol) :=
  match raw_name e with
  | Some raw =>
    match demangle_symbol X raw with
    | Ok d => [(raw_is_function e, raw, mk_symbol d (raw_addr e) file)]
    | _ => []
    end
  | None => []
  end.
Definition history (X : externals) (files : list (N * list raw_entry)) : list (bool * list N * symbol) :=
  flat_map (fun fe => flat_map (entry_event X (fst fe)) (snd fe)) files.
(** The name a raw symbol stands for, in the mangling of rustc: what the demangler makes of its UTF-8 text, without the extra
    underscore macOS puts before [_Z], split into its path. *)
Inductive rust_name (X : externals) (raw : list N) (n : sname) : Prop :=
| rn_macos r d : from_utf8 X raw = Some (st "__Z" ++ r) -> try_demangle X (st "_Z" ++ r) = Some d -> sname_parse d = Ok n -> rust_name X raw n
| rn_other t d : from_utf8 X raw = Some t -> (forall r, t <> st "__Z" ++ r) -> try_demangle X t = Some d -> sname_parse d = Ok n -> rust_name X raw n.
Definition functions_of (h : list (bool * list N * symbol)) : list symbol :=
  map snd (filter (fun e => fst (fst e)) h).

(** [s] is the last element of [l] satisfying [P]. *)
Definition is_last {A} (P : A -> Prop) (l : list A) (s : A) : Prop :=
  exists before after, l = before ++ s :: after /\ P s /\ forall x, In x after -> ~ P x.

(** [n] is a symbol name the code can construct. *)
Definition parsed (n : sname) : Prop := exists path, sname_parse path = Ok n.

(** [n] is a function called [f] in a module path ending with [ms]. *)
Definition names_function (ms : list str) (f : str) (n : sname) : Prop :=
  lookup_name n = f /\ exists p, module_path n = p ++ ms.
Definition no_colon (s : str) : Prop := ~ In 58%N s.
