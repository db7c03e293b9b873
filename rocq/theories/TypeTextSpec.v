(** Vocabulary for the statements about type names. *)
From Coq Require Import Ascii String List ZArith NArith Lia Bool.
From Verif Require Import Base NumText TypesModel TypeTextModel.
Import ListNotations.
Open Scope Z_scope.

(** The types written inside a type. *)
Definition seg_kids (s : seg) : list ty := match s with SSeg _ (Some (GParsed args)) _ => args | _ => [] end.
Definition kids (t : ty) : list ty :=
  match t with
  | YSlice t | YRef _ t | YPtr _ t => [t]
  | YArray t (Some (ADyn u)) => [t; u]
  | YArray t _ => [t]
  | YFn _ args ret => args ++ match ret with Some r => [r] | None => [] end
  | YDyn l | YTuple l => l
  | YPath segs => flat_map seg_kids segs
  | YStr | YNever => []
  end.
Inductive sub (u : ty) : ty -> Prop :=
| sub_self : sub u u
| sub_kid t v : In v (kids t) -> sub u v -> sub u t.

(** A name was actually written. *)
Definition full (t : ty) : Prop := t <> YPath [].
Definition is_path (t : ty) : Prop := match t with YPath (_ :: _) => True | _ => False end.
Definition keyword (id : str) : Prop := In id (map st ["dyn"; "fn"; "mut"; "unsafe"]%string).

(** An ordinary path segment: an identifier, possibly with type arguments. *)
Definition plain_seg (s : seg) : Prop :=
  match s with
  | SSeg id g shim => ~ keyword id /\ shim = false /\
      match g with None => True | Some (GParsed args) => args <> [] /\ Forall full args | Some (GRaw _) => False end
  | _ => False
  end.
(** No raw pointer, no [unsafe fn], no unparsed [<..>] or [{..}] segment, no empty names (an argument list [fn()] is read as
    one empty name), [dyn] only of paths. *)
Definition plain1 (t : ty) : Prop :=
  match t with
  | YSlice t | YRef _ t => full t
  | YStr | YNever => True
  | YArray t k => full t /\ match k with Some (ADyn u) => full u | _ => True end
  | YFn u args ret => u = false /\ (args = [YPath []] \/ (args <> [] /\ Forall full args)) /\
                      match ret with Some r => full r | None => True end
  | YDyn l => l <> [] /\ Forall is_path l
  | YTuple l => Forall full l
  | YPtr _ _ => False
  | YPath segs => Forall plain_seg segs
  end.
Definition plain (t : ty) : Prop := forall u, sub u t -> plain1 u.

(** An identifier the lexer can produce. *)
Definition ident (s : str) : Prop := exists c w, s = c :: w /\ is_digit c = false /\ forallb is_word s = true.
(** Lexical conditions every parsed type meets. [&str] and [&[T]] have their own forms. *)
Definition ref_form (m : bool) (t : ty) : Prop :=
  m = true \/ match t with YArray _ None => False | YPath (SSeg id _ _ :: _) => id <> st "str" | _ => True end.
Definition sound1 (t : ty) : Prop :=
  match t with
  | YRef m t => ref_form m t
  | YArray _ (Some (AFixed n)) => in_u64 n
  | YPath segs => Forall (fun s => match s with SSeg id _ _ => ident id | _ => True end) segs
  | _ => True
  end.
Definition sound (t : ty) : Prop := forall u, sub u t -> sound1 u.
