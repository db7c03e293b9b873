(** Specification vocabulary for the address index, independent of trees. *)
From Coq Require Import Ascii String List ZArith Permutation Sorted.
From Verif Require Import Base AddrModel.
Import ListNotations.
Open Scope Z_scope.

(** "[sort] is a sorting function": what Rust guarantees of sort_unstable_by_key. *)
Definition sorts (sort : (finfo -> Z) -> list finfo -> list finfo) : Prop :=
  forall key l, Permutation l (sort key l)
             /\ Sorted (fun a b => key a <= key b) (sort key l).

(** The half-open range of a function in the chosen address space. *)
Definition lo (absolute : bool) (f : finfo) : Z :=
  if absolute then absolute_start f else relative_start f.
Definition hi (absolute : bool) (f : finfo) : Z :=
  if absolute then absolute_end f else relative_end f.

(** Address [a] lies in the range of [f]. *)
Definition covers (absolute : bool) (a : Z) (f : finfo) : Prop :=
  lo absolute f <= a < hi absolute f.

(** The ranges [lo f, hi f) and [qs, qe) overlap: each starts before the other ends. *)
Definition overlapping (absolute : bool) (qs qe : Z) (f : finfo) : Prop :=
  lo absolute f < qe /\ qs < hi absolute f.

(** [out] is the sub-multiset of [l] of the elements satisfying [P]. *)
Definition exactly {A} (P : A -> Prop) (l out : list A) : Prop :=
  (forall x, In x out -> P x)
  /\ exists rest, Permutation l (out ++ rest) /\ (forall x, In x rest -> ~ P x).
