(** C01, C02: the address index answers exactly. *)
From Coq Require Import Ascii String List ZArith Permutation.
From Verif Require Import Base AddrModel AddrSpec AddrProofs.
Import ListNotations.
Open Scope Z_scope.

(** C01. For every list of functions (overlapping, nested, duplicated, inverted),
    every sorting routine and every address, the lookup returns exactly the
    functions whose [start,end) range contains the address. *)
Theorem address_lookup_exact :
  forall sort infos a absolute, sorts sort ->
  exactly (covers absolute a) infos (query_address (address_tree_new sort infos) a absolute).
Proof. exact query_address_exact. Qed.
Print Assumptions address_lookup_exact.

(** C02. *)
Theorem address_range_lookup_exact :
  forall sort infos qs qe absolute, sorts sort ->
  exactly (overlapping absolute qs qe) infos
    (query_address_range (address_tree_new sort infos) qs qe absolute).
Proof. exact query_range_exact. Qed.
Print Assumptions address_range_lookup_exact.

(** C01 (cost): n functions give a tree of depth at most log2 n + 1. *)
Theorem address_tree_balanced :
  forall absolute k l, (length l < 2 ^ k)%nat ->
  (depth (build_recursive absolute l) <= k)%nat.
Proof. intros absolute k l H. exact (depth_build absolute k _ l (le_n _) H). Qed.
Print Assumptions address_tree_balanced.

(** Non-vacuity: a sorting function exists, and a nested/overlapping index gives
    a non-trivial answer (nested functions found, neighbours at the end excluded). *)
Example sorting_exists : sorts isort.
Proof. exact isort_sorts. Qed.
Definition ex_f (s e : Z) : finfo :=
  {| absolute_start := s; absolute_end := e; relative_start := e - s; relative_end := e;
     f_file := 0; f_name := st "f" |}.
Definition ex_index : address_tree :=
  address_tree_new isort [ex_f 10 20; ex_f 0 100; ex_f 20 30; ex_f 12 15; ex_f 40 35].
Example address_lookup_example :
  query_address ex_index 14 true = [ex_f 12 15; ex_f 10 20; ex_f 0 100]
  \/ query_address ex_index 14 true = [ex_f 12 15; ex_f 0 100; ex_f 10 20].
Proof. vm_compute. tauto. Qed.
Example address_range_example :
  map absolute_start (query_address_range ex_index 15 20 true) = [0; 10]
  \/ map absolute_start (query_address_range ex_index 15 20 true) = [10; 0].
Proof. vm_compute. tauto. Qed.
