(** Model of rudy-db/src/synthetic_methods.rs: methods computed from memory without running code. *)
From Coq Require Import Ascii String List ZArith Lia Bool.
From Verif Require Import Base NumText OMap TypesModel ValueModel DataModel.
Import ListNotations.
Open Scope Z_scope.

(** synthetic_methods.rs 91-178: get_synthetic_methods (names only: signature texts and the always-false
    takes_args are dropped). *)
Definition synthetic_methods (l : layout) : list str :=
  match l with
  | LVec _ _ _ _ => [st "len"; st "capacity"; st "is_empty"]
  | LString _ _ _ _ => [st "len"; st "is_empty"]
  | LOption _ _ _ _ _ => [st "is_some"; st "is_none"]
  | LResult _ _ _ _ _ _ _ => [st "is_ok"; st "is_err"]
  | LSlice _ _ _ | LStrSlice _ _ => [st "len"; st "is_empty"]
  | LArray _ _ => [st "len"]
  | _ => []
  end.

(** synthetic_methods.rs 478-486: usize_from_bytes. *)
Definition usize_from_bytes (bs : list Z) : res Z :=
  if Z.of_nat (List.length bs) =? 8 then Ok (le bs)
  else if Z.of_nat (List.length bs) =? 4 then Ok (le bs)
  else Err "Unexpected size for usize".

Section Synth.
Variable E : env.

Definition vbool (b : bool) : value := VScalar (st "bool") (bool_text b).
Definition vusize (n : Z) : value := VScalar (st "usize") (dec n).

(** The three lines [address + offset; read_memory(.., 8)?; usize_from_bytes(..)?] (e.g. 243-245). *)
Definition usize_at (a off : Z) : res Z :=
  la <- add64 a off ;; bs <- rd E la 8 ;; usize_from_bytes bs.

(** 235-274: evaluate_vec_method. *)
Definition vec_method (a lo co : Z) (m : str) : res value :=
  if str_eqb m (st "len") then n <- usize_at a lo ;; Ok (vusize n)
  else if str_eqb m (st "capacity") then n <- usize_at a co ;; Ok (vusize n)
  else if str_eqb m (st "is_empty") then n <- usize_at a lo ;; Ok (vbool (n =? 0))
  else Err "Unknown synthetic method".

(** 276-290: evaluate_string_method. *)
Definition string_method (a lo co : Z) (m : str) : res value :=
  if str_eqb m (st "len") then vec_method a lo co (st "len")
  else if str_eqb m (st "is_empty") then vec_method a lo co (st "is_empty")
  else if str_eqb m (st "capacity") then vec_method a lo co (st "capacity")
  else Err "Unknown synthetic method".

(** 304-315, 340-351: the discriminant as read for Option and Result, with the number of bytes received. *)
Definition disc_value (a : Z) (d : disc) : res (Z * Z) :=
  da <- add64 a (d_off d) ;;
  bs <- rd E da (disc_size d) ;;
  let n := Z.of_nat (List.length bs) in
  if mem_z n [1; 2; 4; 8] then Ok (le bs, n) else Err "Unexpected discriminant size".

(** 292-325: evaluate_option_method. *)
Definition option_method (a : Z) (d : disc) (m : str) : res value :=
  '(v, _) <- disc_value a d ;;
  if str_eqb m (st "is_some") then Ok (vbool (negb (v =? 0)))
  else if str_eqb m (st "is_none") then Ok (vbool (v =? 0))
  else Err "Unknown synthetic method".

(** 327-386: evaluate_result_method. *)
Definition result_method (a : Z) (d : disc) (m : str) : res value :=
  '(v, n) <- disc_value a d ;;
  let ok := if n =? 8 then negb (Z.testbit v 63) else if n =? 4 then negb (Z.testbit v 31) else v =? 0 in
  let er := if n =? 8 then Z.testbit v 63 else if n =? 4 then Z.testbit v 31 else negb (v =? 0) in
  if str_eqb m (st "is_ok") then Ok (vbool ok)
  else if str_eqb m (st "is_err") then Ok (vbool er)
  else Err "Unknown synthetic method".

(** 388-402: evaluate_map_method. *)
Definition map_method (m : str) : res value :=
  if str_eqb m (st "len") || str_eqb m (st "is_empty") then Err "HashMap/BTreeMap synthetic methods not yet implemented"
  else Err "Unknown synthetic method".

(** 404-463: evaluate_slice_method and evaluate_str_slice_method: the length is taken at offset 8. *)
Definition slice_method (a : Z) (m : str) : res value :=
  if str_eqb m (st "len") then n <- usize_at a 8 ;; Ok (vusize n)
  else if str_eqb m (st "is_empty") then n <- usize_at a 8 ;; Ok (vbool (n =? 0))
  else Err "Unknown synthetic method".

(** 465-476: evaluate_array_method. *)
Definition array_method (n : Z) (m : str) : res value :=
  if str_eqb m (st "len") then Ok (vusize n) else Err "Unknown synthetic method".

(** 181-233: evaluate_synthetic_method; the arguments are ignored. *)
Definition synthetic (a : Z) (l : layout) (m : str) : res value :=
  match l with
  | LVec lo _ co _ => vec_method a lo co m
  | LString lo _ co _ => string_method a lo co m
  | LOption _ d _ _ _ => option_method a d m
  | LResult _ d _ _ _ _ _ => result_method a d m
  | LMap _ _ _ => map_method m
  | LSlice _ _ _ => slice_method a m
  | LStrSlice _ _ => slice_method a m
  | LArray _ n => array_method n m
  | _ => Err "No synthetic method"
  end.
End Synth.
