(** How often the type parser of crates/rudy-parser/src/types.rs (24-181, 441-454) starts reading a type.

    The parser is the one of TypeTextModel.v, written again with a counter: every entry of Type::parse counts one, whether or
    not its result is kept. The pieces that never call Type::parse are taken from TypeTextModel.v as they are and cost
    nothing. TypeCostProps.v proves that the counter changes no result. *)
From Coq Require Import Ascii String List ZArith NArith Lia Bool.
From Verif Require Import Base NumText TypesModel TypeTextModel.
Import ListNotations.
Open Scope N_scope.

(** unsynn combinators (library behaviour), as in TypeTextModel.v: an alternative that fails has still been tried. *)
Definition cpars (A : Type) := list tree -> res (A * list tree) * N.
Definition c_leaf {A} (p : pars A) : cpars A := fun ts => (p ts, 0).
Definition c_alt {A} (p q : cpars A) : cpars A := fun ts =>
  match p ts with
  | (Err _, k) => let (r, k') := q ts in (r, k + k')
  | x => x
  end.
Definition c_seq {A B} (p : cpars A) (q : A -> cpars B) : cpars B := fun ts =>
  match p ts with
  | (Ok (a, ts'), k) => let (r, k') := q a ts' in (r, k + k')
  | (Err e, k) => (Err e, k)
  | (Panic m, k) => (Panic m, k)
  | (Fuel, k) => (Fuel, k)
  end.
Definition c_ret {A} (a : A) : cpars A := c_leaf (p_ret a).
Definition c_opt {A} (p : cpars A) : cpars (option A) := fun ts =>
  match p ts with
  | (Ok (a, ts'), k) => (Ok (Some a, ts'), k)
  | (Err _, k) => (Ok (None, ts), k)
  | (Panic m, k) => (Panic m, k)
  | (Fuel, k) => (Fuel, k)
  end.
Definition c_group {A} (d : delim) (p : cpars A) : cpars A := fun ts =>
  match ts with
  | TG d' inner :: r =>
    if delim_eqb d d'
    then match p inner with
         | (Ok (a, rest), k) => (match rest with [] => Ok (a, r) | _ => Err "end of group" end, k)
         | (Err e, k) => (Err e, k)
         | (Panic m, k) => (Panic m, k)
         | (Fuel, k) => (Fuel, k)
         end
    else (Err "group", 0)
  | _ => (Err "group", 0)
  end.
Fixpoint c_delimited_n {A} (n : nat) (p : cpars A) (d : pars unit) : cpars (list A) := fun ts =>
  match n with
  | O => (Fuel, 0)
  | S n' =>
    match p ts with
    | (Err _, k) => (Ok ([], ts), k)
    | (Panic m, k) => (Panic m, k)
    | (Fuel, k) => (Fuel, k)
    | (Ok (a, ts1), k) =>
      match d ts1 with
      | Err _ => (Ok ([a], ts1), k)
      | Panic m => (Panic m, k)
      | Fuel => (Fuel, k)
      | Ok (_, ts2) => let (r, k') := c_delimited_n n' p d ts2 in ((' (l, ts3) <- r ;; Ok (a :: l, ts3)), k + k')
      end
    end
  end.
Definition c_delimited {A} (p : cpars A) (d : pars unit) : cpars (list A) := fun ts => c_delimited_n (S (length ts)) p d ts.
Fixpoint c_many_n {A} (n : nat) (p : cpars A) : cpars (list A) := fun ts =>
  match n with
  | O => (Fuel, 0)
  | S n' =>
    match p ts with
    | (Err _, k) => (Ok ([], ts), k)
    | (Panic m, k) => (Panic m, k)
    | (Fuel, k) => (Fuel, k)
    | (Ok (a, ts1), k) => let (r, k') := c_many_n n' p ts1 in ((' (l, ts2) <- r ;; Ok (a :: l, ts2)), k + k')
    end
  end.
Definition c_many {A} (p : cpars A) : cpars (list A) := fun ts => c_many_n (S (length ts)) p ts.

Section Types.
(** The recursive call: Type::parse. *)
Variable pt : cpars ty.
Variable n : nat.

(** types.rs 33-42: GenericArgs. *)
Definition c_gargs : cpars gargs :=
  c_alt (c_seq (c_leaf (p_punct c_lt)) (fun _ => c_seq (c_delimited pt (p_punct c_comma)) (fun l =>
         c_seq (c_leaf (p_punct c_gt)) (fun _ => c_ret (GParsed l)))))
        (c_leaf (p_seq (p_angle n) (fun ts => p_ret (GRaw ts)))).
(** types.rs 51-57: Segment. *)
Definition c_segment : cpars seg :=
  c_seq (c_leaf p_ident) (fun id => c_seq (c_opt c_gargs) (fun g => c_leaf (p_seq (p_opt p_shim) (fun s =>
  p_ret (SSeg id g (match s with Some _ => true | None => false end)))))).
(** types.rs 60-74: ImplNumber, PathSegment. *)
Definition c_path_segment : cpars seg :=
  c_alt c_segment
  (c_leaf (p_alt (p_seq (p_angle n) (fun ts => p_ret (SQual ts)))
  (p_alt (p_seq (p_group Brace (p_kw (st "vtable_type"))) (fun _ => p_ret SVtable))
         (p_seq (p_group Brace (p_seq (p_kw (st "impl")) (fun _ => p_seq (p_punct (ch "#")) (fun _ => p_usize)))) (fun k => p_ret (SImpl k)))))).
(** types.rs 176-178: Path. *)
Definition c_path : cpars ty := c_seq (c_delimited c_path_segment p_pathsep) (fun l => c_ret (YPath l)).
(** types.rs 76-93: DynTrait, PtrType, RefType. *)
Definition c_dyn : cpars ty :=
  c_seq (c_leaf (p_kw (st "dyn"))) (fun _ => c_seq (c_delimited pt (p_punct (ch "+"))) (fun l => c_ret (YDyn l))).
Definition c_ptr : cpars ty :=
  c_seq (c_leaf (p_punct (ch "*"))) (fun _ =>
  c_seq (c_leaf (p_alt (p_seq (p_kw (st "const")) (fun _ => p_ret false)) (p_seq (p_kw (st "mut")) (fun _ => p_ret true)))) (fun m =>
  c_seq pt (fun t => c_ret (YPtr m t)))).
Definition c_ref : cpars ty :=
  c_seq (c_leaf (p_punct (ch "&"))) (fun _ => c_seq (c_leaf (p_opt (p_kw (st "mut")))) (fun m =>
  c_seq pt (fun t => c_ret (YRef (match m with Some _ => true | None => false end) t)))).
(** types.rs 97-112: ArraySize, ArrayInner, Array. *)
Definition c_asize : cpars (asizeOf ty) :=
  c_alt (c_leaf (p_seq p_usize (fun k => p_ret (AFixed k)))) (c_seq pt (fun t => c_ret (ADyn t))).
Definition c_array : cpars ty :=
  c_group Brack (c_seq pt (fun t => c_seq (c_opt (c_seq (c_leaf (p_punct (ch ";"))) (fun _ => c_asize))) (fun k => c_ret (YArray t k)))).
(** types.rs 114-130: Tuple. *)
Definition c_type_comma : cpars ty := c_seq pt (fun t => c_leaf (p_seq (p_punct c_comma) (fun _ => p_ret t))).
Definition c_type_opt_comma : cpars ty := c_seq pt (fun t => c_leaf (p_seq (p_opt (p_punct c_comma)) (fun _ => p_ret t))).
Definition c_at_least_one (p : cpars (list ty)) : cpars (list ty) := fun ts =>
  let (r, k) := p ts in ((' (l, r) <- r ;; match l with [] => Err "at least one" | _ => Ok (l, r) end), k).
Definition c_tuple : cpars ty :=
  c_alt (c_leaf (p_group Par (p_ret (YTuple []))))
  (c_alt (c_group Par (c_seq c_type_opt_comma (fun t => c_ret (YTuple [t]))))
         (c_group Par (c_seq (c_at_least_one (c_many c_type_comma))
                      (fun l => c_seq c_type_opt_comma (fun t => c_ret (YTuple (l ++ [t]))))))).
(** types.rs 132-147: FnResult, FnType. *)
Definition c_fn : cpars ty :=
  c_seq (c_leaf (p_opt (p_kw (st "unsafe")))) (fun u => c_seq (c_leaf (p_kw (st "fn"))) (fun _ =>
  c_seq (c_group Par (c_delimited pt (p_punct c_comma))) (fun args =>
  c_seq (c_opt (c_seq (c_leaf (p_joint (ch "-"))) (fun _ => c_seq (c_leaf (p_punct c_gt)) (fun _ => pt)))) (fun ret =>
  c_ret (YFn (match u with Some _ => true | None => false end) args ret))))).
(** types.rs 149-159: Slice, StrSlice. *)
Definition c_slice : cpars ty :=
  c_seq (c_leaf (p_punct (ch "&"))) (fun _ => c_seq (c_group Brack pt) (fun t => c_ret (YSlice t))).
(** types.rs 160-174: Type. *)
Definition c_type_step : cpars ty :=
  c_alt c_slice (c_alt (c_leaf p_strslice) (c_alt c_ref
  (c_alt (c_leaf (p_seq (p_punct (ch "!")) (fun _ => p_ret YNever)))
  (c_alt c_array (c_alt c_fn (c_alt c_dyn (c_alt c_tuple (c_alt c_ptr c_path)))))))).
End Types.

(** Type::parse with the number of times it was entered, itself included. *)
Fixpoint c_type (n : nat) : cpars ty := fun ts =>
  match n with O => (Fuel, 1) | S n' => let (r, k) := c_type_step (c_type n') n' ts in (r, 1 + k) end.

(** types.rs 450-454: parse_type, and how often Type::parse was entered for it. *)
Definition parse_type_counted (s : str) : res ty * N :=
  match tokenize s with
  | Ok ts =>
    let (r, k) := c_type (S (S (trees_size ts))) ts in
    ((' (t, rest) <- r ;; match rest with [] => Ok t | _ => Err "expected end of stream" end), k)
  | Err e => (Err e, 0)
  | Panic m => (Panic m, 0)
  | Fuel => (Fuel, 0)
  end.
