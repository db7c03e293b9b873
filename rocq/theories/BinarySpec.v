(** What a binary's symbols and debug information say, for the queries of DebugInfo (C101-C106). *)
From Coq Require Import Ascii String List ZArith NArith Lia Bool.
From Verif Require Import Base NumText OMap Utf8 AddrModel SymModel SymSpec PathModel LinesModel LinesProps DieModel DieSpec ModuleModel ModuleSpec TypesModel ParserModel ParserSpec
  ResolveModel ResolveSpec LocModel FnModel FnSpec FnProps SourceModel LoadModel BinaryModel.
Import ListNotations.
Open Scope Z_scope.

Definition units_of (f : bfile) : list die := map bu_die (bf_units f).
(** The function DIE [d] of the file is the one of the symbol [s]: its linkage name (with '_' before it in a relocatable
    file) is the raw name of [s], which was indexed last under that name for this file. [h]: all symbols indexed. *)
Definition linked (h : list (bool * list N * symbol)) (f : bfile) (d : die) (s : symbol) : Prop :=
  exists b raw link, e_tag (d_entry d) = Tsubprogram /\ get_attr (d_entry d) At_linkage_name = Some (AStr (Some link)) /\
    raw = raw_of (if bf_reloc f then st "_" ++ link else link) /\
    is_last (fun e => sym_file (snd e) = bf_id f /\ snd (fst e) = raw) h (b, raw, s).
(** [d] is the function called [n] in the file, for the symbol [s]: the last DIE at module or type level linked to a
    symbol of that name. *)
Definition function_of (h : list (bool * list N * symbol)) (f : bfile) (n : sname) (d : die) (s : symbol) : Prop :=
  exists before after, visible (units_of f) = before ++ d :: after /\ linked h f d s /\ sym_name s = n /\
    forall d' s', In d' after -> linked h f d' s' -> sym_name s' <> n.
(** The file's units and names are readable and the addresses of its functions fit. *)
Definition readable_file (h : list (bool * list N * symbol)) (f : bfile) : Prop :=
  Forall (fun u => e_tag (d_entry u) = Tcompile_unit /\ exists n, language u = Some n) (units_of f) /\
  Forall (fun d => e_tag (d_entry d) = Tsubprogram ->
    match get_attr (d_entry d) At_linkage_name with None | Some (AStr (Some _)) => True | _ => False end) (visible (units_of f)) /\
  forall d s lo hi, In d (visible (units_of f)) -> linked h f d s -> range_of d = Some (lo, hi) ->
    0 <= sym_addr s + hi - lo < two64 /\ 0 <= sym_addr s + hi < two64.
(** Each DIE has its own offset. *)
Definition distinct_dies (f : bfile) : Prop :=
  forall u1 u2 d1 d2, In u1 (bf_units f) -> In u2 (bf_units f) -> in_tree (bu_die u1) d1 -> in_tree (bu_die u2) d2 ->
    e_off (d_entry d1) = e_off (d_entry d2) -> u1 = u2 /\ d1 = d2.
(** The environment in which the types of unit [u] are resolved: its DIEs and the modules of the file's DIEs. *)
Definition unit_view (f : bfile) (u : bunit) (v : env) : Prop := exists n0, forall n, (n0 <= n)%nat -> unit_env n f u = v.
(** The unit's attributes are readable (ParserSpec). *)
Definition readable_attrs (u : bunit) : Prop := forall d a x, in_tree (bu_die u) d -> In (a, x) (e_attrs (d_entry d)) -> attr_ok x.

(** The entry of a line program's file table with an index: numbered from 0 in DWARF 5; from 1 before, where 0 is the
    unit itself. *)
Definition table_entry (v5 : bool) (es : list fentry) (zero : option fentry) (i : Z) : option fentry :=
  if v5 then nth_error es (Z.to_nat i) else if i =? 0 then zero else nth_error es (Z.to_nat (i - 1)).
(** The file a DW_AT_decl_file index stands for. *)
Definition decl_path (smap : list (fpath * fpath)) (u : bunit) (i : Z) : option path :=
  match bu_lines u with
  | None => None
  | Some (v5, es, zero, _) => match table_entry v5 es zero i with Some e => file_entry_to_path smap (bu_comp u) e | None => None end
  end.
(** The function [d] of unit [u] with its parameters and local variables, as reported. *)
Definition function_says (smap : list (fpath * fpath)) (v : env) (u : bunit) (d : die) (ps ls : list (option var)) : Prop :=
  Forall2 (reported v (decl_path smap u)) (declared Tparameter d) ps /\ Forall2 (reported v (decl_path smap u)) (declared Tvariable d) ls.
(** Name and type of a parameter: nameless ones are numbered. *)
Fixpoint parameters (i : Z) (l : list var) : list (str * tdef) :=
  match l with
  | [] => []
  | x :: l' => (match va_name x with Some n => n | None => st "__" ++ dec i end, va_ty x) :: parameters (i + 1) l'
  end.
(** The function meant by a path ending in [ms]::[f]: the least name with that ending, at the symbol indexed last. *)
Definition meant (h : list (bool * list N * symbol)) (ms : list str) (f : str) (s : symbol) : Prop :=
  names_function ms f (sym_name s) /\ is_last (fun y => sym_name y = sym_name s) (functions_of h) s /\
  forall y, In y (functions_of h) -> names_function ms f (sym_name y) -> cmp_sname (sym_name s) (sym_name y) <> Gt.

(** ** Addresses *)
(** The function [d] of the file, for the symbol [s], with code range [lo, hi) in the file, is loaded around [a]. *)
Definition covers_address (h : list (bool * list N * symbol)) (f : bfile) (d : die) (s : symbol) (lo hi a : Z) : Prop :=
  In d (visible (units_of f)) /\ linked h f d s /\ range_of d = Some (lo, hi) /\ sym_addr s <= a < sym_addr s + (hi - lo).
(** The first usable row for the address [x] in the unit's line table states this file, line and column. *)
Definition located (smap : list (fpath * fpath)) (u : bunit) (x : Z) (l : sloc) : Prop :=
  exists v5 es zero rows before r after e p line,
    bu_lines u = Some (v5, es, zero, rows) /\ rows = before ++ r :: after /\
    r_end r = false /\ r_addr r = x /\ r_line r = Some line /\ table_entry v5 es zero (r_file r) = Some e /\
    file_entry_to_path smap (bu_comp u) e = Some p /\ l = (p, line, if r_col r =? 0 then None else Some (r_col r)) /\
    forall q, In q before -> ~ (r_end q = false /\ r_addr q = x /\ r_line q <> None /\ table_entry v5 es zero (r_file q) <> None).
(** The nearest function symbols at or below [a] are those at the address of [s]. *)
Definition nearest (h : list (bool * list N * symbol)) (a : Z) (s : symbol) : Prop :=
  In s (functions_of h) /\ sym_addr s <= a /\ forall y, In y (functions_of h) -> sym_addr y <= a -> sym_addr y <= sym_addr s.

(** The address belongs to the function of symbol [s], at the place [l]: the nearest symbols are in one file, in which
    only this function is around the address; the unit of the function called like [s] states the place. *)
Definition attributed (smap : list (fpath * fpath)) (h : list (bool * list N * symbol)) (B : binary) (a : Z) (s : symbol) (l : sloc) : Prop :=
  exists s0 f d lo hi d2 s2 u, nearest h a s0 /\ (forall y, nearest h a y -> sym_file y = sym_file s0) /\
    file_by_id B (sym_file s0) = Some f /\ readable_file h f /\ distinct_dies f /\
    covers_address h f d s lo hi a /\ (forall d' s' lo' hi', covers_address h f d' s' lo' hi' a -> d' = d /\ s' = s) /\
    function_of h f (sym_name s) d2 s2 /\ In u (bf_units f) /\ in_tree (bu_die u) d2 /\ located smap u (lo + (a - sym_addr s)) l.
(** The function called [n]: its symbol [s] (the last indexed), its DIE [d] in unit [u] of file [f], its parameters and
    local variables. *)
Record described (smap : list (fpath * fpath)) (h : list (bool * list N * symbol)) (B : binary) (n : sname) (s : symbol) (f : bfile) (u : bunit) (d : die) (v : env) (ps ls : list (option var)) : Prop := {
  de_name : sym_name s = n;
  de_last : is_last (fun y => sym_name y = n) (functions_of h) s;
  de_file : file_by_id B (sym_file s) = Some f;
  de_readable : readable_file h f;
  de_distinct : distinct_dies f;
  de_unit : In u (bf_units f);
  de_in : in_tree (bu_die u) d;
  de_die : exists s', function_of h f n d s';
  de_attrs : readable_attrs u;
  de_view : unit_view f u v;
  de_says : function_says smap v u d ps ls }.
(** What is answered for a variable [x] when the frame base is [b]: its name, the address [b] plus the offset of its
    DW_OP_fbreg (none for a variable without location), its type resolved completely. *)
Definition shown_as (v : env) (u : bunit) (b : Z) (x : var) (i : vinfo) : Prop :=
  vi_name i = match va_name x with Some n => n | None => st "_" end /\
  match bu_loc u (va_die x) with
  | None => vi_addr i = None
  | Some [OFbreg off] => vi_addr i = Some ((b + off) mod two64)
  | Some _ => False
  end /\ complete_type v (va_ty x) (vi_ty i).
