(** Model of symbol names and the symbol index.
    crates/rudy-parser/src/types.rs (parse_symbol), crates/rudy-dwarf/src/symbols/{names,mod}.rs,
    rudy-db/src/index.rs (find_closest_function). *)
From Coq Require Import Ascii String List ZArith NArith Bool.
From Verif Require Import Base NumText ExprModel OMap.
Import ListNotations.
Open Scope Z_scope.

(** str::trim (Unicode White_Space at both ends). *)
Fixpoint trim_start (s : str) : str :=
  match s with c :: r => if is_whitespace c then trim_start r else s | [] => [] end.
Definition trim (s : str) : str := rev (trim_start (rev (trim_start s))).

Definition ends_with_space (s : str) : bool :=
  match rev s with c :: _ => N.eqb c 32 | [] => false end.

(** types.rs:391-395 and 413-416: push the current segment unless it is empty. *)
Definition push_segment (segs : list str) (cur : str) : list str :=
  match cur with [] => segs | _ => segs ++ [trim cur] end.

(** types.rs:384-417, the splitting loop of [parse_symbol]. [depth] is an i32 in the code; overflow
    after 2^31 brackets is not modelled. *)
Fixpoint split_symbol (s : str) (depth : Z) (cur : str) (segs : list str) : list str :=
  match s with
  | [] => push_segment segs cur
  | c :: r =>
    if N.eqb c 60 then split_symbol r (depth + 1) (cur ++ [c]) segs
    else if N.eqb c 62 then split_symbol r (depth - 1) (cur ++ [c]) segs
    else
      let other :=
        if N.eqb c 10 || N.eqb c 13 || N.eqb c 9 || N.eqb c 32 then
          match cur with
          | [] => split_symbol r depth cur segs
          | _ => if ends_with_space cur then split_symbol r depth cur segs
                 else split_symbol r depth (cur ++ [32%N]) segs
          end
        else split_symbol r depth (cur ++ [c]) segs in
      if N.eqb c 58 && (depth =? 0) then
        match r with
        | d :: r' => if N.eqb d 58 then split_symbol r' depth [] (push_segment segs cur) else other
        | [] => other
        end
      else other
  end.

(** types.rs:425-427: [last.starts_with('h') && rest all ascii hex digits]. *)
Definition looks_like_hash (s : str) : bool :=
  match s with c :: r => N.eqb c 104 && forallb is_hexdigit r | [] => false end.

(** types.rs:382-448 [parse_symbol]: (module path, function name, hash). *)
Definition parse_symbol (s : str) : res (list str * str * option str) :=
  let segments := split_symbol s 0 [] [] in
  match rev segments with
  | [] => Err "Empty symbol path"
  | last :: before =>
    if looks_like_hash last then
      match before with
      | [] => Err "No function name found"
      | f :: ms => Ok (rev ms, f, Some last)
      end
    else Ok (rev before, last, None)
  end.

(** names.rs:135-140 [SymbolName]. *)
Record sname := mk_sname { lookup_name : str; s_hash : str; module_path : list str; full_path : str }.

(** names.rs:143-173 [SymbolName::parse] (logging dropped). *)
Definition sname_parse (path : str) : res sname :=
  match parse_symbol path with
  | Ok (ms, f, h) =>
      Ok (mk_sname f (match h with Some x => x | None => [] end) ms path)
  | _ => Err "Failed to parse symbol path"
  end.

(** str::trim_end_matches(&str): removes the suffix repeatedly (nothing for an empty pattern).
    Fuel: the length of the string. *)
Fixpoint trim_end_fuel (n : nat) (s p : str) : str :=
  match n with
  | O => s
  | S n => match p with
           | [] => s
           | _ => if ends_with s p then trim_end_fuel n (firstn (length s - length p) s) p else s
           end
  end.
Definition trim_end_matches (s p : str) : str := trim_end_fuel (length s) s p.

(** names.rs:182-193 [impl Display for SymbolName]. *)
Definition sname_display (n : sname) : str :=
  trim_end_matches (trim_end_matches (full_path n) (s_hash n)) (st "::").

(** slice::ends_with. *)
Fixpoint list_str_eqb (a b : list str) : bool :=
  match a, b with
  | [], [] => true
  | x :: a', y :: b' => str_eqb x y && list_str_eqb a' b'
  | _, _ => false
  end.
Definition ends_with_segments (l suffix : list str) : bool :=
  (length suffix <=? length l)%nat && list_str_eqb (skipn (length l - length suffix) l) suffix.

(** names.rs:196-198 [matches_name_and_module]. *)
Definition matches_name_and_module (n : sname) (name : str) (module : list str) : bool :=
  str_eqb (lookup_name n) name && ends_with_segments (module_path n) module.

(** names.rs:207-213 [impl Ord for SymbolName]: lookup name, then module path, then full path. *)
Definition cmp_sname : sname -> sname -> comparison :=
  cmp_on (fun n => (lookup_name n, (module_path n, full_path n)))
         (cmp_pair cmp_str (cmp_pair (cmp_list cmp_str) cmp_str)).

(** External functions: UTF-8 validation (std) and rustc_demangle::try_demangle (a dependency). *)
Record externals := { from_utf8 : list N -> option str; try_demangle : str -> option str }.

(** names.rs:216-229 [demangle_symbol]. *)
Definition demangle_symbol (X : externals) (raw : list N) : res sname :=
  match from_utf8 X raw with
  | None => Err "Failed to convert symbol bytes to string"
  | Some name =>
    let name := if starts_with name (st "__Z") then skipn 1 name else name in
    match try_demangle X name with
    | None => Err "could not demangle symbol as Rust symbol"
    | Some d => sname_parse d
    end
  end.

(** symbols/mod.rs:20-24 [Symbol]; debug files are identified by a number. *)
Record symbol := mk_symbol { sym_name : sname; sym_addr : Z; sym_file : N }.

(** symbols/mod.rs:118-136 [SymbolIndex]. *)
Record symbol_index := mk_index {
  ix_functions : omap str (omap sname symbol);
  ix_symbols : omap str (omap sname symbol);
  ix_by_file : omap N (omap (list N) symbol);
  ix_by_address : omap Z (list symbol)
}.
(** [SymbolIndex::default()]. *)
Definition empty_index : symbol_index := mk_index [] [] [] [].

(** An entry of an object file's symbol table as the loops see it: name bytes ([None] when
    [name_bytes()] fails), address, and whether it is taken to be a function
    ([kind() == Text] in index_binary, [size() > 0] in index_mapped_file). *)
Record raw_entry := mk_raw { raw_name : option (list N); raw_addr : Z; raw_is_function : bool }.

Definition cmp_raw : list N -> list N -> comparison := cmp_list N.compare.

(** symbols/mod.rs:173-221 and 223-274: the loop body shared by [index_binary] and
    [index_mapped_file]. *)
Definition index_entry (X : externals) (file : N) (ix : symbol_index) (e : raw_entry) : symbol_index :=
  match raw_name e with
  | None => ix
  | Some raw =>
    match demangle_symbol X raw with
    | Ok d =>
      let entry := mk_symbol d (raw_addr e) file in
      let by_file := oupdate N.compare file [] (oinsert cmp_raw raw entry) (ix_by_file ix) in
      let put m := oupdate cmp_str (lookup_name d) [] (oinsert cmp_sname d entry) m in
      if raw_is_function e then
        mk_index (put (ix_functions ix)) (ix_symbols ix) by_file
          (oupdate Z.compare (raw_addr e) [] (fun l => l ++ [entry]) (ix_by_address ix))
      else
        mk_index (ix_functions ix) (put (ix_symbols ix)) by_file (ix_by_address ix)
    | _ => ix
    end
  end.

(** symbols/mod.rs:173-221 [index_binary] / 223-274 [index_mapped_file]:
    [symbols_by_file.entry(debug_file).or_default()] and then the loop. *)
Definition index_file (X : externals) (file : N) (entries : list raw_entry) (ix : symbol_index) : symbol_index :=
  fold_left (index_entry X file) entries
    (mk_index (ix_functions ix) (ix_symbols ix)
       (oupdate N.compare file [] (fun m => m) (ix_by_file ix)) (ix_by_address ix)).

(** symbols/mod.rs:31-114 [index_symbol_map]: the binary first, then each mapped object file, in
    the order in which its groups are iterated. Files are given with their symbol tables. *)
Definition index_symbol_map (X : externals) (files : list (N * list raw_entry)) : symbol_index :=
  fold_left (fun ix '(f, es) => index_file X f es ix) files empty_index.

(** symbols/mod.rs:140-142 [get_function]. *)
Definition get_function (ix : symbol_index) (n : sname) : option symbol :=
  match oget cmp_str (lookup_name n) (ix_functions ix) with
  | None => None
  | Some m => oget cmp_sname n m
  end.
(** symbols/mod.rs:145-150 [get_functions_by_lookup_name]. *)
Definition get_functions_by_lookup_name (ix : symbol_index) (name : str) : option (omap sname symbol) :=
  oget cmp_str name (ix_functions ix).
(** symbols/mod.rs:153-159 [function_at_address]. *)
Definition function_at_address (ix : symbol_index) (address : Z) : option (Z * list symbol) :=
  last_le Z.compare address (ix_by_address ix).

(** str::split("::"): non-overlapping, leftmost; always at least one piece. *)
Fixpoint split_colons (s cur : str) : list str :=
  match s with
  | [] => [cur]
  | c :: r =>
    match r with
    | d :: r' => if N.eqb c 58 && N.eqb d 58 then cur :: split_colons r' []
                 else split_colons r (cur ++ [c])
    | [] => split_colons r (cur ++ [c])
    end
  end.

(** rudy-db/src/index.rs:168-189 [find_closest_function]. *)
Definition find_closest_function (ix : symbol_index) (function_name : str) : option (sname * N) :=
  match rev (split_colons function_name []) with
  | [] => None
  | name :: rmod =>
    let module := rev rmod in
    match get_functions_by_lookup_name ix name with
    | None => None
    | Some m =>
      match find (fun kv => matches_name_and_module (fst kv) name module) m with
      | Some (k, e) => Some (k, sym_file e)
      | None => None
      end
    end
  end.
