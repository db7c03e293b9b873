(** C03, C04, C05, C12, C13, C57: symbol names and the symbol index. *)
From Coq Require Import Ascii String List ZArith NArith Bool.
From Verif Require Import Base NumText OMap SymModel SymSpec SymProofs SymDisplay.
Import ListNotations.
Open Scope Z_scope.

(** What the index is made of: the entries of the tables whose raw name stands for a Rust name, each with its address and file. *)
Theorem rust_name_exact : forall X raw n, demangle_symbol X raw = Ok n <-> rust_name X raw n.
Proof.
  intros X raw n. unfold demangle_symbol. split.
  - destruct (from_utf8 X raw) as [t|] eqn:E; [|discriminate]. destruct (starts_with t (st "__Z")) eqn:W.
    + apply starts_with_spec in W. destruct W as (r & ->). change (skipn 1 (st "__Z" ++ r)) with (st "_Z" ++ r). destruct (try_demangle X (st "_Z" ++ r)) as [d|] eqn:D; [|discriminate]. intros P. exact (rn_macos X raw n r d E D P).
    + destruct (try_demangle X t) as [d|] eqn:D; [|discriminate]. intros P. refine (rn_other X raw n t d E _ D P). intros r Q. assert (starts_with t (st "__Z") = true) by (apply starts_with_spec; now exists r). congruence.
  - intros [r d E D P | t d E N D P]; rewrite E.
    + assert (W : starts_with (st "__Z" ++ r) (st "__Z") = true) by (apply starts_with_spec; now exists r). rewrite W. change (skipn 1 (st "__Z" ++ r)) with (st "_Z" ++ r). now rewrite D.
    + destruct (starts_with t (st "__Z")) eqn:W; [apply starts_with_spec in W; destruct W as (r & Q); elim (N r Q)|]. now rewrite D.
Qed.
Theorem indexed_symbols : forall X files b raw s,
  In (b, raw, s) (history X files) <->
  exists f es e, In (f, es) files /\ In e es /\ raw_name e = Some raw /\ raw_is_function e = b /\ rust_name X raw (sym_name s) /\ sym_addr s = raw_addr e /\ sym_file s = f.
Proof.
  intros X files b raw s. unfold history. rewrite in_flat_map. split.
  - intros ([f es] & Hf & H). apply in_flat_map in H. destruct H as (e & He & H). cbn [fst snd] in *. unfold entry_event in H. destruct (raw_name e) as [q|] eqn:Q; [|destruct H].
    destruct (demangle_symbol X q) as [n| | |] eqn:D; try contradiction H. destruct H as [H | []]. injection H as <- <- <-. exists f, es, e. cbn [sym_name sym_addr sym_file]. repeat (split; [assumption || reflexivity|]). split; [now apply rust_name_exact | split; reflexivity].
  - intros (f & es & e & Hf & He & Q & <- & R & A & F). exists (f, es). split; [exact Hf|]. apply in_flat_map. exists e. split; [exact He|]. unfold entry_event. cbn [fst]. rewrite Q. apply rust_name_exact in R. rewrite R.
    left. destruct s as [n a f']. cbn in *. subst. reflexivity.
Qed.
Print Assumptions indexed_symbols.
(** [__ZN3app4mainE] on macOS. *)
Example macos_symbol : let X := {| from_utf8 := Some; try_demangle := fun t => if str_eqb t (st "_ZN3app4mainE") then Some (st "app::main") else None |} in
  exists s, In (true, st "__ZN3app4mainE", s) (history X [(0%N, [mk_raw (Some (st "__ZN3app4mainE")) 4096 true])]) /\ full_path (sym_name s) = st "app::main".
Proof.
  eexists (mk_symbol (mk_sname (st "main") [] [st "app"] (st "app::main")) 4096 0%N). split; [|reflexivity]. apply indexed_symbols. eexists 0%N, _, _. split; [left; reflexivity|]. split; [left; reflexivity|].
  split; [reflexivity|]. split; [reflexivity|]. split; [|split; reflexivity]. apply (rn_macos _ _ _ (st "N3app4mainE") (st "app::main")); reflexivity.
Qed.

(** C03. *)
Theorem symbol_at_address_nearest : forall X files a,
  let fs := functions_of (history X files) in
  match function_at_address (index_symbol_map X files) a with
  | Some (b, syms) =>
      b <= a /\ (exists s, In s fs /\ sym_addr s = b)
      /\ syms = filter (fun s => sym_addr s =? b) fs
      /\ forall s, In s fs -> sym_addr s <= a -> sym_addr s <= b
  | None => forall s, In s fs -> a < sym_addr s
  end.
Proof. exact function_at_address_spec. Qed.
Print Assumptions symbol_at_address_nearest.

(** C04. *)
Theorem exact_lookup_is_last_indexed : forall X files n, parsed n ->
  let fs := functions_of (history X files) in
  match get_function (index_symbol_map X files) n with
  | Some s => is_last (fun s => sym_name s = n) fs s
  | None => forall s, In s fs -> sym_name s <> n
  end.
Proof. exact get_function_spec. Qed.
Print Assumptions exact_lookup_is_last_indexed.
Theorem short_name_lookup_exact : forall X files name,
  let fs := functions_of (history X files) in
  match get_functions_by_lookup_name (index_symbol_map X files) name with
  | Some m => m <> [] /\ forall n s, In (n, s) m <->
       lookup_name n = name /\ is_last (fun s => sym_name s = n) fs s
  | None => forall s, In s fs -> lookup_name (sym_name s) <> name
  end.
Proof. exact by_lookup_spec. Qed.
Print Assumptions short_name_lookup_exact.
(** Per file, by raw name. *)
Theorem file_symbol_is_last_indexed : forall X files f raw,
  let h := history X files in
  match getf (ix_by_file (index_symbol_map X files)) f raw with
  | Some s => exists e, snd e = s /\ is_last (fun e => sym_file (snd e) = f /\ snd (fst e) = raw) h e
  | None => forall e, In e h -> ~ (sym_file (snd e) = f /\ snd (fst e) = raw)
  end.
Proof. exact file_symbol_spec. Qed.
Print Assumptions file_symbol_is_last_indexed.

(** C05. Queries whose segments contain no colon. *)
Theorem path_lookup_sound_complete : forall X files ms f, Forall no_colon (ms ++ [f]) ->
  let fs := functions_of (history X files) in
  match find_closest_function (index_symbol_map X files) (join (st "::") (ms ++ [f])) with
  | Some (n, file) =>
      names_function ms f n /\
      (exists s, is_last (fun s => sym_name s = n) fs s /\ sym_file s = file)
      /\ forall s, In s fs -> names_function ms f (sym_name s) -> cmp_sname n (sym_name s) <> Gt
  | None => forall s, In s fs -> ~ names_function ms f (sym_name s)
  end.
Proof. exact find_closest_spec. Qed.
Print Assumptions path_lookup_sound_complete.

(** C12. Balanced segments: exact decomposition. Missing for the full property: segments in which
    a bracket is unbalanced because [>] also occurs in [->]; see the refutation. *)
Theorem symbol_path_with_hash_partial : forall ms f h,
  Forall wf_segment (ms ++ [f]) -> hash_like h ->
  parse_symbol (join (st "::") (ms ++ [f; h])) = Ok (ms, f, Some h).
Proof. exact parse_symbol_hash. Qed.
Print Assumptions symbol_path_with_hash_partial.
Theorem symbol_path_without_hash_partial : forall ms f,
  Forall wf_segment (ms ++ [f]) -> ~ hash_like f ->
  parse_symbol (join (st "::") (ms ++ [f])) = Ok (ms, f, None).
Proof. exact parse_symbol_plain. Qed.
Print Assumptions symbol_path_without_hash_partial.
(** The demangled path of a method of an impl for a function-pointer type is torn apart. *)
Theorem symbol_path_refuted :
  parse_symbol (st "<fn() -> a::T as C>::f::h0123456789abcdef")
  = Ok ([st "<fn() -> a"], st "T as C>::f::h0123456789abcdef", None).
Proof. vm_compute. reflexivity. Qed.
Print Assumptions symbol_path_refuted.

(** C13 is false of the code: a function called [face] in module [m] keeps its name, one called
    [hface] is taken for a hash and its module becomes the function. *)
Theorem function_name_kept_refuted :
  exists ms f, wf_segment f /\ ~ In 58%N f /\
    parse_symbol (join (st "::") (ms ++ [f])) = Ok ([], st "m", Some f).
Proof.
  exists [st "m"], (st "hface"). split; [apply hash_wf; exists (st "face"); split; [reflexivity | repeat constructor]|].
  split; [vm_compute; intuition discriminate | vm_compute; reflexivity].
Qed.
Print Assumptions function_name_kept_refuted.
(** C13, what holds: the name is kept whenever it is not [h] followed by hex digits. *)
Theorem function_name_kept_partial : forall ms f n,
  Forall wf_segment (ms ++ [f]) -> ~ hash_like f ->
  sname_parse (join (st "::") (ms ++ [f])) = Ok n ->
  lookup_name n = f /\ module_path n = ms /\ s_hash n = [] /\ sname_display n = join (st "::") (ms ++ [f]).
Proof.
  intros ms f n Hw Hh H. pose proof (display_plain ms f n Hw Hh H) as Hd.
  unfold sname_parse in H. rewrite parse_symbol_plain in H by assumption. injection H as <-. auto.
Qed.
Print Assumptions function_name_kept_partial.

(** C57. A displayed symbol name is the path without its hash, and can be looked up. *)
Theorem display_drops_only_the_hash : forall ms f h n,
  Forall wf_segment (ms ++ [f]) -> hash_like h ->
  sname_parse (join (st "::") (ms ++ [f; h])) = Ok n -> sname_display n = join (st "::") (ms ++ [f]).
Proof. exact display_hash. Qed.
Print Assumptions display_drops_only_the_hash.
Theorem displayed_name_is_found_partial : forall X files s ms f h,
  Forall no_colon (ms ++ [f]) -> Forall wf_segment (ms ++ [f]) -> ~ hash_like f -> hash_like h ->
  In s (functions_of (history X files)) ->
  full_path (sym_name s) = join (st "::") (ms ++ [f; h]) \/ full_path (sym_name s) = join (st "::") (ms ++ [f]) ->
  exists n file, find_closest_function (index_symbol_map X files) (sname_display (sym_name s)) = Some (n, file)
    /\ names_function ms f n.
Proof. exact found_by_own_name. Qed.
Print Assumptions displayed_name_is_found_partial.
Definition plain_externals : externals := {| from_utf8 := Some; try_demangle := Some |}.
Theorem displayed_name_is_found_refuted :
  exists files s, In s (functions_of (history plain_externals files)) /\
    find_closest_function (index_symbol_map plain_externals files) (sname_display (sym_name s)) = None.
Proof.
  exists [(0%N, [mk_raw (Some (st "<a::B as C>::f::h0123456789abcdef")) 16 true])].
  eexists. split; [left; reflexivity | vm_compute; reflexivity].
Qed.
Print Assumptions displayed_name_is_found_refuted.

(** Non-vacuity. *)
Example ex_wf : Forall wf_segment [st "core"; st "NonZero<a::b<u8>, T>"; st "ilog2"].
Proof.
  repeat (apply Forall_cons; [split; [discriminate|]; split; [apply colons_ok_nested; vm_compute; reflexivity|];
    split; [vm_compute; reflexivity|]; split; [vm_compute; reflexivity|];
    split; [apply chars_ok_spec; vm_compute; reflexivity | apply (spaces_ok_normal _ false); vm_compute; reflexivity]|]).
  apply Forall_nil.
Qed.
Example ex_index :
  let ix := index_symbol_map plain_externals
     [(0%N, [mk_raw (Some (st "a::f::h01")) 16 true; mk_raw (Some (st "b::f")) 32 true;
             mk_raw (Some (st "a::f::h01")) 48 true; mk_raw (Some (st "g")) 8 false])] in
  option_map (fun r => (lookup_name (fst r), module_path (fst r))) (find_closest_function ix (st "b::f")) = Some (st "f", [st "b"])
  /\ option_map fst (function_at_address ix 40) = Some 32
  /\ function_at_address ix 15 = None.
Proof. vm_compute. auto. Qed.
