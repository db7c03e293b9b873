(** Model of the database that every connection of a server shares: rudy-db/src/database.rs, the salsa inputs and tracked
    functions of crates/rudy-dwarf/src/file/mod.rs, symbols/mod.rs 31-114, rudy-db/src/index.rs, and their use by
    rudy-lldb/src/server.rs 24-46.

    Files may change at any time: [disk t] is what they hold at instant [t], and an instant passes with every access. A
    file is replaced, as compilers and linkers do, not overwritten in place (a mapped file would change under the map).

    salsa itself is another crate; its contract as used here (no input is ever set again, nothing is evicted): a tracked
    function is computed once for each key and its answer kept. The rest of the code asks the database what it needs and
    computes; such a computation is a [query]. A key that names a debug file does so by its number within its binary.
    The commands of different connections do not overlap (their keys never meet: every input belongs to one connection). *)
From Coq Require Import Ascii String List ZArith NArith Lia Bool.
From Verif Require Import Base OMap Utf8 SymModel PathModel LinesModel DieModel LocModel SourceModel LoadModel BinaryModel.
Import ListNotations.

(** What debug_index gives: the symbols, the number of every debug file made and whether it is relocatable, those listed. *)
Record lay := Lay { l_symbols : symbol_index; l_made : list (N * bool); l_files : list (N * bool) }.
(** A computation: it asks for the index (index.rs 91-166), for the units of a debug file (die/utils.rs 15-18), or calls
    a tracked function ([K]: its name and arguments), and ends with an answer. *)
Inductive query (K V : Type) : Type :=
| Answer (v : V)
| Index (k : lay -> query K V)
| Units (i : N) (k : list bunit -> query K V)
| Call (key : K) (k : V -> query K V).
Arguments Answer {K V}. Arguments Index {K V}. Arguments Units {K V}. Arguments Call {K V}.

(** file/mod.rs 59-67: the input File; the instant at which its metadata was read stands for mtime and size. *)
Record input := Input { in_file : file; in_read : nat }.
(** index.rs 18-29: Index; each debug file with its number in the database. *)
Record dindex := DIndex { ix_symbols : symbol_index; ix_made : list (debug_file * nat); ix_listed : debug_files }.
(** database.rs 54-59: the storage. Inputs (File, DebugFile: its File and relocatable, Binary: its File) are numbered as
    they are created; then what is remembered of load, of debug_index and of the other tracked functions. *)
Record db (K V : Type) := Db {
  now : nat; db_files : list input; db_debug : list (nat * bool); db_binaries : list nat;
  db_loads : list (nat * res object); db_indexes : list (nat * dindex); db_memo : list (nat * K * V) }.
Arguments Db {K V}. Arguments now {K V}. Arguments db_files {K V}. Arguments db_debug {K V}. Arguments db_binaries {K V}.
Arguments db_loads {K V}. Arguments db_indexes {K V}. Arguments db_memo {K V}.
Definition empty_db {K V} : db K V := Db 0 [] [] [] [] [] [].

Definition lookup {A} (i : nat) (l : list (nat * A)) : option A := option_map snd (find (fun e => Nat.eqb (fst e) i) l).
(** die/utils.rs 15-18: no units when the file cannot be loaded. *)
Definition units_read (r : res object) : list bunit := match r with Ok o => ob_units o | _ => [] end.

Section Cache.
Variable smap : list (fpath * fpath).
Variable disk : nat -> fpath -> option stored.
Variable order : list nat -> list nat.
Variable X : externals.
Variables K V : Type.
Variable same_key : K -> K -> bool.
Variable body : K -> query K V.
Notation db := (db K V).

(** file/mod.rs 71-87: File::build. *)
Definition op_build (p : fpath) (m : option str) (s : db) : option nat * db :=
  let p' := remap_path smap p in
  match disk (now s) p' with
  | Some _ => (Some (List.length (db_files s)),
               Db (S (now s)) (db_files s ++ [Input (p', m) (now s)]) (db_debug s) (db_binaries s) (db_loads s) (db_indexes s) (db_memo s))
  | None => (None, Db (S (now s)) (db_files s) (db_debug s) (db_binaries s) (db_loads s) (db_indexes s) (db_memo s))
  end.
(** file/mod.rs 103-111: DebugFile::new. *)
Definition op_debug_file (f : nat) (reloc : bool) (s : db) : nat * db :=
  (List.length (db_debug s), Db (now s) (db_files s) (db_debug s ++ [(f, reloc)]) (db_binaries s) (db_loads s) (db_indexes s) (db_memo s)).
(** file/mod.rs 150-202: load, remembered for each File. *)
Definition op_load (f : nat) (s : db) : res object * db :=
  match lookup f (db_loads s) with
  | Some r => (r, s)
  | None =>
      let r := match nth_error (db_files s) f with Some i => LoadModel.load smap (disk (now s)) (in_file i) | None => Err "no such file" end in
      (r, Db (S (now s)) (db_files s) (db_debug s) (db_binaries s) ((f, r) :: db_loads s) (db_indexes s) (db_memo s))
  end.
(** symbols/mod.rs 61-93: the File of an object of the object map, if there is one. *)
Definition op_object_file (o : list Z * option (list Z)) (s : db) : option nat * db :=
  match utf8_text (fst o) with
  | None => (None, s)
  | Some p =>
      match snd o with
      | None => op_build (components p) None s
      | Some m => match utf8_text m with Some t => op_build (components p) (Some t) s | None => (None, s) end
      end
  end.
(** symbols/mod.rs 61-93: the loop over the objects; the debug file made for each, if any. *)
Definition file_at (s : db) (f : nat) : file := match nth_error (db_files s) f with Some i => in_file i | None => ([], None) end.
Fixpoint op_objects (i : nat) (l : list (list Z * option (list Z))) (s : db) : list (option (debug_file * nat)) * db :=
  match l with
  | [] => ([], s)
  | o :: l' =>
      let '(f, s1) := op_object_file o s in
      match f with
      | None => let '(r, s2) := op_objects (S i) l' s1 in (None :: r, s2)
      | Some f =>
          let '(d, s2) := op_debug_file f true s1 in
          let '(r, s3) := op_objects (S i) l' s2 in
          (Some (DebugFile (object_id i) (file_at s1 f) true, d) :: r, s3)
      end
  end.
(** symbols/mod.rs 85-86: debug_files.insert; 95-107: the groups of mapped symbols. *)
Fixpoint list_objects (l : list (option debug_file)) (m : debug_files) : debug_files :=
  match l with [] => m | x :: l' => list_objects l' (match x with Some d => oinsert cmp_file (db_file d) d m | None => m end) end.
Definition found_tables (l : list (option debug_file)) (o : object) : list (N * list raw_entry) :=
  (if ob_debug o then [(0%N, ob_symbols o)] else []) ++
  flat_map (fun i => match nth_error l i with Some (Some _) => [(object_id i, group i (ob_mapped o))] | _ => [] end) (order (indices (ob_mapped o))).
Definition somes {A} (l : list (option A)) : list A := flat_map (fun x => match x with Some a => [a] | None => [] end) l.
(** symbols/mod.rs 31-114: index_symbol_map. *)
Definition op_index_symbol_map (b : nat) (s : db) : dindex * db :=
  match nth_error (db_binaries s) b with
  | None => (DIndex empty_index [] [], s)
  | Some f =>
      let '(r, s1) := op_load f s in
      match r with
      | Ok o =>
          let '(d, s2) := op_debug_file f false s1 in
          let '(made, s3) := op_objects 0 (ob_objects o) s2 in
          let bin := DebugFile 0 (file_at s f) false in
          let found := map (option_map fst) made in
          (DIndex (index_symbol_map X (found_tables found o)) ((bin, d) :: somes made) (list_objects found [((fst (file_at s f), None), bin)]), s3)
      | _ => (DIndex empty_index [] [], s1)
      end
  end.
(** index.rs 128-157: the sources of every listed debug file are read. *)
Fixpoint op_read (l : list nat) (s : db) : db := match l with [] => s | d :: l' => op_read l' (match nth_error (db_debug s) d with Some (f, _) => snd (op_load f s) | None => s end) end.
Definition number_of (x : dindex) (i : N) : option nat := option_map snd (find (fun e => N.eqb (db_id (fst e)) i) (ix_made x)).
(** index.rs 91-166: debug_index, remembered for each Binary. *)
Definition op_index (b : nat) (s : db) : dindex * db :=
  match lookup b (db_indexes s) with
  | Some x => (x, s)
  | None =>
      let '(x, s1) := op_index_symbol_map b s in
      let s2 := op_read (flat_map (fun e => match number_of x (db_id (snd e)) with Some d => [d] | None => [] end) (ix_listed x)) s1 in
      (x, Db (now s2) (db_files s2) (db_debug s2) (db_binaries s2) (db_loads s2) ((b, x) :: db_indexes s2) (db_memo s2))
  end.
Definition lay_of (x : dindex) : lay :=
  Lay (ix_symbols x) (map (fun e => (db_id (fst e), db_reloc (fst e))) (ix_made x)) (map (fun e => (db_id (snd e), db_reloc (snd e))) (ix_listed x)).
(** die/utils.rs 15-18: get_dwarf. *)
Definition op_units (b : nat) (i : N) (s : db) : list bunit * db :=
  let '(x, s1) := op_index b s in
  match number_of x i with
  | None => ([], s1)
  | Some d => match nth_error (db_debug s1) d with
              | None => ([], s1)
              | Some (f, _) => let '(r, s2) := op_load f s1 in (units_read r, s2)
              end
  end.
Definition remembered (b : nat) (key : K) (s : db) : option V :=
  option_map snd (find (fun e => Nat.eqb (fst (fst e)) b && same_key (snd (fst e)) key) (db_memo s)).
Definition remember (b : nat) (key : K) (v : V) (s : db) : db :=
  Db (now s) (db_files s) (db_debug s) (db_binaries s) (db_loads s) (db_indexes s) ((b, key, v) :: db_memo s).
(** A computation on the database; [n]: the model's budget for tracked functions calling tracked functions. *)
Fixpoint exec (n : nat) (b : nat) : query K V -> db -> option (V * db) :=
  fix go (q : query K V) (s : db) {struct q} : option (V * db) :=
    match q with
    | Answer v => Some (v, s)
    | Index k => let '(x, s1) := op_index b s in go (k (lay_of x)) s1
    | Units i k => let '(us, s1) := op_units b i s in go (k us) s1
    | Call key k =>
        match remembered b key s with
        | Some v => go (k v) s
        | None =>
            match n with
            | O => None
            | S n' => match exec n' b (body key) s with Some (v, s1) => go (k v) (remember b key v s1) | None => None end
            end
        end
    end.

(** server.rs 24-46, 93-111: a connection opens a binary (database.rs 126-129: load_binary); the connections that did, in
    order, ask. *)
Inductive event := Connects (p : fpath) | Asks (b : nat) (q : query K V).
Inductive outcome := Opened (b : nat) | Refused | Answered (v : V) | Nobody.
Definition op_connect (p : fpath) (s : db) : outcome * db :=
  let '(f, s1) := op_build p None s in
  match f with
  | None => (Refused, s1)
  | Some f => (Opened (List.length (db_binaries s1)), Db (now s1) (db_files s1) (db_debug s1) (db_binaries s1 ++ [f]) (db_loads s1) (db_indexes s1) (db_memo s1))
  end.
Definition step (n : nat) (e : event) (s : db) : option (outcome * db) :=
  match e with
  | Connects p => Some (op_connect p s)
  | Asks b q => match nth_error (db_binaries s) b with
                | None => Some (Nobody, s)
                | Some _ => match exec n b q s with Some (v, s1) => Some (Answered v, s1) | None => None end
                end
  end.
Fixpoint run (n : nat) (es : list event) (s : db) : option (list outcome * db) :=
  match es with
  | [] => Some ([], s)
  | e :: es' => match step n e s with
                | None => None
                | Some (o, s1) => match run n es' s1 with Some (os, s2) => Some (o :: os, s2) | None => None end
                end
  end.
End Cache.
Arguments Connects {K V}. Arguments Asks {K V}. Arguments Opened {V}. Arguments Refused {V}. Arguments Answered {V}. Arguments Nobody {V}.
