(** Model of creating call arguments in the target: rudy-db/src/debug_info.rs, create_typed_value.

    The target is a memory plus the list of blocks handed out by [allocate_memory]; the log records every
    write. Effects persist when a later step fails, as they do in the program. Tracing is dropped. *)
From Coq Require Import Ascii String List ZArith Lia Bool.
From Verif Require Import Base NumText OMap TypesModel ValueModel DataModel DataSpec MemExample Utf8.
Import ListNotations.
Open Scope Z_scope.

Record target := Target {
  t_mem : memory;
  t_blocks : list (Z * Z);            (* (address, size), newest first *)
  t_writes : list (Z * list Z)        (* newest first *)
}.

(** A computation on the target. *)
Definition tm (A : Type) := target -> res A * target.
Definition tret {A} (a : A) : tm A := fun s => (Ok a, s).
Definition tfail {A} (m : string) : tm A := fun s => (Err m, s).
Definition tbind {A B} (x : tm A) (k : A -> tm B) : tm B := fun s =>
  let '(r, s1) := x s in
  match r with
  | Ok a => k a s1
  | Err m => (Err m, s1)
  | Panic m => (Panic m, s1)
  | Fuel => (Fuel, s1)
  end.
Definition tlift {A} (r : res A) : tm A := fun s => (r, s).
Notation "x <~ e ;; k" := (tbind e (fun x => k)) (at level 61, e at next level, right associativity).

(** Storing bytes. *)
Definition store (m : memory) (a : Z) (bs : list Z) : memory := fun x =>
  if (a <=? x) && (x <? a + Z.of_nat (List.length bs)) then nth_error bs (Z.to_nat (x - a)) else m x.

Section Create.
(** The target's allocator: address for a request, given the blocks in use; it may fail. *)
Variable pick : list (Z * Z) -> Z -> res Z.

(** DataResolver::allocate_memory / write_memory / read_memory (data.rs 82-104, 33-37) on this target. *)
Definition t_alloc (n : Z) : tm Z := fun s =>
  match pick (t_blocks s) n with
  | Ok a => (Ok a, Target (t_mem s) ((a, n) :: t_blocks s) (t_writes s))
  | Err m => (Err m, s)
  | Panic m => (Panic m, s)
  | Fuel => (Fuel, s)
  end.
Definition t_write (a : Z) (bs : list Z) : tm unit := fun s =>
  (Ok tt, Target (store (t_mem s) a bs) (t_blocks s) ((a, bs) :: t_writes s)).
Definition t_read (a n : Z) : tm (list Z) := fun s =>
  match read_bytes (t_mem s) a (Z.to_nat n) with Some bs => (Ok bs, s) | None => (Err "unreadable", s) end.

(** debug_info.rs 866-997: create_str_slice_with_layout. *)
Definition create_str_slice (v : str) (dpo lo : Z) : tm Z :=
  let bytes := utf8 v in
  let data_size := Z.of_nat (List.length bytes) in
  if (16 <? dpo) || (16 <? lo) then tfail "Invalid StrSliceLayout" else
  base <~ t_alloc (data_size + 16) ;;
  _ <~ t_write base bytes ;;
  fat <~ tlift (add64 base data_size) ;;
  pa <~ tlift (add64 fat dpo) ;;
  _ <~ t_write pa (encode 8 base) ;;
  la <~ tlift (add64 fat lo) ;;
  _ <~ t_write la (encode 8 data_size) ;;
  pb <~ t_read pa 8 ;;
  lb <~ t_read la 8 ;;
  rp <~ tlift (le_unwrap 8 pb) ;;
  rl <~ tlift (le_unwrap 8 lb) ;;
  if negb (rp =? base) then tfail "data pointer mismatch" else
  if negb (rl =? data_size) then tfail "length mismatch" else
  if 1048576 <? rl then tfail "suspiciously large" else
  sb <~ t_read rp rl ;;
  if negb (str_eqb (utf8_lossy sb) v) then tfail "string data mismatch" else
  tret fat.

(** debug_info.rs 1000-1078: create_owned_string_with_layout. *)
Definition create_string (v : str) (lo dpo co : Z) (it : tdef) : tm Z :=
  let bytes := utf8 v in
  let n := Z.of_nat (List.length bytes) in
  content <~ t_alloc n ;;
  _ <~ t_write content bytes ;;
  sz <~ tlift (s <- size (LString lo dpo co it) ;;
               match s with Some s => Ok s | None => Err "Could not determine String struct size from layout" end) ;;
  sa <~ t_alloc sz ;;
  _ <~ t_write sa (repeat 0 (Z.to_nat sz)) ;;
  la <~ tlift (add64 sa lo) ;;
  _ <~ t_write la (encode 8 n) ;;
  pa <~ tlift (add64 sa dpo) ;;
  _ <~ t_write pa (encode 8 content) ;;
  ca <~ tlift (add64 sa co) ;;
  _ <~ t_write ca (encode 8 n) ;;
  tret sa.

(** debug_info.rs 842-863: create_typed_value. *)
Definition create_typed_value (v : str) (t : tdef) : tm Z :=
  match layOf t with
  | LStrSlice dpo lo => create_str_slice v dpo lo
  | LString lo dpo co it => create_string v lo dpo co it
  | _ => tfail "Cannot convert string literal"
  end.
End Create.
