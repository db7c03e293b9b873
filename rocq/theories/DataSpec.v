(** Vocabulary for the memory-reading properties, independent of the readers. *)
From Coq Require Import Ascii String List ZArith Lia Bool.
From Verif Require Import Base NumText OMap TypesModel ValueModel DataModel.
Import ListNotations.
Open Scope Z_scope.

Definition memory := Z -> option Z.
Definition byte (b : Z) : Prop := 0 <= b < 256.

(** The bytes [bs] are stored from address [a] on. *)
Definition holds (m : memory) (a : Z) (bs : list Z) : Prop :=
  Forall byte bs /\ forall i b, nth_error bs i = Some b -> m (a + Z.of_nat i) = Some b.

(** The resolver delivers what the target's memory holds. *)
Definition serves (E : env) (m : memory) : Prop :=
  forall a bs, holds m a bs -> rd E a (Z.of_nat (List.length bs)) = Ok bs.

(** Little-endian encoding of [v] in [n] bytes. *)
Definition encode (n : nat) (v : Z) : list Z := map (fun i => (v / 256 ^ Z.of_nat i) mod 256) (seq 0 n).

(** The [n]-byte unsigned / two's complement integer [v] is stored at [a]. *)
Definition holds_uint (m : memory) (a n v : Z) : Prop :=
  0 <= v < 2 ^ (8 * n) /\ holds m a (encode (Z.to_nat n) v).
Definition holds_int (m : memory) (a n v : Z) : Prop :=
  - 2 ^ (8 * n - 1) <= v < 2 ^ (8 * n - 1) /\ holds m a (encode (Z.to_nat n) (v mod 2 ^ (8 * n))).
(** Stored integer of a discriminant type. *)
Definition holds_disc (m : memory) (a : Z) (t : dty) (v : Z) : Prop :=
  match t with
  | DInt n => In n [1; 2; 4; 8] /\ holds_int m a n v
  | DUInt n => In n [1; 2; 4; 8] /\ holds_uint m a n v
  | DImplicit => False
  end.

(** Element [i] of a contiguous sequence at [base] with elements of [es] bytes. *)
Definition sequence_at (base es : Z) (n : nat) (t : tdef) : list value :=
  map (fun i => VPtr (base + Z.of_nat i * es) t) (seq 0 n).

(** Buckets of a hash table with control bytes [ctrl]: bucket [i] lies [i+1] pairs below the control bytes and
    is occupied iff its control byte has the top bit clear. *)
Definition occupied (ctrl : list Z) : list nat :=
  filter (fun i => match nth_error ctrl i with Some c => c <? 128 | None => false end) (seq 0 (List.length ctrl)).
Definition bucket (ctrl psz ko vo : Z) (i : nat) : Z * Z :=
  (ctrl - (Z.of_nat i + 1) * psz + ko, ctrl - (Z.of_nat i + 1) * psz + vo).

(** B-trees: a node holds [n] pairs and, if internal, [n+1] children. *)
Inductive btree := BNode (ptr : Z) (n : nat) (children : list btree).
Definition bt_ptr (t : btree) : Z := match t with BNode p _ _ => p end.
Section BTree.
  Variables (m : memory) (nl : bnode) (ks vs : Z).
  (** [bt_stored h t]: [t] is a B-tree of height [h] laid out in memory. *)
  Inductive bt_stored : nat -> btree -> Prop :=
  | bts_leaf p n : holds_uint m (p + len_off nl) 2 (Z.of_nat n) -> bt_fits p n false -> bt_stored 0 (BNode p n [])
  | bts_node h p n cs :
      holds_uint m (p + len_off nl) 2 (Z.of_nat n) -> bt_fits p n true ->
      List.length cs = S n ->
      (forall i c, nth_error cs i = Some c ->
         bt_ptr c <> 0 /\ holds_uint m (p + edges_off nl + 8 * Z.of_nat i) 8 (bt_ptr c) /\ bt_stored h c) ->
      bt_stored (S h) (BNode p n cs)
  (** the node's arrays lie in the address space *)
  with bt_fits : Z -> nat -> bool -> Prop :=
  | btf p n b : 0 <= p -> 0 <= len_off nl -> 0 <= keys_off nl -> 0 <= vals_off nl -> 0 <= edges_off nl ->
      p + len_off nl < two64 -> p + keys_off nl + Z.of_nat n * ks < two64 -> p + vals_off nl + Z.of_nat n * vs < two64 ->
      (b = true -> p + edges_off nl + 8 * Z.of_nat n < two64) -> bt_fits p n b.

  (** Address of pair [i] of the node at [p]. *)
  Definition bt_pair (p : Z) (i : nat) : Z * Z :=
    (p + keys_off nl + Z.of_nat i * ks, p + vals_off nl + Z.of_nat i * vs).
  (** In-order sequence: child 0, pair 0, child 1, pair 1, ..., child n. *)
  Fixpoint inorder (t : btree) : list (Z * Z) :=
    match t with
    | BNode p n cs =>
        match map inorder cs with
        | [] => map (bt_pair p) (seq 0 n)
        | c0 :: cs' => c0 ++ flat_map (fun ic => bt_pair p (fst ic) :: snd ic) (combine (seq 0 n) cs')
        end
    end.
End BTree.

(** Search-tree ordering of the keys, for any order on what is stored at key addresses. *)
Section Ordered.
  Variables (nl : bnode) (ks : Z) (lt : Z -> Z -> Prop).
  Definition bt_key (p : Z) (i : nat) : Z := p + keys_off nl + Z.of_nat i * ks.
  Inductive key_in : btree -> Z -> Prop :=
  | ki_here p n cs i : (i < n)%nat -> key_in (BNode p n cs) (bt_key p i)
  | ki_child p n cs c k : In c cs -> key_in c k -> key_in (BNode p n cs) k.
  Inductive search_tree : btree -> Prop :=
  | srch p n cs :
      (forall c, In c cs -> search_tree c) ->
      (forall i j, (i < j < n)%nat -> lt (bt_key p i) (bt_key p j)) ->
      (forall i c k, nth_error cs i = Some c -> key_in c k ->
         forall j, (j < n)%nat -> if (j <? i)%nat then lt (bt_key p j) k else lt k (bt_key p j)) ->
      search_tree (BNode p n cs).
  Fixpoint strictly_ascending (l : list Z) : Prop :=
    match l with [] => True | x :: r => Forall (lt x) r /\ strictly_ascending r end.
End Ordered.

(** Element type after resolving a type alias. *)
  Definition element_type (E : env) (et t : tdef) : Prop :=
    match layOf et with LAlias _ => resolve E (locOf et) = Ok t | _ => t = et end.

  (** a hash table in memory: item count, bucket mask, control bytes, pairs below them *)
  Record hash_stored (m : memory) (a mo co io psz ko vo items cp : Z) (ctrl : list Z) : Prop := {
    hs_adr : 0 <= a + mo < two64 /\ 0 <= a + co < two64 /\ 0 <= a + io < two64;
    hs_items : holds_uint m (a + io) 8 items;
    hs_mask : holds_uint m (a + mo) 8 (Z.of_nat (List.length ctrl) - 1);
    hs_ctrl : holds_uint m (a + co) 8 cp;
    hs_bytes : holds m cp ctrl;
    hs_len : Z.of_nat (List.length ctrl) < two64;
    hs_pair : 0 <= ko /\ 0 <= vo /\ 0 <= psz /\ cp - psz + ko < two64 /\ cp - psz + vo < two64;
    hs_room : Z.of_nat (List.length ctrl) * psz <= cp
  }.

(** Enum variants: name, discriminant value (absent for the default variant), payload. *)
Definition variant := (str * option Z * tdef)%type.
Definition v_disc (w : variant) : option Z := snd (fst w).
Definition v_name (w : variant) : str := fst (fst w).
Definition v_type (w : variant) : tdef := snd w.
(** [w] is the first element of [l] satisfying [P]. *)
Definition is_first {A} (P : A -> Prop) (l : list A) (w : A) : Prop :=
  exists pre post, l = pre ++ w :: post /\ P w /\ forall x, In x pre -> ~ P x.
(** The variant designated by an explicit discriminant value *)
Definition active (vs : list variant) (v : Z) (w : variant) : Prop :=
  is_first (fun x => v_disc x = Some v) vs w \/
  ((forall x, In x vs -> v_disc x <> Some v) /\ is_first (fun x => v_disc x = None) vs w).

(** The last field called [n]. *)
Fixpoint last_field (n : str) (fs : list (str * Z * tdef)) : option (Z * tdef) :=
  match fs with
  | [] => None
  | (k, o, t) :: fs' =>
      match last_field n fs' with
      | Some r => Some r
      | None => if str_eqb n k then Some (o, t) else None
      end
  end.

(** rustc's name for tuple field [i]. *)
Definition tuple_name (i : nat) : str := st "__" ++ dec (Z.of_nat i).
