(** Vocabulary for evaluating expressions against a client. *)
From Coq Require Import Ascii String List ZArith Lia Bool.
From Verif Require Import Base NumText OMap TypesModel ValueModel DataModel AccessModel SynthModel LocModel FnModel DiscoverModel ExprModel ProcModel ProcSpec IoDataModel EvalModel.
Import ListNotations.
Open Scope Z_scope.

(** [part x e]: the expression [x] occurs in [e]. *)
Inductive part : expr -> expr -> Prop :=
| part_self e : part e e
| part_field x b f : part x b -> part x (EField b f)
| part_base x b i : part x b -> part x (EIndex b i)
| part_index x b i : part x i -> part x (EIndex b i)
| part_deref x i : part x i -> part x (EDeref i)
| part_addr x m i : part x i -> part x (EAddressOf m i)
| part_paren x i : part x i -> part x (EParen i)
| part_object x b m args : part x b -> part x (EMethodCall b m args)
| part_marg x b m args a : In a args -> part x a -> part x (EMethodCall b m args)
| part_farg x f args a : In a args -> part x a -> part x (ECall f args).
(** No method or function is called anywhere in the expression. *)
Definition no_calls (e : expr) : Prop :=
  forall x, part x e -> match x with EMethodCall _ _ _ | ECall _ _ => False | _ => True end.

(** The events an expression may give rise to. Memory and registers may be looked at; a method may be run if the
    expression calls a method of that name on something and it is a method, with an address, of some type; a function if the
    expression calls it by a name that function discovery resolves to it; memory is allocated and written only to build a
    string that is written as an argument of a call. *)
Inductive permitted (D : dbg) (e : expr) : request -> Prop :=
| may_read a n : permitted D e (ReadMemory a n)
| may_register r : permitted D e (ReadRegisterByIndex r)
| may_frame : permitted D e GetFrameInfo
| may_method b m args t ms dm base xs sz :
    part (EMethodCall b m args) e -> g_methods D t = Ok ms -> In dm ms -> dm_name dm = m -> dm_self dm <> None -> dm_addr dm <> 0 ->
    List.length xs = List.length args -> return_size (dm_ret dm) = Ok sz -> permitted D e (ExecuteMethod (dm_addr dm) base xs sz)
| may_function f args df fs xs sz :
    part (ECall f args) e -> g_functions D f = Ok (df :: fs) -> df_addr df <> 0 ->
    List.length xs = List.length args -> List.length args = List.length (df_params df) -> return_size (df_ret df) = Ok sz ->
    permitted D e (ExecuteFunction (df_addr df) xs sz)
| may_allocate c args v n : part c e -> (exists b m, c = EMethodCall b m args) \/ (exists f, c = ECall f args) -> In (EString v) args -> permitted D e (AllocateMemory n)
| may_write c args v a d : part c e -> (exists b m, c = EMethodCall b m args) \/ (exists f, c = ECall f args) -> In (EString v) args -> permitted D e (WriteMemory a d).

(** ** A stopped target *)
(** The memory and registers the client shows. *)
Definition shown_memory {S} (c : client S) (s : S) (a n : Z) : res (list Z) := memory_of (fst (c s (ReadMemory a n))).
Definition shown_register {S} (c : client S) (s : S) (r : Z) : res Z := register_of (fst (c s (ReadRegisterByIndex r))).
Definition shown_env {S} (c : client S) (s : S) (I : ienv) : env := Env (shown_memory c s) (i_resolve I) (i_lossy I) (i_float I).
Definition shown_regs {S} (c : client S) (s : S) : regs := Regs (shown_register c s) (Err "get_stack_pointer() not implemented").

Section Denotation.
Context {S : Type} (c : client S) (s : S) (D : dbg) (pc : Z).
Let E := shown_env c s (g_env D).
Let n := g_fuel D.
(** What the expression stands for at program counter [pc]: a place with its type ([place]), an integer, a text. *)
Inductive place : expr -> tptr -> Prop :=
| pl_variable x pl a t :
    g_variable D pc x = Ok (Some pl) -> resolve_data_location (shown_regs c s) (vp_fb pl) (vp_base pl) (vp_loc pl) = Ok (Some a) ->
    vp_ty pl = Ok t -> place (EVariable x) (a, t)
| pl_field b f p q : place b p -> get_struct_field (fst p) (snd p) f = Ok q -> place (EField b f) q
| pl_index b i p k q : place b p -> (forall kt vt mv, layOf (snd p) <> LMap kt vt mv) -> number i k ->
    index_int E n (fst p) (snd p) k = Ok q -> place (EIndex b i) q
| pl_key b i p kt vt mv k q : place b p -> layOf (snd p) = LMap kt vt mv -> text i k ->
    index_map E n (fst p) (snd p) (VScalar (st "String") k) = Ok q -> place (EIndex b i) q
with number : expr -> Z -> Prop :=
| nu_literal v : number (ENumber v) v
| nu_paren e k : number e k -> number (EParen e) k
| nu_place e p ty x k : place e p -> read E n (fst p) (snd p) = Ok (VScalar ty x) -> int_of_text x = Ok k -> number e k
with text : expr -> str -> Prop :=
| tx_literal v : text (EString v) v
| tx_paren e k : text e k -> text (EParen e) k
| tx_place e p ty x : place e p -> read E n (fst p) (snd p) = Ok (VScalar ty x) -> text e (trim_matches (ch """") x).

(** [unfolded k v w]: [w] is [v] with what pointers point to in their place, down to level [k]; a level is passed by
    every pointer followed and by every collection entered. *)
Inductive unfolded : nat -> value -> value -> Prop :=
| un_stop v : unfolded 0 v v
| un_pointer k a t v w : read E n a t = Ok v -> unfolded k v w -> unfolded (Datatypes.S k) (VPtr a t) w
| un_scalar k ty x : unfolded (Datatypes.S k) (VScalar ty x) (VScalar ty x)
| un_array k ty l l' : Forall2 (unfolded k) l l' -> unfolded (Datatypes.S k) (VArray ty l) (VArray ty l')
| un_struct k ty l l' : Forall2 (fun f g => fst g = fst f /\ unfolded k (snd f) (snd g)) l l' -> unfolded (Datatypes.S k) (VStruct ty l) (VStruct ty l')
| un_tuple k ty l l' : Forall2 (unfolded k) l l' -> unfolded (Datatypes.S k) (VTuple ty l) (VTuple ty l')
| un_map k ty l l' : Forall2 (fun f g => unfolded k (fst f) (fst g) /\ unfolded k (snd f) (snd g)) l l' -> unfolded (Datatypes.S k) (VMap ty l) (VMap ty l').

(** What evaluating the expression shows: literals as written, places by the value found there, unfolded to level 8. *)
Inductive shows_as : expr -> eresult -> Prop :=
| sh_number v : shows_as (ENumber v) (EResult (dec_nat v) (st "u64"))
| sh_string v : shows_as (EString v) (EResult (ch """" :: v ++ [ch """"]) (st "String"))
| sh_paren e r : shows_as e r -> shows_as (EParen e) r
| sh_place e p v w : place e p -> read E n (fst p) (snd p) = Ok v -> unfolded 8 v w -> shows_as e (EResult (format_value w) (tname (snd p))).
End Denotation.

(** A value without pointers. *)
Inductive pointer_free : value -> Prop :=
| pf_scalar ty x : pointer_free (VScalar ty x)
| pf_array ty l : Forall pointer_free l -> pointer_free (VArray ty l)
| pf_struct ty l : Forall (fun f => pointer_free (snd f)) l -> pointer_free (VStruct ty l)
| pf_tuple ty l : Forall pointer_free l -> pointer_free (VTuple ty l)
| pf_map ty l : Forall (fun e => pointer_free (fst e) /\ pointer_free (snd e)) l -> pointer_free (VMap ty l).

(** A pointer occurs in a value under [d] collections. *)
Inductive pointer_under : nat -> value -> tptr -> Prop :=
| pu_here a t : pointer_under 0 (VPtr a t) (a, t)
| pu_array d ty l v p : In v l -> pointer_under d v p -> pointer_under (S d) (VArray ty l) p
| pu_struct d ty l f p : In f l -> pointer_under d (snd f) p -> pointer_under (S d) (VStruct ty l) p
| pu_tuple d ty l v p : In v l -> pointer_under d v p -> pointer_under (S d) (VTuple ty l) p
| pu_key d ty l e p : In e l -> pointer_under d (fst e) p -> pointer_under (S d) (VMap ty l) p
| pu_val d ty l e p : In e l -> pointer_under d (snd e) p -> pointer_under (S d) (VMap ty l) p.
(** [leads E n v j d p]: starting from [v], following [j] pointers and entering [d] collections, one meets the pointer
    [p]. *)
Inductive leads (E : env) (n : nat) : value -> nat -> nat -> tptr -> Prop :=
| le_here a t : leads E n (VPtr a t) 0 0 (a, t)
| le_follow a t v j d p : read E n a t = Ok v -> leads E n v j d p -> leads E n (VPtr a t) (S j) d p
| le_array j d ty l v p : In v l -> leads E n v j d p -> leads E n (VArray ty l) j (S d) p
| le_struct j d ty l f p : In f l -> leads E n (snd f) j d p -> leads E n (VStruct ty l) j (S d) p
| le_tuple j d ty l v p : In v l -> leads E n v j d p -> leads E n (VTuple ty l) j (S d) p
| le_key j d ty l e p : In e l -> leads E n (fst e) j d p -> leads E n (VMap ty l) j (S d) p
| le_val j d ty l e p : In e l -> leads E n (snd e) j d p -> leads E n (VMap ty l) j (S d) p.

(** ** Types that can be read *)
(** Reading a value of the type passes through at most [k] types before it reaches a struct, a collection or a scalar:
    no type is (through pointers, references, smart pointers, options and variants alone) part of itself. *)
Fixpoint ends (I : ienv) (k : nat) (t : tdef) {struct k} : Prop :=
  match k with
  | O => False
  | S k' =>
      match layOf t with
      | LPointer _ p | LReference _ p => ends I k' p
      | LOption _ _ _ u _ => ends I k' u
      | LSmartPtr u _ _ _ => ends I k' u
      | LEnum _ _ vs _ => forall w, In w vs -> ends I k' (snd w)
      | LAlias _ => forall u, i_resolve I (locOf t) = Ok u -> ends I k' u
      | _ => True
      end
  end.
(** The types that reading values of types in [T] leads to are in [T]. *)
Definition closed (I : ienv) (T : tdef -> Prop) : Prop := forall t, T t ->
  match layOf t with
  | LStruct _ _ _ fs => forall f, In f fs -> T (snd f)
  | LPointer _ p | LReference _ p => T p
  | LOption _ _ _ u _ => T u
  | LSmartPtr u _ _ _ => T u
  | LEnum _ _ vs _ => forall w, In w vs -> T (snd w)
  | LAlias _ => forall u, i_resolve I (locOf t) = Ok u -> T u
  | LArray u _ | LSlice u _ _ | LVec _ _ _ u => match layOf u with LAlias _ => forall w, i_resolve I (locOf u) = Ok w -> T w | _ => T u end
  | LMap k v _ => T k /\ T v
  | _ => True
  end.
