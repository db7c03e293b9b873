(** Model of DIE trees and of the walker over them: crates/rudy-dwarf/src/visitor.rs.

    Decoding of .debug_info bytes (headers, abbreviations, attribute forms) is gimli's and not modelled: a unit is
    the sequence of its decoded entries, closed sibling lists being marked by null entries, as they lie in the
    section. Parse errors inside a unit are not modelled, and neither is gimli's shortcut through DW_AT_sibling
    (which lands on the same entry). *)
From Coq Require Import Ascii String List ZArith Lia Bool.
From Verif Require Import Base.
Import ListNotations.
Open Scope Z_scope.

(** DWARF tags the code distinguishes (visitor.rs 316-363, function/index.rs 100-110, modules.rs 134). *)
Inductive tag :=
| Tcompile_unit | Tnamespace | Tsubprogram | Tstructure | Tenumeration | Tvariable | Tparameter | Tbase | Tpointer
| Tarray | Tblock | Tunion | Tsubroutine | Tmember | Ttemplate | Tvariant_part | Tvariant | Tsubrange | Tenumerator
| Tinlined | Tother (n : Z).
(** Attributes the code reads. *)
Inductive attr_name :=
| At_name | At_linkage_name | At_type | At_location | At_member_location | At_byte_size | At_discr | At_discr_value
| At_const_value | At_language | At_decl_file | At_decl_line | At_count | At_upper_bound | At_other (n : Z).
(** Decoded attribute values: text (or undecodable text), unsigned, signed, a DIE of the same unit, a language code,
    a line-table file index, anything else. *)
Inductive attr_value :=
| AStr (s : option str) | AUdata (n : Z) | ASdata (n : Z) | AUnitRef (off : Z) | ALang (n : Z) | AFile (n : Z) | AOther.
(** A DIE without its children: its offset in the section ([Die::offset], die/mod.rs 158-160), tag, attributes,
    address ranges ([UnitRef::die_ranges]). *)
Record entry := Entry { e_off : Z; e_tag : tag; e_attrs : list (attr_name * attr_value); e_ranges : res (list (Z * Z)) }.

(** A DIE with its children; [None] when its abbreviation says it has no children list. *)
Inductive die := Die (e : entry) (kids : option (list die)).
Definition d_entry (d : die) : entry := match d with Die e _ => e end.
Definition d_kids (d : die) : list die := match d with Die _ (Some l) => l | _ => [] end.

(** The decoded section: entries (with their has_children flag) and nulls. *)
Inductive tok := Ent (e : entry) (has_kids : bool) | Null.
Fixpoint toks (d : die) : list tok :=
  match d with
  | Die e None => [Ent e false]
  | Die e (Some l) => Ent e true :: (fix go l := match l with [] => [] | x :: l' => toks x ++ go l' end) l ++ [Null]
  end.

(** gimli 0.32 EntriesCursor: remaining input, current entry, depth change of the next entry. *)
Record cursor := Cursor { c_rest : list tok; c_cur : option (entry * bool); c_delta : Z }.
Definition start_cursor (l : list tok) : cursor := Cursor l None 0.
(** EntriesCursor::next_dfs, starting from [delta] = self.delta_depth. *)
Fixpoint next_dfs_from (l : list tok) (delta : Z) : cursor * option (Z * entry) :=
  match l with
  | [] => (Cursor [] None 0, None)
  | Ent e h :: l' => (Cursor l' (Some (e, h)) (if h then 1 else 0), Some (delta, e))
  | Null :: l' => next_dfs_from l' (delta - 1)
  end.
Definition next_dfs (c : cursor) : cursor * option (Z * entry) := next_dfs_from (c_rest c) (c_delta c).
(** EntriesCursor::next_sibling: the loop, [depth] being the number of children lists it is inside. *)
Fixpoint sibling_from (l : list tok) (depth : Z) : cursor * option entry :=
  match l with
  | [] => (Cursor [] None 0, None)
  | t :: l' =>
      let c := match t with Ent e h => Cursor l' (Some (e, h)) (if h then 1 else 0) | Null => Cursor l' None (-1) end in
      if depth =? 0 then (c, match t with Ent e _ => Some e | Null => None end)
      else sibling_from l' (match t with Ent _ true => depth + 1 | Ent _ false => depth | Null => depth - 1 end)
  end.
Definition c_next_sibling (c : cursor) : cursor * option entry :=
  match c_cur c with
  | None => (c, None)
  | Some (_, h) => sibling_from (c_rest c) (if h then 1 else 0)
  end.

(** visitor.rs 12-32: DieWalker. *)
Record walker := Walker { w_cur : cursor; w_level : Z; w_next : option (Z * entry); w_depth : Z }.
(** visitor.rs 135-156: peek. *)
Definition peek (w : walker) : walker * option (Z * entry) :=
  match w_next w with
  | Some x => (w, Some x)
  | None =>
      match next_dfs (w_cur w) with
      | (c, Some (delta, e)) => let d := w_depth w + delta in (Walker c (w_level w) (Some (d, e)) d, Some (d, e))
      | (c, None) => (Walker c (w_level w) None (w_depth w), None)
      end
  end.
(** visitor.rs 121-124: peek_next_offset. *)
Definition peek_next_offset (w : walker) : walker * option Z :=
  let (w', o) := peek w in (w', match o with Some (_, e) => Some (e_off e) | None => None end).
(** visitor.rs 158-166: has_children. *)
Definition has_children (w : walker) : walker * bool :=
  let (w', o) := peek w in (w', match o with Some (d, _) => d =? w_level w' + 1 | None => false end).
(** visitor.rs 168-195: next (its debug assertions hold whenever it is called, at the root). *)
Definition w_take (w : walker) : walker * option entry :=
  match w_next w with
  | Some (_, e) => (Walker (w_cur w) (w_level w) None (w_depth w), Some e)
  | None => match next_dfs (w_cur w) with
            | (c, o) => (Walker c (w_level w) None (w_depth w), match o with Some (_, e) => Some e | None => None end)
            end
  end.
(** visitor.rs 213-215: the loop skipping the remaining siblings; every round reads at least one token. *)
Fixpoint skip_siblings (n : nat) (c : cursor) : cursor :=
  match n with
  | O => c
  | S n' => match c_next_sibling c with (c', Some _) => skip_siblings n' c' | (c', None) => c' end
  end.
(** visitor.rs 197-230: next_sibling; every recursive call has read at least one token. *)
Fixpoint next_sibling (n : nat) (w : walker) : walker * option entry :=
  match n with
  | O => (w, None)
  | S n' =>
      match peek w with
      | (w', None) => (w', None)
      | (w', Some (d, e)) =>
          if d =? w_level w' then (Walker (w_cur w') (w_level w') None (w_depth w'), Some e)
          else if w_level w' <? d then
            next_sibling n' (Walker (skip_siblings (S (length (c_rest (w_cur w')))) (w_cur w')) (w_level w') None (w_depth w'))
          else (w', None)
      end
  end.
Definition w_next_sibling (w : walker) : walker * option entry := next_sibling (S (S (length (c_rest (w_cur w))))) w.

(** A visitor (visitor.rs 298-458): what it does with an entry before deciding whether to walk the children, and what
    it does afterwards, possibly looking at the offset of the next entry. Every visitor of the code base walks the
    children of an entry at most once, which is what this shape expresses. *)
Inductive decision := Descend | Skip | Fail.
Record visitor (V : Type) := Visitor {
  v_pre : V -> entry -> V * decision;
  v_post : V -> entry -> V + (option Z -> V) }.
Arguments Visitor {V}. Arguments v_pre {V}. Arguments v_post {V}.

Definition finish {V} (vis : visitor V) (w : walker) (v : V) (e : entry) : walker * V :=
  match v_post vis v e with
  | inl v' => (w, v')
  | inr f => let (w', o) := peek_next_offset w in (w', f o)
  end.
(** visitor.rs 257-282 (walk_children, its loop, and visit_die); [false]: an error is being propagated. *)
Fixpoint walk_children {V} (vis : visitor V) (n : nat) (w : walker) (v : V) : option (walker * V * bool) :=
  match n with
  | O => None
  | S n' =>
      let (w, h) := has_children w in
      if h then
        match walk_siblings vis n' (Walker (w_cur w) (w_level w + 1) (w_next w) (w_depth w)) v with
        | Some (w', v', true) => Some (Walker (w_cur w') (w_level w' - 1) (w_next w') (w_depth w'), v', true)
        | r => r
        end
      else Some (w, v, true)
  end
with walk_siblings {V} (vis : visitor V) (n : nat) (w : walker) (v : V) : option (walker * V * bool) :=
  match n with
  | O => None
  | S n' =>
      match w_next_sibling w with
      | (w, None) => Some (w, v, true)
      | (w, Some e) => match visit vis n' w v e with Some (w', v', true) => walk_siblings vis n' w' v' | r => r end
      end
  end
with visit {V} (vis : visitor V) (n : nat) (w : walker) (v : V) (e : entry) : option (walker * V * bool) :=
  match n with
  | O => None
  | S n' =>
      match v_pre vis v e with
      | (v1, Fail) => Some (w, v1, false)
      | (v1, Skip) => let (w', v2) := finish vis w v1 e in Some (w', v2, true)
      | (v1, Descend) =>
          match walk_children vis n' w v1 with
          | Some (w', v2, true) => let (w'', v3) := finish vis w' v2 e in Some (w'', v3, true)
          | r => r
          end
      end
  end.

(** How a visitor treats a unit root (visit_cu): before, whether to walk, after. *)
Record cu_visitor (V : Type) := CuVisitor { cu_pre : V -> entry -> V * decision; cu_post : V -> entry -> V }.
Arguments CuVisitor {V}. Arguments cu_pre {V}. Arguments cu_post {V}.
Definition new_walker (l : list tok) : walker := Walker (start_cursor l) 0 None 0.
(** visitor.rs 232-255: walk_unit. *)
Definition walk_unit {V} (cv : cu_visitor V) (vis : visitor V) (n : nat) (l : list tok) (v : V) : option (V * bool) :=
  match w_take (new_walker l) with
  | (_, None) => Some (v, true)
  | (w, Some root) =>
      match e_tag root with
      | Tcompile_unit =>
          match cu_pre cv v root with
          | (v1, Fail) => Some (v1, false)
          | (v1, Skip) => Some (cu_post cv v1 root, true)
          | (v1, Descend) =>
              match walk_children vis n w v1 with
              | Some (_, v2, true) => Some (cu_post cv v2 root, true)
              | Some (_, v2, false) => Some (v2, false)
              | None => None
              end
          end
      | _ => Some (v, false)
      end
  end.
(** visitor.rs 49-81: walk_file; an error ends the walk. *)
Fixpoint walk_file {V} (cv : cu_visitor V) (vis : visitor V) (n : nat) (units : list (list tok)) (v : V) : option (V * bool) :=
  match units with
  | [] => Some (v, true)
  | u :: us => match walk_unit cv vis n u v with Some (v', true) => walk_file cv vis n us v' | r => r end
  end.
(** visitor.rs 83-114: walk_die, from the tokens starting at the DIE. *)
Definition walk_die {V} (vis : visitor V) (n : nat) (l : list tok) (v : V) : option (V * bool) :=
  match w_take (new_walker l) with
  | (_, None) => Some (v, true)
  | (w, Some e) => match visit vis n w v e with Some (_, v', ok) => Some (v', ok) | None => None end
  end.
