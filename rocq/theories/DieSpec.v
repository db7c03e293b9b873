(** What walking a DIE tree means, stated on trees, without cursors and depths. *)
From Coq Require Import List ZArith Bool.
From Verif Require Import Base DieModel.
Import ListNotations.
Open Scope Z_scope.

(** Induction over DIE trees. *)
Fixpoint die_ind2 (P : die -> Prop) (H : forall e kids, (forall l, kids = Some l -> Forall P l) -> P (Die e kids)) (d : die) : P d :=
  match d with
  | Die e None => H e None (fun l Q => match Q with eq_refl => I end)
  | Die e (Some l) => H e (Some l) (fun l' Q => match Q in _ = x return match x with Some y => Forall P y | None => True end with
      eq_refl => (fix go l : Forall P l := match l with [] => Forall_nil _ | x :: l' => Forall_cons _ (die_ind2 P H x) (go l') end) l end)
  end.

(** The offset of the entry that follows in file order: the first of [l], else [after]. *)
Definition next_of (l : list die) (after : option Z) : option Z :=
  match l with d :: _ => Some (e_off (d_entry d)) | [] => after end.
Definition close {V} (vis : visitor V) (v : V) (e : entry) (after : option Z) : V :=
  match v_post vis v e with inl v' => v' | inr f => f after end.

(** Depth-first walk of a tree; [after] is the offset of the entry following the tree. *)
Fixpoint tree_walk {V} (vis : visitor V) (d : die) (after : option Z) (v : V) {struct d} : V * bool :=
  match d with
  | Die e kids =>
      match v_pre vis v e with
      | (v1, Fail) => (v1, false)
      | (v1, Skip) => (close vis v1 e (next_of (match kids with Some l => l | None => [] end) after), true)
      | (v1, Descend) =>
          let r := match kids with
                   | Some l => (fix go l v := match l with
                       | [] => (v, true)
                       | x :: l' => match tree_walk vis x (next_of l' after) v with (v', true) => go l' v' | r => r end
                       end) l v1
                   | None => (v1, true)
                   end in
          match r with (v2, true) => (close vis v2 e after, true) | r => r end
      end
  end.
Fixpoint list_walk {V} (vis : visitor V) (l : list die) (after : option Z) (v : V) : V * bool :=
  match l with
  | [] => (v, true)
  | x :: l' => match tree_walk vis x (next_of l' after) v with (v', true) => list_walk vis l' after v' | r => r end
  end.

(** All entries of a tree in file order. *)
Fixpoint entries (d : die) : list entry :=
  match d with
  | Die e kids => e :: match kids with
      | Some l => (fix go l := match l with [] => [] | x :: l' => entries x ++ go l' end) l
      | None => [] end
  end.
Definition entries_list (l : list die) : list entry := flat_map entries l.

(** [reaches descend d x]: [x] is in the tree [d] and all its proper ancestors in it are descended into. *)
Inductive reaches (descend : entry -> bool) : die -> entry -> Prop :=
| reaches_here d : reaches descend d (d_entry d)
| reaches_child d c x : descend (d_entry d) = true -> In c (d_kids d) -> reaches descend c x -> reaches descend d x.

(** Subsequence. *)
Inductive subseq {A} : list A -> list A -> Prop :=
| subseq_nil l : subseq [] l
| subseq_skip x l m : subseq l m -> subseq l (x :: m)
| subseq_take x l m : subseq l m -> subseq (x :: l) (x :: m).
