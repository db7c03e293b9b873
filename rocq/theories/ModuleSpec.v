(** Which module a DIE is in, stated on DIE trees. *)
From Coq Require Import List ZArith Bool Sorted.
From Verif Require Import Base DieModel DieSpec ModuleModel.
Import ListNotations.
Open Scope Z_scope.

Definition is_namespace (e : entry) : bool := match e_tag e with Tnamespace => true | _ => false end.
(** The name of a DIE, when it has a readable one. *)
Definition name_of (e : entry) : option str := match get_attr e At_name with Some (AStr o) => o | _ => None end.
(** The path of the innermost namespace enclosing each DIE of a tree (a namespace belongs to itself), given the
    path [p] around the tree. *)
Definition path_in (p : list str) (e : entry) : list str :=
  if is_namespace e then p ++ [match name_of e with Some s => s | None => [] end] else p.
Fixpoint paths (p : list str) (d : die) : list (entry * list str) :=
  match d with
  | Die e kids => (e, path_in p e) ::
      match kids with
      | Some l => (fix go l := match l with [] => [] | x :: l' => paths (path_in p e) x ++ go l' end) l
      | None => []
      end
  end.
Definition paths_list (p : list str) (l : list die) : list (entry * list str) := flat_map (paths p) l.
(** The namespaces of a tree with their paths, in file order. *)
Definition namespaces (l : list (entry * list str)) : list (list str * Z) :=
  map (fun x => (snd x, e_off (fst x))) (filter (fun x => is_namespace (fst x)) l).

(** Namespaces are named and lie directly in namespaces or units, as rustc emits them. *)
Inductive ns_tree : die -> Prop :=
| ns_tree_ns e kids : is_namespace e = true -> name_of e <> None -> Forall ns_tree (match kids with Some l => l | None => [] end) -> ns_tree (Die e kids)
| ns_tree_other e kids : is_namespace e = false -> Forall (fun x => is_namespace x = false) (entries_list (match kids with Some l => l | None => [] end)) -> ns_tree (Die e kids).

Definition by_offset (a b : entry) : Prop := e_off a < e_off b.
(** A unit as found in a file: a compile unit whose entries lie in increasing order inside its extent. *)
Definition good_unit (ulen : entry -> Z) (d : die) : Prop :=
  e_tag (d_entry d) = Tcompile_unit /\ Forall ns_tree (d_kids d) /\ StronglySorted by_offset (entries d) /\
  (forall x, In x (entries d) -> e_off x < e_off (d_entry d) + ulen (d_entry d)).
(** Units follow one another. (unit_length does not count its own 4 bytes, so the extent [root, root + length) ends
    before the root of the next unit whenever header sizes differ by at most 4 bytes.) *)
Fixpoint good_file (ulen : entry -> Z) (ds : list die) : Prop :=
  match ds with
  | [] => True
  | d :: ds' => good_unit ulen d /\ (match ds' with d' :: _ => e_off (d_entry d) + ulen (d_entry d) <= e_off (d_entry d') | [] => True end) /\ good_file ulen ds'
  end.
