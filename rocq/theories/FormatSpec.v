(** What a formatted value should look like: a list of lines. *)
From Coq Require Import Ascii String List ZArith Lia Bool.
From Verif Require Import Base NumText TypesModel ValueModel.
Import ListNotations.
Open Scope Z_scope.

(** One level deeper: two spaces. *)
Definition deeper (line : str) : str := st "  " ++ line.
(** Text put before the first line, after the last line, and between the last line of one and the first line of another. *)
Definition before (x : str) (d : list str) : list str := match d with l :: ls => (x ++ l) :: ls | [] => [] end.
Fixpoint behind (d : list str) (x : str) : list str := match d with [] => [] | [l] => [l ++ x] | l :: ls => l :: behind ls x end.
Fixpoint glue (d : list str) (x : str) (e : list str) : list str := match d with [] => [] | [l] => before (l ++ x) e | l :: ls => l :: glue ls x e end.
(** The entries one below the other, all but the last followed by a comma. *)
Fixpoint listed (ds : list (list str)) : list str := match ds with [] => [] | [d] => d | d :: ds' => behind d (st ",") ++ listed ds' end.
(** An opening line, the entries one level deeper (a blank line if there are none), a closing line. *)
Definition framed (op : str) (ds : list (list str)) (cl : str) : list str :=
  [op] ++ (match ds with [] => [[]] | _ => map deeper (listed ds) end) ++ [cl].
(** The lines a value is shown as. *)
Fixpoint shown (v : value) : list str :=
  match v with
  | VScalar _ x => [x]
  | VArray _ items =>
      if (List.length items <=? 10)%nat then framed (st "[") (map shown items) (st "]")
      else [st "[" ++ dec (Z.of_nat (List.length items)) ++ st " items]"]
  | VStruct ty fields => framed (ty ++ st " {") (map (fun f => before (fst f ++ st ": ") (shown (snd f))) fields) (st "}")
  | VMap _ entries =>
      if (List.length entries <=? 10)%nat then framed (st "{") (map (fun e => glue (shown (fst e)) (st ": ") (shown (snd e))) entries) (st "}")
      else [st "{ " ++ dec (Z.of_nat (List.length entries)) ++ st " entries }"]
  | VTuple ty entries => framed (ty ++ st " (") (map shown entries) (st ")")
  | VPtr a t => [st "<" ++ tname t ++ st " @ " ++ hex a ++ st ">"]
  end.
(** No line feed or carriage return in the text. *)
Definition one_line (x : str) : Prop := ~ In 10%N x /\ ~ In 13%N x.
(** All texts of a value are on one line; the text of a scalar is not empty. *)
Inductive tidy : value -> Prop :=
| ti_scalar ty x : one_line x -> x <> [] -> tidy (VScalar ty x)
| ti_array ty l : Forall tidy l -> tidy (VArray ty l)
| ti_struct ty l : one_line ty -> Forall (fun f => one_line (fst f) /\ tidy (snd f)) l -> tidy (VStruct ty l)
| ti_tuple ty l : one_line ty -> Forall tidy l -> tidy (VTuple ty l)
| ti_map ty l : Forall (fun e => tidy (fst e) /\ tidy (snd e)) l -> tidy (VMap ty l)
| ti_ptr a t : one_line (tname t) -> tidy (VPtr a t).
