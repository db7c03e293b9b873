(** What the answers given through the shared database have to be: those of a computation made directly on contents that
    the files had. *)
From Coq Require Import Ascii String List ZArith NArith Lia Bool.
From Verif Require Import Base OMap Utf8 SymModel PathModel LinesModel DieModel LocModel SourceModel LoadModel BinaryModel CacheModel.
Import ListNotations.

Section Meaning.
Variables K V : Type.
Variable body : K -> query K V.
(** What a computation yields when the index and the units are these; nothing is remembered. *)
Inductive means (y : lay) (us : N -> list bunit) : query K V -> V -> Prop :=
| m_answer v : means y us (Answer v) v
| m_index k v : means y us (k y) v -> means y us (Index k) v
| m_units i k v : means y us (k (us i)) v -> means y us (Units i k) v
| m_call key k x v : means y us (body key) x -> means y us (k x) v -> means y us (Call key k) v.
(** On an opened binary. *)
Definition layout_of (B : binary) : lay :=
  Lay (bi_index B) (map (fun f => (bf_id f, bf_reloc f)) (bi_made B)) (map (fun f => (bf_id f, bf_reloc f)) (bi_files B)).
Definition units_in (B : binary) (i : N) : list bunit := match find (fun f => N.eqb (bf_id f) i) (bi_made B) with Some f => bf_units f | None => [] end.
Definition yields (B : binary) : query K V -> V -> Prop := means (layout_of B) (units_in B).
(** Any function of the opened binary, as a computation: everything is asked for. *)
Fixpoint gather (l : list (N * bool)) (k : list bfile -> query K V) : query K V :=
  match l with [] => k [] | (i, r) :: l' => Units i (fun us => gather l' (fun fs => k (BFile i r us :: fs))) end.
Definition whole (f : binary -> V) : query K V :=
  Index (fun y => gather (l_made y) (fun m => gather (l_files y) (fun g => Answer (f (Binary (l_symbols y) m g))))).
(** A computation that ends: no tracked function comes to call itself. *)
Inductive ends : query K V -> Prop :=
| e_answer v : ends (Answer v)
| e_index k : (forall y, ends (k y)) -> ends (Index k)
| e_units i k : (forall us, ends (k us)) -> ends (Units i k)
| e_call key k : ends (body key) -> (forall x, ends (k x)) -> ends (Call key k).
End Meaning.

(** [B] is the binary of path [p] as someone sees it who reads each of its files once, at instants not before [from]
    (the files may change from one to the next). *)
Section Sight.
Variable smap : list (fpath * fpath).
Variable disk : nat -> fpath -> option stored.
Variable order : list nat -> list nat.
Variable X : externals.
Definition sighted (from : nat) (p : fpath) (B : binary) : Prop :=
  let own := DebugFile 0 (remap_path smap p, None) false in
  exists t, (from <= t)%nat /\
  (((forall o, load smap (disk t) (db_file own) <> Ok o) /\ B = Binary empty_index [] []) \/
   exists o objs, load smap (disk t) (db_file own) = Ok o /\
     List.length objs = List.length (ob_objects o) /\
     (forall i y, nth_error (ob_objects o) i = Some y -> exists t', (from <= t')%nat /\
        nth_error objs i = Some (option_map (fun f => DebugFile (object_id i) f true) (object_file smap (disk t') y))) /\
     bi_index B = index_symbol_map X (found_tables order objs o) /\
     Forall2 (fun d f => exists t', (from <= t')%nat /\ f = bfile_of smap (disk t') d) (own :: somes objs) (bi_made B) /\
     Forall2 (fun e f => In f (bi_made B) /\ bf_id f = db_id (snd e)) (list_objects objs [((remap_path smap p, None), own)]) (bi_files B)).
End Sight.
