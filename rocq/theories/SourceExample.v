(** Witnesses for the source-index theorems: two debug files share src/lib.rs; the nearest line is in the second. *)
From Coq Require Import Ascii String List ZArith Lia Bool.
From Verif Require Import Base OMap AddrModel AddrSpec AddrProofs AddrProps SymModel PathModel PathProps LinesModel LinesProps DiscoverSpec SourceModel SourceProps.
Import ListNotations.
Open Scope Z_scope.

Definition src_map : list (fpath * fpath) := [(components (st "/build"), components (st "/home/u"))].
Definition src_unit (main : string) (rows : list row) : sunit :=
  SUnit true true (Some (Some (st "/build/app"))) (Ok [(16, 48)])
    (Some (false, [FEntry (Some (st "src")) (Some (st main)); FEntry (Some (st "/build/app/src")) (Some (st "lib.rs"))], None, rows)).
Definition src_file (main : string) (rows : list row) (base : Z) : sfile :=
  SFile [src_unit main rows] [{| absolute_start := base + 16; absolute_end := base + 48; relative_start := 16; relative_end := 48; f_file := 0; f_name := st "f" |}]
    [(st "f", 0%nat)] true.
Definition src_files : list sfile :=
  [src_file "main.rs" [Row 16 1 (Some 3) 0 false; Row 20 2 (Some 30) 0 false; Row 48 1 None 0 true] 4096;
   src_file "other.rs" [Row 16 1 (Some 5) 0 false; Row 24 2 (Some 22) 4 false; Row 48 1 None 0 true] 8192].
Example src_rust : Forall rust_only src_files.
Proof. repeat constructor. Qed.
Example src_ordinary : Forall (fun f => ordinary_file (view_file src_map f)) src_files.
Proof.
  assert (G : forall main l1 l2 r1 r2 base, (main = "main.rs" \/ main = "other.rs")%string -> 0 <= base < 10000 -> 0 <= r1 < 48 -> 0 <= r2 < 48 -> l1 < 100 -> l2 < 100 ->
    ordinary_file (view_file src_map (src_file main [Row r1 1 (Some l1) 0 false; Row r2 2 (Some l2) (if l2 =? 22 then 4 else 0) false; Row 48 1 None 0 true] base))).
  { intros main l1 l2 r1 r2 base HM HB H1 H2 HL1 HL2. split; [|split].
    - intros u p [<- | []] P. cbn [view_unit src_unit su_table u_prog] in P. injection P as <-. split; [reflexivity|]. split.
      + intros r [<- | [<- | [<- | []]]]; cbn; lia.
      + destruct HM as [-> | ->]; intros [|[|[|i]]] [|[|[|j]]] f; vm_compute; intros A B; congruence.
    - intros u p r f [<- | []] P. cbn [view_unit src_unit su_table u_prog] in P. injection P as <-.
      intros [<- | [<- | [<- | []]]] [<- | []]; cbn; unfold two64; lia.
    - intros u p r l [<- | []] P. cbn [view_unit src_unit su_table u_prog] in P. injection P as <-.
      intros [<- | [<- | [<- | []]]] L; cbn in L; try discriminate; injection L as <-; unfold u64_last; lia. }
  constructor; [apply (G "main.rs"%string 3 30 16 20 4096); auto; lia|]. constructor; [|constructor].
  apply (G "other.rs"%string 5 22 16 24 8192); auto; lia.
Qed.
Example src_found :
  map fst (snd (debug_index src_map None src_files)) =
    [components (st "/home/u/app/src/lib.rs"); components (st "/home/u/app/src/main.rs"); components (st "/home/u/app/src/other.rs")] /\
  address_of_line src_map isort src_files (st "src/lib.rs") 20 = Ok (Some (8192 + 24)) /\
  address_of_line src_map isort src_files (st "src/lib.rs") 23 = Ok (Some (4096 + 20)) /\
  address_of_line src_map isort src_files (st "src/lib.rs") 31 = Ok None /\
  address_of_line src_map isort src_files (st "lib/src.rs") 1 = Ok None.
Proof. repeat apply conj; vm_compute; reflexivity. Qed.
Example src_local :
  length (fst (debug_index src_map (Some (components (st "/home/u/app"))) src_files)) = 2%nat /\
  fst (debug_index src_map (Some (components (st "/elsewhere"))) src_files) = [].
Proof. split; vm_compute; reflexivity. Qed.
Example workspace_case :
  detect_cargo_root None (Some (components (st "/home/u/app/src"))) (fun p => fpath_eqb p (components (st "/home/u/app/Cargo.toml"))) =
  Some (components (st "/home/u/app")).
Proof. vm_compute. reflexivity. Qed.
