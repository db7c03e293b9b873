(** Model of crates/rudy-dwarf/src/modules.rs and of the language test of die/cu.rs. *)
From Coq Require Import Ascii String List ZArith Lia Bool.
From Verif Require Import Base DieModel.
Import ListNotations.
Open Scope Z_scope.

(** gimli: DebuggingInformationEntry::attr, the first attribute of that name. *)
Definition attr_eqb (a b : attr_name) : bool :=
  match a, b with
  | At_name, At_name | At_linkage_name, At_linkage_name | At_type, At_type | At_location, At_location
  | At_member_location, At_member_location | At_byte_size, At_byte_size | At_discr, At_discr
  | At_discr_value, At_discr_value | At_const_value, At_const_value | At_language, At_language
  | At_decl_file, At_decl_file | At_decl_line, At_decl_line | At_count, At_count | At_upper_bound, At_upper_bound => true
  | At_other n, At_other m => n =? m
  | _, _ => false
  end.
Definition get_attr (e : entry) (a : attr_name) : option attr_value :=
  match find (fun p => attr_eqb (fst p) a) (e_attrs e) with Some (_, v) => Some v | None => None end.
(** die/utils.rs 45-54: get_string_attr (absent: Ok None; not text or undecodable: Err). *)
Definition get_string_attr (e : entry) (a : attr_name) : res (option str) :=
  match get_attr e a with
  | None => Ok None
  | Some (AStr (Some s)) => Ok (Some s)
  | Some _ => Err "not a string"
  end.
(** die/cu.rs 29-51: is_rust_cu; DW_LANG_Rust = 0x1c. *)
Definition is_rust_cu (e : entry) : bool :=
  match get_attr e At_language with Some (ALang n) => n =? 28 | _ => false end.

(** modules.rs 10-13: Module; the BTreeMap is an association list (its order is not observed). *)
Inductive module := Module (subs : list (str * module)) (m_entries : list Z).
Definition subs_of (m : module) := match m with Module s _ => s end.
Definition entries_of (m : module) := match m with Module _ e => e end.
Definition empty_module : module := Module [] [].
Fixpoint get_sub (l : list (str * module)) (s : str) : option module :=
  match l with [] => None | (t, m) :: l' => if str_eqb t s then Some m else get_sub l' s end.
Fixpoint set_sub (l : list (str * module)) (s : str) (f : module -> module) : list (str * module) :=
  match l with
  | [] => [(s, f empty_module)]
  | (t, m) :: l' => if str_eqb t s then (t, f m) :: l' else (t, m) :: set_sub l' s f
  end.
(** modules.rs 184-193: descend along the path, creating modules, and record the DIE. *)
Fixpoint add_entry (path : list str) (off : Z) (m : module) : module :=
  match path with
  | [] => Module (subs_of m) (entries_of m ++ [off])
  | s :: p => Module (set_sub (subs_of m) s (add_entry p off)) (entries_of m)
  end.
(** modules.rs 42-50: find_by_path. *)
Fixpoint find_by_path (m : module) (path : list str) : option module :=
  match path with
  | [] => Some m
  | s :: p => match get_sub (subs_of m) s with Some m' => find_by_path m' p | None => None end
  end.

(** modules.rs 55-60: ModuleRange; DIEs are identified by their offset. *)
Record mrange := MRange { mr_path : list str; mr_die : Z; mr_start : Z; mr_end : Z }.
(** modules.rs 85-90: ModuleRangeBuilder; the stack is kept bottom first. *)
Record builder := Builder { b_ranges : list mrange; b_modules : module; b_last : Z; b_stack : list (str * Z) }.
Definition new_builder : builder := Builder [] empty_module 0 [].
Definition stack_path (s : list (str * Z)) : list str := map fst (tl s).

(** modules.rs 131-140 (visit_die) and 142-229 (visit_namespace up to walk_namespace). A namespace without a
    readable name makes the code panic (unwrap, lines 147-149); the model ends the walk there. *)
Definition ns_pre (b : builder) (e : entry) : builder * decision :=
  match e_tag e with
  | Tnamespace =>
      match get_string_attr e At_name with
      | Ok (Some name) =>
          let b1 :=
            match rev (b_stack b) with
            | (_, last_die) :: _ =>
                if b_last b <? e_off e then
                  Builder (b_ranges b ++ [MRange (stack_path (b_stack b)) last_die (b_last b) (e_off e)]) (b_modules b) (e_off e) (b_stack b)
                else b
            | [] => b
            end in
          let st := b_stack b1 ++ [(name, e_off e)] in
          (Builder (b_ranges b1) (add_entry (stack_path st) (e_off e) (b_modules b1)) (b_last b1) st, Descend)
      | _ => (b, Fail)
      end
  | _ => (b, Skip)
  end.
(** modules.rs 201-230: after walk_namespace. *)
Definition ns_post (b : builder) (e : entry) : builder + (option Z -> builder) :=
  match e_tag e with
  | Tnamespace => inr (fun next =>
      match next with
      | None => b
      | Some end_offset =>
          match rev (b_stack b) with
          | [] => b
          | (name, _) :: rest =>
              let st := rev rest in
              let start := b_last b in
              if start <? end_offset then
                Builder (b_ranges b ++ [MRange (stack_path st ++ [name]) (e_off e) start end_offset]) (b_modules b) end_offset st
              else Builder (b_ranges b) (b_modules b) (b_last b) st
          end
      end)
  | _ => inl b
  end.
Definition module_visitor : visitor builder := Visitor ns_pre ns_post.
(** modules.rs 93-129: visit_cu; [ulen] gives the unit_length of the unit with that root. *)
Definition module_cu (ulen : entry -> Z) : cu_visitor builder :=
  CuVisitor
    (fun b e => if is_rust_cu e then (Builder (b_ranges b) (b_modules b) (e_off e) [([], e_off e)], Descend) else (b, Skip))
    (fun b e => if is_rust_cu e then
       Builder (b_ranges b ++ [MRange (stack_path (b_stack b)) (e_off e) (b_last b) (e_off e + ulen e)]) (b_modules b) (b_last b) (b_stack b)
     else b).

(** sort_by_key is stable: insertion from the right. *)
Fixpoint insert_range (r : mrange) (l : list mrange) : list mrange :=
  match l with [] => [r] | x :: l' => if mr_start r <=? mr_start x then r :: l else x :: insert_range r l' end.
Definition sort_ranges (l : list mrange) : list mrange := fold_right insert_range [] l.
(** modules.rs 235-252: module_index; an error leaves what was collected. [None]: the model's fuel ran out. *)
Definition module_index (ulen : entry -> Z) (n : nat) (units : list (list tok)) : option (list mrange * module) :=
  match walk_file (module_cu ulen) module_visitor n units new_builder with
  | Some (b, _) => Some (sort_ranges (b_ranges b), b_modules b)
  | None => None
  end.

(** modules.rs 25-39: find_by_offset; partition_point over a sorted list is its longest prefix satisfying the test. *)
Fixpoint take_while (f : mrange -> bool) (l : list mrange) : list mrange :=
  match l with [] => [] | x :: l' => if f x then x :: take_while f l' else [] end.
Definition find_by_offset (ranges : list mrange) (off : Z) : option mrange :=
  find (fun r => (mr_start r <=? off) && (off <? mr_end r)) (rev (take_while (fun r => mr_start r <=? off) ranges)).
(** modules.rs 254-260: get_containing_module. *)
Definition get_containing_module (ranges : list mrange) (off : Z) : option (list str) :=
  match find_by_offset ranges off with Some r => Some (mr_path r) | None => None end.
