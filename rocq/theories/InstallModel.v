(** Model of rudy-lldb/src/main.rs 114-259: install_lldb_client.

    The files are a map from paths (texts; the two paths written to differ in their last component) to contents; a write
    either happens or not ([writable]; a write broken off in the middle is not modelled); what the web answers, the
    environment variable HOME and the answers typed are parameters. Not modelled: what is printed. *)
From Coq Require Import Ascii String List ZArith NArith Lia Bool.
From Verif Require Import Base NumText Utf8 ExprModel JsonModel SymModel WireModel.
Import ListNotations.
Open Scope Z_scope.

Record machine := Machine {
  m_home : option str;                       (* HOME *)
  m_mkdir : str -> bool;                     (* create_dir_all succeeds *)
  m_writable : str -> bool;                  (* the file can be created and written *)
  m_releases : res str;                      (* the body of https://api.github.com/repos/samscott89/rudy/releases *)
  m_download : str -> res str                (* the body at this URL *)
}.
Definition fs := str -> option (list Z).
(** What is typed: a line each, [None] when it is not UTF-8; nothing more: the end of input. *)
Definition typed := list (option str).
Definition set_file (f : fs) (p : str) (bs : list Z) : fs := fun q => if str_eqb q p then Some bs else f q.
(** str::contains. *)
Fixpoint contains (p s : str) : bool := starts_with s p || match s with [] => false | _ :: s' => contains p s' end.
(** main.rs 121, 207: HOME, or the current directory. *)
Definition home (w : machine) : str := match m_home w with Some h => h | None => st "." end.
(** main.rs 119-125: only a leading "~/" is replaced. *)
Definition expand_dir (w : machine) (dir : str) : str := if starts_with dir (st "~/") then home w ++ st "/" ++ skipn 2 dir else dir.
(** PathBuf::join with a relative name. *)
Definition inside (dir name : str) : str :=
  match dir with [] => name | _ => if (last dir 0 =? ch "/")%N then dir ++ name else dir ++ st "/" ++ name end.
Definition script_path (w : machine) (dir : str) : str := inside (expand_dir w dir) (st "rudy_lldb.py").
Definition lldbinit_path (w : machine) : str := inside (home w) (st ".lldbinit").
(** main.rs 140-142, 227-229: read_line. *)
Definition read_answer (i : typed) : res str * typed :=
  match i with [] => (Ok [], []) | Some s :: r => (Ok s, r) | None :: r => (Err "stream did not contain valid UTF-8", r) end.
(** to_lowercase().starts_with('y') of the trimmed answer: no other character's lower case begins with y. *)
Definition says_yes (s : str) : bool := match trim s with c :: _ => ((c =? 121) || (c =? 89))%N | [] => false end.
Definition says_nothing (s : str) : bool := match trim s with [] => true | _ => false end.
(** serde_json::Value indexed by a key: Null when there is none; of equal keys the last. *)
Definition at_key (k : string) (j : json) : json := match j with JObj fs => last (values k fs) JNull | _ => JNull end.
Definition as_str (j : json) : option str := match j with JStr s => Some s | _ => None end.
(** main.rs 163-170. *)
Definition is_release (j : json) : bool := match as_str (at_key "tag_name" j) with Some t => starts_with t (st "rudy-lldb-") | None => false end.
(** main.rs 178-181. *)
Definition is_script (j : json) : bool := match as_str (at_key "name" j) with Some t => str_eqb t (st "rudy_lldb.py") | None => false end.
(** main.rs 152-185: the address of the script. *)
Definition script_url (body : str) : res str :=
  j <- from_str body ;;
  match j with
  | JArr releases =>
      match find is_release releases with
      | None => Err "No rudy-lldb releases found"
      | Some r =>
          match at_key "assets" r with
          | JArr assets =>
              match find is_script assets with
              | None => Err "rudy_lldb.py not found in release assets"
              | Some a => match as_str (at_key "browser_download_url" a) with Some u => Ok u | None => Err "Invalid download URL" end
              end
          | _ => Err "No assets found in release"
          end
      end
  | _ => Err "Failed to parse releases JSON"
  end.
(** main.rs 152-199: the script. *)
Definition fetch (w : machine) : res str := body <- m_releases w ;; url <- script_url body ;; m_download w url.
(** main.rs 209. *)
Definition import_line (w : machine) (dir : str) : str := st "command script import " ++ script_path w dir.
(** main.rs 205-250: the import in ~/.lldbinit. *)
Definition add_import (w : machine) (dir : str) (yes : bool) (i : typed) (f : fs) : res unit * fs :=
  let p := lldbinit_path w in
  let l := import_line w dir in
  let old := match f p with None => Ok [] | Some bs => match text_of bs with Some s => Ok s | None => Err "stream did not contain valid UTF-8" end end in
  match old with
  | Ok s =>
      if match f p with Some _ => contains l s | None => false end then (Ok tt, f)
      else match (if yes then Ok true else rmap (fun a => says_nothing a || says_yes a) (fst (read_answer i))) with
           | Ok true => if m_writable w p then (Ok tt, set_file f p (match f p with Some bs => bs | None => [] end ++ utf8 l ++ [10])) else (Err "cannot open .lldbinit", f)
           | Ok false => (Ok tt, f)
           | Err m => (Err m, f)
           | Panic m => (Panic m, f)
           | Fuel => (Fuel, f)
           end
  | Err m => (Err m, f)
  | Panic m => (Panic m, f)
  | Fuel => (Fuel, f)
  end.
(** main.rs 114-259. *)
Definition install (w : machine) (dir : str) (skip yes : bool) (i : typed) (f : fs) : res unit * fs :=
  let p := script_path w dir in
  if negb (m_mkdir w (expand_dir w dir)) then (Err "cannot create the directory", f)
  else
    let asks := match f p with Some _ => negb yes | None => false end in
    let '(go, i1) := if asks then let '(a, i1) := read_answer i in (rmap says_yes a, i1) else (Ok true, i) in
    match go with
    | Ok true =>
        match fetch w with
        | Ok content =>
            if m_writable w p then
              let f1 := set_file f p (utf8 content) in
              if skip then (Ok tt, f1) else add_import w dir yes i1 f1
            else (Err "cannot write the script", f)
        | Err m => (Err m, f)
        | Panic m => (Panic m, f)
        | Fuel => (Fuel, f)
        end
    | Ok false => (Ok tt, f)
    | Err m => (Err m, f)
    | Panic m => (Panic m, f)
    | Fuel => (Fuel, f)
    end.
