(** Model of the JSON text the connection carries: serde_json::to_string and serde_json::from_str (used at
    rudy-lldb/src/server.rs 79-90) and Python's json.dumps (rudy-lldb/python/rudy_lldb.py 69-73), from their
    documentation. Library behaviour, not rudy code.

    Numbers are the integers of the protocol; any other JSON number is kept as its text ([JReal]). *)
From Coq Require Import Ascii String List ZArith NArith Lia Bool.
From Verif Require Import Base NumText.
Import ListNotations.
Open Scope Z_scope.

Inductive json :=
| JNull
| JBool (b : bool)
| JNum (z : Z)
| JReal (t : str)
| JStr (s : str)
| JArr (l : list json)
| JObj (l : list (str * json)).

(** ** Writing *)
(** Four lower-case hexadecimal digits. *)
Definition hex4 (u : Z) : str := [hex_digit (u / 4096 mod 16); hex_digit (u / 256 mod 16); hex_digit (u / 16 mod 16); hex_digit (u mod 16)].
Definition escape_u (u : Z) : str := 92%N :: 117%N :: hex4 u.
(** The short escapes of both writers. *)
Definition short_escape (c : char) : option str :=
  if N.eqb c 34 then Some [92; 34]%N
  else if N.eqb c 92 then Some [92; 92]%N
  else if N.eqb c 8 then Some [92; 98]%N
  else if N.eqb c 12 then Some [92; 102]%N
  else if N.eqb c 10 then Some [92; 110]%N
  else if N.eqb c 13 then Some [92; 114]%N
  else if N.eqb c 9 then Some [92; 116]%N
  else None.
(** serde_json: other control characters as \u00XX, everything else as it is. *)
Definition serde_char (c : char) : str :=
  match short_escape c with
  | Some e => e
  | None => if (c <? 32)%N then escape_u (Z.of_N c) else [c]
  end.
(** json.dumps (ensure_ascii): everything outside 0x20-0x7e as \uXXXX, beyond 0xffff as a surrogate pair. *)
Definition python_char (c : char) : str :=
  match short_escape c with
  | Some e => e
  | None =>
      let u := Z.of_N c in
      if (32 <=? u) && (u <? 127) then [c]
      else if u <? 65536 then escape_u u
      else escape_u (55296 + (u - 65536) / 1024) ++ escape_u (56320 + (u - 65536) mod 1024)
  end.
Section Write.
Variable wchar : char -> str.
Variable comma colon : str.
Definition write_string (s : str) : str := 34%N :: flat_map wchar s ++ [34%N].
Definition write_number (z : Z) : str := dec z.
Fixpoint write (j : json) : str :=
  match j with
  | JNull => st "null"
  | JBool true => st "true"
  | JBool false => st "false"
  | JNum z => write_number z
  | JReal t => t
  | JStr s => write_string s
  | JArr l =>
      91%N :: (fix elems (l : list json) : str :=
                 match l with [] => [] | [x] => write x | x :: l' => write x ++ comma ++ elems l' end) l ++ [93%N]
  | JObj l =>
      123%N :: (fix members (l : list (str * json)) : str :=
                  match l with
                  | [] => []
                  | [(k, x)] => write_string k ++ colon ++ write x
                  | (k, x) :: l' => write_string k ++ colon ++ write x ++ comma ++ members l'
                  end) l ++ [125%N]
  end.
End Write.
(** serde_json::to_string: compact. json.dumps: ", " and ": ". *)
Definition to_string (j : json) : str := write serde_char (st ",") (st ":") j.
Definition dumps (j : json) : str := write python_char (st ", ") (st ": ") j.

(** ** Reading: serde_json::from_str *)
Definition is_ws (c : char) : bool := N.eqb c 32 || N.eqb c 9 || N.eqb c 10 || N.eqb c 13.
Fixpoint skip_ws (s : str) : str := match s with c :: r => if is_ws c then skip_ws r else s | [] => [] end.
Definition hex_val4 (a b c d : char) : option Z :=
  if is_hexdigit a && is_hexdigit b && is_hexdigit c && is_hexdigit d
  then Some (((digit_val a * 16 + digit_val b) * 16 + digit_val c) * 16 + digit_val d) else None.
Definition cons_to (c : char) (r : res (str * str)) : res (str * str) := '(s, rest) <- r ;; Ok (c :: s, rest).
(** The contents of a string, after the opening quote. *)
Fixpoint read_string (s : str) : res (str * str) :=
  match s with
  | [] => Err "EOF while parsing a string"
  | c :: r =>
      if N.eqb c 34 then Ok ([], r)
      else if N.eqb c 92 then
        match r with
        | [] => Err "EOF while parsing a string"
        | e :: r1 =>
            if N.eqb e 34 then cons_to 34%N (read_string r1)
            else if N.eqb e 92 then cons_to 92%N (read_string r1)
            else if N.eqb e 47 then cons_to 47%N (read_string r1)
            else if N.eqb e 98 then cons_to 8%N (read_string r1)
            else if N.eqb e 102 then cons_to 12%N (read_string r1)
            else if N.eqb e 110 then cons_to 10%N (read_string r1)
            else if N.eqb e 114 then cons_to 13%N (read_string r1)
            else if N.eqb e 116 then cons_to 9%N (read_string r1)
            else if N.eqb e 117 then
              match r1 with
              | a1 :: a2 :: a3 :: a4 :: r2 =>
                  match hex_val4 a1 a2 a3 a4 with
                  | None => Err "invalid escape"
                  | Some u =>
                      if (55296 <=? u) && (u <=? 56319) then
                        match r2 with
                        | b0 :: b5 :: b1 :: b2 :: b3 :: b4 :: r3 =>
                            if N.eqb b0 92 && N.eqb b5 117 then
                              match hex_val4 b1 b2 b3 b4 with
                              | Some v =>
                                  if (56320 <=? v) && (v <=? 57343)
                                  then cons_to (Z.to_N (65536 + (u - 55296) * 1024 + (v - 56320))) (read_string r3)
                                  else Err "lone leading surrogate in hex escape"
                              | None => Err "invalid escape"
                              end
                            else Err "unexpected end of hex escape"
                        | _ => Err "unexpected end of hex escape"
                        end
                      else if (56320 <=? u) && (u <=? 57343) then Err "lone leading surrogate in hex escape"
                      else cons_to (Z.to_N u) (read_string r2)
                  end
              | _ => Err "EOF while parsing a string"
              end
            else Err "invalid escape"
        end
      else if (c <? 32)%N then Err "control character found while parsing a string"
      else cons_to c (read_string r)
  end.
Fixpoint digits (s : str) : str * str :=
  match s with
  | c :: r => if is_digit c then let '(d, rest) := digits r in (c :: d, rest) else ([], s)
  | [] => ([], [])
  end.
(** Fraction and exponent of a number: their text. *)
Definition read_frac (s : str) : res (str * str) :=
  match s with
  | c :: r => if N.eqb c 46 then
                match digits r with ([], _) => Err "invalid number" | (d, rest) => Ok (46%N :: d, rest) end
              else Ok ([], s)
  | [] => Ok ([], s)
  end.
Definition exp_sign (r : str) : str * str :=
  match r with x :: r1 => if N.eqb x 43 || N.eqb x 45 then ([x], r1) else ([], r) | [] => ([], r) end.
Definition read_exp (s : str) : res (str * str) :=
  match s with
  | c :: r =>
      if N.eqb c 101 || N.eqb c 69 then
        let '(sign, r1) := exp_sign r in
        match digits r1 with ([], _) => Err "invalid number" | (d, rest) => Ok (c :: sign ++ d, rest) end
      else Ok ([], s)
  | [] => Ok ([], s)
  end.
(** u64 for plain digits, i64 after a minus sign; -0 and larger numbers are floating-point. *)
Definition integer (neg : bool) (d : str) : option Z :=
  let v := digits_value 10 d in
  if neg then (if (0 <? v) && (v <=? 9223372036854775808) then Some (- v) else None)
  else if v <? two64 then Some v else None.
Definition minus_sign (s : str) : bool * str :=
  match s with c :: r => if N.eqb c 45 then (true, r) else (false, s) | [] => (false, s) end.
Definition read_number (s : str) : res (json * str) :=
  let '(neg, s1) := minus_sign s in
  match digits s1 with
  | ([], _) => Err "invalid number"
  | (d, rest) =>
      if match d with z :: _ :: _ => N.eqb z 48 | _ => false end then Err "invalid number"
      else
        '(f, rest1) <- read_frac rest ;;
        '(e, rest2) <- read_exp rest1 ;;
        match f ++ e, integer neg d with
        | [], Some z => Ok (JNum z, rest2)
        | fe, _ => Ok (JReal ((if neg then [45%N] else []) ++ d ++ fe), rest2)
        end
  end.
Definition read_word (w : string) (j : json) (s : str) : res (json * str) :=
  if starts_with s (st w) then Ok (j, skipn (String.length w) s) else Err "expected value".
(** [n]: the model's own budget, enough when above the length; [d]: serde_json's recursion limit. *)
Fixpoint read_value (n d : nat) (s : str) {struct n} : res (json * str) :=
  match n with
  | O => Fuel
  | S n' =>
      match skip_ws s with
      | [] => Err "EOF while parsing a value"
      | c :: r =>
          if N.eqb c 34 then '(t, rest) <- read_string r ;; Ok (JStr t, rest)
          else if N.eqb c 91 then
            match d with
            | O => Err "recursion limit exceeded"
            | S d' =>
                match skip_ws r with
                | [] => Err "EOF while parsing a list"
                | x :: r1 =>
                    if N.eqb x 93 then Ok (JArr [], r1)
                    else '(j, r2) <- read_value n' d' (x :: r1) ;; '(l, rest) <- read_elems n' d' r2 ;; Ok (JArr (j :: l), rest)
                end
            end
          else if N.eqb c 123 then
            match d with
            | O => Err "recursion limit exceeded"
            | S d' =>
                match skip_ws r with
                | [] => Err "EOF while parsing an object"
                | x :: r1 =>
                    if N.eqb x 125 then Ok (JObj [], r1)
                    else '(m, r2) <- read_member n' d' (x :: r1) ;; '(l, rest) <- read_members n' d' r2 ;; Ok (JObj (m :: l), rest)
                end
            end
          else if N.eqb c 110 then read_word "null" JNull (c :: r)
          else if N.eqb c 116 then read_word "true" (JBool true) (c :: r)
          else if N.eqb c 102 then read_word "false" (JBool false) (c :: r)
          else if N.eqb c 45 || is_digit c then read_number (c :: r)
          else Err "expected value"
      end
  end
with read_elems (n d : nat) (s : str) {struct n} : res (list json * str) :=
  match n with
  | O => Fuel
  | S n' =>
      match skip_ws s with
      | [] => Err "EOF while parsing a list"
      | c :: r =>
          if N.eqb c 93 then Ok ([], r)
          else if N.eqb c 44 then '(j, r1) <- read_value n' d r ;; '(l, rest) <- read_elems n' d r1 ;; Ok (j :: l, rest)
          else Err "expected `,` or `]`"
      end
  end
with read_members (n d : nat) (s : str) {struct n} : res (list (str * json) * str) :=
  match n with
  | O => Fuel
  | S n' =>
      match skip_ws s with
      | [] => Err "EOF while parsing an object"
      | c :: r =>
          if N.eqb c 125 then Ok ([], r)
          else if N.eqb c 44 then '(m, r1) <- read_member n' d r ;; '(l, rest) <- read_members n' d r1 ;; Ok (m :: l, rest)
          else Err "expected `,` or `}`"
      end
  end
with read_member (n d : nat) (s : str) {struct n} : res (str * json * str) :=
  match n with
  | O => Fuel
  | S n' =>
      match skip_ws s with
      | [] => Err "EOF while parsing an object"
      | c :: r =>
          if N.eqb c 34 then
            '(k, r1) <- read_string r ;;
            match skip_ws r1 with
            | x :: r2 => if N.eqb x 58 then '(j, rest) <- read_value n' d r2 ;; Ok (k, j, rest) else Err "expected `:`"
            | [] => Err "EOF while parsing an object"
            end
          else Err "key must be a string"
      end
  end.
(** from_str: one value, then only white space; nesting up to 127. *)
Definition from_str (s : str) : res json :=
  '(j, rest) <- read_value (S (S (List.length s))) 127 s ;;
  match skip_ws rest with [] => Ok j | _ => Err "trailing characters" end.
