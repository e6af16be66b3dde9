(** * JSON texts: [json.loads] and [json.dumps], as called by the code

    [json.loads]: pash_annotations/parser/util_parser.py:15;
    [json.dumps(..., indent=4)] and [print]: args-to-json.py:77-80;
    the lines kept by manpage-to-json.sh:2.
    The functions of Python's module json (decoder.py, scanner.py, encoder.py) are written out.
    Simplifications: a text is what decoding the bytes gave, with code points up to 255 (every
    shipped file is ASCII); the values of strings have arbitrary code points; a number is kept
    as its text; nesting so deep that Python raises RecursionError is not modelled. *)
From Coq Require Import NArith.
Require Import Verif.PyBase Verif.JsonData Verif.ArgsToJson Verif.ShippedData.

(** A decoded value.  [JWord]: null, true, false, NaN, Infinity, -Infinity.
    [JObj]: the assignments of a dictionary in order. *)
Inductive json : Type :=
| JWord (w : string)
| JNum (text : string)
| JStr (s : list N)
| JArr (l : list json)
| JObj (l : list (list N * json)).

(** ** [json.loads] *)

(** WHITESPACE in decoder.py *)
Definition json_space (c : ascii) : bool :=
  Ascii.eqb c " " || Ascii.eqb c "009" || Ascii.eqb c "010" || Ascii.eqb c "013".
Fixpoint skip_space (s : string) : string :=
  match s with
  | String c s' => if json_space c then skip_space s' else s
  | EmptyString => s
  end.

Definition code (c : ascii) : N := N_of_ascii c.
Definition hex_value (c : ascii) : option N :=
  let n := code c in
  if N.leb 48 n && N.leb n 57 then Some (n - 48)%N
  else if N.leb 97 n && N.leb n 102 then Some (n - 87)%N
  else if N.leb 65 n && N.leb n 70 then Some (n - 55)%N
  else None.
Definition hex4 (a b c d : ascii) : option N :=
  match hex_value a, hex_value b, hex_value c, hex_value d with
  | Some a, Some b, Some c, Some d => Some (((a * 16 + b) * 16 + c) * 16 + d)%N
  | _, _, _, _ => None
  end.
(** BACKSLASH in decoder.py *)
Definition backslash_value (c : ascii) : option N :=
  if Ascii.eqb c """" then Some 34%N
  else if Ascii.eqb c "\" then Some 92%N
  else if Ascii.eqb c "/" then Some 47%N
  else if Ascii.eqb c "b" then Some 8%N
  else if Ascii.eqb c "f" then Some 12%N
  else if Ascii.eqb c "n" then Some 10%N
  else if Ascii.eqb c "r" then Some 13%N
  else if Ascii.eqb c "t" then Some 9%N
  else None.
Definition high (n : N) : bool := N.leb 55296 n && N.leb n 56319.
Definition low (n : N) : bool := N.leb 56320 n && N.leb n 57343.
(** decoder.py, scanstring: an escaped high surrogate and an escaped low one after it are one
    code point.  As the characters of a text are at most 255, every surrogate comes from an escape. *)
Fixpoint join_pairs (l : list N) : list N :=
  match l with
  | a :: l1 =>
      match l1 with
      | b :: l2 => if high a && low b then (65536 + (a - 55296) * 1024 + (b - 56320))%N :: join_pairs l2
                   else a :: join_pairs l1
      | [] => [a]
      end
  | [] => []
  end.
(** decoder.py, scanstring, after the opening quotation mark *)
Fixpoint scan_chars (s : string) : option (list N * string) :=
  match s with
  | EmptyString => None
  | String c s1 =>
      if Ascii.eqb c """" then Some ([], s1)
      else if Ascii.eqb c "\" then
        match s1 with
        | EmptyString => None
        | String e s2 =>
            if Ascii.eqb e "u" then
              match s2 with
              | String h1 (String h2 (String h3 (String h4 s3))) =>
                  match hex4 h1 h2 h3 h4 with
                  | Some n => match scan_chars s3 with Some (l, r) => Some (n :: l, r) | None => None end
                  | None => None
                  end
              | _ => None
              end
            else match backslash_value e with
                 | Some n => match scan_chars s2 with Some (l, r) => Some (n :: l, r) | None => None end
                 | None => None
                 end
        end
      else if N.leb (code c) 31 then None
      else match scan_chars s1 with Some (l, r) => Some (code c :: l, r) | None => None end
  end.
Definition scan_string (s : string) : option (list N * string) :=
  match scan_chars s with Some (l, r) => Some (join_pairs l, r) | None => None end.

Definition digit (c : ascii) : bool := N.leb 48 (code c) && N.leb (code c) 57.
Fixpoint scan_digits (s : string) : string * string :=
  match s with
  | String c s' => if digit c then let (d, r) := scan_digits s' in (String c d, r) else ("", s)
  | EmptyString => ("", "")
  end.
(** NUMBER_RE in scanner.py: an optional minus sign, then 0 or digits that do not start with 0 *)
Definition scan_integer (s : string) : option (string * string) :=
  match s with
  | String c s' =>
      if Ascii.eqb c "0" then Some ("0", s')
      else if digit c then let (d, r) := scan_digits s' in Some (String c d, r)
      else None
  | EmptyString => None
  end.
(** an optional dot and digits *)
Definition scan_fraction (s : string) : string * string :=
  match s with
  | String c s' =>
      if Ascii.eqb c "." then
        match scan_digits s' with
        | (EmptyString, _) => ("", s)
        | (d, r) => (String c d, r)
        end
      else ("", s)
  | EmptyString => ("", s)
  end.
(** an optional e or E, an optional sign and digits *)
Definition scan_sign (s : string) : string * string :=
  match s with
  | String c s' => if Ascii.eqb c "-" || Ascii.eqb c "+" then (one_char c, s') else ("", s)
  | EmptyString => ("", s)
  end.
Definition scan_exponent (s : string) : string * string :=
  match s with
  | String c s' =>
      if Ascii.eqb c "e" || Ascii.eqb c "E" then
        let (sign, s1) := scan_sign s' in
        match scan_digits s1 with
        | (EmptyString, _) => ("", s)
        | (d, r) => (String c (sign +++ d), r)
        end
      else ("", s)
  | EmptyString => ("", s)
  end.
Definition scan_minus (s : string) : string * string :=
  match s with
  | String c s' => if Ascii.eqb c "-" then (one_char c, s') else ("", s)
  | EmptyString => ("", s)
  end.
Definition scan_number (s : string) : option (string * string) :=
  let (m, s0) := scan_minus s in
  match scan_integer s0 with
  | Some (i, s1) =>
      let (f, s2) := scan_fraction s1 in
      let (e, s3) := scan_exponent s2 in
      Some (m +++ i +++ f +++ e, s3)
  | None => None
  end.

Fixpoint cut_prefix (p s : string) : option string :=
  match p, s with
  | EmptyString, _ => Some s
  | String a p', String b s' => if Ascii.eqb a b then cut_prefix p' s' else None
  | String _ _, EmptyString => None
  end.
Definition json_words : list string := ["null"; "true"; "false"; "NaN"; "Infinity"; "-Infinity"].
Fixpoint scan_word (ws : list string) (s : string) : option (string * string) :=
  match ws with
  | [] => None
  | w :: ws' => match cut_prefix w s with Some r => Some (w, r) | None => scan_word ws' s end
  end.

(** scanner.py, scan_once, with JSONArray and JSONObject of decoder.py; [None]: JSONDecodeError.
    [fuel] bounds the depth of the recursion; the length of the text is enough. *)
Fixpoint scan (fuel : nat) (s : string) {struct fuel} : option (json * string) :=
  match fuel with
  | O => None
  | S fuel =>
      match s with
      | EmptyString => None
      | String c s1 =>
          if Ascii.eqb c """" then
            match scan_string s1 with Some (l, r) => Some (JStr l, r) | None => None end
          else if Ascii.eqb c "[" then
            match skip_space s1 with
            | String d r =>
                if Ascii.eqb d "]" then Some (JArr [], r)
                else match scan_items fuel (String d r) with
                     | Some (l, r) => Some (JArr l, r)
                     | None => None
                     end
            | EmptyString => None
            end
          else if Ascii.eqb c "{" then
            match skip_space s1 with
            | String d r =>
                if Ascii.eqb d "}" then Some (JObj [], r)
                else match scan_members fuel (String d r) with
                     | Some (l, r) => Some (JObj l, r)
                     | None => None
                     end
            | EmptyString => None
            end
          else match scan_word json_words s with
               | Some (w, r) => Some (JWord w, r)
               | None => match scan_number s with Some (n, r) => Some (JNum n, r) | None => None end
               end
      end
  end
(** JSONArray, from the first item on *)
with scan_items (fuel : nat) (s : string) {struct fuel} : option (list json * string) :=
  match fuel with
  | O => None
  | S fuel =>
      match scan fuel s with
      | Some (v, r) =>
          match skip_space r with
          | String d r1 =>
              if Ascii.eqb d "]" then Some ([v], r1)
              else if Ascii.eqb d "," then
                match scan_items fuel (skip_space r1) with
                | Some (l, r2) => Some (v :: l, r2)
                | None => None
                end
              else None
          | EmptyString => None
          end
      | None => None
      end
  end
(** JSONObject, from the first key on *)
with scan_members (fuel : nat) (s : string) {struct fuel} : option (list (list N * json) * string) :=
  match fuel with
  | O => None
  | S fuel =>
      match s with
      | String c s1 =>
          if Ascii.eqb c """" then
            match scan_string s1 with
            | Some (k, r) =>
                match skip_space r with
                | String e r1 =>
                    if Ascii.eqb e ":" then
                      match scan fuel (skip_space r1) with
                      | Some (v, r2) =>
                          match skip_space r2 with
                          | String d r3 =>
                              if Ascii.eqb d "}" then Some ([(k, v)], r3)
                              else if Ascii.eqb d "," then
                                match scan_members fuel (skip_space r3) with
                                | Some (l, r4) => Some ((k, v) :: l, r4)
                                | None => None
                                end
                              else None
                          | EmptyString => None
                          end
                      | None => None
                      end
                    else None
                | EmptyString => None
                end
            | None => None
            end
          else None
      | EmptyString => None
      end
  end.
(** decoder.py, JSONDecoder.decode; JSONDecodeError is a ValueError *)
Definition loads (t : string) : result json :=
  match scan (S (String.length t)) (skip_space t) with
  | Some (v, r) => match skip_space r with EmptyString => Ok v | String _ _ => Raise ValueError end
  | None => Raise ValueError
  end.

(** ** [json.dumps(value, indent=4)] *)

Definition hex_char (n : N) : ascii := ascii_of_N (if N.ltb n 10 then 48 + n else 87 + n)%N.
(** encoder.py, [\u{0:04x}] *)
Definition u_escape (n : N) : string :=
  "\u" +++ String (hex_char (n / 4096 mod 16)) (String (hex_char (n / 256 mod 16))
    (String (hex_char (n / 16 mod 16)) (one_char (hex_char (n mod 16))))).
(** encoder.py, py_encode_basestring_ascii *)
Definition encode_char (n : N) : string :=
  if N.eqb n 34 then "\""" else if N.eqb n 92 then "\\"
  else if N.eqb n 10 then "\n" else if N.eqb n 13 then "\r" else if N.eqb n 9 then "\t"
  else if N.eqb n 12 then "\f" else if N.eqb n 8 then "\b"
  else if N.leb 32 n && N.leb n 126 then one_char (ascii_of_N n)
  else if N.ltb n 65536 then u_escape n
  else u_escape (55296 + (n - 65536) / 1024) +++ u_escape (56320 + (n - 65536) mod 1024).
Fixpoint concat_all (l : list string) : string :=
  match l with [] => "" | s :: l' => s +++ concat_all l' end.
Definition encode_string (l : list N) : string := """" +++ concat_all (map encode_char l) +++ """".
Fixpoint repeat_text (n : nat) (s : string) : string :=
  match n with O => "" | S n => s +++ repeat_text n s end.
Definition json_newline (level : nat) : string := one_char "010" +++ repeat_text level "    ".
Fixpoint joined_with (sep : string) (l : list string) : string :=
  match l with
  | [] => ""
  | [s] => s
  | s :: l' => s +++ sep +++ joined_with sep l'
  end.
(** encoder.py, _iterencode; [level]: how deep the value stands *)
Fixpoint dumps_at (level : nat) (v : json) : string :=
  match v with
  | JWord w => w
  | JNum n => n
  | JStr s => encode_string s
  | JArr [] => "[]"
  | JArr l => "[" +++ json_newline (S level)
        +++ joined_with ("," +++ json_newline (S level)) (map (dumps_at (S level)) l)
        +++ json_newline level +++ "]"
  | JObj [] => "{}"
  | JObj l => "{" +++ json_newline (S level)
        +++ joined_with ("," +++ json_newline (S level))
              (map (fun kv => encode_string (fst kv) +++ ": " +++ dumps_at (S level) (snd kv)) l)
        +++ json_newline level +++ "}"
  end.
Definition dumps (v : json) : string := dumps_at 0 v.

(** ** From values to command data and back *)

Fixpoint codes (s : string) : list N :=
  match s with EmptyString => [] | String c s' => code c :: codes s' end.
(** A Python string as a string of this model: code points up to 255 *)
Fixpoint small_text (l : list N) : option string :=
  match l with
  | [] => Some ""
  | n :: l' => if N.leb n 255 then option_map (String (ascii_of_N n)) (small_text l') else None
  end.
Fixpoint codes_eqb (a b : list N) : bool :=
  match a, b with
  | [], [] => true
  | x :: a', y :: b' => N.eqb x y && codes_eqb a' b'
  | _, _ => false
  end.
(** [value[key]] of a dictionary: the last assignment *)
Fixpoint last_assigned (l : list (list N * json)) (key : list N) : option json :=
  match l with
  | [] => None
  | (k, v) :: l' =>
      match last_assigned l' key with
      | Some w => Some w
      | None => if codes_eqb k key then Some v else None
      end
  end.
Fixpoint all_some {A} (l : list (option A)) : option (list A) :=
  match l with
  | [] => Some []
  | Some a :: l' => option_map (cons a) (all_some l')
  | None :: _ => None
  end.
Definition string_of (v : json) : option string := match v with JStr s => small_text s | _ => None end.
Definition strings_of (l : list json) : option (list string) := all_some (map string_of l).
Definition as_flag_entry (v : json) : option flag_entry :=
  match v with
  | JStr s => option_map FEStr (small_text s)
  | JArr l => option_map FEList (strings_of l)
  | _ => None
  end.
Definition as_option_arg (v : json) : option option_arg :=
  match v with
  | JStr s => option_map OAStr (small_text s)
  | JArr l => option_map OAList (strings_of l)
  | _ => None
  end.
Definition as_option_entry (v : json) : option option_entry :=
  match v with
  | JArr l =>
      match rev l with
      | a :: names =>
          match strings_of (rev names), as_option_arg a with
          | Some ns, Some x => Some (mkOE ns x)
          | _, _ => None
          end
      | [] => None
      end
  | _ => None
  end.
(** The command data in a value, as far as JsonData.v represents it *)
Definition as_data (v : json) : option json_data :=
  match v with
  | JObj l =>
      match last_assigned l (codes "flag"), last_assigned l (codes "option") with
      | Some (JArr fs), Some (JArr os) =>
          match all_some (map as_flag_entry fs), all_some (map as_option_entry os) with
          | Some fs, Some os => Some (mkJson fs os)
          | _, _ => None
          end
      | _, _ => None
      end
  | _ => None
  end.
(** util_parser.py:5-16 on a directory of texts: [json.loads] of the text of a file.
    A value that JsonData.v cannot represent is read as TypeError (a simplification). *)
Definition text_dir (texts : string -> option string) : data_dir := fun fn =>
  match texts fn with
  | None => FNotFound
  | Some t =>
      match loads t with
      | Raise e => FError e
      | Ok v => match as_data v with Some d => FFound d | None => FError TypeError end
      end
  end.

(** The dictionary built by args-to-json.py:53-63 *)
Definition text_value (s : string) : json := JStr (codes s).
Definition flag_value (e : flag_entry) : json :=
  match e with FEStr s => text_value s | FEList l => JArr (map text_value l) end.
Definition arg_value (a : option_arg) : json :=
  match a with OAStr s => text_value s | OAList l => JArr (map text_value l) end.
Definition option_value (e : option_entry) : json := JArr (map text_value (oe_names e) ++ [arg_value (oe_arg e)]).
Definition data_value (d : json_data) : json :=
  JObj [(codes "flag", JArr (map flag_value (j_flag d))); (codes "option", JArr (map option_value (j_option d)))].
(** args-to-json.py:77-80: what is printed *)
Definition args_to_json (lines : list string) : string :=
  dumps (data_value (parse_lines lines)) +++ one_char "010".
(** manpage-to-json.sh:2: grep for lines that start with seven blanks and a dash; sed takes the
    white space at the front away.  [lines]: the lines of the page without the newlines. *)
Definition seven : string := "       ".
Definition option_lines (lines : list string) : list string :=
  flat_map (fun l => match cut_prefix (seven +++ "-") l with
                     | Some _ => [lstrip l +++ one_char "010"]
                     | None => []
                     end) lines.
Definition manpage_to_json (lines : list string) : string := args_to_json (option_lines lines).
