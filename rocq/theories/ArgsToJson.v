(** * Model of pash_annotations/parser/command_flag_option_info/args-to-json.py
    manpage-to-json.sh, which selects the lines, and [json.dumps] (lines 77-80) are in Json.v;
    here the value is the decoded JSON of JsonData.v.  Regular expressions are written out as
    functions on strings; code points up to 255. *)
Require Import Verif.PyBase Verif.JsonData.

(** [str.isspace], the same characters as [\s] *)
Definition py_space (c : ascii) : bool :=
  let n := nat_of_ascii c in
  (Nat.leb 9 n && Nat.leb n 13) || (Nat.leb 28 n && Nat.leb n 32) || Nat.eqb n 133 || Nat.eqb n 160.
Definition is_lower (c : ascii) : bool := let n := nat_of_ascii c in Nat.leb 97 n && Nat.leb n 122.
Definition is_upper (c : ascii) : bool := let n := nat_of_ascii c in Nat.leb 65 n && Nat.leb n 90.
Fixpoint all_b (p : ascii -> bool) (s : string) : bool :=
  match s with EmptyString => true | String c s' => p c && all_b p s' end.
(** [re.sub] of single characters by nothing *)
Fixpoint remove_chars (p : ascii -> bool) (s : string) : string :=
  match s with
  | EmptyString => EmptyString
  | String c s' => if p c then remove_chars p s' else String c (remove_chars p s')
  end.
Definition push (c : ascii) (l : list string) : list string :=
  match l with [] => [one_char c] | s :: l' => String c s :: l' end.
(** [re.split(", ", line)] *)
Fixpoint split_comma (s : string) : list string :=
  match s with
  | EmptyString => [EmptyString]
  | String c s' =>
      match s' with
      | String d s'' => if Ascii.eqb c "," && Ascii.eqb d " " then EmptyString :: split_comma s'' else push c (split_comma s')
      | EmptyString => push c (split_comma s')
      end
  end.
(** [re.split(r"=", phrase)] *)
Fixpoint split_equal (s : string) : list string :=
  match s with
  | EmptyString => [EmptyString]
  | String c s' => if Ascii.eqb c "=" then EmptyString :: split_equal s' else push c (split_equal s')
  end.
(** [re.split(r"\s+", phrase)]; [inside]: within a separator *)
Fixpoint split_space (inside : bool) (s : string) : list string :=
  match s with
  | EmptyString => [EmptyString]
  | String c s' =>
      if py_space c then (if inside then split_space true s' else EmptyString :: split_space true s')
      else push c (split_space false s')
  end.
(** [str.strip()] *)
Fixpoint lstrip (s : string) : string :=
  match s with
  | EmptyString => EmptyString
  | String c s' => if py_space c then lstrip s' else s
  end.
Fixpoint rstrip (s : string) : string :=
  match s with
  | EmptyString => EmptyString
  | String c s' =>
      match rstrip s' with
      | EmptyString => if py_space c then EmptyString else one_char c
      | r => String c r
      end
  end.
Definition strip (s : string) : string := rstrip (lstrip s).

(** A final [$] also matches before a newline at the end. *)
Fixpoint without_final_newline (s : string) : string :=
  match s with
  | EmptyString => EmptyString
  | String c EmptyString => if Ascii.eqb c "010" then EmptyString else s
  | String c s' => String c (without_final_newline s')
  end.
Definition matches (p : string -> bool) (s : string) : bool := p s || p (without_final_newline s).
Fixpoint skip_dashes (s : string) : string :=
  match s with
  | EmptyString => EmptyString
  | String c s' => if Ascii.eqb c "-" then skip_dashes s' else s
  end.
Definition starts_with_dash (s : string) : bool :=
  match s with String c _ => Ascii.eqb c "-" | EmptyString => false end.
(** [-[-]*[a-z][a-z-]*] *)
Definition lower_form (s : string) : bool :=
  starts_with_dash s &&
  match skip_dashes s with
  | EmptyString => false
  | String c s' => is_lower c && all_b (fun d => is_lower d || Ascii.eqb d "-") s'
  end.
(** [-[-]*[A-Z]] *)
Definition upper_form (s : string) : bool :=
  starts_with_dash s &&
  match skip_dashes s with String c EmptyString => is_upper c | _ => false end.
(** [[A-Z]+] *)
Definition argument_form (s : string) : bool :=
  negb (String.eqb s EmptyString) && all_b is_upper s.

(** An element of [xbd_args]: a string or a list of two strings *)
Inductive xbd_arg : Type := XFlag (name : string) | XOption (name arg : string).

(** args-to-json.py:25-43, the body of the loop *)
Definition match_phrase (phrase : string) (xbd_args : list xbd_arg) (past_flags : list string)
  : list xbd_arg * list string :=
  let phrase := strip phrase in
  let phrase_parts := if negb (all_b (fun c => negb (Ascii.eqb c "=")) phrase) then split_equal phrase
                      else split_space false phrase in
  match phrase_parts with
  | [] => (xbd_args, past_flags)
  | name :: rest =>
      if matches lower_form name || matches upper_form name then
        let flag := remove_chars (fun c => Ascii.eqb c "-") name in
        if mem flag past_flags then (xbd_args, past_flags)
        else
          let x := match rest with
                   | arg :: _ => if matches argument_form arg then XOption name arg else XFlag name
                   | [] => XFlag name
                   end in
          (xbd_args ++ [x], flag :: past_flags)
      else (xbd_args, past_flags)
  end.
(** args-to-json.py:5-46 *)
Definition find_matches (line : string) (past_flags : list string) : list xbd_arg * list string :=
  let line := remove_chars (fun c => Ascii.eqb c "[" || Ascii.eqb c "]") line in
  fold_left (fun st phrase => match_phrase phrase (fst st) (snd st)) (split_comma line) ([], past_flags).

(** args-to-json.py:53-63 *)
Definition is_flag (x : xbd_arg) : bool := match x with XFlag _ => true | XOption _ _ => false end.
Definition xname (x : xbd_arg) : string := match x with XFlag n => n | XOption n _ => n end.
Definition parse_args (args : list (list xbd_arg)) : json_data :=
  fold_left (fun d line_args =>
    if forallb is_flag line_args then mkJson (j_flag d ++ [FEList (map xname line_args)]) (j_option d)
    else fold_left (fun d x => match x with
                               | XFlag n => mkJson (j_flag d ++ [FEStr n]) (j_option d)
                               | XOption n a => mkJson (j_flag d) (j_option d ++ [mkOE [n] (OAStr a)])
                               end) line_args d) args (mkJson [] []).
(** args-to-json.py:65-80 *)
Fixpoint collect (lines : list string) (past_flags : list string) : list (list xbd_arg) :=
  match lines with
  | [] => []
  | line :: lines' =>
      let (line_args, past_flags') := find_matches line past_flags in
      match line_args with
      | [] => collect lines' past_flags'
      | _ => line_args :: collect lines' past_flags'
      end
  end.
Definition parse_lines (lines : list string) : json_data := parse_args (collect lines []).
