(** * Specification of JSON texts: the grammar of RFC 8259, with the words Python adds

    Independent of the functions of Json.v; only the type of values is shared. *)
From Coq Require Import NArith.
Require Import Verif.PyBase Verif.SpecShlex Verif.JsonData Verif.Json.

Definition ch (n : nat) : string := one_char (ascii_of_nat n).
Definition quote : string := ch 34.
Definition backslash : string := ch 92.

(** [blank] of SpecShlex.v: blank, tab, newline, carriage return *)
Definition blanks (s : string) : Prop := all_chars blank s.

(** The value of a hexadecimal digit *)
Inductive hex_digit_of : ascii -> N -> Prop :=
| hd_dec n : (n < 10)%N -> hex_digit_of (ascii_of_N (48 + n)) n
| hd_low n : (10 <= n < 16)%N -> hex_digit_of (ascii_of_N (97 + (n - 10))) n
| hd_upp n : (10 <= n < 16)%N -> hex_digit_of (ascii_of_N (65 + (n - 10))) n.

(** What may stand after a backslash, besides u, and what it stands for *)
Definition short_escapes : list (string * N) :=
  [(quote, 34); (backslash, 92); ("/", 47); ("b", 8); ("f", 12); ("n", 10); ("r", 13); ("t", 9)]%N.

(** One piece of a string: a character, or an escape *)
Inductive unit_text : N -> string -> Prop :=
| ut_plain c : nat_of_ascii c <> 34 -> nat_of_ascii c <> 92 -> 32 <= nat_of_ascii c ->
    unit_text (N_of_ascii c) (one_char c)
| ut_short e n : In (e, n) short_escapes -> unit_text n (backslash +++ e)
| ut_hex a b c d x y z w : hex_digit_of a x -> hex_digit_of b y -> hex_digit_of c z -> hex_digit_of d w ->
    unit_text (4096 * x + 256 * y + 16 * z + w)%N
      (backslash +++ "u" +++ one_char a +++ one_char b +++ one_char c +++ one_char d).
Inductive units_text : list N -> string -> Prop :=
| us_none : units_text [] ""
| us_more n l s t : unit_text n s -> units_text l t -> units_text (n :: l) (s +++ t).

(** Surrogates: a high one directly followed by a low one is one code point. *)
Definition is_high (n : N) : Prop := (55296 <= n < 56320)%N.
Definition is_low (n : N) : Prop := (56320 <= n < 57344)%N.
Inductive code_points : list N -> list N -> Prop :=
| cp_none : code_points [] []
| cp_pair a b l m : is_high a -> is_low b -> code_points l m ->
    code_points (a :: b :: l) ((65536 + 1024 * (a - 55296) + (b - 56320))%N :: m)
| cp_single a l m : (forall b l', l = b :: l' -> ~ (is_high a /\ is_low b)) -> code_points l m ->
    code_points (a :: l) (a :: m).
Inductive string_text : list N -> string -> Prop :=
| st_quoted l m s : units_text l s -> code_points l m -> string_text m (quote +++ s +++ quote).

(** Numbers *)
Definition is_digit (c : ascii) : Prop := 48 <= nat_of_ascii c <= 57.
Definition digits (s : string) : Prop := all_chars is_digit s.
Definition integer_part (s : string) : Prop :=
  s = "0" \/ exists c d, s = String c d /\ is_digit c /\ c <> "0"%char /\ digits d.
Definition fraction_part (s : string) : Prop :=
  s = "" \/ exists d, s = "." +++ d /\ d <> "" /\ digits d.
Definition exponent_part (s : string) : Prop :=
  s = "" \/ exists e g d, s = e +++ g +++ d /\ In e ["e"; "E"] /\ In g [""; "-"; "+"] /\ d <> "" /\ digits d.
Definition number_text (s : string) : Prop :=
  exists m i f e, s = m +++ i +++ f +++ e /\ In m [""; "-"] /\ integer_part i /\ fraction_part f /\ exponent_part e.

Definition words : list string := ["null"; "true"; "false"; "NaN"; "Infinity"; "-Infinity"].

(** Values, the items of an array and the members of an object *)
Inductive value_text : json -> string -> Prop :=
| vt_word w : In w words -> value_text (JWord w) w
| vt_number s : number_text s -> value_text (JNum s) s
| vt_string l s : string_text l s -> value_text (JStr l) s
| vt_array0 b : blanks b -> value_text (JArr []) ("[" +++ b +++ "]")
| vt_array l s : items_text l s -> value_text (JArr l) ("[" +++ s +++ "]")
| vt_object0 b : blanks b -> value_text (JObj []) ("{" +++ b +++ "}")
| vt_object l s : members_text l s -> value_text (JObj l) ("{" +++ s +++ "}")
with items_text : list json -> string -> Prop :=
| it_one v b1 s b2 : blanks b1 -> value_text v s -> blanks b2 -> items_text [v] (b1 +++ s +++ b2)
| it_more v l b1 s b2 t : blanks b1 -> value_text v s -> blanks b2 -> items_text l t ->
    items_text (v :: l) (b1 +++ s +++ b2 +++ "," +++ t)
with members_text : list (list N * json) -> string -> Prop :=
| mt_one k v b1 ks b2 b3 s b4 : blanks b1 -> string_text k ks -> blanks b2 -> blanks b3 -> value_text v s -> blanks b4 ->
    members_text [(k, v)] (b1 +++ ks +++ b2 +++ ":" +++ b3 +++ s +++ b4)
| mt_more k v l b1 ks b2 b3 s b4 t : blanks b1 -> string_text k ks -> blanks b2 -> blanks b3 -> value_text v s ->
    blanks b4 -> members_text l t ->
    members_text ((k, v) :: l) (b1 +++ ks +++ b2 +++ ":" +++ b3 +++ s +++ b4 +++ "," +++ t).

(** A document: a value, with blanks around it *)
Definition document (v : json) (t : string) : Prop :=
  exists b1 s b2, t = b1 +++ s +++ b2 /\ blanks b1 /\ value_text v s /\ blanks b2.

(** Values Python can have and [dumps] writes without loss: code points, and no high surrogate
    directly before a low one; no numbers *)
Definition python_text (l : list N) : Prop := Forall (fun n => (n < 1114112)%N) l /\ code_points l l.
Inductive writable : json -> Prop :=
| wr_word w : In w words -> writable (JWord w)
| wr_string l : python_text l -> writable (JStr l)
| wr_array l : Forall writable l -> writable (JArr l)
| wr_object l : Forall (fun kv => python_text (fst kv) /\ writable (snd kv)) l -> writable (JObj l).

(** Printable ASCII, and the newline *)
Definition plain_ascii (c : ascii) : Prop := nat_of_ascii c = 10 \/ 32 <= nat_of_ascii c <= 126.

(** The command data a value holds: the last member of each name counts. *)
Definition latin (s : string) (l : list N) : Prop := l = map N_of_ascii (list_ascii_of_string s).
Definition member (k : string) (v : json) (l : list (list N * json)) : Prop :=
  exists k' before after, latin k k' /\ l = before ++ (k', v) :: after /\ ~ In k' (map fst after).
Inductive string_is : json -> string -> Prop :=
| si s l : latin s l -> string_is (JStr l) s.
Inductive flag_is : json -> flag_entry -> Prop :=
| fi_text v s : string_is v s -> flag_is v (FEStr s)
| fi_list l ss : Forall2 string_is l ss -> flag_is (JArr l) (FEList ss).
Inductive arg_is : json -> option_arg -> Prop :=
| ai_text v s : string_is v s -> arg_is v (OAStr s)
| ai_list l ss : Forall2 string_is l ss -> arg_is (JArr l) (OAList ss).
Inductive option_is : json -> option_entry -> Prop :=
| oi l ss v a : Forall2 string_is l ss -> arg_is v a -> option_is (JArr (l ++ [v])) (mkOE ss a).
Inductive holds : json -> json_data -> Prop :=
| ho l fs os d : member "flag" (JArr fs) l -> member "option" (JArr os) l ->
    Forall2 flag_is fs (j_flag d) -> Forall2 option_is os (j_option d) -> holds (JObj l) d.

(** The lines of a man page that manpage-to-json.sh keeps: those that start with exactly seven
    blanks and a dash, without the blanks, each with its newline *)
Inductive kept : list string -> list string -> Prop :=
| kp_none : kept [] []
| kp_keep s page l : kept page l -> kept (("       -" +++ s) :: page) (("-" +++ s +++ one_char "010") :: l)
| kp_drop s page l : (forall x, s <> "       -" +++ x) -> kept page l -> kept (s :: page) l.
