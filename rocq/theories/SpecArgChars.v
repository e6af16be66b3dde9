(** * Specification of formatted arguments *)
From Coq Require Import ZArith.
Require Import Verif.PyBase Verif.SpecShlex Verif.ArgChars.

(** ** What can be formatted *)
Definition is_code (z : Z) : Prop := (0 <= z <= 1114111)%Z.
Inductive formattable : arg_char -> Prop :=
| fm_char z : is_code z -> formattable (AC z)
| fm_escape z : is_code z -> formattable (AE z)
| fm_command t : formattable (AB t)
| fm_variable ts : 2 < length ts -> formattable (AV ts)
| fm_quoted l : (forall x, In x l -> formattable x) -> formattable (AQ l).
(** An entry of this kind occurs, possibly within quotes. *)
Inductive occurs_in (P : arg_char -> Prop) : list arg_char -> Prop :=
| oc_here x l : P x -> occurs_in P (x :: l)
| oc_later x l : occurs_in P l -> occurs_in P (x :: l)
| oc_quoted l l' : occurs_in P l -> occurs_in P (AQ l :: l').
Definition unknown (a : arg_char) : Prop := exists k, a = AOther k.

(** ** What a word denotes
    Words of characters, escaped characters and double quotes around characters and escaped
    characters; the codes are those of 8-bit characters. *)
Inductive denotes_word : list arg_char -> string -> Prop :=
| dw_nil : denotes_word [] ""
| dw_char c l m : denotes_word l m -> denotes_word (AC (code c) :: l) (String c m)
| dw_escape c l m : denotes_word l m -> denotes_word (AE (code c) :: l) (String c m)
| dw_quoted q t l m : inner q t -> denotes_word l m -> denotes_word (AQ q :: l) (t +++ m)
with inner : list arg_char -> string -> Prop :=
| in_nil : inner [] ""
| in_char c l m : inner l m -> inner (AC (code c) :: l) (String c m)
| in_escape c l m : inner l m -> inner (AE (code c) :: l) (String c m).
Definition plain_char (c : ascii) : Prop := ~ blank c /\ c <> SQ /\ c <> DQ /\ c <> BS.
(** Entries as a shell reads them from a script: characters that are neither blanks nor quotes
    nor backslashes; within double quotes neither double quotes nor backslashes; everything
    else is escaped or quoted. *)
Inductive from_shell : list arg_char -> Prop :=
| fs_nil : from_shell []
| fs_char c l : plain_char c -> from_shell l -> from_shell (AC (code c) :: l)
| fs_escape c l : from_shell l -> from_shell (AE (code c) :: l)
| fs_quoted q l : inner_from_shell q -> from_shell l -> from_shell (AQ q :: l)
with inner_from_shell : list arg_char -> Prop :=
| ifs_nil : inner_from_shell []
| ifs_char c l : c <> DQ -> c <> BS -> inner_from_shell l -> inner_from_shell (AC (code c) :: l)
| ifs_escape c l : inner_from_shell l -> inner_from_shell (AE (code c) :: l).
(** No escaped character would need its backslash: outside of quotes only plain characters are
    escaped; within quotes no double quote, and a backslash only before a character that is
    neither a double quote nor a backslash. *)
Inductive escapes_harmless : list arg_char -> Prop :=
| eh_nil : escapes_harmless []
| eh_char z l : escapes_harmless l -> escapes_harmless (AC z :: l)
| eh_escape c l : plain_char c -> escapes_harmless l -> escapes_harmless (AE (code c) :: l)
| eh_quoted q l : quoted_harmless q -> escapes_harmless l -> escapes_harmless (AQ q :: l)
with quoted_harmless : list arg_char -> Prop :=
| qh_nil : quoted_harmless []
| qh_char z l : quoted_harmless l -> quoted_harmless (AC z :: l)
| qh_escape c l : c <> DQ -> c <> BS -> quoted_harmless l -> quoted_harmless (AE (code c) :: l)
| qh_backslash_char c l : c <> DQ -> c <> BS -> quoted_harmless l -> quoted_harmless (AE (code BS) :: AC (code c) :: l)
| qh_backslash_escape c l : c <> DQ -> c <> BS -> quoted_harmless l -> quoted_harmless (AE (code BS) :: AE (code c) :: l).

(** ** What is printed *)
Inductive printed : arg_char -> text -> Prop :=
| pr_char z : is_code z -> printed (AC z) [z]
| pr_escape z : is_code z -> printed (AE z) [z]
| pr_command t : printed (AB t) (lit "$(" ++ t ++ lit ")")
| pr_variable a b v l : printed (AV (a :: b :: v :: l)) (lit "${" ++ v ++ lit "}")
| pr_quoted l ts : Forall2 printed l ts -> printed (AQ l) (lit """" ++ List.concat ts ++ lit """").
