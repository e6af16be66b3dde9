(** * Specification: what it means for a string to consist of shell words

    Independent of the automaton in Shlex.v: a grammar of shell words with
    backslash escapes and single and double quotes.  [word_text t m] says that the
    text [t] of a word denotes the string [m]. *)
Require Import Verif.PyBase.

Definition blank (c : ascii) : Prop :=
  c = " "%char \/ c = "009"%char \/ c = "010"%char \/ c = "013"%char.
Definition SQ : ascii := "'"%char.
Definition DQ : ascii := """"%char.
Definition BS : ascii := "\"%char.

Fixpoint all_chars (P : ascii -> Prop) (s : string) : Prop :=
  match s with EmptyString => True | String c s' => P c /\ all_chars P s' end.

(** The text between two double quotes: a backslash protects only a double quote or
    a backslash; before any other character it stands for itself. *)
Inductive dq_body : string -> string -> Prop :=
| dq_nil : dq_body "" ""
| dq_plain c t m :
    c <> DQ -> c <> BS -> dq_body t m -> dq_body (String c t) (String c m)
| dq_protected c t m :
    c = DQ \/ c = BS -> dq_body t m -> dq_body (String BS (String c t)) (String c m)
| dq_literal_backslash c t m :
    c <> DQ -> c <> BS -> dq_body t m ->
    dq_body (String BS (String c t)) (String BS (String c m)).

(** A (possibly empty) sequence of plain characters, escaped characters and quoted
    parts. *)
Inductive word_text : string -> string -> Prop :=
| wt_nil : word_text "" ""
| wt_plain c t m :
    ~ blank c -> c <> SQ -> c <> DQ -> c <> BS ->
    word_text t m -> word_text (String c t) (String c m)
| wt_escaped c t m :
    word_text t m -> word_text (String BS (String c t)) (String c m)
| wt_single body t m :
    all_chars (fun c => c <> SQ) body -> word_text t m ->
    word_text (String SQ (body +++ String SQ t)) (body +++ m)
| wt_double body bm t m :
    dq_body body bm -> word_text t m ->
    word_text (String DQ (body +++ String DQ t)) (bm +++ m).

(** [tokenises s ws]: [s] consists of words separated by blanks, denoting [ws]. *)
Inductive tokenises : string -> list string -> Prop :=
| tk_blanks b : all_chars blank b -> tokenises b []
| tk_last b t m :
    all_chars blank b -> t <> "" -> word_text t m -> tokenises (b +++ t) [m]
| tk_more b t m c rest ws :
    all_chars blank b -> t <> "" -> word_text t m -> blank c ->
    tokenises rest ws -> tokenises (b +++ t +++ String c rest) (m :: ws).

(** An open double quote: the text ends before the closing quote, possibly right
    after a backslash. *)
Inductive dq_open : string -> Prop :=
| dqo_body t m : dq_body t m -> dq_open t
| dqo_escape t m : dq_body t m -> dq_open (t +++ String BS "").

(** [unfinished s]: complete words and blanks, followed by a (possibly empty) part
    of a word and then a dangling backslash or a quote that is never closed. *)
Inductive unfinished_tail : string -> Prop :=
| ut_backslash : unfinished_tail (String BS "")
| ut_single body : all_chars (fun c => c <> SQ) body -> unfinished_tail (String SQ body)
| ut_double body : dq_open body -> unfinished_tail (String DQ body).

Inductive unfinished : string -> Prop :=
| unf_here b t m tail :
    all_chars blank b -> word_text t m -> unfinished_tail tail ->
    unfinished (b +++ t +++ tail)
| unf_later b t m c rest :
    all_chars blank b -> t <> "" -> word_text t m -> blank c -> unfinished rest ->
    unfinished (b +++ t +++ String c rest).
