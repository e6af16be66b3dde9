(** * Specification: how the commands read their own command lines

    The conventions of getopt_long, which all the commands below use, and the options of each
    command, transcribed from the manuals of GNU coreutils, diffutils, findutils, grep, sed and
    gawk.  Nothing here mentions the parser or its data files.

    Left out: abbreviated long options, the old forms [-NUM] and [+NUM] (head, tail, sort, uniq,
    grep), diff options for groups of lines, and the environment variable POSIXLY_CORRECT.  A
    command line that needs one of them has no reading in the sense of [reads]. *)
Require Import Verif.PyBase Verif.Parser Verif.SpecParser.

(** Whether an option has an argument.  An optional one is always attached: [-iSUF], [--in-place=SUF]. *)
Inductive arity : Type := NoArg | Required | Optional.
(** The spellings of an option. *)
Definition opt_group : Type := list (string * arity).
(** An option found, with the argument if any. *)
Definition found : Type := opt_group * option string.

(** Words that are not options: the dash alone and those that do not start with a dash. *)
Definition operand_word (w : string) : Prop := forall r, w = String "-" r -> r = "".
Definition long_word (w : string) : Prop := exists r, w = "--" +++ r.

(** [letters T cs next os]: the letters after the dash of a word; [next] is the following word if
    it is needed as an argument. *)
Inductive letters (T : list opt_group) : string -> option string -> list found -> Prop :=
| letters_last c g ar :
    In g T -> In (letter_flag c, ar) g -> ar <> Required -> letters T (String c "") None [(g, None)]
| letters_more c cs next os g :
    In g T -> In (letter_flag c, NoArg) g -> letters T cs next os ->
    letters T (String c cs) next ((g, None) :: os)
| letters_attached c cs g ar :
    In g T -> In (letter_flag c, ar) g -> ar <> NoArg -> cs <> "" ->
    letters T (String c cs) None [(g, Some cs)]
| letters_next c g a :
    In g T -> In (letter_flag c, Required) g -> letters T (String c "") (Some a) [(g, Some a)].

(** [reads T permutes ws os operands]: how the command reads the words after its name.  Most
    commands look for options also after the first operand ([permutes]), the others stop there.
    After [--] everything is an operand. *)
Inductive reads (T : list opt_group) (permutes : bool) : list string -> list found -> list string -> Prop :=
| reads_end : reads T permutes [] [] []
| reads_dashes ws : reads T permutes ("--" :: ws) [] ws
| reads_stop w ws : permutes = false -> operand_word w -> reads T permutes (w :: ws) [] (w :: ws)
| reads_operand w ws os ops :
    permutes = true -> operand_word w -> reads T permutes ws os ops ->
    reads T permutes (w :: ws) os (w :: ops)
| reads_long w g ar ws os ops :
    long_word w -> In g T -> In (w, ar) g -> ar <> Required -> reads T permutes ws os ops ->
    reads T permutes (w :: ws) ((g, None) :: os) ops
| reads_long_arg w g a ws os ops :
    long_word w -> In g T -> In (w, Required) g -> reads T permutes ws os ops ->
    reads T permutes (w :: a :: ws) ((g, Some a) :: os) ops
| reads_long_eq n g ar v ws os ops :
    long_word n -> In g T -> In (n, ar) g -> ar <> NoArg -> reads T permutes ws os ops ->
    reads T permutes ((n +++ "=" +++ v) :: ws) ((g, Some v) :: os) ops
| reads_short cs os' ws os ops :
    letters T cs None os' -> reads T permutes ws os ops ->
    reads T permutes (String "-" cs :: ws) (os' ++ os) ops
| reads_short_arg cs a os' ws os ops :
    letters T cs (Some a) os' -> reads T permutes ws os ops ->
    reads T permutes (String "-" cs :: a :: ws) (os' ++ os) ops.

(** The same options, in any of their spellings, in the same order with the same arguments, and
    the same operands. *)
Inductive same_option : flag_option -> found -> Prop :=
| same_flag n g ar : In (n, ar) g -> same_option (Flag n) (g, None)
| same_with_arg n g ar a : In (n, ar) g -> same_option (Option_ n a) (g, Some a).
Definition same_reading (inv : invocation) (os : list found) (ops : list string) : Prop :=
  Forall2 same_option (flag_option_list inv) os /\ operand_list inv = ops.

(** ** Plain command lines
    Options first, each as a word of its own or several letters without argument in one word,
    arguments as words of their own, then the operands; and none of the words [bad]. *)
Inductive bundled (T : list opt_group) (bad : list string) : string -> Prop :=
| bundled_last c g ar :
    In g T -> In (letter_flag c, ar) g -> ar <> Required -> ~ In (letter_flag c) bad ->
    bundled T bad (String c "")
| bundled_more c cs g :
    In g T -> In (letter_flag c, NoArg) g -> ~ In (letter_flag c) bad -> bundled T bad cs ->
    bundled T bad (String c cs).
Inductive plain (T : list opt_group) (permutes : bool) (bad : list string) : list string -> Prop :=
| plain_end : plain T permutes bad []
| plain_operands w ws :
    operand_word w -> ~ In w bad -> (permutes = true -> Forall operand_word ws) ->
    plain T permutes bad (w :: ws)
| plain_option w g ar ws :
    In g T -> In (w, ar) g -> ar <> Required -> ~ In w bad -> plain T permutes bad ws ->
    plain T permutes bad (w :: ws)
| plain_option_arg w g a ws :
    In g T -> In (w, Required) g -> ~ In w bad -> plain T permutes bad ws ->
    plain T permutes bad (w :: a :: ws)
| plain_bundle cs ws :
    String.length cs > 1 -> bundled T bad cs -> ~ In (String "-" cs) bad -> plain T permutes bad ws ->
    plain T permutes bad (String "-" cs :: ws).

(** ** The options of the commands *)
Definition no (w : string) : string * arity := (w, NoArg).
Definition arg (w : string) : string * arity := (w, Required).
Definition opt (w : string) : string * arity := (w, Optional).
Definition awk_options : list opt_group :=
  [[arg "-f"; arg "--file"]; [arg "-F"; arg "--field-separator"]; [arg "-v"; arg "--assign"];
   [no "-b"; no "--characters-as-bytes"]; [no "-c"; no "--traditional"]; [no "-C"; no "--copyright"];
   [opt "-d"; opt "--dump-variables"]; [opt "-D"; opt "--debug"]; [arg "-e"; arg "--source"];
   [arg "-E"; arg "--exec"]; [no "-g"; no "--gen-pot"]; [no "-h"; no "--help"];
   [arg "-i"; arg "--include"]; [no "-I"; no "--trace"]; [arg "-l"; arg "--load"];
   [opt "-L"; opt "--lint"]; [no "-M"; no "--bignum"]; [no "-n"; no "--non-decimal-data"];
   [no "-N"; no "--use-lc-numeric"]; [opt "-o"; opt "--pretty-print"]; [no "-O"; no "--optimize"];
   [opt "-p"; opt "--profile"]; [no "-P"; no "--posix"]; [no "-r"; no "--re-interval"];
   [no "-s"; no "--no-optimize"]; [no "-S"; no "--sandbox"]; [no "-t"; no "--lint-old"];
   [no "-V"; no "--version"]].
Definition cat_options : list opt_group :=
  [[no "-A"; no "--show-all"]; [no "-b"; no "--number-nonblank"]; [no "-e"];
   [no "-E"; no "--show-ends"]; [no "-n"; no "--number"]; [no "-s"; no "--squeeze-blank"]; [no "-t"];
   [no "-T"; no "--show-tabs"]; [no "-u"]; [no "-v"; no "--show-nonprinting"]; [no "--help"];
   [no "--version"]].
Definition comm_options : list opt_group :=
  [[no "-1"]; [no "-2"]; [no "-3"]; [no "--check-order"]; [no "--nocheck-order"];
   [arg "--output-delimiter"]; [no "--total"]; [no "-z"; no "--zero-terminated"]; [no "--help"];
   [no "--version"]].
Definition cut_options : list opt_group :=
  [[arg "-b"; arg "--bytes"]; [arg "-c"; arg "--characters"]; [arg "-d"; arg "--delimiter"];
   [arg "-f"; arg "--fields"]; [no "-n"]; [no "--complement"]; [no "-s"; no "--only-delimited"];
   [arg "--output-delimiter"]; [no "-z"; no "--zero-terminated"]; [no "--help"]; [no "--version"]].
Definition diff_options : list opt_group :=
  [[no "--normal"]; [no "-q"; no "--brief"]; [no "-s"; no "--report-identical-files"];
   [no "-c"; arg "-C"; opt "--context"]; [no "-u"; arg "-U"; opt "--unified"]; [no "-e"; no "--ed"];
   [no "-n"; no "--rcs"]; [no "-y"; no "--side-by-side"]; [arg "-W"; arg "--width"];
   [no "--left-column"]; [no "--suppress-common-lines"]; [no "-p"; no "--show-c-function"];
   [arg "-F"; arg "--show-function-line"]; [arg "-L"; arg "--label"]; [no "-t"; no "--expand-tabs"];
   [no "-T"; no "--initial-tab"]; [arg "--tabsize"]; [no "--suppress-blank-empty"];
   [no "-l"; no "--paginate"]; [no "-r"; no "--recursive"]; [no "--no-dereference"];
   [no "-N"; no "--new-file"]; [no "-P"; no "--unidirectional-new-file"];
   [no "--ignore-file-name-case"]; [no "--no-ignore-file-name-case"]; [arg "-x"; arg "--exclude"];
   [arg "-X"; arg "--exclude-from"]; [arg "-S"; arg "--starting-file"]; [arg "--from-file"];
   [arg "--to-file"]; [no "-i"; no "--ignore-case"]; [no "-E"; no "--ignore-tab-expansion"];
   [no "-Z"; no "--ignore-trailing-space"]; [no "-b"; no "--ignore-space-change"];
   [no "-w"; no "--ignore-all-space"]; [no "-B"; no "--ignore-blank-lines"];
   [arg "-I"; arg "--ignore-matching-lines"]; [no "-a"; no "--text"]; [no "--strip-trailing-cr"];
   [arg "-D"; arg "--ifdef"]; [arg "--line-format"]; [no "-d"; no "--minimal"];
   [arg "--horizon-lines"]; [no "-H"; no "--speed-large-files"]; [opt "--color"]; [arg "--palette"];
   [no "--help"]; [no "-v"; no "--version"]].
Definition grep_options : list opt_group :=
  [[no "-E"; no "--extended-regexp"]; [no "-F"; no "--fixed-strings"]; [no "-G"; no "--basic-regexp"];
   [no "-P"; no "--perl-regexp"]; [arg "-e"; arg "--regexp"]; [arg "-f"; arg "--file"];
   [no "-i"; no "-y"; no "--ignore-case"]; [no "--no-ignore-case"]; [no "-w"; no "--word-regexp"];
   [no "-x"; no "--line-regexp"]; [no "-z"; no "--null-data"]; [no "-s"; no "--no-messages"];
   [no "-v"; no "--invert-match"]; [no "-V"; no "--version"]; [no "--help"];
   [arg "-m"; arg "--max-count"]; [no "-b"; no "--byte-offset"]; [no "-n"; no "--line-number"];
   [no "--line-buffered"]; [no "-H"; no "--with-filename"]; [no "-h"; no "--no-filename"];
   [arg "--label"]; [no "-o"; no "--only-matching"]; [no "-q"; no "--quiet"; no "--silent"];
   [arg "--binary-files"]; [no "-a"; no "--text"]; [no "-I"]; [arg "-d"; arg "--directories"];
   [arg "-D"; arg "--devices"]; [no "-r"; no "--recursive"]; [no "-R"; no "--dereference-recursive"];
   [arg "--include"]; [arg "--exclude"]; [arg "--exclude-from"]; [arg "--exclude-dir"];
   [no "-L"; no "--files-without-match"]; [no "-l"; no "--files-with-matches"];
   [no "-c"; no "--count"]; [no "-T"; no "--initial-tab"]; [no "-Z"; no "--null"];
   [arg "-A"; arg "--after-context"]; [arg "-B"; arg "--before-context"]; [arg "-C"; arg "--context"];
   [arg "--group-separator"]; [no "--no-group-separator"]; [opt "--color"; opt "--colour"];
   [no "-U"; no "--binary"]; [no "-u"; no "--unix-byte-offsets"]].
Definition head_options : list opt_group :=
  [[arg "-c"; arg "--bytes"]; [arg "-n"; arg "--lines"]; [no "-q"; no "--quiet"; no "--silent"];
   [no "-v"; no "--verbose"]; [no "-z"; no "--zero-terminated"]; [no "--help"]; [no "--version"]].
Definition mkfifo_options : list opt_group :=
  [[arg "-m"; arg "--mode"]; [no "-Z"; opt "--context"]; [no "--help"]; [no "--version"]].
Definition mv_options : list opt_group :=
  [[no "-b"; opt "--backup"]; [no "-f"; no "--force"]; [no "-i"; no "--interactive"];
   [no "-n"; no "--no-clobber"]; [no "--strip-trailing-slashes"]; [arg "-S"; arg "--suffix"];
   [arg "-t"; arg "--target-directory"]; [no "-T"; no "--no-target-directory"];
   [no "-u"; opt "--update"]; [no "-v"; no "--verbose"]; [no "-Z"; no "--context"]; [no "--help"];
   [no "--version"]].
Definition rm_options : list opt_group :=
  [[no "-f"; no "--force"]; [no "-i"]; [no "-I"]; [opt "--interactive"]; [no "--one-file-system"];
   [no "--no-preserve-root"]; [opt "--preserve-root"]; [no "-r"; no "-R"; no "--recursive"];
   [no "-d"; no "--dir"]; [no "-v"; no "--verbose"]; [no "--help"]; [no "--version"]].
Definition sed_options : list opt_group :=
  [[no "-n"; no "--quiet"; no "--silent"]; [no "--debug"]; [arg "-e"; arg "--expression"];
   [arg "-f"; arg "--file"]; [no "--follow-symlinks"]; [opt "-i"; opt "--in-place"];
   [arg "-l"; arg "--line-length"]; [no "--posix"]; [no "-E"; no "-r"; no "--regexp-extended"];
   [no "-s"; no "--separate"]; [no "--sandbox"]; [no "-u"; no "--unbuffered"];
   [no "-z"; no "--null-data"; no "--zero-terminated"]; [no "--help"]; [no "--version"]].
Definition seq_options : list opt_group :=
  [[arg "-f"; arg "--format"]; [arg "-s"; arg "--separator"]; [no "-w"; no "--equal-width"];
   [no "--help"]; [no "--version"]].
Definition sort_options : list opt_group :=
  [[no "-b"; no "--ignore-leading-blanks"]; [no "-d"; no "--dictionary-order"];
   [no "-f"; no "--ignore-case"]; [no "-g"; no "--general-numeric-sort"];
   [no "-i"; no "--ignore-nonprinting"]; [no "-M"; no "--month-sort"];
   [no "-h"; no "--human-numeric-sort"]; [no "-n"; no "--numeric-sort"]; [no "-R"; no "--random-sort"];
   [arg "--random-source"]; [no "-r"; no "--reverse"]; [arg "--sort"]; [no "-V"; no "--version-sort"];
   [arg "--batch-size"]; [no "-c"; opt "--check"]; [no "-C"]; [arg "--compress-program"];
   [no "--debug"]; [arg "--files0-from"]; [arg "-k"; arg "--key"]; [no "-m"; no "--merge"];
   [arg "-o"; arg "--output"]; [no "-s"; no "--stable"]; [arg "-S"; arg "--buffer-size"];
   [arg "-t"; arg "--field-separator"]; [arg "-T"; arg "--temporary-directory"]; [arg "--parallel"];
   [no "-u"; no "--unique"]; [no "-z"; no "--zero-terminated"]; [no "--help"]; [no "--version"]].
Definition tail_options : list opt_group :=
  [[arg "-c"; arg "--bytes"]; [no "-f"; opt "--follow"]; [no "-F"]; [arg "-n"; arg "--lines"];
   [arg "--max-unchanged-stats"]; [arg "--pid"]; [no "-q"; no "--quiet"; no "--silent"];
   [no "--retry"]; [arg "-s"; arg "--sleep-interval"]; [no "-v"; no "--verbose"];
   [no "-z"; no "--zero-terminated"]; [no "--help"]; [no "--version"]].
Definition tee_options : list opt_group :=
  [[no "-a"; no "--append"]; [no "-i"; no "--ignore-interrupts"]; [no "-p"; opt "--output-error"];
   [no "--help"]; [no "--version"]].
Definition tr_options : list opt_group :=
  [[no "-c"; no "-C"; no "--complement"]; [no "-d"; no "--delete"]; [no "-s"; no "--squeeze-repeats"];
   [no "-t"; no "--truncate-set1"]; [no "--help"]; [no "--version"]].
Definition uniq_options : list opt_group :=
  [[no "-c"; no "--count"]; [no "-d"; no "--repeated"]; [no "-D"; opt "--all-repeated"];
   [arg "-f"; arg "--skip-fields"]; [opt "--group"]; [no "-i"; no "--ignore-case"];
   [arg "-s"; arg "--skip-chars"]; [no "-u"; no "--unique"]; [no "-z"; no "--zero-terminated"];
   [arg "-w"; arg "--check-chars"]; [no "--help"]; [no "--version"]].
Definition wc_options : list opt_group :=
  [[no "-c"; no "--bytes"]; [no "-m"; no "--chars"]; [no "-l"; no "--lines"]; [arg "--files0-from"];
   [no "-L"; no "--max-line-length"]; [no "-w"; no "--words"]; [no "--help"]; [no "--version"]].
Definition xargs_options : list opt_group :=
  [[no "-0"; no "--null"]; [arg "-a"; arg "--arg-file"]; [arg "-d"; arg "--delimiter"];
   [arg "-E"; opt "-e"; opt "--eof"]; [arg "-I"; opt "-i"; opt "--replace"];
   [arg "-L"; opt "-l"; opt "--max-lines"]; [arg "-n"; arg "--max-args"]; [no "-o"; no "--open-tty"];
   [arg "-P"; arg "--max-procs"]; [no "-p"; no "--interactive"]; [arg "--process-slot-var"];
   [no "-r"; no "--no-run-if-empty"]; [arg "-s"; arg "--max-chars"]; [no "--show-limits"];
   [no "-t"; no "--verbose"]; [no "-x"; no "--exit"]; [no "--help"]; [no "--version"]].

(** name, options, whether options may follow operands *)
Definition manual : list (string * (list opt_group * bool)) :=
  [("awk", (awk_options, false));
   ("cat", (cat_options, true));
   ("comm", (comm_options, true));
   ("cut", (cut_options, true));
   ("diff", (diff_options, true));
   ("grep", (grep_options, true));
   ("head", (head_options, true));
   ("mkfifo", (mkfifo_options, true));
   ("mv", (mv_options, true));
   ("rm", (rm_options, true));
   ("sed", (sed_options, true));
   ("seq", (seq_options, false));
   ("sort", (sort_options, true));
   ("tail", (tail_options, true));
   ("tee", (tee_options, true));
   ("tr", (tr_options, false));
   ("uniq", (uniq_options, true));
   ("wc", (wc_options, true));
   ("xargs", (xargs_options, false))].

(** The words the parser takes for something else than the command does: undeclared, declared as
    flag although an argument follows, declared with argument although none follows, or no option
    at all. *)
Definition misread (name : string) : list string :=
  match name with
  | "awk" => ["-F"; "--field-separator"; "-v"; "--assign"; "-e"; "--source"; "-E"; "--exec";
             "-i"; "--include"; "-I"; "--trace"; "-l"; "--load"; "-o"; "--pretty-print"; "-s"; "--no-optimize"; "-ofile"]
  | "cat" => ["-vE"; "-vT"]
  | "diff" => ["-c"; "--context"; "-u"; "--unified"; "-L"; "-P"; "-H"; "--color"]
  | "grep" => ["--color"; "--colour"]
  | "mkfifo" => ["-m"; "--context"]
  | "rm" => ["--interactive"; "--preserve-root"]
  | "sed" => ["-e"; "--expression"; "-f"; "--file"; "-i"; "--in-place"; "--zero-terminated"]
  | "tail" => ["-c"; "--bytes"; "-F"; "-n"; "--lines"; "-s"]
  | "tee" => ["--output-error"]
  | "tr" => ["--truncate-set1"]
  | "uniq" => ["--all-repeated"; "-f"; "--group"; "-s"; "-w"; "-"; "f"; "s"; "w"]
  | "xargs" => ["-0"; "-e"; "--eof"; "-i"; "--replace"; "-l"; "--max-lines";
               "--process-slot-var"; "-s"; "--max-chars"]
  | _ => []
  end%string.
