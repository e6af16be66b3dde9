(** * The words after the name of the command line tool *)
Require Import Verif.PyBase.

(** The two things that can be said, and their long names *)
Inductive setting : Type := Command | Destination.
Definition name_of (n : setting) : string := match n with Command => "command_invocation" | Destination => "save_to" end.

(** [short s name]: [s] is [name] or a part of it from the start *)
Definition short (s name : string) : Prop := s <> "" /\ exists q, s +++ q = name.
Definition abbreviates (w : string) (n : setting) : Prop := exists s, short s (name_of n) /\ w = "--" +++ s.

Definition has (c : ascii) (s : string) : Prop := exists a b, s = a +++ String c b.
Definition digits (s : string) : Prop := s <> "" /\ forall c, has c s -> In c ["0"; "1"; "2"; "3"; "4"; "5"; "6"; "7"; "8"; "9"]%char.
(** A negative number, where a newline may follow *)
Definition number_word (w : string) : Prop :=
  exists e, (e = "" \/ e = String (ascii_of_nat 10) "") /\
    ((exists d, digits d /\ w = "-" +++ d +++ e) \/ (exists d, digits d /\ w = "-." +++ d +++ e) \/
     (exists d d', digits d /\ digits d' /\ w = "-" +++ d +++ "." +++ d' +++ e)).

(** Words that are not taken for the argument of the option before them *)
Inductive option_like (w : string) : Prop :=
| ol_help r : w = "-h" +++ r -> option_like w
| ol_name s q n : In n ["help"; "command_invocation"; "save_to"] -> s +++ q = n -> w = "--" +++ s -> option_like w
| ol_assigned s q n r : In n ["help"; "command_invocation"; "save_to"] -> s +++ q = n -> w = "--" +++ s +++ "=" +++ r -> option_like w
| ol_unknown s : s <> "" -> w = "-" +++ s -> ~ has " " w -> ~ number_word w -> option_like w.
Definition plain (w : string) : Prop := ~ option_like w.

(** The settings in a list of words, with their values; [None] is a value that is no string. *)
Inductive given : string -> option string -> Prop :=
| given_nothing : given "--" None
| given_text v : v <> "--" -> given v (Some v).
Inductive settings : list string -> list (setting * option string) -> Prop :=
| set_none : settings [] []
| set_joined w n v x ws ss : abbreviates w n -> given v x -> settings ws ss -> settings ((w +++ "=" +++ v) :: ws) ((n, x) :: ss)
| set_apart w n v ws ss : abbreviates w n -> plain v -> settings ws ss -> settings (w :: v :: ws) ((n, Some v) :: ss).
(** The last one counts. *)
Definition says (ss : list (setting * option string)) (n : setting) (x : option (option string)) : Prop :=
  (x = None /\ forall y, ~ In (n, y) ss) \/
  (exists y a b, x = Some y /\ ss = a ++ (n, y) :: b /\ forall z, ~ In (n, z) b).

(** ** Asking for help *)
(** A word after [--] is no option. *)
Definition ambiguous (argv : list string) : Prop := exists a r b, argv = a ++ ("--=" +++ r) :: b /\ ~ In "--" a.
Definition all_h (s : string) : Prop := s <> "" /\ forall c, has c s -> c = "h"%char.
Inductive help_word (w : string) : Prop :=
| hw_long s : short s "help" -> w = "--" +++ s -> help_word w
| hw_short s : all_h s -> w = "-" +++ s -> help_word w
| hw_assigned s : all_h s -> w = "-h=" +++ s -> help_word w.
(** Settings, and words that are left over *)
Inductive unknown (w : string) : Prop :=
| unknown_option s : s <> "" -> w = "-" +++ s -> ~ has " " w -> ~ number_word w ->
    (forall r, w <> "-h" +++ r) -> (forall s q n, In n ["help"; "command_invocation"; "save_to"] -> s +++ q = n -> w <> "--" +++ s) ->
    (forall s q n r, In n ["help"; "command_invocation"; "save_to"] -> s +++ q = n -> w <> "--" +++ s +++ "=" +++ r) -> unknown w.
Inductive passed : list string -> Prop :=
| pass_none : passed []
| pass_joined w n v ws : abbreviates w n -> passed ws -> passed ((w +++ "=" +++ v) :: ws)
| pass_apart w n v ws : abbreviates w n -> plain v -> passed ws -> passed (w :: v :: ws)
| pass_plain w ws : plain w -> passed ws -> passed (w :: ws)
| pass_unknown w ws : unknown w -> passed ws -> passed (w :: ws).
Definition asks_for_help (argv : list string) : Prop :=
  ~ ambiguous argv /\ exists pre h post, argv = pre ++ h :: post /\ passed pre /\ help_word h.
