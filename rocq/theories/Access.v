(** * Model of pash_annotations/datatypes/AccessKind.py *)
Require Import Verif.PyBase.

(** AccessKind.py:5-12; an [AccessKind] object is represented by its [kind]. *)
Inductive access : Type :=
| CONFIG_INPUT | STREAM_INPUT | CONTAINER_FOR_INPUT | EXCLUDES_FROM_INPUT | OTHER_INPUT
| STREAM_OUTPUT | OTHER_OUTPUT.

(** [self.kind == AccessKindEnum.X] *)
Definition access_eqb (a b : access) : bool :=
  match a, b with
  | CONFIG_INPUT, CONFIG_INPUT | STREAM_INPUT, STREAM_INPUT
  | CONTAINER_FOR_INPUT, CONTAINER_FOR_INPUT | EXCLUDES_FROM_INPUT, EXCLUDES_FROM_INPUT
  | OTHER_INPUT, OTHER_INPUT | STREAM_OUTPUT, STREAM_OUTPUT | OTHER_OUTPUT, OTHER_OUTPUT => true
  | _, _ => false
  end.

(** AccessKind.py:26-27 *)
Definition is_config_input (a : access) : bool := access_eqb a CONFIG_INPUT.
(** AccessKind.py:29-30 *)
Definition is_stream_input (a : access) : bool := access_eqb a STREAM_INPUT.
(** AccessKind.py:32-33 *)
Definition is_container_for_input (a : access) : bool := access_eqb a CONTAINER_FOR_INPUT.
(** AccessKind.py:35-36 *)
Definition is_excludes_from_input (a : access) : bool := access_eqb a EXCLUDES_FROM_INPUT.
(** AccessKind.py:38-39 *)
Definition is_other_input (a : access) : bool := access_eqb a OTHER_INPUT.
(** AccessKind.py:41-43 *)
Definition is_any_input (a : access) : bool :=
  is_config_input a || is_stream_input a || is_other_input a
  || is_container_for_input a || is_excludes_from_input a.
(** AccessKind.py:45-46 *)
Definition is_stream_output (a : access) : bool := access_eqb a STREAM_OUTPUT.
(** AccessKind.py:48-49 *)
Definition is_other_output (a : access) : bool := access_eqb a OTHER_OUTPUT.
(** AccessKind.py:51-52 *)
Definition is_any_output (a : access) : bool := is_stream_output a || is_other_output a.

(** AccessKind.py:75-91 *)
Definition get_access_from_string (value : string) : result access :=
  if String.eqb value "CONFIG_INPUT" then Ok CONFIG_INPUT
  else if String.eqb value "STREAM_INPUT" then Ok STREAM_INPUT
  else if String.eqb value "CONTAINER_FOR_INPUT" then Ok CONTAINER_FOR_INPUT
  else if String.eqb value "EXCLUDES_FROM_INPUT" then Ok EXCLUDES_FROM_INPUT
  else if String.eqb value "OTHER_INPUT" then Ok OTHER_INPUT
  else if String.eqb value "STREAM_OUTPUT" then Ok STREAM_OUTPUT
  else if String.eqb value "OTHER_OUTPUT" then Ok OTHER_OUTPUT
  else Raise GenericException.
