(** * Reading of the theorems about applying input-output information to objects *)
Require Import Verif.PyBase Verif.Parser Verif.Access Verif.IOInfo Verif.IOVars Verif.Heap Verif.SpecHeap Verif.HeapApply.

(** What a typer, a flag or option and an operand stand for *)
Definition typer_is (h : heap) (x : hval) (t : typer) : Prop :=
  exists l w r, x = HRef l /\ nth_error h l = Some (typer_obj w r) /\
    match t with
    | FILESTD a => w = "filestd" /\ view_access h r = Some a
    | ARGSTRING => w = "argstring" /\ r = HNone
    | PLAINSTRING => w = "str" /\ r = HNone
    end.
Definition flagoption_is (h : heap) (x : hval) (f : flag_option) : Prop :=
  exists l, x = HRef l /\
    match f with
    | Flag n => nth_error h l = Some (OInst "Flag" [("flag_name", HStr n)])
    | Option_ n a => nth_error h l = Some (OInst "Option" [("option_name", HStr n); ("option_arg", HStr a)])
    end.
Definition operand_is (h : heap) (x : hval) (s : string) : Prop :=
  exists l, x = HRef l /\ nth_error h l = Some (OInst "Operand" [("name", HStr s)]).
Definition resource_is (h : heap) (x : hval) (r : option resource) : Prop :=
  match r with None => x = HNone | Some r => view_val h x = Some (PRes r) end.
Definition list_is {A} (is : heap -> hval -> A -> Prop) (h : heap) (x : hval) (vs : list hval) (l : list A) : Prop :=
  exists a, x = HRef a /\ nth_error h a = Some (OList vs) /\ Forall2 (is h) vs l.
(** An invocation as parsed, with its flags and options [fos] and operands [ops] *)
Definition invocation_is (h : heap) (x : hval) (fos ops : list hval) (inv : invocation) : Prop :=
  exists l fl ol, x = HRef l /\
    nth_error h l = Some (OInst "CommandInvocationInitial"
      [("cmd_name", HStr (cmd_name inv)); ("flag_option_list", fl); ("operand_list", ol)]) /\
    list_is flagoption_is h fl fos (flag_option_list inv) /\ list_is operand_is h ol ops (operand_list inv).
(** The information, with its typers *)
Definition info_is (h : heap) (x : hval) (fts ots : list hval) (i o : hval) (info : io_info) : Prop :=
  exists l ft ot, x = HRef l /\
    nth_error h l = Some (OInst "InputOutputInfo"
      [("flagoption_list_typer", ft); ("operand_list_typer", ot);
       ("implicit_use_of_streaming_input", i); ("implicit_use_of_streaming_output", o)]) /\
    list_is typer_is h ft fts (flagoption_list_typer info) /\ list_is typer_is h ot ots (operand_list_typer info) /\
    resource_is h i (implicit_input info) /\ resource_is h o (implicit_output info).
(** The invocation with input-output information *)
Definition arg_value (a : io_arg) : pyval := match a with ArgString s => PArg s | Res r => PRes r end.
Definition flag_value (f : flag_option_io) : flag_el :=
  match f with FlagIO n => FFlag n | OptionIO n a => FOptIO n (arg_value a) end.
Definition invocation_io_is (h : heap) (x : hval) (c : invocation_io) : Prop :=
  exists l fl ol i o fos ops, x = HRef l /\
    nth_error h l = Some (OInst "CommandInvocationWithIO"
      [("cmd_name", HStr (io_cmd_name c)); ("flag_option_list", fl); ("operand_list", ol);
       ("implicit_use_of_streaming_input", i); ("implicit_use_of_streaming_output", o)]) /\
    list_is (fun h v f => view_flag h v = Some (flag_value f)) h fl fos (io_flag_option_list c) /\
    list_is (fun h v a => view_val h v = Some (arg_value a)) h ol ops (io_operand_list c) /\
    resource_is h i (io_implicit_input c) /\ resource_is h o (io_implicit_output c).

(** The old objects that a typer brings into the result: its access and what that refers to *)
Definition brought_by_typer (h : heap) (t : hval) (l : loc) : Prop :=
  exists k r, t = HRef k /\ nth_error h k = Some (typer_obj "filestd" r) /\ reaches h r l.
(** The object is an instance of the class. *)
Definition class_in (h : heap) (x : hval) (cls : string) : Prop :=
  exists l attrs, x = HRef l /\ nth_error h l = Some (OInst cls attrs).
(** A flag is taken over as it is; of an option only the access of its typer. *)
Definition brought_by_flagoption (h : heap) (fo t : hval) (l : loc) : Prop :=
  (class_in h fo "Flag" /\ reaches h fo l) \/ (class_in h fo "Option" /\ brought_by_typer h t l).
(** The old objects that are part of the result *)
Definition shared (h : heap) (fos fts ops ots : list hval) (i o : hval) (l : loc) : Prop :=
  (exists fo t, In (fo, t) (combine fos fts) /\ brought_by_flagoption h fo t l) \/
  (exists op t, In (op, t) (combine ops ots) /\ brought_by_typer h t l) \/
  reaches h i l \/ reaches h o l.

(** ** Which objects the elements of the result refer to *)
(** The value made with the typer is new and has the very access of the typer. *)
Definition keeps_access (h : heap) (t : hval) (h' : heap) (v : hval) : Prop :=
  forall k r, t = HRef k -> nth_error h k = Some (typer_obj "filestd" r) ->
  exists l c n, v = HRef l /\ length h <= l /\ In c ["FileNameWithIOInfo"; "StdDescriptorWithIOInfo"] /\
    nth_error h' l = Some (OInst c [("name", n); ("access", r)]).
(** A flag of the result is the very flag of the invocation, an option is new, with a new argument. *)
Definition keeps_flagoption (h : heap) (fo t : hval) (h' : heap) (v : hval) : Prop :=
  (class_in h fo "Flag" -> v = fo) /\
  (class_in h fo "Option" -> exists l n a, v = HRef l /\ length h <= l /\
    nth_error h' l = Some (OInst "OptionWithIO" [("option_name", n); ("option_arg", a)]) /\ keeps_access h t h' a).
(** The flags and options [fos'] and the operands [ops'] of the result *)
Definition result_lists (h : heap) (x : hval) (fos' ops' : list hval) : Prop :=
  exists l attrs fl ol, x = HRef l /\ nth_error h l = Some (OInst "CommandInvocationWithIO" attrs) /\
    assoc_s attrs "flag_option_list" = Some (HRef fl) /\ nth_error h fl = Some (OList fos') /\
    assoc_s attrs "operand_list" = Some (HRef ol) /\ nth_error h ol = Some (OList ops').
Definition keeps (h : heap) (fos fts ops ots : list hval) (h' : heap) (x : hval) : Prop :=
  exists fos' ops', result_lists h' x fos' ops' /\
    Forall2 (fun p v => keeps_flagoption h (fst p) (snd p) h' v) (combine fos fts) fos' /\
    Forall2 (fun p v => keeps_access h (snd p) h' v) (combine ops ots) ops'.
