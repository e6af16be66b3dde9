(** * The library functions for generators of input-output information, with the identity of objects
    IOHelpers.v describes the values; here the information is an object on the heap that the calls
    change. *)
Require Import Verif.PyBase Verif.Access Verif.IOInfo Verif.IOHelpers Verif.Heap Verif.HeapApply.

(** [(WhichClassForArg.FILESTD, make_...())] and [(WhichClassForArg.ARGSTRING, None)]: every
    evaluation makes a new tuple and a new access, AccessKind.py:54-73. *)
Definition new_typer (t : typer) : hm hval :=
  match t with
  | FILESTD a => run! r := new_access a in alloc (typer_obj "filestd" r)
  | ARGSTRING => alloc (typer_obj "argstring" HNone)
  | PLAINSTRING => alloc (typer_obj "str" HNone)
  end.
(** [self.operand_list_typer = [t] * len(self.operand_list_typer)], for instance
    InputOutputInfo.py:67-69 *)
Definition set_all_h (t : typer) (self : hval) : hm unit :=
  run! l := get_attr self "operand_list_typer" in
  run! vs := items l in
  run! v := new_typer t in
  run! l' := alloc (OList (repeat v (length vs))) in
  set_attr self "operand_list_typer" l'.
(** [self.operand_list_typer[0]] *)
Definition get_first_h (self : hval) : hm hval :=
  run! l := get_attr self "operand_list_typer" in
  run! vs := items l in
  match vs with [] => hthrow IndexError | v :: _ => hret v end.
(** [self.operand_list_typer[-1]] *)
Definition get_last_h (self : hval) : hm hval :=
  run! l := get_attr self "operand_list_typer" in
  run! vs := items l in
  match vs with [] => hthrow IndexError | v :: vs' => hret (last vs' v) end.
(** [self.operand_list_typer[0] = v]: the list is changed in place. *)
Definition put_first_h (self v : hval) : hm unit :=
  run! l := get_attr self "operand_list_typer" in
  run! (a, o) := get_obj l in
  match o with
  | OList [] => hthrow IndexError
  | OList (_ :: vs) => put_obj a (OList (v :: vs))
  | _ => hthrow TypeError
  end.
(** [self.operand_list_typer[-1] = v] *)
Definition put_last_h (self v : hval) : hm unit :=
  run! l := get_attr self "operand_list_typer" in
  run! (a, o) := get_obj l in
  match o with
  | OList [] => hthrow IndexError
  | OList vs => put_obj a (OList (removelast vs ++ [v]))
  | _ => hthrow TypeError
  end.
(** InputOutputInfo.py:111-115 *)
Definition set_first_h (t : typer) (self : hval) : hm unit := run! v := new_typer t in put_first_h self v.
(** InputOutputInfo.py:101-105 *)
Definition set_last_h (t : typer) (self : hval) : hm unit := run! v := new_typer t in put_last_h self v.
(** InputOutputInfo.py:82-85 *)
Definition set_but_last_h (t : typer) (self : hval) : hm unit :=
  run! original := get_last_h self in run! _ := set_all_h t self in put_last_h self original.
(** InputOutputInfo.py:90-99 *)
Definition set_but_first_h (t : typer) (self : hval) : hm unit :=
  run! original := get_first_h self in run! _ := set_all_h t self in put_first_h self original.

(** InputOutputInfo.py:44-52 and 54-62 *)
Definition set_implicit_h (attribute : string) (d : std) (a : access) (value : bool) (self : hval) : hm unit :=
  if value then
    run! fd := alloc (OInst "StdDescriptor" [("name", HStd d)]) in
    run! r := new_access a in
    run! v := get_from_original_stddescriptor_with_ioinfo_h fd r in
    set_attr self attribute v
  else hret tt.
Definition set_implicit_use_of_stdin_h : bool -> hval -> hm unit := set_implicit_h "implicit_use_of_streaming_input" STDIN STREAM_INPUT.
Definition set_implicit_use_of_stdout_h : bool -> hval -> hm unit := set_implicit_h "implicit_use_of_streaming_output" STDOUT STREAM_OUTPUT.

(** InputOutputInfoGenerator_Interface.py:92-150, which forward to the information [self] *)
Definition call_io_h (cmd_inv : hval) (k : io_helper) (self : hval) : hm unit :=
  match k with
  | Stdin v => set_implicit_use_of_stdin_h v self
  | Stdout v => set_implicit_use_of_stdout_h v self
  | NoOperandsStdin =>
      run! l := get_attr cmd_inv "operand_list" in
      run! vs := items l in
      if Nat.eqb (length vs) 0 then set_implicit_use_of_stdin_h true self else hret tt
  | AllStreamIn | ButLastStreamIn | ButFirstStreamIn => hret tt
  | AllStreamOut => set_all_h (FILESTD STREAM_OUTPUT) self
  | AllOtherIn => set_all_h (FILESTD OTHER_INPUT) self
  | AllOtherOut => set_all_h (FILESTD OTHER_OUTPUT) self
  | ButLastOtherIn => set_but_last_h (FILESTD OTHER_INPUT) self
  | ButFirstStreamOut => set_but_first_h (FILESTD STREAM_OUTPUT) self
  | ButFirstOtherIn => set_but_first_h (FILESTD OTHER_INPUT) self
  | LastStreamOut => set_last_h (FILESTD STREAM_OUTPUT) self
  | LastOtherOut => set_last_h (FILESTD OTHER_OUTPUT) self
  | AllConfigString | AllArgString => set_all_h ARGSTRING self
  | FirstConfigString => set_first_h ARGSTRING self
  | FirstConfigFile => set_first_h (FILESTD CONFIG_INPUT) self
  end.
Fixpoint call_ios_h (cmd_inv : hval) (ks : list io_helper) (self : hval) : hm unit :=
  match ks with
  | [] => hret tt
  | k :: ks' => run! _ := call_io_h cmd_inv k self in call_ios_h cmd_inv ks' self
  end.
(** InputOutputInfoGenerator_Interface.py:25-35 and 44-45: a generator for the invocation is made,
    [generate_info] makes the calls, and the information is applied to the invocation *)
Definition generate_h (flagoption_list_typer cmd_inv : hval) (ks : list io_helper) : hm hval :=
  run! l := get_attr cmd_inv "operand_list" in
  run! vs := items l in
  run! self := new_io_info_h flagoption_list_typer (length vs) HNone HNone in
  run! _ := call_ios_h cmd_inv ks self in
  apply_io_info_h self cmd_inv.
