(** * The typers of flags and options, with the identity of objects
    IOGen.v describes the values.  Here the typers are objects: the dictionary has one typer for a
    name, and the list refers to it once for each use of the option. *)
Require Import Verif.PyBase Verif.JsonData Verif.Parser Verif.Access Verif.IOInfo Verif.IOGen Verif.IOHelpers Verif.Heap Verif.HeapApply Verif.HeapIOHelpers.

(** InputOutputInfoGenerator_Interface.py:68-85, the body of the loop: the key and its value.  The
    access is made before the kind of argument is looked at (:75), AccessKind.py:75-91. *)
Definition option_class_h (e : option_entry) : hm (string * hval) :=
  run! name := hlift (match oe_names e with
                      | n :: _ => Ok n
                      | [] => match oe_arg e with OAStr s => Ok s | OAList _ => Raise TypeError end
                      end) in
  match oe_arg e with
  | OAList l =>
      match l with
      | ty :: ac :: _ =>
          run! a := hlift (get_access_from_string ac) in
          run! r := new_access a in
          run! t := alloc (if mem ty INDICATORS_FOR_FILENAMES then typer_obj "filestd" r else typer_obj "argstring" HNone) in
          hret (name, t)
      | _ => hthrow IndexError
      end
  | OAStr ty =>
      run! _ := hlift (assert_ (negb (mem ty INDICATORS_FOR_FILENAMES))) in
      run! t := alloc (typer_obj "argstring" HNone) in
      hret (name, t)
  end.
(** InputOutputInfoGenerator_Interface.py:63-86.  Simplification: the dictionary, which nobody but
    the caller in :53 sees and which is not kept, is not an object of the heap. *)
Definition get_dict_option_to_class_for_arg_h (dir : data_dir) (name : string) : hm (dict hval) :=
  run! j := hlift (get_json_data dir name) in
  run! es := hmap option_class_h (j_option j) in
  hret (fold_left (fun d p => PyBase.dict_set d (fst p) (snd p)) es []).
(** InputOutputInfoGenerator_Interface.py:54-60, the body of the loop *)
Definition flagoption_typer_h (d : dict hval) (flagoption : hval) : hm hval :=
  run! c := class_of flagoption in
  if is_class c "Flag" then alloc (typer_obj "str" HNone)
  else if is_class c "Option" then
    run! n := get_attr flagoption "option_name" in
    run! s := as_str n in
    hlift (PyBase.dict_get d s)
  else hthrow GenericException.
(** InputOutputInfoGenerator_Interface.py:47-61 *)
Definition get_flagoption_list_typer_h (dir : data_dir) (cmd_inv : hval) : hm hval :=
  run! name := get_cmd_name cmd_inv in
  run! d := get_dict_option_to_class_for_arg_h dir name in
  run! l := get_attr cmd_inv "flag_option_list" in
  run! vs := items l in
  run! ts := hmap (flagoption_typer_h d) vs in
  alloc (OList ts).
(** InputOutputInfoGenerator_Interface.py:26-35, the calls of [generate_info], and :44-45 *)
Definition generator_h (dir : data_dir) (cmd_inv : hval) (ks : list io_helper) : hm hval :=
  run! ft := get_flagoption_list_typer_h dir cmd_inv in
  generate_h ft cmd_inv ks.
