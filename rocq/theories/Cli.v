(** * Model of pash_annotations/annotation_cli.py
    The argument parser (lines 13-23) is in Argparse.v. The text of the result is
    built from [str] of the objects; [render] stands for any way of printing them (Text.v has the actual one). *)
Require Import Verif.PyBase Verif.JsonData Verif.Parser Verif.IOInfo Verif.IOGen Verif.ParaTypes Verif.ParaGen.

(** What is found under a path; a file with the rights to read and write it. *)
Inductive node : Type :=
| Absent (creatable : bool)
| Directory
| File (readable writable : bool) (content : string).
Definition file_system : Type := string -> node.
(** The file system and the texts printed so far *)
Record world : Type := mkWorld { files : file_system; printed : list string }.

(** [open(path)]: raises an [IOError] or not *)
Definition open_read (fs : file_system) (path : string) : result unit :=
  match fs path with
  | File true _ _ => Ok tt
  | Absent _ => Raise FileNotFoundError
  | _ => Raise IOError_
  end.
(** annotation_cli.py:34-39: [except IOError], which is the same as [except OSError] *)
Definition is_io_error (e : exn) : bool :=
  match e with FileNotFoundError | IOError_ => true | _ => false end.
Definition can_be_read (fs : file_system) (path : string) : result bool :=
  match open_read fs path with
  | Ok _ => Ok true
  | Raise e => if is_io_error e then Ok false else Raise e
  end.
Definition fs_set (fs : file_system) (path : string) (n : node) : file_system :=
  fun p => if String.eqb p path then n else fs p.
(** [open(path, "w+")], [write], [close] *)
Definition overwrite (fs : file_system) (path text : string) : result file_system :=
  match fs path with
  | File true true _ => Ok (fs_set fs path (File true true text))
  | Absent true => Ok (fs_set fs path (File true true text))
  | Absent false | Directory | File _ _ _ => Raise IOError_
  end.
Definition print (w : world) (text : string) : world := mkWorld (files w) (printed w ++ [text]).

(** annotation_cli.py:26-27: the part of the path of the script up to the last slash
    ([rpartition]) *)
Fixpoint has_slash (s : string) : bool :=
  match s with EmptyString => false | String c s' => Ascii.eqb c "/" || has_slash s' end.
Fixpoint script_prefix (script_path : string) : string :=
  match script_path with
  | EmptyString => EmptyString
  | String c s => if Ascii.eqb c "/" || has_slash s then String c (script_prefix s) else EmptyString
  end.

(** annotation_cli.py:52-62 *)
Inductive io_section : Type :=
| SideEffectful
| OtherOutputs
| Applied (c : invocation_io).
Record report : Type := mkReport
  { r_command : string; r_invocation : invocation; r_io : io_section; r_para : para_info }.

(** annotation_cli.py:44-66 *)
Definition make_report (dir : data_dir) (cmd_invocation : string) : result report :=
  let! command_invocation := parse dir cmd_invocation in
  let! io := match get_input_output_info dir command_invocation with
             | None => Ok SideEffectful
             | Some io_info =>
                 if has_other_outputs io_info then Ok OtherOutputs
                 else let! c := apply_io_info io_info command_invocation in Ok (Applied c)
             end in
  let para := match get_parallelizability_info dir command_invocation with
              | None => new_para_info
              | Some para_info => para_info
              end in
  Ok (mkReport cmd_invocation command_invocation io para).

(** annotation_cli.py:41 *)
Definition exists_message : string :=
  "There exists a file on the provided path so the result will be output (only). ".

(** annotation_cli.py:25-73 *)
Definition cli (render : report -> string) (dir : data_dir) (script_path : string)
    (where_to_save : option string) (cmd_invocation : string) (w : world) : world * result unit :=
  let path_of f := script_prefix script_path +++ f in
  let try_to_read :=
    match where_to_save with
    | None => Ok false
    | Some f => can_be_read (files w) (path_of f)
    end in
  match try_to_read with
  | Raise e => (w, Raise e)
  | Ok shall_we_write_to_file =>
  let w := match where_to_save with
           | Some _ => if negb shall_we_write_to_file then print w exists_message else w
           | None => w
           end in
  match make_report dir cmd_invocation with
  | Raise e => (w, Raise e)
  | Ok r =>
      match where_to_save with
      | Some f =>
          if shall_we_write_to_file then
            match overwrite (files w) (path_of f) (render r) with
            | Ok fs => (mkWorld fs (printed w), Ok tt)
            | Raise e => (w, Raise e)
            end
          else (print w (render r), Ok tt)
      | None => (print w (render r), Ok tt)
      end
  end
  end.
