(** * What registering a command means *)
Require Import Verif.PyBase Verif.JsonData Verif.Parser Verif.Registry.

(** The two kinds of information *)
Inductive kind : Type := InputOutput | Parallelizability.
(** The class and the module the code looks for *)
Definition class_name (k : kind) (r : string) : string :=
  match k with
  | InputOutput => "InputOutputInfoGenerator" +++ r
  | Parallelizability => "ParallelizabilityInfoGenerator" +++ r
  end.
Definition module_name (k : kind) (r : string) : string :=
  "pash_annotations.annotation_generation.annotation_generators." +++ class_name k r.
(** The file the guide tells to write for parallelizability, docs/adding-annotations.md:36 *)
Definition documented_module (r : string) : string :=
  "pash_annotations.annotation_generation.annotation_generators.ParallelizabilityInfo" +++ r.

(** The module can be imported and defines the class. *)
Definition class_in {cls} (p : package cls) (k : kind) (r : string) (c : cls) : Prop :=
  exists names, p (module_name k r) = Present names /\ dict_find names (class_name k r) = Some c.
(** A file that Python says it cannot find: it, or a module it imports, is not there. *)
Definition not_found {cls} (p : package cls) (m : string) : Prop := p m = Absent \/ p m = Broken.
(** Importing does not stop the package. *)
Definition tolerated {cls} (p : package cls) (k : kind) (r : string) : Prop :=
  not_found p (module_name k r) \/ exists c, class_in p k r c.
(** A name that can be part of an identifier *)
Definition plain_name (r : string) : Prop :=
  forall a, In a (list_ascii_of_string r) -> let n := nat_of_ascii a in
    (65 <= n <= 90 \/ 97 <= n <= 122 \/ 48 <= n <= 57 \/ n = 95)%nat.
(** Some command has the representation. *)
Definition registered (table : dict string) (r : string) : Prop := exists cmd, In (cmd, r) table.
(** The representation the code uses for a command: that of the table or the word None *)
Definition used_for (table : dict string) (cmd r : string) : Prop :=
  dict_find table cmd = Some r \/ (dict_find table cmd = None /\ r = "None").

(** What the package answers: nothing when it cannot be imported *)
Definition answer {cls info} (run : cls -> invocation -> result info) (k : kind) (p : package cls) (table : dict string) (inv : invocation) : option info :=
  match import_generators p table with
  | Imported g => info_from run (match k with InputOutput => IO_PREFIX | Parallelizability => PARA_PREFIX end) g table inv
  | ImportFails _ => None
  end.
(** A package with one more module *)
Definition with_module {cls} (p : package cls) (m : string) (s : module_state cls) : package cls :=
  fun m' => if String.eqb m' m then s else p m'.
(** Two packages agree on what a table needs. *)
Definition agree_on {cls} (p p' : package cls) (table : dict string) : Prop :=
  forall r k, registered table r -> p (module_name k r) = p' (module_name k r).
(** Two directories of data files that differ at most in the file of a command *)
Definition same_but (dir dir' : data_dir) (x : string) : Prop := forall f, f <> x +++ ".json" -> dir' f = dir f.
