(** * Pipelines of parallelized commands
    What it means to run a pipeline in sequence, stage by stage in parallel, and with whole
    pipelines running side by side on the parts of the input.  The reading of C76. *)
Require Import Verif.PyBase Verif.JsonData Verif.Parser Verif.Access Verif.IOInfo Verif.IOVars
  Verif.Transformers Verif.ParaTypes Verif.ParaGen Verif.MapperAgg Verif.SpecLists Verif.SpecIO Verif.SpecPara Verif.SpecVars
  Verif.ShippedData Verif.SpecSem Verif.SpecSem2 Verif.SpecSem4 Verif.SpecSem6.

(** A stage: the invocation, the stream it reads, the parallelizer chosen for it, how many
    results may be combined at a time, and the inputs considered. *)
Record stage : Type := mkStage
  { st_civ : civ; st_in : Z; st_par : parallelizer; st_arity : nat -> Prop; st_domain : string -> Prop }.
(** The output of stage [g] for an input *)
Definition out (B : behaviour) (s : store) (g : stage) (seed : nat) (x : string) : string :=
  run B seed (st_civ g) (put (st_in g) x s).
Definition sound (B : behaviour) (dir : data_dir) (g : stage) : Prop :=
  parallel_ok B dir (st_par g) (st_civ g) (st_in g) (st_arity g) (st_domain g).

(** One process after the other; each may behave differently from run to run. *)
Inductive sequential (B : behaviour) (s : store) : list stage -> string -> string -> Prop :=
| seq_nil x : sequential B s [] x x
| seq_cons g l x z seed : sequential B s l (out B s g seed x) z -> sequential B s (g :: l) x z.
(** Every stage gets input it is considered for. *)
Definition within (B : behaviour) (s : store) (l : list stage) (x : string) : Prop :=
  forall front g rest y, l = front ++ g :: rest -> sequential B s front x y -> st_domain g y.

(** ** Stage by stage: the results of each stage are combined before they are cut again. *)
Inductive staged (B : behaviour) (dir : data_dir) (s : store) : list stage -> string -> string -> Prop :=
| stg_nil x : staged B dir s [] x x
| stg_cons g l x y z t s' :
    fresh_plan (st_civ g) t -> arity (st_arity g) t ->
    (forall v, ~ In v (plan_vars t) -> s' v = put (st_in g) x s v) ->
    distributes (p_splitter (st_par g)) x (map s' (parts t)) ->
    evaluates B dir (st_par g) (st_civ g) s' t y ->
    staged B dir s l y z -> staged B dir s (g :: l) x z.

(** ** Side by side: every part goes through the mappers of all the stages, and the results of
    the last stage only are combined. *)
Inductive branch (B : behaviour) (s : store) : list stage -> string -> string -> Prop :=
| br_nil x : branch B s [] x x
| br_cons g l x z v w m seed :
    fresh_plan (st_civ g) (Leaf v w seed) ->
    get_actual_mapper (st_par g) (st_civ g) v w [] = Ok (Some m) -> writes m w ->
    branch B s l (run B seed m (put v x s)) z -> branch B s (g :: l) x z.
(** The plan of the last stage reads the results of the branches; what is in the place of the
    stream of the original is not read by the plan (C43). *)
Definition fused (B : behaviour) (dir : data_dir) (s : store) (front : list stage) (g : stage) (t : plan) (pieces : list string) (r : string) : Prop :=
  exists ys s', Forall2 (branch B s front) pieces ys /\
    map s' (parts t) = ys /\
    (forall v, ~ In v (plan_vars t) -> s' v = put (st_in g) (joined ys) s v) /\
    evaluates B dir (st_par g) (st_civ g) s' t r.
(** A stage that leaves cuts between lines where they are *)
Definition keeps_lines (B : behaviour) (s : store) (g : stage) : Prop :=
  forall seed a b, ends_line a -> st_domain g (a +++ b) -> ends_line (out B s g seed a).
(** A stage that reads one stream, parallelized soundly *)
Definition plain (B : behaviour) (dir : data_dir) (g : stage) : Prop :=
  reads_one (st_civ g) (st_in g) /\ tight (st_civ g) /\ p_splitter (st_par g) <> INDIV_FILES /\ sound B dir g.
(** A stage whose results are concatenated *)
Definition concatenated (B : behaviour) (dir : data_dir) (g : stage) : Prop :=
  (exists dir0 inv, offered dir0 inv (st_par g)) /\ p_aggregator (st_par g) = SpecPara.concat /\
  plain B dir g /\ st_arity g = (fun n => n <> 0) /\ tail_closed (st_domain g).
(** A stage that prints one line for every line, as cut without -s does *)
Definition line_for_line (B : behaviour) (s : store) (g : stage) : Prop :=
  exists F, (forall l, has_char newline l = false -> has_char newline (F l) = false) /\
    forall seed x, out B s g seed x = unlines (map F (lines x)).

(** Invocations of cut, grep and sed with the shipped annotations and without the flags that
    change what a line is, for a system in which these commands do what their specifications
    say (C51, C59) *)
Inductive line_stage (B : behaviour) (g : stage) : Prop :=
| ls_cut text inv o :
    parse shipped_dir text = Ok inv -> cmd_name inv = "cut" -> offered shipped_dir inv (st_par g) ->
    invocation_of inv (st_civ g) -> reads_one (st_civ g) (st_in g) -> tight (st_civ g) ->
    ~ uses_any inv ["-z"; "--help"; "--version"] -> is_record_wise o "cut" cut_names B ->
    st_arity g = (fun n => n <> 0) -> st_domain g = (fun _ => True) -> line_stage B g
| ls_grep text inv o :
    parse shipped_dir text = Ok inv -> cmd_name inv = "grep" -> offered shipped_dir inv (st_par g) ->
    invocation_of inv (st_civ g) -> reads_one (st_civ g) (st_in g) -> tight (st_civ g) ->
    ~ uses_any inv grep_unsafe -> is_grep o B ->
    st_arity g = (fun n => n <> 0) -> st_domain g = (fun x => is_text x \/ uses inv "-a") -> line_stage B g
| ls_sed text inv o script_text ops sc :
    parse shipped_dir text = Ok inv -> cmd_name inv = "sed" -> offered shipped_dir inv (st_par g) ->
    invocation_of inv (st_civ g) -> reads_one (st_civ g) (st_in g) -> tight (st_civ g) ->
    v_ops (st_civ g) = PArg script_text :: ops -> read_script script_text = Some sc -> line_local sc ->
    ~ uses_any inv ["-e"; "-f"; "--in-place"; "--debug"; "--posix"; "-z"; "--help"; "--version"] -> is_sed o B ->
    st_arity g = (fun n => n <> 0) -> st_domain g = (fun _ => True) -> line_stage B g.
(** tr keeps the ends of lines: what is left of a line that ends has an end. *)
Definition tr_keeps (o : tr_oracle) (fl : list wflag) (ops : list word) : Prop :=
  forall a, tr_deletes o fl ops a = false -> a = newline \/ tr_deletes o fl ops newline = true -> tr_image o fl ops a = newline.
