(** * Theorems about the records of the earlier annotation language (C81) *)
From Coq Require Import NArith.
Require Import Verif.PyBase Verif.JsonData Verif.Parser Verif.SpecIO Verif.SpecPara Verif.SpecJson Verif.ShippedData Verif.OldText Verif.SpecOld
  Verif.OldFacts Verif.IOVars Verif.SpecSem Verif.SpecVars Verif.ParaProps Verif.Transformers Verif.SemRun Verif.SemProps Verif.SemSystem Verif.P_Sem.

(** ** C81 *)
(** Every file of the directory is a JSON document with a record. *)
Theorem C81_readable : forall fn t, In (fn, t) old_texts ->
  exists v name cs, document v t /\ record_of v = Some (name, cs) /\ old_record fn name cs.
Proof.
  intros fn t I. assert (J := in_map read_record _ _ I). rewrite old_table_reads in J. apply in_map_iff in J. destruct J as (r & E & J).
  unfold read_record in E. cbn [fst snd] in E. destruct (Json.loads t) as [v|e] eqn:L; [|discriminate].
  destruct (record_of v) as [[n cs]|] eqn:R; [|discriminate]. exists v, n, cs.
  assert (D : document v t) by now apply JsonFacts.loads_iff. repeat split; auto. exists t, v. auto.
Qed.
Print Assumptions C81_readable.
(** The records classify exactly the invocations of the commands they name, each in one way. *)
Theorem C81_one_class : forall inv,
  ((exists k, old_class inv k) <-> In (cmd_name inv) old_commands) /\
  (forall k k', old_class inv k -> old_class inv k' -> k = k').
Proof.
  intros inv. split; [split|].
  - intros (k & C). exact (class_command _ _ C).
  - intros I. destruct (one_class _ I) as (k & C & _). eauto.
  - intros k k' C C'. destruct (one_class _ (class_command _ _ C)) as (k0 & _ & U). rewrite (U _ C). symmetry. auto.
Qed.
Print Assumptions C81_one_class.
Example C81_one_class_case :
  old_class (mkInv "grep" [Flag "-r"] ["x"; "d"]) "side-effects" /\ old_class (mkInv "grep" [Flag "-r"] ["x"]) "stateless" /\
  length old_texts = 85 /\ ~ In "mv" old_commands.
Proof.
  split; [|split; [|split]].
  - apply old_class_iff. eexists. split; [vm_compute; reflexivity|].
    apply as_later; [intros (n & [<- |[]] & (fo & [<- |[]] & E)); discriminate|]. apply as_later; [discriminate|].
    apply (as_here _ (mkCase _ "side-effects")). exists "-r". split; [cbn; auto|]. eexists. split; [left; reflexivity|reflexivity].
  - apply old_class_iff. eexists. split; [vm_compute; reflexivity|].
    apply as_later; [intros (n & [<- |[]] & (fo & [<- |[]] & E)); discriminate|]. now apply (as_here _ (mkCase _ "stateless")).
  - reflexivity.
  - vm_compute. intuition discriminate.
Qed.
(** All classes are those of the README but for two spellings, used for grep, pandoc and sha256sum. *)
Theorem C81_documented_partial : forall inv k, old_class inv k ->
  In k documented \/ (k = "side-effects" /\ cmd_name inv = "grep") \/ (k = "non-pure" /\ In (cmd_name inv) ["pandoc"; "sha256sum"]).
Proof.
  intros inv k (fn & cs & R & A). apply old_record_iff in R. destruct (assigned_in _ _ _ A) as (c & I & <-).
  assert (F : forallb (fun x => forallb (fun c => mem (c_class c) documented ||
      (String.eqb (c_class c) "side-effects" && String.eqb (snd (fst x)) "grep") ||
      (String.eqb (c_class c) "non-pure" && mem (snd (fst x)) ["pandoc"; "sha256sum"])) (snd x)) old_table = true) by (vm_compute; reflexivity).
  rewrite forallb_forall in F. specialize (F _ R). cbn [fst snd] in F. rewrite forallb_forall in F. specialize (F _ I).
  apply orb_prop in F. destruct F as [F|F].
  - apply orb_prop in F. destruct F as [F|F]; [left; now apply ParserFacts.mem_In|].
    apply andb_prop in F. destruct F as (F & G). apply String.eqb_eq in F, G. auto.
  - apply andb_prop in F. destruct F as (F & G). apply String.eqb_eq in F. apply ParserFacts.mem_In in G. auto.
Qed.
Print Assumptions C81_documented_partial.
Theorem C81_documented_refuted : exists inv k, old_class inv k /\ ~ In k documented.
Proof.
  exists (mkInv "pandoc" [] []), "non-pure". split; [|vm_compute; intuition discriminate].
  apply old_class_iff. eexists. split; [vm_compute; reflexivity|]. now apply (as_here _ (mkCase _ "non-pure")).
Qed.
Print Assumptions C81_documented_refuted.
(** A record is about the command its file is named after, possibly with the ending of a script, but for two files. *)
Theorem C81_file_names : forall fn name cs, old_record fn name cs ->
  (exists stem ending, fn = stem +++ ".json" /\ name = stem +++ ending /\ In ending [""; ".sh"; ".js"]) \/
  (fn = "resize.json" /\ name = "comm") \/ (fn = "xxd.json" /\ name = "readelf").
Proof.
  intros fn name cs R. apply old_record_iff in R.
  assert (F : forallb (fun x => existsb (fun e => String.eqb (snd (fst x) +++ ".json") (String.substring 0 (String.length (fst (fst x)) - 5) (fst (fst x)) +++ e +++ ".json") &&
      String.eqb (fst (fst x)) (String.substring 0 (String.length (fst (fst x)) - 5) (fst (fst x)) +++ ".json") &&
      String.eqb (snd (fst x)) (String.substring 0 (String.length (fst (fst x)) - 5) (fst (fst x)) +++ e)) [""; ".sh"; ".js"] ||
      (String.eqb (fst (fst x)) "resize.json" && String.eqb (snd (fst x)) "comm") ||
      (String.eqb (fst (fst x)) "xxd.json" && String.eqb (snd (fst x)) "readelf")) old_table = true) by (vm_compute; reflexivity).
  rewrite forallb_forall in F. specialize (F _ R). cbn [fst snd] in F. apply orb_prop in F. destruct F as [F|F].
  - apply orb_prop in F. destruct F as [F|F].
    + left. apply existsb_exists in F. destruct F as (e & I & F). apply andb_prop in F. destruct F as (F & G). apply andb_prop in F. destruct F as (_ & F).
      apply String.eqb_eq in F, G. eauto 6.
    + right. left. apply andb_prop in F. destruct F as (F & G). apply String.eqb_eq in F, G. auto.
  - right. right. apply andb_prop in F. destruct F as (F & G). apply String.eqb_eq in F, G. auto.
Qed.
Print Assumptions C81_file_names.

(** Exactly these invocations were parallelizable and no longer are, *)
Theorem C81_lost_iff : forall inv, lost inv <-> old_parallel inv /\ ~ has_plan inv.
Proof. exact lost_iff. Qed.
Print Assumptions C81_lost_iff.
(** and exactly these are now but were not. *)
Theorem C81_gained_iff : forall inv, gained inv <-> has_plan inv /\ ~ old_parallel inv.
Proof. exact gained_iff. Qed.
Print Assumptions C81_gained_iff.
(** So records and generators agree exactly on the others. *)
Theorem C81_agree_iff : forall inv, (old_parallel inv <-> has_plan inv) <-> ~ lost inv /\ ~ gained inv.
Proof.
  intros inv. rewrite lost_iff, gained_iff.
  assert (D : old_parallel inv \/ ~ old_parallel inv).
  { destruct (in_dec string_dec (cmd_name inv) old_commands) as [I|I].
    - destruct (one_class _ I) as (k & C & U). destruct (par k) eqn:P.
      + left. apply par_iff in P. destruct P as [-> | ->]; [now left|now right].
      + right. intros [H|H]; rewrite <- (U _ H) in P; discriminate.
    - right. intros [H|H]; apply I; eapply class_command; exact H. }
  assert (E : has_plan inv \/ ~ has_plan inv).
  { destruct (ParaFacts.view (ParaGen.get_parallelizability_info shipped_dir inv)) as [[[|p l] b]|] eqn:V; pose proof (ParaFacts.annotated_view shipped_dir inv) as A; rewrite V in A.
    - right. intros (l & b' & A' & N). apply (ParaFacts.annotated_fun _ _ _ _ A) in A'. congruence.
    - left. exists (p :: l), b. split; [exact A|discriminate].
    - right. intros (l & b' & A' & N). apply (ParaFacts.annotated_fun _ _ _ _ A) in A'. congruence. }
  tauto.
Qed.
Print Assumptions C81_agree_iff.
Example C81_cases : lost (mkInv "cat" [] ["f"]) /\ gained (mkInv "sed" [] ["s/a/b/"]) /\
  (old_parallel (mkInv "sort" [Flag "-r"] []) /\ has_plan (mkInv "sort" [Flag "-r"] [])) /\ lost (mkInv "sort" [Flag "-u"] []) /\
  (~ old_parallel (mkInv "wc" [Flag "-l"] []) /\ ~ has_plan (mkInv "wc" [Flag "-l"] [])).
Proof.
  assert (N : forall n fl ops m, ~ In m (map fo_name fl) -> ~ uses (mkInv n fl ops) m).
  { intros n fl ops m H (fo & I & <-). apply H. now apply in_map. }
  split; [|split; [|split; [|split]]].
  - apply lost_cat; [reflexivity|]. apply N. intros [].
  - apply (gained_sed _ "s/a/b/" []); [reflexivity..|]. right. left. now exists "/a/b/".
  - split.
    + apply old_allows_iff, oa_sort; [cbn; auto|]. apply N. cbn. intuition discriminate.
    + apply new_allows_iff, na_sort; [cbn; auto|]. intros (n & I & fo & [<- |[]] & <-). vm_compute in I. intuition discriminate.
  - apply lost_sort; [cbn; auto| |].
    + apply N. cbn. intuition discriminate.
    + exists "-u". split; [cbn; tauto|]. eexists. split; [left; reflexivity|reflexivity].
  - rewrite old_allows_iff, new_allows_iff. split.
    + intros [K|K|K|K|K|K|K|K|K]; try discriminate; vm_compute in K; intuition discriminate.
    + intros [K|K|K|? ? K|K|K]; try discriminate; vm_compute in K; intuition discriminate.
Qed.

(** What the records say about cut is right exactly if a newline is given as delimiter (with fields) when, and only when, -z,
    --help or --version is given: the records warn of the former, which is harmless, and not of the latter. *)
Theorem C81_cut_judged : forall text inv p c v dir,
  parse shipped_dir text = Ok inv -> cmd_name inv = "cut" -> SpecSem.offered shipped_dir inv p ->
  invocation_of inv c -> reads_one c v -> tight c ->
  (old_parallel inv <->
   (forall B o, is_record_wise o "cut" cut_names B -> is_cat B -> parallel_ok B dir p c v (fun n => n <> 0) (fun _ => True))) <->
  (uses_any inv ["-z"; "--help"; "--version"] <->
   (exists n, In n ["-d"; "--delimiter"] /\ In (Option_ n (String "010"%char "")) (flag_option_list inv)) /\ uses_any inv ["-f"; "--fields"]).
Proof.
  intros text inv p c v dir PA C OF IN R T. rewrite (C51_cut_iff text inv p c v dir PA C OF IN R T).
  assert (O : old_parallel inv <->
    ~ ((exists n, In n ["-d"; "--delimiter"] /\ In (Option_ n (String "010"%char "")) (flag_option_list inv)) /\ uses_any inv ["-f"; "--fields"])).
  { rewrite old_allows_iff. split; [|now apply oa_cut].
    intros [K|K|K|K|K|K|K|K|K]; try (rewrite C in K; discriminate); [rewrite C in K; vm_compute in K; intuition discriminate| |assumption].
    rewrite C in K. vm_compute in K. intuition discriminate. }
  rewrite O. destruct (uses_any_dec inv ["-z"; "--help"; "--version"]), (value_dec inv ["-d"; "--delimiter"] (String "010"%char "")),
    (uses_any_dec inv ["-f"; "--fields"]); tauto.
Qed.
Print Assumptions C81_cut_judged.
Definition cut_nl : civ := filter_civ "cut" [FOptIO "-d" (PArg (String "010"%char "")); FOptIO "-f" (PArg "1")] [].
Example C81_cut_case : exists inv, parse shipped_dir "cut -d '
' -f 1" = Ok inv /\ invocation_of inv cut_nl /\ gained inv /\
  forall p, In p (stateless SpecPara.concat) ->
    ~ (old_parallel inv <-> forall B o, is_record_wise o "cut" cut_names B -> is_cat B -> parallel_ok B shipped_dir p cut_nl 1 (fun n => n <> 0) (fun _ => True)).
Proof.
  assert (P : parse shipped_dir "cut -d '
' -f 1" = Ok (mkInv "cut" [Option_ "-d" (String "010"%char ""); Option_ "-f" "1"] [])) by (vm_compute; reflexivity).
  assert (D : (exists n, In n ["-d"; "--delimiter"] /\ In (Option_ n (String "010"%char "")) [Option_ "-d" (String "010"%char ""); Option_ "-f" "1"]) /\
    uses_any (mkInv "cut" [Option_ "-d" (String "010"%char ""); Option_ "-f" "1"] []) ["-f"; "--fields"]).
  { split; [exists "-d"; cbn; auto|]. exists "-f". split; [cbn; auto|]. exists (Option_ "-f" "1"). cbn. auto. }
  eexists. split; [exact P|]. split; [split; reflexivity|]. split; [apply gained_cut; [reflexivity|apply D..]|].
  intros p I. rewrite (C81_cut_judged _ _ p cut_nl 1 shipped_dir P eq_refl).
  - intros H. apply H in D. destruct D as (n & J & U). apply uses_in in U. cbn in J, U. intuition subst; discriminate.
  - eapply offered_first; [vm_compute; reflexivity|exact I].
  - split; reflexivity.
  - now apply filter_civ_reads.
  - now apply filter_civ_tight.
Qed.
