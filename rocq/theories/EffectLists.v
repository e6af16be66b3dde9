(** * What the input/output information announces, command by command *)
Require Import Verif.PyBase Verif.JsonData Verif.Shlex Verif.Parser Verif.Access Verif.IOInfo Verif.IOGen Verif.ShippedData
  Verif.SpecShlex Verif.ShlexFacts Verif.SpecParser Verif.SpecIO Verif.IOShipped Verif.P_IO Verif.SpecGetopt Verif.GetoptFacts
  Verif.P_Getopt Verif.SpecEffects Verif.EffectFacts.
From Coq Require Import Lia.

Lemma keys_of name ks : In (name, ks) (
  [("cat", []); ("comm", []); ("cut", []); ("head", []); ("tail", []); ("wc", []); ("tr", []); ("seq", []); ("uniq", []); ("sed", []);
   ("tee", []); ("mkfifo", []); ("rm", []); ("xargs", [("-a", OTHER_INPUT)]); ("mv", [("-t", OTHER_OUTPUT)]);
   ("diff", [("-X", EXCLUDES_FROM_INPUT); ("-S", OTHER_INPUT); ("--from-file", STREAM_INPUT); ("--to-file", STREAM_INPUT)]);
   ("grep", [("-f", CONFIG_INPUT); ("--exclude-from", EXCLUDES_FROM_INPUT)]); ("awk", [("-f", CONFIG_INPUT)]);
   ("sort", [("-o", STREAM_OUTPUT); ("-T", OTHER_OUTPUT); ("--random-source", CONFIG_INPUT); ("--files0-from", CONTAINER_FOR_INPUT)])]) ->
  file_keys name ks = true.
Proof. intros I. exact (proj1 (forallb_forall _ _) keys_checked _ I). Qed.
Ltac keys := apply keys_of; cbn; repeat (first [left; reflexivity | right]).

Lemma strings l : map ArgString l = map arg_of (map (fun s => (None, s)) l).
Proof. rewrite map_map. reflexivity. Qed.
Lemma files a l : is_out a = false -> map (in_file a) l = map arg_of (map (fun s => (Some a, s)) l).
Proof. intros H. rewrite map_map. apply map_ext. intros s. unfold arg_of. cbn [fst snd]. now rewrite H. Qed.
Lemma outs a l : is_out a = true -> map (out_file a) l = map arg_of (map (fun s => (Some a, s)) l).
Proof. intros H. rewrite map_map. apply map_ext. intros s. unfold arg_of. cbn [fst snd]. now rewrite H. Qed.
Lemma touched a l : flat_map (fun x : option access * string => match fst x with Some a => [touch a (snd x)] | None => [] end)
  (map (fun s => (Some a, s)) l) = map (touch a) l.
Proof. induction l as [|x l IH]; cbn; [reflexivity|]. now rewrite IH. Qed.
Lemma untouched l : flat_map (fun x : option access * string => match fst x with Some a => [touch a (snd x)] | None => [] end)
  (map (fun s => (None, s)) l) = [].
Proof. induction l as [|x l IH]; cbn; auto. Qed.

Lemma keys_none name : In name ["cat"; "cut"; "head"; "tail"; "rm"; "mkfifo"] -> file_keys name [] = true.
Proof. intros I. cbn in I. repeat (destruct I as [<-|I]; [keys|]). destruct I. Qed.

(** What is announced, command by command. *)
Section Lists.
  Context (name s : string) (os : list found) (ops : list string) (inv : invocation) (c : invocation_io).
  Context (U : understood name s os ops inv c).
  Let L := understood_linked _ _ _ _ _ _ U.
  Let N : cmd_name inv = name := l_name _ _ _ _ _ L.
  Let W : with_io shipped_dir inv c := l_io _ _ _ _ _ L.
  Let O : operand_list inv = ops := l_ops _ _ _ _ _ L.

  Lemma list_cat e : In name ["cat"; "cut"; "head"; "tail"] ->
    (announced c e <-> In e (map input ops) \/ (ops = [] /\ e = ReadsStdin) \/ e = WritesStdout).
  Proof.
    intros I. pose proof W as H. apply C19_cat_cut_head_tail in H; [|now rewrite N]. destruct H as ((_ & _ & X) & A & B).
    rewrite O in *. rewrite files in X by reflexivity.
    rewrite (announced_iff _ _ _ _ _ [] _ _ _ e L (keys_none name ltac:(cbn in I |- *; tauto)) X A B).
    unfold announced_list. rewrite touched. cbn [flat_map]. rewrite app_nil_r. change (touch STREAM_INPUT) with input. tauto.
  Qed.
  Lemma list_wc e : name = "wc" ->
    given os "--files0-from" = false /\
    (announced c e <-> In e (map input ops) \/ (ops = [] /\ e = ReadsStdin) \/ e = WritesStdout).
  Proof.
    intros E. pose proof W as H. apply C19_wc in H; [|congruence]. destruct H as (G & (_ & _ & X) & A & B).
    rewrite O in *. rewrite files in X by reflexivity. split.
    { apply (given1_false _ _ _ _ _ L _ "--files0-from"); [rewrite E; vm_compute; reflexivity|exact G]. }
    rewrite (announced_iff _ _ _ _ _ [] _ _ _ e L ltac:(rewrite E; keys) X A B).
    unfold announced_list. rewrite touched. cbn [flat_map]. rewrite app_nil_r. change (touch STREAM_INPUT) with input. tauto.
  Qed.
  Lemma list_sort e : name = "sort" ->
    (announced c e <->
     In e (map input ops ++ map output (values os "-o") ++ map output (values os "-T") ++
           map input (values os "--random-source") ++ map input (values os "--files0-from")) \/
     ((ops = [] /\ values os "--files0-from" = []) /\ e = ReadsStdin) \/ (values os "-o" = [] /\ e = WritesStdout)).
  Proof.
    intros E. pose proof W as H. apply C19_sort in H; [|rewrite N, E; cbn; auto]. destruct H as ((_ & _ & X) & A & B).
    rewrite O in *. rewrite files in X by reflexivity.
    rewrite (announced_iff _ _ _ _ _ _ _ _ _ e L ltac:(rewrite E; keys) X A B).
    unfold announced_list. rewrite touched. cbn [flat_map fst snd]. rewrite app_nil_r.
    change (touch STREAM_INPUT) with input. change (touch CONFIG_INPUT) with input. change (touch CONTAINER_FOR_INPUT) with input.
    change (touch STREAM_OUTPUT) with output. change (touch OTHER_OUTPUT) with output.
    rewrite <- (given_values _ _ _ _ _ _ "--files0-from" U) by (rewrite E; vm_compute; reflexivity).
    rewrite <- (given_values _ _ _ _ _ _ "-o" U) by (rewrite E; vm_compute; reflexivity).
    rewrite (given1_false _ _ _ _ _ L "--files0-from" "--files0-from") by (rewrite E; vm_compute; reflexivity).
    rewrite (given1_false _ _ _ _ _ L "-o" "-o") by (rewrite E; vm_compute; reflexivity). tauto.
  Qed.
  Lemma list_comm e : name = "comm" ->
    (announced c e <-> In e (map input ops) \/ e = WritesStdout).
  Proof.
    intros E. pose proof W as H. apply C22_comm in H; [|congruence]. destruct H as (_ & (_ & _ & X) & A & B).
    rewrite O in *. rewrite files in X by reflexivity.
    rewrite (announced_iff _ _ _ _ _ [] _ _ _ e L ltac:(rewrite E; keys) X A B).
    unfold announced_list. rewrite touched. cbn [flat_map]. rewrite app_nil_r. change (touch STREAM_INPUT) with input. tauto.
  Qed.
  Lemma list_diff e : name = "diff" ->
    (announced c e <->
     In e (map input ops ++ map input (values os "-X") ++ map input (values os "-S") ++ map input (values os "--from-file") ++
           map input (values os "--to-file")) \/ e = WritesStdout).
  Proof.
    intros E. pose proof W as H. apply C22_diff in H; [|congruence]. destruct H as ((_ & _ & X) & A & B).
    rewrite O in *. rewrite files in X by reflexivity.
    rewrite (announced_iff _ _ _ _ _ _ _ _ _ e L ltac:(rewrite E; keys) X A B).
    unfold announced_list. rewrite touched. cbn [flat_map fst snd]. rewrite app_nil_r.
    change (touch STREAM_INPUT) with input. change (touch OTHER_INPUT) with input. change (touch EXCLUDES_FROM_INPUT) with input. tauto.
  Qed.
  Lemma list_uniq e : name = "uniq" ->
    (ops = [] /\ (announced c e <-> e = ReadsStdin \/ e = WritesStdout)) \/
    (exists f, ops = [f] /\ (announced c e <-> e = input f \/ e = WritesStdout)) \/
    (exists f g, ops = [f; g] /\ (announced c e <-> e = input f \/ e = output g)).
  Proof.
    intros E. pose proof W as H. apply C22_uniq in H; [|congruence]. rewrite O in *.
    destruct H as [(-> & (_ & _ & X) & A & B)|[(f & -> & (_ & _ & X) & A & B)|(f & g & -> & (_ & _ & X) & A & B)]].
    - left. split; [reflexivity|]. rewrite (announced_iff _ _ _ _ _ [] [] _ _ e L ltac:(rewrite E; keys) X A B). cbn. tauto.
    - right. left. exists f. split; [reflexivity|].
      rewrite (announced_iff _ _ _ _ _ [] [(Some STREAM_INPUT, f)] _ _ e L ltac:(rewrite E; keys) X A B). cbn.
      change (touch STREAM_INPUT f) with (input f). intuition congruence.
    - right. right. exists f, g. split; [reflexivity|].
      rewrite (announced_iff _ _ _ _ _ [] [(Some STREAM_INPUT, f); (Some STREAM_OUTPUT, g)] _ _ e L ltac:(rewrite E; keys) X A B). cbn.
      change (touch STREAM_INPUT f) with (input f). change (touch STREAM_OUTPUT g) with (output g). intuition congruence.
  Qed.
  Lemma list_rm e : In name ["rm"; "mkfifo"] -> (announced c e <-> In e (map output ops)).
  Proof.
    intros I. pose proof W as H. apply C23_rm_mkfifo in H; [|now rewrite N]. destruct H as ((_ & _ & X) & A & B).
    rewrite O in *. rewrite outs in X by reflexivity.
    rewrite (announced_iff _ _ _ _ _ [] _ _ _ e L (keys_none name ltac:(cbn in I |- *; tauto)) X A B).
    unfold announced_list. rewrite touched. cbn [flat_map]. rewrite app_nil_r. change (touch OTHER_OUTPUT) with output. tauto.
  Qed.
  Lemma list_tee e : name = "tee" -> (announced c e <-> In e (map output ops) \/ e = ReadsStdin \/ e = WritesStdout).
  Proof.
    intros E. pose proof W as H. apply C23_tee in H; [|congruence]. destruct H as ((_ & _ & X) & A & B).
    rewrite O in *. rewrite outs in X by reflexivity.
    rewrite (announced_iff _ _ _ _ _ [] _ _ _ e L ltac:(rewrite E; keys) X A B).
    unfold announced_list. rewrite touched. cbn [flat_map]. rewrite app_nil_r. change (touch STREAM_OUTPUT) with output. tauto.
  Qed.
  Lemma list_mv e : name = "mv" ->
    (announced c e <-> In e (map input (mv_sources os ops)) \/ In e (map output (mv_targets os ops))).
  Proof.
    intros E. pose proof W as H. apply C23_mv in H; [|congruence]. destruct H as (H & A & B). rewrite O in *.
    assert (V : ~ uses inv "-t" <-> values os "-t" = []).
    { rewrite <- (given_values _ _ _ _ _ _ "-t" U) by (rewrite E; vm_compute; reflexivity).
      rewrite (given1_false _ _ _ _ _ L "-t" "-t") by (rewrite E; vm_compute; reflexivity). tauto. }
    unfold mv_sources, mv_targets. destruct H as [(l & o & T & Q & (_ & _ & X))|(T & (_ & _ & X))].
    - apply V in T. rewrite T. rewrite Q, removelast_last, last_length, PeanoNat.Nat.sub_1_r. cbn [pred].
      rewrite skipn_app, skipn_all, PeanoNat.Nat.sub_diag. cbn [skipn app].
      rewrite files in X by reflexivity. change [out_file OTHER_OUTPUT o] with (map arg_of [(Some OTHER_OUTPUT, o)]) in X. rewrite <- map_app in X.
      rewrite (announced_iff _ _ _ _ _ _ _ _ _ e L ltac:(rewrite E; keys) X A B).
      unfold announced_list. rewrite flat_map_app, touched. cbn [flat_map fst snd]. rewrite T. cbn [map]. rewrite !app_nil_r, in_app_iff.
      change (touch OTHER_INPUT) with input. change (touch OTHER_OUTPUT o) with (output o). tauto.
    - assert (D : values os "-t" <> []).
      { intros D. apply V in D. destruct (uses_of inv "-t") as [|fo r] eqn:Q; [discriminate|]. apply D. exists fo.
        assert (J : In fo (uses_of inv "-t")) by (rewrite Q; now left). unfold uses_of in J. apply filter_In in J as (J & K).
        now apply String.eqb_eq in K. }
      rewrite files in X by reflexivity.
      rewrite (announced_iff _ _ _ _ _ _ _ _ _ e L ltac:(rewrite E; keys) X A B).
      unfold announced_list. rewrite touched. cbn [flat_map fst snd]. rewrite app_nil_r, in_app_iff.
      change (touch OTHER_INPUT) with input. change (touch OTHER_OUTPUT) with output.
      destruct (values os "-t"); [congruence|]. tauto.
  Qed.
  Lemma list_tr e : name = "tr" -> (announced c e <-> e = ReadsStdin \/ e = WritesStdout).
  Proof.
    intros E. pose proof W as H. apply C24_tr_xargs in H; [|rewrite N, E; cbn; auto]. destruct H as ((_ & _ & X) & A & B).
    rewrite strings in X. rewrite (announced_iff _ _ _ _ _ [] _ _ _ e L ltac:(rewrite E; keys) X A B).
    unfold announced_list. rewrite untouched. cbn. tauto.
  Qed.
  Lemma list_xargs e : name = "xargs" -> (announced c e <-> In e (map input (values os "-a")) \/ e = ReadsStdin \/ e = WritesStdout).
  Proof.
    intros E. pose proof W as H. apply C24_tr_xargs in H; [|rewrite N, E; cbn; auto]. destruct H as ((_ & _ & X) & A & B).
    rewrite strings in X. rewrite (announced_iff _ _ _ _ _ _ _ _ _ e L ltac:(rewrite E; keys) X A B).
    unfold announced_list. rewrite untouched. cbn [flat_map fst snd app]. rewrite app_nil_r.
    change (touch OTHER_INPUT) with input. tauto.
  Qed.
  Lemma list_seq e : name = "seq" -> (announced c e <-> e = WritesStdout).
  Proof.
    intros E. pose proof W as H. apply C24_seq in H; [|congruence]. destruct H as ((_ & _ & X) & A & B).
    rewrite strings in X. rewrite (announced_iff _ _ _ _ _ [] _ _ _ e L ltac:(rewrite E; keys) X A B).
    unfold announced_list. rewrite untouched. cbn. tauto.
  Qed.
  Lemma script_list P l ops' xs : script_operand P ops' xs -> l = xs ->
    (P /\ l = map arg_of (map (fun s => (Some STREAM_INPUT, s)) ops')) \/
    (~ P /\ exists o r, ops' = o :: r /\ l = map arg_of ((None, o) :: map (fun s => (Some STREAM_INPUT, s)) r)).
  Proof.
    intros [(p & ->)|(p & o & r & -> & ->)] ->; [left|right]; split; auto.
    - now apply files.
    - exists o, r. split; [reflexivity|]. cbn [map]. f_equal. now apply files.
  Qed.
  Lemma list_sed e : name = "sed" ->
    given os "-e" = false /\ given os "-f" = false /\ given os "-i" = false /\ ops <> [] /\
    (announced c e <-> In e (map input (tl ops)) \/ e = ReadsStdin \/ e = WritesStdout).
  Proof.
    intros E. pose proof W as H. apply C21_sed in H; [|congruence]. destruct H as (xs & S & (_ & _ & X) & A & B). rewrite O in *.
    assert (Ge : given os "-e" = false) by (apply (never_given _ _ _ _ _ _ _ U); rewrite E; vm_compute; reflexivity).
    assert (Gf : given os "-f" = false) by (apply (never_given _ _ _ _ _ _ _ U); rewrite E; vm_compute; reflexivity).
    assert (Gi : given os "-i" = false) by (apply (never_given _ _ _ _ _ _ _ U); rewrite E; vm_compute; reflexivity).
    destruct (script_list _ _ _ _ S X) as [(P & _)|(_ & o & r & Q & X')].
    { exfalso. destruct P as [P|P];
        [apply (given1 _ _ _ _ _ L "-e" "-e") in P|apply (given1 _ _ _ _ _ L "-f" "-f") in P]; try congruence;
        rewrite E; vm_compute; reflexivity. }
    repeat (split; [assumption|]). split; [congruence|].
    rewrite (announced_iff _ _ _ _ _ [] _ _ _ e L ltac:(rewrite E; keys) X' A B).
    unfold announced_list. cbn [flat_map fst app]. rewrite touched, app_nil_r, Q. change (touch STREAM_INPUT) with input. cbn [tl]. tauto.
  Qed.
  Lemma list_awk e : name = "awk" ->
    given os "-e" = false /\ given os "-E" = false /\
    (announced c e <-> In e (map input (files_after (given os "-f") ops)) \/ In e (map input (values os "-f")) \/
       (files_after (given os "-f") ops = [] /\ e = ReadsStdin) \/ e = WritesStdout).
  Proof.
    intros E. pose proof W as H. apply C20_awk in H; [|congruence]. destruct H as (xs & S & (_ & _ & X) & A & B). rewrite O in *.
    split; [apply (never_given _ _ _ _ _ _ _ U); rewrite E; vm_compute; reflexivity|].
    split; [apply (never_given _ _ _ _ _ _ _ U); rewrite E; vm_compute; reflexivity|].
    assert (K : key name "-f" ["-f"] = true) by (rewrite E; vm_compute; reflexivity).
    destruct (script_list _ _ _ _ S X) as [(P & X')|(P & o & r & Q & X')];
      rewrite (announced_iff _ _ _ _ _ _ _ _ _ e L ltac:(rewrite E; keys) X' A B); unfold announced_list;
      cbn [flat_map fst snd app]; rewrite touched, app_nil_r, in_app_iff;
      change (touch STREAM_INPUT) with input; change (touch CONFIG_INPUT) with input.
    - rewrite (proj2 (given1 _ _ _ _ _ L _ _ K) P). cbn [files_after]. rewrite length_zero_iff_nil. tauto.
    - rewrite (proj2 (given1_false _ _ _ _ _ L _ _ K) P). cbn [files_after]. rewrite Q. cbn [tl length].
      assert (Z : 1 + length r = 1 <-> r = []) by (destruct r; cbn; split; intros; try lia; congruence). cbn in Z. rewrite Z. tauto.
  Qed.
  (** The options that make the tool take the first operand of grep for a file. *)
  Lemma list_grep e : name = "grep" ->
    (given os "-e" = true <-> uses inv "-e" \/ uses inv "--regexp") /\ (given os "-f" = true <-> uses inv "-f") /\
    exists files, ((uses inv "-e" \/ uses inv "-f") /\ files = ops \/
                   ~ (uses inv "-e" \/ uses inv "-f") /\ exists o, ops = o :: files) /\
    (announced c e <-> In e (map input files) \/ In e (map input (values os "-f" ++ values os "--exclude-from")) \/
       (files = [] /\ e = ReadsStdin) \/ (given os "-q" = false /\ e = WritesStdout)).
  Proof.
    intros E. pose proof W as H. apply C20_grep in H; [|congruence]. destruct H as (xs & S & (_ & _ & X) & A & B). rewrite O in *.
    assert (K : key name "-f" ["-f"] = true) by (rewrite E; vm_compute; reflexivity).
    assert (Ke : key name "-e" ["-e"; "--regexp"] = true) by (rewrite E; vm_compute; reflexivity).
    assert (Kq : key name "-q" ["-q"] = true) by (rewrite E; vm_compute; reflexivity).
    split.
    { rewrite (given_iff _ _ _ _ _ L _ _ Ke). split.
      - intros (n & [<-|[<-|[]]] & V); auto.
      - intros [V|V]; eexists; (split; [|exact V]); cbn; auto. }
    split; [exact (given1 _ _ _ _ _ L _ _ K)|]. pose proof (given1_false _ _ _ _ _ L _ _ Kq) as Gq.
    destruct (script_list _ _ _ _ S X) as [(P & X')|(P & o & r & Q & X')]; [exists ops|exists r];
      (split; [eauto 6|]);
      rewrite (announced_iff _ _ _ _ _ _ _ _ _ e L ltac:(rewrite E; keys) X' A B); unfold announced_list;
      cbn [flat_map fst snd app]; rewrite touched, app_nil_r, map_app, !in_app_iff;
      change (touch STREAM_INPUT) with input; change (touch CONFIG_INPUT) with input; change (touch EXCLUDES_FROM_INPUT) with input.
    - rewrite length_zero_iff_nil, Gq. tauto.
    - rewrite Q. cbn [length].
      assert (Z : 1 + length r = 1 <-> r = []) by (destruct r; cbn; split; intros; try lia; congruence). cbn in Z. rewrite Z, Gq. tauto.
  Qed.
End Lists.

Lemma some_inputs l : l <> [] -> inputs l = map input l.
Proof. now destruct l. Qed.
Lemma in_inputs e l : In e (inputs l) <-> In e (map input l) \/ (l = [] /\ e = ReadsStdin).
Proof. destruct l as [|x l]; cbn; intuition congruence. Qed.
Lemma input_file f w : input w = Reads f <-> w = f /\ f <> "-".
Proof.
  unfold input. destruct (String.eqb w "-") eqn:E; [apply String.eqb_eq in E|apply String.eqb_neq in E]; split;
    [discriminate|intros (-> & H); congruence|intros H; injection H as <-; auto|intros (-> & _); reflexivity].
Qed.
Lemma input_stdin w : input w = ReadsStdin <-> w = "-".
Proof. unfold input. destruct (String.eqb w "-") eqn:E; [apply String.eqb_eq in E|apply String.eqb_neq in E]; split; congruence. Qed.
Lemma input_not_out w : (forall f, input w <> Writes f) /\ input w <> WritesStdout.
Proof. unfold input. destruct (String.eqb w "-"); split; congruence. Qed.
Lemma output_file f w : output w = Writes f <-> w = f /\ f <> "-".
Proof.
  unfold output. destruct (String.eqb w "-") eqn:E; [apply String.eqb_eq in E|apply String.eqb_neq in E]; split;
    [discriminate|intros (-> & H); congruence|intros H; injection H as <-; auto|intros (-> & _); reflexivity].
Qed.
Lemma output_not_in w : (forall f, output w <> Reads f) /\ output w <> ReadsStdin.
Proof. unfold output. destruct (String.eqb w "-"); split; congruence. Qed.
Lemma output_stdout w : output w = WritesStdout <-> w = "-".
Proof. unfold output. destruct (String.eqb w "-") eqn:E; [apply String.eqb_eq in E|apply String.eqb_neq in E]; split; congruence. Qed.
Lemma in_input_file f l : In (Reads f) (map input l) <-> In f l /\ f <> "-".
Proof.
  rewrite in_map_iff. split; [intros (w & E & I); apply input_file in E as (-> & H); auto|].
  intros (I & H). exists f. split; [now apply input_file|exact I].
Qed.
Lemma in_input_stdin l : In ReadsStdin (map input l) <-> In "-" l.
Proof.
  rewrite in_map_iff. split; [intros (w & E & I); apply input_stdin in E as ->; exact I|].
  intros I. exists "-". auto.
Qed.
Lemma in_input_writes f l : ~ In (Writes f) (map input l).
Proof. rewrite in_map_iff. intros (w & E & _). now apply (proj1 (input_not_out w)) in E. Qed.
Lemma in_input_stdout l : ~ In WritesStdout (map input l).
Proof. rewrite in_map_iff. intros (w & E & _). now apply (proj2 (input_not_out w)) in E. Qed.
Lemma in_output_file f l : In (Writes f) (map output l) <-> In f l /\ f <> "-".
Proof.
  rewrite in_map_iff. split; [intros (w & E & I); apply output_file in E as (-> & H); auto|].
  intros (I & H). exists f. split; [now apply output_file|exact I].
Qed.
Lemma in_output_reads f l : ~ In (Reads f) (map output l).
Proof. rewrite in_map_iff. intros (w & E & _). now apply (proj1 (output_not_in w)) in E. Qed.
Lemma in_output_stdin l : ~ In ReadsStdin (map output l).
Proof. rewrite in_map_iff. intros (w & E & _). now apply (proj2 (output_not_in w)) in E. Qed.
Lemma in_output_stdout l : In WritesStdout (map output l) <-> In "-" l.
Proof.
  rewrite in_map_iff. split; [intros (w & E & I); apply output_stdout in E as ->; exact I|].
  intros I. exists "-". auto.
Qed.
