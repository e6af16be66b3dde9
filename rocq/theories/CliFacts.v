(** * Facts about the command line tool *)
Require Import Verif.PyBase Verif.JsonData Verif.Parser Verif.Access Verif.IOInfo Verif.IOGen Verif.ParaTypes Verif.ParaGen
  Verif.SpecIO Verif.SpecPara Verif.ParserFacts Verif.IOFacts Verif.IOProps Verif.IOGeneral Verif.ParaFacts Verif.ParaProps Verif.Cli Verif.SpecCli.
From Coq Require Import Lia.

Lemma has_slash_app a b : has_slash (a +++ b) = has_slash a || has_slash b.
Proof. induction a as [|c a IH]; cbn; [reflexivity|]. now rewrite IH, Bool.orb_assoc. Qed.
Lemma app_assoc_s a b c : (a +++ b) +++ c = a +++ b +++ c.
Proof. induction a as [|x a IH]; cbn; [reflexivity|]. now rewrite IH. Qed.
Lemma no_slash_prefix s : has_slash s = false -> script_prefix s = EmptyString.
Proof.
  destruct s as [|c s]; [reflexivity|]. cbn. intros H. now rewrite H.
Qed.
Lemma prefix_dir d base : has_slash base = false -> script_prefix (d +++ "/" +++ base) = d +++ "/".
Proof.
  intros H. induction d as [|c d IH]; cbn.
  - now rewrite (no_slash_prefix _ H).
  - cbn in IH. rewrite IH. replace (has_slash (d +++ String "/" base)) with true; [now rewrite Bool.orb_true_r|].
    rewrite has_slash_app. cbn. now rewrite Bool.orb_true_r.
Qed.
Lemma split_slash s : has_slash s = true -> exists d base, s = d +++ "/" +++ base /\ has_slash base = false.
Proof.
  induction s as [|c s IH]; cbn; [discriminate|]. destruct (has_slash s) eqn:E.
  - intros _. destruct (IH eq_refl) as (d & b & -> & N). now exists (String c d), b.
  - rewrite Bool.orb_false_r. intros Q. apply Ascii.eqb_eq in Q. subst c. now exists EmptyString, s.
Qed.
Lemma beside_prefix script f : beside script f (script_prefix script +++ f).
Proof.
  destruct (has_slash script) eqn:E.
  - destruct (split_slash _ E) as (d & b & -> & N). rewrite (prefix_dir _ _ N), app_assoc_s. now constructor.
  - rewrite (no_slash_prefix _ E). now constructor.
Qed.
Lemma beside_iff script f p : beside script f p <-> p = script_prefix script +++ f.
Proof.
  split; [|intros ->; apply beside_prefix]. intros H. destruct H as [d b f N|b f N].
  - now rewrite (prefix_dir _ _ N), app_assoc_s.
  - now rewrite (no_slash_prefix _ N).
Qed.
Lemma app_length_s a b : String.length (a +++ b) = String.length a + String.length b.
Proof. induction a as [|c a IH]; cbn; [reflexivity|]. now rewrite IH. Qed.

Lemma section_spec dir inv :
  exists s, match get_input_output_info dir inv with
            | None => Ok SideEffectful
            | Some io_info =>
                if has_other_outputs io_info then Ok OtherOutputs
                else let! c := apply_io_info io_info inv in Ok (Applied c)
            end = Ok s /\ io_reported dir inv s.
Proof.
  destruct (get_input_output_info dir inv) as [i|] eqn:G.
  - destruct (info_applies _ _ _ G) as [c A]. assert (W : with_io dir inv c) by (exists i; auto).
    pose proof (other_outputs _ _ _ _ G A) as O. destruct (has_other_outputs i).
    + exists OtherOutputs. split; [reflexivity|]. apply (ir_other _ _ c W). now apply O.
    + exists (Applied c). rewrite A. split; [reflexivity|]. apply ir_applied; [exact W|]. intros Q. apply O in Q. discriminate Q.
  - exists SideEffectful. split; [reflexivity|]. constructor. intros c (i & Q & _). congruence.
Qed.
Lemma para_spec dir inv :
  para_reported dir inv (match get_parallelizability_info dir inv with None => new_para_info | Some i => i end).
Proof.
  pose proof (annotated_view dir inv) as A. unfold view in A.
  destruct (get_parallelizability_info dir inv) as [i|] eqn:E; cbn in A.
  - eexists. split; [exact A|]. split; [now apply (info_cat dir inv)|reflexivity].
  - exists None. now split.
Qed.
Lemma make_report_spec dir cmd :
  match parse dir cmd with
  | Raise e => make_report dir cmd = Raise e
  | Ok inv => exists r, make_report dir cmd = Ok r /\ reports dir cmd r
  end.
Proof.
  unfold make_report. destruct (parse dir cmd) as [inv|e] eqn:P; cbn; [|reflexivity].
  destruct (section_spec dir inv) as (s & Q & S). rewrite Q. cbn. eexists. split; [reflexivity|].
  unfold reports; cbn. do 3 (split; [auto|]). apply para_spec.
Qed.
Lemma fs_set_same fs p n : fs_set fs p n p = n.
Proof. unfold fs_set. now rewrite String.eqb_refl. Qed.
Lemma fs_set_other fs p n q : q <> p -> fs_set fs p n q = fs q.
Proof. intros H. unfold fs_set. destruct (String.eqb_spec q p); congruence. Qed.

Lemma can_be_read_ok fs p : exists b, can_be_read fs p = Ok b.
Proof. unfold can_be_read, open_read. destruct (fs p) as [b| |[] b t]; cbn; eauto. Qed.
Lemma cli_published render dir script target cmd w r :
  make_report dir cmd = Ok r ->
  let (w', o) := cli render dir script target cmd w in published render script w r target w' o.
Proof.
  intros M. unfold cli. rewrite M. destruct target as [f|]; [|constructor].
  pose proof (beside_prefix script f) as B. set (p := script_prefix script +++ f) in *.
  unfold can_be_read, open_read. destruct (files w p) as [b| |rd wr s] eqn:E; cbn.
  - unfold print; cbn. rewrite <- app_assoc. apply (pub_unreadable _ _ _ _ _ p B). congruence.
  - unfold print; cbn. rewrite <- app_assoc. apply (pub_unreadable _ _ _ _ _ p B). congruence.
  - destruct rd; cbn.
    + unfold overwrite. rewrite E. destruct wr.
      * eapply (pub_saved _ _ _ _ _ p s); auto using fs_set_same, fs_set_other.
      * destruct w. eapply (pub_readonly _ _ _ _ _ p s); auto.
    + unfold print; cbn. rewrite <- app_assoc. apply (pub_unreadable _ _ _ _ _ p B). congruence.
Qed.
Lemma cli_no_report render dir script target cmd w e :
  make_report dir cmd = Raise e ->
  let (w', o) := cli render dir script target cmd w in files w' = files w /\ o = Raise e /\
    exists l, warned script w target l /\ printed w' = printed w ++ l.
Proof.
  intros M. unfold cli. rewrite M. destruct target as [f|]; [|split; [auto|split; [auto|]]; exists []; split; [constructor|now rewrite app_nil_r]].
  assert (B : beside script f (script_prefix script +++ f)) by now apply beside_iff.
  unfold can_be_read, open_read. destruct (files w (script_prefix script +++ f)) as [b| |[] b t] eqn:E; cbn; (split; [auto|split; [auto|]]).
  1,2,4: exists [told]; split; [eapply warn_unreadable; [exact B|congruence]|reflexivity].
  exists []. split; [eapply warn_readable; eauto|now rewrite app_nil_r].
Qed.
