(** * Further theorems about the effects announced by the input/output information (C71) *)
Require Import Verif.PyBase Verif.JsonData Verif.Shlex Verif.Parser Verif.Access Verif.IOInfo Verif.IOGen Verif.ShippedData
  Verif.SpecShlex Verif.ShlexFacts Verif.SpecParser Verif.ParserFacts Verif.SpecIO Verif.IOShipped Verif.P_IO Verif.SpecGetopt Verif.GetoptFacts
  Verif.P_Getopt Verif.SpecEffects Verif.EffectFacts Verif.EffectLists Verif.P_Effects.

(** [sed -e SCRIPT FILE ...]: the script is announced as a file that is read, although sed reads the
    files only. *)
Definition sed_plain_flags : list string :=
  ["-n"; "--quiet"; "--silent"; "-E"; "-r"; "--regexp-extended"; "-s"; "--separate"; "-u"; "--unbuffered"; "-z"; "--null-data";
   "--debug"; "--follow-symlinks"; "--posix"; "--sandbox"].
Lemma values_app a b n : values (a ++ b) n = values a n ++ values b n.
Proof. apply flat_map_app. Qed.
Lemma given_app a b n : given (a ++ b) n = given a n || given b n.
Proof. apply existsb_app. Qed.
Theorem C71_sed_expression : forall s before e script files inv c,
  tokenises s ("sed" :: before ++ e :: script :: files) -> Forall (fun w => In w sed_plain_flags) before -> In e ["-e"; "--expression"] ->
  operand_word script -> script <> "-" -> Forall operand_word files ->
  parse shipped_dir s = Ok inv -> with_io shipped_dir inv c ->
  operand_list inv = script :: files /\ announced c (Reads script) /\
  exists T p os, In ("sed", (T, p)) manual /\ reads T p (before ++ e :: script :: files) os files /\ values os "-e" = [script] /\
    (~ In script files -> ~ In (Reads script) (effects "sed" os files)).
Proof.
  intros s before e script files inv c S B E O Nd Of P W. destruct (parsed_data _ _ _ _ S P ltac:(cbn; auto 30)) as (Nm & Pw & _).
  assert (Q : exists l, parse_words (data_of "sed") (before ++ e :: script :: files) = (l ++ [Flag "-e"], script :: files)).
  { clear - B E O. induction B as [|w before I B IH]; cbn [app].
    - exists []. cbn in E. destruct E as [<-|[<-|[]]].
      all: rewrite parse_flag by (try discriminate; vm_compute; reflexivity).
      all: rewrite (stops _ _ _ O) by (vm_compute; reflexivity); vm_compute; reflexivity.
    - destruct IH as (l & IH). eexists (_ :: l). rewrite parse_flag, IH; [reflexivity| |].
      + intros ->. cbn in I. repeat (destruct I as [I|I]; [discriminate|]). destruct I.
      + cbn in I. repeat (destruct I as [<-|I]; [vm_compute; reflexivity|]). destruct I. }
  destruct Q as (l & Q). rewrite Q in Pw. injection Pw as Fl Op. split; [exact Op|]. split.
  - apply C21_sed in W; [|exact Nm]. destruct W as (xs & [(_ & ->)|(N & _)] & (_ & _ & I) & _).
    + exists (mkRes (FileName script) STREAM_INPUT). split.
      * left. rewrite I, Op. cbn [map]. left. unfold in_file. now rewrite (proj2 (String.eqb_neq script "-") Nd).
      * cbn. split; [reflexivity|]. unfold input_access. auto.
    + exfalso. apply N. left. exists (Flag "-e"). rewrite Fl. split; [apply in_or_app; right; now left|reflexivity].
  - assert (R : exists os', reads sed_options true (before ++ e :: script :: files) (os' ++ [([arg "-e"; arg "--expression"], Some script)]) files /\
        values os' "-e" = [] /\ given os' "-f" = false /\ given os' "-i" = false /\ values os' "-f" = []).
    { clear - B E Of. induction B as [|w before I B IH]; cbn [app].
      - exists []. split; [|auto]. assert (R : reads sed_options true files [] files).
        { clear - Of. induction Of; [apply reads_end|apply reads_operand; auto]. }
        cbn in E. destruct E as [<-|[<-|[]]].
        + apply (reads_short_arg _ _ "e" script [_] files []); [|exact R]. apply (letters_next sed_options "e"); [inT|inT].
        + eapply reads_long_arg; [long|inT|inT|exact R].
      - destruct IH as (os' & R & V).
        cbn in I. repeat (destruct I as [<-|I]; [
          match goal with |- context [reads _ _ (?w :: _) _ _] =>
            let g := eval vm_compute in (find (existsb (fun x => String.eqb (fst x) w)) sed_options) in
            match g with Some ?g => exists ((g, None) :: os') end end;
          (split; [|exact V]);
          first [ apply (reads_short _ _ _ [_]); [eapply letters_last; [inT|inT|discriminate]|exact R]
                | cbn [app]; eapply reads_long; [long|inT|inT|discriminate|exact R]]|]). destruct I. }
    destruct R as (os' & R & V & Gf & Gi & Vf). exists sed_options, true, (os' ++ [([arg "-e"; arg "--expression"], Some script)]).
    split; [inT|]. split; [exact R|]. split; [rewrite values_app, V; reflexivity|].
    intros N. cbn [effects]. rewrite !given_app, values_app, Gf, Gi, Vf.
    change (given [([arg "-e"; arg "--expression"], Some script)] "-e") with true. rewrite orb_true_r. cbn [orb files_after].
    change (given [([arg "-e"; arg "--expression"], Some script)] "-i") with false.
    change (values [([arg "-e"; arg "--expression"], Some script)] "-f") with (@nil string). cbn [orb app map]. rewrite app_nil_r.
    intros [X|X]; [discriminate|].
    apply in_inputs in X. destruct X as [X|(_ & X)]; [|discriminate]. now apply in_input_file in X as (X & _).
Qed.
Print Assumptions C71_sed_expression.
Example C71_sed_expression_case : exists inv c,
  tokenises "sed -n -e /x/p f" ("sed" :: ["-n"] ++ "-e" :: "/x/p" :: ["f"]) /\
  parse shipped_dir "sed -n -e /x/p f" = Ok inv /\ with_io shipped_dir inv c /\
  announced c (Reads "/x/p") /\ announced c (Reads "f").
Proof.
  eexists. eexists. split; [apply split_iff_tokenises; vm_compute; reflexivity|]. split; [vm_compute; reflexivity|].
  split; [eexists; split; vm_compute; reflexivity|].
  split; [exists (mkRes (FileName "/x/p") STREAM_INPUT)|exists (mkRes (FileName "f") STREAM_INPUT)];
    (split; [left; cbn; auto|split; [reflexivity|right; left; reflexivity]]).
Qed.
