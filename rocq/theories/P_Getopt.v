(** * Theorems about reading command lines like the commands do (C70) *)
Require Import Verif.PyBase Verif.JsonData Verif.Shlex Verif.Parser Verif.ShippedData Verif.SpecShlex Verif.SpecParser
  Verif.ShlexFacts Verif.ParserFacts Verif.SpecGetopt Verif.GetoptFacts.
From Coq Require Import Lia.

Definition data_of (name : string) : json_data :=
  match get_json_data shipped_dir name with Ok j => j | Raise _ => data_default_data_for_commands end.
Lemma manual_checked : forallb (fun e => let '(name, (T, p)) := e in
    check (data_of name) T (misread name) && nodupb (T_words T) && forallb word_ok (T_words T) &&
    match get_json_data shipped_dir name with Ok _ => true | Raise _ => false end) manual = true.
Proof. vm_compute. reflexivity. Qed.
Lemma manual_check name T p : In (name, (T, p)) manual ->
  check (data_of name) T (misread name) = true /\ nodupb (T_words T) = true /\ forallb word_ok (T_words T) = true /\
  get_json_data shipped_dir name = Ok (data_of name).
Proof.
  intros I. apply (proj1 (forallb_forall _ _) manual_checked) in I. cbv beta iota in I. rewrite !andb_true_iff in I.
  destruct I as (((A & B) & D) & E). repeat split; auto. unfold data_of.
  destruct (get_json_data shipped_dir name); [reflexivity|discriminate].
Qed.

(** The specification gives a command line at most one meaning. *)
Theorem C70_one_reading : forall name T p ws os ops os' ops',
  In (name, (T, p)) manual -> reads T p ws os ops -> reads T p ws os' ops' -> os = os' /\ ops = ops'.
Proof.
  intros name T p ws os ops os' ops' M H H'. destruct (manual_check _ _ _ M) as (_ & N & K & _).
  exact (reads_fun T p N K _ _ _ H _ _ H').
Qed.
Print Assumptions C70_one_reading.

(** [parse] finds the options and operands the command finds exactly on plain lines. *)
Theorem C70_same_iff : forall name T p s ws os ops,
  In (name, (T, p)) manual -> tokenises s (name :: ws) -> reads T p ws os ops ->
  ((exists inv, parse shipped_dir s = Ok inv /\ cmd_name inv = name /\ same_reading inv os ops) <->
   plain T p (misread name) ws).
Proof.
  intros name T p s ws os ops M S R. destruct (manual_check _ _ _ M) as (C & _ & _ & D).
  rewrite <- (compare _ _ _ _ C _ _ _ R). unfold parse. apply split_iff_tokenises in S. rewrite S. cbn [bind].
  rewrite D. cbn [bind]. unfold same, same_reading. destruct (parse_words (data_of name) ws) as [fos o]. cbn. split.
  - intros (inv & E & _ & F). injection E as <-. exact F.
  - intros F. eexists. split; [reflexivity|]. auto.
Qed.
Print Assumptions C70_same_iff.
Ltac nob := let H := fresh in intros H; vm_compute in H; intuition discriminate.
Ltac inT := cbn; repeat (first [left; reflexivity | right]).
(** -r -n -k 2 -- as words and as bundle *)
Example C70_same_case :
  reads sort_options true ["-rn"; "--key"; "2"; "f"; "-"]
    [([no "-r"; no "--reverse"], None); ([no "-n"; no "--numeric-sort"], None); ([arg "-k"; arg "--key"], Some "2")] ["f"; "-"] /\
  plain sort_options true (misread "sort") ["-rn"; "--key"; "2"; "f"; "-"].
Proof.
  assert (Of : operand_word "f") by (intros r E; discriminate).
  assert (Od : operand_word "-") by (intros r E; injection E as <-; reflexivity).
  split.
  - apply (reads_short _ _ "rn" [([no "-r"; no "--reverse"], None); ([no "-n"; no "--numeric-sort"], None)]).
    + apply letters_more; [inT|inT|]. eapply letters_last; [inT|inT|discriminate].
    + eapply reads_long_arg; [exists "key"; reflexivity|inT|inT|]. do 2 (apply reads_operand; [reflexivity|assumption|]). constructor.
  - apply plain_bundle; [cbn; lia| |nob|].
    + apply bundled_more with (g := [no "-r"; no "--reverse"]); [inT|inT|nob|].
      apply bundled_last with (g := [no "-n"; no "--numeric-sort"]) (ar := NoArg); [inT|inT|discriminate|nob].
    + apply plain_option_arg with (g := [arg "-k"; arg "--key"]); [inT|inT|nob|].
      apply plain_operands; [exact Of|nob|]. intros _. constructor; [exact Od|constructor].
Qed.

(** ** Lines that are never read alike *)
Definition read_alike (name : string) (s : string) (os : list found) (ops : list string) : Prop :=
  exists inv, parse shipped_dir s = Ok inv /\ cmd_name inv = name /\ same_reading inv os ops.
(** An option after an operand *)
Theorem C70_after_operand_wrong : forall name T s w x ws os ops,
  In (name, (T, true)) manual -> tokenises s (name :: w :: ws) -> reads T true (w :: ws) os ops ->
  operand_word w -> In x ws -> ~ operand_word x -> ~ read_alike name s os ops.
Proof.
  intros name T s w x ws os ops M S R O I N A. apply (C70_same_iff _ _ _ _ _ _ _ M S R) in A.
  destruct (manual_check _ _ _ M) as (C & _). apply (plain_operand _ _ _ _ C) in A as (_ & A); [|exact O].
  specialize (A eq_refl). rewrite Forall_forall in A. auto.
Qed.
Print Assumptions C70_after_operand_wrong.
(** [--] *)
Theorem C70_dashes_wrong : forall name T p s ws,
  In (name, (T, p)) manual -> tokenises s (name :: "--" :: ws) -> ~ read_alike name s [] ws.
Proof.
  intros name T p s ws M S A. apply (C70_same_iff _ _ _ _ _ _ _ M S (reads_dashes _ _ _)) in A.
  destruct (manual_check _ _ _ M) as (C & _). apply (plain_word _ _ _ _) in A as (cs & E & L & _).
  - injection E as <-. cbn in L. lia.
  - intros g a G I. apply (word_of _ _ _ C _ _ _ G) in I. discriminate.
  - intros O. now specialize (O _ eq_refl).
Qed.
Print Assumptions C70_dashes_wrong.
(** An argument in the same word, after [=] or after the letter *)
Theorem C70_attached_wrong : forall name T p s w g v ws os ops,
  In (name, (T, p)) manual -> tokenises s (name :: w :: ws) -> reads T p (w :: ws) ((g, Some v) :: os) ops ->
  ~ (exists a, In (w, a) g) -> ~ read_alike name s ((g, Some v) :: os) ops.
Proof.
  intros name T p s w g v ws os ops M S R N A. pose proof R as R0.
  apply (C70_same_iff _ _ _ _ _ _ _ M S R) in A. destruct (manual_check _ _ _ M) as (C & _).
  inversion R as [| |w' ws' Q O|w' ws' os' ops' Q O R'|w' g' a' ws' os' ops' W G I Rq R'|w' g' x ws' os' ops' W G I R'
    |n g' a' v' ws' os' ops' W G I Rq R'|cs os1 ws' os' ops' L R'|cs x os1 ws' os' ops' L R']; subst;
  try match goal with Q : _ ++ _ = _ :: _ |- _ => rename Q into H end.
  - apply (plain_operand _ _ _ _ C) in A as (_ & A); [|exact O]. specialize (A eq_refl).
    destruct (reads_operands _ _ _ _ C _ _ _ eq_refl R' A) as (X & _). discriminate.
  - apply N. eauto.
  - apply (plain_word _ _ _ _) in A as (cs & E & L & B & _).
    + apply bundled_head in B as (c & r & g2 & a2 & -> & G' & I'). destruct W as (r' & ->). cbn in E. injection E as <- _.
      exact (no_dash_letter _ _ _ C _ _ G' I').
    + intros g2 a2 G2 I2. apply (word_of _ _ _ C _ _ _ G2) in I2. destruct W as (r' & ->). cbn in I2.
      rewrite has_char_app in I2. cbn in I2. rewrite orb_true_r, andb_false_r in I2. discriminate.
    + destruct W as (r' & ->). intros O. now specialize (O _ eq_refl).
  - destruct (Nat.le_gt_cases (String.length cs) 1) as [Sh|Sh].
    + destruct (letters_single _ _ _ _ L Sh) as (g2 & a2 & G2 & I2 & [(_ & _ & ->)|(_ & y & X & _)]); [|discriminate].
      cbn in H. discriminate.
    + apply (plain_word _ _ _ _) in A as (cs' & E & _ & B & _).
      * injection E as <-. destruct (letters_bundled _ _ _ C _ _ _ L B) as (_ & _ & F).
        destruct os1 as [|o os1]; [inversion L|]. cbn in H. injection H as -> _. inversion F as [|? ? ? ? X]; subst. inversion X; subst.
        destruct cs; discriminate.
      * now apply (T_not_cluster _ _ _ C _ _ _ L Sh).
      * intros O. specialize (O _ eq_refl). subst. cbn in Sh. lia.
  - destruct (Nat.le_gt_cases (String.length cs) 1) as [Sh|Sh].
    + destruct (letters_single _ _ _ _ L Sh) as (g2 & a2 & G2 & I2 & [(_ & X & _)|(_ & y & X & ->)]); [discriminate|].
      cbn in H. injection H as -> -> _. apply N. eauto.
    + apply (plain_word _ _ _ _) in A as (cs' & E & _ & B & _).
      * injection E as <-. destruct (letters_bundled _ _ _ C _ _ _ L B) as (X & _). discriminate.
      * now apply (T_not_cluster _ _ _ C _ _ _ L Sh).
      * intros O. specialize (O _ eq_refl). subst. cbn in Sh. lia.
Qed.
Print Assumptions C70_attached_wrong.

(** ** Every word listed as misread is misread: it starts a line that the command understands and
    the parser reads differently. *)
Definition some_line (T : list opt_group) (p : bool) (bad : list string) (w : string) : Prop :=
  exists ws os ops, reads T p (w :: ws) os ops /\ ~ plain T p bad (w :: ws).
Lemma T_line j T p bad w : check j T bad = true -> forallb word_ok (T_words T) = true ->
  In w (T_words T) -> In w bad -> some_line T p bad w.
Proof.
  intros C K I B. apply T_words_In in I as (g & a & G & I). pose proof (u_word _ K _ _ _ G I) as W.
  assert (S : exists x, w = String "-" x /\ (long_word w \/ exists c, x = String c "" /\ w = letter_flag c)).
  { clear -W. destruct w as [|d [|c r]]; cbn in W; try discriminate. apply andb_prop in W as [W1 W].
    apply Ascii.eqb_eq in W1 as ->. eexists. split; [reflexivity|]. destruct (Ascii.eqb c "-") eqn:E.
    - apply Ascii.eqb_eq in E as ->. left. exists r. reflexivity.
    - apply String.eqb_eq in W as ->. right. exists c. auto. }
  destruct S as (x & E & S).
  assert (D : a = Required \/ a <> Required) by (destruct a; [right; discriminate|now left|right; discriminate]).
  destruct D as [->|R].
  - exists ["x"]. destruct S as [S|(c & -> & S)].
    + do 2 eexists. split; [eapply reads_long_arg; eauto; constructor|].
      intros P. apply (plain_T_arg _ _ _ _ C _ _ _ _ G I) in P. tauto.
    + do 2 eexists. split.
      * rewrite E. eapply reads_short_arg; [|constructor]. eapply letters_next; [exact G|]. now rewrite <- S.
      * intros P. apply (plain_T_arg _ _ _ _ C _ _ _ _ G I) in P. tauto.
  - exists []. destruct S as [S|(c & -> & S)].
    + do 2 eexists. split; [eapply reads_long; eauto; constructor|].
      intros P. apply (plain_T _ _ _ _ C _ _ _ _ G I R) in P. tauto.
    + do 2 eexists. split.
      * rewrite E. eapply reads_short; [|constructor]. eapply letters_last; [exact G| |exact R]. now rewrite <- S.
      * intros P. apply (plain_T _ _ _ _ C _ _ _ _ G I R) in P. tauto.
Qed.
Definition extras : list (string * string) :=
  [("awk", "-ofile"); ("cat", "-vE"); ("cat", "-vT"); ("uniq", "-"); ("uniq", "f"); ("uniq", "s"); ("uniq", "w")].
Lemma extras_all : forallb (fun e => let '(name, (T, p)) := e in
    forallb (fun w => mem w (T_words T) ||
      existsb (fun q => String.eqb (fst q) name && String.eqb (snd q) w) extras) (misread name)) manual = true.
Proof. vm_compute. reflexivity. Qed.
Lemma misread_lines name T p w : In (name, (T, p)) manual -> In w (misread name) -> some_line T p (misread name) w.
Proof.
  intros M I. destruct (manual_check _ _ _ M) as (C & _ & K & _).
  destruct (mem w (T_words T)) eqn:Q; [apply mem_In in Q; eapply T_line; eauto|].
  assert (O : forall w, In (name, (T, p)) manual -> In w (misread name) -> operand_word w -> some_line T p (misread name) w).
  { intros u _ Iu Ou. exists []. assert (R : exists os ops, reads T p [u] os ops).
    { destruct p; do 2 eexists; [apply reads_operand; [reflexivity|exact Ou|constructor]|now apply reads_stop]. }
    destruct R as (os & ops & R). exists os, ops. split; [exact R|]. intros P.
    apply (plain_operand _ _ _ _ C) in P as (P & _); auto. }
  assert (X : In (name, w) extras).
  { pose proof (proj1 (forallb_forall _ _) extras_all _ M) as X. cbv beta iota in X. rewrite forallb_forall in X.
    specialize (X w I). rewrite Q in X. cbn [orb] in X. apply existsb_exists in X as ((n', w') & X & E).
    cbn in E. apply andb_prop in E as [E1 E2]. apply String.eqb_eq in E1, E2. now subst. }
  assert (TT : In (name, (T, p)) manual -> (T, p) = match find (fun e => String.eqb (fst e) name) manual with Some e => snd e | None => ([], true) end).
  { clear. intros M. cbn in M. repeat (destruct M as [M|M]; [injection M as <- <- <-; reflexivity|]). destruct M. }
  specialize (TT M). unfold extras in X. cbn [In] in X.
  repeat (destruct X as [X|X]; [injection X as <- <-;
    first [apply O; [exact M|exact I|intros r E; (discriminate E || now injection E as <-)]|idtac]|]);
    try (destruct X); vm_compute in TT; injection TT as -> ->.
  - exists [], [([opt "-o"; opt "--pretty-print"], Some "file")], []. split.
    + apply (reads_short _ _ "ofile" [([opt "-o"; opt "--pretty-print"], Some "file")]); [|constructor].
      eapply letters_attached; [inT|inT|discriminate|discriminate].
    + intros P. apply plain_word in P as (cs & _ & _ & _ & N & _); [apply N; inT| |].
      * intros g a G J. apply (word_of _ _ _ C _ _ _ G) in J. discriminate.
      * intros Ow. now specialize (Ow _ eq_refl).
  - exists [], [([no "-v"; no "--show-nonprinting"], None); ([no "-E"; no "--show-ends"], None)], []. split.
    + apply (reads_short _ _ "vE" [([no "-v"; no "--show-nonprinting"], None); ([no "-E"; no "--show-ends"], None)]); [|constructor].
      apply letters_more; [inT|inT|]. eapply letters_last; [inT|inT|discriminate].
    + intros P. apply plain_word in P as (cs & _ & _ & _ & N & _); [apply N; inT| |].
      * intros g a G J. apply (word_of _ _ _ C _ _ _ G) in J. discriminate.
      * intros Ow. now specialize (Ow _ eq_refl).
  - exists [], [([no "-v"; no "--show-nonprinting"], None); ([no "-T"; no "--show-tabs"], None)], []. split.
    + apply (reads_short _ _ "vT" [([no "-v"; no "--show-nonprinting"], None); ([no "-T"; no "--show-tabs"], None)]); [|constructor].
      apply letters_more; [inT|inT|]. eapply letters_last; [inT|inT|discriminate].
    + intros P. apply plain_word in P as (cs & _ & _ & _ & N & _); [apply N; inT| |].
      * intros g a G J. apply (word_of _ _ _ C _ _ _ G) in J. discriminate.
      * intros Ow. now specialize (Ow _ eq_refl).
Qed.
Theorem C70_misread : forall name T p w,
  In (name, (T, p)) manual -> In w (misread name) ->
  exists ws os ops, reads T p (w :: ws) os ops /\
    forall s, tokenises s (name :: w :: ws) -> ~ read_alike name s os ops.
Proof.
  intros name T p w M I. destruct (misread_lines _ _ _ _ M I) as (ws & os & ops & R & N).
  exists ws, os, ops. split; [exact R|]. intros s S A. apply N. now apply (C70_same_iff _ _ _ _ _ _ _ M S R).
Qed.
Print Assumptions C70_misread.

(** Everyday lines that are misread *)
Theorem C70_refuted : exists name T p s ws os ops,
  In (name, (T, p)) manual /\ tokenises s (name :: ws) /\ reads T p ws os ops /\ ~ read_alike name s os ops.
Proof.
  exists "diff", diff_options, true, "diff -u a b", ["-u"; "a"; "b"],
    [([no "-u"; arg "-U"; opt "--unified"], None)], ["a"; "b"].
  assert (M : In ("diff", (diff_options, true)) manual) by inT.
  assert (S : tokenises "diff -u a b" ["diff"; "-u"; "a"; "b"]) by (apply split_iff_tokenises; reflexivity).
  assert (R : reads diff_options true ["-u"; "a"; "b"] [([no "-u"; arg "-U"; opt "--unified"], None)] ["a"; "b"]).
  { apply (reads_short _ _ "u" [([no "-u"; arg "-U"; opt "--unified"], None)]).
    - eapply letters_last; [inT|inT|discriminate].
    - do 2 (apply reads_operand; [reflexivity|intros r E; discriminate|]). constructor. }
  repeat split; [exact M|exact S|exact R|]. intros (inv & P & _ & F & O).
  vm_compute in P. injection P as <-. discriminate O.
Qed.
Print Assumptions C70_refuted.
Example C70_lines :
  parse shipped_dir "diff -u a b" = Ok (mkInv "diff" [Option_ "-u" "a"] ["b"]) /\
  parse shipped_dir "grep --color word f" = Ok (mkInv "grep" [Option_ "--color" "word"] ["f"]) /\
  parse shipped_dir "tail -n 5 f" = Ok (mkInv "tail" [Flag "-n"] ["5"; "f"]) /\
  parse shipped_dir "xargs -0 rm" = Ok (mkInv "xargs" [] ["-0"; "rm"]) /\
  parse shipped_dir "uniq f" = Ok (mkInv "uniq" [Flag "-"] []) /\
  parse shipped_dir "sort -k2 f" = Ok (mkInv "sort" [] ["-k2"; "f"]) /\
  parse shipped_dir "sed -i s/a/b/ f" = Ok (mkInv "sed" [] ["-i"; "s/a/b/"; "f"]).
Proof. vm_compute. repeat split. Qed.
