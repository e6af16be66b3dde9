(** * C91: the same command line in other spellings *)
Require Import Verif.PyBase Verif.JsonData Verif.Shlex Verif.Parser Verif.ShippedData Verif.SpecShlex Verif.SpecParser Verif.IOInfo Verif.IOGen Verif.ParaTypes Verif.ParaGen
  Verif.ShlexFacts Verif.ParserFacts Verif.SpecIO Verif.SpecPara Verif.SpecDepends Verif.SpecGetopt Verif.GetoptFacts Verif.P_Getopt Verif.IOFacts Verif.IOShipped Verif.P_Depends Verif.P_Parser Verif.SpecSpelling.
From Coq Require Import Lia.

(** ** The names that are reported *)
Definition flag_names (j : json_data) : list string :=
  flat_map (fun e => firstn 1 (spellings e)) (j_flag j) ++
  filter (fun w => Nat.eqb (String.length w) 2) (flat_map spellings (j_flag j)).
Definition option_names (j : json_data) : list string := flat_map (fun e => firstn 1 (oe_names e)) (j_option j).
Definition reported (j : json_data) (fo : flag_option) : Prop :=
  match fo with Flag n => In n (flag_names j) | Option_ n _ => In n (option_names j) end.
Lemma canonical_first gs w p : (exists l, In l gs /\ In w l) -> canonical gs w p -> exists l, In l gs /\ hd_error l = Some p.
Proof.
  intros (l & I1 & I2) [(pre & others & post & -> & _)|(N & ->)].
  - exists (p :: others). split; [apply in_elt|reflexivity].
  - exists l. split; [exact I1|]. destruct l as [|x l]; [destruct I2|]. destruct I2 as [->|I2]; [reflexivity|]. destruct (N _ I1 I2).
Qed.
Lemma first_in {A} (f : A -> list string) l p : (exists x, In x (map f l) /\ hd_error x = Some p) -> In p (flat_map (fun e => firstn 1 (f e)) l).
Proof.
  intros (x & I1 & H). apply in_map_iff in I1 as (e & <- & I1). apply in_flat_map. exists e. split; [exact I1|].
  destruct (f e) as [|q r]; [discriminate|]. injection H as ->. now left.
Qed.
Lemma group_reported j ws fos ws' : group j ws fos ws' -> Forall (reported j) fos.
Proof.
  intros G. apply Forall_forall. intros fo I1. destruct G as [w p rest _ (e & E1 & E2) C|w p a rest _ _ (e & E1 & E2) C|w cs rest _ _ (_ & _ & B)].
  - destruct I1 as [<-|[]]. apply in_app_iff. left. apply first_in. eapply canonical_first; [|exact C]. exists (spellings e). split; [now apply in_map|exact E2].
  - destruct I1 as [<-|[]]. apply first_in. eapply canonical_first; [|exact C]. exists (oe_names e). split; [now apply in_map|exact E2].
  - apply in_map_iff in I1 as (c & <- & I1). apply in_app_iff. right. apply filter_In. split; [|reflexivity]. destruct (B c I1) as (e & E1 & E2). apply in_flat_map. eauto.
Qed.
Lemma groups_reported j ws fos ws' : groups j ws fos ws' -> Forall (reported j) fos.
Proof.
  intros G. induction G as [|ws fos ws' fos' ws'' G1 _ IH]; [constructor|]. apply Forall_app. split; [eapply group_reported; eauto|exact IH].
Qed.
Lemma parsed_reported s name inv j : parse shipped_dir s = Ok inv -> cmd_name inv = name -> get_json_data shipped_dir name = Ok j -> Forall (reported j) (flag_option_list inv).
Proof.
  intros P <- J. apply C03_parse_segments in P as (words & j' & _ & L & (G & _)). apply get_json_data_ok in L. rewrite J in L. injection L as <-.
  eapply groups_reported; eauto.
Qed.
Definition asked (name : string) : list string := io_names name ++ para_names name.
(** Among the names of a kind that parse reports, those that the generators know belong to no option twice. *)
Definition unique_in (names : list string) (name : string) (T : list opt_group) (n : string) : bool :=
  forallb (fun g : opt_group => negb (mem n (map fst g)) || forallb (fun w => negb (mem w names) || String.eqb w n || mem w (other_names name)) (map fst g)) T.
Lemma spelled_alike : forallb (fun e => let '(name, (T, p)) := e in
  forallb (fun n => (negb (mem n (flag_names (data_of name))) || unique_in (flag_names (data_of name)) name T n) &&
                    (negb (mem n (option_names (data_of name))) || unique_in (option_names (data_of name)) name T n) &&
                    (mem n ["-D"; "--all-repeated"] || unique_in (flag_names (data_of name) ++ option_names (data_of name)) name T n))
    (asked name)) manual = true.
Proof. vm_compute. reflexivity. Qed.
Lemma unique_name names name T n g w a b : unique_in names name T n = true -> In g T -> In (n, a) g -> In (w, b) g -> In w names -> ~ In w (other_names name) -> w = n.
Proof.
  intros U G I1 I2 R NW. apply (proj1 (forallb_forall _ _) U) in G. apply orb_true_iff in G as [G|G].
  - apply negb_true_iff in G. assert (X : mem n (map fst g) = true) by (apply mem_In; apply in_map_iff; now exists (n, a)). congruence.
  - assert (W : In w (map fst g)) by (apply in_map_iff; now exists (w, b)). apply (proj1 (forallb_forall _ _) G) in W. rewrite !orb_true_iff in W.
    destruct W as [[W|W]|W]; [|now apply String.eqb_eq|apply mem_In in W; contradiction]. apply negb_true_iff in W. apply mem_In in R. congruence.
Qed.
Section Two.
  Variables (name : string) (T : list opt_group) (p : bool) (n : string).
  Hypothesis M : In (name, (T, p)) manual.
  Hypothesis A : In n (asked name).
  Lemma two_names fo fo' f : same_option fo f -> same_option fo' f -> In (fst f) T -> reported (data_of name) fo -> reported (data_of name) fo' ->
    ~ In (fo_name fo') (other_names name) -> fo_name fo = n -> fo_name fo' = n.
  Proof.
    intros S S' G R R' NO E. pose proof (proj1 (forallb_forall _ _) spelled_alike _ M) as F. cbv beta iota in F. apply (proj1 (forallb_forall _ _) F) in A as Q. rewrite !andb_true_iff, !orb_true_iff, !negb_true_iff in Q.
    destruct Q as ((Q1 & Q2) & _). inversion S as [m g ar H1 H2 H3|m g ar x H1 H2 H3]; subst; inversion S' as [m' g' ar' H1' H2' H3'|m' g' ar' x' H1' H2' H3']; subst; cbn in *.
    - destruct Q1 as [Q1|Q1]; [apply mem_In in R; congruence|]. eapply (unique_name _ _ _ _ g); eauto.
    - destruct Q2 as [Q2|Q2]; [apply mem_In in R; congruence|]. eapply (unique_name _ _ _ _ g); eauto.
  Qed.
  Lemma one_name fo f a : same_option fo f -> In (fst f) T -> In (n, a) (fst f) -> reported (data_of name) fo -> ~ In n ["-D"; "--all-repeated"] -> ~ In (fo_name fo) (other_names name) -> fo_name fo = n.
  Proof.
    intros S G I1 R ND NO. pose proof (proj1 (forallb_forall _ _) spelled_alike _ M) as F. cbv beta iota in F. apply (proj1 (forallb_forall _ _) F) in A as Q. rewrite !andb_true_iff, !orb_true_iff in Q.
    destruct Q as (_ & [Q|Q]); [apply mem_In in Q; contradiction|]. inversion S as [m g ar H1 H2 H3|m g ar x H1 H2 H3]; subst; cbn in *; eapply (unique_name _ _ _ _ g); eauto; apply in_app_iff; auto.
  Qed.
End Two.
Lemma related {A B C} (P : A -> C -> Prop) (Q : B -> C -> Prop) l l' os (R : A -> B -> Prop) :
  Forall2 P l os -> Forall2 Q l' os -> (forall a b c, In a l -> In b l' -> In c os -> P a c -> Q b c -> R a b) -> Forall2 R l l'.
Proof.
  intros F. revert l'. induction F as [|a c l os H F IH]; intros l' F' X; inversion F' as [|b ? l2 ? H' F2]; subst; constructor.
  - apply (X a b c); auto; now left.
  - apply IH; [exact F2|]. intros; apply (X a0 b0 c0); auto; now right.
Qed.
Lemma filter_length {A B} (f : A -> bool) (g : B -> bool) l l' : Forall2 (fun a b => f a = g b) l l' -> length (filter f l) = length (filter g l').
Proof. intros F. induction F as [|a b l l' E F IH]; [reflexivity|]. cbn. rewrite E. destruct (g b); cbn; now rewrite IH. Qed.
Section Lines.
  Variables (name : string) (T : list opt_group) (p : bool) (s s' : string) (ws ws' : list string) (os : list found) (ops : list string) (inv inv' : invocation).
  Hypothesis M : In (name, (T, p)) manual.
  Hypothesis S : tokenises s (name :: ws).
  Hypothesis S' : tokenises s' (name :: ws').
  Hypothesis R : reads T p ws os ops.
  Hypothesis R' : reads T p ws' os ops.
  Hypothesis PL : plain T p (misread name) ws.
  Hypothesis PL' : plain T p (misread name) ws'.
  Hypothesis PA : parse shipped_dir s = Ok inv.
  Hypothesis PA' : parse shipped_dir s' = Ok inv'.
  Hypothesis NO : ~ uses_any inv (other_names name).
  Hypothesis NO' : ~ uses_any inv' (other_names name).
  Lemma same_lines : (cmd_name inv = name /\ same_reading inv os ops) /\ (cmd_name inv' = name /\ same_reading inv' os ops).
  Proof.
    split.
    - destruct (proj2 (C70_same_iff name T p s ws os ops M S R) PL) as (i & E & H). rewrite PA in E. injection E as <-. exact H.
    - destruct (proj2 (C70_same_iff name T p s' ws' os ops M S' R') PL') as (i & E & H). rewrite PA' in E. injection E as <-. exact H.
  Qed.
  Lemma same_names n : In n (asked name) -> Forall2 (fun fo fo' => String.eqb (fo_name fo) n = String.eqb (fo_name fo') n) (flag_option_list inv) (flag_option_list inv').
  Proof.
    intros A. destruct same_lines as ((C & (F & _)) & (C' & (F' & _))). destruct (manual_check _ _ _ M) as (_ & _ & _ & D).
    pose proof (parsed_reported s name inv _ PA C D) as Q. pose proof (parsed_reported s' name inv' _ PA' C' D) as Q'. rewrite Forall_forall in Q, Q'.
    eapply related; [exact F|exact F'|]. intros fo fo' f I1 I2 I3 H H'.
    assert (G : In (fst f) T) by (destruct f as [g x]; eapply reads_groups; eauto).
    assert (N : ~ In (fo_name fo) (other_names name)) by (intros X; apply NO; exists (fo_name fo); split; [exact X|now exists fo]).
    assert (N' : ~ In (fo_name fo') (other_names name)) by (intros X; apply NO'; exists (fo_name fo'); split; [exact X|now exists fo']).
    apply Bool.eq_true_iff_eq. rewrite !String.eqb_eq. split; intros E; [eapply (two_names name T p n M A fo fo' f)|eapply (two_names name T p n M A fo' fo f)]; eauto.
  Qed.
  Lemma same_use n : In n (asked name) -> uses inv n <-> uses inv' n.
  Proof.
    intros A. pose proof (same_names n A) as F. unfold uses.
    induction F as [|fo fo' l l' E F IH]; [split; intros (x & [] & _)|]. split; intros (x & [<-|I1] & X).
    - exists fo'. split; [now left|]. apply String.eqb_eq. rewrite <- E. now apply String.eqb_eq.
    - destruct (proj1 IH) as (y & I2 & Y); [now exists x|]. exists y. split; [now right|exact Y].
    - exists fo. split; [now left|]. apply String.eqb_eq. rewrite E. now apply String.eqb_eq.
    - destruct (proj2 IH) as (y & I2 & Y); [now exists x|]. exists y. split; [now right|exact Y].
  Qed.
End Lines.

(** ** Two ways of writing *)
(** Lines that the command reads in the same way, and parse as the command (C70), get the same parallelizers,
    and their operands and streams are treated in the same way; for grep and tr if no other names are reported. *)
Theorem C91_same : forall name T p s s' ws ws' os ops inv inv',
  In (name, (T, p)) manual -> tokenises s (name :: ws) -> tokenises s' (name :: ws') ->
  reads T p ws os ops -> reads T p ws' os ops -> plain T p (misread name) ws -> plain T p (misread name) ws' ->
  parse shipped_dir s = Ok inv -> parse shipped_dir s' = Ok inv' ->
  ~ uses_any inv (other_names name) -> ~ uses_any inv' (other_names name) ->
  get_parallelizability_info shipped_dir inv = get_parallelizability_info shipped_dir inv' /\
  (forall c, with_io shipped_dir inv c -> exists c', with_io shipped_dir inv' c' /\ io_operand_list c' = io_operand_list c /\
     io_implicit_input c' = io_implicit_input c /\ io_implicit_output c' = io_implicit_output c).
Proof.
  intros name T p s s' ws ws' os ops inv inv' M S S' R R' PL PL' PA PA' NO NO'.
  destruct (same_lines name T p s s' ws ws' os ops inv inv' M S S' R R' PL PL' PA PA') as ((C & (_ & O)) & (C' & (_ & O'))).
  pose proof (same_use name T p s s' ws ws' os ops inv inv' M S S' R R' PL PL' PA PA' NO NO') as U.
  assert (X : cmd_name inv = cmd_name inv') by congruence. assert (Y : operand_list inv = operand_list inv') by congruence. split.
  - apply C75_para; [exact X| |].
    + intros n I1. apply U. rewrite C in I1. apply in_app_iff. now right.
    + rewrite Y. unfold para_operands. repeat (match goal with |- context [match ?x with _ => _ end] => destruct x end; try exact I); try reflexivity; split; reflexivity.
  - intros c W. apply (C75_applied shipped_dir inv inv' c X Y); [| | |exact W].
    + intros n I1. apply U. rewrite C in I1. apply in_app_iff. now left.
    + intros E. f_equal. apply filter_length. eapply (same_names name T p s s' ws ws' os ops inv inv'); eauto. rewrite <- C, E. now left.
    + destruct (manual_check _ _ _ M) as (_ & _ & _ & D). eapply parsed_classified; [exact PA'| |].
      * rewrite C'. apply get_json_data_ok. exact D.
      * eapply shipped_classifiable. apply get_json_data_ok. exact D.
Qed.
Print Assumptions C91_same.
(** What a generator asks for is there exactly if the command finds the option, in whatever spelling. *)
Theorem C91_question : forall name T p s ws os ops inv n,
  In (name, (T, p)) manual -> tokenises s (name :: ws) -> reads T p ws os ops -> plain T p (misread name) ws ->
  parse shipped_dir s = Ok inv -> ~ uses_any inv (other_names name) ->
  In n (io_names name ++ para_names name) -> ~ In n ["-D"; "--all-repeated"] ->
  (uses inv n <-> finds os n).
Proof.
  intros name T p s ws os ops inv n M S R PL PA NO A ND.
  destruct (proj2 (C70_same_iff name T p s ws os ops M S R) PL) as (i & E & (C & (F & _))). rewrite PA in E. injection E as <-.
  destruct (manual_check _ _ _ M) as (_ & _ & _ & D). pose proof (parsed_reported s name inv _ PA C D) as Q.
  pose proof (reads_groups T p ws os ops R) as G. unfold uses_any, uses in NO. unfold uses, finds. clear R PL S PA.
  induction F as [|fo [g x] l l' H F IH]; [split; [intros (? & [] & _)|intros (? & ? & ? & [] & _)]|].
  inversion Q as [|? ? Q1 Q2]; subst.
  assert (IH' : (exists fo0, In fo0 l /\ fo_name fo0 = n) <-> (exists g a ar, In (g, a) l' /\ In (n, ar) g)).
  { apply IH; [|exact Q2|intros; eapply G; right; eassumption]. intros (m & I1 & y & I2 & Y). apply NO. exists m. split; [exact I1|]. exists y. split; [now right|exact Y]. }
  split.
  - intros (y & [<-|I1] & Y).
    + exists g, x. inversion H as [m h ar H1|m h ar z H1]; subst; cbn in *; exists ar; split; auto.
    + destruct (proj1 IH') as (h & a & ar & I2 & I3); [now exists y|]. exists h, a, ar. split; [now right|exact I3].
  - intros (h & a & ar & [E|I1] & I2).
    + injection E as -> ->. exists fo. split; [now left|]. eapply (one_name (cmd_name inv) T p n M A fo (h, a) ar H); auto.
      * apply (G h a). now left.
      * intros X. apply NO. exists (fo_name fo). split; [exact X|]. exists fo. split; [now left|reflexivity].
    + destruct (proj2 IH') as (y & I3 & Y); [now exists h, a, ar|]. exists y. split; [now right|exact Y].
Qed.
Print Assumptions C91_question.

(** ** Other names do matter *)
(** For each of the other names there are two lines that the command reads in the same way, and parse as the
    command, and that get different information. *)
Definition annotated_alike (inv inv' : invocation) : Prop :=
  get_parallelizability_info shipped_dir inv = get_parallelizability_info shipped_dir inv' /\
  (forall c, with_io shipped_dir inv c -> exists c', with_io shipped_dir inv' c' /\ io_operand_list c' = io_operand_list c /\
     io_implicit_input c' = io_implicit_input c /\ io_implicit_output c' = io_implicit_output c).
Lemma operand_plain w : is_operand w = true -> operand_word w.
Proof. apply is_operand_iff. Qed.
Theorem C91_other_names_refuted : forall name w, In w (other_names name) ->
  exists T p s s' ws ws' os ops inv inv',
    In (name, (T, p)) manual /\ tokenises s (name :: ws) /\ tokenises s' (name :: ws') /\
    reads T p ws os ops /\ reads T p ws' os ops /\ plain T p (misread name) ws /\ plain T p (misread name) ws' /\
    parse shipped_dir s = Ok inv /\ parse shipped_dir s' = Ok inv' /\ uses inv w /\ ~ uses_any inv' (other_names name) /\
    ~ annotated_alike inv inv'.
Proof.
  intros name w I1.
  assert (H : name = "grep" /\ In w (other_names "grep") \/ name = "tr" /\ w = "-C").
  { unfold other_names in I1. repeat (match type of I1 with context [match ?x with _ => _ end] => destruct x end; try (now destruct I1)).
    - now left.
    - right. destruct I1 as [<-|[]]. auto. }
  clear I1. destruct H as [(-> & I1)|(-> & ->)].
  - assert (RF : forall g x y a rest, In g grep_options -> In (x, Required) g -> long_word x -> In (String "-" (String y ""), Required) g ->
       forall os ops, reads grep_options true rest os ops ->
       reads grep_options true (x :: a :: rest) ((g, Some a) :: os) ops /\ reads grep_options true (String "-" (String y "") :: a :: rest) ((g, Some a) :: os) ops).
    { intros g x y a rest G X L Y os ops R. split; [now eapply reads_long_arg|]. apply (reads_short_arg _ _ (String y "") a [(g, Some a)] rest os ops); [|exact R]. now apply letters_next. }
    cbn in I1. destruct I1 as [<-|I1].
    + exists grep_options, true, "grep --regexp a f", "grep -e a f", ["--regexp"; "a"; "f"], ["-e"; "a"; "f"], [([arg "-e"; arg "--regexp"], Some "a")], ["f"],
        (mkInv "grep" [Option_ "--regexp" "a"] ["f"]), (mkInv "grep" [Option_ "-e" "a"] ["f"]).
      destruct (RF [arg "-e"; arg "--regexp"] "--regexp" "e"%char "a" ["f"]) with (os := @nil found) (ops := ["f"]) as (R1 & R2); [inT|inT|now exists "regexp"|inT| |].
      { apply reads_operand; [reflexivity|now apply operand_plain|constructor]. }
      split; [inT|]. split; [apply split_iff_tokenises; vm_compute; reflexivity|]. split; [apply split_iff_tokenises; vm_compute; reflexivity|]. split; [exact R1|]. split; [exact R2|].
      split; [|split; [|split; [vm_compute; reflexivity|split; [vm_compute; reflexivity|]]]].
      * apply plain_option_arg with (g := [arg "-e"; arg "--regexp"]); [inT|inT|nob|]. apply plain_operands; [now apply operand_plain|nob|constructor].
      * apply plain_option_arg with (g := [arg "-e"; arg "--regexp"]); [inT|inT|nob|]. apply plain_operands; [now apply operand_plain|nob|constructor].
      * split; [exists (Option_ "--regexp" "a"); split; [now left|reflexivity]|]. split.
        { intros (m & I1 & (fo & [<-|[]] & E)). cbn in E. subst m. cbn in I1. intuition discriminate. }
        intros (_ & H). eassert (W : with_io shipped_dir (mkInv "grep" [Option_ "--regexp" "a"] ["f"]) _).
        { eexists. split; vm_compute; reflexivity. }
        destruct (H _ W) as (c' & (i & E1 & E2) & X & _). vm_compute in E1. injection E1 as <-. vm_compute in E2. injection E2 as <-. discriminate X.
    + assert (exists y g, w = y /\ In g grep_options /\ long_word w /\ exists c, g = [arg (String "-" (String c "")); arg w] /\ In c ["A"; "B"; "C"; "m"]%char) as (y & g & <- & G & L & c & E & Ic).
      { destruct I1 as [<-|[<-|[<-|[<-|[]]]]].
        - exists "--after-context", [arg "-A"; arg "--after-context"]. split; [reflexivity|]. split; [inT|]. split; [now exists "after-context"|]. exists "A"%char. split; [reflexivity|inT].
        - exists "--before-context", [arg "-B"; arg "--before-context"]. split; [reflexivity|]. split; [inT|]. split; [now exists "before-context"|]. exists "B"%char. split; [reflexivity|inT].
        - exists "--context", [arg "-C"; arg "--context"]. split; [reflexivity|]. split; [inT|]. split; [now exists "context"|]. exists "C"%char. split; [reflexivity|inT].
        - exists "--max-count", [arg "-m"; arg "--max-count"]. split; [reflexivity|]. split; [inT|]. split; [now exists "max-count"|]. exists "m"%char. split; [reflexivity|inT]. }
      set (ca := String "-" (String c "")) in *.
      exists grep_options, true, ("grep " +++ w +++ " 1 -l a"), ("grep " +++ ca +++ " 1 -l a"), [w; "1"; "-l"; "a"], [ca; "1"; "-l"; "a"],
        [(g, Some "1"); ([no "-l"; no "--files-with-matches"], None)], ["a"],
        (mkInv "grep" [Option_ w "1"; Flag "-l"] ["a"]), (mkInv "grep" [Option_ ca "1"; Flag "-l"] ["a"]).
      destruct (RF g w c "1" ["-l"; "a"]) with (os := [([no "-l"; no "--files-with-matches"], @None string)]) (ops := ["a"]) as (R1 & R2); [exact G|subst g; inT|exact L|subst g; inT| |].
      { apply (reads_short _ _ "l" [([no "-l"; no "--files-with-matches"], None)]); [eapply letters_last; [inT|inT|discriminate]|]. apply reads_operand; [reflexivity|now apply operand_plain|constructor]. }
      assert (PL : plain grep_options true (misread "grep") ["-l"; "a"]).
      { apply plain_option with (g := [no "-l"; no "--files-with-matches"]) (ar := NoArg); [inT|inT|discriminate|nob|]. apply plain_operands; [now apply operand_plain|nob|constructor]. }
      split; [inT|].
      assert (TK : tokenises ("grep " +++ w +++ " 1 -l a") ("grep" :: [w; "1"; "-l"; "a"]) /\ tokenises ("grep " +++ ca +++ " 1 -l a") ("grep" :: [ca; "1"; "-l"; "a"]) /\
                   ~ In w (misread "grep") /\ ~ In ca (misread "grep") /\
                   parse shipped_dir ("grep " +++ w +++ " 1 -l a") = Ok (mkInv "grep" [Option_ w "1"; Flag "-l"] ["a"]) /\
                   parse shipped_dir ("grep " +++ ca +++ " 1 -l a") = Ok (mkInv "grep" [Option_ ca "1"; Flag "-l"] ["a"]) /\
                   ~ In ca (other_names "grep") /\
                   get_parallelizability_info shipped_dir (mkInv "grep" [Option_ w "1"; Flag "-l"] ["a"]) <> get_parallelizability_info shipped_dir (mkInv "grep" [Option_ ca "1"; Flag "-l"] ["a"])).
      { unfold ca in *. clear R1 R2 RF L. cbn in I1. destruct Ic as [<-|[<-|[<-|[<-|[]]]]]; destruct I1 as [<-|[<-|[<-|[<-|[]]]]]; try (exfalso; subst g; cbn in G; intuition discriminate);
          (split; [apply split_iff_tokenises; vm_compute; reflexivity|]; split; [apply split_iff_tokenises; vm_compute; reflexivity|]; split; [nob|]; split; [nob|];
           split; [vm_compute; reflexivity|]; split; [vm_compute; reflexivity|]; split; [nob|vm_compute; discriminate]). }
      destruct TK as (T1 & T2 & N1 & N2 & P1 & P2 & N3 & D).
      split; [exact T1|]. split; [exact T2|]. split; [exact R1|]. split; [exact R2|].
      split; [eapply plain_option_arg; [exact G|subst g; inT|exact N1|exact PL]|]. split; [eapply plain_option_arg; [exact G|subst g; inT|exact N2|exact PL]|].
      split; [exact P1|]. split; [exact P2|]. split; [exists (Option_ w "1"); split; [now left|reflexivity]|]. split.
      * intros (m & J & (fo & [<-|[<-|[]]] & Q)); cbn in Q; subst m; [contradiction|]. cbn in J. intuition discriminate.
      * intros (X & _). contradiction.
  - exists tr_options, false, "tr -Cd '\n'", "tr -cd '\n'", ["-Cd"; "\n"], ["-cd"; "\n"], [([no "-c"; no "-C"; no "--complement"], None); ([no "-d"; no "--delete"], None)], ["\n"],
      (mkInv "tr" [Flag "-C"; Flag "-d"] ["\n"]), (mkInv "tr" [Flag "-c"; Flag "-d"] ["\n"]).
    split; [inT|]. split; [apply split_iff_tokenises; vm_compute; reflexivity|]. split; [apply split_iff_tokenises; vm_compute; reflexivity|].
    assert (RD : forall c, In (letter_flag c, NoArg) [no "-c"; no "-C"; no "--complement"] ->
      reads tr_options false [String "-" (String c "d"); "\n"] [([no "-c"; no "-C"; no "--complement"], None); ([no "-d"; no "--delete"], None)] ["\n"]).
    { intros c Ic. apply (reads_short _ _ (String c "d") [([no "-c"; no "-C"; no "--complement"], None); ([no "-d"; no "--delete"], None)]).
      - apply letters_more; [inT|exact Ic|]. eapply letters_last; [inT|inT|discriminate].
      - apply reads_stop; [reflexivity|now apply operand_plain]. }
    assert (PD : forall c, In (letter_flag c, NoArg) [no "-c"; no "-C"; no "--complement"] -> ~ In (letter_flag c) (misread "tr") -> ~ In (String "-" (String c "d")) (misread "tr") ->
      plain tr_options false (misread "tr") [String "-" (String c "d"); "\n"]).
    { intros c Ic N1 N2. apply plain_bundle; [cbn; lia| |exact N2|apply plain_operands; [now apply operand_plain|nob|discriminate]].
      apply bundled_more with (g := [no "-c"; no "-C"; no "--complement"]); [inT|exact Ic|exact N1|].
      apply bundled_last with (g := [no "-d"; no "--delete"]) (ar := NoArg); [inT|inT|discriminate|nob]. }
    split; [apply (RD "C"%char); inT|]. split; [apply (RD "c"%char); inT|]. split; [apply (PD "C"%char); [inT|nob|nob]|]. split; [apply (PD "c"%char); [inT|nob|nob]|].
    split; [vm_compute; reflexivity|]. split; [vm_compute; reflexivity|]. split; [exists (Flag "-C"); split; [now left|reflexivity]|]. split.
    + intros (m & J & (fo & [<-|[<-|[]]] & Q)); cbn in Q; subst m; cbn in J; intuition discriminate.
    + intros (X & _). vm_compute in X. discriminate.
Qed.
Print Assumptions C91_other_names_refuted.

(** ** A case *)
Example C91_case : exists os inv inv',
  reads sort_options true ["-ru"; "f"] os ["f"] /\ reads sort_options true ["--reverse"; "--unique"; "f"] os ["f"] /\
  plain sort_options true (misread "sort") ["-ru"; "f"] /\ plain sort_options true (misread "sort") ["--reverse"; "--unique"; "f"] /\
  parse shipped_dir "sort -ru f" = Ok inv /\ parse shipped_dir "sort --reverse --unique f" = Ok inv' /\
  ~ uses_any inv (other_names "sort") /\ ~ uses_any inv' (other_names "sort") /\
  In "-u" (io_names "sort" ++ para_names "sort") /\ finds os "-u" /\ uses inv' "-u" /\ ~ finds os "-z".
Proof.
  assert (Of : operand_word "f") by now apply operand_plain.
  exists [([no "-r"; no "--reverse"], None); ([no "-u"; no "--unique"], None)].
  eexists. eexists. split; [|split; [|split; [|split; [|split; [vm_compute; reflexivity|split; [vm_compute; reflexivity|]]]]]].
  - apply (reads_short _ _ "ru" [([no "-r"; no "--reverse"], None); ([no "-u"; no "--unique"], None)]).
    + apply letters_more; [inT|inT|]. eapply letters_last; [inT|inT|discriminate].
    + apply reads_operand; [reflexivity|assumption|]. constructor.
  - eapply reads_long; [exists "reverse"; reflexivity|inT|inT|discriminate|]. eapply reads_long; [exists "unique"; reflexivity|inT|inT|discriminate|].
    apply reads_operand; [reflexivity|assumption|]. constructor.
  - apply plain_bundle; [cbn; lia| |nob|].
    + apply bundled_more with (g := [no "-r"; no "--reverse"]); [inT|inT|nob|].
      apply bundled_last with (g := [no "-u"; no "--unique"]) (ar := NoArg); [inT|inT|discriminate|nob].
    + apply plain_operands; [exact Of|nob|]. intros _. constructor.
  - apply plain_option with (g := [no "-r"; no "--reverse"]) (ar := NoArg); [inT|inT|discriminate|nob|].
    apply plain_option with (g := [no "-u"; no "--unique"]) (ar := NoArg); [inT|inT|discriminate|nob|].
    apply plain_operands; [exact Of|nob|]. intros _. constructor.
  - split; [intros (m & [] & _)|]. split; [intros (m & [] & _)|]. split; [inT|]. split; [exists [no "-u"; no "--unique"], None, NoArg; split; inT|].
    split; [exists (Flag "-u"); split; [inT|reflexivity]|].
    intros (g & a & ar & [E|[E|[]]] & I1); injection E as <- <-; cbn in I1; intuition discriminate.
Qed.
