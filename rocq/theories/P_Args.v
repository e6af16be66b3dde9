(** * Theorems about the man page scraper (C54) *)
Require Import Verif.PyBase Verif.JsonData Verif.Parser Verif.SpecShlex Verif.SpecParser Verif.ShlexFacts Verif.ParserFacts Verif.ParserProps
  Verif.Access Verif.IOInfo Verif.IOGen Verif.SpecIO Verif.IOFacts Verif.IOProps Verif.IOGeneral Verif.IOShipped
  Verif.ArgsToJson Verif.SpecArgs Verif.ArgsFacts.
From Coq Require Import Lia Permutation.

(** ** C54 *)
(** What is written for a man page: the first announcements of all flags and options, by line. *)
Theorem C54_exact : forall lines j, Forall text_line lines ->
  (parse_lines lines = j <-> exists gs, scanned [] lines gs /\ scraped gs j).
Proof.
  intros lines j T. unfold parse_lines. split.
  - intros H. exists (collect lines []). split; [now apply collect_spec|now apply scraped_spec].
  - intros (gs & S & H). apply (collect_spec _ T) in S. apply scraped_spec in H. congruence.
Qed.
Print Assumptions C54_exact.
Example C54_case :
  parse_lines ["-i, --ignore-case" +++ one_char "010"; "-A NUM, --after-context=NUM" +++ one_char "010";
               "-NUM  Same as --context=NUM"; "--color[=WHEN], --colour[=WHEN]"; "-i    again"] =
  mkJson [FEList ["-i"; "--ignore-case"]]
    [mkOE ["-A"] (OAStr "NUM"); mkOE ["--after-context"] (OAStr "NUM"); mkOE ["--color"] (OAStr "WHEN"); mkOE ["--colour"] (OAStr "WHEN")].
Proof. vm_compute. reflexivity. Qed.

(** Every entry of the flag list is a list of spellings exactly if no line announces flags and options together. *)
Theorem C54_lists_iff : forall lines gs, Forall text_line lines -> scanned [] lines gs ->
  (forall e, In e (j_flag (parse_lines lines)) -> exists l, e = FEList l) <-> (forall g, In g gs -> ~ mixed g).
Proof.
  intros lines gs T S. apply (collect_spec _ T) in S. unfold parse_lines. rewrite S, parse_args_spec. cbn. split.
  - intros H g G ((n & I) & m & a & J). specialize (H (FEStr n)). destruct H as [l Q]; [|discriminate].
    apply in_flat_map. exists g. split; [exact G|]. unfold flag_entries. rewrite (proj2 (not_all_flags g)) by eauto.
    apply in_flat_map. exists (XFlag n). split; [exact I|now left].
  - intros H e I. apply in_flat_map in I as (g & G & I). unfold flag_entries in I. destruct (forallb is_flag g) eqn:E.
    + destruct I as [<-|[]]. eauto.
    + exfalso. apply (H g G). split; [|now apply not_all_flags]. apply in_flat_map in I as ([n|n a] & J & K); [eauto|destruct K].
Qed.
Print Assumptions C54_lists_iff.
(** Refuted: the line of uniq that announces both spellings of an option, one of them without its argument. *)
Theorem C54_lists_refuted : exists lines e, Forall text_line lines /\ In e (j_flag (parse_lines lines)) /\ forall l, e <> FEList l.
Proof.
  exists ["-w, --check-chars=N"], (FEStr "-w"). split; [|split; [vm_compute; auto|discriminate]].
  constructor; [|constructor]. exists "-w, --check-chars=N". split; [|now left]. cbn. repeat split; discriminate.
Qed.
Print Assumptions C54_lists_refuted.

(** No name is written twice, dashes aside ... *)
Theorem C54_names_once : forall lines bs, Forall text_line lines ->
  Forall2 (without (eq dash)) (written (parse_lines lines)) bs -> NoDup bs.
Proof.
  intros lines bs T H. assert (E : bs = map undash (written (parse_lines lines))).
  { induction H as [|n b ns bs' W H IH]; cbn; [reflexivity|]. apply undash_spec in W. congruence. }
  destruct (collect_past lines T [] (NoDup_nil _)) as [N _]. rewrite app_nil_r in N. apply (Permutation_NoDup (l := map undash (map xname (concat (collect lines []))))).
  - subst bs. apply Permutation_map. symmetry. apply written_names.
  - rewrite map_map. apply (Permutation_NoDup (Permutation_sym (Permutation_rev _))). exact N.
Qed.
Print Assumptions C54_names_once.
(** ... and everything announced anywhere is written, dashes aside. *)
Theorem C54_complete : forall lines l xs x b, Forall text_line lines -> In l lines -> announced l xs -> In x xs ->
  without (eq dash) (xname x) b -> exists n, In n (written (parse_lines lines)) /\ without (eq dash) n b.
Proof.
  intros lines l xs x b T L A X W. apply announced_spec in A. subst xs. apply undash_spec in W. subst b.
  destruct (collect_past lines T [] (NoDup_nil _)) as [_ C]. specialize (C l x L X). rewrite app_nil_r, <- in_rev in C.
  apply in_map_iff in C as (y & E & Y). exists (xname y). split; [|now apply undash_spec].
  apply (Permutation_in _ (Permutation_sym (written_names _))). now apply in_map.
Qed.
Print Assumptions C54_complete.
(** Nothing else is written. *)
Theorem C54_sound : forall lines n, Forall text_line lines -> In n (written (parse_lines lines)) ->
  exists l xs x, In l lines /\ announced l xs /\ In x xs /\ xname x = n.
Proof.
  intros lines n T H. apply (Permutation_in _ (written_names _)) in H. apply in_map_iff in H as (x & <- & H).
  apply in_concat in H as (g & G & X). revert G. unfold parse_lines. generalize (@nil string) as past.
  assert (F : forall xs past ys past', fresh_of past xs = (ys, past') -> incl ys xs).
  { clear. induction xs as [|x xs IH]; cbn; intros past ys past' H; [injection H as <- <-; apply incl_refl|].
    destruct (mem (undash (xname x)) past); [apply incl_tl; now apply (IH _ _ _ H)|].
    destruct (fresh_of (undash (xname x) :: past) xs) as [zs q] eqn:F. injection H as <- <-. apply IH in F.
    intros y [->|Y]; [now left|right; auto]. }
  induction T as [|l ls Tl T IH]; cbn; intros past G; [destruct G|]. rewrite (find_matches_spec l past Tl) in G.
  destruct (fresh_of past (line_forms l)) as [ys past'] eqn:E.
  assert (D : g = ys \/ In g (collect ls past')) by (destruct ys; [auto|destruct G; auto]). destruct D as [->|D].
  - exists l, (line_forms l), x. repeat split; [now left|now apply announced_spec|now apply (F _ _ _ _ E)].
  - destruct (IH _ D) as (l' & xs & y & L & A & Y & Q). exists l', xs, y. split; [now right|auto].
Qed.
Print Assumptions C54_sound.
(** A spelling can get lost because another one only differs in its dashes. *)
Theorem C54_spellings_refuted : exists l xs x, text_line l /\ announced l xs /\ In x xs /\ ~ In (xname x) (written (parse_lines [l])).
Proof.
  exists "-h, --h", [XFlag "-h"; XFlag "--h"], (XFlag "--h"). split; [|split; [|split; [right; now left|]]].
  - exists "-h, --h". split; [|now left]. cbn. repeat split; discriminate.
  - apply announced_spec. vm_compute. reflexivity.
  - vm_compute. intuition discriminate.
Qed.
Print Assumptions C54_spellings_refuted.

(** With a file that has a bare string, the single dash (standard input) is read as a flag instead of as an operand. *)
Lemma written_spelling lines n : Forall text_line lines -> In n (written (parse_lines lines)) -> spelling n.
Proof.
  intros T H. destruct (C54_sound _ _ T H) as (l & xs & x & _ & (s & ps & _ & _ & R) & X & <-). clear -R X.
  induction R as [|p ps xs N R IH|p ps y xs A R IH]; [destruct X|auto|]. destruct X as [->|X]; [|auto]. destruct A; assumption.
Qed.
Theorem C54_dash_refuted : forall lines gs g dir name s, Forall text_line lines -> scanned [] lines gs -> In g gs -> mixed g ->
  loads dir name (parse_lines lines) -> tokenises s [name; "-"] ->
  parse dir s = Ok (mkInv name [Flag "-"] []).
Proof.
  intros lines gs g dir name s T S G M L K. set (j := parse_lines lines) in *.
  assert (B : exists n, In (FEStr n) (j_flag j)).
  { assert (X : ~ forall e, In e (j_flag j) -> exists l, e = FEList l) by (intros X; now apply (proj1 (C54_lists_iff _ _ T S) X g)).
    destruct (existsb (fun e => match e with FEStr _ => true | FEList _ => false end) (j_flag j)) eqn:E.
    - apply existsb_exists in E as ([l|n] & I & Q); [discriminate|eauto].
    - exfalso. apply X. intros [l|n] I; [eauto|]. enough (Y : existsb (fun e => match e with FEStr _ => true | FEList _ => false end) (j_flag j) = true) by congruence.
      apply existsb_exists. exists (FEStr n). now split. }
  destruct B as [n B].
  assert (W : forall n, In (FEStr n) (j_flag j) -> exists r, n = String dash r /\ r <> "").
  { intros m I. apply spelling_dash. apply (written_spelling lines); [exact T|]. apply in_or_app. left. apply in_flat_map.
    exists (FEStr m). split; [exact I|now left]. }
  assert (D : flag_declared j "-").
  { exists (FEStr n). split; [exact B|]. destruct (W n B) as (r & -> & _). now left. }
  apply parse_iff. exists ["-"], j. cbn [cmd_name flag_option_list operand_list]. split; [exact K|]. split; [exact L|].
  assert (C : flag_canonical j "-" "-").
  { unfold flag_canonical, canonical.
    assert (X : forall l, In l (map spellings (j_flag j)) -> further l "-" -> exists others, l = "-" :: others /\ In "-" others).
    { intros l I F. apply in_map_iff in I as ([ns|m] & <- & I); cbn in F.
      - exfalso. destruct ns as [|n0 ns]; [destruct F|]. assert (Y : spelling "-").
        { apply (written_spelling lines); [exact T|]. apply in_or_app. left. apply in_flat_map. exists (FEList (n0 :: ns)).
          split; [exact I|right; exact F]. }
        apply spelling_dash in Y as (r & Q & R). injection Q as <-. congruence.
      - destruct (W m I) as (r & -> & _). cbn in *. eauto. }
    revert X. generalize (map spellings (j_flag j)) as ls. induction ls as [|l ls IH] using rev_ind; intros X.
    - right. split; [intros l []|reflexivity].
    - destruct (in_dec String.string_dec "-" (tl l)) as [I|I].
      + destruct (X l) as (others & -> & O); [apply in_or_app; right; now left|destruct l; exact I|].
        left. exists ls, others, []. split; [reflexivity|]. split; [exact O|intros l' []].
      + destruct IH as [(pre & others & post & -> & O & P)|[H _]].
        * intros l' I'. apply X. apply in_or_app. now left.
        * left. exists pre, others, (post ++ [l]). split; [now rewrite <- app_assoc|]. split; [exact O|].
          intros l' I'. apply in_app_or in I' as [I'|[<-|[]]]; [now apply P|]. destruct l; exact I.
        * right. split; [|reflexivity]. intros l' I'. apply in_app_or in I' as [I'|[<-|[]]]; [now apply H|]. destruct l; exact I. }
  split; [|exact I]. apply (groups_cons j ["-"] [Flag "-"] [] [] []); [|constructor]. constructor; [discriminate|exact D|exact C].
Qed.
Print Assumptions C54_dash_refuted.
Example C54_dash_case : parse (fun f => if String.eqb f "uniq.json" then FFound (parse_lines ["-w, --check-chars=N"]) else FNotFound) "uniq -" =
  Ok (mkInv "uniq" [Flag "-"] []) /\
  exists gs g, scanned [] ["-w, --check-chars=N"] gs /\ In g gs /\ mixed g.
Proof.
  split; [vm_compute; reflexivity|]. exists [[XFlag "-w"; XOption "--check-chars" "N"]], [XFlag "-w"; XOption "--check-chars" "N"].
  split; [|split; [now left|]].
  - apply collect_spec; [|vm_compute; reflexivity]. constructor; [|constructor]. eexists. split; [|left; reflexivity].
    cbn. repeat split; discriminate.
  - split; [exists "-w"; now left|exists "--check-chars", "N"; right; now left].
Qed.

(** The file has to be edited by hand if an option takes a file: as scraped, there is no input/output information for the
    command at all; otherwise all arguments count as strings. *)
Theorem C54_files_iff : forall lines gs, Forall text_line lines -> scanned [] lines gs ->
  classifiable (parse_lines lines) <-> (forall g n a, In g gs -> In (XOption n a) g -> ~ file_type a).
Proof.
  intros lines gs T S. apply (collect_spec _ T) in S. unfold parse_lines. rewrite S, parse_args_spec. unfold classifiable. cbn. split.
  - intros H g n a G X. destruct (H (mkOE [n] (OAStr a))) as [_ [d D]].
    + apply in_flat_map. exists g. split; [exact G|]. apply in_flat_map. exists (XOption n a). split; [exact X|now left].
    + inversion D; cbn in *; congruence.
  - intros H e I. apply in_flat_map in I as (g & G & I). apply in_flat_map in I as ([n|n a] & X & I); [destruct I|].
    destruct I as [<-|[]]. split; [now exists n|]. exists None. apply (declares_plain _ a); [reflexivity|]. now apply (H g n a).
Qed.
Print Assumptions C54_files_iff.
Theorem C54_files_need_editing : forall lines gs g n a dir inv, Forall text_line lines -> scanned [] lines gs ->
  In g gs -> In (XOption n a) g -> file_type a -> loads dir (cmd_name inv) (parse_lines lines) ->
  get_input_output_info dir inv = None.
Proof.
  intros lines gs g n a dir inv T S G X F L. apply none_iff. right. right. intros (fos & j & L' & C & _).
  rewrite (loads_fun _ _ _ _ L' L) in C. exact (proj1 (C54_files_iff _ _ T S) C g n a G X F).
Qed.
Print Assumptions C54_files_need_editing.
Theorem C54_options_are_strings : forall lines dir inv c n x, Forall text_line lines ->
  loads dir (cmd_name inv) (parse_lines lines) -> with_io dir inv c -> In (OptionIO n x) (io_flag_option_list c) ->
  exists s, x = ArgString s.
Proof.
  intros lines dir inv c n x T L (i & H & A) I. destruct (info_some _ _ _ H) as (g & G & Ty & _).
  unfold apply_io_info in A. destruct (map_result _ (combine (flag_option_list inv) _)) as [fos|] eqn:E; [|discriminate]. cbn [bind] in A.
  destruct (map_result _ (combine (operand_list inv) _)); [|discriminate]. cbn in A. injection A as <-. cbn in I.
  assert (C : options_classified dir inv fos) by (apply typer_applied; eauto).
  destruct C as (j & L' & _ & C). rewrite (loads_fun _ _ _ _ L' L) in C. clear -C I T.
  induction C as [|fo y l l' F C IH]; [destruct I|]. destruct I as [->|I]; [|auto].
  inversion F as [|n' s d x' D O]; subst. destruct D as (pre & e & post & Q & _ & D & _).
  assert (J : In e (j_option (parse_lines lines))) by (rewrite Q; apply in_or_app; right; now left).
  unfold parse_lines in J. rewrite parse_args_spec in J. cbn in J.
  apply in_flat_map in J as (g & _ & J). apply in_flat_map in J as ([m|m a] & _ & J); [destruct J|]. destruct J as [<-|[]].
  inversion D; cbn in *; try discriminate; subst. inversion O; subst. eauto.
Qed.
Print Assumptions C54_options_are_strings.
Example C54_files_case : get_input_output_info
    (fun f => if String.eqb f "sort.json" then FFound (parse_lines ["-r, --reverse"; "-o FILE, --output=FILE"]) else FNotFound)
    (mkInv "sort" [Flag "-r"] ["f"]) = None.
Proof. vm_compute. reflexivity. Qed.
Example C54_strings_case : exists c, with_io
    (fun f => if String.eqb f "sort.json" then FFound (parse_lines ["-r, --reverse"; "-k KEYDEF, --key=KEYDEF"]) else FNotFound)
    (mkInv "sort" [Option_ "-k" "2"] ["f"]) c /\ io_flag_option_list c = [OptionIO "-k" (ArgString "2")].
Proof. eexists. split; [eexists; split; vm_compute; reflexivity|reflexivity]. Qed.
