(** * Lemmas for the comparison of input/output information with the effects of commands *)
Require Import Verif.PyBase Verif.JsonData Verif.Shlex Verif.Parser Verif.Access Verif.IOInfo Verif.IOGen Verif.ShippedData
  Verif.SpecShlex Verif.ShlexFacts Verif.SpecParser Verif.SpecIO Verif.ParserFacts Verif.IOFacts Verif.IOProps Verif.IOGeneral Verif.IOShipped
  Verif.P_IO Verif.SpecGetopt Verif.GetoptFacts Verif.P_Getopt Verif.SpecEffects.
From Coq Require Import Lia.

Lemma F2_left {A B} (R : A -> B -> Prop) l l' x : Forall2 R l l' -> In x l -> exists y, In y l' /\ R x y.
Proof.
  induction 1 as [|a b l l' S F IH]; [intros []|]. intros [<-|I]; [exists b; cbn; auto|].
  destruct (IH I) as (y & J & Q). exists y. cbn. auto.
Qed.
Lemma F2_right {A B} (R : A -> B -> Prop) l l' y : Forall2 R l l' -> In y l' -> exists x, In x l /\ R x y.
Proof.
  induction 1 as [|a b l l' S F IH]; [intros []|]. intros [<-|I]; [exists a; cbn; auto|].
  destruct (IH I) as (x & J & Q). exists x. cbn. auto.
Qed.

(** ** The names parse reports *)
Definition names_of (j : json_data) : list string :=
  let fl := get_set_of_all_flags j in
  let op := get_set_of_all_options j in
  map (fun w => dict_get_default (get_dict_flag_to_primary_repr j) w w) fl ++ filter is_letter fl ++
  map (fun w => dict_get_default (get_dict_option_to_primary_repr j) w w) op.
Lemma loop_names j ws : forall fo, In fo (fst (parse_words j ws)) -> In (fo_name fo) (names_of j).
Proof.
  unfold parse_words, names_of. set (fl := get_set_of_all_flags j). set (op := get_set_of_all_options j).
  set (fd := get_dict_flag_to_primary_repr j). set (od := get_dict_option_to_primary_repr j). cbv zeta.
  assert (H : forall n ws, length ws <= n -> forall fo, In fo (fst (parse_loop fl fd op od ws)) ->
    In (fo_name fo) (map (fun w => dict_get_default fd w w) fl ++ filter is_letter fl ++ map (fun w => dict_get_default od w w) op)).
  { clear ws. induction n as [|n IH]; intros [|w ws] L fo I; try (cbn in I; tauto); [cbn in L; lia|].
    cbn [parse_loop] in I. destruct (String.eqb w ""); [destruct I|]. destruct (mem w fl) eqn:M.
    - destruct (parse_loop fl fd op od ws) as [f o] eqn:E. cbn in I. destruct I as [<-|I].
      + apply in_or_app. left. cbn. apply in_map_iff. exists w. split; [reflexivity|now apply mem_In].
      + apply (IH ws); [cbn in L; lia|]. now rewrite E.
    - assert (B : In fo (fst (if are_all_individually_flags w fl
                              then let '(fos, ops) := parse_loop fl fd op od ws in (bundle_flags w ++ fos, ops)
                              else ([], w :: ws))) ->
                  In (fo_name fo) (map (fun w => dict_get_default fd w w) fl ++ filter is_letter fl ++ map (fun w => dict_get_default od w w) op)).
      { destruct (are_all_individually_flags w fl) eqn:A; [|intros []].
        destruct (parse_loop fl fd op od ws) as [f o] eqn:E. cbn. intros X. apply in_app_or in X as [X|X].
        - apply in_or_app. right. apply in_or_app. left. unfold bundle_flags in X. destruct w as [|c r]; [destruct X|].
          apply in_map_iff in X as (ch & <- & X). unfold are_all_individually_flags in A.
          destruct (_ || _); [discriminate|]. rewrite forallb_forall in A. specialize (A ch X).
          cbn [fo_name]. apply filter_In. split; [now apply mem_In|]. clear -X. revert X.
          induction r as [|d r IHr]; cbn; [tauto|]. intros [<-|X]; [reflexivity|auto].
        - apply (IH ws); [cbn in L; lia|]. now rewrite E. }
      destruct (mem w op) eqn:O; [|exact (B I)]. destruct ws as [|a ws]; [exact (B I)|].
      destruct (parse_loop fl fd op od ws) as [f o] eqn:E. cbn in I. destruct I as [<-|I].
      + apply in_or_app. right. apply in_or_app. right. cbn. apply in_map_iff. exists w. split; [reflexivity|now apply mem_In].
      + apply (IH ws); [cbn in L; lia|]. now rewrite E. }
  intros fo I. exact (H (length ws) ws (le_n _) fo I).
Qed.

(** ** Options found and options reported *)
(** All reported names of the option [p] are among [ns], and these are all names of that option. *)
Definition key (name p : string) (ns : list string) : bool :=
  match find (fun e => String.eqb (fst e) name) manual with
  | Some (_, (T, _)) =>
      forallb (fun g => if spelled g p
                        then forallb (fun n => negb (spelled g n) || mem n ns) (names_of (data_of name)) && forallb (spelled g) ns
                        else forallb (fun n => negb (spelled g n)) ns) T
  | None => false
  end.
Lemma manual_find name T p : In (name, (T, p)) manual -> find (fun e => String.eqb (fst e) name) manual = Some (name, (T, p)).
Proof. intros M. cbn in M. repeat (destruct M as [M|M]; [injection M as <- <- <-; reflexivity|]). destruct M. Qed.

Record linked (name : string) (os : list found) (ops : list string) (inv : invocation) (c : invocation_io) : Prop :=
  { l_name : cmd_name inv = name;
    l_ops : operand_list inv = ops;
    l_os : Forall2 same_option (flag_option_list inv) os;
    l_T : exists T p, In (name, (T, p)) manual /\ (forall g x, In (g, x) os -> In g T);
    l_names : forall fo, In fo (flag_option_list inv) -> In (fo_name fo) (names_of (data_of name));
    l_io : with_io shipped_dir inv c;
    l_fos : Forall2 (as_listed (data_of name)) (flag_option_list inv) (io_flag_option_list c) }.
Lemma understood_linked name s os ops inv c : understood name s os ops inv c -> linked name os ops inv c.
Proof.
  intros (T & p & ws & M & S & R & P & _ & _ & Pa & W).
  pose proof (proj2 (C70_same_iff _ _ _ _ _ _ _ M S R) P) as (inv' & Pa' & N & F & O).
  rewrite Pa in Pa'. injection Pa' as <-.
  destruct (C15_classified_as_declared _ _ Pa) as (j & fos & L & A & E). specialize (E c W).
  destruct (manual_check _ _ _ M) as (_ & _ & _ & D).
  assert (j = data_of name) as ->.
  { rewrite N in L. apply get_json_data_ok in L. congruence. }
  constructor; auto.
  - exists T, p. split; [exact M|]. exact (reads_groups _ _ _ _ _ R).
  - intros fo I. unfold parse in Pa. apply split_iff_tokenises in S. rewrite S in Pa. cbn [bind] in Pa. rewrite D in Pa.
    cbn [bind] in Pa. destruct (parse_words (data_of name) ws) as [f o] eqn:Q. injection Pa as <-. cbn in I.
    apply (loop_names _ ws). now rewrite Q.
  - now rewrite E.
Qed.

Section Linked.
  Context (name : string) (os : list found) (ops : list string) (inv : invocation) (c : invocation_io).
  Context (L : linked name os ops inv c).

  Lemma named_iff p ns g x fo : key name p ns = true -> In fo (flag_option_list inv) -> In (g, x) os -> same_option fo (g, x) ->
    (named p (g, x) = true <-> In (fo_name fo) ns).
  Proof.
    intros K I Io S. destruct (l_T _ _ _ _ _ L) as (T & q & M & G). unfold key in K. rewrite (manual_find _ _ _ M) in K.
    rewrite forallb_forall in K. specialize (K g (G _ _ Io)).
    assert (Sn : spelled g (fo_name fo) = true) by (apply spelled_In; inversion S; subst; eauto).
    change (named p (g, x)) with (spelled g p). destruct (spelled g p).
    - apply andb_prop in K as [K1 K2]. split; [intros _|reflexivity].
      rewrite forallb_forall in K1. specialize (K1 _ (l_names _ _ _ _ _ L _ I)). rewrite Sn in K1. cbn in K1. now apply mem_In.
    - split; [discriminate|]. intros J. rewrite forallb_forall in K. specialize (K _ J). rewrite Sn in K. discriminate.
  Qed.
  Lemma pairs fo : In fo (flag_option_list inv) -> exists o, In o os /\ same_option fo o.
  Proof. exact (F2_left _ _ _ _ (l_os _ _ _ _ _ L)). Qed.
  Lemma pairs' o : In o os -> exists fo, In fo (flag_option_list inv) /\ same_option fo o.
  Proof. exact (F2_right _ _ _ _ (l_os _ _ _ _ _ L)). Qed.
  Lemma given_iff p ns : key name p ns = true -> (given os p = true <-> exists n, In n ns /\ uses inv n).
  Proof.
    intros K. unfold given. rewrite existsb_exists. split.
    - intros ((g, x) & I & N). destruct (pairs' _ I) as (fo & J & S). exists (fo_name fo). split.
      + now apply (named_iff p ns g x fo K J I S).
      + exists fo. auto.
    - intros (n & I & fo & J & <-). destruct (pairs _ J) as ((g, x) & Io & S). exists (g, x). split; [exact Io|].
      now apply (named_iff p ns g x fo K J Io S).
  Qed.
  Lemma values_iff p ns a : key name p ns = true ->
    (In a (values os p) <-> exists n, In n ns /\ In (Option_ n a) (flag_option_list inv)).
  Proof.
    intros K. unfold values. rewrite in_flat_map. split.
    - intros ((g, x) & I & H). cbn [snd] in H. destruct x as [b|]; [|destruct H].
      destruct (named p (g, Some b)) eqn:N; [|destruct H]. destruct H as [->|[]].
      destruct (pairs' _ I) as (fo & J & S). inversion S as [|n g' ar b' X]; subst. exists n. split; [|exact J].
      exact (proj1 (named_iff p ns g (Some a) _ K J I S) N).
    - intros (n & I & J). destruct (pairs _ J) as ((g, x) & Io & S). inversion S as [|n' g' ar b' X]; subst.
      exists (g, Some a). split; [exact Io|]. cbn [snd].
      rewrite (proj2 (named_iff p ns g (Some a) _ K J Io S) I). now left.
  Qed.
  Lemma given1 p n : key name p [n] = true -> (given os p = true <-> uses inv n).
  Proof.
    intros K. rewrite (given_iff p [n] K). split; [intros (m & [<-|[]] & U); exact U|intros U; exists n; cbn; auto].
  Qed.
  Lemma given1_false p n : key name p [n] = true -> (given os p = false <-> ~ uses inv n).
  Proof. intros K. rewrite <- (given1 p n K). destruct (given os p); split; congruence. Qed.
  Lemma values1 p n a : key name p [n] = true -> (In a (values os p) <-> In (Option_ n a) (flag_option_list inv)).
  Proof.
    intros K. rewrite (values_iff p [n] a K). split; [intros (m & [<-|[]] & U); exact U|intros U; exists n; cbn; auto].
  Qed.

  (** ** Option arguments *)
  Definition entry_access (e : option_entry) : option access :=
    match oe_arg e with
    | OAList (ty :: ac :: _) =>
        if mem ty ["FILE"; "DIR"; "DIRECTORY"] then match get_access_from_string ac with Ok a => Some a | Raise _ => None end
        else None
    | _ => None
    end.
  Lemma declares_access e d : declares e d -> entry_access e = d.
  Proof.
    unfold entry_access. intros [ty ac rest a E F A|ty ac rest a E F A|ty E F]; rewrite E.
    - apply access_named_iff in A. rewrite A. now destruct F as [->|[->| ->]].
    - destruct (mem ty _) eqn:M; [|reflexivity]. exfalso. apply F. apply mem_In in M. unfold file_type. cbn in M.
      intuition congruence.
    - reflexivity.
  Qed.
  (** Every declaration of the option [n] has the access [a]. *)
  Definition option_access (name n : string) (a : access) : bool :=
    forallb (fun e => negb (mem n (oe_names e)) ||
               match entry_access e with Some b => access_eqb a b | None => false end)
            (j_option (data_of name)).
  Lemma listed fo : In fo (flag_option_list inv) -> exists x, In x (io_flag_option_list c) /\ as_listed (data_of name) fo x.
  Proof. exact (F2_left _ _ _ _ (l_fos _ _ _ _ _ L)). Qed.
  Lemma listed' x : In x (io_flag_option_list c) -> exists fo, In fo (flag_option_list inv) /\ as_listed (data_of name) fo x.
  Proof. exact (F2_right _ _ _ _ (l_fos _ _ _ _ _ L)). Qed.
  Lemma option_mentioned n s a : option_access name n a = true -> In (Option_ n s) (flag_option_list inv) ->
    exists el, denotes a s el /\ mentions c (mkRes el a).
  Proof.
    intros K I. destruct (listed _ I) as (x & J & A). unfold option_access in K. rewrite forallb_forall in K.
    inversion A as [|n' s' e Ie In' U D|n' s' e b el Ie In' U D De]; subst; specialize (K e Ie);
      rewrite (proj2 (mem_In _ _) In') in K; cbn in K; rewrite (declares_access _ _ D) in K; [discriminate|].
    assert (a = b) as <- by (destruct a, b; try discriminate; reflexivity). exists el. split; [exact De|]. right. left. eauto.
  Qed.
  (** The options of a command whose arguments are files. *)
  Definition file_options (name : string) : list (string * access) :=
    flat_map (fun e => match entry_access e with Some a => map (fun n => (n, a)) (oe_names e) | None => [] end)
             (j_option (data_of name)).
  Lemma option_from n r : In (OptionIO n (Res r)) (io_flag_option_list c) ->
    exists s, In (Option_ n s) (flag_option_list inv) /\ denotes (res_access r) s (res_el r) /\
      In (n, res_access r) (file_options name).
  Proof.
    intros I. destruct (listed' _ I) as (fo & J & A). inversion A as [|n' s' e Ie In' U D|n' s' e b el Ie In' U D De]; subst.
    exists s'. cbn. repeat split; auto. unfold file_options. apply in_flat_map. exists e. split; [exact Ie|].
    rewrite (declares_access _ _ D). apply in_map_iff. eauto.
  Qed.
End Linked.

(** ** What is announced, as a list *)
Definition output (w : string) : effect := if String.eqb w "-" then WritesStdout else Writes w.
Definition is_out (a : access) : bool := match a with STREAM_OUTPUT | OTHER_OUTPUT => true | _ => false end.
Definition touch (a : access) (s : string) : effect := if is_out a then output s else input s.
Lemma is_out_spec a : (is_out a = true /\ output_access a) \/ (is_out a = false /\ input_access a).
Proof. unfold output_access, input_access. destruct a; cbn; tauto. Qed.
Lemma not_both a : input_access a -> output_access a -> False.
Proof. unfold output_access, input_access. intros H [->| ->]; intuition congruence. Qed.
Definition fits (e : effect) (r : resource) : Prop :=
  match e with
  | ReadsStdin => res_el r = StdDescriptor STDIN /\ input_access (res_access r)
  | WritesStdout => res_el r = StdDescriptor STDOUT /\ output_access (res_access r)
  | Reads f => res_el r = FileName f /\ input_access (res_access r)
  | Writes f => res_el r = FileName f /\ output_access (res_access r)
  end.
Lemma fits_iff e r s : denotes (res_access r) s (res_el r) -> (fits e r <-> e = touch (res_access r) s).
Proof.
  destruct r as [el a]. cbn. intros D. unfold fits, touch, input, output. cbn.
  assert (X : input_access a -> ~ output_access a) by (intros A B; exact (not_both _ A B)).
  inversion D as [a' I|a' I|a' s' N]; subst; try (rewrite (proj2 (String.eqb_neq _ _) N)); cbn;
    destruct (is_out_spec a) as [(-> & O)|(-> & O)]; try (exfalso; tauto);
    destruct e; (split; [intros [H H']; try discriminate; try (exfalso; tauto); try (injection H as ->); reflexivity
                        |intros H; try discriminate; try (injection H as ->); auto]).
Qed.
(** Operands: strings, or files with an access. *)
Definition arg_of (x : option access * string) : io_arg :=
  match fst x with
  | None => ArgString (snd x)
  | Some a => if is_out a then out_file a (snd x) else in_file a (snd x)
  end.
Lemma arg_of_res x r : arg_of x = Res r <-> exists a s, x = (Some a, s) /\ res_access r = a /\ denotes a s (res_el r).
Proof.
  destruct x as [[a|] s]; unfold arg_of; cbn [fst snd].
  - split.
    + intros H. exists a, s. split; [reflexivity|].
      destruct (is_out_spec a) as [(E & O)|(E & O)]; rewrite E in H; injection H as <-; cbn;
        (destruct (String.eqb s "-") eqn:Q; [apply String.eqb_eq in Q as ->|apply String.eqb_neq in Q]);
        split; try reflexivity; constructor; auto.
    + intros (b & t & E & A & D). injection E as <- <-. destruct r as [el b]. cbn in *. subst b.
      destruct (is_out_spec a) as [(-> & O)|(-> & O)]; unfold in_file, out_file; inversion D as [b I|b I|b t N]; subst; cbn;
        try reflexivity; try (rewrite (proj2 (String.eqb_neq _ _) N); reflexivity); exfalso; eauto using not_both.
  - split; [discriminate|]. intros (a & t & E & _). discriminate.
Qed.

(** [ks]: the options with files as arguments, with the access. *)
Definition file_keys (name : string) (ks : list (string * access)) : bool :=
  forallb (fun x => option_access name (fst x) (snd x) &&
             (negb (mem (fst x) (names_of (data_of name))) ||
              existsb (fun k => access_eqb (snd x) (snd k) && key name (fst k) [fst x]) ks)) (file_options name) &&
  forallb (fun k => existsb (fun x => access_eqb (snd x) (snd k) && key name (fst k) [fst x]) (file_options name)) ks.
Lemma access_eqb_true a b : access_eqb a b = true -> a = b.
Proof. destruct a, b; try discriminate; reflexivity. Qed.

Definition announced_list (os : list found) (l : list (option access * string)) (ks : list (string * access)) : list effect :=
  flat_map (fun x => match fst x with Some a => [touch a (snd x)] | None => [] end) l ++
  flat_map (fun k => map (touch (snd k)) (values os (fst k))) ks.
Lemma announced_iff name os ops inv c ks l P Q e : linked name os ops inv c -> file_keys name ks = true ->
  io_operand_list c = map arg_of l -> stdin_iff c P -> stdout_iff c Q ->
  (announced c e <-> In e (announced_list os l ks) \/ (P /\ e = ReadsStdin) \/ (Q /\ e = WritesStdout)).
Proof.
  intros L K E I O. apply andb_prop in K as [K1 K2]. rewrite forallb_forall in K1, K2.
  change (announced c e) with (exists r, mentions c r /\ fits e r). unfold announced_list. rewrite in_app_iff, !in_flat_map.
  split.
  - intros (r & M & F). destruct M as [M|[(n & M)|[M|M]]].
    + left. left. rewrite E in M. apply in_map_iff in M as (x & A & J). exists x. split; [exact J|].
      apply arg_of_res in A as (a & s & -> & <- & D). cbn. left. symmetry. now apply (fits_iff _ _ _ D).
    + left. right. destruct (option_from _ _ _ _ _ L _ _ M) as (s & J & D & Fo).
      specialize (K1 _ Fo). apply andb_prop in K1 as [_ K1]. cbn [fst snd] in K1.
      pose proof (l_names _ _ _ _ _ L _ J) as N. cbn [fo_name] in N. rewrite (proj2 (mem_In _ _) N) in K1. cbn in K1.
      apply existsb_exists in K1 as (k & Ik & K). apply andb_prop in K as [A K]. apply access_eqb_true in A.
      exists k. split; [exact Ik|]. apply in_map_iff. exists s. rewrite <- A. split; [symmetry; now apply (fits_iff _ _ _ D)|].
      now apply (values1 _ _ _ _ _ L _ _ _ K).
    + right. left. destruct I as [(p & I)|(_ & I)]; rewrite M in I; [injection I as ->|discriminate]. split; [exact p|].
      destruct e; cbn in F; destruct F as [F F']; try discriminate; reflexivity.
    + right. right. destruct O as [(p & O)|(_ & O)]; rewrite M in O; [injection O as ->|discriminate]. split; [exact p|].
      destruct e; cbn in F; destruct F as [F F']; try discriminate; reflexivity.
  - intros [[(x & J & H)|(k & J & H)]|[(p & ->)|(p & ->)]].
    + destruct x as [[a|] s]; [|destruct H]. cbn in H. destruct H as [<-|[]].
      assert (exists r, arg_of (Some a, s) = Res r) as (r & A).
      { unfold arg_of, in_file, out_file. cbn [fst]. destruct (is_out a); eexists; reflexivity. }
      exists r. pose proof A as A'. apply arg_of_res in A' as (a' & s' & X & <- & D). injection X as -> <-. split.
      * left. rewrite E, <- A. now apply in_map.
      * now apply (fits_iff _ _ _ D).
    + apply in_map_iff in H as (s & <- & V). specialize (K2 _ J). apply existsb_exists in K2 as (x & Ix & K).
      apply andb_prop in K as [A K]. apply access_eqb_true in A. rewrite <- A.
      apply (values1 _ _ _ _ _ L _ _ _ K) in V. specialize (K1 _ Ix). apply andb_prop in K1 as [K1 _].
      destruct (option_mentioned _ _ _ _ _ L _ _ _ K1 V) as (el & D & M). eexists. split; [exact M|]. now apply (fits_iff _ _ s).
    + destruct I as [(_ & I)|(q & _)]; [|tauto]. exists stdin. split; [right; right; now left|]. cbn. unfold input_access. auto.
    + destruct O as [(_ & O)|(q & _)]; [|tauto]. exists stdout. split; [right; right; now right|]. cbn. unfold output_access. auto.
Qed.
Lemma keys_checked : forallb (fun x => file_keys (fst x) (snd x))
  [("cat", []); ("comm", []); ("cut", []); ("head", []); ("tail", []); ("wc", []); ("tr", []); ("seq", []); ("uniq", []); ("sed", []);
   ("tee", []); ("mkfifo", []); ("rm", []); ("xargs", [("-a", OTHER_INPUT)]); ("mv", [("-t", OTHER_OUTPUT)]);
   ("diff", [("-X", EXCLUDES_FROM_INPUT); ("-S", OTHER_INPUT); ("--from-file", STREAM_INPUT); ("--to-file", STREAM_INPUT)]);
   ("grep", [("-f", CONFIG_INPUT); ("--exclude-from", EXCLUDES_FROM_INPUT)]); ("awk", [("-f", CONFIG_INPUT)]);
   ("sort", [("-o", STREAM_OUTPUT); ("-T", OTHER_OUTPUT); ("--random-source", CONFIG_INPUT); ("--files0-from", CONTAINER_FOR_INPUT)])] = true.
Proof. vm_compute. reflexivity. Qed.

(** ** Options of plain lines *)
Lemma word_ok_cases w : word_ok w = true -> long_word w \/ exists c, w = letter_flag c.
Proof.
  destruct w as [|a [|c r]]; cbn; try discriminate. rewrite andb_true_iff, Ascii.eqb_eq. intros (-> & H).
  destruct (Ascii.eqb c "-") eqn:E.
  - left. apply Ascii.eqb_eq in E as ->. exists r. reflexivity.
  - right. apply String.eqb_eq in H as ->. exists c. reflexivity.
Qed.
Definition good (bad : list string) (o : found) : Prop :=
  exists w a, In (w, a) (fst o) /\ ~ In w bad /\ (snd o = None <-> a <> Required).
Lemma bundled_letters T bad cs : bundled T bad cs -> exists os, letters T cs None os /\ Forall (good bad) os.
Proof.
  induction 1 as [c g ar G I R N|c cs g G I N B (os & L & F)].
  - exists [(g, None)]. split; [now apply letters_last with ar|]. repeat constructor. exists (letter_flag c), ar. cbn. tauto.
  - exists ((g, None) :: os). split; [now apply letters_more|]. constructor; [|exact F]. exists (letter_flag c), NoArg. cbn.
    split; [exact I|]. split; [exact N|]. split; [discriminate|reflexivity].
Qed.
Lemma plain_reads T p bad ws : forallb word_ok (T_words T) = true -> plain T p bad ws ->
  exists os ops, reads T p ws os ops /\ Forall (good bad) os.
Proof.
  intros K. rewrite forallb_forall in K.
  assert (W : forall g w a, In g T -> In (w, a) g -> long_word w \/ exists c, w = letter_flag c).
  { intros g w a G I. apply word_ok_cases, K, T_words_In. eauto. }
  induction 1 as [|w ws O N F|w g ar ws G I R N P (os & ops & H & F)|w g x ws G I N P (os & ops & H & F)|cs ws Le B N P (os & ops & H & F)].
  - exists [], []. split; constructor.
  - destruct p.
    + exists [], (w :: ws). split; [|constructor]. apply reads_operand; auto. specialize (F eq_refl). clear -F.
      induction F as [|v l O F IH]; [constructor|]. now apply reads_operand.
    + exists [], (w :: ws). split; [|constructor]. now apply reads_stop.
  - exists ((g, None) :: os), ops. split; [|constructor; [|exact F]; exists w, ar; cbn; tauto].
    destruct (W _ _ _ G I) as [Lo|(c & ->)]; [now apply reads_long with ar|].
    change ((g, None) :: os) with ([(g, @None string)] ++ os). apply (reads_short T p (one_char c)); [|exact H].
    now apply letters_last with ar.
  - exists ((g, Some x) :: os), ops. split.
    + destruct (W _ _ _ G I) as [Lo|(c & ->)]; [now apply reads_long_arg|].
      change ((g, Some x) :: os) with ([(g, Some x)] ++ os). apply (reads_short_arg T p (one_char c)); [|exact H].
      now apply letters_next.
    + constructor; [|exact F]. exists w, Required. cbn. split; [exact I|]. split; [exact N|]. split; [discriminate|congruence].
  - destruct (bundled_letters _ _ _ B) as (os' & L & F'). exists (os' ++ os), ops. split; [now apply reads_short|].
    apply Forall_app. auto.
Qed.
Lemma understood_good name s os ops inv c : understood name s os ops inv c -> Forall (good (misread name)) os.
Proof.
  intros (T & p & ws & M & S & R & P & _). destruct (manual_check _ _ _ M) as (_ & _ & K & _).
  destruct (plain_reads _ _ _ _ K P) as (os' & ops' & R' & F). destruct (C70_one_reading _ _ _ _ _ _ _ _ M R R') as (-> & _).
  exact F.
Qed.
(** An option all of whose spellings are misread does not occur. *)
Definition never (name p : string) : bool :=
  match find (fun e => String.eqb (fst e) name) manual with
  | Some (_, (T, _)) => forallb (fun g => negb (spelled g p) || forallb (fun x => mem (fst x) (misread name)) g) T
  | None => false
  end.
Lemma never_given name s os ops inv c p : understood name s os ops inv c -> never name p = true -> given os p = false.
Proof.
  intros U K. pose proof (understood_good _ _ _ _ _ _ U) as F. destruct (l_T _ _ _ _ _ (understood_linked _ _ _ _ _ _ U)) as (T & q & M & G).
  unfold never in K. rewrite (manual_find _ _ _ M) in K. rewrite forallb_forall in K.
  destruct (given os p) eqn:E; [|reflexivity]. exfalso. unfold given in E. apply existsb_exists in E as ((g, x) & I & N).
  specialize (K g (G _ _ I)). change (named p (g, x)) with (spelled g p) in N. rewrite N in K. cbn in K.
  rewrite Forall_forall in F. destruct (F _ I) as (w & a & J & B & _). rewrite forallb_forall in K. specialize (K _ J).
  apply mem_In in K. exact (B K).
Qed.
(** An option that always has an argument has values if it is given. *)
Definition required (name p : string) : bool :=
  match find (fun e => String.eqb (fst e) name) manual with
  | Some (_, (T, _)) => forallb (fun g => negb (spelled g p) || forallb (fun x => is_required (snd x)) g) T
  | None => false
  end.
Lemma given_values name s os ops inv c p : understood name s os ops inv c -> required name p = true ->
  (given os p = false <-> values os p = []).
Proof.
  intros U K. pose proof (understood_good _ _ _ _ _ _ U) as F. destruct (l_T _ _ _ _ _ (understood_linked _ _ _ _ _ _ U)) as (T & q & M & G).
  unfold required in K. rewrite (manual_find _ _ _ M) in K. rewrite forallb_forall in K. clear U M.
  unfold given, values. induction os as [|(g, x) os IH]; [cbn; tauto|]. inversion F as [|? ? Go F']; subst.
  cbn [existsb flat_map snd]. rewrite orb_false_iff, (IH F') by (intros; eapply G; right; eauto).
  specialize (K g (G _ _ (or_introl eq_refl))). change (named p (g, x)) with (spelled g p).
  destruct (spelled g p) eqn:E; [|destruct x; cbn; tauto]. cbn in K. destruct Go as (w & a & J & _ & V). cbn [fst snd] in *.
  rewrite forallb_forall in K. specialize (K _ J). cbn in K. destruct a; try discriminate.
  destruct x as [b|]; [cbn; split; [intros [H _]|]; discriminate|]. exfalso. now apply (proj1 V eq_refl).
Qed.
