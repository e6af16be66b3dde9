(** * Facts about the records of the earlier annotation language *)
From Coq Require Import NArith.
Require Import Verif.PyBase Verif.ParserFacts Verif.Parser Verif.SpecIO Verif.SpecPara Verif.ParaFacts Verif.IOShipped Verif.Json Verif.SpecJson
  Verif.JsonFacts Verif.JsonFacts2 Verif.OldText Verif.ShippedData Verif.SpecParser Verif.SpecOld.

(** ** Predicates can be decided *)
Lemma uses_any_dec inv l : {uses_any inv l} + {~ uses_any inv l}.
Proof.
  induction l as [|n l IH].
  - right. intros (n & [] & _).
  - destruct (uses_dec inv n) as [U|U]; [left; exists n; cbn; auto|].
    destruct IH as [H|H].
    + left. destruct H as (m & I & J). exists m. cbn. auto.
    + right. intros (m & [-> |I] & J); [auto|apply H; exists m; auto].
Qed.
Lemma value_dec inv names v :
  {exists n, In n names /\ In (Option_ n v) (flag_option_list inv)} + {~ exists n, In n names /\ In (Option_ n v) (flag_option_list inv)}.
Proof.
  assert (D : forall x y : flag_option, {x = y} + {x <> y}) by (decide equality; apply string_dec).
  induction names as [|n l IH].
  - right. intros (n & [] & _).
  - destruct (in_dec D (Option_ n v) (flag_option_list inv)) as [U|U]; [left; exists n; cbn; auto|].
    destruct IH as [H|H].
    + left. destruct H as (m & I & J). exists m. cbn. auto.
    + right. intros (m & [-> |I] & J); [auto|apply H; exists m; auto].
Qed.
Fixpoint met_dec (inv : invocation) (p : pred) {struct p} : {met inv p} + {~ met inv p}.
Proof.
  destruct p as [|names|names|names v|n|ps|ps]; cbn [met].
  - left. exact I.
  - apply uses_any_dec.
  - destruct (uses_any_dec inv names); [right|left]; tauto.
  - apply value_dec.
  - apply Nat.eq_dec.
  - revert ps. fix go 1. intros [|p ps]; [left; exact I|]. destruct (met_dec inv p) as [H|H]; [|right; tauto].
    destruct (go ps) as [K|K]; [left; tauto|right; tauto].
  - revert ps. fix go 1. intros [|p ps]; [right; tauto|]. destruct (met_dec inv p) as [H|H]; [left; tauto|].
    destruct (go ps) as [K|K]; [left; tauto|right; tauto].
Defined.

(** ** The table of the records *)
Definition read_record (x : string * string) : option (string * string * list old_case) :=
  match Json.loads (snd x) with
  | Ok v => option_map (fun r => (fst x, fst r, snd r)) (record_of v)
  | Raise _ => None
  end.
Definition old_table : list (string * string * list old_case) :=
  Eval vm_compute in flat_map (fun x => match read_record x with Some r => [r] | None => [] end) old_texts.
Lemma old_table_reads : map read_record old_texts = map Some old_table.
Proof. vm_compute. reflexivity. Qed.
Lemma old_record_iff fn name cs : old_record fn name cs <-> In (fn, name, cs) old_table.
Proof.
  split.
  - intros (t & v & I & D & R). apply loads_iff in D.
    assert (J : In (read_record (fn, t)) (map read_record old_texts)) by now apply in_map.
    rewrite old_table_reads in J. apply in_map_iff in J. destruct J as (r & E & J).
    unfold read_record in E. cbn [fst snd] in E. rewrite D, R in E. cbn in E. injection E as ->. exact J.
  - intros I. assert (J : In (Some (fn, name, cs)) (map read_record old_texts)) by (rewrite old_table_reads; now apply in_map).
    apply in_map_iff in J. destruct J as ([fn' t] & E & J). unfold read_record in E. cbn [fst snd] in E.
    destruct (Json.loads t) as [v|] eqn:L; [|discriminate]. destruct (record_of v) as [[n c]|] eqn:R; [|discriminate].
    cbn in E. injection E as -> -> ->. exists t, v. repeat split; auto. now apply loads_iff.
Qed.
Lemma old_commands_table : old_commands = map (fun x => snd (fst x)) old_table.
Proof. vm_compute. reflexivity. Qed.

(** ** Classes *)
Lemma assigned_fun inv cs k k' : assigned inv cs k -> assigned inv cs k' -> k = k'.
Proof. intros H. revert k'. induction H; intros k' H'; inversion H'; subst; auto; contradiction. Qed.
Lemma assigned_total inv cs : (exists c, In c cs /\ c_when c = Otherwise) -> exists k, assigned inv cs k.
Proof.
  induction cs as [|c cs IH]; [intros (c & [] & _)|].
  intros (c' & I & E). destruct (met_dec inv (c_when c)) as [M|M]; [eexists; now apply as_here|].
  destruct I as [-> |I]; [rewrite E in M; now destruct M|].
  destruct IH as (k & A); [eauto|]. exists k. now apply as_later.
Qed.
Lemma assigned_in inv cs k : assigned inv cs k -> exists c, In c cs /\ c_class c = k.
Proof. induction 1 as [c cs|c cs k N A (c' & I & E)]; [exists c|exists c']; cbn; auto. Qed.
Definition is_otherwise (p : pred) : bool := match p with Otherwise => true | _ => false end.
Lemma tables_total fn name cs : In (fn, name, cs) old_table -> exists c, In c cs /\ c_when c = Otherwise.
Proof.
  intros I. assert (F : forallb (fun x => existsb (fun c => is_otherwise (c_when c)) (snd x)) old_table = true) by (vm_compute; reflexivity).
  rewrite forallb_forall in F. specialize (F _ I). cbn in F. apply existsb_exists in F. destruct F as (c & J & E).
  exists c. split; [exact J|]. now destruct (c_when c).
Qed.
(** Two records for one command agree. *)
Definition cases_of (name : string) : option (list old_case) :=
  option_map snd (find (fun x => String.eqb (snd (fst x)) name) old_table).
Lemma cases_of_table : Forall (fun x => cases_of (snd (fst x)) = Some (snd x)) old_table.
Proof. unfold old_table at 1. repeat (constructor; [vm_compute; reflexivity|]). constructor. Qed.
Lemma old_class_iff inv k : old_class inv k <-> exists cs, cases_of (cmd_name inv) = Some cs /\ assigned inv cs k.
Proof.
  split.
  - intros (fn & cs & R & A). apply old_record_iff in R. exists cs. split; [|exact A].
    exact (proj1 (Forall_forall _ _) cases_of_table _ R).
  - intros (cs & C & A). unfold cases_of in C.
    destruct (find _ old_table) as [[[fn n] c]|] eqn:F; [|discriminate]. cbn in C. injection C as ->.
    apply find_some in F. destruct F as (I & E). cbn in E. apply String.eqb_eq in E. subst n.
    exists fn, cs. split; [now apply old_record_iff|exact A].
Qed.
Lemma one_class inv : In (cmd_name inv) old_commands -> exists k, old_class inv k /\ forall k', old_class inv k' -> k' = k.
Proof.
  intros I. rewrite old_commands_table in I. apply in_map_iff in I. destruct I as ([[fn n] cs] & E & I). cbn in E. subst n.
  destruct (assigned_total inv cs (tables_total _ _ _ I)) as (k & A).
  assert (C := proj1 (Forall_forall _ _) cases_of_table _ I). cbn in C.
  exists k. split; [apply old_class_iff; eauto|]. intros k' H. apply old_class_iff in H. destruct H as (cs' & C' & A').
  rewrite C in C'. injection C' as <-. eauto using assigned_fun.
Qed.
Lemma class_command inv k : old_class inv k -> In (cmd_name inv) old_commands.
Proof.
  intros (fn & cs & R & _). apply old_record_iff in R. rewrite old_commands_table. apply in_map_iff. now exists (fn, cmd_name inv, cs).
Qed.

(** ** What the records allow *)
Definition par (k : string) : bool := mem k ["stateless"; "parallelizable_pure"].
Lemma par_iff k : par k = true <-> k = "stateless" \/ k = "parallelizable_pure".
Proof. unfold par. rewrite mem_In. cbn. intuition. Qed.
Lemma old_parallel_iff inv : old_parallel inv <-> exists cs k, cases_of (cmd_name inv) = Some cs /\ assigned inv cs k /\ par k = true.
Proof.
  unfold old_parallel. rewrite !old_class_iff. split.
  - intros [(cs & C & A) | (cs & C & A)]; exists cs; eexists; repeat split; eauto.
  - intros (cs & k & C & A & P). apply par_iff in P. destruct P as [-> | ->]; eauto.
Qed.
Definition always_old : list string :=
  ["col"; "custom_tr"; "xargs"; "set_diff"; "test_one"; "test_two"; "alt_bigrams_aux"; "bigrams_aux"] ++ dropped.
Definition sometimes : list string := ["cat"; "custom_sort"; "cut"; "fmt"; "grep"; "hdfs"; "pr"; "sort"; "tr"].
Lemma old_kinds fn n cs : In (fn, n, cs) old_table ->
  (In n always_old /\ forall c, In c cs -> par (c_class c) = true) \/
  (~ In n always_old /\ ~ In n sometimes /\ forall c, In c cs -> par (c_class c) = false) \/
  (~ In n always_old /\ In n sometimes).
Proof.
  intros I.
  assert (F : forallb (fun x => let n := snd (fst x) in let cs := snd x in
    (mem n always_old && forallb (fun c => par (c_class c)) cs) ||
    (negb (mem n always_old) && (negb (mem n sometimes) && forallb (fun c => negb (par (c_class c))) cs || mem n sometimes))) old_table = true)
    by (vm_compute; reflexivity).
  rewrite forallb_forall in F. specialize (F _ I). cbn [fst snd] in F.
  destruct (mem n always_old) eqn:A; cbn [andb orb negb] in F.
  - left. apply mem_In in A. split; [exact A|]. rewrite orb_false_r in F. now rewrite forallb_forall in F.
  - right. assert (N : ~ In n always_old) by (rewrite <- mem_In; congruence).
    destruct (mem n sometimes) eqn:S.
    + right. apply mem_In in S. auto.
    + left. assert (M : ~ In n sometimes) by (rewrite <- mem_In; congruence). repeat split; auto.
      cbn [andb orb negb] in F. rewrite orb_false_r, forallb_forall in F. intros c J. specialize (F _ J). now destruct (par (c_class c)).
Qed.
Lemma in_table name cs : cases_of name = Some cs -> exists fn, In (fn, name, cs) old_table.
Proof.
  unfold cases_of. destruct (find _ old_table) as [[[fn n] c]|] eqn:F; [|discriminate]. cbn. intros [= ->].
  apply find_some in F. destruct F as (I & E). cbn in E. apply String.eqb_eq in E. subst n. now exists fn.
Qed.
(** The conditions by command *)
Inductive old_allows (inv : invocation) : Prop :=
| oa_always : In (cmd_name inv) always_old -> old_allows inv
| oa_cat : cmd_name inv = "cat" -> ~ uses inv "-n" -> old_allows inv
| oa_sort : In (cmd_name inv) ["sort"; "custom_sort"] -> ~ uses inv "-m" -> old_allows inv
| oa_cut : cmd_name inv = "cut" ->
    ~ ((exists n, In n ["-d"; "--delimiter"] /\ In (Option_ n (String "010"%char "")) (flag_option_list inv)) /\ uses_any inv ["-f"; "--fields"]) -> old_allows inv
| oa_fmt : cmd_name inv = "fmt" -> uses inv "-w1" -> old_allows inv
| oa_hdfs : cmd_name inv = "hdfs" -> uses inv "-cat" -> old_allows inv
| oa_pr : cmd_name inv = "pr" -> uses inv "-T, --omit-pagination" -> ~ uses inv "integer" -> old_allows inv
| oa_grep : cmd_name inv = "grep" -> ~ uses inv "-c" -> length (operand_list inv) = 1 \/ ~ uses_any inv recursive -> old_allows inv
| oa_tr : cmd_name inv = "tr" -> uses_any inv ["-d"; "--delete"] \/ ~ uses_any inv ["-s"; "--squeeze-repeats"] -> old_allows inv.
Fixpoint allows (inv : invocation) (cs : list old_case) : Prop :=
  match cs with
  | [] => False
  | c :: cs' => met inv (c_when c) /\ par (c_class c) = true \/ ~ met inv (c_when c) /\ allows inv cs'
  end.
Lemma allows_iff inv cs : (exists k, assigned inv cs k /\ par k = true) <-> allows inv cs.
Proof.
  induction cs as [|c cs IH]; cbn [allows].
  - split; [|tauto]. intros (k & A & _). inversion A.
  - rewrite <- IH. split.
    + intros (k & A & P). inversion A; subst; eauto.
    + intros [(M & P)|(M & k & A & P)]; eexists; split; try eassumption; [now apply as_here|now apply as_later].
Qed.
Lemma uses_any_one inv n : uses_any inv [n] <-> uses inv n.
Proof. exact (uses_any1 inv n). Qed.
Lemma sometimes_cases inv cs : cases_of (cmd_name inv) = Some cs -> In (cmd_name inv) sometimes ->
  (allows inv cs <-> old_allows inv).
Proof.
  intros C S. assert (F : forall x y : string, x = y -> String.eqb x y = true) by (intros x y ->; apply String.eqb_refl).
  assert (G : forall n, In n always_old -> In n sometimes -> False).
  { intros n A B. assert (T : forallb (fun n => negb (mem n always_old)) sometimes = true) by (vm_compute; reflexivity).
    rewrite forallb_forall in T. specialize (T _ B). apply mem_In in A. now rewrite A in T. }
  assert (P1 : par "pure" = true <-> False) by now (vm_compute; split).
  assert (P2 : par "stateless" = true <-> True) by now (vm_compute; split).
  assert (P3 : par "parallelizable_pure" = true <-> True) by now (vm_compute; split).
  assert (P4 : par "side-effects" = true <-> False) by now (vm_compute; split).
  assert (P5 : par "side-effectful" = true <-> False) by now (vm_compute; split).
  cbn in S. repeat destruct S as [S|S]; try contradiction; symmetry in S; rewrite S in C; vm_compute in C; injection C as <-;
    cbn [allows met c_when c_class]; rewrite ?uses_any_one; rewrite ?P1, ?P2, ?P3, ?P4, ?P5; (split; [intros H|intros [K|K|K|K|K|K|K|K|K]]);
    try (exfalso; rewrite S in K; revert K; first [discriminate|cbn; intuition discriminate]).
  all: try (exfalso; apply (G _ K); rewrite S; cbn; tauto).
  - apply oa_cat; tauto.
  - right. split; [assumption|]. destruct (Nat.eq_dec (length (operand_list inv)) 0); [left|right]; auto.
  - apply oa_sort; [rewrite S; cbn; auto|]. tauto.
  - right. split; [assumption|]. left; auto.
  - apply oa_cut; tauto.
  - right. split; [|left; auto]. tauto.
  - apply oa_fmt; tauto.
  - left; auto.
  - apply oa_grep; [exact S|tauto|unfold recursive; tauto].
  - unfold recursive in *. right. split; [assumption|]. destruct (Nat.eq_dec (length (operand_list inv)) 1) as [E|E]; [left; auto|right].
    split; [exact E|]. right. split; [|left; auto]. tauto.
  - apply oa_hdfs; tauto.
  - left; auto.
  - apply oa_pr; tauto.
  - left. auto.
  - apply oa_sort; [rewrite S; cbn; auto|]. tauto.
  - right. split; [assumption|]. left; auto.
  - apply oa_tr; [exact S|tauto].
  - destruct (uses_any_dec inv ["-d"; "--delete"]) as [D|D]; [left; auto|]. right. split; [exact D|]. right. split; [tauto|]. left; auto.
Qed.
Lemma old_allows_iff inv : old_parallel inv <-> old_allows inv.
Proof.
  rewrite old_parallel_iff. split.
  - intros (cs & k & C & A & P). destruct (in_table _ _ C) as (fn & I).
    destruct (old_kinds _ _ _ I) as [(K & _)|[(_ & _ & K)|(_ & K)]].
    + now apply oa_always.
    + destruct (assigned_in _ _ _ A) as (c & J & <-). rewrite (K _ J) in P. discriminate.
    + apply (sometimes_cases _ _ C K). apply allows_iff. eauto.
  - intros O.
    assert (T : exists cs, cases_of (cmd_name inv) = Some cs /\ (In (cmd_name inv) always_old \/ In (cmd_name inv) sometimes)).
    { assert (D : In (cmd_name inv) (always_old ++ sometimes)).
      { apply in_or_app. destruct O as [K|K|K|K|K|K|K|K|K]; [now left|..]; right; try (rewrite K; cbn; tauto).
        cbn in K. destruct K as [<- |[<- |[]]]; cbn; tauto. }
      assert (W : forallb (fun n => match cases_of n with Some _ => true | None => false end) (always_old ++ sometimes) = true) by (vm_compute; reflexivity).
      rewrite forallb_forall in W. specialize (W _ D). destruct (cases_of (cmd_name inv)) as [cs|]; [|discriminate].
      exists cs. split; [reflexivity|]. now apply in_app_or in D. }
    destruct T as (cs & C & [K|K]).
    + destruct (in_table _ _ C) as (fn & I). destruct (assigned_total inv cs (tables_total _ _ _ I)) as (k & A).
      exists cs, k. repeat split; auto. destruct (assigned_in _ _ _ A) as (c & J & <-).
      destruct (old_kinds _ _ _ I) as [(_ & H)|[(H & _)|(H & _)]]; [auto|contradiction..].
    + apply (sometimes_cases _ _ C K) in O. apply allows_iff in O. destruct O as (k & A & P). eauto.
Qed.

(** ** What the generators offer *)
Definition always_new : list string :=
  ["col"; "custom_tr"; "cut"; "xargs"; "set_diff"; "test_one"; "test_two"; "alt_bigrams_aux"; "bigrams_aux"].
Inductive new_allows (inv : invocation) : Prop :=
| na_always : In (cmd_name inv) always_new -> new_allows inv
| na_sort : In (cmd_name inv) ["sort"; "custom_sort"] -> ~ uses_any inv sort_excluded -> new_allows inv
| na_uniq : cmd_name inv = "uniq" -> ~ uses_any inv ["-d"; "-D"; "--all-repeated"] -> new_allows inv
| na_sed script rest : cmd_name inv = "sed" -> operand_list inv = script :: rest -> per_line_script script -> new_allows inv
| na_grep : cmd_name inv = "grep" -> ~ uses inv "-q" -> uses_any inv grep_context \/ ~ uses_any inv ["-L"; "-l"; "-c"; "-n"; "-b"] -> new_allows inv
| na_tr : cmd_name inv = "tr" -> operand_list inv <> [] \/ ~ uses_any inv ["-d"; "-s"] -> new_allows inv.
Lemma data_here name : In name ["alt_bigrams_aux"; "bigram_aux_map"] -> exists j, SpecParser.loads shipped_dir name j.
Proof. intros [<- |[<- |[]]]; eexists; right; (split; [reflexivity|reflexivity]). Qed.
Ltac named := match goal with
  | H : cmd_name ?i = _, K : cmd_name ?i = _ |- _ => rewrite H in K; discriminate K
  | H : cmd_name ?i = _, K : In (cmd_name ?i) _ |- _ => exfalso; rewrite H in K; cbn in K; intuition discriminate
  | H : In (cmd_name ?i) _, K : In (cmd_name ?i) _ |- _ => exfalso; cbn in H, K; intuition congruence
  | H : ~ In (cmd_name ?i) para_commands, K : cmd_name ?i = _ |- _ => exfalso; apply H; rewrite K; cbn; tauto
  | H : ~ In (cmd_name ?i) para_commands, K : In (cmd_name ?i) _ |- _ => exfalso; apply H; cbn in K |- *; tauto
  end.
Lemma new_allows_iff inv : has_plan inv <-> new_allows inv.
Proof.
  split.
  - intros (l & b & A & N). inversion A; subst; try congruence; try (apply na_always; cbn in *; intuition congruence).
    + now apply na_sort.
    + now apply na_uniq.
    + apply na_uniq; [assumption|]. intros (n & I & U).
      match goal with H : ~ uses_any _ _ |- _ => apply H end. exists n. cbn in *. tauto.
    + eapply na_sed; eassumption.
    + now apply na_grep.
    + apply na_tr; [assumption|]. left. match goal with H : acts_on_newline _ |- _ => destruct H as [? E|? E|sets ? E] end; rewrite E; try discriminate. now destruct sets.
    + apply na_tr; [assumption|]. left. match goal with H : acts_on_newline _ |- _ => destruct H as [? E|? E|sets ? E] end; rewrite E; try discriminate. now destruct sets.
    + apply na_tr; auto.
    + apply na_tr; auto.
  - intros W. unfold has_plan. destruct (view (ParaGen.get_parallelizability_info shipped_dir inv)) as [[l b]|] eqn:V;
      pose proof (annotated_view shipped_dir inv) as A; rewrite V in A.
    + exists l, b. split; [exact A|]. intros ->.
      inversion A; subst; destruct W as [W|W W'|W W'|? ? W W' W''|W W' W''|W W']; try named; try congruence; try contradiction.
      destruct W'' as [W''|W'']; contradiction.
    + exfalso. inversion A; subst; destruct W as [W|W W'|W W'|? ? W W' W''|W W' W''|W W']; try named; try congruence.
      * destruct W'; contradiction.
      * destruct (data_here "alt_bigrams_aux") as (j & L); [cbn; auto|].
        match goal with H : forall j, ~ _ |- _ => exact (H j L) end.
      * destruct (data_here "bigram_aux_map") as (j & L); [cbn; auto|].
        match goal with H : forall j, ~ _ |- _ => exact (H j L) end.
Qed.

(** ** The differences *)
Lemma lost_iff inv : lost inv <-> old_parallel inv /\ ~ has_plan inv.
Proof.
  rewrite old_allows_iff, new_allows_iff. split.
  - intros L. split.
    + destruct L as [K|K ?|K ?|K ?|K ? ?|K ? ?|K ? ? ?|K ? ?].
      * apply oa_always. apply in_or_app. now right.
      * now apply oa_cat.
      * now apply oa_fmt.
      * now apply oa_hdfs.
      * now apply oa_pr.
      * now apply oa_sort.
      * now apply oa_grep.
      * apply oa_tr; [exact K|]. left.
        match goal with H : _ \/ _ |- _ => destruct H as [U|(_ & U)] end; [exists "-d"|exists "--delete"]; cbn; auto.
    + intros W. destruct L as [K|K ?|K ?|K ?|K ? ?|K ? ?|K ? ? ?|K ? ?]; destruct W as [W|W W'|W W'|? ? W W' W''|W W' W''|W W']; try named.
      * apply W'. eapply uses_any_incl; [|eassumption]. cbn. tauto.
      * match goal with H : _ \/ _ /\ _ |- _ => destruct H as [U|(U & U')] end; [contradiction|].
        destruct W'' as [W''|W'']; [contradiction|]. apply W''. eapply uses_any_incl; [|eassumption]. cbn. tauto.
      * destruct W' as [W'|W']; [contradiction|]. apply W'.
        match goal with H : _ \/ _ /\ _ |- _ => destruct H as [U|(U & U')] end; [exists "-d"|exists "-s"]; cbn; auto.
  - intros (O & N). destruct O as [K|K ?|K ?|K ?|K ?|K ?|K ? ?|K ? ?|K ?].
    + apply in_app_or in K. destruct K as [K|K]; [|now apply lost_command]. exfalso. apply N, na_always. cbn in *. tauto.
    + now apply lost_cat.
    + apply lost_sort; [exact K|assumption|].
      destruct (uses_any_dec inv ["-c"; "-C"; "-u"; "-z"; "-R"; "-s"; "--files0-from"; "--random-source"]) as [U|U]; [exact U|].
      exfalso. apply N, na_sort; [exact K|]. intros (n & I & V).
      assert (D : n = "-m" \/ In n ["-c"; "-C"; "-u"; "-z"; "-R"; "-s"; "--files0-from"; "--random-source"]) by (cbn in *; intuition).
      destruct D as [-> |D]; [contradiction|]. apply U. now exists n.
    + exfalso. apply N, na_always. rewrite K. cbn. tauto.
    + now apply lost_fmt.
    + now apply lost_hdfs.
    + now apply lost_pr.
    + apply lost_grep; try assumption.
      destruct (uses_dec inv "-q") as [Q|Q]; [now left|]. right.
      destruct (uses_any_dec inv grep_context) as [G|G]; [exfalso; apply N, na_grep; auto|]. split; [exact G|].
      destruct (uses_any_dec inv ["-L"; "-l"; "-n"; "-b"]) as [U|U]; [exact U|]. exfalso. apply N, na_grep; [exact K|exact Q|]. right.
      intros (n & I & V). assert (D : n = "-c" \/ In n ["-L"; "-l"; "-n"; "-b"]) by (cbn in *; intuition).
      destruct D as [-> |D]; [contradiction|]. apply U. now exists n.
    + destruct (operand_list inv) as [|o l] eqn:E; [|exfalso; apply N, na_tr; [exact K|left; rewrite E; discriminate]].
      apply lost_tr; [exact K|exact E|].
      destruct (uses_dec inv "-d") as [D|D]; [now left|]. right.
      destruct (uses_dec inv "-s") as [S|S].
      * split; [exact S|].
        match goal with H : _ \/ _ |- _ => destruct H as [(n & [<- |[<- |[]]] & U)|U] end; [contradiction|exact U|].
        exfalso. apply U. exists "-s". cbn. auto.
      * exfalso. apply N, na_tr; [exact K|]. right. intros (n & [<- |[<- |[]]] & U); contradiction.
Qed.
Lemma gained_iff inv : gained inv <-> has_plan inv /\ ~ old_parallel inv.
Proof.
  rewrite old_allows_iff, new_allows_iff. split.
  - intros G. split.
    + destruct G as [? ? K ? ?|K ?|K ? ?|K ? ? ?|K ? ? ?|K C L R Q D].
      * eapply na_sed; eassumption.
      * now apply na_uniq.
      * apply na_always. rewrite K. cbn. tauto.
      * apply na_tr; [exact K|]. match goal with H : _ \/ _ |- _ => destruct H as [U|U] end; [now left|]. right.
        intros (n & [<- |[<- |[]]] & V); [|contradiction].
        match goal with H : ~ uses_any _ _ |- _ => apply H end. exists "-d". cbn. auto.
      * apply na_grep; auto.
      * apply na_grep; [exact K|exact Q|]. destruct D as [D|D]; [now left|]. right.
        intros (n & I & V). assert (E : n = "-c" \/ In n ["-L"; "-l"; "-n"; "-b"]) by (cbn in *; intuition).
        destruct E as [-> |E]; [contradiction|]. apply D. now exists n.
    + intros O. destruct G as [? ? K ? ?|K ?|K ? ?|K ? ? ?|K ? ? ?|K C L R Q D]; destruct O as [W|W ?|W ?|W ?|W ?|W ?|W ? ?|W ? W'|W W'];
        try named; try tauto.
  - intros (W & N). destruct W as [W|W W'|W W'|? ? W W' W''|W W' W''|W W'].
    + cbn in W. repeat destruct W as [W|W]; try contradiction; symmetry in W;
        try (exfalso; apply N, oa_always; rewrite W; cbn; tauto).
      destruct (value_dec inv ["-d"; "--delimiter"] (String "010"%char "")) as [V|V]; [|exfalso; apply N, oa_cut; tauto].
      destruct (uses_any_dec inv ["-f"; "--fields"]) as [U|U]; [|exfalso; apply N, oa_cut; tauto].
      now apply gained_cut.
    + exfalso. apply N, oa_sort; [exact W|]. intros U. apply W'. exists "-m". cbn. tauto.
    + now apply gained_uniq.
    + eapply gained_sed; eassumption.
    + destruct (uses_dec inv "-c") as [C|C].
      * destruct W'' as [W''|W'']; [now apply gained_grep_count|]. exfalso. apply W''. exists "-c". cbn. tauto.
      * apply gained_grep_recursive; auto.
        -- intros L. apply N, oa_grep; auto.
        -- destruct (uses_any_dec inv recursive) as [R|R]; [exact R|]. exfalso. apply N, oa_grep; auto.
        -- destruct W'' as [W''|W'']; [now left|]. right. intros U. apply W''. eapply uses_any_incl; [|exact U]. cbn. tauto.
    + destruct (uses_any_dec inv ["-d"; "--delete"]) as [D|D]; [exfalso; apply N, oa_tr; auto|].
      destruct (uses_any_dec inv ["-s"; "--squeeze-repeats"]) as [S|S]; [|exfalso; apply N, oa_tr; auto].
      apply gained_tr; auto. destruct W' as [W'|W']; [now left|]. right. intros U. apply W'. exists "-s". cbn. auto.
Qed.
