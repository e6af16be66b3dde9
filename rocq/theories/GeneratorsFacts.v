(** * Lemmas about the generate_info methods on the heap *)
From Coq Require Import Lia.
Require Import Verif.PyBase Verif.JsonData Verif.Parser Verif.Access Verif.IOInfo Verif.IOGen Verif.IOVars Verif.IOHelpers Verif.SpecIOHelpers
  Verif.Heap Verif.HeapApply Verif.HeapIOHelpers Verif.HeapTypers Verif.HeapGenerators Verif.SpecHeap Verif.SpecApply Verif.SpecShare Verif.SpecTypers
  Verif.HeapFacts Verif.HeapSep Verif.HeapCopy Verif.IOFacts Verif.P_Heap Verif.ApplyFacts Verif.P_Infer Verif.P_Apply Verif.P_IOHelpers Verif.ShareFacts Verif.P_Share Verif.TypersFacts Verif.P_Typers.

(** ** The methods on values *)
Fixpoint test_v (inv : invocation) (t : test) : bool :=
  match t with
  | Contains names => contains_one_of inv names
  | Filtered names n => Nat.eqb (length (IOGen.get_flag_option_list_filtered_with inv names)) n
  | Operands n => Nat.eqb (operand_list_length inv) n
  | Not t => negb (test_v inv t)
  | And t u => if test_v inv t then test_v inv u else false
  end.
Fixpoint run_v (inv : invocation) (m : method) (i : io_info) : result io_info :=
  match m with
  | Return => Ok i
  | Call k m => let! i := call_io inv k i in run_v inv m i
  | If t m m' => if test_v inv t then run_v inv m i else run_v inv m' i
  | Fail e => Raise e
  end.
Lemma methods_are : Forall2 (fun p q => fst p = fst q /\ forall inv i, run_v inv (snd p) i = snd q inv i) io_generator_methods io_generator_classes.
Proof.
  assert (B : forall {A} (x : result A), (let! i := x in Ok i) = x) by (intros A [a|e]; reflexivity).
  repeat constructor; intros inv i; try reflexivity; cbn [snd].
  all: unfold io_awk, m_awk, m_script, io_comm, m_comm, io_sort, m_sort, io_grep, m_grep, m_script, io_mv, m_mv, io_sed, m_sed, io_set_diff, m_set_diff, io_uniq, m_uniq, io_wc, m_wc, assert_, andb; cbn [run_v test_v call_io bind].
  all: repeat match goal with
    | |- context [contains_one_of ?a ?b] => destruct (contains_one_of a b); cbn [bind negb]
    | |- context [if Nat.eqb (operand_list_length ?a) ?b then _ else _] => destruct (Nat.eqb (operand_list_length a) b); cbn [bind]
    | |- context [length ?a] => destruct (length a) as [|[|]]; cbn [bind Nat.eqb]
    | |- context [bind (set_first_operand_as_config_arg_type_string ?a) _] => destruct (set_first_operand_as_config_arg_type_string a); cbn [bind]
    | |- context [bind (all_but_last_operand_is_other_input ?a) _] => destruct (all_but_last_operand_is_other_input a); cbn [bind]
    end; try reflexivity; try apply B.
Qed.

(** ** Running them *)
Lemma names_h h fos fs : Forall2 (flagoption_is h) fos fs -> hmap get_name_h fos h = (h, Ok (map fo_name fs)).
Proof.
  induction 1 as [|fo f fos fs (l & -> & Q) F IH]; [reflexivity|]. cbn [hmap map].
  assert (E : get_name_h (HRef l) h = (h, Ok (fo_name f))).
  { unfold get_name_h. destruct f as [n|n a]; rewrite (bind_ok _ _ _ _ _ (class_ok _ _ _ _ Q)); cbn [is_class].
    - change (String.eqb "Flag" "Flag") with true. cbv iota. now rewrite (bind_ok _ _ _ _ _ (get_attr_ok _ _ _ _ "flag_name" (HStr n) Q eq_refl)).
    - change (String.eqb "Option" "Flag") with false. change (String.eqb "Option" "Option") with true. cbv iota.
      now rewrite (bind_ok _ _ _ _ _ (get_attr_ok _ _ _ _ "option_name" (HStr n) Q eq_refl)). }
  rewrite (bind_ok _ _ _ _ _ E), (bind_ok _ _ _ _ _ IH). reflexivity.
Qed.
Lemma filtered_h h y fos ops inv names : invocation_is h y fos ops inv ->
  exists l, get_flag_option_list_filtered_with_h y names h = (h, Ok l) /\ length l = length (IOGen.get_flag_option_list_filtered_with inv names).
Proof.
  intros (l & fl & ol & -> & Q & (a & -> & Qf & Ff) & _). eexists. split.
  - unfold get_flag_option_list_filtered_with_h. rewrite (bind_ok _ _ _ _ _ (get_attr_ok _ _ _ _ "flag_option_list" _ Q eq_refl)), (bind_ok _ _ _ _ _ (items_ok _ _ _ Qf)).
    rewrite (bind_ok _ _ _ _ _ (names_h _ _ _ Ff)). reflexivity.
  - rewrite map_length. unfold IOGen.get_flag_option_list_filtered_with. clear - Ff. induction Ff as [|fo f fos fs X F IH]; [reflexivity|]. cbn. destruct (mem (fo_name f) names); cbn; now rewrite IH.
Qed.
Lemma test_sim h y fos ops inv t : invocation_is h y fos ops inv -> test_h y t h = (h, Ok (test_v inv t)).
Proof.
  intros V. induction t as [names|names n|n|t IH|t IH u IH']; cbn [test_h test_v].
  - destruct (filtered_h h y fos ops inv names V) as (l & E & L). rewrite (bind_ok _ _ _ _ _ E). unfold contains_one_of. now rewrite <- L.
  - destruct (filtered_h h y fos ops inv names V) as (l & E & L). rewrite (bind_ok _ _ _ _ _ E). now rewrite <- L.
  - destruct V as (l & fl & ol & -> & Q & _ & (a & -> & Qo & Fo)). rewrite (bind_ok _ _ _ _ _ (get_attr_ok _ _ _ _ "operand_list" _ Q eq_refl)), (bind_ok _ _ _ _ _ (items_ok _ _ _ Qo)).
    unfold operand_list_length. now rewrite (Forall2_length _ _ _ Fo).
  - now rewrite (bind_ok _ _ _ _ _ IH).
  - rewrite (bind_ok _ _ _ _ _ IH). now destruct (test_v inv t).
Qed.
(** The sequences of calls that a method can make *)
Fixpoint paths (m : method) : list (list io_helper) :=
  match m with
  | Return => [[]]
  | Call k m => map (cons k) (paths m)
  | If _ m m' => paths m ++ paths m'
  | Fail _ => []
  end.
Lemma run_path h0 ft fts fs n x y fos ops inv : invocation_is h0 y fos ops inv -> forall m ks h i la ts iv ov, st h0 h ft fts fs n x ks i la ts iv ov ->
  match run_h y m (HRef x) h, run_v inv m i with
  | (h', Ok _), Ok i' => exists path, In path (paths m) /\ call_ios_h y path (HRef x) h = (h', Ok tt) /\ call_ios inv path i = Ok i'
  | (h', Raise e), Raise e' => e = e' /\ unchanged h0 h'
  | _, _ => False
  end.
Proof.
  intros V. induction m as [|k m IH|t m IHm m' IHm'|e]; intros ks h i la ts iv ov S; cbn [run_h run_v paths].
  - exists []. split; [now left|]. split; reflexivity.
  - pose proof (call_sim _ _ _ _ _ _ _ _ _ _ _ _ _ y fos ops inv k S V) as M. unfold simulates in M.
    destruct (call_io_h y k (HRef x) h) as (h1 & [[]|e]) eqn:E1, (call_io inv k i) as [i1|e'] eqn:E2; try contradiction; cbn [bind].
    + unfold hbind. rewrite E1. destruct M as (la1 & ts1 & iv1 & ov1 & S1). specialize (IH _ _ _ _ _ _ _ S1).
      destruct (run_h y m (HRef x) h1) as (h2 & [u|e]), (run_v inv m i1) as [i2|e']; auto. destruct IH as (path & J & A & B). exists (k :: path).
      split; [now apply in_map|]. split; [cbn; unfold hbind; now rewrite E1|cbn; now rewrite E2].
    + rewrite (bind_raise _ _ _ _ _ E1). exact M.
  - rewrite (bind_ok _ _ _ _ _ (test_sim _ _ _ _ _ t (invocation_later _ _ _ _ _ _ (st_unchanged _ _ _ _ _ _ _ _ _ _ _ _ _ S) V))).
    destruct (test_v inv t); [specialize (IHm _ _ _ _ _ _ _ S)|specialize (IHm' _ _ _ _ _ _ _ S)].
    + destruct (run_h y m (HRef x) h) as (h2 & [u|e]), (run_v inv m i) as [i2|e']; auto. destruct IHm as (path & J & A). exists path. split; [apply in_or_app; now left|exact A].
    + destruct (run_h y m' (HRef x) h) as (h2 & [u|e]), (run_v inv m' i) as [i2|e']; auto. destruct IHm' as (path & J & A). exists path. split; [apply in_or_app; now right|exact A].
  - split; [reflexivity|exact (st_unchanged _ _ _ _ _ _ _ _ _ _ _ _ _ S)].
Qed.

(** ** Sequences in which every kind is given by one call *)
Definition kind_of (k : io_helper) : list typer :=
  match k with
  | AllStreamIn | ButLastStreamIn | ButFirstStreamIn => []
  | _ => match named k with Some (_, t) => [t] | None => [] end
  end.
Definition kinds (ks : list io_helper) : list typer := flat_map kind_of ks.
Lemma assigns_kind k n p t : assigns k n p t -> kind_of k = [t] /\ t <> SI.
Proof.
  intros ((w & N & _) & D). unfold kind_of, idle in *. destruct k; cbn in *; try discriminate; try (exfalso; tauto); injection N as <- <-; split; try reflexivity; discriminate.
Qed.
Lemma one_split ks l1 k1 l1' l2 k2 l2' t : NoDup (kinds ks) -> ks = l1 ++ k1 :: l1' -> ks = l2 ++ k2 :: l2' -> kind_of k1 = [t] -> kind_of k2 = [t] -> l1 = l2 /\ k1 = k2 /\ l1' = l2'.
Proof.
  revert l1 l2. induction ks as [|k ks IH]; intros l1 l2 N E1 E2 K1 K2; [destruct l1; discriminate|].
  cbn [kinds flat_map] in N. assert (In2 : forall l k' l', ks = l ++ k' :: l' -> kind_of k' = [t] -> In t (kinds ks)).
  { intros l k' l' -> K. unfold kinds. apply in_flat_map. exists k'. split; [apply in_or_app; right; now left|]. rewrite K. now left. }
  destruct l1 as [|a l1], l2 as [|b l2]; cbn in E1, E2; injection E1 as H1 E1; injection E2 as H2 E2.
  - subst. auto.
  - exfalso. rewrite H1, K1 in N. cbn in N. inversion N as [|? ? X _]. apply X. exact (In2 _ _ _ E2 K2).
  - exfalso. rewrite H2, K2 in N. cbn in N. inversion N as [|? ? X _]. apply X. exact (In2 _ _ _ E1 K1).
  - assert (N' : NoDup (kinds ks)). { fold (kinds ks) in N. clear - N. induction (kind_of k) as [|z zs IHz]; [exact N|]. cbn in N. inversion N; auto. }
    destruct (IH l1 l2 N' E1 E2 K1 K2) as (-> & -> & ->). subst. auto.
Qed.
Lemma same_kind inv ks fs n i p q t : NoDup (kinds ks) -> call_ios inv ks (new_io_info fs n) = Ok i ->
  nth_error (operand_list_typer i) p = Some t -> nth_error (operand_list_typer i) q = Some t -> together ks n p q.
Proof.
  intros N E P Q. destruct (C86_last_word inv ks _ i E) as (_ & L & W & _). cbn [new_io_info operand_list_typer] in *. rewrite repeat_length in *.
  assert (Lt : forall j, nth_error (operand_list_typer i) j = Some t -> nth_error (repeat (FILESTD STREAM_INPUT) n) j = Some SI).
  { intros j J. apply nth_repeat_some. rewrite <- L. apply nth_error_Some. congruence. }
  destruct (proj1 (W p SI (Lt p P) t) P) as [(l1 & k1 & l1' & E1 & A1 & R1)|(D1 & T1)], (proj1 (W q SI (Lt q Q) t) Q) as [(l2 & k2 & l2' & E2 & A2 & R2)|(D2 & T2)].
  - destruct (assigns_kind _ _ _ _ A1) as (K1 & _), (assigns_kind _ _ _ _ A2) as (K2 & _). destruct (one_split _ _ _ _ _ _ _ _ N E1 E2 K1 K2) as (<- & <- & <-).
    left. exists l1, k1, l1'. split; [exact E1|]. split; [eauto|]. split; [eauto|]. intros k' t' J. split; auto.
  - exfalso. now apply (assigns_kind _ _ _ _ A1).
  - exfalso. now apply (assigns_kind _ _ _ _ A2).
  - right. intros k t' J. split; auto.
Qed.
Definition typer_dec (t u : typer) : {t = u} + {t <> u}.
Proof. repeat decide equality. Defined.
(** No method of the repository gives one kind in two calls. *)
Definition no_kind_twice (ks : list io_helper) : bool := if list_eq_dec typer_dec (nodup typer_dec (kinds ks)) (kinds ks) then true else false.
Lemma shipped_kinds name m ks : In (name, m) io_generator_methods -> In ks (paths m) -> NoDup (kinds ks).
Proof.
  intros J K. assert (A : forallb (fun e => forallb no_kind_twice (paths (snd e))) io_generator_methods = true) by (vm_compute; reflexivity).
  rewrite forallb_forall in A. specialize (A _ J). rewrite forallb_forall in A. specialize (A _ K). unfold no_kind_twice in A.
  destruct (list_eq_dec _ _ _) as [E|]; [|discriminate]. rewrite <- E. apply NoDup_nodup.
Qed.

(** ** From a method to a sequence of calls *)
Lemma method_found name : match PyBase.dict_get io_generator_methods name, PyBase.dict_get io_generator_classes name with
  | Ok m, Ok g => In (name, m) io_generator_methods /\ forall inv i, run_v inv m i = g inv i
  | Raise e, Raise e' => e = e'
  | _, _ => False
  end.
Proof.
  assert (G : forall l l', Forall2 (fun p q => fst p = fst q /\ forall inv i, run_v inv (snd p) i = snd q inv i) l l' ->
    match PyBase.dict_get l name, PyBase.dict_get l' name with
    | Ok m, Ok g => In (name, m) l /\ forall inv i, run_v inv m i = g inv i
    | Raise e, Raise e' => e = e'
    | _, _ => False
    end).
  { unfold PyBase.dict_get. induction 1 as [|u w l l' X F IH]; [reflexivity|]. destruct u as (a & m), w as (b & g), X as (E & R). cbn [fst snd] in E, R. subst b. cbn [dict_find].
    destruct (String.eqb name a) eqn:N; [apply String.eqb_eq in N as ->; split; [now left|exact R]|].
    destruct (dict_find l name), (dict_find l' name); auto. destruct IH. split; [now right|assumption]. }
  exact (G _ _ methods_are).
Qed.
Lemma info_by_calls dir h y fos ops inv : closed h -> invocation_is h y fos ops inv ->
  match get_input_output_info_h dir y h with
  | (h', Ok HNone) => unchanged h h' /\ get_input_output_info dir inv = None
  | (h', Ok v) => unchanged h h' /\ closed h' /\ exists i fts ots iv ov ks, get_input_output_info dir inv = Some i /\ info_is h' v fts ots iv ov i /\
      NoDup (kinds ks) /\ (let! i := init_io_info dir inv in call_ios inv ks i) = Ok i /\ generator_h dir y ks h = apply_io_info_h v y h'
  | (h', Raise e) => False
  end.
Proof.
  intros C V. pose proof V as (l & fl & ol & -> & Q & _ & (a & -> & Qo & Fo)). pose proof (Forall2_length _ _ _ Fo) as Ln.
  assert (Nm : get_cmd_name (HRef l) h = (h, Ok (cmd_name inv))) by (unfold get_cmd_name; now rewrite (bind_ok _ _ _ _ _ (get_attr_ok _ _ _ _ "cmd_name" _ Q eq_refl))).
  unfold get_input_output_info_h, get_input_output_info. rewrite (bind_ok _ _ _ _ _ Nm).
  unfold make_info_h, except_none. pose proof (method_found (representation_of (cmd_name inv))) as M.
  destruct (PyBase.dict_get io_generator_methods _) as [m|e], (PyBase.dict_get io_generator_classes _) as [g|e']; try contradiction; cbn [bind].
  2: { unfold hlift, hbind, hthrow. split; [apply unchanged_refl|reflexivity]. }
  destruct M as (J & R). rewrite (bind_ok _ _ _ _ _ (eq_refl : hlift (Ok m) h = (h, Ok m))).
  pose proof (typers_spec dir h (HRef l) fos ops inv C V) as T. unfold init_io_info.
  destruct (get_flagoption_list_typer_h dir (HRef l) h) as (h1 & [ft|x]) eqn:E1, (get_flagoption_list_typer dir inv) as [ts|x'] eqn:E2; try contradiction; cbn [bind].
  2: { rewrite (bind_raise _ _ _ _ _ E1). destruct T as (_ & U). auto. }
  rewrite (bind_ok _ _ _ _ _ E1). destruct T as (U & C1 & vs & L & _). pose proof (nth_later _ _ _ _ U Q) as Q1. pose proof (nth_later _ _ _ _ U Qo) as Qo1.
  rewrite (bind_ok _ _ _ _ _ (get_attr_ok _ _ _ _ "operand_list" _ Q1 eq_refl)), (bind_ok _ _ _ _ _ (items_ok _ _ _ Qo1)), Ln.
  destruct (start h1 ft vs ts (length (operand_list inv)) C1 L) as (h2 & x & la & tv & E3 & S). rewrite (bind_ok _ _ _ _ _ E3).
  pose proof (invocation_later _ _ _ _ _ _ U V) as V1.
  pose proof (run_path _ _ _ _ _ _ _ _ _ _ V1 m _ _ _ _ _ _ _ S) as P. rewrite R in P.
  destruct (run_h (HRef l) m (HRef x) h2) as (h3 & [[]|e]) eqn:E4, (g inv _) as [i|e'] eqn:E5; try contradiction.
  - unfold hbind at 1. rewrite E4. cbn [hret]. destruct P as (ks & K & E6 & E7).
    pose proof (calls_sim h1 ft vs ts _ x (HRef l) fos ops inv V1 ks [] h2 _ la tv HNone HNone S) as Z. rewrite E6, E7 in Z. destruct Z as (la' & ts' & iv & ov & S').
    split; [eapply unchanged_trans; [exact U|exact (st_unchanged _ _ _ _ _ _ _ _ _ _ _ _ _ S')]|]. split; [exact (st_closed _ _ _ _ _ _ _ _ _ _ _ _ _ S')|].
    exists i, vs, ts', iv, ov, ks. split; [reflexivity|]. split; [exact (st_info _ _ _ _ _ _ _ _ _ _ _ _ _ S')|]. split; [exact (shipped_kinds _ _ _ J K)|]. split; [exact E7|].
    unfold generator_h. rewrite (bind_ok _ _ _ _ _ E1). unfold generate_h.
    rewrite (bind_ok _ _ _ _ _ (get_attr_ok _ _ _ _ "operand_list" _ Q1 eq_refl)), (bind_ok _ _ _ _ _ (items_ok _ _ _ Qo1)), Ln, (bind_ok _ _ _ _ _ E3).
    unfold hbind. now rewrite E6.
  - rewrite (bind_raise _ _ _ _ _ E4). destruct P as (_ & U2). split; [eapply unchanged_trans; eauto|reflexivity].
Qed.
Lemma annotate_by_calls dir h y fos ops inv h' r : closed h -> invocation_is h y fos ops inv -> annotate_h dir y h = (h', Ok r) -> r <> HNone ->
  exists ks, NoDup (kinds ks) /\ generator_h dir y ks h = (h', Ok r).
Proof.
  intros C V E N. pose proof (info_by_calls dir h y fos ops inv C V) as I. unfold annotate_h in E.
  destruct (get_input_output_info_h dir y h) as (h1 & [v|e]) eqn:E1; [rewrite (bind_ok _ _ _ _ _ E1) in E|contradiction].
  destruct v; try (destruct I as (_ & _ & i & fts & ots & iv & ov & ks & _ & _ & D & _ & G); exists ks; split; [exact D|]; now rewrite G).
  cbn in E. injection E as <- <-. contradiction.
Qed.
(** The access of a resource is what its typer says. *)
Lemma kind_at dir h y fos ops inv ks h' r fos' ops' p v e : closed h -> invocation_is h y fos ops inv -> generator_h dir y ks h = (h', Ok r) -> result_lists h' r fos' ops' ->
  nth_error ops' p = Some v -> view_val h' v = Some (PRes e) ->
  exists ts i, get_flagoption_list_typer dir inv = Ok ts /\ call_ios inv ks (new_io_info ts (length (operand_list inv))) = Ok i /\ nth_error (operand_list_typer i) p = Some (FILESTD (res_access e)).
Proof.
  intros C V E RL P Vv. pose proof (C96_generated dir h y fos ops inv ks C V) as G. rewrite E in G. unfold init_io_info in G.
  destruct (get_flagoption_list_typer dir inv) as [ts|]; [|contradiction]. cbn [bind] in G. destruct (call_ios inv ks _) as [i|] eqn:Ei; [|contradiction]. cbn [bind] in G.
  destruct (apply_io_info i inv) as [c|] eqn:Ec; [|contradiction]. destruct G as (_ & _ & A). exists ts, i. split; [reflexivity|]. split; [exact Ei|].
  destruct (nth_Forall2 _ _ _ (io_operands _ _ _ _ _ A RL) p v P) as (z & Pz & Vz). rewrite Vv in Vz.
  unfold apply_io_info in Ec. destruct (map_result _ (combine (flag_option_list inv) _)) as [fl|] eqn:Ef; [|discriminate]. cbn [bind] in Ec.
  destruct (map_result _ (combine (operand_list inv) _)) as [os|] eqn:Eo; [|discriminate]. cbn [bind] in Ec. injection Ec as <-. cbn [io_operand_list] in Pz.
  apply map_result_Forall2 in Eo. destruct (Forall2_nth_r _ _ _ Eo p z Pz) as ((s & t) & Ps & Ap). apply nth_combine in Ps as (_ & Ps). cbn [fst snd] in Ps, Ap. rewrite Ps. f_equal.
  destruct t as [k| |]; [|cbn in Ap; injection Ap as <-; discriminate|discriminate Ap].
  unfold apply_typer_to_arg in Ap. destruct (is_any_input k); [injection Ap as <-|destruct (is_any_output k); [injection Ap as <-|discriminate]]; cbn in Vz; injection Vz as ->; reflexivity.
Qed.
