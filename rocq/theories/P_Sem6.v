(** * C68, C69: concatenation for any command; pairs of lines without auxiliary results *)
From Coq Require Import Lia.
Require Import Verif.PyBase Verif.JsonData Verif.Parser Verif.Access Verif.IOInfo Verif.IOVars
  Verif.Transformers Verif.ParaTypes Verif.ParaGen Verif.MapperAgg Verif.SpecLists Verif.SpecIO Verif.SpecVars Verif.SpecPara
  Verif.ParserFacts Verif.ParaProps Verif.ShippedData Verif.MapperFacts Verif.P_Para Verif.SpecSem Verif.SemFacts Verif.SemRun Verif.SemProps
  Verif.SemSystem Verif.P_Sem Verif.SpecSem4 Verif.SemProps4 Verif.SpecSem6.

(** ** C68 *)
Lemma offered_aggregator dir inv p : offered dir inv p -> exists i q, get_parallelizability_info dir inv = Some i /\ In q (parallelizer_list i) /\
  p_mapper p = p_mapper q /\ p_aggregator p = p_aggregator q /\ (is_commutative i = false -> p = q).
Proof.
  intros (i & k & ls & i' & l & G & CA & IL & I). exists i.
  assert (X : forall k i ls i', calls k i ls i' -> is_commutative i' = is_commutative i /\ forall l p, In l ls -> In p l ->
    exists q, In q (parallelizer_list i) /\ p_mapper p = p_mapper q /\ p_aggregator p = p_aggregator q /\ (is_commutative i = false -> p = q)).
  { clear. induction 1 as [i|k i l i' ls i'' H CA (IC & IH)]; [split; [reflexivity|intros l p []]|].
    apply C27_inferred_only in H as (copies & CC & -> & ->). cbn [is_commutative parallelizer_list] in *. split; [exact IC|].
    assert (Y : forall p, In p (parallelizer_list i ++ (if is_commutative i then copies else [])) ->
      exists q, In q (parallelizer_list i) /\ p_mapper p = p_mapper q /\ p_aggregator p = p_aggregator q /\ (is_commutative i = false -> p = q)).
    { intros p J. apply in_app_iff in J as [J|J]; [exists p; auto|]. destruct (is_commutative i) eqn:E; [|destruct J].
      clear -CC J. revert J. induction CC as [|q l l' Q _ IH|q l l' Q _ IH]; [intros []| |].
      - intros [<-|J]; [exists q; cbn; intuition discriminate|]. destruct (IH J) as (q' & A & A'). exists q'. split; [now right|exact A'].
      - intros J. destruct (IH J) as (q' & A & A'). exists q'. split; [now right|exact A']. }
    intros l p [<-|J] I; [now apply Y|]. destruct (IH l p J I) as (q & A & B1 & B2 & B3). destruct (Y q A) as (q' & A' & C1 & C2 & C3).
    exists q'. split; [exact A'|]. split; [congruence|]. split; [congruence|]. intros E. rewrite (B3 E). auto. }
  destruct (X _ _ _ _ CA) as (_ & Y). destruct (Y l p IL I) as (q & Z). exists q. auto.
Qed.
Theorem C68_concat_offered : forall dir inv p, offered dir inv p -> p_aggregator p = SpecPara.concat ->
  In p (stateless SpecPara.concat) /\ In (cmd_name inv) concat_commands.
Proof.
  intros dir inv p O A. destruct (offered_aggregator dir inv p O) as (i & q & G & I & M & E & C). rewrite E in A. clear E.
  assert (N : annotated dir inv (Some (parallelizer_list i, is_commutative i))) by (apply C25_exact; now rewrite G).
  remember (parallelizer_list i) as l eqn:El. clear El. remember (is_commutative i) as b eqn:Eb.
  assert (X : b = false /\ In q (stateless SpecPara.concat) /\ In (cmd_name inv) concat_commands).
  { clear M Eb C O G. inversion N; subst; cbn in I; try solve [destruct I]; repeat (destruct I as [<-|I]; [|]); try destruct I; cbn in A; try discriminate;
      (split; [reflexivity|]); (split; [cbn; auto|]); unfold concat_commands; cbn in *; intuition congruence. }
  destruct X as (-> & X & Y). split; [|exact Y]. rewrite C by auto. exact X.
Qed.
Print Assumptions C68_concat_offered.
Example C68_concat_offered_case : forall cmd, In cmd concat_commands -> exists inv, cmd_name inv = cmd /\ offered shipped_dir inv (chunks SpecPara.concat).
Proof.
  intros cmd I. exists (mkInv cmd [] ["s/a/b/"]). split; [reflexivity|]. cbn in I.
  repeat (destruct I as [<-|I]; [eapply offered_first; [vm_compute; reflexivity|now left]|]). destruct I.
Qed.

Lemma put_run B seed c i s x : reads_one c i ->
  run B seed c (put i x s) = B seed (v_cmd c) (map (wflag_of c s) (v_flags c)) (map (word_of c s) (v_ops c)) [x].
Proof.
  intros R. rewrite (run_original B seed c i _ R). unfold put at 3. rewrite Z.eqb_refl.
  destruct (words_only c i (put i x s) s R) as (-> & ->); [|reflexivity]. intros v _ N. unfold put. destruct (Z.eqb_spec v i); [contradiction|reflexivity].
Qed.
Lemma append_cancel a b d : a +++ d = b +++ d -> a = b.
Proof.
  intros E. assert (L : String.length a = String.length b).
  { apply (f_equal String.length) in E. rewrite !append_length in E. lia. }
  revert b E L. induction a as [|x a IH]; intros [|y b] E L; try discriminate L; [reflexivity|]. cbn in *. injection E as -> E. f_equal. apply IH; auto.
Qed.
Theorem C68_concat_iff : forall dir inv p c i B Q dir',
  offered dir inv p -> p_aggregator p = SpecPara.concat -> reads_one c i -> tight c -> is_cat B -> tail_closed Q ->
  parallel_ok B dir' p c i (fun n => n <> 0) Q <-> piecewise B c i Q.
Proof.
  intros dir inv p c i B Q dir' O A R T CB QC. apply C68_concat_offered in O as (I & _); [|exact A]. split.
  - intros OK s seed seed1 seed2 a b EA HQ. rewrite !(put_run B _ c i s _ R).
    exact (concat_complete B dir' p c i Q R T I CB OK s seed seed1 seed2 a b HQ EA).
  - intros P. apply concat_sound; auto. intros s.
    set (f := fun sd x => B sd (v_cmd c) (map (wflag_of c s) (v_flags c)) (map (word_of c s) (v_ops c)) [x]).
    assert (H : forall sd sd1 sd2 a b, ends_line a -> Q (a +++ b) -> f sd (a +++ b) = f sd1 a +++ f sd2 b).
    { intros sd sd1 sd2 a b EA HQ. unfold f. rewrite <- !(put_run B _ c i s _ R). now apply P. }
    clear P. unfold distributive. cbv zeta. fold f.
    assert (ONE : forall x, Q x -> forall sd sd', f sd x = f sd' x).
    { intros x HQ sd sd'. assert (E : forall sd sd1 sd2, f sd x = f sd1 "" +++ f sd2 x) by (intros; apply (H _ _ _ ""); [now left|exact HQ]).
      pose proof (E sd 0 sd') as E1. pose proof (E sd' 0 sd) as E2. apply (f_equal String.length) in E2. rewrite E1, !append_length in E2.
      destruct (f 0 ""); [exact E1|cbn in E2; lia]. }
    intros pieces seed NE HQ (_ & F). revert HQ F NE. induction pieces as [|x l IH]; intros HQ F NE; [now destruct NE|]. destruct l as [|y l].
    + cbn [joined fold_right map] in *. rewrite !append_nil in *. split; [|apply ONE; exact HQ]. intros sd x' [<-|[]]. now apply ONE.
    + change (removelast (x :: y :: l)) with (x :: removelast (y :: l)) in F. inversion F as [|? ? EX F']; subst.
      change (joined (x :: y :: l)) with (x +++ joined (y :: l)) in *.
      destruct (IH (QC _ _ EX HQ) F') as (IH1 & IH2); [discriminate|]. split.
      * intros sd x' [<-|J]; [|auto]. change (f sd x = f 0 x). apply (append_cancel _ _ (f 0 (joined (y :: l)))). rewrite <- (H 0 sd 0), <- (H 0 0 0); auto.
      * change (f seed (x +++ joined (y :: l)) = f 0 x +++ joined (map (f 0) (y :: l))). rewrite (H seed 0 seed) by assumption. f_equal. exact IH2.
Qed.
Print Assumptions C68_concat_iff.
(** If the parts decide nothing else, some plan prints what the command never prints. *)
Theorem C68_concat_wrong : forall dir inv p c i B (Q : string -> Prop) dir' s a b,
  offered dir inv p -> p_aggregator p = SpecPara.concat -> reads_one c i -> tight c -> is_cat B ->
  ends_line a -> Q (a +++ b) ->
  (forall seed, run B seed c (put i a s) = run B 0 c (put i a s)) -> (forall seed, run B seed c (put i b s) = run B 0 c (put i b s)) ->
  (forall seed, run B seed c (put i (a +++ b) s) <> run B 0 c (put i a s) +++ run B 0 c (put i b s)) ->
  parallel_wrong B dir' p c i (fun n => n <> 0) Q.
Proof.
  intros dir inv p c i B Q dir' s a b O A R T CB EA HQ DA DB N. apply C68_concat_offered in O as (I & _); [|exact A].
  apply (concat_wrong B dir' p c i Q s a b R T I CB HQ EA).
  - intros sd. specialize (DA sd). specialize (DB sd). rewrite !(put_run B _ c i s _ R) in DA. rewrite !(put_run B _ c i s _ R) in DB. auto.
  - intros sd. specialize (N sd). rewrite !(put_run B _ c i s _ R) in N. exact N.
Qed.
Print Assumptions C68_concat_wrong.
(** Commands that treat each line by itself are parallelized soundly. *)
Theorem C68_line_by_line : forall dir inv p c i B dir' F,
  offered dir inv p -> p_aggregator p = SpecPara.concat -> reads_one c i -> tight c -> is_cat B ->
  (forall seed s, run B seed c s = unlines (flat_map (F s) (lines (s i)))) -> (forall s x, F (put i x s) = F s) ->
  parallel_ok B dir' p c i (fun n => n <> 0) (fun _ => True).
Proof.
  intros dir inv p c i B dir' F O A R T CB H HF. eapply C68_concat_iff; eauto; [intros ? ? _ _; exact I|].
  intros s seed seed1 seed2 a b EA _. rewrite !H. unfold put at 2 4 6. rewrite Z.eqb_refl, !HF.
  assert (CU : cut_at_lines (joined [a; b]) [a; b]) by (split; [reflexivity|apply (Forall_cons a EA), Forall_nil]).
  pose proof (cut_lines _ _ CU) as L. cbn [joined fold_right flat_map] in L. rewrite append_nil, app_nil_r in L. rewrite L, flat_map_app.
  unfold unlines. apply terminated_app.
Qed.
Print Assumptions C68_line_by_line.
(** set_diff with a command that prints the lines of its input that are not lines of the file:
    piecewise. *)
Definition grep_vxf : behaviour := fun _ cmd _ ops inputs =>
  match ops with
  | WFile _ content :: _ => if String.eqb cmd "set_diff" then unlines (filter (fun x => negb (mem x (lines content))) (flat_map lines inputs)) else joined inputs
  | _ => joined inputs
  end.
Definition set_diff_civ : civ :=
  mkCiv "set_diff" [] [PVar 0] (PVar 1) (PVar 2) (am_set (am_set (am_set am_empty 0 CONFIG_INPUT) 1 STREAM_INPUT) 2 STREAM_OUTPUT).
Example C68_case : exists inv, parse shipped_dir "set_diff dict" = Ok inv /\ invocation_of inv set_diff_civ /\ reads_one set_diff_civ 1 /\
  parallel_ok grep_vxf shipped_dir (chunks SpecPara.concat) set_diff_civ 1 (fun n => n <> 0) (fun _ => True).
Proof.
  assert (P : parse shipped_dir "set_diff dict" = Ok (mkInv "set_diff" [] ["dict"])) by (vm_compute; reflexivity).
  eexists. split; [exact P|]. split; [split; reflexivity|].
  assert (T : tight set_diff_civ).
  { split; [split|].
    - repeat constructor; cbn; lia.
    - intros v [<-|[<-|[<-|[]]]]; discriminate.
    - intros v. cbn. unfold am_set, am_empty. destruct (Z.eqb_spec v 2), (Z.eqb_spec v 1), (Z.eqb_spec v 0); subst; auto. }
  assert (R : reads_one set_diff_civ 1).
  { split; [apply T|]. split; [|split; [|split]].
    - apply kept_no; [discriminate|]. apply kept_yes; [reflexivity|]. apply kept_no; [discriminate|constructor].
    - exists 2%Z. split; [reflexivity|]. apply kept_no; [discriminate|]. apply kept_no; [discriminate|]. apply kept_yes; [reflexivity|constructor].
    - intros x [].
    - intros n a []. }
  split; [exact R|].
  apply (C68_line_by_line shipped_dir (mkInv "set_diff" [] ["dict"]) (chunks SpecPara.concat) set_diff_civ 1%Z grep_vxf shipped_dir
           (fun s x => if mem x (lines (s 0%Z)) then [] else [x])).
  - eapply offered_first; [vm_compute; reflexivity|now left].
  - reflexivity.
  - exact R.
  - exact T.
  - intros seed ops inputs NE. unfold grep_vxf. now destruct ops as [|[] ops].
  - intros seed s. rewrite (run_original _ _ _ 1%Z _ R).
    change (unlines (filter (fun x => negb (mem x (lines (s 0%Z)))) (lines (s 1%Z) ++ [])) = unlines (flat_map (fun x => if mem x (lines (s 0%Z)) then [] else [x]) (lines (s 1%Z)))).
    rewrite app_nil_r. f_equal. generalize (lines (s 1%Z)). induction l as [|x l IH]; [reflexivity|]. cbn [filter flat_map]. rewrite IH. now destruct (mem x (lines (s 0%Z))).
  - intros s x. reflexivity.
Qed.

(** col -V is offered the concatenation, and prints its version once for every part. *)
Definition versions : behaviour := fun _ cmd fl _ inputs => if String.eqb cmd "col" && given fl ["-V"] then "col from util-linux" else joined inputs.
Example C68_concat_wrong_case : exists inv, parse shipped_dir "col -V" = Ok inv /\
  offered shipped_dir inv (round_robin SpecPara.concat) /\ is_cat versions /\
  let c := filter_civ "col" [FFlag "-V"] [] in invocation_of inv c /\ reads_one c 1 /\
  parallel_wrong versions shipped_dir (round_robin SpecPara.concat) c 1 (fun n => n <> 0) (fun _ => True).
Proof.
  assert (P : parse shipped_dir "col -V" = Ok (mkInv "col" [Flag "-V"] [])) by (vm_compute; reflexivity).
  assert (O : offered shipped_dir (mkInv "col" [Flag "-V"] []) (round_robin SpecPara.concat)).
  { eapply offered_first; [vm_compute; reflexivity|right; now left]. }
  assert (CB : is_cat versions) by (intros seed ops inputs _; reflexivity).
  eexists. split; [exact P|]. split; [exact O|]. split; [exact CB|]. cbv zeta. split; [split; reflexivity|].
  assert (R : reads_one (filter_civ "col" [FFlag "-V"] []) 1) by now apply filter_civ_reads.
  split; [exact R|].
  apply (C68_concat_wrong shipped_dir _ _ _ 1%Z versions (fun _ => True) shipped_dir (fun _ => "") "" "" O eq_refl R); try reflexivity.
  - now apply filter_civ_tight.
  - exact CB.
  - now left.
  - intros seed. vm_compute. discriminate.
Qed.

(** ** C69 *)
Definition alt_par : parallelizer :=
  mkPar CONSEC_CHUNKS (custom_mapper "alt_bigrams_aux" []) (AggString CUSTOM_2_ARY "alt_bigram_aux_reduce" true) NO_ADD_INPUT 0.
Lemma alt_offered inv p : cmd_name inv = "alt_bigrams_aux" -> offered shipped_dir inv p -> p = alt_par.
Proof.
  intros C (i & k & ls & i' & l & G & CA & IL & I). apply (C28_only_sort shipped_dir inv i k ls i' l G) in CA as ->; auto.
  2: { rewrite C. intros [E|[E|[]]]; discriminate. }
  assert (A : annotated shipped_dir inv (Some (parallelizer_list i, is_commutative i))) by (apply C25_exact; now rewrite G).
  remember (parallelizer_list i) as l eqn:El. clear El.
  inversion A; subst; try solve [exfalso; cbn in *; intuition congruence]. destruct I as [<-|[]]. reflexivity.
Qed.
Lemma alt_mapper c i x y : reads_one c i -> v_cmd c = "alt_bigrams_aux" -> v_flags c = [] ->
  x <> y -> (v_acc c x = None /\ ~ In x (vars c)) -> (v_acc c y = None /\ ~ In y (vars c)) ->
  exists m, get_actual_mapper alt_par c x y [] = Ok (Some m) /\ writes m y /\
    forall f B seed s, prints f B -> run B seed m s = f (s x).
Proof.
  intros R VC VF NE X Y. destruct (mapper_run (chunks SpecPara.concat) c i x y R eq_refl eq_refl NE X Y) as (m & G & W & E).
  exists m. split; [|split; [exact W|]].
  - rewrite <- G. unfold get_actual_mapper, get_mapper, base_mapper. cbn. destruct c. cbn in *. now subst.
  - intros f B seed s P. rewrite E, VC, VF. apply P.
Qed.
Lemma alt_reduce c l r out : NoDup [out; l; r] ->
  exists a, get_aggregator shipped_dir (p_aggregator alt_par) c [l; r] out = Ok (Some (CUSTOM_2_ARY, a)) /\ writes a out /\
    forall B seed s x y, run B seed a (connect [l; r] [x; y] s) = B seed "alt_bigram_aux_reduce" [] [WStream STREAM_INPUT; WStream STREAM_INPUT] [x; y].
Proof.
  intros N.
  exists (mkCiv "alt_bigram_aux_reduce" [] [PVar l; PVar r] PNone (PVar out)
            (am_set (am_set (am_set am_empty l STREAM_INPUT) r STREAM_INPUT) out STREAM_OUTPUT)). split.
  { unfold get_aggregator, get_aggregator_string. cbn [p_aggregator alt_par agg_is_implemented negb].
    replace (parse shipped_dir "alt_bigram_aux_reduce") with (Ok (mkInv "alt_bigram_aux_reduce" [] [])) by (vm_compute; reflexivity). reflexivity. }
  assert (NL : l <> out /\ r <> out /\ l <> r).
  { inversion N as [|? ? N1 N']; subst. inversion N' as [|? ? N2 _]; subst. cbn in *. intuition congruence. }
  destruct NL as (L1 & L2 & L3).
  assert (A1 : am_set (am_set (am_set am_empty l STREAM_INPUT) r STREAM_INPUT) out STREAM_OUTPUT l = Some STREAM_INPUT).
  { unfold am_set. destruct (Z.eqb_spec l out); [contradiction|]. destruct (Z.eqb_spec l r); [contradiction|]. now rewrite Z.eqb_refl. }
  assert (A2 : am_set (am_set (am_set am_empty l STREAM_INPUT) r STREAM_INPUT) out STREAM_OUTPUT r = Some STREAM_INPUT).
  { unfold am_set. destruct (Z.eqb_spec r out); [contradiction|]. now rewrite Z.eqb_refl. }
  assert (A3 : am_set (am_set (am_set am_empty l STREAM_INPUT) r STREAM_INPUT) out STREAM_OUTPUT out = Some STREAM_OUTPUT).
  { unfold am_set. now rewrite Z.eqb_refl. }
  split; [split; [cbn; auto|exact A3]|].
  intros B seed s x y. unfold run, streams, vars, slots. cbn [v_cmd v_flags v_ops v_in v_out option_args flat_map map app var_of filter v_acc word_of].
  rewrite A1, A2, A3. cbn [map]. do 2 f_equal; [|f_equal].
  - cbn. now rewrite Z.eqb_refl.
  - cbn. destruct (Z.eqb_spec r l); [congruence|]. now rewrite Z.eqb_refl.
Qed.
Lemma joined_ends l : Forall ends_line l -> ends_line (joined l).
Proof.
  induction 1 as [|x l [->|(t & ->)] H IH]; [now left|exact IH|]. right. destruct IH as [E|(u & E)]; cbn [joined fold_right] in *; unfold joined in E; rewrite E.
  - exists t. now rewrite append_nil.
  - exists (t +++ String newline u). now rewrite !append_assoc.
Qed.
Lemma alt_plan c i f g B s : reads_one c i -> v_cmd c = "alt_bigrams_aux" -> v_flags c = [] -> prints f B -> reduces g B ->
  (forall a b, ends_line a -> f (a +++ b) = g (f a) (f b)) ->
  forall t, fresh_plan c t -> arity (fun n => n = 2) t -> Forall ends_line (removelast (map s (parts t))) ->
  evaluates B shipped_dir alt_par c s t (f (joined (map s (parts t)))).
Proof.
  intros R VC VF PF RG H. induction t as [x y seed|o seed ts IH] using plan_rect'; intros FR AR EL.
  - destruct FR as (ND & FR). cbn in *. inversion ND as [|? ? Ni _]; subst.
    destruct (alt_mapper c i x y R VC VF) as (m & G & W & E); [intros ->; apply Ni; now left|apply FR; now left|apply FR; right; now left|].
    rewrite append_nil. rewrite <- (E f B seed s PF). now constructor.
  - pose proof (fresh_children _ _ _ _ FR) as FC. cbn in AR. destruct AR as (AN & AR). apply arity_children in AR.
    destruct ts as [|t1 [|t2 [|]]]; try discriminate AN. clear AN.
    inversion FC as [|? ? F1 FC']; subst. inversion FC' as [|? ? F2 _]; subst.
    inversion AR as [|? ? R1 AR']; subst. inversion AR' as [|? ? R2 _]; subst.
    inversion IH as [|? ? I1 IH']; subst. inversion IH' as [|? ? I2 _]; subst.
    cbn [parts flat_map] in EL |- *. rewrite app_nil_r, map_app in *.
    assert (N2 : map s (parts t2) <> []).
    { intros X. apply map_eq_nil in X. revert X. eapply parts_nonempty; [|exact R2]. cbv beta. intros n ->. discriminate. }
    rewrite removelast_app in EL by exact N2. apply Forall_app in EL as (EL1 & EL2).
    assert (EL1' : Forall ends_line (removelast (map s (parts t1)))).
    { clear -EL1. generalize dependent (map s (parts t1)). induction l as [|x l IH]; [constructor|]. intros F. inversion F; subst. destruct l; [constructor|].
      change (removelast (x :: s0 :: l)) with (x :: removelast (s0 :: l)). constructor; auto. }
    rewrite joined_app, H by (now apply joined_ends).
    destruct (alt_reduce c (root t1) (root t2) o) as (a & G & W & E).
    { exact (roots_nodup o [t1; t2] (proj1 FR)). }
    rewrite <- (RG seed [WStream STREAM_INPUT; WStream STREAM_INPUT]), <- (E B seed s).
    apply (ev_node B shipped_dir alt_par c s o seed [t1; t2] [_; _] CUSTOM_2_ARY a); [|exact G|exact W].
    constructor; [now apply I1|]. constructor; [now apply I2|constructor].
Qed.
(** The result of two parts, whatever the reducing command does *)
Lemma alt_two c i f B (s : store) a b sd : reads_one c i -> tight c -> v_cmd c = "alt_bigrams_aux" -> v_flags c = [] -> prints f B -> ends_line a ->
  exists s' t, fresh_plan c t /\ arity (fun n => n = 2) t /\ s' i = a +++ b /\ distributes (p_splitter alt_par) (s' i) (map s' (parts t)) /\
    evaluates B shipped_dir alt_par c s' t (B sd "alt_bigram_aux_reduce" [] [WStream STREAM_INPUT; WStream STREAM_INPUT] [f a; f b]) /\
    forall seed, run B seed c s' = f (a +++ b).
Proof.
  intros R T VC VF PF EA. destruct (fresh_vars c i T) as (z & Z1 & Z2).
  set (s' := connect [i; z; z + 1]%Z [a +++ b; a; b] s).
  set (t := Node (z + 4)%Z sd [Leaf z (z + 2)%Z 0; Leaf (z + 1)%Z (z + 3)%Z 0]).
  assert (Si : s' i = a +++ b) by (unfold s'; cbn; now rewrite Z.eqb_refl).
  assert (S1 : s' z = a).
  { unfold s'; cbn. destruct (Z.eqb_spec z i); [lia|]. now rewrite Z.eqb_refl. }
  assert (S2 : s' (z + 1)%Z = b).
  { unfold s'; cbn -[Z.add]. destruct (Z.eqb_spec (z + 1) i); [lia|]. destruct (Z.eqb_spec (z + 1) z); [lia|]. now rewrite Z.eqb_refl. }
  exists s', t. split; [|split; [|split; [|split; [|split]]]].
  - split; [cbn; repeat constructor; cbn; lia|]. intros v J. apply Z2. cbn in J. lia.
  - cbn. auto.
  - exact Si.
  - cbn [parts t flat_map map app]. rewrite Si, S1, S2. cbn [distributes p_splitter alt_par].
    split; [cbn; now rewrite append_nil|apply (Forall_cons a EA), Forall_nil].
  - destruct (alt_mapper c i z (z + 2)%Z R VC VF) as (m1 & G1 & W1 & E1); [lia|apply Z2; lia|apply Z2; lia|].
    destruct (alt_mapper c i (z + 1)%Z (z + 3)%Z R VC VF) as (m2 & G2 & W2 & E2); [lia|apply Z2; lia|apply Z2; lia|].
    destruct (alt_reduce c (z + 2)%Z (z + 3)%Z (z + 4)%Z) as (ag & G & W & E).
    { repeat constructor; cbn; lia. }
    rewrite <- (E B sd s'). apply (ev_node B shipped_dir alt_par c s' (z + 4)%Z sd [Leaf z (z + 2)%Z 0; Leaf (z + 1)%Z (z + 3)%Z 0] [f a; f b] CUSTOM_2_ARY ag); [|exact G|exact W].
    constructor; [|constructor; [|constructor]].
    + rewrite <- S1, <- (E1 f B 0 s' PF). now constructor.
    + rewrite <- S2, <- (E2 f B 0 s' PF). now constructor.
  - intros seed. rewrite (run_original B seed c i s' R), VC, VF, Si. apply PF.
Qed.
(** Sound exactly if the reducing command computes the result for two parts from the results
    for the parts. *)
Theorem C69_iff : forall inv p c i B f g,
  cmd_name inv = "alt_bigrams_aux" -> offered shipped_dir inv p ->
  reads_one c i -> tight c -> v_cmd c = "alt_bigrams_aux" -> v_flags c = [] -> prints f B -> reduces g B ->
  parallel_ok B shipped_dir p c i (fun n => n = 2) (fun _ => True) <-> (forall a b, ends_line a -> f (a +++ b) = g (f a) (f b)).
Proof.
  intros inv p c i B f g C O R T VC VF PF RG. apply alt_offered in O as ->; [|exact C]. split.
  - intros OK a b EA. destruct (alt_two c i f B (fun _ => "") a b 0 R T VC VF PF EA) as (s' & t & F & A & Si & D & E & RU).
    rewrite <- (RU 0), <- (RG 0 [WStream STREAM_INPUT; WStream STREAM_INPUT]). eapply C50_one_result; [apply (OK s' t 0 F A Logic.I D)|exact E].
  - intros H s t seed F A _ (E & EL). rewrite (run_original B seed c i s R), VC, VF, PF, E.
    eapply alt_plan; eauto.
Qed.
Print Assumptions C69_iff.
(** No reducing command helps if the results for two parts do not determine the result. *)
Theorem C69_wrong : forall inv p c i B f a b a' b',
  cmd_name inv = "alt_bigrams_aux" -> offered shipped_dir inv p ->
  reads_one c i -> tight c -> v_cmd c = "alt_bigrams_aux" -> v_flags c = [] -> prints f B ->
  ends_line a -> ends_line a' -> f a = f a' -> f b = f b' -> f (a +++ b) <> f (a' +++ b') ->
  parallel_wrong B shipped_dir p c i (fun n => n = 2) (fun _ => True).
Proof.
  intros inv p c i B f a b a' b' C O R T VC VF PF EA EA' E1 E2 NE. apply alt_offered in O as ->; [|exact C].
  set (r := B 0 "alt_bigram_aux_reduce" [] [WStream STREAM_INPUT; WStream STREAM_INPUT] [f a; f b]).
  destruct (string_dec r (f (a +++ b))) as [Y|Y].
  - destruct (alt_two c i f B (fun _ => "") a' b' 0 R T VC VF PF EA') as (s' & t & F & A & Si & D & E & RU).
    rewrite <- E1, <- E2 in E. exists s', t, r. repeat (split; [assumption || exact Logic.I|]). intros seed. rewrite RU. congruence.
  - destruct (alt_two c i f B (fun _ => "") a b 0 R T VC VF PF EA) as (s' & t & F & A & Si & D & E & RU).
    exists s', t, r. repeat (split; [assumption || exact Logic.I|]). intros seed. now rewrite RU.
Qed.
Print Assumptions C69_wrong.
Lemma one_line x : has_char newline x = false -> lines (x +++ String newline "") = [x].
Proof.
  intros H. pose proof (records_terminated newline [x]) as E. unfold terminated in E. cbn [map joined fold_right] in E. rewrite append_nil in E. apply E.
  constructor; [|constructor]. exact H.
Qed.
(** The pairs of lines are such a result: single lines have no pairs. *)
Theorem C69_pairs_wrong : forall inv p c i B F,
  cmd_name inv = "alt_bigrams_aux" -> offered shipped_dir inv p ->
  reads_one c i -> tight c -> v_cmd c = "alt_bigrams_aux" -> v_flags c = [] ->
  prints (fun x => F (line_pairs (lines x))) B -> tells F ->
  parallel_wrong B shipped_dir p c i (fun n => n = 2) (fun _ => True).
Proof.
  intros inv p c i B F C O R T VC VF PF (x & y & x' & y' & N & D).
  inversion N as [|? ? N1 N']; subst. inversion N' as [|? ? N2 N'']; subst. inversion N'' as [|? ? N3 N4]; subst. inversion N4 as [|? ? N5 _]; subst.
  assert (TWO : forall x y, has_char newline x = false -> has_char newline y = false -> lines ((x +++ String newline "") +++ y +++ String newline "") = [x; y]).
  { clear. intros x y H H'. assert (E : lines (terminated newline [x; y]) = [x; y]) by (apply records_terminated; repeat constructor; assumption).
    unfold terminated in E. cbn [map joined fold_right] in E. now rewrite append_nil in E. }
  apply (C69_wrong inv p c i B _ (x +++ String newline "") (y +++ String newline "") (x' +++ String newline "") (y' +++ String newline "") C O R T VC VF PF).
  - right. eauto.
  - right. eauto.
  - now rewrite !one_line.
  - now rewrite !one_line.
  - rewrite !TWO by assumption. exact D.
Qed.
Print Assumptions C69_pairs_wrong.
(** A system where alt_bigrams_aux copies and its aggregator concatenates is parallelized soundly; with
    the real pairs it is not. *)
Definition alt_copy : behaviour := fun _ _ _ _ inputs => joined inputs.
Definition alt_pairs : behaviour := fun _ cmd _ _ inputs => if String.eqb cmd "alt_bigrams_aux" then bigrams (joined inputs) else joined inputs.
Example C69_case : exists inv, parse shipped_dir "alt_bigrams_aux" = Ok inv /\ offered shipped_dir inv alt_par /\
  let c := filter_civ "alt_bigrams_aux" [] [] in reads_one c 1 /\ tight c /\
  parallel_ok alt_copy shipped_dir alt_par c 1 (fun n => n = 2) (fun _ => True) /\
  parallel_wrong alt_pairs shipped_dir alt_par c 1 (fun n => n = 2) (fun _ => True).
Proof.
  assert (O : offered shipped_dir (mkInv "alt_bigrams_aux" [] []) alt_par).
  { eapply offered_first; [vm_compute; reflexivity|now left]. }
  eexists. split; [vm_compute; reflexivity|]. split; [exact O|]. cbv zeta.
  assert (R : reads_one (filter_civ "alt_bigrams_aux" [] []) 1) by now apply filter_civ_reads.
  assert (T : tight (filter_civ "alt_bigrams_aux" [] [])) by now apply filter_civ_tight.
  split; [exact R|]. split; [exact T|]. split.
  - apply (C69_iff (mkInv "alt_bigrams_aux" [] []) alt_par _ 1%Z alt_copy (fun x => x) (fun x y => x +++ y) eq_refl O R T eq_refl eq_refl); [| |reflexivity].
    + intros seed ops x. unfold alt_copy. cbn. apply append_nil.
    + intros seed ops x y. unfold alt_copy. cbn. now rewrite append_nil.
  - apply (C69_pairs_wrong (mkInv "alt_bigrams_aux" [] []) alt_par _ 1%Z alt_pairs unlines eq_refl O R T eq_refl eq_refl).
    + intros seed ops x. unfold alt_pairs. cbn. rewrite append_nil. reflexivity.
    + exists "a", "b", "c", "d". split; [repeat constructor|]. vm_compute. discriminate.
Qed.
