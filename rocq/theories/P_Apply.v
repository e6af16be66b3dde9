(** * C94: what applying input-output information makes, leaves alone and shares *)
From Coq Require Import Lia.
Require Import Verif.PyBase Verif.Parser Verif.Access Verif.IOInfo Verif.IOVars Verif.Heap Verif.HeapApply Verif.SpecHeap Verif.SpecApply
  Verif.HeapFacts Verif.HeapSep Verif.HeapCopy Verif.P_Heap Verif.P_Infer Verif.ApplyFacts.

(** The call on objects ends as IOInfo.v says about the values, in the same exception or with an
    object that stands for the same invocation; in both cases no object that existed has changed. *)
Theorem C94_applied : forall h x y fos ops fts ots i o info inv, closed h -> info_is h x fts ots i o info -> invocation_is h y fos ops inv ->
  match apply_io_info_h x y h, apply_io_info info inv with
  | (h', Ok r), Ok c => unchanged h h' /\ invocation_io_is h' r c
  | (h', Raise e), Raise e' => unchanged h h' /\ e = e'
  | _, _ => False
  end.
Proof.
  intros h x y fos ops fts ots i o info inv C I V. pose proof (apply_spec _ _ _ _ _ _ _ _ _ _ _ C I V) as S. unfold outcome, made in S.
  destruct (apply_io_info_h x y h) as (h' & [r|e]); destruct (apply_io_info info inv) as [c|e']; tauto.
Qed.
Print Assumptions C94_applied.

(** What is known of a call that returns *)
Lemma applied h x y fos ops fts ots i o info inv h1 r : closed h -> info_is h x fts ots i o info -> invocation_is h y fos ops inv ->
  apply_io_info_h x y h = (h1, Ok r) ->
  unchanged h h1 /\ closed h1 /\ valid h1 r /\ keeps h fos fts ops ots h1 r /\
  forall l, l < length h -> (reaches h1 r l <-> shared h fos fts ops ots i o l).
Proof.
  intros C I V E. pose proof (apply_spec _ _ _ _ _ _ _ _ _ _ _ C I V) as S. rewrite E in S. unfold outcome, made in S.
  destruct (apply_io_info info inv) as [c|e']; tauto.
Qed.

(** Exactly these of the older objects are part of the result: the flags of the invocation, the
    accesses of the typers used and what the information has as implicit uses. *)
Theorem C94_shared : forall h x y fos ops fts ots i o info inv h1 r, closed h -> info_is h x fts ots i o info -> invocation_is h y fos ops inv ->
  apply_io_info_h x y h = (h1, Ok r) ->
  forall l, l < length h -> (reaches h1 r l <-> shared h fos fts ops ots i o l).
Proof. intros. edestruct applied as (_ & _ & _ & _ & R); eauto. Qed.
Print Assumptions C94_shared.

(** Element by element: flags are the very objects of the invocation, options are new, and the
    access of a resource is the very object in its typer. *)
Theorem C94_elements : forall h x y fos ops fts ots i o info inv h1 r, closed h -> info_is h x fts ots i o info -> invocation_is h y fos ops inv ->
  apply_io_info_h x y h = (h1, Ok r) -> keeps h fos fts ops ots h1 r.
Proof. intros. edestruct applied as (_ & _ & _ & K & _); eauto. Qed.
Print Assumptions C94_elements.

(** Whatever a client does with the result, the other older objects stay as they are. *)
Theorem C94_client : forall h x y fos ops fts ots i o info inv h1 r h2 held, closed h -> info_is h x fts ots i o info -> invocation_is h y fos ops inv ->
  apply_io_info_h x y h = (h1, Ok r) -> client h1 [r] h2 held ->
  forall l, l < length h -> ~ shared h fos fts ops ots i o l -> nth_error h2 l = nth_error h l.
Proof.
  intros h x y fos ops fts ots i o info inv h1 r h2 held C I V E Cl l L N.
  destruct (applied _ _ _ _ _ _ _ _ _ _ _ _ _ C I V E) as (U & C1 & Vr & _ & R). rewrite <- (U l L).
  pose proof (unchanged_length _ _ U). eapply held_confined; [exact C1|constructor; [exact Vr|constructor]|exact Cl|lia|].
  intros q [<-|[]] X. apply N. now apply R.
Qed.
Print Assumptions C94_client.

(** ** Applying the same information twice *)
Lemma typer_later h h' x t : unchanged h h' -> typer_is h x t -> typer_is h' x t.
Proof.
  intros U (l & w & r & -> & E & T). exists l, w, r. split; [reflexivity|]. split; [eapply nth_later; eauto|].
  destruct t; [|exact T|exact T]. destruct T as (A & B). split; [exact A|]. eapply view_access_stable; [apply unchanged_stable, U|exact B].
Qed.
Lemma flagoption_is_later h h' x f : unchanged h h' -> flagoption_is h x f -> flagoption_is h' x f.
Proof. intros U (l & -> & F). exists l. split; [reflexivity|]. destruct f; eapply nth_later; eauto. Qed.
Lemma operand_later h h' x s : unchanged h h' -> operand_is h x s -> operand_is h' x s.
Proof. intros U (l & -> & F). exists l. split; [reflexivity|]. eapply nth_later; eauto. Qed.
Lemma list_later {A} (is : heap -> hval -> A -> Prop) h h' x vs l : unchanged h h' -> (forall v y, is h v y -> is h' v y) ->
  list_is is h x vs l -> list_is is h' x vs l.
Proof. intros U M (a & -> & E & F). exists a. split; [reflexivity|]. split; [eapply nth_later; eauto|eapply Forall2_later; eauto]. Qed.
Lemma info_later h h' x fts ots i o info : unchanged h h' -> info_is h x fts ots i o info -> info_is h' x fts ots i o info.
Proof.
  intros U (l & ft & ot & -> & E & F & O & I & J). exists l, ft, ot. split; [reflexivity|]. split; [eapply nth_later; eauto|].
  split; [|split; [|split]]; try (eapply list_later; [exact U| |eassumption]; intros; eapply typer_later; eauto); eapply resource_later; eauto.
Qed.
Lemma invocation_later h h' x fos ops inv : unchanged h h' -> invocation_is h x fos ops inv -> invocation_is h' x fos ops inv.
Proof.
  intros U (l & fl & ol & -> & E & F & O). exists l, fl, ol. split; [reflexivity|]. split; [eapply nth_later; eauto|]. split.
  - eapply list_later; [exact U| |exact F]. intros. eapply flagoption_is_later; eauto.
  - eapply list_later; [exact U| |exact O]. intros. eapply operand_later; eauto.
Qed.
Lemma in_combine_is {A B} (is : heap -> hval -> A -> Prop) (is' : heap -> hval -> B -> Prop) h vs l ws m v w :
  Forall2 (is h) vs l -> Forall2 (is' h) ws m -> In (v, w) (combine vs ws) -> (exists x, is h v x) /\ exists y, is' h w y.
Proof.
  intros F G J. pose proof (in_combine_l _ _ _ _ J) as J1. pose proof (in_combine_r _ _ _ _ J) as J2. split.
  - clear - F J1. induction F; [contradiction|]. destruct J1 as [->|J1]; eauto.
  - clear - G J2. induction G; [contradiction|]. destruct J2 as [->|J2]; eauto.
Qed.
Lemma class_same h h' x c : unchanged h h' -> valid h x -> (class_in h' x c <-> class_in h x c).
Proof.
  intros U V. split; intros (l & attrs & -> & E); exists l, attrs; (split; [reflexivity|]); [rewrite U in E; auto|eapply nth_later; eauto].
Qed.
Lemma typer_same h h' t l : closed h -> unchanged h h' -> valid h t -> (brought_by_typer h' t l <-> brought_by_typer h t l).
Proof.
  intros C U V. split; intros (k & r & -> & E & R); exists k, r; (split; [reflexivity|]); cbn in V.
  - rewrite U in E by exact V. split; [exact E|]. apply (reaches_same h h'); auto. eapply slot_valid; [exact C|exact E|cbn; auto].
  - split; [eapply nth_later; eauto|]. eapply reaches_later; eauto.
Qed.
Lemma shared_same h h' x y fos ops fts ots i o info inv l : closed h -> unchanged h h' -> info_is h x fts ots i o info -> invocation_is h y fos ops inv ->
  (shared h' fos fts ops ots i o l <-> shared h fos fts ops ots i o l).
Proof.
  intros C U (a & ft & ot & -> & Ei & (a1 & -> & Lft & Fft) & (a2 & -> & Lot & Fot) & Ri & Ro)
    (b & fl & ol & -> & Ec & (b1 & -> & Lfl & Ffl) & (b2 & -> & Lol & Fol)).
  assert (Vi : valid h i) by (eapply slot_valid; [exact C|exact Ei|cbn; auto]).
  assert (Vo : valid h o) by (eapply slot_valid; [exact C|exact Ei|cbn; auto]).
  assert (Vt : forall ts a v, nth_error h a = Some (OList ts) -> In v ts -> valid h v) by (intros; eapply slot_valid; eauto).
  unfold shared. rewrite !(reaches_same h h') by auto.
  assert (A : forall fo t, In (fo, t) (combine fos fts) -> (brought_by_flagoption h' fo t l <-> brought_by_flagoption h fo t l)).
  { intros fo t J. pose proof (Vt _ _ _ Lfl (in_combine_l _ _ _ _ J)) as V1. pose proof (Vt _ _ _ Lft (in_combine_r _ _ _ _ J)) as V2.
    unfold brought_by_flagoption. now rewrite !(class_same h h'), (reaches_same h h'), (typer_same h h') by auto. }
  assert (B : forall op t, In (op, t) (combine ops ots) -> (brought_by_typer h' t l <-> brought_by_typer h t l)).
  { intros op t J. pose proof (Vt _ _ _ Lot (in_combine_r _ _ _ _ J)) as V2. now rewrite (typer_same h h') by auto. }
  split; (intros [(p & t & J & X)|[(p & t & J & X)|X]]; [left|right; left|right; right; exact X]);
    exists p, t; (split; [exact J|]); first [now apply A|now apply (B p t)].
Qed.
Lemma shared_bound h fos fts ops ots i o l : shared h fos fts ops ots i o l -> l < length h.
Proof.
  intros [(p & t & J & [(_ & R)|(_ & k & r & _ & _ & R)])|[(p & t & J & k & r & _ & _ & R)|[R|R]]]; eapply reaches_bound; eauto.
Qed.

(** Two calls on the same information, in this order: the objects both results have in common are
    those that both take over. *)
Theorem C94_two_calls : forall h x y1 y2 fos1 ops1 fos2 ops2 fts ots i o info inv1 inv2 h1 h2 r1 r2, closed h -> info_is h x fts ots i o info ->
  invocation_is h y1 fos1 ops1 inv1 -> invocation_is h y2 fos2 ops2 inv2 ->
  apply_io_info_h x y1 h = (h1, Ok r1) -> apply_io_info_h x y2 h1 = (h2, Ok r2) ->
  forall l, (reaches h2 r1 l /\ reaches h2 r2 l <-> shared h fos1 fts ops1 ots i o l /\ shared h fos2 fts ops2 ots i o l).
Proof.
  intros h x y1 y2 fos1 ops1 fos2 ops2 fts ots i o info inv1 inv2 h1 h2 r1 r2 C I V1 V2 E1 E2 l.
  destruct (applied _ _ _ _ _ _ _ _ _ _ _ _ _ C I V1 E1) as (U1 & C1 & W1 & _ & R1).
  pose proof (info_later _ _ _ _ _ _ _ _ U1 I) as I1. pose proof (invocation_later _ _ _ _ _ _ U1 V2) as V2'.
  destruct (applied _ _ _ _ _ _ _ _ _ _ _ _ _ C1 I1 V2' E2) as (U2 & C2 & W2 & _ & R2).
  rewrite (reaches_same h1 h2) by auto.
  assert (S : shared h1 fos2 fts ops2 ots i o l <-> shared h fos2 fts ops2 ots i o l) by (eapply shared_same; eauto).
  split.
  - intros (A & B). pose proof (reaches_bound _ _ _ A) as L. apply R2 in B; [|exact L]. apply S in B. split; [|exact B].
    apply R1; [|exact A]. eapply shared_bound; eauto.
  - intros (A & B). pose proof (shared_bound _ _ _ _ _ _ _ _ A) as L. pose proof (unchanged_length _ _ U1). split; [now apply R1|].
    apply R2; [lia|]. now apply S.
Qed.
Print Assumptions C94_two_calls.

Lemma Forall2_length {A B} (R : A -> B -> Prop) l m : Forall2 R l m -> length l = length m.
Proof. induction 1; cbn; auto. Qed.
Lemma closed_update h l o : closed h -> Forall (valid h) (slots o) -> closed (update h l o).
Proof.
  intros C V o' J. apply In_nth_error in J as (j & E).
  assert (M : forall v, valid h v -> valid (update h l o) v) by (intros v; apply valid_mono; rewrite update_length; lia).
  destruct (Nat.eq_dec j l) as [->|N].
  - assert (L : l < length h) by (rewrite <- (update_length h l o); eapply nth_bound; eauto). rewrite update_same in E by exact L. injection E as <-.
    eapply Forall_impl; eauto.
  - rewrite update_other in E by exact N. eapply Forall_impl; [exact M|]. apply C. eapply nth_error_In; eauto.
Qed.

(** ** The information as the constructor makes it *)
Lemma resource_valid h x r : resource_is h x r -> valid h x.
Proof.
  destruct r; cbn; [|now intros ->]. intros V. apply view_val_form in V.
  inversion V; subst; cbn; auto; eapply nth_bound; eauto.
Qed.
Lemma Forall2_repeat {A B} (R : A -> B -> Prop) x y n : R x y -> Forall2 R (repeat x n) (repeat y n).
Proof. intros H. induction n; cbn; constructor; auto. Qed.
(** The heap after the constructor, with whatever kind the one access has now *)
Lemma built_info h h' ft fts fs n i o ri ro k : unchanged h h' -> list_is typer_is h ft fts fs -> resource_is h i ri -> resource_is h o ro ->
  let a := length h in
  nth_error h' a = Some (OInst "AccessKind" [("kind", HAccess k)]) ->
  nth_error h' (1 + a) = Some (typer_obj "filestd" (HRef a)) -> nth_error h' (2 + a) = Some (OList (repeat (HRef (1 + a)) n)) ->
  nth_error h' (3 + a) = Some (OInst "InputOutputInfo" [("flagoption_list_typer", ft); ("operand_list_typer", HRef (2 + a));
     ("implicit_use_of_streaming_input", i); ("implicit_use_of_streaming_output", o)]) ->
  info_is h' (HRef (3 + a)) fts (repeat (HRef (1 + a)) n) i o (mkIO fs (repeat (FILESTD k) n) ri ro).
Proof.
  intros U F Ri Ro a A T L I. exists (3 + a), ft, (HRef (2 + a)). split; [reflexivity|]. split; [exact I|].
  split; [eapply list_later; [exact U| |exact F]; intros; eapply typer_later; eauto|].
  split; [|split; eapply resource_later; eauto].
  exists (2 + a). split; [reflexivity|]. split; [exact L|]. apply Forall2_repeat. exists (1 + a), "filestd", (HRef a).
  split; [reflexivity|]. split; [exact T|]. split; [reflexivity|]. unfold view_access, attr. now rewrite A.
Qed.
Lemma new_info_heap h ft n i o : let a := length h in
  new_io_info_h ft n i o h =
    (h ++ [OInst "AccessKind" [("kind", HAccess STREAM_INPUT)]; typer_obj "filestd" (HRef a); OList (repeat (HRef (1 + a)) n);
      OInst "InputOutputInfo" [("flagoption_list_typer", ft); ("operand_list_typer", HRef (2 + a));
       ("implicit_use_of_streaming_input", i); ("implicit_use_of_streaming_output", o)]], Ok (HRef (3 + a))).
Proof.
  cbn zeta. unfold new_io_info_h, hbind, new_access, alloc. rewrite <- !app_assoc, !app_length. cbn [length app].
  now rewrite !(Nat.add_comm (length h)).
Qed.
Lemma nth_added (h : heap) os j : nth_error (h ++ os) (j + length h) = nth_error os j.
Proof. rewrite nth_error_app2 by lia. f_equal. lia. Qed.
Lemma nth_added0 (h : heap) o os : nth_error (h ++ o :: os) (length h) = Some o.
Proof. apply (nth_added h (o :: os) 0). Qed.

(** The constructor makes information in which every operand is a streaming input. *)
Theorem C94_constructed : forall h ft fts fs n i o ri ro, closed h -> list_is typer_is h ft fts fs -> resource_is h i ri -> resource_is h o ro ->
  exists h' x t, new_io_info_h ft n i o h = (h', Ok x) /\ unchanged h h' /\ closed h' /\
    info_is h' x fts (repeat t n) i o (mkIO fs (repeat (FILESTD STREAM_INPUT) n) ri ro).
Proof.
  intros h ft fts fs n i o ri ro C F Ri Ro. eexists _, _, (HRef (1 + length h)). split; [apply new_info_heap|].
  set (os := [OInst "AccessKind" _; _; _; _]). assert (U : unchanged h (h ++ os)) by (intros l L; now apply nth_error_app1).
  split; [exact U|]. split.
  - pose proof (resource_valid _ _ _ Ri) as Vi. pose proof (resource_valid _ _ _ Ro) as Vo.
    assert (Vf : valid h ft) by (destruct F as (b & -> & E & _); cbn; eapply nth_bound; eauto).
    assert (M : forall v, valid h v -> valid (h ++ os) v) by (intros v; apply valid_mono; rewrite app_length; lia).
    assert (N : forall j, j < 4 -> valid (h ++ os) (HRef (j + length h))) by (intros j J; cbn; rewrite app_length; cbn; lia).
    intros ob J. apply in_app_or in J as [J|J]; [specialize (C ob J); eapply Forall_impl; [exact M|exact C]|].
    unfold os in J. cbn [In] in J. destruct J as [<-|[<-|[<-|[<-|[]]]]]; cbn [slots map snd typer_obj].
    + repeat constructor.
    + constructor; [exact I|]. constructor; [apply (N 0); lia|constructor].
    + apply Forall_forall. intros v J. apply repeat_spec in J as ->. apply N. lia.
    + constructor; [auto|]. constructor; [apply N; lia|]. constructor; [auto|]. constructor; [auto|constructor].
  - eapply built_info; eauto; first [apply nth_added0|rewrite nth_added; reflexivity].
Qed.
Print Assumptions C94_constructed.

(** All operands have one access: a client that has only one operand of the result, say the last,
    can change the access of all of them, in this result and in those of all later calls on the
    information. *)
Theorem C94_operands_independent_refuted : forall h ft fts fs n i o ri ro y fos ops inv h1 x h2 r fos' ops', closed h ->
  list_is typer_is h ft fts fs -> resource_is h i ri -> resource_is h o ro -> invocation_is h y fos ops inv ->
  new_io_info_h ft n i o h = (h1, Ok x) -> apply_io_info_h x y h1 = (h2, Ok r) -> result_lists h2 r fos' ops' ->
  length ops' = Nat.min (length (operand_list inv)) n /\
  (forall v, In v ops' -> exists el, view_val h2 v = Some (PRes (mkRes el STREAM_INPUT))) /\
  forall v k, In v ops' -> exists h3 held, client h2 [v] h3 held /\ closed h3 /\
    (forall w, In w ops' -> exists el, view_val h3 w = Some (PRes (mkRes el k))) /\
    exists t, info_is h3 x fts (repeat t n) i o (mkIO fs (repeat (FILESTD k) n) ri ro) /\ invocation_is h3 y fos ops inv.
Proof.
  intros h ft fts fs n i o ri ro y fos ops inv h1 x h2 r fos' ops' C F Ri Ro V E1 E2 RL.
  destruct (C94_constructed h ft fts fs n i o ri ro C F Ri Ro) as (h1' & x' & t' & E1' & U1 & C1 & _).
  rewrite E1 in E1'. injection E1' as <- <-. rewrite new_info_heap in E1. injection E1 as <- <-.
  set (a := length h) in *. set (os := [OInst "AccessKind" _; _; _; _]) in *. set (h1 := h ++ os) in *.
  assert (Ea : nth_error h1 a = Some (OInst "AccessKind" [("kind", HAccess STREAM_INPUT)])) by apply nth_added0.
  assert (Et : nth_error h1 (1 + a) = Some (typer_obj "filestd" (HRef a))) by (unfold h1, a; rewrite nth_added; reflexivity).
  assert (El : nth_error h1 (2 + a) = Some (OList (repeat (HRef (1 + a)) n))) by (unfold h1, a; rewrite nth_added; reflexivity).
  assert (Ei : nth_error h1 (3 + a) = Some (OInst "InputOutputInfo" [("flagoption_list_typer", ft); ("operand_list_typer", HRef (2 + a));
     ("implicit_use_of_streaming_input", i); ("implicit_use_of_streaming_output", o)])) by (unfold h1, a; rewrite nth_added; reflexivity).
  pose proof (built_info h h1 ft fts fs n i o ri ro STREAM_INPUT U1 F Ri Ro Ea Et El Ei) as I1. fold a in I1.
  change (HRef (3 + a)) with (HRef (S (S (S a)))) in I1.
  pose proof (invocation_later _ _ _ _ _ _ U1 V) as V1.
  pose proof (C94_applied _ _ _ _ _ _ _ _ _ _ _ C1 I1 V1) as Val. rewrite E2 in Val.
  destruct (apply_io_info _ inv) as [c|] eqn:Ec; [|contradiction]. destruct Val as (_ & IO).
  destruct (applied _ _ _ _ _ _ _ _ _ _ _ _ _ C1 I1 V1 E2) as (U2 & C2 & W2 & (fos2 & ops2 & RL2 & _ & Ko) & _).
  assert (X : fos2 = fos' /\ ops2 = ops').
  { destruct RL as (l & at1 & fl & ol & -> & A1 & A2 & A3 & A4 & A5). destruct RL2 as (l' & at2 & fl' & ol' & Q & B1 & B2 & B3 & B4 & B5).
    injection Q as <-. rewrite A1 in B1. injection B1 as <-. rewrite A2 in B2. injection B2 as <-. rewrite A4 in B4. injection B4 as <-.
    rewrite A3 in B3. rewrite A5 in B5. injection B3 as <-. injection B5 as <-. auto. }
  destruct X as (-> & ->).
  (* each operand is a resource whose access is the object [a] *)
  assert (Each : forall w, In w ops' -> exists l cl nm el, w = HRef l /\ 4 + a <= l /\ nth_error h2 l = Some (OInst cl [("name", nm); ("access", HRef a)]) /\
    val_form h2 w (PRes (mkRes el STREAM_INPUT))).
  { intros w J.
    assert (Jc : exists op, In (op, HRef (1 + a)) (combine ops (repeat (HRef (1 + a)) n)) /\ keeps_access h1 (HRef (1 + a)) h2 w).
    { assert (G : forall (ps : list (hval * hval)) us, Forall2 (fun p u => keeps_access h1 (snd p) h2 u) ps us -> In w us -> exists p, In p ps /\ keeps_access h1 (snd p) h2 w).
      { induction 1 as [|p u ps us K F2 IH]; [contradiction|]. intros [<-|Jw]; [exists p; split; [now left|exact K]|].
        destruct (IH Jw) as (q & Jq & Kq). exists q. split; [now right|exact Kq]. }
      destruct (G _ _ Ko J) as ((op & t) & Jp & K). exists op. pose proof (in_combine_r _ _ _ _ Jp) as Jr. apply repeat_spec in Jr as ->. auto. }
    destruct Jc as (op & Jp & K). destruct (K (1 + a) (HRef a) eq_refl Et) as (l & cl & nm & -> & Bl & Icl & El2).
    (* what it stands for *)
    assert (Vw : exists z, In z (io_operand_list c) /\ view_val h2 (HRef l) = Some (arg_value z)).
    { destruct IO as (l1 & fl1 & ol1 & i1 & o1 & fos1 & ops1 & Q & B1 & _ & (b & Eb & B2 & B3) & _).
      destruct RL as (l' & at1 & fl & ol & Q' & A1 & _ & _ & A4 & A5). rewrite Q in Q'. injection Q' as <-. rewrite B1 in A1. injection A1 as <-.
      cbn in A4. injection A4 as A4. rewrite A4 in Eb. injection Eb as <-. rewrite A5 in B2. injection B2 as <-.
      clear - B3 J. induction B3 as [|u z us zs H F2 IH]; [contradiction|]. destruct J as [->|J]; [exists z; split; [now left|exact H]|].
      destruct (IH J) as (z' & Jz & H'). exists z'. split; [now right|exact H']. }
    destruct Vw as (z & _ & Vz). apply view_val_form in Vz.
    assert (Aa : nth_error h2 a = Some (OInst "AccessKind" [("kind", HAccess STREAM_INPUT)])) by (eapply nth_later; eauto).
    assert (Va : view_access h2 (HRef a) = Some STREAM_INPUT) by (unfold view_access, attr; now rewrite Aa).
    assert (Big : 4 + a <= l) by (unfold h1 in Bl; rewrite app_length in Bl; cbn in Bl; unfold a; lia).
    assert (R : exists el, val_form h2 (HRef l) (PRes (mkRes el STREAM_INPUT))).
    { inversion Vz as [| |l0 attrs s N1 N2 X1 X2|l0 attrs s r0 ac N1 N2 N3 N4 X1 X2|l0 attrs s r0 ac N1 N2 N3 N4 X1 X2]; subst; rewrite El2 in N1; injection N1 as -> <-.
      - cbn in Icl. destruct Icl as [Icl|[Icl|[]]]; discriminate.
      - cbn in N3. injection N3 as <-. rewrite Va in N4. injection N4 as <-. rewrite <- X2 in Vz. eauto.
      - cbn in N3. injection N3 as <-. rewrite Va in N4. injection N4 as <-. rewrite <- X2 in Vz. eauto. }
    destruct R as (el & R). exists l, cl, nm, el. auto. }
  split; [|split].
  - rewrite <- (Forall2_length _ _ _ Ko), combine_length, repeat_length. f_equal.
    destruct V as (b & fl & ol & _ & _ & _ & (b2 & _ & _ & Fo)). now apply Forall2_length in Fo.
  - intros w J. destruct (Each w J) as (l & cl & nm & el & -> & _ & _ & Vw). exists el. now apply view_val_form.
  - intros v k J. destruct (Each v J) as (l & cl & nm & el & -> & Bl & El2 & _).
    assert (L12 : length h1 = 4 + a) by (unfold h1; rewrite app_length; cbn; unfold a; lia).
    pose proof (unchanged_length _ _ U2) as L2.
    set (ob := OInst "AccessKind" [("kind", HAccess k)]). set (h3 := update h2 a ob).
    assert (Ha : nth_error h3 a = Some ob) by (apply update_same; lia).
    assert (Ho : forall j, j <> a -> nth_error h3 j = nth_error h2 j) by (intros j N; now apply update_other).
    assert (U3 : unchanged h h3) by (intros j Lj; rewrite Ho by (unfold a; lia); rewrite U2 by (rewrite L12; unfold a; lia); now apply U1).
    exists h3, [HRef a; HRef l]. split; [|split; [|split]].
    + eapply client_read with (v := HRef a); [now left|exact El2|cbn; auto|].
      eapply (client_write h2 [HRef a; HRef l] a ob); [now left|repeat constructor|apply client_stop].
    + apply closed_update; [exact C2|repeat constructor].
    + intros w Jw. destruct (Each w Jw) as (lw & clw & nmw & elw & -> & Blw & Ew & Vw). exists elw. apply view_val_form.
      assert (Va : view_access h3 (HRef a) = Some k) by (unfold view_access, attr; now rewrite Ha).
      inversion Vw as [| |l0 attrs s N1 N2 X1 X2|l0 attrs s r0 ac N1 N2 N3 N4 X1 X2|l0 attrs s r0 ac N1 N2 N3 N4 X1 X2]; subst; rewrite Ew in N1; injection N1 as -> <-;
        cbn in N3; injection N3 as <-.
      * eapply vf_file; [rewrite Ho by lia; exact Ew|exact N2|reflexivity|exact Va].
      * eapply vf_std; [rewrite Ho by lia; exact Ew|exact N2|reflexivity|exact Va].
    + exists (HRef (1 + a)). split; [|eapply invocation_later; eauto].
      apply (built_info h h3 ft fts fs n i o ri ro k U3 F Ri Ro Ha); fold a; (rewrite Ho by lia); (eapply nth_later; [exact U2|assumption]).
Qed.
Print Assumptions C94_operands_independent_refuted.

(** ** A case: grep -n -f pat - in, whose pattern file is a configuration and whose first operand is
    taken as text, with standard output as implicit output *)
Definition apply_heap : heap :=
  [OInst "AccessKind" [("kind", HAccess CONFIG_INPUT)]; typer_obj "filestd" (HRef 0); typer_obj "str" HNone; OList [HRef 2; HRef 1];
   OInst "Flag" [("flag_name", HStr "-n")]; OInst "Option" [("option_name", HStr "-f"); ("option_arg", HStr "pat")]; OList [HRef 4; HRef 5];
   OInst "Operand" [("name", HStr "-")]; OInst "Operand" [("name", HStr "in")]; OList [HRef 7; HRef 8];
   OInst "CommandInvocationInitial" [("cmd_name", HStr "grep"); ("flag_option_list", HRef 6); ("operand_list", HRef 9)];
   typer_obj "argstring" HNone; OList [HRef 11; HRef 1];
   OInst "AccessKind" [("kind", HAccess STREAM_OUTPUT)]; OInst "StdDescriptorWithIOInfo" [("name", HStd STDOUT); ("access", HRef 13)];
   OInst "InputOutputInfo" [("flagoption_list_typer", HRef 3); ("operand_list_typer", HRef 12);
     ("implicit_use_of_streaming_input", HNone); ("implicit_use_of_streaming_output", HRef 14)]].
Definition apply_info : io_info :=
  mkIO [PLAINSTRING; FILESTD CONFIG_INPUT] [ARGSTRING; FILESTD CONFIG_INPUT] None (Some (mkRes (StdDescriptor STDOUT) STREAM_OUTPUT)).
Definition apply_inv : invocation := mkInv "grep" [Flag "-n"; Option_ "-f" "pat"] ["-"; "in"].
Lemma apply_heap_closed : closed apply_heap.
Proof.
  intros o J. apply Forall_forall. intros v Jv. cbn in J.
  repeat (destruct J as [<-|J]; [cbn in Jv; repeat (destruct Jv as [<-|Jv]; [cbn; auto; lia|]); contradiction|]). contradiction.
Qed.
Ltac typer_case := eexists _, _, _; repeat split.
Lemma apply_heap_info : info_is apply_heap (HRef 15) [HRef 2; HRef 1] [HRef 11; HRef 1] HNone (HRef 14) apply_info.
Proof.
  exists 15, (HRef 3), (HRef 12). split; [reflexivity|]. split; [reflexivity|]. split; [|split; [|split; reflexivity]];
    (eexists; split; [reflexivity|]; split; [reflexivity|]); repeat constructor; typer_case.
Qed.
Lemma apply_heap_inv : invocation_is apply_heap (HRef 10) [HRef 4; HRef 5] [HRef 7; HRef 8] apply_inv.
Proof.
  exists 10, (HRef 6), (HRef 9). split; [reflexivity|]. split; [reflexivity|]. split;
    (eexists; split; [reflexivity|]; split; [reflexivity|]); repeat constructor; eexists; split; reflexivity.
Qed.
Example C94_case_applied : exists h' r c, apply_io_info_h (HRef 15) (HRef 10) apply_heap = (h', Ok r) /\
  apply_io_info apply_info apply_inv = Ok c /\ invocation_io_is h' r c /\
  io_operand_list c = [ArgString "-"; Res (mkRes (FileName "in") CONFIG_INPUT)] /\
  reaches h' r 0 /\ reaches h' r 4 /\ reaches h' r 13 /\ ~ reaches h' r 5 /\ ~ reaches h' r 12.
Proof.
  pose proof (C94_applied _ _ _ _ _ _ _ _ _ _ _ apply_heap_closed apply_heap_info apply_heap_inv) as A.
  destruct (apply_io_info_h (HRef 15) (HRef 10) apply_heap) as (h' & [r|e]) eqn:E; [|vm_compute in E; discriminate].
  destruct (apply_io_info apply_info apply_inv) as [c|e] eqn:Ec; [|contradiction]. destruct A as (_ & A).
  pose proof (C94_shared _ _ _ _ _ _ _ _ _ _ _ h' r apply_heap_closed apply_heap_info apply_heap_inv E) as S.
  exists h', r, c. split; [reflexivity|]. split; [reflexivity|]. split; [exact A|]. split; [vm_compute in Ec; injection Ec as <-; reflexivity|].
  assert (N : forall l, l = 5 \/ l = 12 -> ~ shared apply_heap [HRef 4; HRef 5] [HRef 2; HRef 1] [HRef 7; HRef 8] [HRef 11; HRef 1] HNone (HRef 14) l).
  { intros l Ll.
    assert (R0 : ~ reaches apply_heap (HRef 0) l).
    { intros R. inversion R as [|l0 o v l' E0 J R']; subst; [destruct Ll; discriminate|]. injection E0 as <-. cbn in J. destruct J as [<-|[]]. inversion R'. }
    assert (T : forall t, In t [HRef 2; HRef 1; HRef 11] -> ~ brought_by_typer apply_heap t l).
    { intros t J (k & r0 & -> & E0 & R). cbn in J. destruct J as [J|[J|[J|[]]]]; injection J as <-; try discriminate. injection E0 as <-. exact (R0 R). }
    intros [(fo & t & J & X)|[(op & t & J & X)|[R|R]]].
    - cbn in J. destruct J as [J|[J|[]]]; injection J as <- <-; destruct X as [(Cl & R)|(_ & X)]; try (revert X; apply T; cbn; auto; fail).
      + inversion R as [|l0 o v l' E0 Jv R']; subst; [destruct Ll; discriminate|]. injection E0 as <-. cbn in Jv. destruct Jv as [<-|[]]. inversion R'.
      + destruct Cl as (? & ? & Q & Q'). injection Q as <-. discriminate.
    - revert X. apply T. cbn in J. destruct J as [J|[J|[]]]; injection J as <- <-; cbn; auto.
    - inversion R.
    - inversion R as [|l0 o v l' E0 Jv R']; subst; [destruct Ll; discriminate|]. injection E0 as <-. cbn in Jv. destruct Jv as [<-|[<-|[]]]; [inversion R'|].
      inversion R' as [|l0 o v l'' E0 Jv R'']; subst; [destruct Ll; discriminate|]. injection E0 as <-. cbn in Jv. destruct Jv as [<-|[]]. inversion R''. }
  split; [|split; [|split; [|split]]].
  - apply S; [cbn; lia|]. right. left. exists (HRef 8), (HRef 1). split; [cbn; auto|]. exists 1, (HRef 0). split; [reflexivity|]. split; [reflexivity|]. constructor. cbn. lia.
  - apply S; [cbn; lia|]. left. exists (HRef 4), (HRef 2). split; [cbn; auto|]. left. split; [eexists _, _; split; reflexivity|]. constructor. cbn. lia.
  - apply S; [cbn; lia|]. right. right. right. eapply reaches_slot; [reflexivity|cbn; right; left; reflexivity|]. constructor. cbn. lia.
  - rewrite S by (cbn; lia). apply N. auto.
  - rewrite S by (cbn; lia). apply N. auto.
Qed.
(** An option with the typer of a flag: the assertion fails, in both models *)
Example C94_case_raises : exists h', apply_io_info_h (HRef 1) (HRef 5)
  [OList [HRef 2]; OInst "InputOutputInfo" [("flagoption_list_typer", HRef 0); ("operand_list_typer", HRef 3);
     ("implicit_use_of_streaming_input", HNone); ("implicit_use_of_streaming_output", HNone)]; typer_obj "str" HNone; OList [];
   OInst "Option" [("option_name", HStr "-f"); ("option_arg", HStr "pat")];
   OInst "CommandInvocationInitial" [("cmd_name", HStr "grep"); ("flag_option_list", HRef 6); ("operand_list", HRef 3)]; OList [HRef 4]] = (h', Raise AssertionError) /\
  apply_io_info (mkIO [PLAINSTRING] [] None None) (mkInv "grep" [Option_ "-f" "pat"] []) = Raise AssertionError.
Proof. eexists. split; reflexivity. Qed.
(** Two applications, and a client of the first *)
Example C94_case_twice : exists h1 h2 r1 r2, apply_io_info_h (HRef 15) (HRef 10) apply_heap = (h1, Ok r1) /\ apply_io_info_h (HRef 15) (HRef 10) h1 = (h2, Ok r2) /\
  r1 <> r2 /\ (reaches h2 r1 4 /\ reaches h2 r2 4).
Proof.
  destruct (apply_io_info_h (HRef 15) (HRef 10) apply_heap) as (h1 & [r1|e]) eqn:E1; [|vm_compute in E1; discriminate].
  destruct (apply_io_info_h (HRef 15) (HRef 10) h1) as (h2 & [r2|e]) eqn:E2; [|vm_compute in E1; injection E1 as <- <-; vm_compute in E2; discriminate].
  exists h1, h2, r1, r2. split; [reflexivity|]. split; [exact E2|]. split.
  - vm_compute in E1. injection E1 as <- <-. vm_compute in E2. injection E2 as <- <-. discriminate.
  - apply (C94_two_calls _ _ _ _ _ _ _ _ _ _ _ _ _ _ _ h1 h2 r1 r2 apply_heap_closed apply_heap_info apply_heap_inv apply_heap_inv E1 E2 4).
    assert (X : shared apply_heap [HRef 4; HRef 5] [HRef 2; HRef 1] [HRef 7; HRef 8] [HRef 11; HRef 1] HNone (HRef 14) 4).
    { left. exists (HRef 4), (HRef 2). split; [cbn; auto|]. left. split; [eexists _, _; split; reflexivity|]. constructor. cbn. lia. }
    split; exact X.
Qed.
(** The constructor with two operands: one access for both *)
Example C94_case_constructed : exists h1 x h2 r v w, new_io_info_h (HRef 3) 2 HNone HNone apply_heap = (h1, Ok x) /\
  apply_io_info_h x (HRef 10) h1 = (h2, Ok r) /\ result_lists h2 r [HRef 4; HRef 22] [v; w] /\ v <> w /\
  view_val h2 v = Some (PRes (mkRes (StdDescriptor STDIN) STREAM_INPUT)) /\ view_val h2 w = Some (PRes (mkRes (FileName "in") STREAM_INPUT)).
Proof.
  eexists _, _, _, _, _, _. split; [reflexivity|]. split; [vm_compute; reflexivity|].
  split; [eexists _, _, _, _; repeat (split; [vm_compute; reflexivity|]); vm_compute; reflexivity|]. split; [discriminate|]. split; vm_compute; reflexivity.
Qed.
