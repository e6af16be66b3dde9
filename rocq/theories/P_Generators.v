(** * Which operands of an annotated invocation share an access (C97) *)
From Coq Require Import Lia.
Require Import Verif.PyBase Verif.JsonData Verif.Parser Verif.Access Verif.IOInfo Verif.IOGen Verif.IOVars Verif.IOHelpers Verif.SpecIOHelpers
  Verif.Heap Verif.HeapApply Verif.HeapIOHelpers Verif.HeapTypers Verif.HeapGenerators Verif.SpecHeap Verif.SpecApply Verif.SpecShare Verif.SpecTypers
  Verif.HeapFacts Verif.HeapSep Verif.HeapCopy Verif.IOFacts Verif.P_Heap Verif.ApplyFacts Verif.P_Infer Verif.P_Apply Verif.P_IOHelpers Verif.ShareFacts Verif.P_Share Verif.TypersFacts Verif.P_Typers
  Verif.GeneratorsFacts Verif.ShippedData.

(** [get_input_output_info_from_cmd_invocation] never raises, changes no object there was, and gives
    what the model on values says: [None], or an object with that information. *)
Theorem C97_info : forall dir h y fos ops inv, closed h -> invocation_is h y fos ops inv ->
  exists h' v, get_input_output_info_h dir y h = (h', Ok v) /\ unchanged h h' /\
    match get_input_output_info dir inv with
    | None => v = HNone
    | Some i => closed h' /\ exists fts ots iv ov, info_is h' v fts ots iv ov i
    end.
Proof.
  intros dir h y fos ops inv C V. pose proof (info_by_calls dir h y fos ops inv C V) as I.
  destruct (get_input_output_info_h dir y h) as (h' & [v|e]); [|contradiction]. exists h', v. split; [reflexivity|].
  destruct v; try (destruct I as (U & C' & i & fts & ots & iv & ov & ks & -> & X & _); split; [exact U|]; split; [exact C'|]; now exists fts, ots, iv, ov).
  destruct I as (U & ->). auto.
Qed.
Print Assumptions C97_info.

(** The information, if there is some, applied to the invocation *)
Theorem C97_annotated : forall dir h y fos ops inv, closed h -> invocation_is h y fos ops inv ->
  exists h' v, annotate_h dir y h = (h', v) /\ unchanged h h' /\
    match get_input_output_info dir inv with
    | None => v = Ok HNone
    | Some i => match apply_io_info i inv with
                | Ok c => closed h' /\ exists r, v = Ok r /\ invocation_io_is h' r c
                | Raise e => v = Raise e
                end
    end.
Proof.
  intros dir h y fos ops inv C V. destruct (C97_info dir h y fos ops inv C V) as (h1 & v & E & U & X). unfold annotate_h. rewrite (bind_ok _ _ _ _ _ E).
  destruct (get_input_output_info dir inv) as [i|]; [|subst v; exists h1, (Ok HNone); auto]. destruct X as (C1 & fts & ots & iv & ov & I).
  pose proof (C94_applied _ _ _ _ _ _ _ _ _ _ _ C1 I (invocation_later _ _ _ _ _ _ U V)) as A. pose proof I as (l & _ & _ & -> & _).
  destruct (apply_io_info_h (HRef l) y h1) as (h' & [r|e]) eqn:E', (apply_io_info i inv) as [c|e'] eqn:Ec; try contradiction.
  - exists h', (Ok r). split; [reflexivity|]. destruct A as (U' & A). split; [eapply unchanged_trans; eauto|].
    destruct (applied _ _ _ _ _ _ _ _ _ _ _ _ _ C1 I (invocation_later _ _ _ _ _ _ U V) E') as (_ & C' & _). eauto.
  - exists h', (Raise e). split; [reflexivity|]. destruct A as (U' & ->). split; [eapply unchanged_trans; eauto|reflexivity].
Qed.
Print Assumptions C97_annotated.

(** ** Sharing *)
Lemma result_some h x fos ops : result_lists h x fos ops -> x <> HNone.
Proof. intros (l & at1 & fl & ol & -> & _). discriminate. Qed.
Lemma together_kind dir h y fos ops inv ks h' r fos' ops' p q v w ev ew : closed h -> invocation_is h y fos ops inv -> NoDup (kinds ks) -> generator_h dir y ks h = (h', Ok r) -> result_lists h' r fos' ops' ->
  nth_error ops' p = Some v -> nth_error ops' q = Some w -> view_val h' v = Some (PRes ev) -> view_val h' w = Some (PRes ew) ->
  exists a b, has_access h' v (HRef a) /\ has_access h' w (HRef b) /\ length h <= a /\ length h <= b /\
    (a = b <-> res_access ev = res_access ew) /\ (together ks (length (operand_list inv)) p q <-> res_access ev = res_access ew).
Proof.
  intros C V D E RL P Q Vv Vw. destruct (generator_returns _ _ _ _ _ _ _ _ _ C V E) as (h1 & ft & vs & ts & U1 & C1 & F & V1 & _ & _ & _ & G).
  pose proof (unchanged_length _ _ U1) as Len. destruct (C95_access _ _ _ _ _ _ _ _ _ _ _ _ _ C1 F V1 G RL) as (_ & A).
  destruct (proj1 (A p v P) (ex_intro _ ev Vv)) as (a & Ha & La). destruct (proj1 (A q w Q) (ex_intro _ ew Vw)) as (b & Hb & Lb). exists a, b.
  split; [exact Ha|]. split; [exact Hb|]. split; [lia|]. split; [lia|].
  pose proof (C95_shared_iff _ _ _ _ _ _ _ _ _ _ _ _ _ p q v w _ _ C1 F V1 G RL P Q Ha Hb) as Sh.
  assert (T : res_access ev = res_access ew -> together ks (length (operand_list inv)) p q).
  { intros K. destruct (kind_at _ _ _ _ _ _ _ _ _ _ _ _ _ _ C V E RL P Vv) as (ts1 & i1 & T1 & I1 & N1). destruct (kind_at _ _ _ _ _ _ _ _ _ _ _ _ _ _ C V E RL Q Vw) as (ts2 & i2 & T2 & I2 & N2).
    rewrite T1 in T2. injection T2 as <-. rewrite I1 in I2. injection I2 as <-. rewrite K in N1. exact (same_kind _ _ _ _ _ _ _ _ D I1 N1 N2). }
  assert (S : a = b -> res_access ev = res_access ew).
  { intros <-. destruct (access_view _ _ _ _ Ha Vv) as (e1 & k1 & [= ->] & K1 & _). destruct (access_view _ _ _ _ Hb Vw) as (e2 & k2 & [= ->] & K2 & _). cbn. congruence. }
  assert (AB : a = b <-> together ks (length (operand_list inv)) p q) by (rewrite <- Sh; split; [intros ->; reflexivity|intros [= ->]; reflexivity]).
  split; split; tauto.
Qed.

(** Every resource among the operands of an annotated invocation has an access made by this
    annotation, and two of them have the same one exactly if their accesses are equal. *)
Theorem C97_shared_iff : forall dir h y fos ops inv h' r fos' ops' p q v w ev ew, closed h -> invocation_is h y fos ops inv ->
  annotate_h dir y h = (h', Ok r) -> result_lists h' r fos' ops' -> nth_error ops' p = Some v -> nth_error ops' q = Some w ->
  view_val h' v = Some (PRes ev) -> view_val h' w = Some (PRes ew) ->
  exists a b, has_access h' v (HRef a) /\ has_access h' w (HRef b) /\ length h <= a /\ length h <= b /\ (a = b <-> res_access ev = res_access ew).
Proof.
  intros dir h y fos ops inv h' r fos' ops' p q v w ev ew C V E RL P Q Vv Vw.
  destruct (annotate_by_calls _ _ _ _ _ _ _ _ C V E (result_some _ _ _ _ RL)) as (ks & D & G).
  destruct (together_kind _ _ _ _ _ _ _ _ _ _ _ p q v w ev ew C V D G RL P Q Vv Vw) as (a & b & Ha & Hb & La & Lb & AB & _). exists a, b. auto.
Qed.
Print Assumptions C97_shared_iff.

(** So a client that holds one operand can give the other any access if they have the same one,
    and can do nothing to it otherwise. *)
Theorem C97_client_iff : forall dir h y fos ops inv h' r fos' ops' p q v w ev ew, closed h -> invocation_is h y fos ops inv ->
  annotate_h dir y h = (h', Ok r) -> result_lists h' r fos' ops' -> nth_error ops' p = Some v -> nth_error ops' q = Some w ->
  view_val h' v = Some (PRes ev) -> view_val h' w = Some (PRes ew) ->
  (res_access ev = res_access ew -> forall k, exists h2 held, client h' [v] h2 held /\ view_val h2 w = Some (PRes (mkRes (res_el ew) k))) /\
  (res_access ev <> res_access ew -> forall h2 held, client h' [v] h2 held -> view_val h2 w = Some (PRes ew)).
Proof.
  intros dir h y fos ops inv h' r fos' ops' p q v w ev ew C V E RL P Q Vv Vw.
  destruct (annotate_by_calls _ _ _ _ _ _ _ _ C V E (result_some _ _ _ _ RL)) as (ks & D & G).
  destruct (together_kind _ _ _ _ _ _ _ _ _ _ _ p q v w ev ew C V D G RL P Q Vv Vw) as (a & b & _ & _ & _ & _ & _ & T).
  destruct (generator_returns _ _ _ _ _ _ _ _ _ C V G) as (h1 & ft & vs & ts & U1 & C1 & F & V1 & _ & _ & _ & G').
  destruct (C95_client_iff _ _ _ _ _ _ _ _ _ _ _ _ _ p q v w ev ew C1 F V1 G' RL P Q Vv Vw) as (X1 & X2).
  split; intros K; [apply X1; now apply T|apply X2; intros T'; now apply K, T].
Qed.
Print Assumptions C97_client_iff.

(** Options: the same access exactly if the same name, never the one of an operand *)
Theorem C97_options : forall dir h y fos ops inv h' r fos' ops', closed h -> invocation_is h y fos ops inv ->
  annotate_h dir y h = (h', Ok r) -> result_lists h' r fos' ops' ->
  (forall p q v w n m x x' a b, nth_error fos' p = Some v -> nth_error fos' q = Some w -> view_flag h' v = Some (FOptIO n x) -> view_flag h' w = Some (FOptIO m x') ->
     has_option_access h' v a -> has_option_access h' w b -> (a = b <-> n = m)) /\
  (forall p q v w a b, nth_error fos' p = Some v -> nth_error ops' q = Some w -> has_option_access h' v (HRef a) -> has_access h' w (HRef b) -> a <> b).
Proof.
  intros dir h y fos ops inv h' r fos' ops' C V E RL. destruct (annotate_by_calls _ _ _ _ _ _ _ _ C V E (result_some _ _ _ _ RL)) as (ks & D & G). split.
  - intros p q v w n m x x' a b P Q Vv Vw Ha Hb. exact (C96_shared_iff _ _ _ _ _ _ _ _ _ _ _ p q v w n m x x' a b C V G RL P Q Vv Vw Ha Hb).
  - intros p q v w a b P Q Ha Hb. exact (C96_not_with_operands _ _ _ _ _ _ _ _ _ _ _ p q v w a b C V G RL P Q Ha Hb).
Qed.
Print Assumptions C97_options.

(** Of the objects there were, the result has those of the flags; two annotations, of one invocation
    or of two, share nothing but flags. *)
Theorem C97_old_objects : forall dir h y fos ops inv h' r, closed h -> invocation_is h y fos ops inv ->
  annotate_h dir y h = (h', Ok r) -> r <> HNone -> forall l, l < length h -> (reaches h' r l <-> of_a_flag h fos l).
Proof.
  intros dir h y fos ops inv h' r C V E N. destruct (annotate_by_calls _ _ _ _ _ _ _ _ C V E N) as (ks & _ & G). eapply C96_old_objects; eauto.
Qed.
Print Assumptions C97_old_objects.
Theorem C97_two : forall dir1 dir2 h y1 fos1 ops1 inv1 y2 fos2 ops2 inv2 h1 h2 r1 r2, closed h ->
  invocation_is h y1 fos1 ops1 inv1 -> invocation_is h y2 fos2 ops2 inv2 ->
  annotate_h dir1 y1 h = (h1, Ok r1) -> annotate_h dir2 y2 h1 = (h2, Ok r2) -> r1 <> HNone -> r2 <> HNone ->
  forall l, (reaches h2 r1 l /\ reaches h2 r2 l <-> of_a_flag h fos1 l /\ of_a_flag h fos2 l).
Proof.
  intros dir1 dir2 h y1 fos1 ops1 inv1 y2 fos2 ops2 inv2 h1 h2 r1 r2 C V1 V2 E1 E2 N1 N2. destruct (annotate_by_calls _ _ _ _ _ _ _ _ C V1 E1 N1) as (ks1 & _ & G1).
  pose proof (C96_generated dir1 h y1 fos1 ops1 inv1 ks1 C V1) as X. rewrite G1 in X. destruct (let! i := _ in _) as [c|]; [|contradiction]. destruct X as (U & C1 & _).
  destruct (annotate_by_calls _ _ _ _ _ _ _ _ C1 (invocation_later _ _ _ _ _ _ U V2) E2 N2) as (ks2 & _ & G2).
  exact (C96_two_generators _ _ _ _ _ _ _ _ _ _ _ _ _ _ _ _ _ C V1 V2 G1 G2).
Qed.
Print Assumptions C97_two.

(** ** Cases *)
(** [mv a b c], the shipped data *)
Definition mv_heap (cmd : string) : heap :=
  [OList []; OInst "Operand" [("name", HStr "a")]; OInst "Operand" [("name", HStr "b")]; OInst "Operand" [("name", HStr "c")]; OList [HRef 1; HRef 2; HRef 3];
   OInst "CommandInvocationInitial" [("cmd_name", HStr cmd); ("flag_option_list", HRef 0); ("operand_list", HRef 4)]].
Lemma mv_heap_closed cmd : closed (mv_heap cmd).
Proof.
  intros o J. apply Forall_forall. intros v Jv. cbn in J.
  repeat (destruct J as [<-|J]; [cbn in Jv; repeat (destruct Jv as [<-|Jv]; [cbn; auto; lia|]); contradiction|]). contradiction.
Qed.
Lemma mv_heap_inv cmd : invocation_is (mv_heap cmd) (HRef 5) [] [HRef 1; HRef 2; HRef 3] (mkInv cmd [] ["a"; "b"; "c"]).
Proof.
  exists 5, (HRef 0), (HRef 4). split; [reflexivity|]. split; [reflexivity|]. split;
    (eexists; split; [reflexivity|]; split; [reflexivity|]); repeat constructor; eexists; split; reflexivity.
Qed.
Example C97_case_mv : exists h' r v0 v1 v2, annotate_h shipped_dir (HRef 5) (mv_heap "mv") = (h', Ok r) /\ result_lists h' r [] [v0; v1; v2] /\
  view_val h' v0 = Some (PRes (mkRes (FileName "a") OTHER_INPUT)) /\ view_val h' v1 = Some (PRes (mkRes (FileName "b") OTHER_INPUT)) /\ view_val h' v2 = Some (PRes (mkRes (FileName "c") OTHER_OUTPUT)) /\
  (exists a b, has_access h' v0 (HRef a) /\ has_access h' v1 (HRef a) /\ has_access h' v2 (HRef b) /\ a <> b) /\
  (forall k, exists h2 held, client h' [v0] h2 held /\ view_val h2 v1 = Some (PRes (mkRes (FileName "b") k))) /\
  (forall h2 held, client h' [v0] h2 held -> view_val h2 v2 = Some (PRes (mkRes (FileName "c") OTHER_OUTPUT))) /\
  (forall l, l < 6 -> ~ reaches h' r l).
Proof.
  destruct (annotate_h shipped_dir (HRef 5) (mv_heap "mv")) as (h' & [r|e]) eqn:E; [|vm_compute in E; discriminate].
  pose proof E as E'. vm_compute in E'. injection E' as Eh Er.
  assert (RL : result_lists h' r [] [HRef 22; HRef 24; HRef 26]) by (subst h' r; eexists _, _, _, _; repeat (split; [vm_compute; reflexivity|]); vm_compute; reflexivity).
  exists h', r, (HRef 22), (HRef 24), (HRef 26). split; [reflexivity|]. split; [exact RL|].
  assert (V0 : view_val h' (HRef 22) = Some (PRes (mkRes (FileName "a") OTHER_INPUT))) by (subst h'; vm_compute; reflexivity).
  assert (V1 : view_val h' (HRef 24) = Some (PRes (mkRes (FileName "b") OTHER_INPUT))) by (subst h'; vm_compute; reflexivity).
  assert (V2 : view_val h' (HRef 26) = Some (PRes (mkRes (FileName "c") OTHER_OUTPUT))) by (subst h'; vm_compute; reflexivity).
  split; [exact V0|]. split; [exact V1|]. split; [exact V2|]. split; [exists 15, 18; subst h'; split; [has_access_case|]; split; [has_access_case|]; split; [has_access_case|discriminate]|].
  pose proof (fun p q v w ev ew => C97_client_iff _ _ _ _ _ _ _ _ _ _ p q v w ev ew (mv_heap_closed "mv") (mv_heap_inv "mv") E RL) as Cl.
  split; [exact (proj1 (Cl 0 1 _ _ _ _ eq_refl eq_refl V0 V1) eq_refl)|]. split; [refine (proj2 (Cl 0 2 _ _ _ _ eq_refl eq_refl V0 V2) _); discriminate|].
  intros l L R. apply (C97_old_objects _ _ _ _ _ _ _ _ (mv_heap_closed "mv") (mv_heap_inv "mv") E (result_some _ _ _ _ RL) l L) in R. destruct R as (fo & [] & _).
Qed.
(** Two annotations of it share nothing. *)
Example C97_case_two : exists h1 h2 r1 r2, annotate_h shipped_dir (HRef 5) (mv_heap "mv") = (h1, Ok r1) /\ annotate_h shipped_dir (HRef 5) h1 = (h2, Ok r2) /\ r1 <> HNone /\ r2 <> HNone /\
  forall l, ~ (reaches h2 r1 l /\ reaches h2 r2 l).
Proof.
  destruct (annotate_h shipped_dir (HRef 5) (mv_heap "mv")) as (h1 & [r1|e]) eqn:E1; [|vm_compute in E1; discriminate].
  destruct (annotate_h shipped_dir (HRef 5) h1) as (h2 & [r2|e]) eqn:E2; [|vm_compute in E1; injection E1 as <- <-; vm_compute in E2; discriminate].
  exists h1, h2, r1, r2. split; [reflexivity|]. split; [exact E2|].
  assert (N : r1 <> HNone /\ r2 <> HNone) by (vm_compute in E1; injection E1 as <- <-; vm_compute in E2; injection E2 as <- <-; split; discriminate). destruct N as (N1 & N2).
  split; [exact N1|]. split; [exact N2|]. intros l R.
  apply (C97_two _ _ _ _ _ _ _ _ _ _ _ _ _ _ _ (mv_heap_closed "mv") (mv_heap_inv "mv") (mv_heap_inv "mv") E1 E2 N1 N2 l) in R. destruct R as ((fo & [] & _) & _).
Qed.
(** [comm] with three operands: an assertion fails after objects were made, and there is no
    information; a command without a generator: nothing is made. *)
Example C97_case_none : (exists h', annotate_h shipped_dir (HRef 5) (mv_heap "comm") = (h', Ok HNone) /\ 6 < length h' /\ firstn 6 h' = mv_heap "comm" /\
    get_input_output_info shipped_dir (mkInv "comm" [] ["a"; "b"; "c"]) = None) /\
  annotate_h shipped_dir (HRef 5) (mv_heap "nope") = (mv_heap "nope", Ok HNone).
Proof. split; [|vm_compute; reflexivity]. eexists. split; [vm_compute; reflexivity|]. split; [vm_compute; lia|]. split; vm_compute; reflexivity. Qed.
(** The options of [sort -r -o x -o y --random-source s a] *)
Example C97_case_sort : exists h' r f1 f2 f3 v, annotate_h shipped_dir (HRef 7) typers_heap = (h', Ok r) /\ result_lists h' r [HRef 0; f1; f2; f3] [v] /\
  view_flag h' f1 = Some (FOptIO "-o" (PRes (mkRes (FileName "x") STREAM_OUTPUT))) /\
  exists a b d, has_option_access h' f1 (HRef a) /\ has_option_access h' f2 (HRef a) /\ has_option_access h' f3 (HRef b) /\ has_access h' v (HRef d) /\ a <> b /\ a <> d /\ b <> d.
Proof.
  destruct (annotate_h shipped_dir (HRef 7) typers_heap) as (h' & [r|e]) eqn:E; [|vm_compute in E; discriminate]. vm_compute in E. injection E as Eh Er.
  exists h', r, (HRef 31), (HRef 34), (HRef 37), (HRef 40). split; [reflexivity|].
  split; [subst h' r; eexists _, _, _, _; repeat (split; [vm_compute; reflexivity|]); vm_compute; reflexivity|]. split; [subst h'; vm_compute; reflexivity|].
  exists 16, 8, 25. subst h'. split; [option_access_case|]. split; [option_access_case|]. split; [option_access_case|]. split; [has_access_case|]. repeat split; discriminate.
Qed.
