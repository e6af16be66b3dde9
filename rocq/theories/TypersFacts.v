(** * Lemmas about the typers of flags and options as objects *)
From Coq Require Import Lia.
Require Import Verif.PyBase Verif.JsonData Verif.Parser Verif.Access Verif.IOInfo Verif.IOGen Verif.IOVars Verif.IOHelpers
  Verif.Heap Verif.HeapApply Verif.HeapIOHelpers Verif.HeapTypers Verif.SpecHeap Verif.SpecApply Verif.SpecShare
  Verif.HeapFacts Verif.HeapSep Verif.HeapCopy Verif.P_Heap Verif.ApplyFacts Verif.P_Apply Verif.ShareFacts Verif.P_Share.

Lemma new_ok_earlier h0 h h' v t : length h0 <= length h -> new_ok h h' v t -> new_ok h0 h' v t.
Proof.
  intros L (T & b & w & r & -> & B & Q & F). split; [exact T|]. exists b, w, r. split; [reflexivity|]. split; [lia|]. split; [exact Q|].
  intros a E. destruct (F a E) as (A & m & X). split; [lia|eauto].
Qed.
Lemma typer_made h w r t : closed h -> Forall (valid h) (slots (typer_obj w r)) ->
  match t with FILESTD a => w = "filestd" /\ view_access h r = Some a | ARGSTRING => w = "argstring" /\ r = HNone | PLAINSTRING => w = "str" /\ r = HNone end ->
  forall h0, length h0 <= length h -> (forall a, r = HRef a -> length h0 <= a /\ exists m, nth_error h a = Some (OInst "AccessKind" [("kind", HAccess m)])) ->
  let h' := h ++ [typer_obj w r] in
  unchanged h h' /\ closed h' /\ valid h' (HRef (length h)) /\ new_ok h0 h' (HRef (length h)) t.
Proof.
  intros C V T h0 L F h'. assert (U : unchanged h h') by apply unchanged_snoc. split; [exact U|]. split; [now apply closed_snoc|].
  split; [unfold h'; cbn; rewrite app_length; cbn; lia|]. split.
  - exists (length h), w, r. split; [reflexivity|]. split; [apply nth_last|]. destruct t; auto. destruct T as (-> & A). split; [reflexivity|]. eapply view_access_stable; [apply unchanged_stable, U|exact A].
  - exists (length h), w, r. split; [reflexivity|]. split; [exact L|]. split; [apply nth_last|]. intros a E. destruct (F a E) as (A & m & X). split; [exact A|]. exists m. eapply nth_later; eauto.
Qed.
(** An entry of the data *)
Lemma entry_spec e h : closed h ->
  match option_class_h e h, option_class e with
  | (h', Ok (n, v)), Ok (n', t) => unchanged h h' /\ closed h' /\ valid h' v /\ n = n' /\ new_ok h h' v t
  | (h', Raise x), Raise x' => x = x' /\ unchanged h h'
  | _, _ => False
  end.
Proof.
  intros C. assert (Same : unchanged h h) by (intros l _; reflexivity). unfold option_class_h, option_class.
  set (nm := match oe_names e with [] => _ | _ => _ end). unfold hbind at 1, hlift at 1.
  destruct nm as [n|x]; cbn [bind]; [|auto]. destruct (oe_arg e) as [ty|l].
  - unfold hbind at 1, hlift at 1. destruct (assert_ _) as [[]|x]; cbn [bind]; [|auto].
    destruct (typer_made h "argstring" HNone ARGSTRING C ltac:(repeat constructor) (conj eq_refl eq_refl) h (le_n _) ltac:(discriminate)) as (U & C' & V & N).
    unfold hbind, alloc, hret. auto.
  - destruct l as [|ty [|ac l]]; [cbn; auto|cbn; auto|]. unfold hbind at 1, hlift at 1. destruct (get_access_from_string ac) as [a|x]; cbn [bind]; [|auto].
    set (o := OInst "AccessKind" [("kind", HAccess a)]). assert (U1 : unchanged h (h ++ [o])) by apply unchanged_snoc.
    assert (C1 : closed (h ++ [o])) by (apply closed_snoc; [exact C|repeat constructor]). assert (L1 : length (h ++ [o]) = S (length h)) by (rewrite app_length; cbn; lia).
    unfold hbind at 1, new_access at 1, alloc at 1. fold o. unfold hbind, alloc, hret. destruct (mem ty INDICATORS_FOR_FILENAMES).
    + destruct (typer_made (h ++ [o]) "filestd" (HRef (length h)) (FILESTD a) C1) with (h0 := h) as (U & C' & V & N).
      * repeat constructor. cbn. lia.
      * split; [reflexivity|]. unfold view_access, attr. now rewrite nth_last.
      * lia.
      * intros b [= <-]. split; [lia|]. exists a. apply nth_last.
      * split; [eapply unchanged_trans; eauto|auto].
    + destruct (typer_made (h ++ [o]) "argstring" HNone ARGSTRING C1 ltac:(repeat constructor) (conj eq_refl eq_refl) h ltac:(lia) ltac:(discriminate)) as (U & C' & V & N).
      split; [eapply unchanged_trans; eauto|auto].
Qed.
(** Two typers are the same or have different accesses, and the entries have different typers. *)
Definition apart (h : heap) (v w : hval) : Prop :=
  v <> w /\ forall a b r, v = HRef a -> w = HRef b -> nth_error h a = Some (typer_obj "filestd" r) -> nth_error h b <> Some (typer_obj "filestd" r).
Lemma apart_made h h1 h2 v w t u : closed h1 -> unchanged h1 h2 -> new_ok h h1 v t -> new_ok h1 h2 w u -> apart h2 v w /\ apart h2 w v.
Proof.
  intros C U (T & b & wv & r & -> & B & Q & F) (T' & b' & ww & r' & -> & B' & Q' & F'). pose proof (nth_bound _ _ _ Q) as Bb.
  assert (N : HRef b <> HRef b') by (intros [= <-]; lia).
  assert (X : forall r0, nth_error h2 b = Some (typer_obj "filestd" r0) -> nth_error h2 b' = Some (typer_obj "filestd" r0) -> False).
  { intros r0 X Y. rewrite (nth_later _ _ _ _ U Q) in X. injection X as -> ->. rewrite Q' in Y. injection Y as -> ->.
    destruct T' as (l & w0 & r1 & [= <-] & Z & Z'). rewrite Q' in Z. injection Z as <- <-. destruct u as [a| |]; [|destruct Z'; discriminate|destruct Z'; discriminate].
    destruct Z' as (_ & Va). destruct r0 as [| | | | | | |c]; try discriminate Va. destruct (F' c eq_refl) as (Lc & _).
    pose proof (slot_valid h1 b _ (HRef c) C Q ltac:(cbn; auto)) as Vc. cbn in Vc. lia. }
  split; (split; [congruence|]); intros a0 b0 r0 [= <-] [= <-] X1 X2; eauto.
Qed.
Lemma entries_spec es h : closed h ->
  match hmap option_class_h es h, map_result option_class es with
  | (h', Ok ps), Ok ts => unchanged h h' /\ closed h' /\ Forall2 (fun p t => fst p = fst t /\ valid h' (snd p) /\ new_ok h h' (snd p) (snd t)) ps ts /\
      ForallOrdPairs (fun p q => apart h' (snd p) (snd q) /\ apart h' (snd q) (snd p)) ps
  | (h', Raise x), Raise x' => x = x' /\ unchanged h h'
  | _, _ => False
  end.
Proof.
  revert h. induction es as [|e es IH]; intros h C; [cbn; split; [intros l _; reflexivity|]; split; [exact C|]; split; constructor|].
  cbn [hmap map_result]. pose proof (entry_spec e h C) as E. destruct (option_class_h e h) as (h1 & [(n & v)|x]) eqn:E1, (option_class e) as [(n' & t)|x'] eqn:E2; try contradiction; cbn [bind].
  - rewrite (bind_ok _ _ _ _ _ E1). destruct E as (U1 & C1 & V1 & -> & N1). specialize (IH h1 C1).
    destruct (hmap option_class_h es h1) as (h2 & [ps|x]) eqn:E3, (map_result option_class es) as [ts|x'] eqn:E4; try contradiction; cbn [bind].
    + rewrite (bind_ok _ _ _ _ _ E3). destruct IH as (U2 & C2 & F & P). cbn. split; [eapply unchanged_trans; eauto|]. split; [exact C2|]. split.
      * constructor; [cbn; split; [reflexivity|]; split; [eapply valid_mono; [apply unchanged_length, U2|exact V1]|eapply new_ok_later; eauto]|].
        eapply Forall2_impl'; [|exact F]. intros p u (A & B & D). split; [exact A|]. split; [exact B|]. eapply new_ok_earlier; [apply unchanged_length, U1|exact D].
      * constructor; [|exact P]. apply Forall_forall. intros p J. cbn [snd].
        assert (G : exists u, new_ok h1 h2 (snd p) u). { clear - F J. induction F as [|q u qs us X F IH]; [contradiction|]. destruct J as [->|J]; [exists (snd u); apply X|auto]. }
        destruct G as (u & G). exact (apart_made h h1 h2 v (snd p) t u C1 U2 N1 G).
    + rewrite (bind_raise _ _ _ _ _ E3). destruct IH as (-> & U2). split; [reflexivity|eapply unchanged_trans; eauto].
  - rewrite (bind_raise _ _ _ _ _ E1). exact E.
Qed.
(** The dictionary *)
Lemma fold_dict {V} (es : list (string * V)) d : fold_left (fun d p => PyBase.dict_set d (fst p) (snd p)) es d = rev es ++ d.
Proof. revert d. induction es as [|(n, v) es IH]; intros d; cbn; [reflexivity|]. rewrite IH, <- app_assoc. reflexivity. Qed.
Lemma Forall2_rev {A B} (R : A -> B -> Prop) l m : Forall2 R l m -> Forall2 R (rev l) (rev m).
Proof. induction 1; cbn; [constructor|]. apply Forall2_app; auto. Qed.
Lemma find_related {V W} (R : V -> W -> Prop) d d' n : Forall2 (fun p t => fst p = fst t /\ R (snd p) (snd t)) d d' ->
  match PyBase.dict_get d n, PyBase.dict_get d' n with
  | Ok v, Ok t => In (n, v) d /\ R v t
  | Raise x, Raise x' => x = x'
  | _, _ => False
  end.
Proof.
  unfold PyBase.dict_get. induction 1 as [|(k, v) (k', t) d d' (Q & X) F IH]; cbn; [reflexivity|]. cbn in Q, X. subst k'.
  destruct (String.eqb_spec n k) as [->|N]; [auto|]. destruct (dict_find d n), (dict_find d' n); auto. destruct IH; auto.
Qed.
Lemma pairs_in {A} (R : A -> A -> Prop) l : (forall a b, R a b -> R b a) -> ForallOrdPairs R l -> forall a b, In a l -> In b l -> a = b \/ R a b.
Proof.
  intros Sy. induction 1 as [|x l F P IH]; [contradiction|]. rewrite Forall_forall in F. intros a b [<-|Ia] [<-|Ib]; auto.
Qed.
Lemma dict_spec dir name h : closed h ->
  match get_dict_option_to_class_for_arg_h dir name h, get_dict_option_to_class_for_arg dir name with
  | (h', Ok d), Ok d' => unchanged h h' /\ closed h' /\ Forall2 (fun p t => fst p = fst t /\ valid h' (snd p) /\ new_ok h h' (snd p) (snd t)) d d' /\
      forall n m v w, PyBase.dict_get d n = Ok v -> PyBase.dict_get d m = Ok w -> n <> m -> apart h' v w
  | (h', Raise x), Raise x' => x = x' /\ unchanged h h'
  | _, _ => False
  end.
Proof.
  intros C. unfold get_dict_option_to_class_for_arg_h, get_dict_option_to_class_for_arg. unfold hbind at 1, hlift.
  destruct (get_json_data dir name) as [j|x]; cbn [bind]; [|split; [reflexivity|intros l _; reflexivity]].
  pose proof (entries_spec (j_option j) h C) as E. destruct (hmap option_class_h (j_option j) h) as (h1 & [ps|x]) eqn:E1, (map_result option_class (j_option j)) as [ts|x'] eqn:E2; try contradiction; cbn [bind].
  - rewrite (bind_ok _ _ _ _ _ E1). destruct E as (U & C1 & F & P). cbn. rewrite !fold_dict, !app_nil_r. split; [exact U|]. split; [exact C1|]. split; [now apply Forall2_rev|].
    intros n m v w Gn Gm N. assert (I : forall n v, PyBase.dict_get (rev ps) n = Ok v -> In (n, v) ps).
    { intros k u G. apply in_rev. unfold PyBase.dict_get in G. clear - G. induction (rev ps) as [|(k', u') l IH]; cbn in G; [discriminate|].
      destruct (String.eqb_spec k k') as [->|_]; [injection G as <-; now left|right; auto]. }
    destruct (pairs_in _ _ (fun a b H => conj (proj2 H) (proj1 H)) P (n, v) (m, w) (I _ _ Gn) (I _ _ Gm)) as [Q|(Q & _)]; [congruence|exact Q].
  - rewrite (bind_raise _ _ _ _ _ E1). exact E.
Qed.
Lemma apart_later h h' v w : unchanged h h' -> valid h v -> valid h w -> apart h v w -> apart h' v w.
Proof.
  intros U V W (N & A). split; [exact N|]. intros a b r -> -> E F. cbn in V, W. rewrite (U a V) in E. rewrite (U b W) in F. exact (A a b r eq_refl eq_refl E F).
Qed.

(** The loop over the flags and options *)
Lemma loop_spec h0 hd (d : dict hval) d' : unchanged h0 hd -> Forall2 (fun p t => fst p = fst t /\ valid hd (snd p) /\ new_ok h0 hd (snd p) (snd t)) d d' ->
  forall fos fs h, Forall2 (flagoption_is h0) fos fs -> closed h -> unchanged hd h ->
  match hmap (flagoption_typer_h d) fos h, map_result (fun fo => match fo with Flag _ => Ok PLAINSTRING | Option_ n _ => PyBase.dict_get d' n end) fs with
  | (h', Ok vs), Ok ts => unchanged h h' /\ closed h' /\ Forall2 (fun v t => valid h' v /\ new_ok h0 h' v t) vs ts /\
      Forall2 (fun f v => forall n a, f = Option_ n a -> PyBase.dict_get d n = Ok v /\ valid hd v) fs vs
  | (h', Raise x), Raise x' => x = x' /\ unchanged h h'
  | _, _ => False
  end.
Proof.
  intros U0 D. induction fos as [|fo fos IH]; intros fs h F C U; inversion F as [|fo' f fos' fs' Fo Fs X1 X2]; subst.
  { cbn. split; [intros l _; reflexivity|]. split; [exact C|]. split; constructor. }
  cbn [hmap map_result]. pose proof (flagoption_is_later _ _ _ _ (unchanged_trans _ _ _ U0 U) Fo) as (l & -> & Q).
  assert (Head : match flagoption_typer_h d (HRef l) h, match f with Flag _ => Ok PLAINSTRING | Option_ n _ => PyBase.dict_get d' n end with
    | (h1, Ok v), Ok t => unchanged h h1 /\ closed h1 /\ valid h1 v /\ new_ok h0 h1 v t /\ forall n a, f = Option_ n a -> PyBase.dict_get d n = Ok v /\ valid hd v
    | (h1, Raise x), Raise x' => x = x' /\ unchanged h h1
    | _, _ => False end).
  { unfold flagoption_typer_h. destruct f as [n|n a].
    - rewrite (bind_ok _ _ _ _ _ (class_ok _ _ _ _ Q)). cbn [is_class]. change (String.eqb "Flag" "Flag") with true. cbv iota. unfold alloc.
      destruct (typer_made h "str" HNone PLAINSTRING C ltac:(repeat constructor) (conj eq_refl eq_refl) h0 ltac:(apply unchanged_length; eapply unchanged_trans; eauto) ltac:(discriminate)) as (U1 & C1 & V1 & N1).
      split; [exact U1|]. split; [exact C1|]. split; [exact V1|]. split; [exact N1|discriminate].
    - rewrite (bind_ok _ _ _ _ _ (class_ok _ _ _ _ Q)). cbn [is_class]. change (String.eqb "Option" "Flag") with false. change (String.eqb "Option" "Option") with true. cbv iota.
      rewrite (bind_ok _ _ _ _ _ (get_attr_ok _ _ _ _ "option_name" (HStr n) Q eq_refl)). unfold hbind at 1, as_str, hret, hlift.
      pose proof (find_related (fun v t => valid hd v /\ new_ok h0 hd v t) d d' n D) as R. assert (Same : unchanged h h) by (intros k _; reflexivity).
      destruct (PyBase.dict_get d n) as [v|x] eqn:E1, (PyBase.dict_get d' n) as [t|x'] eqn:E2; try contradiction; [|auto].
      destruct R as (_ & V & N). split; [exact Same|]. split; [exact C|]. split; [eapply valid_mono; [apply unchanged_length, U|exact V]|]. split; [eapply new_ok_later; [exact U|exact N]|].
      intros n' a' [= <- <-]. auto. }
  destruct (flagoption_typer_h d (HRef l) h) as (h1 & [v|x]) eqn:E1, (match f with Flag _ => _ | Option_ n _ => _ end) as [t|x'] eqn:E2; try contradiction; cbn [bind].
  - destruct Head as (U1 & C1 & V1 & N1 & G). rewrite (bind_ok _ _ _ _ _ E1). specialize (IH fs' h1 Fs C1 (unchanged_trans _ _ _ U U1)).
    destruct (hmap (flagoption_typer_h d) fos h1) as (h2 & [vs|x]) eqn:E3, (map_result _ fs') as [ts|x'] eqn:E4; try contradiction; cbn [bind].
    + destruct IH as (U2 & C2 & Fv & Fd). rewrite (bind_ok _ _ _ _ _ E3). cbn. split; [eapply unchanged_trans; eauto|]. split; [exact C2|]. split; [|constructor; auto].
      constructor; [|exact Fv]. split; [eapply valid_mono; [apply unchanged_length, U2|exact V1]|eapply new_ok_later; eauto].
    + destruct IH as (-> & U2). rewrite (bind_raise _ _ _ _ _ E3). split; [reflexivity|eapply unchanged_trans; eauto].
  - rewrite (bind_raise _ _ _ _ _ E1). exact Head.
Qed.

(** ** The list of typers *)
Definition by_name (h : heap) (fs : list flag_option) (vs : list hval) : Prop :=
  forall p q n m a b v w, nth_error fs p = Some (Option_ n a) -> nth_error fs q = Some (Option_ m b) -> nth_error vs p = Some v -> nth_error vs q = Some w ->
    (n = m -> v = w) /\ (n <> m -> apart h v w).
Lemma typers_spec dir h y fos ops inv : closed h -> invocation_is h y fos ops inv ->
  match get_flagoption_list_typer_h dir y h, get_flagoption_list_typer dir inv with
  | (h', Ok ft), Ok ts => unchanged h h' /\ closed h' /\ exists vs, list_is typer_is h' ft vs ts /\ Forall2 (new_ok h h') vs ts /\ by_name h' (flag_option_list inv) vs /\
      length vs = length fos
  | (h', Raise x), Raise x' => x = x' /\ unchanged h h'
  | _, _ => False
  end.
Proof.
  intros C (l & fl & ol & -> & Q & (a & -> & Qf & Ff) & _). unfold get_flagoption_list_typer_h, get_flagoption_list_typer.
  assert (N : get_cmd_name (HRef l) h = (h, Ok (cmd_name inv))) by (unfold get_cmd_name; now rewrite (bind_ok _ _ _ _ _ (get_attr_ok _ _ _ _ "cmd_name" _ Q eq_refl))).
  rewrite (bind_ok _ _ _ _ _ N). pose proof (dict_spec dir (cmd_name inv) h C) as D.
  destruct (get_dict_option_to_class_for_arg_h dir (cmd_name inv) h) as (hd & [d|x]) eqn:E1, (get_dict_option_to_class_for_arg dir (cmd_name inv)) as [d'|x'] eqn:E2; try contradiction; cbn [bind].
  2: { now rewrite (bind_raise _ _ _ _ _ E1). }
  destruct D as (U & Cd & D & Ap). rewrite (bind_ok _ _ _ _ _ E1).
  rewrite (bind_ok _ _ _ _ _ (get_attr_ok _ _ _ _ "flag_option_list" _ (nth_later _ _ _ _ U Q) eq_refl)), (bind_ok _ _ _ _ _ (items_ok _ _ _ (nth_later _ _ _ _ U Qf))).
  pose proof (loop_spec h hd d d' U D fos (flag_option_list inv) hd Ff Cd ltac:(intros k _; reflexivity)) as L.
  destruct (hmap (flagoption_typer_h d) fos hd) as (h2 & [vs|x]) eqn:E3, (map_result _ (flag_option_list inv)) as [ts|x'] eqn:E4; try contradiction.
  2: { rewrite (bind_raise _ _ _ _ _ E3). destruct L as (-> & U2). split; [reflexivity|eapply unchanged_trans; eauto]. }
  destruct L as (U2 & C2 & Fv & Fd). rewrite (bind_ok _ _ _ _ _ E3). unfold alloc. set (h' := h2 ++ [OList vs]). assert (U3 : unchanged h2 h') by apply unchanged_snoc.
  assert (Vs : Forall (valid h2) vs). { clear - Fv. induction Fv as [|v t vs ts (V & _) F IH]; constructor; auto. }
  split; [eapply unchanged_trans; [exact U|]; eapply unchanged_trans; eauto|]. split; [apply closed_snoc; [exact C2|exact Vs]|]. exists vs.
  assert (Fn : Forall2 (new_ok h h') vs ts) by (eapply Forall2_impl'; [|exact Fv]; intros v t (_ & G); eapply new_ok_later; eauto).
  split; [|split; [exact Fn|split]].
  - exists (length h2). split; [reflexivity|]. split; [apply nth_last|]. eapply Forall2_impl'; [|exact Fn]. intros v t (T & _). exact T.
  - intros p q n m x y v w Pn Qm Pv Qw. destruct (nth_Forall2 _ _ _ Fd p _ Pn) as (v' & Pv' & Gv). rewrite Pv in Pv'. injection Pv' as <-.
    destruct (nth_Forall2 _ _ _ Fd q _ Qm) as (w' & Qw' & Gw). rewrite Qw in Qw'. injection Qw' as <-.
    destruct (Gv n x eq_refl) as (Dv & Vv), (Gw m y eq_refl) as (Dw & Vw). split; [intros <-; congruence|]. intros Ne.
    eapply apart_later; [eapply unchanged_trans; [exact U2|exact U3]|exact Vv|exact Vw|exact (Ap n m v w Dv Dw Ne)].
  - rewrite (Forall2_length _ _ _ Ff). symmetry. eapply Forall2_length; eauto.
Qed.
