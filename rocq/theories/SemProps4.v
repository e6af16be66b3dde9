(** * Proofs about plans with auxiliary results *)
From Coq Require Import Lia.
Require Import Verif.PyBase Verif.JsonData Verif.Parser Verif.Access Verif.IOInfo Verif.IOVars
  Verif.Transformers Verif.ParaTypes Verif.ParaGen Verif.MapperAgg Verif.SpecLists Verif.SpecIO Verif.SpecVars Verif.SpecPara
  Verif.ParserFacts Verif.ParaProps Verif.ShippedData Verif.MapperFacts Verif.P_Para Verif.SpecSem Verif.SemFacts Verif.SemRun Verif.SemProps Verif.SpecSem2 Verif.SemProps2 Verif.SpecSem4.

(** ** Pairs of lines *)
Lemma pairs_cons a b l : line_pairs (a :: b :: l) = (a +++ tab +++ b) :: line_pairs (b :: l).
Proof. reflexivity. Qed.
Lemma last_line_cons a b l : last_line (a :: b :: l) = last_line (b :: l).
Proof.
  unfold last_line. cbn [rev]. destruct (rev l ++ [b]) as [|x r] eqn:E; [now destruct (rev l)|]. reflexivity.
Qed.
Lemma pairs_app l m : l <> [] -> m <> [] -> line_pairs (l ++ m) = line_pairs l ++ paste (last_line l) (firstn 1 m) ++ line_pairs m.
Proof.
  intros L M. destruct l as [|a l]; [congruence|]. destruct m as [|b m]; [congruence|]. clear L M. revert a.
  induction l as [|a' l IH]; intros a; [reflexivity|]. change ((a :: a' :: l) ++ b :: m) with (a :: a' :: (l ++ b :: m)).
  rewrite !pairs_cons, last_line_cons. cbn [app]. f_equal. apply (IH a').
Qed.
Lemma pairs_length l : length (line_pairs l) = pred (length l).
Proof.
  destruct l as [|a l]; [reflexivity|]. revert a. induction l as [|b l IH]; intros a; [reflexivity|].
  rewrite pairs_cons. cbn [length]. rewrite IH. reflexivity.
Qed.
Lemma last_line_length l : length (last_line l) = match l with [] => 0 | _ => 1 end.
Proof. unfold last_line. destruct l as [|a l]; [reflexivity|]. cbn [rev]. destruct (rev l ++ [a]) eqn:E; [now destruct (rev l)|reflexivity]. Qed.
Definition seam (x y : list string) : list string := paste (last_line x) (firstn 1 y).
Lemma seam_length x y : length (seam x y) = match x, y with [], [] => 0 | _, _ => 1 end.
Proof.
  unfold seam. pose proof (last_line_length x) as L. destruct x as [|a x].
  - destruct y; reflexivity.
  - destruct (last_line (a :: x)) as [|b [|]]; cbn in L; try lia. destruct y; reflexivity.
Qed.
Lemma with_seams_cons x y l : with_seams (x :: y :: l) = line_pairs x ++ seam x y ++ with_seams (y :: l).
Proof. reflexivity. Qed.
Lemma with_seams_app l m d : l <> [] -> m <> [] -> with_seams (l ++ m) = with_seams l ++ seam (List.last l d) (hd d m) ++ with_seams m.
Proof.
  intros L M. destruct m as [|y m]; [congruence|]. clear M. destruct l as [|x l]; [congruence|]. clear L. revert x.
  induction l as [|x' l IH]; intros x.
  - cbn [app]. rewrite with_seams_cons. reflexivity.
  - cbn [app] in *. rewrite !with_seams_cons, IH, <- !app_assoc. reflexivity.
Qed.
Lemma seams_right ls : Forall (fun l => l <> []) ls \/ Forall (fun l => l = []) ls -> with_seams ls = line_pairs (List.concat ls).
Proof.
  intros [H|H].
  - induction ls as [|x ls IH]; [reflexivity|]. inversion H as [|? ? X HS]; subst. destruct ls as [|y ls].
    + cbn [List.concat]. now rewrite app_nil_r.
    + rewrite with_seams_cons, (IH HS). cbn [List.concat]. inversion HS as [|? ? Y HS']; subst.
      destruct y as [|b y]; [congruence|]. now rewrite (pairs_app x) by (assumption || discriminate).
  - induction ls as [|x ls IH]; [reflexivity|]. inversion H as [|? ? X HS]; subst. destruct ls as [|y ls]; [reflexivity|].
    rewrite with_seams_cons, (IH HS). inversion HS; subst. reflexivity.
Qed.
Lemma seams_length ls : ls <> [] -> length (List.concat ls) <= S (length (with_seams ls)) /\
  (Exists (fun l => l = []) ls -> Exists (fun l => l <> []) ls -> length (List.concat ls) <= length (with_seams ls)).
Proof.
  destruct ls as [|x ls]; [congruence|]. intros _. revert x. induction ls as [|y ls IH]; intros x.
  - cbn [with_seams List.concat]. rewrite app_nil_r, pairs_length. split; [lia|].
    intros A B. inversion A as [? ? ->|? ? A']; subst; [|inversion A']. inversion B as [? ? C|? ? C]; [congruence|inversion C].
  - destruct (IH y) as (I1 & I2). rewrite with_seams_cons. change (List.concat (x :: y :: ls)) with (x ++ List.concat (y :: ls)).
    rewrite !app_length, pairs_length, seam_length. split; [destruct x, y; cbn [length] in *; lia|].
    intros A B. destruct x as [|a x].
    + destruct y as [|b y]; cbn [length]; [|cbn [length] in *; lia].
      assert (length (List.concat ([] :: ls)) <= length (with_seams ([] :: ls))); [|cbn [length] in *; lia].
      apply I2; [now constructor|]. inversion B; subst; [congruence|assumption].
    + assert (E : Exists (fun l => l = []) (y :: ls)) by (inversion A; subst; [discriminate|assumption]).
      destruct (List.concat (y :: ls)) as [|w ws] eqn:C; cbn [length] in *; [lia|].
      assert (E' : Exists (fun l => l <> []) (y :: ls)).
      { clear -C. revert C. generalize (y :: ls). intros l. induction l as [|[|z t] l IH]; cbn; intros C; [discriminate| |].
        - constructor 2. auto.
        - constructor 1. discriminate. }
      specialize (I2 E E'). lia.
Qed.
Lemma seams_wrong ls : Exists (fun l => l = []) ls -> Exists (fun l => l <> []) ls -> with_seams ls <> line_pairs (List.concat ls).
Proof.
  intros A B E. apply (f_equal (@length _)) in E. rewrite pairs_length in E.
  assert (N : ls <> []) by (intros ->; inversion A). destruct (seams_length ls N) as (_ & H). specialize (H A B).
  assert (0 < length (List.concat ls)); [|lia]. clear -B. induction B as [l ls H|l ls _ IH]; cbn; rewrite app_length; [|lia].
  destruct l; [congruence|cbn; lia].
Qed.
Lemma empty_or_not (ls : list (list string)) : Forall (fun l => l <> []) ls \/ Forall (fun l => l = []) ls \/
  (Exists (fun l => l = []) ls /\ Exists (fun l => l <> []) ls).
Proof.
  induction ls as [|l ls IH]; [left; constructor|]. destruct l as [|x l].
  - destruct IH as [H|[H|(H & H')]].
    + destruct ls as [|y ls]; [right; left; repeat constructor|]. right. right. inversion H; subst. split; [now constructor|]. constructor 2. now constructor.
    + right. left. now constructor.
    + right. right. split; constructor 2; assumption.
  - destruct IH as [H|[H|(H & H')]].
    + left. constructor; [discriminate|assumption].
    + destruct ls as [|y ls]; [left; constructor; [discriminate|constructor]|]. right. right. inversion H; subst.
      split; [constructor 2; now constructor|]. constructor. discriminate.
    + right. right. split; constructor 2; assumption.
Qed.
Definition clean (l : list string) : Prop := Forall (fun r => has_char newline r = false) l.
Lemma paste_clean l : forall m, clean l -> clean m -> clean (paste l m).
Proof.
  unfold clean. induction l as [|x l IH]; intros m L M.
  - cbn. induction M as [|y m Y M IH]; constructor; auto.
  - inversion L; subst. destruct m as [|y m]; cbn [paste]; constructor.
    + rewrite has_char_app. now rewrite H1.
    + apply IH; auto.
    + inversion M; subst. rewrite !has_char_app. now rewrite H1, H3.
    + inversion M; subst. apply IH; auto.
Qed.
Lemma clean_removelast l : clean l -> clean (removelast l).
Proof. intros H. induction H as [|x l X H IH]; [constructor|]. cbn. destruct l; [constructor|]. now constructor. Qed.
Lemma pairs_clean l : clean l -> clean (line_pairs l).
Proof. intros H. apply paste_clean; [now apply clean_removelast|]. destruct H; [constructor|assumption]. Qed.
Lemma seam_clean x y : clean x -> clean y -> clean (seam x y).
Proof.
  intros X Y. apply paste_clean.
  - unfold last_line. assert (R : clean (rev x)) by now apply Forall_rev. destruct (rev x); [constructor|]. inversion R; subst. now repeat constructor.
  - destruct Y; cbn; now repeat constructor.
Qed.
Lemma seams_clean ls : Forall clean ls -> clean (with_seams ls).
Proof.
  intros H. induction H as [|x ls X H IH]; [constructor|]. destruct ls as [|y ls]; [now apply pairs_clean|].
  inversion H; subst. rewrite with_seams_cons. apply Forall_app. split; [now apply pairs_clean|]. apply Forall_app.
  split; [now apply seam_clean|exact IH].
Qed.
Lemma lines_clean x : clean (lines x).
Proof. apply records_clean. Qed.
Lemma unlines_inj l m : clean l -> clean m -> unlines l = unlines m -> l = m.
Proof. intros L M E. apply (f_equal lines) in E. unfold lines, unlines in E. now rewrite !records_terminated in E by assumption. Qed.
Lemma concat_lines l : List.concat (map lines l) = flat_map lines l.
Proof. symmetry. apply flat_map_concat_map. Qed.
Lemma lines_nil x : lines x = [] <-> x = "".
Proof.
  split; [|now intros ->]. intros E. apply (records_nil newline). exact E.
Qed.

(** ** Running *)
Lemma nodup_app (l m : list Z) : NoDup (l ++ m) -> NoDup l /\ NoDup m /\ forall v, In v l -> In v m -> False.
Proof.
  induction l as [|x l IH]; cbn; intros N; [repeat split; [constructor|assumption|tauto]|].
  inversion N as [|? ? Ni N']; subst. destruct (IH N') as (A & B & C). rewrite in_app_iff in Ni. repeat split; auto.
  - constructor; tauto.
  - intros v [<-|I] J; [tauto|eauto].
Qed.
Definition outputs (t : aux_plan) : list Z := aux_root t :: aux_of t.
Fixpoint written (t : aux_plan) : list Z :=
  match t with
  | ALeaf _ y aux _ => y :: aux
  | ANode l r o aux _ => o :: aux ++ written l ++ written r
  end.
Lemma written_in t v : In v (written t) -> In v (aux_vars t).
Proof.
  induction t as [x y aux sd|l IHl r IHr o aux sd]; cbn; [tauto|]. rewrite !in_app_iff. tauto.
Qed.
Lemma parts_vars t v : In v (aux_parts t) -> In v (aux_vars t).
Proof.
  induction t as [x y aux sd|l IHl r IHr o aux sd]; cbn; [tauto|]. rewrite !in_app_iff. tauto.
Qed.
Lemma outputs_vars t v : In v (outputs t) -> In v (aux_vars t).
Proof.
  destruct t as [x y aux sd|l r o aux sd]; cbn; [tauto|]. rewrite !in_app_iff. tauto.
Qed.
Lemma outputs_written t v : In v (outputs t) -> In v (written t).
Proof.
  destruct t as [x y aux sd|l r o aux sd]; cbn; [tauto|]. rewrite !in_app_iff. tauto.
Qed.
Lemma parts_not_written t v : NoDup (aux_vars t) -> In v (aux_parts t) -> ~ In v (written t).
Proof.
  induction t as [x y aux sd|l IHl r IHr o aux sd]; cbn [aux_vars aux_parts written].
  - intros N [<-|[]] I. inversion N; subst. auto.
  - intros N I. rewrite in_app_iff in I. inversion N as [|? ? N0 N']; subst. apply nodup_app in N' as (Na & N' & Dis).
    apply nodup_app in N' as (Nl & Nr & Dlr). rewrite !in_app_iff in N0.
    assert (J : In v (aux_vars l ++ aux_vars r)) by (rewrite in_app_iff; destruct I; auto using parts_vars).
    intros [<-|K].
    + apply N0. right. now apply in_app_iff.
    + rewrite !in_app_iff in K. destruct K as [K|[K|K]].
      * exact (Dis v K J).
      * destruct I as [I|I]; [exact (IHl Nl I K)|]. exact (Dlr v (written_in _ _ K) (parts_vars _ _ I)).
      * destruct I as [I|I]; [|exact (IHr Nr I K)]. exact (Dlr v (parts_vars _ _ I) (written_in _ _ K)).
Qed.

(** The parallelizer of bigrams_aux *)
Definition bigrams_par : parallelizer :=
  mkPar CONSEC_CHUNKS (custom_mapper "bigram_aux_map" []) (AggString CUSTOM_2_ARY "bigram_aux_reduce" true) NO_ADD_INPUT 2.
Lemma put_eq v t s : put v t s v = t.
Proof. unfold put. now rewrite Z.eqb_refl. Qed.
Lemma put_ne v t s w : w <> v -> put v t s w = s w.
Proof. intros N. unfold put. destruct (Z.eqb_spec w v); congruence. Qed.
Lemma write_put c s k text v : nth_error (v_ops c) k = Some (PVar v) -> v_acc c v = Some STREAM_OUTPUT ->
  write_operand c s (k, text) = put v text s.
Proof. intros N A. unfold write_operand. cbn [fst snd]. now rewrite N, A. Qed.

Section Bigrams.
  Context (B : behaviour) (F : positional) (BS : bigram_system B F) (c : civ) (NoOps : v_ops c = []).
  Notation runs := (aux_runs F shipped_dir bigrams_par c).
  Lemma leaf_mapper x y h t : NoDup [x; y; h; t] -> exists m, get_actual_mapper bigrams_par c x y [h; t] = Ok (Some m) /\
    v_cmd m = "bigram_aux_map" /\ v_flags m = [] /\ v_ops m = map PVar [x; y; h; t] /\ v_acc m x = Some STREAM_INPUT /\
    v_acc m y = Some STREAM_OUTPUT /\ v_acc m h = Some STREAM_OUTPUT /\ v_acc m t = Some STREAM_OUTPUT.
  Proof.
    intros N. unfold get_actual_mapper. cbn [length p_info_mapper_aggregator bigrams_par Nat.eqb assert_ bind].
    unfold get_mapper. cbn [p_mapper bigrams_par custom_mapper ms_is_implemented negb base_mapper ms_kind ms_cmd_name ms_transformer v_ops v_acc v_cmd v_flags].
    rewrite NoOps. cbn [pop_operands bind]. eexists. split; [reflexivity|]. cbn [v_cmd v_flags v_ops v_acc]. repeat split; cbn [am_of fold_left];
      inversion N as [|? ? N1 N2]; subst; inversion N2 as [|? ? N3 N4]; subst; inversion N4 as [|? ? N5 N6]; subst; cbn in N1, N3, N5.
    all: unfold am_of; cbn [fold_left]; unfold am_set; repeat match goal with |- context [Z.eqb ?a ?b] => destruct (Z.eqb_spec a b); subst; try tauto end; try reflexivity.
  Qed.
  Lemma leaf_run x y h t seed s : NoDup [x; y; h; t] -> exists s', runs s (ALeaf x y [h; t] seed) s' /\
    s' y = bigrams (s x) /\ lines (s' h) = firstn 1 (lines (s x)) /\ lines (s' t) = last_line (lines (s x)) /\
    forall v, ~ In v [y; h; t] -> s' v = s v.
  Proof.
    intros N. destruct (leaf_mapper x y h t N) as (m & G & C & Fl & O & A1 & A2 & A3 & A4).
    exists (run_files F seed m s). split; [now constructor|].
    destruct BS as (_ & BM & _). destruct (BM seed (s x) (readable m s (PVar y)) (readable m s (PVar h)) (readable m s (PVar t))) as (th & tt & H1 & H2 & E).
    assert (R : run_files F seed m s = put t tt (put h th (put y (bigrams (s x)) s))).
    { unfold run_files. rewrite C, Fl, O. cbn [map]. replace (readable m s (PVar x)) with (s x) by (cbn; now rewrite A1). rewrite E.
      cbn [fold_left]. rewrite (write_put m s 1 _ y), (write_put m _ 2 _ h), (write_put m _ 3 _ t) by (rewrite ?O; reflexivity || assumption). reflexivity. }
    rewrite R. clear R E.
    inversion N as [|? ? N1 N2]; subst; inversion N2 as [|? ? N3 N4]; subst; inversion N4 as [|? ? N5 N6]; subst. cbn in N3, N5.
    split; [|split; [|split]].
    - rewrite !put_ne by (intros ->; tauto). apply put_eq.
    - rewrite put_ne by (intros ->; tauto). now rewrite put_eq.
    - now rewrite put_eq.
    - intros v I. cbn in I. rewrite !put_ne by (intros ->; tauto). reflexivity.
  Qed.
  Lemma reduce_agg i1 h1 t1 i2 h2 t2 o h t : NoDup [i1; h1; t1; i2; h2; t2; o; h; t] -> exists k a,
    get_actual_2_ary_aggregator_with_aux shipped_dir (p_aggregator bigrams_par) i1 [h1; t1] i2 [h2; t2] o [h; t] = Ok (k, a) /\
    v_cmd a = "bigram_aux_reduce" /\ v_flags a = [] /\ v_ops a = map PVar [i1; h1; t1; i2; h2; t2; o; h; t] /\
    (forall v, In v [i1; h1; t1; i2; h2; t2] -> v_acc a v = Some STREAM_INPUT) /\
    (forall v, In v [o; h; t] -> v_acc a v = Some STREAM_OUTPUT).
  Proof.
    intros N. assert (P : parse shipped_dir "bigram_aux_reduce" = Ok (mkInv "bigram_aux_reduce" [] [])) by (vm_compute; reflexivity).
    cbn [p_aggregator bigrams_par]. unfold get_actual_2_ary_aggregator_with_aux. cbn [length Nat.eqb assert_ bind]. rewrite P.
    cbn [bind flag_option_list only_flags map_result cmd_name]. cbv zeta. eexists. eexists. split; [reflexivity|].
    cbn [v_cmd v_flags v_ops v_acc]. repeat split.
    - intros v I. rewrite am_of_out; [now apply am_of_in|]. change [i1; h1; t1; i2; h2; t2; o; h; t] with ([i1; h1; t1; i2; h2; t2] ++ [o; h; t]) in N.
      apply nodup_app in N as (_ & _ & D). intros J. exact (D v I J).
    - intros v I. now apply am_of_in.
  Qed.
  Lemma reduce_run i1 h1 t1 i2 h2 t2 o h t seed s a : NoDup [i1; h1; t1; i2; h2; t2; o; h; t] ->
    v_cmd a = "bigram_aux_reduce" -> v_flags a = [] -> v_ops a = map PVar [i1; h1; t1; i2; h2; t2; o; h; t] ->
    (forall v, In v [i1; h1; t1; i2; h2; t2] -> v_acc a v = Some STREAM_INPUT) ->
    (forall v, In v [o; h; t] -> v_acc a v = Some STREAM_OUTPUT) ->
    let s' := run_files F seed a s in
    s' o = s i1 +++ unlines (paste (lines (s t1)) (lines (s h2))) +++ s i2 /\ s' h = s h1 /\ s' t = s t2 /\
    forall v, ~ In v [o; h; t] -> s' v = s v.
  Proof.
    intros N C Fl O I1 I2. cbv zeta.
    assert (RD : forall v, In v [i1; h1; t1; i2; h2; t2] -> readable a s (PVar v) = s v) by (intros v I; cbn; now rewrite I1).
    assert (R : run_files F seed a s = put t (s t2) (put h (s h1) (put o (s i1 +++ unlines (paste (lines (s t1)) (lines (s h2))) +++ s i2) s))).
    { unfold run_files. rewrite C, Fl, O. cbn [map]. rewrite (RD i1), (RD h1), (RD t1), (RD i2), (RD h2), (RD t2) by (cbn; tauto).
      destruct BS as (_ & _ & BR). rewrite BR. cbn [fold_left].
      rewrite (write_put a s 6 _ o), (write_put a _ 7 _ h), (write_put a _ 8 _ t) by (rewrite ?O; reflexivity || (apply I2; cbn; tauto)). reflexivity. }
    rewrite R. clear R.
    change [i1; h1; t1; i2; h2; t2; o; h; t] with ([i1; h1; t1; i2; h2; t2] ++ [o; h; t]) in N.
    apply nodup_app in N as (_ & N & _). inversion N as [|? ? N1 N2]; subst; inversion N2 as [|? ? N3 N4]; subst. cbn in N1, N3.
    split; [|split; [|split]].
    - rewrite !put_ne by (intros ->; tauto). apply put_eq.
    - rewrite put_ne by (intros ->; tauto). now rewrite put_eq.
    - now rewrite put_eq.
    - intros v I. cbn in I. rewrite !put_ne by (intros ->; tauto). reflexivity.
  Qed.
  Lemma aux_two t : aux_number 2 t -> exists h u, aux_of t = [h; u].
  Proof.
    assert (L : forall l : list Z, length l = 2 -> exists h u, l = [h; u]) by (intros [|a [|b [|]]]; try discriminate; eauto).
    destruct t; cbn; intros (E & _); auto.
  Qed.
  Definition part_lines (s : store) (t : aux_plan) : list (list string) := map (fun v => lines (s v)) (aux_parts t).
  Lemma parts_ne t : aux_parts t <> [].
  Proof. induction t as [|l IHl r IHr o aux sd]; cbn; [discriminate|]. destruct (aux_parts l); [tauto|discriminate]. Qed.
  Lemma part_lines_ne s t : part_lines s t <> [].
  Proof. unfold part_lines. pose proof (parts_ne t). destruct (aux_parts t); [tauto|discriminate]. Qed.
  Lemma part_lines_same s s' t : (forall v, In v (aux_parts t) -> s' v = s v) -> part_lines s' t = part_lines s t.
  Proof. intros H. apply map_ext_in. intros v I. now rewrite H. Qed.
  Lemma last_app_ne {A} (l m : list A) d : m <> [] -> List.last (l ++ m) d = List.last m d.
  Proof.
    intros M. induction l as [|x l IH]; [reflexivity|]. cbn [app]. rewrite <- IH. cbn. destruct (l ++ m) eqn:E; [|reflexivity].
    apply app_eq_nil in E as (_ & ->). congruence.
  Qed.
  Lemma hd_app_ne {A} (l m : list A) d : l <> [] -> hd d (l ++ m) = hd d l.
  Proof. destruct l; [congruence|reflexivity]. Qed.
  Lemma plan_run t : forall s, NoDup (aux_vars t) -> aux_number 2 t -> exists s' h u, runs s t s' /\ aux_of t = [h; u] /\
    s' (aux_root t) = unlines (with_seams (part_lines s t)) /\
    lines (s' h) = firstn 1 (hd [] (part_lines s t)) /\ lines (s' u) = last_line (List.last (part_lines s t) []) /\
    forall v, ~ In v (written t) -> s' v = s v.
  Proof.
    induction t as [x y aux sd|l IHl r IHr o aux sd]; intros s N A.
    - destruct (aux_two _ A) as (h & u & E). cbn in E. subst aux. destruct (leaf_run x y h u sd s N) as (s' & R & H1 & H2 & H3 & H4).
      exists s', h, u. repeat split; auto.
    - destruct (aux_two _ A) as (h & u & E). cbn in E. subst aux. cbn [aux_number] in A. destruct A as (_ & Al & Ar).
      cbn [aux_vars] in N. change (o :: [h; u] ++ aux_vars l ++ aux_vars r) with ([o; h; u] ++ aux_vars l ++ aux_vars r) in N.
      apply nodup_app in N as (No & N & D1). apply nodup_app in N as (Nl & Nr & D2).
      destruct (IHl s Nl Al) as (s1 & h1 & t1 & R1 & E1 & P1 & Q1 & U1 & K1).
      destruct (IHr s1 Nr Ar) as (s2 & h2 & t2 & R2 & E2 & P2 & Q2 & U2 & K2).
      rewrite (part_lines_same s s1) in P2, Q2, U2.
      2, 3, 4: (intros v I; apply K1; intros J; exact (D2 v (written_in _ _ J) (parts_vars _ _ I))).
      assert (OL : forall v, In v (outputs l) -> s2 v = s1 v).
      { intros v I. apply K2. intros J. exact (D2 v (outputs_vars _ _ I) (written_in _ _ J)). }
      unfold outputs in OL. rewrite E1 in OL.
      assert (ND : NoDup [aux_root l; h1; t1; aux_root r; h2; t2; o; h; u]).
      { change (NoDup ((aux_root l :: [h1; t1]) ++ (aux_root r :: [h2; t2]) ++ [o; h; u])). rewrite <- E1, <- E2.
        change (NoDup (outputs l ++ outputs r ++ [o; h; u])).
        assert (OD : forall t, NoDup (aux_vars t) -> NoDup (outputs t)).
        { intros [x' y' aux' sd'|l' r' o' aux' sd'] M; unfold outputs; cbn in M |- *; [now inversion M|].
          change (o' :: aux' ++ aux_vars l' ++ aux_vars r') with ((o' :: aux') ++ aux_vars l' ++ aux_vars r') in M. now apply nodup_app in M as (M & _). }
        assert (AP : forall a b : list Z, NoDup a -> NoDup b -> (forall v, In v a -> In v b -> False) -> NoDup (a ++ b)).
        { clear. intros a b Na Nb D. induction Na as [|x a Ni Na IH]; [exact Nb|]. cbn. constructor.
          - rewrite in_app_iff. intros [I|I]; [auto|]. apply (D x); [now left|exact I].
          - apply IH. intros v I. apply D. now right. }
        apply AP; [now apply OD|apply AP; [now apply OD|exact No|]|].
        - intros v I J. apply (D1 v J). apply in_or_app. right. now apply outputs_vars.
        - intros v I J. apply in_app_iff in J as [J|J]; [exact (D2 v (outputs_vars _ _ I) (outputs_vars _ _ J))|].
          apply (D1 v J). apply in_or_app. left. now apply outputs_vars. }
      destruct (reduce_agg _ _ _ _ _ _ _ _ _ ND) as (k & a & G & C & Fl & O & I1 & I2).
      destruct (reduce_run _ _ _ _ _ _ _ _ _ sd s2 a ND C Fl O I1 I2) as (S1 & S2 & S3 & S4).
      exists (run_files F sd a s2), h, u. split; [|split; [reflexivity|split; [|split; [|split]]]].
      + econstructor; [exact R1|exact R2|]. rewrite E1, E2. exact G.
      + cbn [aux_root]. rewrite S1. rewrite (OL (aux_root l)), (OL t1) by (cbn; tauto). rewrite P1, P2, Q2, U1.
        unfold part_lines. cbn [aux_parts]. rewrite map_app. rewrite (with_seams_app _ _ []) by apply part_lines_ne.
        unfold unlines. rewrite !terminated_app. reflexivity.
      + rewrite S2, (OL h1) by (cbn; tauto). rewrite Q1. unfold part_lines. cbn [aux_parts]. rewrite map_app, hd_app_ne by apply part_lines_ne. reflexivity.
      + rewrite S3, U2. unfold part_lines. cbn [aux_parts]. rewrite map_app, last_app_ne by apply part_lines_ne. reflexivity.
      + intros v I. cbn [written] in I. change (o :: [h; u] ++ written l ++ written r) with ([o; h; u] ++ written l ++ written r) in I.
        rewrite !in_app_iff in I. rewrite S4 by tauto. rewrite K2 by tauto. apply K1. tauto.
  Qed.
  Lemma runs_fun t : forall s s' s'', runs s t s' -> runs s t s'' -> s' = s''.
  Proof.
    induction t as [x y aux sd|l IHl r IHr o aux sd]; intros s s' s'' R R'; inversion R; subst; inversion R'; subst.
    - congruence.
    - match goal with A : aux_runs _ _ _ _ s l ?x, A' : aux_runs _ _ _ _ s l ?y |- _ => lazymatch x with y => fail | _ => assert (x = y) by exact (IHl _ _ _ A A'); subst x end end.
      match goal with A : aux_runs _ _ _ _ ?z r ?x, A' : aux_runs _ _ _ _ ?z r ?y |- _ => lazymatch x with y => fail | _ => assert (x = y) by exact (IHr _ _ _ A A'); subst x end end.
      congruence.
  Qed.
End Bigrams.
Lemma bigrams_offered inv p : cmd_name inv = "bigrams_aux" -> offered shipped_dir inv p -> p = bigrams_par.
Proof.
  intros C (i & k & ls & i' & l & G & CA & IL & I). apply (C28_only_sort shipped_dir inv i k ls i' l G) in CA as ->; auto.
  2: { rewrite C. intros [E|[E|[]]]; discriminate. }
  assert (A : annotated shipped_dir inv (Some (parallelizer_list i, is_commutative i))) by (apply C25_exact; now rewrite G).
  remember (parallelizer_list i) as l eqn:El. clear El.
  inversion A; subst; try solve [exfalso; cbn in *; intuition congruence]. destruct I as [<-|[]]. reflexivity.
Qed.
