(** * Facts about text, sorting and running invocations *)
From Coq Require Import Lia.
Require Import Verif.PyBase Verif.JsonData Verif.Parser Verif.Access Verif.IOInfo Verif.IOVars
  Verif.Transformers Verif.ParaTypes Verif.MapperAgg Verif.SpecLists Verif.SpecVars Verif.SpecSem.

(** ** Text *)
Lemma append_assoc a b c : (a +++ b) +++ c = a +++ b +++ c.
Proof. induction a; cbn; congruence. Qed.
Lemma append_nil a : a +++ "" = a.
Proof. induction a; cbn; congruence. Qed.
Lemma joined_app l l' : joined (l ++ l') = joined l +++ joined l'.
Proof. unfold joined. induction l; cbn; [reflexivity|]. now rewrite IHl, append_assoc. Qed.
Lemma terminated_app sep l l' : terminated sep (l ++ l') = terminated sep l +++ terminated sep l'.
Proof. unfold terminated. now rewrite map_app, joined_app. Qed.
Lemma terminated_flat_map {A} sep (f : A -> list string) l :
  terminated sep (flat_map f l) = joined (map (fun x => terminated sep (f x)) l).
Proof. induction l; cbn [flat_map map]; [reflexivity|]. rewrite terminated_app, IHl. reflexivity. Qed.

Lemma records_end sep a b : records sep (a +++ String sep b) = records sep (a +++ String sep "") ++ records sep b.
Proof.
  induction a as [|x a IH]; cbn.
  - now rewrite Ascii.eqb_refl.
  - destruct (Ascii.eqb x sep); [now rewrite IH|]. rewrite IH.
    destruct (records sep (a +++ String sep "")) eqn:E; [|reflexivity].
    exfalso. destruct a as [|y a]; cbn in E; [now rewrite Ascii.eqb_refl in E|].
    destruct (Ascii.eqb y sep); [discriminate|]. destruct (records sep _); discriminate.
Qed.
Definition ends_in (sep : ascii) (s : string) : Prop := s = "" \/ exists t, s = t +++ String sep "".
Lemma records_app sep a b : ends_in sep a -> records sep (a +++ b) = records sep a ++ records sep b.
Proof.
  intros [->|(t & ->)]; [reflexivity|]. rewrite append_assoc. cbn [String.append]. apply records_end.
Qed.
Lemma records_joined sep l : Forall (ends_in sep) (removelast l) -> records sep (joined l) = flat_map (records sep) l.
Proof.
  induction l as [|x l IH]; intros F; [reflexivity|]. destruct l as [|y l].
  - cbn. now rewrite append_nil, app_nil_r.
  - change (removelast (x :: y :: l)) with (x :: removelast (y :: l)) in F. inversion F; subst.
    change (joined (x :: y :: l)) with (x +++ joined (y :: l)). rewrite records_app by assumption.
    now rewrite IH.
Qed.
Lemma cut_lines input pieces : cut_at_lines input pieces -> lines input = flat_map lines pieces.
Proof. intros (-> & F). now apply records_joined. Qed.
Lemma has_char_app a s t : has_char a (s +++ t) = has_char a s || has_char a t.
Proof. induction s; cbn; [reflexivity|]. now rewrite IHs, orb_assoc. Qed.
Lemma records_clean sep s : Forall (fun r => has_char sep r = false) (records sep s).
Proof.
  induction s as [|a s IH]; cbn; [constructor|]. destruct (Ascii.eqb a sep) eqn:E; [constructor; auto|].
  rewrite Ascii.eqb_sym in E.
  destruct (records sep s); [repeat constructor; cbn; now rewrite E|].
  inversion IH; subst. constructor; auto. cbn. now rewrite E.
Qed.
Lemma records_terminated_one sep r s : has_char sep r = false -> records sep (r +++ String sep s) = r :: records sep s.
Proof.
  induction r as [|a r IH]; cbn; [now rewrite Ascii.eqb_refl|]. rewrite orb_false_iff. intros (E & H).
  rewrite Ascii.eqb_sym in E. now rewrite E, IH.
Qed.
Lemma records_terminated sep l : Forall (fun r => has_char sep r = false) l -> records sep (terminated sep l) = l.
Proof.
  induction 1 as [|r l H _ IH]; [reflexivity|]. change (terminated sep (r :: l)) with ((r +++ String sep "") +++ terminated sep l).
  rewrite append_assoc. cbn [String.append]. rewrite records_terminated_one by assumption. now rewrite IH.
Qed.
Lemma terminated_ends sep l : ends_in sep (terminated sep l).
Proof.
  induction l as [|r l IH] using rev_ind; [now left|]. right. rewrite terminated_app. unfold terminated at 2. cbn.
  rewrite append_nil. exists (terminated sep l +++ r). now rewrite append_assoc.
Qed.

(** ** Sorting *)
Section Sorting.
  Variable le : string -> string -> bool.
  Hypothesis total : forall x y, le x y = true \/ le y x = true.
  Hypothesis trans : forall x y z, le x y = true -> le y z = true -> le x z = true.
  Let R x y := le x y = true.
  Lemma insert_perm x l : Permutation (x :: l) (insert_line le x l).
  Proof.
    induction l as [|y l IH]; cbn; [auto|]. destruct (le x y); [auto|]. rewrite perm_swap. auto.
  Qed.
  Lemma sort_perm l : Permutation l (sort_lines le l).
  Proof. induction l; cbn; [auto|]. rewrite <- insert_perm. auto. Qed.
  Lemma insert_sorted x l : StronglySorted R l -> StronglySorted R (insert_line le x l).
  Proof.
    induction 1 as [|y l S IH F]; cbn; [repeat constructor|]. destruct (le x y) eqn:E.
    - constructor; [now constructor|]. constructor; auto. eapply Forall_impl; [|exact F]. intros z; unfold R; eauto.
    - assert (Y : le y x = true) by (destruct (total x y); congruence).
      constructor; [exact IH|]. eapply Permutation_Forall; [apply insert_perm|]. constructor; auto.
  Qed.
  Lemma sort_sorted l : StronglySorted R (sort_lines le l).
  Proof. induction l; cbn; [constructor|]. now apply insert_sorted. Qed.
  Lemma merge_nil_r l : merge_lines le l [] = l.
  Proof. now destruct l. Qed.
  Lemma merge_perm l : forall l', Permutation (l ++ l') (merge_lines le l l').
  Proof.
    induction l as [|x l IH]; [intros []; auto|]. induction l' as [|y l' IH']; [now rewrite app_nil_r|].
    cbn [merge_lines]. destruct (le x y).
    - cbn. constructor. apply IH.
    - rewrite <- Permutation_middle. constructor. exact IH'.
  Qed.
  Lemma merge_sorted l : forall l', StronglySorted R l -> StronglySorted R l' -> StronglySorted R (merge_lines le l l').
  Proof.
    induction l as [|x l IH]; [intros []; auto|]. induction l' as [|y l' IH']; [auto|]. intros S S'.
    apply StronglySorted_inv in S as S0. apply StronglySorted_inv in S' as S0'.
    cbn [merge_lines]. destruct (le x y) eqn:E.
    - constructor; [apply IH; tauto|]. eapply Permutation_Forall; [apply merge_perm|].
      apply Forall_app. split; [tauto|]. constructor; [exact E|]. eapply Forall_impl; [|apply S0']. intros z; unfold R; eauto.
    - assert (Y : le y x = true) by (destruct (total x y); congruence).
      change (StronglySorted R (y :: merge_lines le (x :: l) l')). constructor; [apply IH'; tauto|].
      eapply Permutation_Forall; [apply merge_perm|]. constructor; [exact Y|]. apply Forall_app. split; [|tauto].
      eapply Forall_impl; [|apply S0]. intros z; unfold R; eauto.
  Qed.
  Hypothesis antisym : forall x y, le x y = true -> le y x = true -> x = y.
  Lemma sorted_unique l : forall l', StronglySorted R l -> StronglySorted R l' -> Permutation l l' -> l = l'.
  Proof.
    induction l as [|x l IH]; intros l' S S' P.
    - now apply Permutation_nil in P.
    - destruct l' as [|y l']; [apply Permutation_sym, Permutation_nil in P; discriminate|].
      apply StronglySorted_inv in S as (S & F). apply StronglySorted_inv in S' as (S' & F').
      assert (x = y).
      { assert (Ix : In x (y :: l')) by (eapply Permutation_in; [exact P|now left]).
        assert (Iy : In y (x :: l)) by (eapply Permutation_in; [symmetry; exact P|now left]).
        destruct Ix as [->|Ix]; [reflexivity|]. destruct Iy as [->|Iy]; [reflexivity|].
        rewrite Forall_forall in F, F'. apply antisym; [apply (F _ Iy)|apply (F' _ Ix)]. }
      subst y. f_equal. apply IH; auto. now apply Permutation_cons_inv in P.
  Qed.
  Lemma sort_of_perm l l' : Permutation l l' -> sort_lines le l = sort_lines le l'.
  Proof.
    intros P. apply sorted_unique; auto using sort_sorted. rewrite <- !sort_perm. exact P.
  Qed.
  Lemma merge_of_sorts l l' : merge_lines le (sort_lines le l) (sort_lines le l') = sort_lines le (l ++ l').
  Proof.
    apply sorted_unique; auto using sort_sorted, merge_sorted. rewrite <- merge_perm. rewrite <- !sort_perm. reflexivity.
  Qed.
End Sorting.

(** ** Comparing bytes *)
Lemma bytes_le_refl x : bytes_le x x = true.
Proof.
  unfold bytes_le. induction x as [|a x IH]; [reflexivity|]. cbn. unfold Ascii.compare. now rewrite N.compare_refl.
Qed.
Lemma bytes_total x : forall y, bytes_le x y = true \/ bytes_le y x = true.
Proof.
  unfold bytes_le. induction x as [|a x IH]; intros [|b y]; cbn; auto. unfold Ascii.compare.
  rewrite (N.compare_antisym (N_of_ascii a)). destruct (N.compare (N_of_ascii a) (N_of_ascii b)); cbn; auto.
Qed.
Lemma bytes_antisym x : forall y, bytes_le x y = true -> bytes_le y x = true -> x = y.
Proof.
  unfold bytes_le. induction x as [|a x IH]; intros [|b y]; cbn; auto; try discriminate. unfold Ascii.compare.
  rewrite (N.compare_antisym (N_of_ascii a)). destruct (N.compare_spec (N_of_ascii a) (N_of_ascii b)) as [E|E|E]; cbn; try discriminate.
  intros H1 H2. f_equal; [|now apply IH]. rewrite <- (ascii_N_embedding a), <- (ascii_N_embedding b). now rewrite E.
Qed.
Lemma bytes_trans x : forall y z, bytes_le x y = true -> bytes_le y z = true -> bytes_le x z = true.
Proof.
  unfold bytes_le. induction x as [|a x IH]; intros [|b y] [|c z]; cbn; auto; try discriminate. unfold Ascii.compare.
  destruct (N.compare_spec (N_of_ascii a) (N_of_ascii b)) as [E|E|E]; try discriminate;
  destruct (N.compare_spec (N_of_ascii b) (N_of_ascii c)) as [E'|E'|E']; try discriminate; intros H1 H2.
  - rewrite E, E', N.compare_refl. eapply IH; eauto.
  - rewrite E. apply N.compare_lt_iff in E'. now rewrite E'.
  - rewrite <- E'. apply N.compare_lt_iff in E. now rewrite E.
  - assert (L : (N_of_ascii a < N_of_ascii c)%N) by lia. apply N.compare_lt_iff in L. now rewrite L.
Qed.

(** The comparison of lines without -s and -u is a total order. *)
Section LineOrder.
  Variables (o : sort_oracle) (seed : nat) (fl : list wflag).
  Hypothesis K : total_preorder (key_le o seed fl).
  Hypothesis plain : given fl ["-s"; "-u"] = false.
  Let k := key_le o seed fl.
  Lemma line_le_eq x y : line_le o seed fl x y =
    (k x y && (negb (k y x) || if given fl ["-r"] then bytes_le y x else bytes_le x y)).
  Proof. unfold line_le. rewrite plain. fold k. destruct (k x y), (k y x); cbn; auto. Qed.
  Lemma line_total x y : line_le o seed fl x y = true \/ line_le o seed fl y x = true.
  Proof.
    rewrite !line_le_eq. destruct K as (T & _). specialize (T x y). fold k in T.
    destruct (k x y), (k y x); cbn; auto.
    destruct (given fl ["-r"]); [destruct (bytes_total y x)|destruct (bytes_total x y)]; auto.
  Qed.
  Lemma line_antisym x y : line_le o seed fl x y = true -> line_le o seed fl y x = true -> x = y.
  Proof.
    rewrite !line_le_eq. destruct (k x y), (k y x); cbn; try discriminate.
    destruct (given fl ["-r"]); intros; [symmetry|]; now apply bytes_antisym.
  Qed.
  Lemma line_trans x y z : line_le o seed fl x y = true -> line_le o seed fl y z = true -> line_le o seed fl x z = true.
  Proof.
    rewrite !line_le_eq, !andb_true_iff, !orb_true_iff, !negb_true_iff. destruct K as (T & C). fold k in T, C.
    intros (A & A') (B & B'). split; [eauto|].
    destruct (k z x) eqn:Z; [|auto]. right.
    assert (Y1 : k y x = true) by eauto. assert (Y2 : k z y = true) by eauto.
    destruct A' as [A'|A']; [congruence|]. destruct B' as [B'|B']; [congruence|].
    destruct (given fl ["-r"]); eauto using bytes_trans.
  Qed.
End LineOrder.
