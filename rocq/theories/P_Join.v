(** * C92: join in the table of reductions *)
Require Import Verif.PyBase Verif.SpecSem Verif.SemFacts Verif.SpecJoin.
From Coq Require Import Sorted Lia.

Section Join.
  Variable o : join_oracle.
  Hypothesis OK : order_ok o.

  Definition sameb (x y : string) : bool := join_le o (key1 o x) (key2 o y) && join_le o (key2 o y) (key1 o x).
  Lemma sameb_iff x y : sameb x y = true <-> same o x y.
  Proof. unfold sameb, same. apply andb_true_iff. Qed.
  Lemma sameb_false x y : ~ same o x y -> sameb x y = false.
  Proof. intros N. destruct (sameb x y) eqn:E; [|reflexivity]. now apply sameb_iff in E. Qed.
  Lemma le_trans x y z : join_le o x y = true -> join_le o y z = true -> join_le o x z = true.
  Proof. apply OK. Qed.
  Lemma not_le x y : join_le o x y = false -> join_le o y x = true.
  Proof. destruct (proj1 OK x y); congruence. Qed.

  (** What is printed because of one line of the first file *)
  Definition row (l2 : list string) (x : string) : list string :=
    match filter (sameb x) l2 with [] => alone1 o x | m => flat_map (paired o x) m end.

  Lemma filter_none {A} (f : A -> bool) l : (forall x, In x l -> f x = false) -> filter f l = [].
  Proof. induction l as [|x l IH]; intros H; cbn; [reflexivity|]. rewrite (H x) by now left. apply IH. intros y I. apply H. now right. Qed.
  Lemma filter_all {A} (f : A -> bool) l : (forall x, In x l -> f x = true) -> filter f l = l.
  Proof. induction l as [|x l IH]; intros H; cbn; [reflexivity|]. rewrite (H x) by now left. f_equal. apply IH. intros y I. apply H. now right. Qed.

  Lemma flat_map_ext_in {A B} (f g : A -> list B) l : (forall x, In x l -> f x = g x) -> flat_map f l = flat_map g l.
  Proof. induction l as [|x l IH]; intros H; cbn; [reflexivity|]. rewrite (H x) by now left. f_equal. apply IH. intros y I. apply H. now right. Qed.
  Lemma joins_rows l1 l2 out : (forall y, alone2 o y = []) -> joins o l1 l2 out -> sorted_on o (key1 o) l1 -> sorted_on o (key2 o) l2 ->
    out = flat_map (row l2) l1.
  Proof.
    intros A J. induction J as [l2|l1|x l1 y l2 out L J IH|x l1 y l2 out L J IH|x g1 r1 y g2 r2 out SA G1 H1 G2 H2 J IH]; intros S1 S2.
    - cbn. induction l2 as [|y l2 IH]; [reflexivity|]. cbn. rewrite A. inversion S2; auto.
    - reflexivity.
    - inversion S1 as [|? ? S1' F1]; subst. rewrite (IH S1' S2). cbn [flat_map]. f_equal.
      unfold row. rewrite filter_none; [reflexivity|]. intros z I. apply sameb_false. intros (_ & Q). inversion S2 as [|? ? S2' F2]; subst.
      rewrite Forall_forall in F2. destruct L as (_ & L). assert (join_le o (key2 o y) (key1 o x) = true); [|congruence].
      destruct I as [<-|I]; [exact Q|]. now apply (le_trans _ (key2 o z)); [apply F2|].
    - inversion S2 as [|? ? S2' F2]; subst. rewrite A. cbn [app]. rewrite (IH S1 S2'). apply flat_map_ext_in. intros z I.
      unfold row. cbn [filter]. rewrite sameb_false; [reflexivity|]. intros (Q & _). destruct L as (_ & L).
      assert (join_le o (key1 o x) (key2 o y) = true); [|congruence]. destruct I as [<-|I]; [exact Q|].
      inversion S1 as [|? ? S1' F1]; subst. rewrite Forall_forall in F1. now apply (le_trans _ (key1 o z)); [apply F1|].
    - assert (S1' : sorted_on o (key1 o) r1 /\ Forall (fun z => join_le o (key1 o x) (key1 o z) = true) r1).
      { inversion S1 as [|? ? S F]; subst. apply Forall_app in F as (_ & F). split; [|exact F]. clear - S. induction g1 as [|a g IH]; [exact S|]. cbn in S. inversion S; auto. }
      assert (S2' : sorted_on o (key2 o) r2 /\ Forall (fun z => join_le o (key2 o y) (key2 o z) = true) r2).
      { inversion S2 as [|? ? S F]; subst. apply Forall_app in F as (_ & F). split; [|exact F]. clear - S. induction g2 as [|a g IH]; [exact S|]. cbn in S. inversion S; auto. }
      destruct S1' as (S1' & F1), S2' as (S2' & F2). rewrite (IH S1' S2').
      (* what follows a run has a larger key *)
      assert (N1 : forall z, In z r1 -> join_le o (key1 o z) (key2 o y) = false).
      { destruct r1 as [|a r1]; [intros z []|]. cbn in H1. assert (Q : join_le o (key1 o a) (key2 o y) = false).
        { destruct (join_le o (key1 o a) (key2 o y)) eqn:E; [|reflexivity]. exfalso. apply H1. split; [exact E|].
          inversion F1; subst. apply (le_trans _ (key1 o x)); [apply SA|assumption]. }
        intros z [<-|I]; [exact Q|]. destruct (join_le o (key1 o z) (key2 o y)) eqn:E; [|reflexivity]. rewrite <- Q. symmetry.
        inversion S1' as [|? ? _ F]; subst. rewrite Forall_forall in F. now apply (le_trans _ (key1 o z)); [apply F|]. }
      assert (N2 : forall z, In z r2 -> join_le o (key2 o z) (key1 o x) = false).
      { destruct r2 as [|a r2]; [intros z []|]. cbn in H2. assert (Q : join_le o (key2 o a) (key1 o x) = false).
        { destruct (join_le o (key2 o a) (key1 o x)) eqn:E; [|reflexivity]. exfalso. apply H2. split; [|exact E].
          inversion F2; subst. apply (le_trans _ (key2 o y)); [apply SA|assumption]. }
        intros z [<-|I]; [exact Q|]. destruct (join_le o (key2 o z) (key1 o x)) eqn:E; [|reflexivity]. rewrite <- Q. symmetry.
        inversion S2' as [|? ? _ F]; subst. rewrite Forall_forall in F. now apply (le_trans _ (key2 o z)); [apply F|]. }
      rewrite Forall_forall in G1, G2.
      assert (K1 : forall z, In z (x :: g1) -> same o z y) by (intros z [<-|I]; auto).
      assert (K2 : forall z, In z (y :: g2) -> same o x z) by (intros z [<-|I]; auto).
      change (x :: g1 ++ r1) with ((x :: g1) ++ r1). change (y :: g2 ++ r2) with ((y :: g2) ++ r2). rewrite flat_map_app. f_equal.
      + apply flat_map_ext_in. intros a I. unfold row. rewrite filter_app, filter_all, filter_none, app_nil_r; [reflexivity| |].
        * intros z J'. apply sameb_false. intros (_ & Q). assert (join_le o (key2 o z) (key1 o x) = true); [|now rewrite N2 in *].
          apply (le_trans _ (key1 o a)); [exact Q|]. apply (le_trans _ (key2 o y)); [apply (K1 a I)|apply SA].
        * intros z J'. apply sameb_iff. split.
          -- apply (le_trans _ (key2 o y)); [apply (K1 a I)|]. apply (le_trans _ (key1 o x)); [apply SA|apply (K2 z J')].
          -- apply (le_trans _ (key1 o x)); [apply (K2 z J')|]. apply (le_trans _ (key2 o y)); [apply SA|apply (K1 a I)].
      + apply flat_map_ext_in. intros a I. unfold row. rewrite filter_app, (filter_none (sameb a) (y :: g2)); [reflexivity|].
        intros z J'. apply sameb_false. intros (Q & _). assert (join_le o (key1 o a) (key2 o y) = true); [|now rewrite N1 in *].
        apply (le_trans _ (key2 o z)); [exact Q|]. apply (le_trans _ (key1 o x)); [apply (K2 z J')|apply SA].
  Qed.

  (** A run and what follows it *)
  Lemma run_exists (P : string -> Prop) (D : forall z, P z \/ ~ P z) l : exists g r, l = g ++ r /\ Forall P g /\ head_not P r.
  Proof.
    induction l as [|x l (g & r & -> & G & H)]; [exists [], []; repeat split; constructor|]. destruct (D x) as [Q|Q].
    - exists (x :: g), r. repeat split; [now constructor|exact H].
    - exists [], (x :: g ++ r). repeat split; [constructor|exact Q].
  Qed.
  Lemma run_unique (P : string -> Prop) g r g' r' : g ++ r = g' ++ r' -> Forall P g -> head_not P r -> Forall P g' -> head_not P r' -> g = g' /\ r = r'.
  Proof.
    revert g'. induction g as [|x g IH]; intros [|x' g'] E G H G' H'; cbn in E.
    - auto.
    - subst r. inversion G'; subst. now destruct H.
    - subst r'. inversion G; subst. now destruct H'.
    - injection E as <- E. inversion G; inversion G'; subst. destruct (IH g' E) as (-> & ->); auto.
  Qed.
  Lemma same_dec x y : same o x y \/ ~ same o x y.
  Proof. destruct (sameb x y) eqn:E; [left; now apply sameb_iff|right]. intros H. apply sameb_iff in H. congruence. Qed.
  Lemma joins_exists l1 l2 : exists out, joins o l1 l2 out.
  Proof.
    remember (length l1 + length l2) as n eqn:N. assert (L : length l1 + length l2 <= n) by lia. clear N. revert l1 l2 L.
    induction n as [|n IH]; intros l1 l2 L.
    - destruct l1; [|cbn in L; lia]. eexists. apply join_end1.
    - destruct l1 as [|x l1]; [eexists; apply join_end1|]. destruct l2 as [|y l2]; [eexists; apply join_end2|]. cbn in L.
      destruct (join_le o (key1 o x) (key2 o y)) eqn:E1.
      + destruct (join_le o (key2 o y) (key1 o x)) eqn:E2.
        * destruct (run_exists (fun z => same o z y) (fun z => same_dec z y) l1) as (g1 & r1 & -> & G1 & H1).
          destruct (run_exists (same o x) (same_dec x) l2) as (g2 & r2 & -> & G2 & H2). rewrite !app_length in L.
          destruct (IH r1 r2) as (out & J); [lia|]. eexists. apply join_runs; eauto. now split.
        * destruct (IH l1 (y :: l2)) as (out & J); [cbn; lia|]. eexists. apply join_pass1; [now split|exact J].
      + destruct (IH (x :: l1) l2) as (out & J); [cbn; lia|]. eexists. apply join_pass2; [|exact J]. split; [now apply not_le|exact E1].
  Qed.
  Lemma joins_unique l1 l2 out out' : joins o l1 l2 out -> joins o l1 l2 out' -> out = out'.
  Proof.
    intros J. revert out'. induction J as [l2|l1|x l1 y l2 out L J IH|x l1 y l2 out L J IH|x g1 r1 y g2 r2 out SA G1 H1 G2 H2 J IH]; intros out' J'.
    - inversion J'; subst; reflexivity.
    - inversion J'; subst; reflexivity.
    - inversion J' as [| |? ? ? ? ? L' K|? ? ? ? ? L' K|? ? ? ? ? ? ? SA' G1' H1' G2' H2' K]; subst.
      + now rewrite (IH _ K).
      + destruct L, L'. congruence.
      + destruct L, SA'. congruence.
    - inversion J' as [| |? ? ? ? ? L' K|? ? ? ? ? L' K|? ? ? ? ? ? ? SA' G1' H1' G2' H2' K]; subst.
      + destruct L, L'. congruence.
      + now rewrite (IH _ K).
      + destruct L, SA'. congruence.
    - inversion J' as [| |? ? ? ? ? L' K|? ? ? ? ? L' K|? h1 s1 ? h2 s2 ? SA' G1' H1' G2' H2' K]; subst.
      + destruct L', SA. congruence.
      + destruct L', SA. congruence.
      + destruct (run_unique _ _ _ _ _ H0 G1' H1' G1 H1) as (-> & ->). destruct (run_unique _ _ _ _ _ H4 G2' H2' G2 H2) as (-> & ->). now rewrite (IH _ K).
  Qed.
End Join.

(** There is exactly one output. *)
Theorem C92_join_one : forall o l1 l2, order_ok o -> exists! out, joins o l1 l2 out.
Proof.
  intros o l1 l2 OK. destruct (joins_exists o OK l1 l2) as (out & J). exists out. split; [exact J|]. intros out' J'. eapply joins_unique; eauto.
Qed.
Print Assumptions C92_join_one.

(** Right, wherever the first file is cut, unless lines of the second file without partner are asked for. *)
Theorem C92_join : forall o l l' l2 a b out, order_ok o -> (forall y, alone2 o y = []) ->
  sorted_on o (key1 o) (l ++ l') -> sorted_on o (key2 o) l2 ->
  joins o l l2 a -> joins o l' l2 b -> joins o (l ++ l') l2 out -> out = a ++ b.
Proof.
  intros o l l' l2 a b out OK A S S2 JA JB J.
  assert (P : sorted_on o (key1 o) l /\ sorted_on o (key1 o) l').
  { clear - S. induction l as [|x l IH]; [split; [constructor|exact S]|]. cbn in S. inversion S as [|? ? S' F]; subst. destruct (IH S') as (P & Q).
    split; [|exact Q]. constructor; [exact P|]. now apply Forall_app in F as (F & _). }
  rewrite (joins_rows o OK _ _ _ A J S S2), (joins_rows o OK _ _ _ A JA (proj1 P) S2), (joins_rows o OK _ _ _ A JB (proj2 P) S2). apply flat_map_app.
Qed.
Print Assumptions C92_join.

(** Wrong for parts of the second file: two lines of each file with the same key, the second file cut between its
    lines. *)
Theorem C92_join_second_refuted : forall o x x' y y' a b out, order_ok o ->
  same o x y -> same o x y' -> same o x' y -> same o x' y' ->
  paired o x y' ++ paired o x' y <> paired o x' y ++ paired o x y' ->
  joins o [x; x'] [y] a -> joins o [x; x'] [y'] b -> joins o [x; x'] ([y] ++ [y']) out -> out <> a ++ b.
Proof.
  intros o x x' y y' a b out OK S1 S2 S3 S4 N JA JB J E.
  assert (KA : joins o [x; x'] [y] (paired o x y ++ paired o x' y)).
  { pose proof (join_runs o x [x'] [] y [] [] [] S1 (Forall_cons (P:=fun z => same o z y) _ S3 (Forall_nil _)) I (Forall_nil _) I (join_end1 o [])) as K.
    cbn in K. now rewrite !app_nil_r in K. }
  assert (KB : joins o [x; x'] [y'] (paired o x y' ++ paired o x' y')).
  { pose proof (join_runs o x [x'] [] y' [] [] [] S2 (Forall_cons (P:=fun z => same o z y') _ S4 (Forall_nil _)) I (Forall_nil _) I (join_end1 o [])) as K.
    cbn in K. now rewrite !app_nil_r in K. }
  assert (KO : joins o [x; x'] ([y] ++ [y']) ((paired o x y ++ paired o x y') ++ paired o x' y ++ paired o x' y')).
  { pose proof (join_runs o x [x'] [] y [y'] [] [] S1 (Forall_cons (P:=fun z => same o z y) _ S3 (Forall_nil _)) I (Forall_cons (P:=same o x) _ S2 (Forall_nil _)) I (join_end1 o [])) as K.
    cbn in K. now rewrite !app_nil_r in K. }
  rewrite (joins_unique o _ _ _ _ JA KA), (joins_unique o _ _ _ _ JB KB), (joins_unique o _ _ _ _ J KO) in E.
  apply N. rewrite <- !app_assoc in E. apply app_inv_head in E. rewrite !app_assoc in E. now apply app_inv_tail in E.
Qed.
Print Assumptions C92_join_second_refuted.
(** Wrong if lines of the second file without partner are printed: with two lines in each file, the first file cut
    between its lines, each part misses the partner of one line. *)
Theorem C92_join_alone_refuted : forall o x x' y y' a b out, order_ok o ->
  same o x y -> same o x' y' -> before o (key1 o x) (key1 o x') ->
  alone2 o y ++ alone2 o y' <> [] ->
  joins o [x] [y; y'] a -> joins o [x'] [y; y'] b -> joins o ([x] ++ [x']) [y; y'] out -> out <> a ++ b.
Proof.
  intros o x x' y y' a b out OK S1 S2 L N JA JB J E.
  assert (N2 : ~ same o x y').
  { intros (_ & Q). destruct L as (_ & L). rewrite (proj2 OK _ (key2 o y') _) in L; [discriminate|apply S2|exact Q]. }
  assert (N1 : ~ same o x' y).
  { intros (Q & _). destruct L as (_ & L). rewrite (proj2 OK _ (key2 o y) _) in L; [discriminate|exact Q|apply S1]. }
  assert (B : before o (key2 o y) (key1 o x')).
  { split; [apply (proj2 OK _ (key1 o x)); [apply S1|apply L]|]. destruct (join_le o (key1 o x') (key2 o y)) eqn:Q; [|reflexivity].
    destruct L as (_ & L). rewrite (proj2 OK _ (key2 o y) _) in L; [discriminate|exact Q|apply S1]. }
  assert (KA : joins o [x] [y; y'] (paired o x y ++ alone2 o y')).
  { pose proof (join_runs o x [] [] y [] [y'] _ S1 (Forall_nil _) I (Forall_nil _) N2 (join_end1 o [y'])) as K. cbn in K. now rewrite !app_nil_r in K. }
  assert (KB : joins o [x'] [y; y'] (alone2 o y ++ paired o x' y')).
  { apply join_pass2; [exact B|]. pose proof (join_runs o x' [] [] y' [] [] _ S2 (Forall_nil _) I (Forall_nil _) I (join_end1 o [])) as K. cbn in K. now rewrite !app_nil_r in K. }
  assert (KO : joins o ([x] ++ [x']) [y; y'] (paired o x y ++ paired o x' y')).
  { pose proof (join_runs o x' [] [] y' [] [] _ S2 (Forall_nil _) I (Forall_nil _) I (join_end1 o [])) as K.
    pose proof (join_runs o x [] [x'] y [] [y'] _ S1 (Forall_nil _) N1 (Forall_nil _) N2 K) as K'. cbn in K'. now rewrite !app_nil_r in K'. }
  rewrite (joins_unique o _ _ _ _ JA KA), (joins_unique o _ _ _ _ JB KB), (joins_unique o _ _ _ _ J KO) in E.
  apply N. apply (f_equal (@length _)) in E. rewrite !app_length in E. destruct (alone2 o y), (alone2 o y'); cbn in *; [reflexivity|lia..].
Qed.
Print Assumptions C92_join_alone_refuted.
(** The first character is the key; with and without -a 2 *)
Definition first_field (a2 : bool) : join_oracle :=
  mkJoinOracle (substring 0 1) (substring 0 1) bytes_le
    (fun x y => [x +++ substring 1 (String.length y) y]) (fun _ => []) (fun y => if a2 then [y] else []).
Lemma first_field_ok a2 : order_ok (first_field a2).
Proof. split; [exact bytes_total|exact bytes_trans]. Qed.
Example C92_join_case :
  joins (first_field false) (["a1"; "b1"] ++ ["b2"; "d1"]) ["a3"; "b3"; "b4"; "c3"] (["a13"; "b13"; "b14"] ++ ["b23"; "b24"]) /\
  joins (first_field false) ["a1"; "b1"] ["a3"; "b3"; "b4"; "c3"] ["a13"; "b13"; "b14"] /\
  joins (first_field false) ["b2"; "d1"] ["a3"; "b3"; "b4"; "c3"] ["b23"; "b24"] /\
  (forall a b out, joins (first_field false) ["b1"; "b2"] ["b3"] a -> joins (first_field false) ["b1"; "b2"] ["b4"] b ->
     joins (first_field false) ["b1"; "b2"] (["b3"] ++ ["b4"]) out -> out <> a ++ b) /\
  (forall a b out, joins (first_field true) ["a1"] ["a3"; "b3"] a -> joins (first_field true) ["b1"] ["a3"; "b3"] b ->
     joins (first_field true) (["a1"] ++ ["b1"]) ["a3"; "b3"] out -> out <> a ++ b).
Proof.
  assert (E : exists out a b, joins (first_field false) (["a1"; "b1"] ++ ["b2"; "d1"]) ["a3"; "b3"; "b4"; "c3"] out /\
    joins (first_field false) ["a1"; "b1"] ["a3"; "b3"; "b4"; "c3"] a /\ joins (first_field false) ["b2"; "d1"] ["a3"; "b3"; "b4"; "c3"] b).
  { destruct (joins_exists _ (first_field_ok false) (["a1"; "b1"] ++ ["b2"; "d1"]) ["a3"; "b3"; "b4"; "c3"]) as (out & J).
    destruct (joins_exists _ (first_field_ok false) ["a1"; "b1"] ["a3"; "b3"; "b4"; "c3"]) as (a & JA).
    destruct (joins_exists _ (first_field_ok false) ["b2"; "d1"] ["a3"; "b3"; "b4"; "c3"]) as (b & JB). eauto 8. }
  destruct E as (out & a & b & J & JA & JB).
  assert (S1 : sorted_on (first_field false) (substring 0 1) (["a1"; "b1"] ++ ["b2"; "d1"])) by (repeat constructor).
  assert (S2 : sorted_on (first_field false) (substring 0 1) ["a3"; "b3"; "b4"; "c3"]) by (repeat constructor).
  assert (SA : sorted_on (first_field false) (substring 0 1) ["a1"; "b1"]) by (repeat constructor).
  assert (SB : sorted_on (first_field false) (substring 0 1) ["b2"; "d1"]) by (repeat constructor).
  pose proof (joins_rows _ (first_field_ok false) _ _ _ (fun _ => eq_refl) J S1 S2) as EO.
  pose proof (joins_rows _ (first_field_ok false) _ _ _ (fun _ => eq_refl) JA SA S2) as EA.
  pose proof (joins_rows _ (first_field_ok false) _ _ _ (fun _ => eq_refl) JB SB S2) as EB.
  vm_compute in EO, EA, EB. subst out a b. split; [exact J|]. split; [exact JA|]. split; [exact JB|]. split.
  - intros a b out. apply C92_join_second_refuted; try (split; reflexivity); [apply first_field_ok|discriminate].
  - intros a b out. apply C92_join_alone_refuted; try (split; reflexivity); [apply first_field_ok|discriminate].
Qed.
