(** * Facts about objects and references: who is written, who is reached *)
From Coq Require Import Lia.
Require Import Verif.PyBase Verif.JsonData Verif.Parser Verif.Access Verif.IOInfo Verif.IOVars
  Verif.Transformers Verif.ParaTypes Verif.Heap Verif.SpecHeap.

(** ** Lists *)
Lemma update_length {A} (l : list A) n x : length (update l n x) = length l.
Proof. revert n; induction l; intros [|n]; cbn; auto. Qed.
Lemma update_same {A} (l : list A) n x : n < length l -> nth_error (update l n x) n = Some x.
Proof. revert n; induction l; intros [|n] H; cbn in *; try lia; auto. apply IHl; lia. Qed.
Lemma update_other {A} (l : list A) n x m : m <> n -> nth_error (update l n x) m = nth_error l m.
Proof.
  revert n m; induction l; intros [|n] [|m] H; cbn; auto; try congruence.
Qed.
Lemma nth_error_snoc {A} (l : list A) x n :
  nth_error (l ++ [x]) n = if Nat.eqb n (length l) then Some x else nth_error l n.
Proof.
  destruct (Nat.eqb_spec n (length l)) as [->|N].
  - rewrite nth_error_app2 by lia. now rewrite Nat.sub_diag.
  - destruct (Nat.lt_ge_cases n (length l)).
    + now rewrite nth_error_app1.
    + rewrite (proj2 (nth_error_None (l ++ [x]) n)) by (rewrite app_length; cbn; lia).
      symmetry; apply nth_error_None; lia.
Qed.
Lemma slots_refill o vs : incl (slots (refill o vs)) vs.
Proof.
  destruct o; cbn; intros v H; auto.
  - apply in_map_iff in H as ((k & w) & <- & H). now apply in_combine_r in H.
  - apply in_map_iff in H as ((k & w) & <- & H). now apply in_combine_r in H.
Qed.
Lemma slots_refill_nil o : slots (refill o []) = [].
Proof. destruct o; cbn; auto; destruct (map fst l) || destruct (map fst attrs); auto. Qed.

Lemma assoc_s_in l k v : assoc_s l k = Some v -> In v (map snd l).
Proof.
  induction l as [|(k' & w) l IH]; cbn; [discriminate|].
  destruct (String.eqb k' k); intros H; [injection H; auto|auto].
Qed.
Lemma assoc_z_in l k v : assoc_z l k = Some v -> In v (map snd l).
Proof.
  induction l as [|(k' & w) l IH]; cbn; [discriminate|].
  destruct (Z.eqb k' k); intros H; [injection H; auto|auto].
Qed.
Lemma set_s_in l k v w : In w (map snd (set_s l k v)) -> w = v \/ In w (map snd l).
Proof.
  induction l as [|(k' & x) l IH]; cbn; [intros [<-|[]]; auto|].
  destruct (String.eqb k' k); cbn; intros [<-|H]; auto. destruct (IH H); auto.
Qed.
Lemma set_z_in l k v w : In w (map snd (set_z l k v)) -> w = v \/ In w (map snd l).
Proof.
  induction l as [|(k' & x) l IH]; cbn; [intros [<-|[]]; auto|].
  destruct (Z.eqb k' k); cbn; intros [<-|H]; auto. destruct (IH H); auto.
Qed.
Lemma del_z_in l k w : In w (map snd (del_z l k)) -> In w (map snd l).
Proof.
  unfold del_z. intros H. apply in_map_iff in H as (p & <- & H). apply filter_In in H as (H & _).
  now apply in_map.
Qed.
Lemma assoc_set_s l k v k' : assoc_s (set_s l k v) k' = if String.eqb k k' then Some v else assoc_s l k'.
Proof.
  induction l as [|(a & w) l IH]; cbn; auto.
  destruct (String.eqb_spec a k) as [->|N]; cbn.
  - now destruct (String.eqb k k').
  - rewrite IH. destruct (String.eqb_spec a k') as [->|N']; auto.
    destruct (String.eqb_spec k k') as [->|]; congruence.
Qed.

Lemma valid_mono h h' v : length h <= length h' -> valid h v -> valid h' v.
Proof. destruct v; cbn; auto; lia. Qed.

Lemma Forall_concat A (P : A -> Prop) ls : Forall (Forall P) ls -> Forall P (List.concat ls).
Proof. induction 1; cbn; auto. apply Forall_app; auto. Qed.

(** ** Regions
    [N]: the number of objects at the start.  [strict]: also no reference from a new object
    to an old one. *)
Section Region.
  Variable strict : bool.
  Variable h0 : heap.
  Let N := length h0.

  Definition vnew (v : hval) : Prop := match v with HRef l => N <= l | _ => True end.
  Definition good (h : heap) (v : hval) : Prop := valid h v /\ (strict = true -> vnew v).
  Definition fresh (h : heap) (v : hval) : Prop := valid h v /\ vnew v.
  Definition map_new (o : obj) : Prop :=
    match o with
    | OInst _ attrs => forall v, assoc_s attrs "access_map" = Some v -> vnew v
    | _ => True
    end.
  Definition new_ok (o : obj) : Prop := (strict = true -> Forall vnew (slots o)) /\ map_new o.
  Definition inv (h : heap) : Prop :=
    unchanged h0 h /\ N <= length h /\
    forall l o, nth_error h l = Some o -> Forall (valid h) (slots o) /\ (N <= l -> new_ok o).

  Lemma good_mono h h' v : length h <= length h' -> good h v -> good h' v.
  Proof. intros L (A & B); split; auto. eapply valid_mono; eauto. Qed.
  Lemma fresh_mono h h' v : length h <= length h' -> fresh h v -> fresh h' v.
  Proof. intros L (A & B); split; auto. eapply valid_mono; eauto. Qed.
  Lemma fresh_good h v : fresh h v -> good h v.
  Proof. intros (A & B); split; auto. Qed.
  Lemma Forall_good_mono h h' l : length h <= length h' -> Forall (good h) l -> Forall (good h') l.
  Proof. intros L; apply Forall_impl; intros a; now apply good_mono. Qed.
  Lemma Forall_fresh_good h l : Forall (fresh h) l -> Forall (good h) l.
  Proof. apply Forall_impl; intros a; apply fresh_good. Qed.

  Definition wp {A} (m : hm A) (h : heap) (Q : heap -> A -> Prop) : Prop :=
    inv h ->
    match m h with
    | (h', Ok a) => inv h' /\ length h <= length h' /\ Q h' a
    | (h', Raise _) => inv h' /\ length h <= length h'
    end.

  Lemma wp_ret A (a : A) h (Q : heap -> A -> Prop) : Q h a -> wp (hret a) h Q.
  Proof. intros H I; cbn; auto. Qed.
  Lemma wp_throw A e h (Q : heap -> A -> Prop) : wp (hthrow e) h Q.
  Proof. intros I; cbn; auto. Qed.
  Lemma wp_lift A (r : result A) h (Q : heap -> A -> Prop) : (forall a, r = Ok a -> Q h a) -> wp (hlift r) h Q.
  Proof. intros H I; unfold hlift; destruct r; auto. Qed.
  Lemma wp_bind A B (m : hm A) (f : A -> hm B) h Q :
    wp m h (fun h' a => length h <= length h' -> wp (f a) h' Q) -> wp (hbind m f) h Q.
  Proof.
    intros H I. unfold hbind. specialize (H I). destruct (m h) as (h' & [a|e]); auto.
    destruct H as (I' & L & H). specialize (H L I'). destruct (f a h') as (h'' & [b|e]).
    - destruct H as (I'' & L' & H); split; [auto|split; [lia|auto]].
    - destruct H as (I'' & L'); split; auto; lia.
  Qed.
  Lemma wp_mono A (m : hm A) h (Q Q' : heap -> A -> Prop) :
    (forall h' a, length h <= length h' -> Q h' a -> Q' h' a) -> wp m h Q -> wp m h Q'.
  Proof.
    intros H W I. specialize (W I). destruct (m h) as (h' & [a|e]); auto.
    destruct W as (I' & L & W). split; [auto|split; [auto|now apply H]].
  Qed.

  Lemma inv_snoc h o : inv h -> Forall (valid h) (slots o) -> new_ok o -> inv (h ++ [o]).
  Proof.
    intros (U & L & I) V W. repeat split.
    - intros l Hl. rewrite nth_error_app1 by (fold N in Hl; lia). now apply U.
    - rewrite app_length; cbn; fold N; lia.
    - rewrite nth_error_snoc in H. destruct (Nat.eqb_spec l (length h)).
      + injection H as <-. eapply Forall_impl; [|exact V]. intros a. apply valid_mono. rewrite app_length; lia.
      + apply I in H as (H & _). eapply Forall_impl; [|exact H]. intros a. apply valid_mono. rewrite app_length; lia.
    - rewrite nth_error_snoc in H. destruct (Nat.eqb_spec l (length h)).
      + injection H as <-. apply W.
      + apply I in H as (_ & H). now apply H.
    - rewrite nth_error_snoc in H. destruct (Nat.eqb_spec l (length h)).
      + injection H as <-. apply W.
      + apply I in H as (_ & H). now apply H.
  Qed.
  Lemma inv_update h l o : inv h -> N <= l -> Forall (valid h) (slots o) -> new_ok o -> inv (update h l o).
  Proof.
    intros (U & L & I) Hl V W. repeat split.
    - intros k Hk. rewrite update_other by (fold N in Hk; lia). now apply U.
    - now rewrite update_length.
    - destruct (Nat.eq_dec l0 l) as [->|D].
      + destruct (Nat.lt_ge_cases l (length h)).
        * rewrite update_same in H by auto. injection H as <-.
          eapply Forall_impl; [|exact V]. intros a; apply valid_mono; now rewrite update_length.
        * rewrite (proj2 (nth_error_None _ _)) in H by (now rewrite update_length). discriminate.
      + rewrite update_other in H by auto. apply I in H as (H & _).
        eapply Forall_impl; [|exact H]. intros a; apply valid_mono; now rewrite update_length.
    - destruct (Nat.eq_dec l0 l) as [->|D].
      + destruct (Nat.lt_ge_cases l (length h)).
        * rewrite update_same in H by auto. injection H as <-. apply W.
        * rewrite (proj2 (nth_error_None _ _)) in H by (now rewrite update_length). discriminate.
      + rewrite update_other in H by auto. apply I in H as (_ & H). now apply H.
    - destruct (Nat.eq_dec l0 l) as [->|D].
      + destruct (Nat.lt_ge_cases l (length h)).
        * rewrite update_same in H by auto. injection H as <-. apply W.
        * rewrite (proj2 (nth_error_None _ _)) in H by (now rewrite update_length). discriminate.
      + rewrite update_other in H by auto. apply I in H as (_ & H). now apply H.
  Qed.

  Lemma good_slots h o : Forall (good h) (slots o) -> Forall (valid h) (slots o) /\ (strict = true -> Forall vnew (slots o)).
  Proof.
    intros H; split; [|intros S]; eapply Forall_impl; [|exact H|..|exact H]; intros a (A & B); auto.
  Qed.
  Lemma wp_alloc h o :
    Forall (good h) (slots o) -> map_new o -> wp (alloc o) h (fun h' v => fresh h' v).
  Proof.
    intros G M I. cbn. apply good_slots in G as (V & W). split; [|split].
    - apply inv_snoc; auto. split; auto.
    - rewrite app_length; lia.
    - split; cbn; [rewrite app_length; cbn; lia|]. apply I.
  Qed.
  Lemma wp_get_obj h x :
    good h x ->
    wp (get_obj x) h (fun h' p => h' = h /\ x = HRef (fst p) /\ Forall (good h) (slots (snd p)) /\
                                  (N <= fst p -> map_new (snd p))).
  Proof.
    intros (V & W) I. destruct x; cbn; auto. destruct (nth_error h l) as [o|] eqn:E; auto.
    split; [auto|]. split; [auto|]. split; [auto|]. split; [auto|].
    destruct I as (U & L & I). destruct (I _ _ E) as (V' & W'). split.
    - apply Forall_forall. intros v Hv. split.
      + rewrite Forall_forall in V'; auto.
      + intros S. destruct (W' (W S)) as (W'' & _). specialize (W'' S). rewrite Forall_forall in W''; auto.
    - intros H. now apply W'.
  Qed.
  Lemma wp_put_obj h l o :
    N <= l -> Forall (good h) (slots o) -> map_new o -> wp (put_obj l o) h (fun _ _ => True).
  Proof.
    intros Hl G M I. cbn. apply good_slots in G as (V & W). split; [|split; auto].
    - apply inv_update; auto. split; auto.
    - now rewrite update_length.
  Qed.

  Ltac bind := apply wp_bind.
  Lemma wp_get_attr h x name :
    good h x ->
    wp (get_attr x name) h (fun h' v => h' = h /\ good h v /\ (name = "access_map" -> vnew x -> vnew v)).
  Proof.
    intros G. unfold get_attr. bind. eapply wp_mono; [|now apply wp_get_obj].
    intros h' (l & o) _ (-> & -> & S & M) _. cbn in *. destruct o; try apply wp_throw.
    destruct (assoc_s attrs name) as [v|] eqn:E; [|apply wp_throw].
    apply wp_ret. split; [auto|]. split.
    - rewrite Forall_forall in S. apply S. now apply assoc_s_in in E.
    - intros -> Hn. eapply M; eauto.
  Qed.
  Lemma wp_set_attr h x name v :
    fresh h x -> good h v -> (name = "access_map" -> vnew v) ->
    wp (set_attr x name v) h (fun _ _ => True).
  Proof.
    intros F G H. unfold set_attr. bind. eapply wp_mono; [|now apply wp_get_obj, fresh_good].
    intros h' (l & o) _ (-> & -> & S & M) _. cbn in *. destruct o; try apply wp_throw.
    destruct F as (F & F'). apply wp_put_obj; auto.
    - apply Forall_forall. cbn. intros w Hw. apply set_s_in in Hw as [->|Hw]; auto.
      rewrite Forall_forall in S. now apply S.
    - intros w. rewrite assoc_set_s. destruct (String.eqb_spec name "access_map").
      + intros E; injection E as <-. auto.
      + apply M; auto.
  Qed.
  Lemma wp_get_cmd_name h x : good h x -> wp (get_cmd_name x) h (fun h' _ => h' = h).
  Proof.
    intros G. unfold get_cmd_name. bind. eapply wp_mono; [|now apply wp_get_attr].
    intros h' v _ (-> & _) _. destruct v; try apply wp_throw. now apply wp_ret.
  Qed.
  Lemma wp_items h x : good h x -> wp (items x) h (fun h' l => h' = h /\ Forall (good h) l).
  Proof.
    intros G. unfold items. bind. eapply wp_mono; [|now apply wp_get_obj].
    intros h' (l & o) _ (-> & -> & S & M) _. cbn in *. destruct o; try apply wp_throw. now apply wp_ret.
  Qed.
  Lemma wp_entries h x : good h x ->
    wp (entries x) h (fun h' p => h' = h /\ x = HRef (fst p) /\ Forall (good h) (map snd (snd p))).
  Proof.
    intros G. unfold entries. bind. eapply wp_mono; [|now apply wp_get_obj].
    intros h' (l & o) _ (-> & -> & S & M) _. cbn in *. destruct o; try apply wp_throw. now apply wp_ret.
  Qed.
  Lemma wp_dict_get h d k : good h d -> wp (dict_get d k) h (fun h' v => h' = h /\ good h v).
  Proof.
    intros G. unfold dict_get. bind. eapply wp_mono; [|now apply wp_entries].
    intros h' (l & es) _ (-> & -> & S) _. cbn in *. destruct (assoc_z es k) eqn:E; [|apply wp_throw].
    apply wp_ret. split; auto. rewrite Forall_forall in S. apply S. now apply assoc_z_in in E.
  Qed.
  Lemma wp_dict_has h d k : good h d -> wp (dict_has d k) h (fun h' _ => h' = h).
  Proof.
    intros G. unfold dict_has. bind. eapply wp_mono; [|now apply wp_entries].
    intros h' (l & es) _ (-> & -> & S) _. now apply wp_ret.
  Qed.
  Lemma wp_dict_set h d k v : fresh h d -> good h v -> wp (dict_set d k v) h (fun _ _ => True).
  Proof.
    intros F G. unfold dict_set. bind. eapply wp_mono; [|now apply wp_entries, fresh_good].
    intros h' (l & es) _ (-> & -> & S) _. destruct F as (F & F'). apply wp_put_obj; cbn; auto.
    apply Forall_forall. intros w Hw. apply set_z_in in Hw as [->|Hw]; auto. rewrite Forall_forall in S; auto.
  Qed.
  Lemma wp_dict_pop h d k : fresh h d -> wp (dict_pop d k) h (fun h' v => good h' v).
  Proof.
    intros F. unfold dict_pop. bind. eapply wp_mono; [|now apply wp_entries, fresh_good].
    intros h' (l & es) _ (-> & -> & S) _. destruct F as (F & F').
    destruct (assoc_z es k) eqn:E; [|apply wp_throw]. cbn in S. bind.
    eapply wp_mono; [|apply wp_put_obj; cbn; auto].
    - intros h' _ L _ L'. apply wp_ret. eapply good_mono; eauto. rewrite Forall_forall in S.
      apply S. now apply assoc_z_in in E.
    - apply Forall_forall. intros w Hw. apply del_z_in in Hw. rewrite Forall_forall in S; auto.
  Qed.
  Lemma wp_list_pop0 h x : fresh h x -> wp (list_pop0 x) h (fun h' v => good h' v).
  Proof.
    intros F. unfold list_pop0. bind. eapply wp_mono; [|now apply wp_get_obj, fresh_good].
    intros h' (l & o) _ (-> & -> & S & M) _. cbn in *. destruct o; try apply wp_throw.
    destruct l0 as [|v vs]; [apply wp_throw|]. cbn in S. apply Forall_cons_iff in S as (S1 & S2).
    bind. eapply wp_mono; [|apply wp_put_obj; cbn; auto; apply F].
    intros h' _ L _ L'. apply wp_ret. eapply good_mono; eauto.
  Qed.
  Lemma wp_class_of h x : wp (class_of x) h (fun h' _ => h' = h).
  Proof. intros I. cbn. auto. Qed.
  Lemma wp_as_int h x : wp (as_int x) h (fun h' v => h' = h /\ x = HInt v).
  Proof. intros I. destruct x; cbn; auto. Qed.

  (** *** Copies *)
  Definition memo_ok (h : heap) (m : memo) : Prop := forall a b, memo_get m a = Some b -> N <= b /\ b < length h.
  Lemma memo_ok_mono h h' m : length h <= length h' -> memo_ok h m -> memo_ok h' m.
  Proof. intros L M a b E. apply M in E. lia. Qed.
  Definition copy_ok (st : cstate) (v : hval) (r : cstate * option hval) : Prop :=
    inv (fst (fst r)) /\ length (fst st) <= length (fst (fst r)) /\ memo_ok (fst (fst r)) (snd (fst r)) /\
    match snd r with Some w => fresh (fst (fst r)) w | None => True end.
  Lemma copy_all_ok f vs :
    (forall v st, inv (fst st) -> memo_ok (fst st) (snd st) -> valid (fst st) v -> copy_ok st v (f v st)) ->
    forall st, inv (fst st) -> memo_ok (fst st) (snd st) -> Forall (valid (fst st)) vs ->
    let r := copy_all f vs st in
    inv (fst (fst r)) /\ length (fst st) <= length (fst (fst r)) /\ memo_ok (fst (fst r)) (snd (fst r)) /\
    match snd r with Some ws => Forall (fresh (fst (fst r))) ws | None => True end.
  Proof.
    intros F. induction vs as [|v vs IH]; intros st I M V.
    - cbn. split; [auto|split; [auto|split; auto]].
    - apply Forall_cons_iff in V as (V1 & V2).
      assert (C := F v st I M V1). cbn. destruct (f v st) as (st' & [w|]); unfold copy_ok in C; cbn in C.
      + destruct C as (I' & L' & M' & W'). assert (V2' : Forall (valid (fst st')) vs).
        { eapply Forall_impl; [|exact V2]. intros a; now apply valid_mono. }
        specialize (IH st' I' M' V2'). destruct (copy_all f vs st') as (st'' & [ws|]); cbn in *.
        * destruct IH as (I'' & L'' & M'' & W''). split; [auto|]. split; [lia|]. split; [auto|].
          constructor; auto. eapply fresh_mono; eauto.
        * destruct IH as (I'' & L'' & M'' & _). split; [auto|]. split; [lia|]. auto.
      + exact C.
  Qed.
  Lemma copy_val_ok n : forall v st, inv (fst st) -> memo_ok (fst st) (snd st) -> valid (fst st) v -> copy_ok st v (copy_val n v st).
  Proof.
    induction n as [|n IH]; intros v (h & m) I M V; cbn [fst snd] in *.
    - destruct v; cbn; unfold copy_ok, fresh; cbn; try (split; [auto|split; [auto|split; [auto|split; auto]]]).
      destruct (memo_get m l) eqn:E; cbn; (split; [auto|split; [auto|split; [auto|]]]); auto. apply M in E; split; lia.
    - destruct v; cbn [copy_val]; try (unfold copy_ok, fresh; cbn; (split; [auto|split; [auto|split; [auto|split; auto]]])).
      cbn [fst snd]. destruct (memo_get m l) eqn:E.
      + unfold copy_ok, fresh; cbn. (split; [auto|split; [auto|split; [auto|]]]). apply M in E; split; lia.
      + destruct (nth_error h l) as [o|] eqn:E'.
        2:{ unfold copy_ok; cbn. (split; [auto|split; [auto|split; auto]]). }
        assert (A : inv (h ++ [refill o []])).
        { apply inv_snoc; auto; [|split]; rewrite ?slots_refill_nil; auto.
          destruct o; cbn; auto. destruct (map fst attrs); cbn; congruence. }
        assert (B : memo_ok (h ++ [refill o []]) ((l, length h) :: m)).
        { intros a b. cbn. rewrite app_length. cbn. destruct (Nat.eqb l a).
          - intros Q; injection Q as <-. split; [apply I|lia].
          - intros Q; apply M in Q; lia. }
        assert (C : Forall (valid (h ++ [refill o []])) (slots o)).
        { destruct I as (_ & _ & I). apply I in E' as (E' & _). eapply Forall_impl; [|exact E'].
          intros a; apply valid_mono; rewrite app_length; lia. }
        assert (D := copy_all_ok (copy_val n) (slots o) IH (h ++ [refill o []], (l, length h) :: m) A B C).
        destruct (copy_all (copy_val n) (slots o) (h ++ [refill o []], (l, length h) :: m)) as ((h' & m') & [ws|]);
          cbn [fst snd] in D.
        * destruct D as (I' & L' & M' & W'). rewrite app_length in L'; cbn in L'.
          unfold copy_ok; cbn [fst snd]. split; [|split; [|split]].
          -- apply inv_update; auto; [apply I| |].
             ++ apply Forall_forall. intros w Hw. apply slots_refill in Hw. rewrite Forall_forall in W'.
                now apply W'.
             ++ assert (Z : Forall vnew (slots (refill o ws))).
                { apply Forall_forall. intros w Hw. apply slots_refill in Hw. rewrite Forall_forall in W'.
                  now apply W'. }
                split; auto. destruct (refill o ws) eqn:R; cbn; auto.
                intros w Hw. rewrite Forall_forall in Z. apply Z. cbn. now apply assoc_s_in in Hw.
          -- rewrite update_length; lia.
          -- eapply memo_ok_mono; [|exact M']. now rewrite update_length.
          -- split; cbn; [rewrite update_length; lia|apply I].
        * destruct D as (I' & L' & M' & _). rewrite app_length in L'; cbn in L'.
          unfold copy_ok; cbn [fst snd]. (split; [auto|split; [lia|split; auto]]).
  Qed.
  Lemma wp_deepcopy h v : valid h v -> wp (deepcopy v) h (fun h' w => fresh h' w).
  Proof.
    intros V I. unfold deepcopy.
    assert (C := copy_val_ok (S (length h)) v (h, []) I (fun a b H => ltac:(discriminate H)) V).
    destruct (copy_val (S (length h)) v (h, [])) as ((h' & m') & [w|]); unfold copy_ok in C; cbn [fst snd] in C.
    - split; [apply C|split; apply C].
    - split; apply C.
  Qed.
  Lemma wp_new_invocation h cls k cmd fl ol i o am :
    Forall (valid h) [fl; ol; i; o; am] ->
    wp (new_invocation cls k cmd fl ol i o am) h (fun h' v => fresh h' v).
  Proof.
    intros V. inversion_clear V as [|? ? V1 V']. inversion_clear V' as [|? ? V2 V].
    inversion_clear V as [|? ? V3 V']. inversion_clear V' as [|? ? V4 V]. inversion_clear V as [|? ? V5 _].
    unfold new_invocation.
    bind. eapply wp_mono; [|apply wp_deepcopy; exact V1]. intros h1 fl' L1 F1 _.
    bind. eapply wp_mono; [|apply wp_deepcopy; eapply valid_mono; [|exact V2]; lia]. intros h2 ol' L2 F2 _.
    bind. eapply wp_mono; [|apply wp_deepcopy; eapply valid_mono; [|exact V3]; lia]. intros h3 i' L3 F3 _.
    bind. eapply wp_mono; [|apply wp_deepcopy; eapply valid_mono; [|exact V4]; lia]. intros h4 o' L4 F4 _.
    bind. eapply wp_mono; [|apply wp_deepcopy; eapply valid_mono; [|exact V5]; lia]. intros h5 am' L5 F5 _.
    apply wp_alloc.
    - assert (G : Forall (good h5) [HStr cmd; fl'; ol'; i'; o'; am']).
      { apply Forall_fresh_good. constructor; [split; cbn; auto|].
        constructor; [eapply fresh_mono; [|exact F1]; lia|].
        constructor; [eapply fresh_mono; [|exact F2]; lia|].
        constructor; [eapply fresh_mono; [|exact F3]; lia|].
        constructor; [eapply fresh_mono; [|exact F4]; lia|].
        constructor; [exact F5|constructor]. }
      destruct k; cbn [app map snd slots]; auto. constructor; auto. split; cbn; auto.
    - destruct k; intros v E; cbn in E; injection E as <-; apply F5.
  Qed.

  (** *** Traversals *)
  Lemma wp_hmap A B (f : A -> hm B) (P : heap -> A -> Prop) (Q : heap -> B -> Prop) l :
    (forall h h' a, length h <= length h' -> P h a -> P h' a) ->
    (forall h h' b, length h <= length h' -> Q h b -> Q h' b) ->
    (forall h a, In a l -> P h a -> wp (f a) h Q) ->
    forall h, Forall (P h) l -> wp (hmap f l) h (fun h' r => Forall (Q h') r).
  Proof.
    intros MP MQ. induction l as [|x l IH]; intros F h V; cbn.
    - apply wp_ret; constructor.
    - apply Forall_cons_iff in V as (V1 & V2). bind. eapply wp_mono; [|apply F; [now left|exact V1]].
      intros h1 y L1 Y _. bind. eapply wp_mono; [|apply IH].
      + intros h2 ys L2 Ys _. apply wp_ret. constructor; eauto.
      + intros h' a Ha; apply F; now right.
      + eapply Forall_impl; [|exact V2]. eauto.
  Qed.
  Lemma wp_hiter A (f : A -> hm unit) (P : heap -> A -> Prop) l :
    (forall h h' a, length h <= length h' -> P h a -> P h' a) ->
    (forall h a, P h a -> wp (f a) h (fun _ _ => True)) ->
    forall h, Forall (P h) l -> wp (hiter f l) h (fun _ _ => True).
  Proof.
    intros MP F. induction l as [|x l IH]; intros h V; cbn.
    - now apply wp_ret.
    - apply Forall_cons_iff in V as (V1 & V2). bind. eapply wp_mono; [|apply F; exact V1].
      intros h1 y L1 Y _. apply IH. eapply Forall_impl; [|exact V2]. eauto.
  Qed.

  Definition fun_ok (hb : heap) (f : hval -> hm (list hval)) : Prop :=
    forall h v, length hb <= length h -> good h v -> wp (f v) h (fun h' r => Forall (good h') r).

  Lemma wp_visit_flag hb f x h :
    fun_ok hb f -> length hb <= length h -> good h x -> wp (visit_flag_h f x) h (fun h' v => good h' v).
  Proof.
    intros F L G. unfold visit_flag_h. bind. eapply wp_mono; [|apply wp_class_of].
    intros h' c _ -> _. destruct c as [c|]; [|now apply wp_ret].
    destruct (String.eqb c "OptionWithIO"); [|now apply wp_ret].
    bind. eapply wp_mono; [|now apply wp_get_attr]. intros h' a _ (-> & Ga & _) _.
    bind. eapply wp_mono; [|now apply F]. intros h1 r L1 R _.
    destruct r as [|y [|]]; try apply wp_throw. apply Forall_cons_iff in R as (Y & _).
    bind. eapply wp_mono; [|apply wp_get_attr; eapply good_mono; eauto].
    intros h2 n _ (-> & Gn & _) _. unfold new_option_with_io. eapply wp_mono; [|apply wp_alloc].
    - intros h' v _; apply fresh_good.
    - cbn. repeat constructor; auto; apply Gn || apply Y.
    - intros v E; cbn in E; discriminate.
  Qed.
  Lemma wp_visit_flags self f h :
    fresh h self -> fun_ok h f -> wp (visit_flags_h self f) h (fun _ _ => True).
  Proof.
    intros S F. unfold visit_flags_h.
    bind. eapply wp_mono; [|now apply wp_get_attr, fresh_good]. intros h' fl _ (-> & Gf & _) _.
    bind. eapply wp_mono; [|now apply wp_items]. intros h' l _ (-> & Gl) _.
    bind. eapply wp_mono.
    2:{ apply wp_hmap with (P := fun h' x => length h <= length h' /\ good h' x) (Q := good).
        - intros; split; [lia|eapply good_mono; eauto; apply H0].
        - intros; eapply good_mono; eauto.
        - intros h' a _ (La & Ga). eapply wp_visit_flag; eauto.
        - eapply Forall_impl; [|exact Gl]. intros; split; auto. }
    intros h1 r L1 R _. bind. eapply wp_mono; [|apply wp_alloc; [exact R|exact I]].
    intros h2 x L2 X _. eapply wp_mono; [|apply wp_set_attr].
    - auto.
    - eapply fresh_mono; [|exact S]; lia.
    - now apply fresh_good.
    - discriminate.
  Qed.
  Lemma wp_visit_operands self f h :
    fresh h self -> fun_ok h f -> wp (visit_operands_h self f) h (fun _ _ => True).
  Proof.
    intros S F. unfold visit_operands_h.
    bind. eapply wp_mono; [|now apply wp_get_attr, fresh_good]. intros h' fl _ (-> & Gf & _) _.
    bind. eapply wp_mono; [|now apply wp_items]. intros h' l _ (-> & Gl) _.
    bind. eapply wp_mono.
    2:{ apply wp_hmap with (P := fun h' x => length h <= length h' /\ good h' x)
                           (Q := fun h' r => Forall (good h') r).
        - intros; split; [lia|eapply good_mono; eauto; apply H0].
        - intros; eapply Forall_good_mono; eauto.
        - intros h' a _ (La & Ga). now apply F.
        - eapply Forall_impl; [|exact Gl]. intros; split; auto. }
    intros h1 r L1 R _. bind. eapply wp_mono; [|apply wp_alloc; [cbn; apply Forall_concat; exact R|exact I]].
    intros h2 x L2 X _. eapply wp_mono; [|apply wp_set_attr].
    - auto.
    - eapply fresh_mono; [|exact S]; lia.
    - now apply fresh_good.
    - discriminate.
  Qed.
  Lemma wp_visit_implicit self f name h :
    name <> "access_map" ->
    fresh h self -> fun_ok h f -> wp (visit_implicit_h self f name) h (fun _ _ => True).
  Proof.
    intros D S F. unfold visit_implicit_h.
    bind. eapply wp_mono; [|now apply wp_get_attr, fresh_good]. intros h' x _ (-> & Gx & _) _.
    bind. eapply wp_mono; [|now apply F]. intros h1 r L1 R _.
    assert (S1 : fresh h1 self) by (eapply fresh_mono; eauto).
    destruct r as [|y [|]]; [..|apply wp_throw].
    - apply wp_set_attr; auto; [split; cbn; auto|contradiction].
    - apply Forall_cons_iff in R as (Y & _). apply wp_set_attr; auto; contradiction.
  Qed.
  Lemma fun_ok_mono h h' f : length h <= length h' -> fun_ok h f -> fun_ok h' f.
  Proof. intros L F k v Lk Gv. apply F; auto; lia. Qed.
  Lemma wp_flat_map self f h :
    fresh h self -> fun_ok h f -> wp (flat_map_h self f) h (fun _ _ => True).
  Proof.
    intros S F. unfold flat_map_h.
    bind. eapply wp_mono; [|now apply wp_visit_flags]. intros h1 _ L1 _ _.
    bind. eapply wp_mono; [|apply wp_visit_operands; [eapply fresh_mono; eauto|eapply fun_ok_mono; eauto]]. intros h2 _ L2 _ _.
    assert (L02 : length h <= length h2) by lia.
    bind. eapply wp_mono; [|apply wp_visit_implicit; [discriminate|eapply fresh_mono; eauto|eapply fun_ok_mono; eauto]].
    intros h3 _ L3 _ _. assert (L03 : length h <= length h3) by lia.
    apply wp_visit_implicit; [discriminate|eapply fresh_mono; eauto|eapply fun_ok_mono; eauto].
  Qed.
  Lemma wp_map_var self g h :
    fresh h self -> (forall v h', length h <= length h' -> wp (g v) h' (fun h'' y => good h'' y)) ->
    wp (map_var_h self g) h (fun _ _ => True).
  Proof.
    intros S G. apply wp_flat_map; auto. intros h' v L Gv. destruct v; try (apply wp_ret; constructor; [exact Gv|constructor]).
    bind. eapply wp_mono; [|now apply G]. intros h1 y L1 Y _. apply wp_ret. constructor; [exact Y|constructor].
  Qed.

  (** *** Methods *)
  Lemma wp_access_of self v h : good h self -> wp (access_of_h self v) h (fun h' _ => h' = h).
  Proof.
    intros G. unfold access_of_h.
    bind. eapply wp_mono; [|now apply wp_get_attr]. intros h' d _ (-> & Gd & _) _.
    bind. eapply wp_mono; [|now apply wp_dict_get]. intros h' a _ (-> & Ga) _.
    bind. eapply wp_mono; [|now apply wp_get_attr]. intros h' k _ (-> & Gk & _) _.
    destruct k; try apply wp_throw. now apply wp_ret.
  Qed.
  Lemma wp_access_map self h : fresh h self -> wp (get_attr self "access_map") h (fun h' d => h' = h /\ fresh h d).
  Proof.
    intros S. eapply wp_mono; [|now apply wp_get_attr, fresh_good].
    intros h' d _ (-> & (G & _) & F). split; auto. split; auto. apply F; auto. apply S.
  Qed.
  Lemma wp_replace_var_consistently self a b h :
    fresh h self -> wp (replace_var_consistently_h self a b) h (fun h' y => good h' y).
  Proof.
    intros S. unfold replace_var_consistently_h.
    bind. eapply wp_mono; [|now apply wp_access_map]. intros h' d _ (-> & Fd) _.
    bind. eapply wp_mono; [|now apply wp_dict_has, fresh_good]. intros h' t _ -> _.
    destruct t; cbn [negb]; [|apply wp_throw].
    bind. eapply wp_mono; [|now apply wp_dict_pop]. intros h1 x L1 X _.
    bind. eapply wp_mono; [|apply wp_dict_set; auto; eapply fresh_mono; eauto].
    intros h2 _ L2 _ _. apply wp_ret. split; cbn; auto.
  Qed.
  Lemma wp_substitute is_kind self lst h :
    fresh h self -> fresh h lst -> wp (substitute_h is_kind self lst) h (fun _ _ => True).
  Proof.
    intros S T. unfold substitute_h. bind. eapply wp_mono.
    2:{ apply wp_map_var; auto. intros v h' L.
        assert (S' : fresh h' self) by (eapply fresh_mono; eauto).
        bind. eapply wp_mono; [|now apply wp_access_of, fresh_good]. intros h'' a _ -> _.
        destruct (is_kind a); [|apply wp_ret; split; cbn; auto].
        bind. eapply wp_mono; [|apply wp_list_pop0; eapply fresh_mono; eauto]. intros h1 x L1 X _.
        bind. eapply wp_mono; [|apply wp_as_int]. intros h2 n _ (-> & _) _.
        apply wp_replace_var_consistently. eapply fresh_mono; eauto. }
    intros h1 _ L1 _ _. bind. eapply wp_mono; [|apply wp_items, fresh_good; eapply fresh_mono; eauto].
    intros h2 r _ (-> & _) _. destruct r; [now apply wp_ret|apply wp_throw].
  Qed.
  Lemma wp_replace_var self x b h :
    fresh h self -> wp (replace_var_h self x b) h (fun _ _ => True).
  Proof.
    intros S. apply wp_map_var; auto. intros v h' L.
    assert (D : wp (hret (HInt v)) h' (fun h'' y => good h'' y)) by (apply wp_ret; split; cbn; auto).
    destruct x; auto. destruct (Z.eqb v v0); auto.
    apply wp_replace_var_consistently. eapply fresh_mono; eauto.
  Qed.
  Lemma wp_remove_streaming is_kind self h :
    fresh h self -> wp (remove_streaming_h is_kind self) h (fun _ _ => True).
  Proof.
    intros S. apply wp_flat_map; auto. intros h' v L Gv. destruct v; try (apply wp_ret; constructor; [exact Gv|constructor]).
    assert (S' : fresh h' self) by (eapply fresh_mono; eauto).
    bind. eapply wp_mono; [|now apply wp_access_of, fresh_good]. intros h'' a _ -> _.
    destruct (is_kind a); [|apply wp_ret; constructor; [exact Gv|constructor]].
    bind. eapply wp_mono; [|now apply wp_access_map]. intros h'' d _ (-> & Fd) _.
    bind. eapply wp_mono; [|now apply wp_dict_pop]. intros h1 x L1 X _. now apply wp_ret.
  Qed.
  Lemma wp_new_access a h : wp (new_access a) h (fun h' v => fresh h' v).
  Proof.
    apply wp_alloc; [repeat constructor|]. intros v E; cbn in E; discriminate.
  Qed.
  Lemma wp_add_accesses d a l h : fresh h d -> wp (add_accesses d a l) h (fun _ _ => True).
  Proof.
    intros F. apply wp_hiter with (P := fun h' _ => length h <= length h').
    - intros; lia.
    - intros h' x L. bind. eapply wp_mono; [|apply wp_as_int]. intros h'' k _ (-> & _) _.
      bind. eapply wp_mono; [|apply wp_new_access]. intros h1 r L1 R _.
      apply wp_dict_set; [eapply fresh_mono; [|exact F]; lia|now apply fresh_good].
    - apply Forall_forall; auto.
  Qed.

  Lemma wp_filter_names p l : forall h, Forall (good h) l -> wp (filter_names p l) h (fun h' r => h' = h /\ Forall (good h) r).
  Proof.
    induction l as [|x l IH]; intros h G; cbn.
    - apply wp_ret; auto.
    - apply Forall_cons_iff in G as (G1 & G2). bind.
      assert (W : wp (flag_name_h x) h (fun h' _ => h' = h)).
      { intros I. unfold flag_name_h. destruct (view_flag h x); auto. }
      eapply wp_mono; [|exact W]. intros h' n _ -> _.
      bind. eapply wp_mono; [|now apply IH]. intros h' r _ (-> & R) _. apply wp_ret.
      split; auto. destruct (p n); auto.
  Qed.
End Region.
