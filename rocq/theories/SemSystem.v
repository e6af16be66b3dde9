(** * A system for the examples
    Commands that satisfy the specifications of SpecSem.v: a simple sort, grep, cut, tr and cat. *)
From Coq Require Import Lia.
Require Import Verif.PyBase Verif.JsonData Verif.Parser Verif.Access Verif.IOInfo Verif.IOVars
  Verif.Transformers Verif.ParaTypes Verif.MapperAgg Verif.SpecLists Verif.SpecVars Verif.SpecPara Verif.SpecSem Verif.SemFacts.

(** ** sort: byte by byte, or at random in one of two orders *)
Definition is_random (fl : list wflag) : bool :=
  existsb (fun f => match f with WOption n (WText w) => String.eqb n "--sort" && String.eqb w "random" | _ => false end) fl.
Definition simple_key (seed : nat) (fl : list wflag) (x y : string) : bool :=
  if xorb (given fl ["-r"]) (is_random fl && negb (Nat.even seed)) then bytes_le y x else bytes_le x y.
Definition simple_sort : sort_oracle := mkSortOracle simple_key "usage" (fun _ _ => ["_"]).
Lemma existsb_filter {A} (p q : A -> bool) l : (forall x, p x = true -> q x = true) -> existsb p (filter q l) = existsb p l.
Proof.
  intros H. induction l as [|x l IH]; [reflexivity|]. cbn. destruct (q x) eqn:Q; cbn; rewrite IH; [reflexivity|].
  destruct (p x) eqn:P; [|reflexivity]. rewrite H in Q by exact P. discriminate.
Qed.
Lemma simple_sort_ok : sort_oracle_ok simple_sort.
Proof.
  split.
  - intros seed fl. cbn [key_le simple_sort]. unfold simple_key. destruct (xorb _ _); split; eauto using bytes_total, bytes_trans.
  - intros seed fl fl' E. cbn [key_le simple_sort]. unfold simple_key.
    assert (G : given fl ["-r"] = given fl' ["-r"]).
    { unfold given. rewrite <- (existsb_filter _ (fun f => mem (wflag_name f) ordering_flags) fl), <- (existsb_filter _ (fun f => mem (wflag_name f) ordering_flags) fl');
        [now rewrite E| |]; intros x X; cbn in X; apply orb_true_iff in X as [X|X]; try discriminate; apply String.eqb_eq in X; rewrite X; reflexivity. }
    assert (R : is_random fl = is_random fl').
    { unfold is_random. rewrite <- (existsb_filter _ (fun f => mem (wflag_name f) ordering_flags) fl), <- (existsb_filter _ (fun f => mem (wflag_name f) ordering_flags) fl');
        [now rewrite E| |]; intros [n|n []] X; try discriminate; apply andb_true_iff in X as (X & _); apply String.eqb_eq in X; cbn [wflag_name]; rewrite X; reflexivity. }
    now rewrite G, R.
Qed.
(** Without --sort random, chance has no part. *)
Lemma simple_key_seed fl seed seed' : is_random fl = false -> key_le simple_sort seed fl = key_le simple_sort seed' fl.
Proof. intros H. cbn. unfold simple_key. now rewrite H. Qed.

(** ** grep: fixed strings *)
Definition simple_grep : grep_oracle := mkGrepOracle
  (fun _ ops x => match ops with WText p :: _ => match String.index 0 p x with Some _ => true | None => false end | _ => false end)
  (fun _ _ _ _ _ x => [x]) (fun _ => ["--"]) (fun _ => "(standard input)") (fun _ n => string_of_list_ascii (repeat "1"%char n) +++ String newline "") "usage".

(** ** cut: the first character *)
Definition simple_cut : wise_oracle := mkWise (fun _ _ x => [String.substring 0 1 x]) (fun _ => "usage").

(** ** tr: characters, ranges and newline *)
Fixpoint expand (s : string) : list ascii :=
  match s with
  | "" => []
  | String a rest =>
      match rest with
      | String b rest' =>
          if Ascii.eqb a "\" && Ascii.eqb b "n" then newline :: expand rest'
          else if Ascii.eqb b "-" then
            match rest' with
            | String d rest'' => map ascii_of_nat (seq (nat_of_ascii a) (S (nat_of_ascii d - nat_of_ascii a))) ++ expand rest''
            | "" => [a; b]
            end
          else a :: expand rest
      | "" => [a]
      end
  end.
Fixpoint position (a : ascii) (l : list ascii) : option nat :=
  match l with
  | [] => None
  | b :: l' => if Ascii.eqb a b then Some 0 else match position a l' with Some n => Some (S n) | None => None end
  end.
Definition simple_tr : tr_oracle := mkTrOracle
  (fun s a => existsb (Ascii.eqb a) (expand s))
  (fun complement _ s t a =>
     let l := expand t in
     if complement then if existsb (Ascii.eqb a) (expand s) then a else List.last l a
     else match position a (expand s) with Some n => nth n l (List.last l a) | None => a end)
  "usage".

Definition simple_system : behaviour := fun seed cmd fl ops inputs =>
  if String.eqb cmd "cat" then joined inputs
  else if String.eqb cmd "sort" then sort_output simple_sort seed fl inputs
  else if String.eqb cmd "grep" then grep_output simple_grep fl ops (joined inputs)
  else if String.eqb cmd "cut" then wise_output simple_cut fl ops (joined inputs)
  else if String.eqb cmd "tr" then tr_output simple_tr fl ops (joined inputs)
  else "".
Lemma simple_is_cat : is_cat simple_system.
Proof. intros seed ops inputs _. reflexivity. Qed.
Lemma simple_is_sort : is_sort simple_sort simple_system.
Proof. intros seed fl ops inputs _ _. reflexivity. Qed.
Lemma simple_is_grep : is_grep simple_grep simple_system.
Proof. intros seed fl ops input _ _ _. unfold simple_system. cbn [String.eqb Ascii.eqb Bool.eqb joined fold_right]. now rewrite append_nil. Qed.
Lemma simple_is_cut : is_record_wise simple_cut "cut" cut_names simple_system.
Proof. intros seed fl ops input _. unfold simple_system. cbn [String.eqb Ascii.eqb Bool.eqb joined fold_right]. now rewrite append_nil. Qed.
Lemma simple_is_tr : is_tr simple_tr simple_system.
Proof. intros seed fl ops input _. unfold simple_system. cbn [String.eqb Ascii.eqb Bool.eqb joined fold_right]. now rewrite append_nil. Qed.

(** ** Invocations that read variable 1 and write variable 2 *)
Definition filter_civ (cmd : string) (flags : list flag_el) (ops : list pyval) : civ :=
  mkCiv cmd flags ops (PVar 1) (PVar 2) (am_set (am_set am_empty 1 STREAM_INPUT) 2 STREAM_OUTPUT).
Definition plain_flag (f : flag_el) : bool := match f with FFlag _ | FOptIO _ (PArg _) => true | _ => false end.
Definition plain_op (x : pyval) : bool := match x with PArg _ => true | _ => false end.
Lemma filter_civ_vars cmd flags ops : forallb plain_flag flags = true -> forallb plain_op ops = true ->
  vars (filter_civ cmd flags ops) = [1; 2]%Z.
Proof.
  intros F O. unfold vars, slots. cbn [v_flags v_ops v_in v_out filter_civ]. rewrite !flat_map_app.
  assert (A : flat_map var_of (option_args flags) = []).
  { induction flags as [|f flags IH]; [reflexivity|]. cbn in F. apply andb_true_iff in F as (F1 & F2).
    unfold option_args in *. cbn [flat_map]. rewrite flat_map_app, IH by assumption. destruct f as [|n a|n []]; try discriminate; reflexivity. }
  assert (B : flat_map var_of ops = []).
  { induction ops as [|x ops IH]; [reflexivity|]. cbn in O. apply andb_true_iff in O as (O1 & O2). cbn [flat_map]. rewrite IH by assumption.
    destruct x; try discriminate; reflexivity. }
  rewrite A, B. reflexivity.
Qed.
Lemma filter_civ_tight cmd flags ops : forallb plain_flag flags = true -> forallb plain_op ops = true ->
  tight (filter_civ cmd flags ops).
Proof.
  intros F O. pose proof (filter_civ_vars cmd flags ops F O) as V. split; [split|]; rewrite V.
  - repeat constructor; cbn; lia.
  - intros v [<-|[<-|[]]]; discriminate.
  - intros v. cbn. unfold am_set, am_empty. destruct (Z.eqb_spec v 2), (Z.eqb_spec v 1); subst; auto.
Qed.
Lemma filter_civ_reads cmd flags ops : forallb plain_flag flags = true -> forallb plain_op ops = true ->
  reads_one (filter_civ cmd flags ops) 1.
Proof.
  intros F O. pose proof (filter_civ_vars cmd flags ops F O) as V.
  rewrite forallb_forall in F.
  split; [now apply filter_civ_tight; [apply forallb_forall|]|]. rewrite V. split; [|split; [|split]].
  - apply kept_yes; [reflexivity|]. apply kept_no; [discriminate|constructor].
  - exists 2%Z. split; [reflexivity|]. apply kept_no; [discriminate|]. apply kept_yes; [reflexivity|constructor].
  - intros x I (v & -> & A). cbn [v_flags filter_civ] in I. unfold option_args in I. apply in_flat_map in I as (f & I & J).
    apply F in I. destruct f as [|n a|n a]; [destruct J|discriminate|]. destruct J as [->|[]]. discriminate.
  - intros n a I. apply F in I. discriminate.
Qed.
Lemma filter_civ_fresh cmd flags ops l : forallb plain_flag flags = true -> forallb plain_op ops = true ->
  forallb (fun v => Z.ltb 2 v) l = true -> forall v, In v l -> v_acc (filter_civ cmd flags ops) v = None /\ ~ In v (vars (filter_civ cmd flags ops)).
Proof.
  intros F O L v I. rewrite (filter_civ_vars cmd flags ops F O). rewrite forallb_forall in L. apply L, Z.ltb_lt in I.
  split; [|cbn; lia]. cbn. unfold am_set, am_empty. destruct (Z.eqb_spec v 2), (Z.eqb_spec v 1); subst; lia || reflexivity.
Qed.
