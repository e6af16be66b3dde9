(** * C66 and C67: accessors and small containers *)
From Coq Require Import Lia.
Require Import Verif.PyBase Verif.Access Verif.IOInfo Verif.IOVars Verif.Parser Verif.SpecLists Verif.SpecVars Verif.Small Verif.SpecSmall.

(** ** C66: operands by access *)
Lemma kept_none {A} (P : A -> Prop) l : kept P l [] <-> forall x, In x l -> ~ P x.
Proof.
  induction l as [|x l IH].
  - split; [intros _ x []|constructor].
  - split.
    + intros K. inversion K; subst. intros y [<-|I]; [assumption|]. apply IH; assumption.
    + intros H. apply kept_no; [apply H; now left|]. apply IH. intros y I. apply H. now right.
Qed.
Lemma accessor_empty k f c : accessor k = Some f -> Forall var_or_string (v_ops c) -> f c = [].
Proof.
  intros A F. assert (E : exists p, f = civ_operands_with p) by (destruct k; try discriminate; injection A as <-; eexists; reflexivity). destruct E as (p & ->).
  unfold civ_operands_with. induction F as [|x l [(v & ->)|(s & ->)] F IH]; cbn; auto.
Qed.
(** The accessor is right exactly if there is nothing to find. *)
Theorem C66_iff : forall k f c, accessor k = Some f -> Forall var_or_string (v_ops c) ->
  (kept (has c k) (v_ops c) (f c) <-> forall x, In x (v_ops c) -> ~ has c k x).
Proof. intros k f c A F. rewrite (accessor_empty k f c A F). apply kept_none. Qed.
Print Assumptions C66_iff.
Theorem C66_config_iff : forall c, Forall var_or_string (v_ops c) ->
  kept (fun x => exists s, x = PArg s) (v_ops c) (civ_operands_with_config_input c) /\
  (kept (fun x => (exists s, x = PArg s) \/ has c CONFIG_INPUT x) (v_ops c) (civ_operands_with_config_input c) <->
   forall x, In x (v_ops c) -> ~ has c CONFIG_INPUT x).
Proof.
  intros c F. unfold civ_operands_with_config_input. set (g := fun x : pyval => match x with PArg _ => true | PRes r => is_config_input (res_access r) | _ => false end).
  assert (K : kept (fun x => exists s, x = PArg s) (v_ops c) (filter g (v_ops c))).
  { induction F as [|x l [(v & ->)|(s & ->)] F IH]; cbn; [constructor|apply kept_no; [intros (s & E); discriminate|exact IH]|apply kept_yes; [eauto|exact IH]]. }
  split; [exact K|]. clear K. induction F as [|x l [(v & ->)|(s & ->)] F IH]; cbn.
  - split; [intros _ x []|constructor].
  - split.
    + intros X. inversion X; subst.
      * exfalso. assert (L : Forall (fun x => exists s, x = PArg s) (filter g l)).
        { clear -F. induction F as [|x l [(v & ->)|(s & ->)] F IH]; cbn; auto. constructor; eauto. }
        match goal with E : PVar v :: _ = filter g l |- _ => rewrite <- E in L | E : filter g l = PVar v :: _ |- _ => rewrite E in L end.
        apply Forall_inv in L as (s & Q). discriminate.
      * intros x [<-|I]; [tauto|]. apply IH; assumption.
    + intros H. apply kept_no; [intros [(s & E)|E]; [discriminate|]; apply (H (PVar v)); auto|]. apply IH. auto.
  - split.
    + intros X. inversion X; subst.
      * intros x [<-|I]; [intros (v & E & _); discriminate|]. apply IH; assumption.
      * exfalso. match goal with N : ~ (_ \/ _) |- _ => apply N end. left. eauto.
    + intros H. apply kept_yes; [left; eauto|]. apply IH. auto.
Qed.
Print Assumptions C66_config_iff.
(** Refuted: there are streams, and the queries of C37 report them, but the accessors find none. *)
Theorem C66_refuted : exists c, Forall var_or_string (v_ops c) /\ consistent c /\
  snd (generate_inputs c) = Ok ([], [1; 2]%Z) /\ snd (generate_outputs c) = Ok [3%Z] /\
  civ_operands_with_stream_input c = [] /\ civ_operands_with_stream_output c = [] /\
  civ_operands_with_config_input c = [PArg "-"].
Proof.
  exists (mkCiv "cmd" [FFlag "-n"] [PArg "-"; PVar 1; PVar 2; PVar 3] PNone PNone
    (am_set (am_set (am_set am_empty 1 STREAM_INPUT) 2 STREAM_INPUT) 3 STREAM_OUTPUT)).
  split; [|split; [|repeat split]].
  - repeat (apply Forall_cons; [first [left; eexists; reflexivity|right; eexists; reflexivity]|]). constructor.
  - split; [cbn; repeat constructor; cbn; lia|]. intros v I. cbn in I. destruct I as [<-|[<-|[<-|[]]]]; cbn; discriminate.
Qed.
Print Assumptions C66_refuted.
(** Options: only arguments that are names of files or descriptors are found, never variables. *)
Theorem C66_options : forall c, kept (fun x => exists n r, x = FOptIO n (PRes r) /\ res_access r = OTHER_OUTPUT) (v_flags c) (civ_options_with_other_output c).
Proof.
  intros c. unfold civ_options_with_other_output. induction (v_flags c) as [|x l IH]; cbn; [constructor|].
  destruct x as [n|n a|n [| | |r]]; try (apply kept_no; [intros (m & r0 & E & _); discriminate|exact IH]).
  destruct (res_access r) eqn:E; cbn; try (apply kept_no; [intros (m & r0 & [= <- <-] & E'); congruence|exact IH]).
  apply kept_yes; [eauto|exact IH].
Qed.
Print Assumptions C66_options.

(** On operands of any sort the accessors keep, in order, the named files and descriptors with exactly their access;
    the one for configuration also keeps every string. *)
Theorem C66_resources : forall c,
  (forall k f, accessor k = Some f -> kept (fun x => exists r, x = PRes r /\ res_access r = k) (v_ops c) (f c)) /\
  kept (fun x => (exists s, x = PArg s) \/ exists r, x = PRes r /\ res_access r = CONFIG_INPUT) (v_ops c) (civ_operands_with_config_input c).
Proof.
  intros c. split.
  - intros k f A. assert (E : exists p, f = civ_operands_with p /\ forall a, p a = true <-> a = k)
      by (destruct k; try discriminate; injection A as <-; eexists; (split; [reflexivity|intros []; cbn; split; congruence])).
    destruct E as (p & -> & P). unfold civ_operands_with. induction (v_ops c) as [|x l IH]; cbn; [constructor|].
    destruct x as [|v|s|r]; try (apply kept_no; [intros (r0 & E & _); discriminate|exact IH]).
    destruct (p (res_access r)) eqn:E.
    + apply kept_yes; [exists r; split; [reflexivity|now apply P]|exact IH].
    + apply kept_no; [intros (r0 & [= <-] & E'); apply P in E'; congruence|exact IH].
  - unfold civ_operands_with_config_input. induction (v_ops c) as [|x l IH]; cbn; [constructor|].
    destruct x as [|v|s|r]; try (apply kept_no; [intros [(s0 & E)|(r0 & E & _)]; discriminate|exact IH]).
    + apply kept_yes; [left; eauto|exact IH].
    + destruct (res_access r) eqn:E; cbn; try (apply kept_no; [intros [(s0 & E')|(r0 & [= <-] & E')]; congruence|exact IH]).
      apply kept_yes; [right; eauto|exact IH].
Qed.
Print Assumptions C66_resources.
Example C66_resources_case : let c := mkCiv "cmd" [] [PRes (mkRes (FileName "a") STREAM_INPUT); PRes (mkRes (FileName "b") OTHER_INPUT); PVar 1%Z; PRes (mkRes (FileName "d") STREAM_OUTPUT)] PNone PNone am_empty in
  accessor STREAM_INPUT = Some civ_operands_with_stream_input /\
  civ_operands_with_stream_input c = [PRes (mkRes (FileName "a") STREAM_INPUT)] /\ civ_operands_with_other_output c = [].
Proof. repeat split. Qed.

(** ** C67: small containers *)
Theorem C67_inputs : forall A (i : inputs A),
  (in_kind i = STREAMING -> exists c s, in_values i = (c, s) /\ get_config_inputs i = Ok c /\ get_streaming_inputs i = Ok s /\ get_all_inputs i = Ok (c ++ s)) /\
  (in_kind i = DEFAULT -> get_config_inputs i = Raise AssertionError /\ get_streaming_inputs i = Raise AssertionError /\ get_all_inputs i = Raise AssertionError).
Proof.
  intros A [k (c & s)]. cbn. split; intros ->.
  - exists c, s. repeat split.
  - repeat split.
Qed.
Print Assumptions C67_inputs.
Lemma get_set {A} (p : properties A) n v m : get_property_value (set_property p n v) m = if String.eqb n m then Some v else get_property_value p m.
Proof.
  induction p as [|(k & w) p IH]; cbn; [reflexivity|]. destruct (String.eqb_spec k n) as [->|N]; cbn.
  - destruct (String.eqb_spec n m); reflexivity.
  - destruct (String.eqb_spec k m) as [->|N']; [|exact IH]. destruct (String.eqb_spec n m); [congruence|reflexivity].
Qed.
Lemma get_first {A} (d : properties A) name v : get_property_value d name = Some v <-> exists l l', d = l ++ (name, v) :: l' /\ ~ In name (map fst l).
Proof.
  induction d as [|(k & w) d IH]; cbn.
  - split; [discriminate|]. intros ([|] & l' & E & _); discriminate.
  - destruct (String.eqb_spec k name) as [->|N].
    + split.
      * intros [= ->]. exists [], d. auto.
      * intros ([|(a & b) l] & l' & E & I); cbn in E; injection E; intros; subst; [reflexivity|]. exfalso. apply I. now left.
    + rewrite IH. split.
      * intros (l & l' & -> & I). exists ((k, w) :: l), l'. split; [reflexivity|]. cbn. tauto.
      * intros ([|(a & b) l] & l' & E & I); cbn in E; injection E; intros; subst; [contradiction|]. exists l, l'. cbn in I. tauto.
Qed.
(** Whatever was set last is found; what was never set is what was given to the constructor, or nothing. *)
Theorem C67_properties : forall A (given : option (properties A)) (calls : list (string * A)) (name : string),
  latest (match given with Some d => d | None => [] end) calls name
    (get_property_value (fold_right (fun c p => set_property p (fst c) (snd c)) (new_properties given) calls) name).
Proof.
  intros A given calls name. induction calls as [|(n & v) calls IH]; cbn [latest fold_right fst snd].
  - intros w. destruct given as [d|]; cbn [new_properties]; apply get_first.
  - rewrite get_set. destruct (String.eqb_spec n name) as [->|N]; [left; auto|]. right. split; [exact N|exact IH].
Qed.
Print Assumptions C67_properties.
Example C67_case : get_property_value (fold_right (fun c p => set_property p (fst c) (snd c)) (new_properties (Some [("a", 1); ("b", 2)])) [("a", 4); ("c", 5); ("a", 3)]) "a" = Some 4.
Proof. reflexivity. Qed.
(** One word is a flag, two are an option with its argument, everything else is rejected. *)
Theorem C67_make_arg : forall arg,
  (forall f, make_arg_simple arg = Ok (Flag f) <-> arg = [f]) /\
  (forall o a, make_arg_simple arg = Ok (Option_ o a) <-> arg = [o; a]) /\
  (make_arg_simple arg = Raise GenericException <-> length arg <> 1 /\ length arg <> 2).
Proof.
  intros [|x [|y [|z l]]]; cbn; repeat split; try discriminate; try lia; try congruence; intros (A & B); exfalso; auto.
Qed.
Print Assumptions C67_make_arg.
(** Refuted: no access is ever added; files and descriptors fail as everything else does, by an
    assertion instead of the exception for other objects. *)
Theorem C67_add_access_refuted : forall x, exists e, add_access_to_stream x = Raise e /\
  ((exists n, x = TFile n) \/ (exists d, x = TStd d) -> e = AssertionError) /\ (x = TOther -> e = GenericException).
Proof.
  intros [n|d|]; eexists; (split; [reflexivity|]); split; auto; try discriminate. intros [(? & E)|(? & E)]; discriminate.
Qed.
Print Assumptions C67_add_access_refuted.
