(** * C98: the shipped generators that only call helpers *)
Require Import Verif.PyBase Verif.JsonData Verif.Parser Verif.IOGen Verif.ParaTypes Verif.ParaGen Verif.GenHelpers Verif.SpecHeapPara.

(** The calls are fixed, or the method raises an exception whatever the information is.  (The model
    of values does not say whether calls come before the exception; the information is lost then.) *)
Definition only_calls (g : pgen) (dir : data_dir) (inv : invocation) : Prop :=
  (exists ks, Forall library_call ks /\ forall i, g dir inv i = call_helpers ks i) \/ (exists e, forall i, g dir inv i = Raise e).
Lemma two_calls a b i : (let! j := call_helper a i in call_helper b j) = call_helpers [a; b] i.
Proof. cbn [call_helpers]. destruct (call_helper a i) as [j|e]; [|reflexivity]. cbn. now destruct (call_helper b j). Qed.
Ltac calls l := left; exists l; split; [repeat constructor; intros ?; discriminate|intros i].
Lemma stateless_calls dir inv : only_calls pg_stateless dir inv.
Proof. calls [CcSeqConc; RrSeqConc]. exact (two_calls CcSeqConc RrSeqConc i). Qed.
Lemma set_diff_calls dir inv : only_calls pg_set_diff dir inv.
Proof. calls [CcSeqConc]. cbn [call_helpers]. change (pg_set_diff dir inv i) with (call_helper CcSeqConc i). now destruct (call_helper CcSeqConc i). Qed.
Lemma sed_calls dir inv : only_calls pg_sed dir inv.
Proof.
  unfold only_calls, pg_sed. destruct (or_else _ _) as [[|]|e].
  - calls [CcSeqConc; RrSeqConc]. exact (two_calls CcSeqConc RrSeqConc i).
  - calls (@nil helper). reflexivity.
  - right. now exists e.
Qed.
Lemma tr_calls dir inv : only_calls pg_tr dir inv.
Proof.
  unfold only_calls, pg_tr. destruct (and_then (Ok (contains_one_of inv ["-d"])) _) as [d|e]; [|right; now exists e].
  destruct (and_then (Ok (contains_one_of inv ["-s"])) _) as [s|e]; [|right; now exists e]. destruct d; [|destruct s].
  - calls [CcSeqAdjm; RrSeqAdjm]. exact (two_calls CcSeqAdjm RrSeqAdjm i).
  - calls [CcSeqAdjf "PLACEHOLDER: remove first line if empty" false; RrSeqAdjf "PLACEHOLDER: remove first line if empty" false].
    exact (two_calls (CcSeqAdjf _ _) (RrSeqAdjf _ _) i).
  - calls [CcSeqConc; RrSeqConc]. exact (two_calls CcSeqConc RrSeqConc i).
Qed.

(** The generators of these classes do nothing but call helpers, so that C98 is about them. *)
Theorem C98_shipped : forall name g, In name ["Col"; "CustomTr"; "Cut"; "Sed"; "SetDiff"; "Tr"; "Xargs"] -> dict_get para_generator_classes name = Ok g ->
  forall dir inv, (exists ks, Forall library_call ks /\ forall i, g dir inv i = call_helpers ks i) \/ (exists e, forall i, g dir inv i = Raise e).
Proof.
  intros name g I E dir inv. cbn in I. destruct I as [<-|[<-|[<-|[<-|[<-|[<-|[<-|[]]]]]]]]; cbn in E; injection E as <-.
  - apply stateless_calls.
  - apply stateless_calls.
  - apply stateless_calls.
  - apply sed_calls.
  - apply set_diff_calls.
  - apply tr_calls.
  - apply stateless_calls.
Qed.
Print Assumptions C98_shipped.
(** tr -d '\n' makes calls; tr -d without operands raises. *)
Example C98_shipped_case : exists g, dict_get para_generator_classes "Tr" = Ok g /\
  (forall dir i, g dir (mkInv "tr" [Flag "-d"] ["a\n"]) i = call_helpers [CcSeqAdjm; RrSeqAdjm] i) /\
  (forall dir i, g dir (mkInv "tr" [Flag "-d"] []) i = Raise IndexError).
Proof. eexists. split; [reflexivity|]. split; intros dir i; reflexivity. Qed.
