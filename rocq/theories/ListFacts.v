(** * Facts about the relations of SpecLists.v *)
Require Import Verif.PyBase Verif.SpecLists.

Lemma filter_kept {A} (f : A -> bool) (P : A -> Prop) l : (forall x, f x = true <-> P x) -> kept P l (filter f l).
Proof.
  intros H. induction l as [|x l IH]; cbn; [constructor|]. destruct (f x) eqn:E.
  - apply kept_yes; [now apply H|exact IH].
  - apply kept_no; [|exact IH]. rewrite <- H, E. discriminate.
Qed.
Lemma kept_ext {A} (P Q : A -> Prop) l l' : (forall x, P x <-> Q x) -> kept P l l' -> kept Q l l'.
Proof. intros H. induction 1; [constructor|apply kept_yes|apply kept_no]; auto; rewrite <- H; auto. Qed.
Lemma kept_in {A} (P : A -> Prop) l l' x : kept P l l' -> (In x l' <-> In x l /\ P x).
Proof.
  induction 1 as [|y l l' H K IH|y l l' H K IH]; cbn; [tauto| |].
  - rewrite IH. split; [intros [->|[I Q]]; auto|intros [[->|I] Q]; auto].
  - rewrite IH. split; [intros [I Q]; auto|intros [[->|I] Q]; [contradiction|auto]].
Qed.
