(** * join, in the table of reductions (C92)
    old_annotations/p_stats/mr.md: "join  a ++ b".  After the GNU manual and join.c (function join): both files
    are read once, lines with smaller keys are passed over, and for two runs of lines with the same key all pairs
    are printed, the lines of the first file being the outer loop. *)
Require Import Verif.PyBase.
From Coq Require Import Sorted.

(** What depends on the options (-1 -2 -j -t -i -o -e -a -v): the keys of the lines of the two files and their
    order, what is printed for a pair (nothing with -v) and for a line without partner (nothing without -a, -v). *)
Record join_oracle : Type := mkJoinOracle
  { key1 : string -> string; key2 : string -> string;
    join_le : string -> string -> bool;
    paired : string -> string -> list string;
    alone1 : string -> list string; alone2 : string -> list string }.
Definition order_ok (o : join_oracle) : Prop :=
  (forall x y, join_le o x y = true \/ join_le o y x = true) /\
  (forall x y z, join_le o x y = true -> join_le o y z = true -> join_le o x z = true).
Definition before (o : join_oracle) (k k' : string) : Prop := join_le o k k' = true /\ join_le o k' k = false.
Definition same (o : join_oracle) (x y : string) : Prop :=
  join_le o (key1 o x) (key2 o y) = true /\ join_le o (key2 o y) (key1 o x) = true.
Definition head_not (P : string -> Prop) (l : list string) : Prop := match l with [] => True | x :: _ => ~ P x end.
(** What is printed for the lines of two files *)
Inductive joins (o : join_oracle) : list string -> list string -> list string -> Prop :=
| join_end1 l2 : joins o [] l2 (flat_map (alone2 o) l2)
| join_end2 l1 : joins o l1 [] (flat_map (alone1 o) l1)
| join_pass1 x l1 y l2 out : before o (key1 o x) (key2 o y) -> joins o l1 (y :: l2) out ->
    joins o (x :: l1) (y :: l2) (alone1 o x ++ out)
| join_pass2 x l1 y l2 out : before o (key2 o y) (key1 o x) -> joins o (x :: l1) l2 out ->
    joins o (x :: l1) (y :: l2) (alone2 o y ++ out)
| join_runs x g1 r1 y g2 r2 out :
    same o x y -> Forall (fun z => same o z y) g1 -> head_not (fun z => same o z y) r1 ->
    Forall (same o x) g2 -> head_not (same o x) r2 -> joins o r1 r2 out ->
    joins o (x :: g1 ++ r1) (y :: g2 ++ r2)
      (flat_map (fun a => flat_map (paired o a) (y :: g2)) (x :: g1) ++ out).
(** Files that are sorted on their keys, as join asks for *)
Definition sorted_on (o : join_oracle) (key : string -> string) : list string -> Prop :=
  StronglySorted (fun x y => join_le o (key x) (key y) = true).
