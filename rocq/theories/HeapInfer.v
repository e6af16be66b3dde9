(** * get_inferred_parallelizer_list once more, with the identity of objects
    ParaTypes.v describes the values; here the list, the parallelizers and what they consist of
    are cells of the heap of Heap.v.  Simplification: functions (the transformers of mapper and
    aggregator specs) are not represented; [deepcopy] copies a function to itself, as it does with
    the values that are not references here. *)
From Coq Require Import ZArith.
Require Import Verif.PyBase Verif.ParaTypes Verif.Heap.

(** [lst.append(v)] *)
Definition list_append (x v : hval) : hm unit :=
  run! (l, o) := get_obj x in
  match o with OList vs => put_obj l (OList (vs ++ [v])) | _ => hthrow TypeError end.

(** Splitter.py:11-14: the constructor *)
Definition new_splitter_h (k : splitter) : hm hval := alloc (OInst "Splitter" [("kind", HSplit k)]).
(** Splitter.py:38-39 *)
Definition make_splitter_round_robin_with_unwrap_h : hm hval := new_splitter_h ROUND_ROBIN_UNWRAP_FLAG.
(** Splitter.py:28-29; the members of an [Enum] are equal only to themselves *)
Definition is_splitter_consec_chunks_h (s : hval) : hm bool :=
  run! k := get_attr s "kind" in
  hret (match k with HSplit CONSEC_CHUNKS => true | _ => false end).

(** Parallelizer.py:123-126 *)
Definition make_parallelizer_round_robin_with_unwrap_from_other_h (p : hval) : hm hval :=
  run! new := deepcopy p in
  run! s := make_splitter_round_robin_with_unwrap_h in
  run! _ := set_attr new "splitter" s in
  hret new.

(** The truth value of an object.  [False] and [True] are the integers 0 and 1 here, which they
    are equal to in Python.  Simplification: lists and dicts count as true even if they are
    empty. *)
Definition truthy (v : hval) : bool :=
  match v with
  | HNone => false
  | HInt n => negb (Z.eqb n 0)
  | HStr s => negb (String.eqb s "")
  | _ => true
  end.

(** ParallelizabilityInfo.py:33-35: the loop.  A list is iterated over by position and may grow
    meanwhile: [n] is the next position in [iterated], new elements go to [target].  The result
    is [false] if [fuel] iterations do not suffice. *)
Fixpoint infer_loop_h (fuel n : nat) (self target iterated : hval) : hm bool :=
  match fuel with
  | O => hret false
  | S fuel' =>
      run! vs := items iterated in
      match nth_error vs n with
      | None => hret true
      | Some p =>
          run! c := get_attr self "is_commutative" in
          run! add := (if truthy c
                       then run! s := get_attr p "splitter" in is_splitter_consec_chunks_h s
                       else hret false) in
          run! _ := (if add
                     then run! q := make_parallelizer_round_robin_with_unwrap_from_other_h p in list_append target q
                     else hret tt) in
          infer_loop_h fuel' (S n) self target iterated
      end
  end.
(** ParallelizabilityInfo.py:30-36; [None]: not within [fuel] iterations *)
Definition get_inferred_parallelizer_list_h (fuel : nat) (self : hval) : hm (option hval) :=
  run! target := get_attr self "parallelizer_list" in
  run! iterated := get_attr self "parallelizer_list" in
  run! over := infer_loop_h fuel 0 self target iterated in
  hret (if over then Some target else None).
