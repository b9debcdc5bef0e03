(** Specification vocabulary for the in-order queue. *)
From Coq Require Import Permutation Sorting.Sorted.
From Verif Require Import Base ModelQueue.
Open Scope N_scope.

(** util_parallel.h:63-66: std::sort by descending index yields a permutation with
    descending indices *)
Definition sorts_desc {T} (srt : list (item T) -> list (item T)) : Prop :=
  forall l, Permutation (srt l) l /\ StronglySorted (fun a b => fst b <= fst a) (srt l).

(** the items have the indices 0, 1, 2, ... *)
Definition numbered {T} (l : list (item T)) : Prop := forall k x, nth_error l k = Some x -> fst x = N.of_nat k.

(** the consumer ran for the items of [l], one after the other *)
Definition one_by_one {T} (l : list (item T)) : list (event T) := flat_map (fun x => [Begin x; End x]) l.

(** no thread is inside process_in_order *)
Definition quiet {T} (s : ioq T) : Prop := Forall (fun p => p = Idle) (q_threads s).
(** the consumer never threw *)
Definition no_throw {T} (s : ioq T) : Prop := forall x, ~ In (Threw x) (q_trace s).
