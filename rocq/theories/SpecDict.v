(** Specification vocabulary for layer names and the shared metadata dictionary. *)
From Coq Require Import Permutation Sorting.Sorted.
From Verif Require Import Base ModelTile ModelCodec ModelGeom ModelFeature ModelDict.
Open Scope N_scope.

(** std::sort: some sorted permutation (no stability promised) *)
Definition sorts {A} (lt : A -> A -> bool) (srt : list A -> list A) : Prop :=
  forall l, Permutation (srt l) l /\ StronglySorted (fun a b => lt b a = false) (srt l).

(** operator< of std::pair<metadata, uint64_t> *)
Definition pair_ltb (a b : meta * N) : bool :=
  meta_ltb (fst a) (fst b) || (negb (meta_ltb (fst b) (fst a)) && (snd a <? snd b)).
(** shared_metadata.h:91-92: descending count *)
Definition count_gtb (a b : meta * N) : bool := snd b <? snd a.

(** how often a pair was passed to update *)
Definition meta_dec (a b : meta) : {a = b} + {a <> b}.
Proof. decide equality; apply (list_eq_dec N.eq_dec). Defined.
Definition times (m : meta) (l : list meta) : N := N.of_nat (count_occ meta_dec l m).

(** wait_dequeue_bulk on a queue nobody else uses: some elements, at least one
    unless the queue is empty *)
Definition takes (take : list meta -> list meta * list meta) : Prop :=
  forall q, Permutation (fst (take q) ++ snd (take q)) q /\ (fst (take q) = [] -> q = []).

(** protobuf strings are shorter than 2^32 bytes *)
Definition short (s : bytes) : Prop := blen s < 2 ^ 32.
Definition meta_short (m : meta) : Prop := short (fst m) /\ short (snd m).
