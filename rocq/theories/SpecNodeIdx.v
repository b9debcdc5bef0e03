(** Specification vocabulary for the node index. *)
From Coq Require Import Sorted.
From Verif Require Import Base ModelNodeIdx.
Open Scope Z_scope.

(** a position the index can hold: two uint32_t *)
Definition pos_ok (p : npos) : Prop := 0 <= fst p < 2 ^ 32 /\ 0 <= snd p < 2 ^ 32.

(** A stream of nodes as read from an OSM file sorted by id: ascending absolute ids, repeated ids only
    with the same position; [m]: a bound for the ids. *)
Definition valid_stream (m : Z) (ns : list (Z * npos)) : Prop :=
  Forall (fun n => Z.abs (fst n) < m /\ pos_ok (snd n)) ns /\
  Sorted (fun a b => Z.abs (fst a) < Z.abs (fst b) \/ Z.abs (fst a) = Z.abs (fst b) /\ snd a = snd b) ns.

(** what the stream says about an id *)
Definition node_of (ns : list (Z * npos)) (id : Z) : option npos :=
  option_map snd (find (fun n => Z.abs (fst n) =? Z.abs id) ns).

(** a location an OSM node may have: -180..180, -90..90 degrees in units of 1e-7 *)
Definition loc_ok (l : npos) : Prop := -1800000000 <= fst l <= 1800000000 /\ -900000000 <= snd l <= 900000000.
