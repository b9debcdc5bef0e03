(** Specification vocabulary: what a data file of the node index consists of. *)
From Coq Require Import List.
From Verif Require Import Base ModelCodec.
Import ListNotations.
Open Scope Z_scope.

(** The file is a sequence of gaps (that many ids without a node) and runs of nodes with consecutive ids,
    the first with its coordinates, the others with the differences to the one before. *)
Inductive segment := Gap (n : N) | Run (p : Z * Z) (ps : list (Z * Z)).
Fixpoint differences (p : Z * Z) (ps : list (Z * Z)) : list (Z * Z) :=
  match ps with
  | [] => []
  | q :: ps' => (fst q - fst p, snd q - snd p) :: differences q ps'
  end.
(** a difference as a variable length number *)
Definition diff_bytes (d : Z) : bytes := varint_enc (zigzag d).
Definition diff_size (d : Z) : nat := length (diff_bytes d).
Definition pair_size (d : Z * Z) : nat := (diff_size (fst d) + diff_size (snd d))%nat.

Definition seg_bytes (s : segment) : bytes :=
  match s with
  | Gap n => varint_enc (2 * n + 1)
  | Run p ps => varint_enc (2 * N.of_nat (length ps)) ++ le_bytes 4 (Z.to_N (fst p)) ++ le_bytes 4 (Z.to_N (snd p))
                ++ flat_map (fun d => diff_bytes (fst d) ++ diff_bytes (snd d)) (differences p ps)
  end.
Definition seg_nodes (s : segment) : list (Z * Z) := match s with Gap _ => [] | Run p ps => p :: ps end.
Definition seg_diffs (s : segment) : list (Z * Z) := match s with Gap _ => [] | Run p ps => differences p ps end.
Definition is_run (s : segment) : bool := match s with Gap _ => false | Run _ _ => true end.

(** a node follows another one in the same run exactly if the differences take no more than nine bytes,
    the size of a run of its own *)
Definition runs_fit (segs : list segment) : Prop :=
  (forall s d, In s segs -> In d (seg_diffs s) -> (pair_size d <= 9)%nat) /\
  (forall a p ps q qs b, segs = a ++ Run p ps :: Run q qs :: b ->
     (9 < pair_size (fst q - fst (last ps p), snd q - snd (last ps p))%Z)%nat).

(** how many differences of the file take [i] bytes *)
Definition diffs_of_size (i : nat) (segs : list segment) : nat :=
  length (filter (fun d => (diff_size d =? i)%nat) (flat_map (fun d => [fst d; snd d]) (flat_map seg_diffs segs))).
(** how many runs have at most [n] nodes *)
Definition runs_up_to (n : N) (segs : list segment) : nat :=
  length (filter (fun s => is_run s && (N.of_nat (length (seg_nodes s)) <=? n)%N) segs).

(** the nodes of a stream; an id that is repeated is the same node *)
Fixpoint nodes_after (prev : option Z) (ns : list (Z * (Z * Z))) : list (Z * Z) :=
  match ns with
  | [] => []
  | (id, p) :: ns' =>
      (if match prev with Some i => Z.abs id =? i | None => false end then [] else [p]) ++ nodes_after (Some (Z.abs id)) ns'
  end.
Definition stream_nodes (ns : list (Z * (Z * Z))) : list (Z * Z) := nodes_after None ns.
(** how often the ids of a stream do not go on with the next number *)
Fixpoint breaks_after (prev : Z) (ns : list (Z * (Z * Z))) : nat :=
  match ns with
  | [] => 0%nat
  | (id, _) :: ns' => ((if ((Z.abs id =? prev) || (Z.abs id =? prev + 1))%Z then 0 else 1) + breaks_after (Z.abs id) ns')%nat
  end.
Definition stream_breaks (ns : list (Z * (Z * Z))) : nat :=
  match ns with [] => 0%nat | (id, _) :: ns' => breaks_after (Z.abs id) ns' end.
