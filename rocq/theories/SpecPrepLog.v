(** Specification vocabulary for the statistics of preparing tiles. *)
From Verif Require Import Base ModelTile SpecTile ModelPrepare SpecPrepare ModelPrepLog.
Open Scope N_scope.

Definition sum_of {A} (f : A -> N) (l : list A) : N := fold_right (fun a n => f a + n) 0 l.
(** [ds]: all tiles of zoom level [z] to be prepared, each once, with the time it took to render it *)
Definition level_done (features : table) (s : plog) (z : N) (ds : list (tile * N)) : Prop :=
  incl ds (g_done s) /\ NoDup (map fst ds) /\ forall t, In t (map fst ds) <-> tz t = z /\ in_bounds features t.
(** number of tiles that are empty, and that are not *)
Definition empty_tiles (size : tile -> N) (ds : list (tile * N)) : N := N.of_nat (length (filter (fun e => size (fst e) =? 0) ds)).
Definition drawn_tiles (size : tile -> N) (ds : list (tile * N)) : N := N.of_nat (length (filter (fun e => negb (size (fst e) =? 0)) ds)).
Definition all_done (s : plog) : Prop := Forall (fun p => p = LExit) (g_threads s).
