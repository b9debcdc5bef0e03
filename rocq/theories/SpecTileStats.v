(** Specification vocabulary for the lines a tile builder prints. *)
From Coq Require Import Sorting.Sorted.
From Verif Require Import Base ModelTile ModelCodec ModelGeom SpecGeom ModelFeature ModelMvt SpecMvt ModelTileStats.
Open Scope N_scope.

Definition num {A} (l : list A) : N := N.of_nat (length l).
(** features that count as added: each id once per kind of geometry, and every feature without geometry *)
Definition ids_of_kind (k : N) (fs : list feature) : list N := map f_id (filter (of_kind k) fs).
Definition distinct (l : list N) : N := num (nodup N.eq_dec l).
Definition added_of (fs : list feature) : N :=
  num (ids_of_kind 0 fs) + distinct (ids_of_kind 1 fs) + distinct (ids_of_kind 2 fs) + distinct (ids_of_kind 3 fs).
Definition of_layer (i : N) (fs : list feature) : list feature := filter (fun f => f_layer f =? i) fs.

(** the messages of a tile's layers *)
Definition layer_messages (buf : bytes) (layers : list bytes) : Prop := parse_msg buf = Some (map (fun b => (3, WLen b)) layers).
(** a line is about this message, which shows this layer *)
Definition line_about (l : tile_line) (b : bytes) (v : vlayer) : Prop :=
  decode_layer b = Some v /\ tl_name l = vl_name v /\ tl_written l = num (vl_features v) /\ tl_bytes l = blen b.
Inductive lines_about : list tile_line -> list bytes -> list vlayer -> Prop :=
| la_nil : lines_about [] [] []
| la_cons l ls b bs v vs : line_about l b v -> lines_about ls bs vs -> lines_about (l :: ls) (b :: bs) (v :: vs).
(** and counts the features [fs] of the layer with this index *)
Definition line_counts (names : list bytes) (fs : list feature) (l : tile_line) (i : N) : Prop :=
  nth_error names (N.to_nat i) = Some (tl_name l) /\ tl_added l = added_of (of_layer i fs) /\ tl_written l <= tl_added l.
