(** Specification vocabulary: lines that can be joined. *)
From Verif Require Import Base ModelTile ModelCodec ModelGeom ModelFeature.
Open Scope Z_scope.

Definition first_pt (l : line) : pt := hd (0, 0) l.
Definition last_pt (l : line) : pt := last l (0, 0).
(** a line with points; (2^63-1, 2^63-1) stands for "no point" and cannot be an end point *)
Definition line_ok (l : line) : Prop :=
  l <> [] /\ first_pt l <> (max64, max64) /\ last_pt l <> (max64, max64).
(** lines that can be joined: fewer than 2^32-1 in one feature *)
Definition joinable (g : geom) : Prop :=
  match g with GLine ls => Forall line_ok ls /\ (N.of_nat (length ls) < 2 ^ 32 - 1)%N | _ => True end.
(** a feature that can be aggregated *)
Definition line_feature (f : feature) : Prop :=
  exists ls, f_geom f = GLine ls /\ Forall line_ok ls /\ (N.of_nat (length ls) < 2 ^ 32 - 1)%N.
(** joining works on such features *)
Definition joins_lines (agg : list feature -> N -> res (list feature)) : Prop :=
  forall ls z, Forall line_feature ls -> exists r, agg ls z = Ok r.
