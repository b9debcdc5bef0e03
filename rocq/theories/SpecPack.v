(** Specification vocabulary for feature packs. *)
From Verif Require Import Base ModelTile ModelCodec ModelGeom ModelFeature ModelPack.
Open Scope N_scope.

(** sizes append_feature accepts and a pack can represent *)
Definition legal_feature (f : bytes) : Prop := 32 <= blen f < 2 ^ 64.

(** two byte strings of the same length that differ only inside a window of [w] bits *)
Definition differ_in_window (w : nat) (a b : bytes) : Prop :=
  exists pre x y post, bits_of a = pre ++ x ++ post /\ bits_of b = pre ++ y ++ post /\
    length x = length y /\ (length x <= w)%nat /\ x <> y.


(** at least 2^20 level-20 pixels away from the centre of the projection *)
Definition far (d : Z) : Prop := (2 ^ 20 < d \/ d < - 2 ^ 20)%Z.
Definition first_point (g : geom) : option pt :=
  match g with
  | GPoint (p :: _) => Some p
  | GLine ((p :: _) :: _) => Some p
  | GPoly (((p :: _), _) :: _) => Some p
  | _ => None
  end.
Definition geom_far (g : geom) : Prop :=
  match first_point g with
  | Some p => far (fst p - kMagicOffset) /\ far (snd p - kMagicOffset)
  | None => False
  end.
Definition box_far (b : fbox) : Prop := far (bminx b - kMagicOffset) /\ far (bminy b - kMagicOffset).
