(** Specification vocabulary for clipping: what is expected of boost::geometry and ClipperLib, and what comes out. *)
From Coq Require Import Permutation.
From Verif Require Import Base ModelTile ModelCodec ModelGeom SpecGeom ModelMvt SpecMvt SpecRender ModelCoast SpecCoast ModelClip.
Open Scope Z_scope.

(** ** Paths and rings *)
(** a path and the ring that repeats its first point at the end *)
Definition ring_path (r : line) : line := removelast r.
Definition path_ring (l : line) : line := match l with [] => [] | p :: _ => l ++ [p] end.
(** all points on one straight line (or in one point) *)
Definition flat (l : line) : Prop := forall p q r, In p l -> In q l -> In r l -> orient p q r = 0.
Definition in_area (b : fbox) (p : pt) : Prop := bminx b <= fst p <= bmaxx b /\ bminy b <= snd p <= bmaxy b.
(** the corners of a box in cyclic order, starting at one of them *)
Definition corner_path (b : fbox) (i : nat) : line :=
  let c := [(bminx b, bminy b); (bminx b, bmaxy b); (bmaxx b, bmaxy b); (bmaxx b, bminy b)] in skipn i c ++ firstn i c.

(** ** The libraries *)
Record clipper_ok (k : clipper) : Prop := ClipperOk {
  (** lines are cut off at the border of the box *)
  ck_lines : forall b ls, range_box b -> Forall (fun l => Forall (in_area b) l) (k_lines k b ls);
  (** paths with coordinates in the range are accepted or not, and so are paths that enclose an area; those on one
      straight line are not *)
  ck_range : forall l, Forall in_range l -> exists a, k_add k l = Ok a;
  ck_area : forall l, Forall in_range l -> surveyor (path_ring l) <> 0 -> k_add k l = Ok true;
  ck_flat : forall l, Forall in_range l -> flat l -> k_add k l = Ok false;
  (** the result lies in the box *)
  ck_inside : forall s b, range_box b ->
    Forall (fun c => c <> [] /\ Forall (in_area b) c) (flat_map node_paths (k_execute k s (box_to_path b)));
  (** a rectangle intersected with itself is that rectangle *)
  ck_square : forall b, range_box b -> exists i c, (i < 4)%nat /\ (c = corner_path b i \/ c = rev (corner_path b i)) /\
    k_execute k [corner_path b 0] (box_to_path b) = [PNode c []];
  (** the area of a rectangle has the right sign *)
  ck_rect : forall b i, range_box b -> (i < 4)%nat -> 0 < k_area k (square_ring b i) /\ k_area k (rev (square_ring b i)) < 0 }.

(** rounding moves borders by less than one level 20 pixel *)
Definition clips_near (k : clipper) : Prop :=
  forall s b n c, range_box b -> 0 <= n ->
    (deep_in (n + 1) s c -> cell_in (n + 1) b c -> deep_in n (flat_map node_paths (k_execute k s (box_to_path b))) c) /\
    (deep_out (n + 1) s c -> deep_out n (flat_map node_paths (k_execute k s (box_to_path b))) c).

(** the sign of the area of a ring is computed exactly (boost: positive if clockwise, y upwards) *)
Definition exact_signs (k : clipper) : Prop :=
  forall r, closed_ring r -> Forall in_range r -> Z.sgn (k_area k r) = - Z.sgn (surveyor r).

(** ** What comes out *)
(** the ring runs along the contour, in one direction or the other *)
Definition runs_along (c r : line) : Prop := c <> [] /\ (r = path_ring c \/ r = rev (path_ring c)).
(** the polygon of a node: its contour and those of its holes *)
Definition poly_of (n : pnode) (p : poly) : Prop :=
  let '(PNode c holes) := n in
  runs_along c (fst p) /\ Forall2 (fun h r => let '(PNode hc _) := h in runs_along hc r) holes (snd p).
(** the nodes that are not holes: this one and those in its holes *)
Fixpoint solids (n : pnode) : list pnode :=
  match n with PNode c holes => n :: flat_map (fun h => match h with PNode _ ns => flat_map solids ns end) holes end.

Definition rings_in (g : geom) : list line := match g with GPoly ps => poly_rings ps | _ => [] end.
(** exactly those that [P] holds of, in their order *)
Inductive keeps_only {A} (P : A -> Prop) : list A -> list A -> Prop :=
| ko_nil : keeps_only P [] []
| ko_keep x l m : P x -> keeps_only P l m -> keeps_only P (x :: l) (x :: m)
| ko_drop x l m : ~ P x -> keeps_only P l m -> keeps_only P (x :: l) m.
Definition strictly_inside (b : fbox) (p : pt) : Prop := bminx b < fst p < bmaxx b /\ bminy b < snd p < bmaxy b.

(** the winding the vector tile specification (4.3.3.3) asks for: exterior rings have a positive, interior rings a negative area by
    the surveyor's formula *)
Definition wound_as_specified (p : poly) : Prop := 0 < surveyor (fst p) /\ Forall (fun r => surveyor r < 0) (snd p).
