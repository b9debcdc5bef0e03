(** Specification vocabulary for the coastline import: regions on the pixel grid of zoom level 20, what is
    expected of the polygon clipper, and what the tasks result in. *)
From Coq Require Import Permutation.
From Verif Require Import Base ModelTile SpecTile ModelCodec ModelGeom SpecGeom ModelFeature ModelDrain SpecDrain ModelPacker SpecPacker SpecBqTree ModelCoast.
Open Scope Z_scope.

(** ** Regions *)
(** the cell (x, y) is the unit square from (x, y) to (x+1, y+1) *)
Notation cell := (Z * Z)%type.
(** the segment from [a] to [b] crosses the ray from the centre of the cell to the right *)
Definition crosses_ray (c : cell) (e : pt * pt) : bool :=
  let '(a, b) := e in
  let px := 2 * fst c + 1 in
  let ya := 2 * snd a - (2 * snd c + 1) in
  let yb := 2 * snd b - (2 * snd c + 1) in
  xorb (0 <? ya) (0 <? yb) &&
  (let k := (px - 2 * fst a) * (yb - ya) + (2 * fst b - 2 * fst a) * ya in
   if 0 <? yb - ya then k <? 0 else 0 <? k).
(** the edges of a closed path *)
Definition path_edges (l : line) : list (pt * pt) :=
  match l with [] => [] | p :: l' => combine l (l' ++ [p]) end.
(** even-odd rule over all paths: the centre of the cell is inside *)
Definition inside (ps : list line) (c : cell) : bool :=
  fold_right xorb false (map (crosses_ray c) (flat_map path_edges ps)).
(** inside (outside), and so are all cells up to [n] cells away *)
Definition near_cell (n : Z) (c d : cell) : Prop := Z.abs (fst c - fst d) <= n /\ Z.abs (snd c - snd d) <= n.
Definition deep_in (n : Z) (ps : list line) (c : cell) : Prop := forall d, near_cell n c d -> inside ps d = true.
Definition deep_out (n : Z) (ps : list line) (c : cell) : Prop := forall d, near_cell n c d -> inside ps d = false.
Definition cell_in (n : Z) (b : fbox) (c : cell) : Prop :=
  bminx b + n <= fst c < bmaxx b - n /\ bminy b + n <= snd c < bmaxy b - n.

(** the rings of a polygon feature *)
Definition rings_of (f : feature) : list line := match f_geom f with GPoly ps => poly_rings ps | _ => [] end.
(** the paths of a polygon of the shapefile *)
Definition land_paths (p : poly) : list line := fst p :: snd p.
(** holes do not reach out of the box around the outer ring *)
Definition land_ok (p : poly) : Prop :=
  let b := envelope (fst p) in
  fst p <> [] /\ Forall (fun q => bminx b <= fst q <= bmaxx b /\ bminy b <= snd q <= bmaxy b) (concat (snd p)).

(** the feature stored for the sea of a tile: its id is the tile's key, and it is in the layer of the
    coastlines on all zoom levels, without metadata *)
Definition sea_feature (t : tile) (f : feature) : Prop :=
  tile_to_key t 0 = Ok (f_id f) /\ f_layer f = 0%N /\ f_minz f = 0%N /\ f_maxz f = 21%N /\ f_meta f = [] /\ exists ps, f_geom f = GPoly ps.

(** ** The clipper *)
(** two segments cross each other *)
Definition orient (a b c : pt) : Z := (fst b - fst a) * (snd c - snd a) - (snd b - snd a) * (fst c - fst a).
Definition segments_cross (e f : pt * pt) : Prop :=
  orient (fst e) (snd e) (fst f) * orient (fst e) (snd e) (snd f) < 0 /\
  orient (fst f) (snd f) (fst e) * orient (fst f) (snd f) (snd e) < 0.
(** a path that visits no point twice and does not cross itself *)
Definition clean_path (l : line) : Prop :=
  NoDup l /\ (forall e f, In e (path_edges l) -> In f (path_edges l) -> ~ segments_cross e f).

(** the clipper works on integer coordinates: rounding moves borders by less than one cell *)
Record clips_well (cut : list line -> line -> res (list line)) (diff : line -> list line -> list pnode)
  (fix_rings : list poly -> list poly) : Prop := {
  cut_in : forall s b r n c, cut s (box_to_path b) = Ok r -> 0 <= n ->
    deep_in (n + 1) s c -> cell_in (n + 1) b c -> deep_in n r c;
  cut_out : forall s b r n c, cut s (box_to_path b) = Ok r -> 0 <= n -> deep_out (n + 1) s c -> deep_out n r c;
  cut_clean : forall s b r, cut s (box_to_path b) = Ok r -> Forall clean_path r;
  diff_in : forall b s n c, 0 <= n -> cell_in (n + 1) b c -> deep_out (n + 1) s c ->
    deep_in n (flat_map node_paths (diff (box_to_path b) s)) c;
  diff_out : forall b s n c, 0 <= n -> deep_in (n + 1) s c -> deep_out n (flat_map node_paths (diff (box_to_path b) s)) c;
  fix_same : forall ps c, inside (poly_rings (fix_rings ps)) c = inside (poly_rings ps) c }.

(** ** Tasks *)
Section Tasks.
Variable cut : list line -> line -> res (list line).
Variable diff : line -> list line -> list pnode.
Variable fix_rings : list poly -> list poly.
(** an exception in a worker thread ends the program; without one this is what the worker does *)
Definition coast_proc (g : ctask) : list (out ctask (tile * feature) tile) :=
  match process_coastline cut diff fix_rings g with Ok os => os | _ => [] end.
(** the tasks that come up *)
Inductive task_reached (gs : list ctask) : ctask -> Prop :=
| tr_first g : In g gs -> task_reached gs g
| tr_next g os g' : task_reached gs g -> process_coastline cut diff fix_rings g = Ok os -> In (OTask g') os -> task_reached gs g'.
Definition no_exception (gs : list ctask) : Prop :=
  forall g, task_reached gs g -> exists os, process_coastline cut diff fix_rings g = Ok os.
End Tasks.
