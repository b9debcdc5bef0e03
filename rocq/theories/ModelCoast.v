(** Finding sea, land and coast tiles: src/osm/load_coastlines.cc.  The polygon clipper (ClipperLib) and
    boost::geometry::correct are third party: parameters. *)
From Verif Require Import Base ModelTile ModelCodec ModelGeom ModelFeature ModelMvt ModelRender ModelPrepare ModelDrain ModelBqTree.
Open Scope Z_scope.

(** :31-36 coastline: box_ and geo_ (a cl::Path is a list of points without the closing one) *)
Record coast := Coast { co_box : fbox; co_geo : list line }.
(** :39-42 geo_task *)
Notation ctask := (tile * list coast)%type.

(** :75-91 bounding_box(cl::Paths) *)
Definition paths_box (geo : list line) : fbox := envelope (concat geo).
(** :93-98 *)
Definition coast_touches (a b : fbox) : bool :=
  negb ((bmaxx b <? bminx a) || (bmaxx a <? bminx b)) && negb ((bmaxy b <? bminy a) || (bmaxy a <? bminy b)).
(** :100-105 *)
Definition coast_within (outer inner : fbox) : bool :=
  (bminx outer <=? bminx inner) && (bmaxx inner <=? bmaxx outer) && (bminy outer <=? bminy inner) && (bmaxy inner <=? bmaxy outer).
(** :107-112 *)
Definition box_to_path (b : fbox) : line :=
  [(bminx b, bminy b); (bmaxx b, bminy b); (bmaxx b, bmaxy b); (bminx b, bmaxy b)].

(** cl::PolyNode (third party): Contour and Childs.  IsHole() is true exactly at odd depth. *)
Inductive pnode := PNode (contour : line) (childs : list pnode).

(** :128-137 path_to_ring *)
Definition path_to_ring (l : line) : res line :=
  match l with
  | [] => Throw
  | p :: _ => Ok (l ++ [p])
  end.
(** :127-152 to_fixed_polygon: one outer node; the IsHole checks (:140, :145) hold by depth *)
Fixpoint to_fixed_polygon (polygon : list poly) (outer : pnode) : res (list poly) :=
  match outer with
  | PNode c inners =>
      do o <- path_to_ring c;
      do (ins, polygon) <-
        (fix go (is : list pnode) (ins : list line) (polygon : list poly) : res (list line * list poly) :=
           match is with
           | [] => Ok (ins, polygon)
           | PNode ci outers :: is' =>
               do r <- path_to_ring ci;
               do polygon <-
                 (fix all (os : list pnode) (polygon : list poly) : res (list poly) :=
                    match os with
                    | [] => Ok polygon
                    | n :: os' => do polygon <- to_fixed_polygon polygon n; all os' polygon
                    end) outers polygon;
               go is' (ins ++ [r]) polygon
           end) inners [] polygon;
      Ok (polygon ++ [(o, ins)])
  end.
Fixpoint to_fixed_polygons (polygon : list poly) (outers : list pnode) : res (list poly) :=
  match outers with
  | [] => Ok polygon
  | n :: os => do polygon <- to_fixed_polygon polygon n; to_fixed_polygons polygon os
  end.

(** cl::ClosedPathsFromPolyTree (third party): all contours *)
Fixpoint node_paths (n : pnode) : list line := match n with PNode c ns => c :: flat_map node_paths ns end.

Section Coast.
(** :114-125 intersection: throws if the clipper rejects the input *)
Variable cut : list line -> line -> res (list line).
(** :157-164 the difference of draw_clip and all coastlines (even-odd rule over all their paths) *)
Variable diff : line -> list line -> list pnode.
(** boost::geometry::correct *)
Variable fix_rings : list poly -> list poly.

(** :154-182 finalize_tile, without serialize_feature (see C21) *)
Definition finalize_tile (id : N) (draw_clip insert_clip : line) (cs : list coast) : res (option feature) :=
  let solution := diff draw_clip (flat_map co_geo cs) in
  do _ <- verify (negb (length solution =? 0)%nat);
  do inside <- cut (flat_map node_paths solution) insert_clip;
  match inside with
  | [] => Ok None
  | _ =>
      do polygon <- to_fixed_polygons [] solution;
      Ok (Some (Feature id kLayerCoastlineIdx 0 (kMaxZoomLevel + 1) [] (GPoly (fix_rings polygon))))
  end.

(** :208-215 *)
Definition fully_dirtside (draw_clip : line) (geo : list line) : bool :=
  match geo with
  | [l] => (length l =? 4)%nat && forallb (fun p => existsb (pt_eqb p) draw_clip) l
  | _ => false
  end.
(** :196-219 the loop over the coastlines; None: fully dirtside *)
Fixpoint match_coasts (ins drw : fbox) (cs : list coast) : res (option (list coast)) :=
  match cs with
  | [] => Ok (Some [])
  | c :: cs' =>
      if negb (coast_touches ins (co_box c)) then match_coasts ins drw cs'
      else if coast_within ins (co_box c) then
        do r <- match_coasts ins drw cs';
        Ok (match r with Some ms => Some (c :: ms) | None => None end)
      else
        do geo <- cut (co_geo c) (box_to_path drw);
        match geo with
        | [] => match_coasts ins drw cs'
        | _ =>
            if fully_dirtside (box_to_path drw) geo then Ok None
            else
              do r <- match_coasts ins drw cs';
              Ok (match r with Some ms => Some (Coast (paths_box geo) geo :: ms) | None => None end)
        end
  end.

Notation coutput := (out ctask (tile * feature) tile).
(** :187-238 one child; the counters are left out *)
Definition process_child (cs : list coast) (child : tile) : res (list coutput) :=
  do spec <- make_tile_spec child;
  do m <- match_coasts (insert_bounds spec) (draw_bounds spec) cs;
  match m with
  | None => Ok []
  | Some [] => Ok [OSea child]
  | Some ms =>
      if (tz child <? 10)%N then Ok [OTask (child, ms)]
      else
        do id <- tile_to_key child 0;
        do o <- finalize_tile id (box_to_path (draw_bounds spec)) (box_to_path (insert_bounds spec)) ms;
        match o with
        | Some f => Ok [OResult (child, f)]
        | None => Ok []
        end
  end.
(** :184-239 process_coastline: what is enqueued and appended, in this order *)
Definition process_coastline (task : ctask) : res (list coutput) :=
  do os <- map_res (process_child (snd task)) (direct_children (fst task));
  Ok (concat os).
End Coast.

(** :248-264 coastline_handler: one polygon of the shapefile *)
Definition make_coast (p : poly) : coast := Coast (envelope (poly_points p)) (fst p :: snd p).
(** :272-277: a task with all coastlines for every tile of zoom level 4 *)
Definition coast_tasks (polys : list poly) : list ctask :=
  map (fun t => (t, map make_coast polys)) (range_tiles (TBounds 0 0 (2 ^ 4) (2 ^ 4)) 4).
(** :328-341: the value stored under kMetaKeyFullySeasideTree *)
Definition seaside_entry (sea : list tile) : res bytes :=
  do v <- make_bq_tree sea; Ok (bq_string v).
