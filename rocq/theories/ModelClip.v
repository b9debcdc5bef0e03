(** Clipping of lines and polygons: src/fixed/algo/clip.cc.  boost::geometry and ClipperLib themselves are
    third party: the fields of [clipper]. *)
From Verif Require Import Base ModelTile ModelCodec ModelGeom ModelMvt ModelCoast.
Open Scope Z_scope.

(** what clip.cc calls: [k_lines] is boost::geometry::intersection of a box and lines (clip.cc:40); [k_add] is
    cl::Clipper::AddPath for a closed path (false: not accepted; it throws for coordinates out of range);
    [k_execute] is Execute(ctIntersection) with the even-odd rule (clip.cc:105-106), the nodes at the top of the solution;
    [k_area] is boost::geometry::area of a ring, up to its value: positive if the ring is clockwise for boost (y up) *)
Record clipper := Clipper {
  k_lines : fbox -> list line -> list line;
  k_add : line -> res bool;
  k_execute : list line -> line -> list pnode;
  k_area : line -> Z }.

Section Clip.
Variable k : clipper.

(** clip.cc:38-48 *)
Definition clip_lines (b : fbox) (ls : list line) : geom :=
  match filter (fun l => negb (length l <? 2)%nat) (k_lines k b ls) with
  | [] => GNull
  | out => GLine out
  end.

(** clip.cc:84-99: a ring as a path; pop_back of an empty vector is undefined *)
Definition ring_to_path (r : line) : res line :=
  match r with
  | [] => UB
  | _ => Ok (removelast r)
  end.
(** cl::ClipperBase::AddPaths (third party): true if any path is accepted *)
Fixpoint add_paths (ps : list line) : res bool :=
  match ps with
  | [] => Ok false
  | p :: ps' => do a <- k_add k p; do r <- add_paths ps'; Ok (a || r)
  end.
(** boost::geometry::correct (third party; clip.cc:112): turns outer rings around that have a negative area, inner
    rings that have a positive one.  All rings are closed already. *)
Definition correct_poly (p : poly) : poly :=
  ((if k_area k (fst p) <? 0 then rev (fst p) else fst p),
   map (fun r => if 0 <? k_area k r then rev r else r) (snd p)).
(** clip.cc:78-114.  to_fixed_polygon2 (:50-76) is to_fixed_polygon of load_coastlines.cc *)
Definition clip_polygon (b : fbox) (ps : list poly) : res geom :=
  do subject <- map_res ring_to_path (flat_map (fun p => fst p :: snd p) ps);
  do a <- add_paths subject;
  do _ <- verify a;
  do c <- k_add k (box_to_path b);
  do _ <- verify c;
  match k_execute k subject (box_to_path b) with
  | [] => Ok GNull
  | childs => do out <- to_fixed_polygons [] childs; Ok (GPoly (map correct_poly out))
  end.

(** clip.cc:116-118, for all kinds of geometry *)
Definition cut_of (b : fbox) (g : geom) : res geom :=
  match g with
  | GLine ls => Ok (clip_lines b ls)
  | GPoly ps => clip_polygon b ps
  | GNull => Ok GNull
  | GPoint ps => Ok (match filter (within b) ps with [] => GNull | ps' => GPoint ps' end)
  end.
End Clip.
