(** Specification vocabulary: the lines of prepared tiles. *)
From Coq Require Import Permutation String Ascii.
From Coq Require Import List.
From Verif Require Import Base ModelTile SpecTile ModelCodec ModelGeom SpecGeom ModelFeature SpecFeature ModelPacker SpecPacker ModelMvt SpecMvt SpecLines ModelRender SpecRender
  ModelOsm SpecOsm ModelImport SpecImport.
From Verif Require SpecAggregate.
Import ListNotations.
Open Scope N_scope.

(** lines are joined as C41 says, and simplified by [simp] *)
Definition joins_by (simp : line -> N -> line) (agg : list feature -> N -> res (list feature)) : Prop :=
  forall fs z r, Forall line_feature fs -> agg fs z = Ok r -> SpecAggregate.aggregated simp z fs r.

Definition its_lines (g : geom) : list line := match g with GLine ls => ls | _ => [] end.
(** the lines of some objects of a layer, as they are drawn on tile [t] *)
Definition all_lines (L : libs) (raw : bool) (t : tile) (os : list osm_input) : list line :=
  flat_map (fun i => its_lines (outline L raw (tz t) (snd (fst i)))) os.

(** [ls] are the lines of the objects [os] joined: objects with lines that the profile approves for the layer and for this zoom level, near the tile,
    with the same metadata and different ids; their lines joined where exactly two of them meet, and simplified *)
Record strip (L : libs) (j : job) (simp : line -> N -> line) (raw : bool) (t : tile) (layer : bytes) (os : list osm_input) (ls : list line) : Prop := {
  sp_objects : Forall (fun i => In i (j_objs j) /\ kind (snd (fst i)) = 2 /\ touches (bounding_box (snd (fst i))) (draw_area t) /\
    exists mn, imported L i layer mn /\ mn <= tz t) os;
  sp_meta : exists ms, Forall (fun i => exists ms', one_per_key (metadata L i) ms' /\ Permutation ms ms') os;
  sp_ids : NoDup (map (fun i => to_u64 (o_id (fst (fst i)))) os);
  sp_lines : exists js, SpecAggregate.joined_from (all_lines L raw t os) js /\ SpecAggregate.fully_joined (all_lines L raw t os) js /\
    ls = SpecAggregate.simplified simp (tz t) js }.

(** the vector tile feature shows these objects, whose joined lines on this tile are [g']: with the metadata they share and the smallest of their ids *)
Definition shows_strip (L : libs) (t : tile) (os : list osm_input) (g' : geom) (v : vfeature) : Prop :=
  In (v_id v) (map (fun i => to_u64 (o_id (fst (fst i)))) os) /\ Forall (fun i => v_id v <= to_u64 (o_id (fst (fst i)))) os /\ Forall (fun i => shows_tags L i v) os /\
  relative_geom (tile_corner t) (shift_geom (tz t) g') = Some (v_geom v).

(** the segments of some lines, without direction *)
Definition segments_of (ls : list line) : list (pt * pt) := map SpecAggregate.undirected (flat_map SpecAggregate.segments ls).
