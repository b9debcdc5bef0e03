(** Specification vocabulary: what the profiles select, as tables. *)
From Coq Require Import String Ascii.
From Coq Require Import List.
From Verif Require Import Base ModelTile ModelCodec ModelGeom ModelFeature ModelDict ModelOsm SpecOsm SpecDict SpecMvt ModelServer ModelProfile.
Import ListNotations.
Open Scope N_scope.

(** the object has the tag *)
Definition tagged (o : osm_obj) (k v : string) : Prop := tag_value (o_tags o) (lit k) = Some (lit v).
Definition untagged (o : osm_obj) (k : string) : Prop := tag_value (o_tags o) (lit k) = None.
(** the calls put the object in a layer, from a zoom level on *)
Definition selects (area : Z) (cs : list call) (layer : string) (z : N) : Prop :=
  last_some (approval area) cs = Some z /\ last_some layer_of cs = Some (lit layer).
Definition rejects (area : Z) (cs : list call) : Prop := last_some (approval area) cs = None.

(** ** Roads *)
Definition main_roads : list (string * N) :=
  [("motorway", 5); ("trunk", 5); ("motorway_link", 9); ("trunk_link", 9); ("primary", 9); ("secondary", 9); ("tertiary", 9); ("aeroway", 9);
   ("residential", 12); ("living_street", 12); ("primary_link", 12); ("secondary_link", 12); ("tertiary_link", 12); ("unclassified", 12); ("service", 12)]%string.
Definition paths (z : N) : list (string * N) := [("footway", z); ("track", z); ("steps", z); ("cycleway", z); ("path", z)]%string.
Definition full_roads := main_roads ++ paths 12.
Definition bg_roads := main_roads ++ paths 14.
(** ** Waterways *)
Definition waterways : list (string * N) := [("river", 8); ("canal", 8); ("stream", 13); ("ditch", 15); ("drain", 15)]%string.
(** ** Places *)
Definition full_places : list (string * string * N) :=
  [("city", "cities", 5); ("town", "cities", 9); ("borough", "cities", 9); ("suburb", "cities", 11); ("village", "cities", 11)]%string.
Definition bg_places : list (string * string * N) :=
  [("country", "region", 3); ("state", "region", 7); ("region", "region", 7); ("province", "region", 7);
   ("city", "cities", 6); ("town", "cities", 9); ("borough", "cities", 9); ("suburb", "cities", 11); ("village", "cities", 11)]%string.
(** ** Rails: branch lines are those with one of these tags *)
Definition branch_line (o : osm_obj) : Prop :=
  exists k v, In (k, v) [("usage", "industrial"); ("usage", "military"); ("usage", "test"); ("usage", "tourism"); ("service", "yard"); ("service", "spur"); ("railway:preserved", "yes")]%string /\ tagged o k v.

(** ** Areas: the first row of which one tag fits decides; "" stands for any value.  Layer, zoom levels for an
    area below the first limit, below the second one, and for others, and the value of "landuse", if any *)
Record arow := ARow { a_tags : list (string * string); a_layer : string; a_small : N; a_limit1 : Z; a_medium : N; a_limit2 : Z; a_large : N; a_kind : option string }.
Definition fits_tag (o : osm_obj) (kv : string * string) : Prop :=
  match snd kv with
  | EmptyString => ~ untagged o (fst kv)
  | v => tagged o (fst kv) v
  end.
Definition row_fits (o : osm_obj) (r : arow) : Prop := exists kv, In kv (a_tags r) /\ fits_tag o kv.
Definition row_zoom (area : Z) (r : arow) : N :=
  if (area <? a_limit1 r)%Z then a_small r else if (area <? a_limit2 r)%Z then a_medium r else a_large r.
(** whatever conversions to double do, the added metadata contains this *)
Definition adds_string (o : osm_obj) (cs : list call) (k v : string) : Prop :=
  forall stod dbl, In (lit k, encode_string (lit v)) (flat_map (added stod dbl o) cs).
Definition area_rule (o : osm_obj) (area : Z) (cs : list call) (rows : list arow) : Prop :=
  (rejects area cs /\ Forall (fun r => ~ row_fits o r) rows) \/
  exists l1 r l2, rows = l1 ++ r :: l2 /\ Forall (fun r' => ~ row_fits o r') l1 /\ row_fits o r /\ selects area cs (a_layer r) (row_zoom area r) /\
    match a_kind r with Some kind => adds_string o cs "landuse" kind | None => True end.

Definition tags_of_key (k : string) (vs : list string) : list (string * string) := map (fun v => (k, v)) vs.
Definition building_row := ARow [("building", "")]%string "building" 14 (10 ^ 8) 12 (10 ^ 10) 10 None.
Definition landuse_row (kind : string) (ts : list (string * string)) := ARow ts "landuse" 14 (10 ^ 8) 10 (10 ^ 10) 8 (Some kind).
Definition complex_tags := [("leisure", "sports_centre")]%string ++ tags_of_key "amenity" ["hospital"; "police"; "fire_station"; "kindergarten"; "school"; "place_of_worship"; "university"]%string.
Definition common_rows : list arow :=
  [landuse_row "cemetery" [("landuse", "cemetery")]%string;
   ARow (tags_of_key "landuse" ["brownfield"; "greenfield"; "construction"]%string) "construction" 14 (10 ^ 8) 10 (10 ^ 10) 8 None;
   ARow ([("natural", "water")]%string ++ tags_of_key "waterway" ["riverbank"; "basin"; "pond"]%string ++ [("leisure", "swimming_pool")]%string) "water" 12 (10 ^ 6) 10 (10 ^ 4) 0 None;
   landuse_row "beach" [("natural", "beach")]%string;
   ARow [("highway", "pedestrian"); ("highway", "service"); ("amenity", "parking")]%string "pedestrian" 12 (10 ^ 8) 10 (10 ^ 10) 8 None;
   ARow [("leisure", "pitch")]%string "sport" 14 (10 ^ 8) 12 (10 ^ 10) 8 None].
Definition bg_rows : list arow := [building_row; landuse_row "complex" complex_tags] ++ common_rows.
Definition full_rows : list arow :=
  [building_row;
   landuse_row "residential" [("landuse", "residential")]%string; landuse_row "retail" [("landuse", "retail")]%string;
   landuse_row "industrial" [("landuse", "industrial")]%string; landuse_row "commercial" [("landuse", "commercial")]%string;
   landuse_row "industrial" (tags_of_key "landuse" ["quarry"; "farmyard"; "railway"]%string);
   landuse_row "complex" complex_tags;
   landuse_row "nature_heavy" ([("landuse", "forest")]%string ++ tags_of_key "natural" ["wood"; "oarchard"; "scrub"]%string);
   landuse_row "nature_light" (tags_of_key "landuse" ["farmland"; "vineyard"; "plant_nursery"; "meadow"]%string ++ [("natural", "grassland"); ("landuse", "grass")]%string);
   landuse_row "park" (tags_of_key "leisure" ["park"; "garden"; "playground"; "stadium"]%string ++ tags_of_key "landuse" ["recreation_ground"; "greenhouse_horticulture"; "allotments"]%string)] ++
  common_rows ++
  [ARow (tags_of_key "public_transport" ["platform"; "stop_area"]%string) "landuse" 12 (10 ^ 8) 10 (10 ^ 10) 8 (Some "public_transport"%string);
   ARow [("indoor", "")]%string "indoor" 18 0 18 0 18 None].

(** ** Layers *)
Definition layers_of : list string := ["cities"; "region"; "indoor"; "road"; "rail"; "waterway"; "building"; "landuse"; "construction"; "water"; "pedestrian"; "sport"]%string.

(** numbers are read as they are written *)
Definition reads_integers (num : bytes -> option Z) : Prop := forall s z, integer_text s z -> int64_ok z = true -> num s = Some z.
(** a value of a tag is kept as a string *)
Definition keeps_tag (o : osm_obj) (cs : list call) (k : string) : Prop :=
  forall stod dbl w, tag_value (o_tags o) (lit k) = Some w -> In (lit k, encode_string w) (flat_map (added stod dbl o) cs).
(** no metadata with this key *)
Definition drops_tag (o : osm_obj) (cs : list call) (k : string) : Prop :=
  forall stod dbl v, ~ In (lit k, v) (flat_map (added stod dbl o) cs).
(** the calls carry these two numbers as "from_level" and "to_level" *)
Definition between_levels (o : osm_obj) (cs : list call) (a b : Z) : Prop :=
  forall stod dbl v, (In (lit "from_level", v) (flat_map (added stod dbl o) cs) <-> v = encode_integer a) /\
    (In (lit "to_level", v) (flat_map (added stod dbl o) cs) <-> v = encode_integer b).
(** the tags of the object are shorter than 4 GiB *)
Definition short_tags (o : osm_obj) : Prop := Forall (fun t => blen (snd t) < 2 ^ 32 - 1) (o_tags o).
(** the functions of a profile, for nodes, ways and areas *)
Definition functions (p : profile) : list (osm_obj -> list call) := [pr_node p; pr_way p; pr_area p].

(** ** What a function of a profile does with roads of the kind [v], given a table of zoom levels *)
Definition roads (fn : osm_obj -> list call) (t : list (string * N)) (o : osm_obj) (area : Z) (v : string) : Prop :=
  (forall z, In (v, z) t -> selects area (fn o) "road" z) /\ ((forall z, ~ In (v, z) t) -> rejects area (fn o)) /\
  keeps_tag o (fn o) "highway" /\ keeps_tag o (fn o) "name" /\
  (forall z, In (v, z) t -> if z <=? 9 then keeps_tag o (fn o) "ref" else drops_tag o (fn o) "ref").
(** with rail tracks of the kind [v] *)
Definition rails (fn : osm_obj -> list call) (secondary : list string) (o : osm_obj) (area : Z) (v : string) : Prop :=
  (branch_line o -> selects area (fn o) "rail" 14 /\ adds_string o (fn o) "rail" "detail") /\
  (~ branch_line o -> v = "rail"%string -> selects area (fn o) "rail" 5 /\ adds_string o (fn o) "rail" "primary") /\
  (~ branch_line o -> In v secondary -> selects area (fn o) "rail" 10 /\ adds_string o (fn o) "rail" "secondary").
(** with a tag, given a table of layers and zoom levels *)
Definition chooses (cs : list call) (t : list (string * string * N)) (area : Z) (v : string) : Prop :=
  (forall layer z, In (v, layer, z) t -> selects area cs layer z) /\ ((forall layer z, ~ In (v, layer, z) t) -> rejects area cs).
Definition waterway_layers : list (string * string * N) := map (fun e => (fst e, "waterway"%string, snd e)) waterways.
