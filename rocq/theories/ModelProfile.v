(** The profiles that come with the program: profile/full.lua and profile/background.lua.  Each function
    gives the calls it makes on the pending feature, in order; `elseif ... or ...` as in the scripts. *)
From Coq Require Import String Ascii.
From Coq Require Import List.
From Verif Require Import Base ModelTile ModelCodec ModelGeom ModelFeature ModelDict ModelOsm ModelServer ModelImport.
Import ListNotations.
Open Scope N_scope.

(** ** Lua *)
(** string.match (Lua) with the pattern (-?[%d]+), at the beginning of the text: what is matched and what follows *)
Fixpoint take_digits (s : bytes) : bytes * bytes :=
  match s with
  | c :: s' => if is_digit c then let '(d, r) := take_digits s' in (c :: d, r) else ([], s)
  | [] => ([], [])
  end.
Definition number_at (s : bytes) : option (bytes * bytes) :=
  let '(sign, r) := match s with 45 :: r => ([45], r) | _ => ([], s) end in
  match take_digits r with
  | ([], _) => None
  | (d, r') => Some (sign ++ d, r')
  end.
(** the pattern (-?[%d]+);(-?[%d]+) *)
Definition range_at (s : bytes) : option (bytes * bytes) :=
  match number_at s with
  | Some (a, 59 :: r) => match number_at r with Some (b, _) => Some (a, b) | None => None end
  | _ => None
  end.
(** string.match tries the positions from left to right *)
Fixpoint first_match {A} (m : bytes -> option A) (s : bytes) : option A :=
  match m s with
  | Some a => Some a
  | None => match s with [] => None | _ :: s' => first_match m s' end
  end.

Section Profile.
(** tonumber (Lua) and the conversion of the number to int64_t (sol); None: an error *)
Variable num : bytes -> option Z.

(** full.lua:1-13 split_level; the numbers as texts *)
Definition split_level (level : bytes) : option (bytes * bytes) :=
  match first_match range_at level with
  | Some p => Some p
  | None => match first_match number_at level with
            | Some (l, _) => Some (l, l)
            | None => None
            end
  end.
(** full.lua:37-43, 53-59, 95-101; an error ends the script, nothing follows these lines *)
Definition add_levels (o : osm_obj) : list call :=
  if has_any_tag o (lit "level") [] then
    match split_level (get_tag o (lit "level")) with
    | Some (f, t) =>
        match num f with
        | Some zf => CAddInteger (lit "from_level") zf ::
            match num t with Some zt => [CAddInteger (lit "to_level") zt] | None => [] end
        | None => []
        end
    | None => []
    end
  else [].

Definition is1 (o : osm_obj) (k v : string) : bool := has_tag o (lit k) (lit v).
(** has_tag(k, v1) or has_tag(k, v2) or ... *)
Definition is_any (o : osm_obj) (k : string) (vs : list string) : bool := existsb (is1 o k) vs.
(** has_any_tag(k), has_any_tag(k, v1, v2, ...) *)
Definition has_key (o : osm_obj) (k : string) : bool := has_any_tag o (lit k) [].
Definition has_value (o : osm_obj) (k : string) (vs : list string) : bool := has_any_tag o (lit k) (map lit vs).

(** ** full.lua *)
(** full.lua:15-45 *)
Definition full_node (o : osm_obj) : list call :=
  if has_key o "place" then
    (if is1 o "place" "city" then [CApproveMin 5]
     else if is1 o "place" "town" || is1 o "place" "borough" then [CApproveMin 9]
     else if is1 o "place" "suburb" || is1 o "place" "village" then [CApproveMin 11]
     else []) ++
    [CLayer (lit "cities"); CTagString (lit "place"); CTagString (lit "name"); CTagInteger (lit "population")]
  else if is1 o "highway" "elevator" then
    [CApproveMin 18; CLayer (lit "indoor"); CAddString (lit "indoor") (lit "elevator")] ++ add_levels o
  else [].

(** full.lua:61-105 *)
Definition full_road (o : osm_obj) : list call :=
  [CLayer (lit "road"); CTagString (lit "highway"); CTagString (lit "name")] ++
  (if is1 o "highway" "motorway" || is1 o "highway" "trunk" then [CApproveMin 5; CTagString (lit "ref")]
   else if is_any o "highway" ["motorway_link"; "trunk_link"; "primary"; "secondary"; "tertiary"; "aeroway"]%string then [CApproveMin 9; CTagString (lit "ref")]
   else if is_any o "highway" ["residential"; "living_street"; "primary_link"; "secondary_link"; "tertiary_link"; "unclassified"; "service"; "footway"; "track"; "steps"; "cycleway"; "path"]%string then [CApproveMin 12]
   else []) ++
  (if is1 o "highway" "steps" then add_levels o
   else if is1 o "highway" "footway" then [CTagInteger (lit "level")]
   else []).
(** full.lua:116-123, background.lua:76-83 *)
Definition rail_details (o : osm_obj) : bool :=
  is_any o "usage" ["industrial"; "military"; "test"; "tourism"]%string || is_any o "service" ["yard"; "spur"]%string || is1 o "railway" "miniature" || is1 o "railway:preserved" "yes".
(** full.lua:108-139 *)
Definition full_rail (o : osm_obj) : list call :=
  CTagInteger (lit "level") ::
  (if is1 o "railway" "disused" || is1 o "railway" "abandoned" then [CLayer (lit "rail"); CApproveMin 14; CAddString (lit "rail") (lit "old")]
   else if rail_details o then [CTagInteger (lit "level"); CLayer (lit "rail"); CApproveMin 14; CAddString (lit "rail") (lit "detail")]
   else if is1 o "railway" "subway" || is1 o "railway" "tram" then [CLayer (lit "rail"); CApproveMin 10; CAddString (lit "rail") (lit "secondary")]
   else [CLayer (lit "rail"); CApproveMin 5; CAddString (lit "rail") (lit "primary")]).
(** full.lua:142-152, background.lua:103-113 *)
Definition waterway (o : osm_obj) : list call :=
  CLayer (lit "waterway") ::
  (if is1 o "waterway" "river" || is1 o "waterway" "canal" then [CApproveMin 8]
   else if is1 o "waterway" "stream" then [CApproveMin 13]
   else if is1 o "waterway" "ditch" || is1 o "waterway" "drain" then [CApproveMin 15]
   else []).
(** full.lua:47-165 *)
Definition full_way (o : osm_obj) : list call :=
  if has_key o "highway" then
    if is1 o "highway" "elevator" then
      [CApproveMin 18; CLayer (lit "indoor"); CAddString (lit "indoor") (lit "elevator")] ++ add_levels o
    else full_road o
  else if has_value o "railway" ["rail"; "subway"; "tram"]%string then full_rail o
  else if has_key o "waterway" then waterway o
  else [].

(** set_approved_min_by_area with three steps; 1e8, 1e10, ... are floating point numbers with an integer value *)
Definition by_area (a la b lb c : Z) : call := CApproveMinByArea [a; la; b; lb; c; -1]%Z.
(** full.lua:182-186 and alike *)
Definition landuse (kind : string) : list call := [CLayer (lit "landuse"); CAddString (lit "landuse") (lit kind); by_area 14 (10 ^ 8) 10 (10 ^ 10) 8].
(** full.lua:188-195, background.lua:149-156 *)
Definition is_complex (o : osm_obj) : bool :=
  is1 o "leisure" "sports_centre" || is_any o "amenity" ["hospital"; "police"; "fire_station"; "kindergarten"; "school"; "place_of_worship"; "university"]%string.
(** full.lua:253-257, background.lua:214-218 *)
Definition is_water (o : osm_obj) : bool :=
  is1 o "natural" "water" || is_any o "waterway" ["riverbank"; "basin"; "pond"]%string || is1 o "leisure" "swimming_pool".
(** full.lua:167-302 *)
Definition full_area (o : osm_obj) : list call :=
  if has_key o "building" then [CLayer (lit "building"); by_area 14 (10 ^ 8) 12 (10 ^ 10) 10]
  else if has_value o "landuse" ["residential"; "retail"; "industrial"; "commercial"]%string then
    [CLayer (lit "landuse"); CTagString (lit "landuse"); by_area 14 (10 ^ 8) 10 (10 ^ 10) 8]
  else if has_value o "landuse" ["quarry"; "farmyard"; "railway"]%string then landuse "industrial"
  else if is_complex o then landuse "complex"
  else if is1 o "landuse" "forest" || is_any o "natural" ["wood"; "oarchard"; "scrub"]%string then landuse "nature_heavy"
  else if is_any o "landuse" ["farmland"; "vineyard"; "plant_nursery"; "meadow"]%string || is1 o "natural" "grassland" || is1 o "landuse" "grass" then landuse "nature_light"
  else if is_any o "leisure" ["park"; "garden"; "playground"; "stadium"]%string || is_any o "landuse" ["recreation_ground"; "greenhouse_horticulture"; "allotments"]%string then landuse "park"
  else if is1 o "landuse" "cemetery" then landuse "cemetery"
  else if is_any o "landuse" ["brownfield"; "greenfield"; "construction"]%string then [CLayer (lit "construction"); by_area 14 (10 ^ 8) 10 (10 ^ 10) 8]
  else if is_water o then [CLayer (lit "water"); by_area 12 (10 ^ 6) 10 (10 ^ 4) 0]
  else if is1 o "natural" "beach" then landuse "beach"
  else if is_any o "highway" ["pedestrian"; "service"]%string || is1 o "amenity" "parking" then [CLayer (lit "pedestrian"); by_area 12 (10 ^ 8) 10 (10 ^ 10) 8]
  else if is1 o "leisure" "pitch" then [CLayer (lit "sport"); by_area 14 (10 ^ 8) 12 (10 ^ 10) 8]
  else if is_any o "public_transport" ["platform"; "stop_area"]%string then
    [CLayer (lit "landuse"); CAddString (lit "landuse") (lit "public_transport"); CTagInteger (lit "level"); by_area 12 (10 ^ 8) 10 (10 ^ 10) 8]
  else if has_key o "indoor" then
    [CLayer (lit "indoor"); CTagString (lit "indoor"); CTagString (lit "name"); CTagString (lit "shop"); CTagInteger (lit "level"); CApproveMin 18]
  else [].

(** ** background.lua *)
(** background.lua:1-30 *)
Definition bg_node (o : osm_obj) : list call :=
  if has_key o "place" then
    (if is1 o "place" "country" then [CApproveMin 3; CLayer (lit "region")]
     else if has_value o "place" ["state"; "region"; "province"]%string then [CApproveMin 7; CLayer (lit "region")]
     else if is1 o "place" "city" then [CApproveMin 6; CLayer (lit "cities")]
     else if is1 o "place" "town" || is1 o "place" "borough" then [CApproveMin 9; CLayer (lit "cities")]
     else if is1 o "place" "suburb" || is1 o "place" "village" then [CApproveMin 11; CLayer (lit "cities")]
     else []) ++
    [CTagString (lit "place"); CTagString (lit "name"); CTagInteger (lit "population")]
  else [].
(** background.lua:34-67 *)
Definition bg_road (o : osm_obj) : list call :=
  [CLayer (lit "road"); CTagString (lit "highway"); CTagString (lit "name")] ++
  (if is1 o "highway" "motorway" || is1 o "highway" "trunk" then [CApproveMin 5; CTagString (lit "ref")]
   else if is_any o "highway" ["motorway_link"; "trunk_link"; "primary"; "secondary"; "tertiary"; "aeroway"]%string then [CApproveMin 9; CTagString (lit "ref")]
   else if is_any o "highway" ["residential"; "living_street"; "primary_link"; "secondary_link"; "tertiary_link"; "unclassified"; "service"]%string then [CApproveMin 12]
   else if is_any o "highway" ["footway"; "track"; "steps"; "cycleway"; "path"]%string then [CApproveMin 14]
   else []).
(** background.lua:70-100 *)
Definition bg_rail (o : osm_obj) : list call :=
  if is1 o "railway" "disused" || is1 o "railway" "abandoned" then [CLayer (lit "rail"); CApproveMin 14; CAddString (lit "rail") (lit "old")]
  else if rail_details o then [CLayer (lit "rail"); CApproveMin 14; CAddString (lit "rail") (lit "detail")]
  else if is_any o "railway" ["subway"; "tram"; "light_rail"; "narrow_gauge"]%string then [CLayer (lit "rail"); CApproveMin 10; CAddString (lit "rail") (lit "secondary")]
  else [CLayer (lit "rail"); CApproveMin 5; CAddString (lit "rail") (lit "primary")].
(** background.lua:32-126 *)
Definition bg_way (o : osm_obj) : list call :=
  if has_key o "highway" then bg_road o
  else if has_value o "railway" ["rail"; "light_rail"; "subway"; "tram"; "narrow_gauge"]%string then bg_rail o
  else if has_key o "waterway" then waterway o
  else [].
(** background.lua:128-245 *)
Definition bg_area (o : osm_obj) : list call :=
  if has_key o "building" then [CLayer (lit "building"); by_area 14 (10 ^ 8) 12 (10 ^ 10) 10]
  else if is_complex o then landuse "complex"
  else if is1 o "landuse" "cemetery" then landuse "cemetery"
  else if is_any o "landuse" ["brownfield"; "greenfield"; "construction"]%string then [CLayer (lit "construction"); by_area 14 (10 ^ 8) 10 (10 ^ 10) 8]
  else if is_water o then [CLayer (lit "water"); by_area 12 (10 ^ 6) 10 (10 ^ 4) 0]
  else if is1 o "natural" "beach" then landuse "beach"
  else if is_any o "highway" ["pedestrian"; "service"]%string || is1 o "amenity" "parking" then [CLayer (lit "pedestrian"); by_area 12 (10 ^ 8) 10 (10 ^ 10) 8]
  else if is1 o "leisure" "pitch" then [CLayer (lit "sport"); by_area 14 (10 ^ 8) 12 (10 ^ 10) 8]
  else [].
End Profile.

(** feature_handler.cc:39-41: a profile is three functions *)
Record profile := Profile { pr_node : osm_obj -> list call; pr_way : osm_obj -> list call; pr_area : osm_obj -> list call }.
Definition full (num : bytes -> option Z) : profile := Profile (full_node num) (full_way num) full_area.
Definition background : profile := Profile bg_node bg_way bg_area.
