(** Specification vocabulary for OSM files. *)
From Coq Require Import String Ascii Sorted Permutation.
From Coq Require Import List.
From Verif Require Import Base ModelTile ModelCodec ModelGeom SpecGeom ModelFeature ModelDict SpecDict ModelOsm SpecOsm ModelNodeIdx SpecNodeIdx ModelServer ModelImport SpecImport SpecMvt ModelProfile SpecProfile ModelLoadOsm.
Import ListNotations.
Open Scope N_scope.

(** ** What is in the file *)
Definition file_nodes (bufs : list buffer) : list (osm_obj * npos) := flat_map (fun e => match e with ENode o l => [(o, l)] | _ => [] end) (concat bufs).
Definition file_ways (bufs : list buffer) : list (osm_obj * list Z) := flat_map (fun e => match e with EWay o refs => [(o, map fst refs)] | _ => [] end) (concat bufs).
Definition file_relations (bufs : list buffer) : list (osm_obj * list (N * Z * bytes)) := flat_map (fun e => match e with ERelation o ms => [(o, ms)] | _ => [] end) (concat bufs).
(** where the node with this id is *)
Definition position (bufs : list buffer) (id : Z) : option npos :=
  option_map snd (find (fun n => (Z.abs (o_id (fst n)) =? Z.abs id)%Z) (file_nodes bufs)).

(** a file as it should be: nodes in the order of their ids (ignoring the sign), without repetitions, with locations in the
    world, no locations in ways; [all]: also east of 34.7483648 degrees *)
Record file_ok (all : bool) (bufs : list buffer) : Prop := {
  fo_sorted : StronglySorted (fun a b => (Z.abs (o_id (fst a)) < Z.abs (o_id (fst b)))%Z) (file_nodes bufs);
  fo_nodes : Forall (fun n => (Z.abs (o_id (fst n)) < 2 ^ 62)%Z /\ loc_ok (snd n) /\ (all = true \/ (fst (snd n) < 347483648)%Z)) (file_nodes bufs);
  fo_many : (Z.of_nat (length (file_nodes bufs)) < 2 ^ 31)%Z;
  fo_refs : Forall (fun e => match e with EWay _ refs => Forall (fun r => (-2 ^ 63 < fst r < 2 ^ 63)%Z /\ snd r = (undef_coord, undef_coord)) refs | _ => True end) (concat bufs) }.
(** int32_t as the language has it, or wrapping around *)
Definition arithmetic (all : bool) : Z -> Z -> res Z := if all then wsub32 else sub32.

(** ** What the objects are *)
(** the points of the nodes of a way, those that are in the file *)
Definition way_points (O : osm_libs) (bufs : list buffer) (refs : list Z) : line :=
  flat_map (fun id => match position bufs id with Some l => [ol_merc O l] | None => [] end) refs.
Definition node_object (O : osm_libs) (p : profile) (n : osm_obj * npos) : osm_input := (fst n, GPoint [ol_merc O (snd n)], pr_node p (fst n)).
Definition way_object (O : osm_libs) (p : profile) (bufs : list buffer) (w : osm_obj * list Z) : osm_input :=
  (fst w, match way_points O bufs (snd w) with [] | [_] => GNull | l => GLine [l] end, pr_way p (fst w)).
(** the ways with the locations of their nodes; where there is none, an invalid one *)
Definition nowhere : npos := (347483647, 1247483647)%Z.
Definition located (bufs : list buffer) (w : osm_obj * list Z) : osm_obj * list (Z * npos) :=
  (fst w, map (fun id => (id, match position bufs id with Some l => l | None => nowhere end)) (snd w)).
(** the areas of the file: those osmium makes of its relations and ways *)
Definition file_areas (O : osm_libs) (bufs : list buffer) : list oarea := ol_areas O (file_relations bufs) (map (located bufs) (file_ways bufs)).
Definition area_object (O : osm_libs) (p : profile) (a : oarea) (i : osm_input) : Prop :=
  exists g, read_area (map (to_item O) (snd a)) = Ok g /\ i = (fst a, g, pr_area p (fst a)).

(** What an area looks like: its outer rings, each followed by the rings of its holes (and anything else between), of those locations that
    are in the world; rings are closed *)
Definition in_world (l : npos) : bool := ((Z.abs (fst l) <=? 1800000000) && (Z.abs (snd l) <=? 900000000))%Z.
Definition ring_of (O : osm_libs) (ls : list npos) (r : line) : Prop := closes (map (ol_merc O) (filter in_world ls)) r /\ (3 <= length r)%nat.
Definition area_shape (O : osm_libs) (a : oarea) (ps : list (line * list line)) : Prop :=
  exists parts, parts <> [] /\ filter (fun i => match i with ROther => false | _ => true end) (snd a) = flat_map (fun p => ROuter (fst p) :: map RInner (snd p)) parts /\
    Forall2 (fun p r => ring_of O (fst p) (fst r) /\ Forall2 (ring_of O) (snd p) (snd r)) parts ps.

(** ** Sizes: tags below 16 MiB, ways and areas with fewer than 2^24 nodes; ids *)
Definition small_tags (o : osm_obj) : Prop := Forall (fun t => blen (snd t) < 2 ^ 24) (o_tags o).
Definition osm_id (o : osm_obj) : Prop := int64_ok (o_id o) = true.
(** the number of points and rings *)
Definition weight (g : geom) : N :=
  N.of_nat (length (geom_points g)) + match g with GLine ls => N.of_nat (length ls) | GPoly ps => N.of_nat (length (poly_rings ps)) | _ => 0 end.
(** points of the map *)
Definition on_map (q : pt) : Prop := (0 <= fst q < 2 ^ 32 /\ 0 <= snd q < 2 ^ 32)%Z.
(** osmium's areas can be read: rings of at least four points *)
Definition area_ok (L : libs) (O : osm_libs) (a : oarea) : Prop :=
  exists g, read_area (map (to_item O) (snd a)) = Ok g /\ (g = GNull \/ usable L g) /\ weight g < 2 ^ 24.
Record contents_ok (L : libs) (O : osm_libs) (bufs : list buffer) : Prop := {
  ct_sort : sorts query_ltb (ol_sort O);
  ct_merc : forall l, loc_ok l -> on_map (ol_merc O l);
  ct_tags : Forall small_tags (map fst (file_nodes bufs) ++ map fst (file_ways bufs) ++ map fst (file_areas O bufs));
  ct_ids : Forall osm_id (map fst (file_ways bufs) ++ map fst (file_areas O bufs));
  ct_ways : NoDup (map (fun w => o_id (fst w)) (file_ways bufs)) /\ Forall (fun w => N.of_nat (length (snd w)) < 2 ^ 24 - 1) (file_ways bufs);
  ct_areas : NoDup (map (fun a => o_id (fst a)) (file_areas O bufs)) /\ Forall (area_ok L O) (file_areas O bufs);
  ct_many : N.of_nat (length (file_nodes bufs)) + N.of_nat (length (file_ways bufs)) + N.of_nat (length (file_areas O bufs)) < 2 ^ 60 }.
(** one of the two profiles *)
Definition shipped (p : profile) : Prop := p = background \/ exists num, p = full num.

(** ** Where a point is *)
(** in the square of the tile *)
Definition in_tile (t : tile) (q : pt) : Prop :=
  (Z.of_N (tx t) * 2 ^ (32 - Z.of_N (tz t)) <= fst q < (Z.of_N (tx t) + 1) * 2 ^ (32 - Z.of_N (tz t)) /\
   Z.of_N (ty t) * 2 ^ (32 - Z.of_N (tz t)) <= snd q < (Z.of_N (ty t) + 1) * 2 ^ (32 - Z.of_N (tz t)))%Z.
(** the pixel of the tile: 4096 in each direction *)
Definition pixel (t : tile) (q : pt) : pt :=
  ((fst q - Z.of_N (tx t) * 2 ^ (32 - Z.of_N (tz t))) / 2 ^ (20 - Z.of_N (tz t)), (snd q - Z.of_N (ty t) * 2 ^ (32 - Z.of_N (tz t))) / 2 ^ (20 - Z.of_N (tz t)))%Z.

(** ** Tables of the profiles *)
Definition road_table (p : profile) (t : list (string * N)) : Prop := p = background /\ t = bg_roads \/ (exists num, p = full num) /\ t = full_roads.
Definition place_table (p : profile) (t : list (string * string * N)) : Prop := p = background /\ t = bg_places \/ (exists num, p = full num) /\ t = full_places.
Definition area_table (p : profile) (t : list arow) : Prop := p = background /\ t = bg_rows \/ (exists num, p = full num) /\ t = full_rows.
(** the kinds of rail tracks a profile knows, and those that are secondary lines *)
Definition rail_table (p : profile) (v : string) : Prop :=
  p = background /\ In v ["rail"; "light_rail"; "subway"; "tram"; "narrow_gauge"]%string \/ (exists num, p = full num) /\ In v ["rail"; "subway"; "tram"]%string.
Definition secondary_rails (p : profile) (v : string) : Prop :=
  p = background /\ In v ["subway"; "tram"; "light_rail"; "narrow_gauge"]%string \/ (exists num, p = full num) /\ In v ["subway"; "tram"]%string.
(** how a rail track is shown: branch lines from level 14, main lines from 5, the others from 10 *)
Definition rail_kind (p : profile) (o : osm_obj) (v kind : string) (z : N) : Prop :=
  rail_table p v /\
  (branch_line o /\ kind = "detail"%string /\ z = 14 \/
   ~ branch_line o /\ v = "rail"%string /\ kind = "primary"%string /\ z = 5 \/
   ~ branch_line o /\ secondary_rails p v /\ kind = "secondary"%string /\ z = 10).
(** a database made with the objects of a file *)
Record imported_file (L : libs) (O : osm_libs) (p : profile) (all : bool) (bufs : list buffer) (co raw prep : bool) (st : store) : Prop := {
  if_libs : libs_ok L;
  if_doubles : forall z, int64_ok z = true -> length (l_dbl L z) = 8%nat;
  if_profile : shipped p;
  if_file : file_ok all bufs;
  if_contents : contents_ok L O bufs;
  if_run : exists j, load_objects (arithmetic all) O p bufs = Ok (j_objs j) /\ history L j co true raw prep st }.
(** a feature of a layer of the tile's answer *)
Definition shows_in (L : libs) (st : store) (t : tile) (layer : string) (P : vfeature -> Prop) : Prop :=
  answers_with L st t (fun vls => exists vl v, In vl vls /\ In v (vl_features vl) /\ vl_name vl = lit layer /\ P v).
(** the text of a tag *)
Definition has_text (o : osm_obj) (k : string) (v : vfeature) : Prop :=
  forall w, tag_value (o_tags o) (lit k) = Some w -> In (lit k, MString w) (v_tags v).
