(** Specification vocabulary for whole imports. *)
From Coq Require Import Permutation String Ascii.
From Coq Require Import List.
From Verif Require Import Base ModelTile SpecTile ModelPackFile ModelTable ModelCodec ModelGeom SpecGeom ModelFeature SpecFeature ModelPack ModelPacker SpecPacker
  ModelBqTree SpecBqTree ModelMvt SpecMvt ModelRender SpecRender ModelInserter SpecInserter ModelDict SpecDict ModelOsm SpecOsm ModelDrain ModelCoast SpecCoast
  ModelRepack SpecRepack ModelServer ModelImport.
Import ListNotations.
Open Scope N_scope.

(** ** What is expected of libraries and third party code *)
(** the geometry left after simplification, if the database is packed *)
Definition outline (L : libs) (raw : bool) (z : N) (g : geom) : geom :=
  if raw then g else select_geom (l_rd L) z (make_masks (l_mk L) g) g.
(** a polygon encloses an area, also when simplified (or nothing is left of it) *)
Definition has_area (L : libs) (g : geom) : Prop := forall raw z, z <= 20 -> areal (outline L raw z g).
(** drawing the sea of a tile: rings of the result have at least four points with 64 bit coordinates and
    enclose an area, and the serialization is shorter than 4 GiB *)
Definition draws_well (L : libs) : Prop :=
  forall b s ps, l_cdiff L b s <> [] -> to_fixed_polygons [] (l_cdiff L b s) = Ok ps ->
    let g := GPoly (l_fix_rings L ps) in
    SpecGeom.proper g /\ coords64 g /\ has_area L g /\
    forall id v, id < 2 ^ 64 -> ser (Feature id 0 0 21 [] g) = Ok v -> blen v < 2 ^ 32.
(** simplification leaves something of every line *)
Definition keeps_some (mk : line -> bytes) (rd : mask_reader) (z : N) : Prop :=
  forall l, l <> [] -> select (snd (rd (mk l) z)) 0 l <> [].
Record libs_ok (L : libs) : Prop := LibsOk {
  ok_draw : draws_well L;
  ok_msort : sorts meta_ltb (l_msort L); ok_dsort : sorts count_gtb (l_dsort L); ok_take : takes (l_take L); ok_psort : sorts pair_ltb (l_psort L);
  ok_isort : forall l, Permutation (l_isort L l) l; ok_qsort : sorts_by_key (l_qsort L);
  ok_possort : sorts_positions (l_possort L); ok_recsort : reorders (l_recsort L); ok_tasksort : reorders (l_tasksort L);
  ok_mask : forall z, z <= 20 -> mask_ok (l_mk L) (l_rd L) z /\ keeps_some (l_mk L) (l_rd L) z;
  ok_deflate : forall b, exists z, l_deflate L b = Ok z;
  ok_cut : cut_ok (l_cut L); ok_cut_areas : cuts_areas (l_cut L); ok_square : keeps_square (l_cut L);
  ok_aggregate : aggregate_ok (l_aggregate L); ok_joins : joins_lines (l_aggregate L);
  ok_threads : (0 < l_threads L)%nat }.

(** ** What is imported *)
(** an object the profile approves (for zoom levels from [mn] on) for a layer *)
Definition imported (L : libs) (i : osm_input) (layer : bytes) (mn : N) : Prop :=
  let '(o, g, cs) := i in
  last_some (approval (l_oarea L g)) cs = Some mn /\ last_some layer_of cs = Some layer /\ g <> GNull.
(** the metadata the profile adds *)
Definition metadata (L : libs) (i : osm_input) : list meta :=
  let '(o, g, cs) := i in flat_map (added (l_stod L) (l_dbl L) o) cs.
(** geometry that is not degenerate and lies in the world *)
Definition usable (L : libs) (g : geom) : Prop :=
  SpecGeom.proper g /\
  match g with GLine ls => Forall (fun l => l <> []) ls /\ N.of_nat (length ls) < 2 ^ 32 - 1 | _ => True end /\
  Forall (fun p => (0 <= fst p < 2 ^ 32)%Z /\ (0 <= snd p < 2 ^ 32)%Z) (geom_points g) /\
  has_area L g.
Definition object_ok (L : libs) (i : osm_input) : Prop :=
  let '(o, g, cs) := i in
  script_ok cs /\
  forall layer mn, imported L i layer mn ->
    short layer /\ mn < 2 ^ 32 /\ usable L g /\
    Forall (fun m => meta_short m /\ meta_value (snd m) <> None) (metadata L i) /\
    forall idx ms v, idx < 2 ^ 64 -> one_per_key (metadata L i) ms ->
      ser (Feature (to_u64 (o_id o)) idx mn 21 ms g) = Ok v -> blen v < 2 ^ 32.
Definition job_ok (L : libs) (j : job) : Prop :=
  Forall (object_ok L) (j_objs j) /\ N.of_nat (length (j_objs j)) < 2 ^ 64 - 2 /\
  N.of_nat (length (flat_map (metadata L) (j_objs j))) < 2 ^ 64.

(** ** Histories of a database *)
(** something is stored for an index tile *)
Definition has_entry (F : table) (i : tile) : Prop := exists k v, tile_to_key i 0 = Ok k /\ In (k, v) F.
(** no pack has 1 GiB or more *)
Definition small_packs (st : store) : Prop :=
  forall k v rs, In (k, v) (st_features st) -> pack_records_deserialize v = Ok rs -> Forall (fun r => r_size r < 2 ^ 30) rs.
(** a run that loads coastlines ([co]) or features ([fe]) or both, whatever was there before, followed by
    runs that load nothing; [raw] nothing was packed, [prep] tiles were prepared.
    The database may be packed any number of times, but not after preparing tiles. *)
Inductive history (L : libs) (j : job) : forall co fe raw prep : bool, store -> Prop :=
| h_load tasks st st' : loads tasks = true -> import_run L tasks j st st' -> small_packs st' ->
    history L j (has_any_task tasks [lit "coastlines"]) (has_any_task tasks [lit "features"])
      (negb (has_any_task tasks [lit "pack"])) (has_any_task tasks [lit "tiles"]) st'
| h_more tasks j' co fe raw prep st st' : history L j co fe raw prep st ->
    loads tasks = false -> import_run L tasks j' st st' -> small_packs st' ->
    (has_any_task tasks [lit "pack"] = true -> prep = false) ->
    history L j co fe (raw && negb (has_any_task tasks [lit "pack"])) (prep || has_any_task tasks [lit "tiles"]) st'.

(** ** What is shown *)
(** the tile's answer is the compressed form of a vector tile of which [P] holds (tiles of 512 MiB and more
    are not looked at) *)
Definition answers_with (L : libs) (st : store) (t : tile) (P : list vlayer -> Prop) : Prop :=
  exists buf z, serve_tile L st t = Ok (Some z) /\ l_deflate L buf = Ok z /\
    (blen buf < 2 ^ 29 -> exists vls, decode_tile buf = Some vls /\ P vls).
(** the vector tile feature shows the object, whose geometry on this tile is [g'] *)
Definition shows_tags (L : libs) (i : osm_input) (v : vfeature) : Prop :=
  exists ms ms', one_per_key (metadata L i) ms /\ Permutation ms' ms /\ tags_of ms' (v_tags v).
Definition shows_object (L : libs) (t : tile) (i : osm_input) (g' : geom) (v : vfeature) : Prop :=
  v_id v = to_u64 (o_id (fst (fst i))) /\ shows_tags L i v /\ relative_geom (tile_corner t) (shift_geom (tz t) g') = Some (v_geom v).

(** how reading the coastlines ended *)
Definition coast_result (L : libs) (polys : list poly) (s : cst ctask (tile * feature) tile) : Prop :=
  creach (coast_proc (l_ccut L) (l_cdiff L) (l_fix_rings L)) (coast_tasks polys) (l_threads L) s /\ c_main s = MExit /\
  no_exception (l_ccut L) (l_cdiff L) (l_fix_rings L) (coast_tasks polys).
