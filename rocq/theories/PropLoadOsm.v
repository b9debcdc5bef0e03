(** C69-C71: from the OSM file to the tiles. *)
From Coq Require Import String Ascii Sorted Permutation.
From Coq Require Import List.
From Verif Require Import Base BaseProof ModelTile SpecTile ModelCodec ModelGeom SpecGeom ModelFeature SpecFeature ModelInserter SpecInserter ModelDict SpecDict ModelOsm SpecOsm ModelMvt SpecMvt ModelRender SpecRender ModelNodeIdx SpecNodeIdx
  ModelServer ModelImport SpecImport SpecFinish ModelProfile SpecProfile ModelLoadOsm SpecLoadOsm ModelHandlers ProofProfile2 ProofProfile3 ProofLoadOsm ProofLoadOsm2 ProofOsmSize ProofOsmShow ProofOsmShow2 ProofHandlers ProofImportEx.
From Verif Require Import ProofFeatureSize.
From Verif Require ProofImportObjects ProofPack PropImport PropProfile PropFinish PropNodeIdx PropPrepare.
Import ListNotations.
Open Scope N_scope.

(** C69: what is handled when an OSM file is loaded is each node of the file, at its location; each way, through those of its nodes that
    are in the file (nothing of it, if these are fewer than two); and each area osmium makes of the relations and of the ways with the
    locations of their nodes.  In C++ as it is defined ([all] false) for nodes west of 34.7483648 degrees only, with int32_t wrapping around ([all] true) for all nodes. *)
Theorem c69_objects : forall all O p bufs objs, sorts query_ltb (ol_sort O) -> file_ok all bufs -> load_objects (arithmetic all) O p bufs = Ok objs ->
  exists areas, Forall2 (area_object O p) (file_areas O bufs) areas /\
    Permutation objs (map (node_object O p) (file_nodes bufs) ++ map (way_object O p bufs) (file_ways bufs) ++ areas).
Proof. intros all O p bufs objs HS HF. exact (loaded_objects all O p bufs HS HF objs). Qed.
(** An area osmium makes is handled as the polygons of its rings, with the holes as holes of the polygon they follow. *)
Theorem c69_areas : forall all O p bufs objs a ps, sorts query_ltb (ol_sort O) -> file_ok all bufs -> load_objects (arithmetic all) O p bufs = Ok objs ->
  In a (file_areas O bufs) -> area_shape O a ps -> In (fst a, GPoly ps, pr_area p (fst a)) objs.
Proof. exact area_handled. Qed.
(** Loading fails only if an area cannot be read *)
Theorem c69_loads : forall all O p bufs, sorts query_ltb (ol_sort O) -> file_ok all bufs ->
  Forall (fun a => exists g, read_area (map (to_item O) (snd a)) = Ok g) (file_areas O bufs) -> exists objs, load_objects (arithmetic all) O p bufs = Ok objs.
Proof. intros all O p bufs HS HF. exact (loads_objects all O p bufs HS HF). Qed.
(** and does not depend on the buffers the file is read in. *)
Theorem c69_buffers : forall all O p bufs bufs', sorts query_ltb (ol_sort O) -> file_ok all bufs -> concat bufs = concat bufs' ->
  load_objects (arithmetic all) O p bufs = load_objects (arithmetic all) O p bufs'.
Proof. exact load_buffers. Qed.
Print Assumptions c69_objects.
Print Assumptions c69_areas.
Print Assumptions c69_loads.
Print Assumptions c69_buffers.

(** C70: with one of the profiles that come with the program, the objects of a file meet the expectations of C61 to C66. *)
Theorem c70_job_ok : forall L O p all bufs j, (forall z, int64_ok z = true -> length (l_dbl L z) = 8%nat) -> shipped p -> file_ok all bufs -> contents_ok L O bufs ->
  load_objects (arithmetic all) O p bufs = Ok (j_objs j) -> job_ok L j.
Proof. intros L O p all bufs j HD HP HF HC HL. exact (osm_job_ok L O p bufs all HD HP HF HC _ j HL eq_refl). Qed.
(** Every object the profile selects is shown as in C62: no other object of its layer has the same id and kind of geometry. *)
Theorem c70_objects_shown : forall L O p all bufs co raw prep st, imported_file L O p all bufs co raw prep st ->
  exists objs, load_objects (arithmetic all) O p bufs = Ok objs /\
  forall t o g cs layer mn g', tz t <= 20 -> valid_tile t -> In (o, g, cs) objs -> imported L (o, g, cs) layer mn -> mn <= tz t -> meets (tz t) t (bounding_box g) = true ->
  clip (l_cut L) (draw_area t) (outline L raw (tz t) g) = Ok g' -> shift_geom (tz t) g' <> GNull ->
  (prep = true -> tz t <= 10 -> kind g <> 2 /\ (kind g = 3 -> (256 <= l_area L (shift_geom (tz t) g'))%Z)) ->
  answers_with L st t (fun vls => exists vl v, In vl vls /\ In v (vl_features vl) /\ vl_name vl = layer /\ shows_object L t (o, g, cs) g' v).
Proof.
  intros L O p all bufs co raw prep st [HL HD HP HF HC (j & HJ & HH)]. exists (j_objs j). split; [exact HJ|].
  exact (object_shown L O p bufs all HD HP HF HC (j_objs j) HJ j eq_refl HL co raw prep st HH).
Qed.
(** Roads: a way of the file tagged as a road is shown in the layer of the roads, from the zoom level of the table on, with the names it has in the
    file, on every tile its bounding box meets (unless clipping and rounding leave nothing of it); on prepared tiles lines are joined. *)
Theorem c70_roads_shown : forall L O p all bufs co raw prep st, imported_file L O p all bufs co raw prep st ->
  forall tb o refs v z t g', road_table p tb -> In (o, refs) (file_ways bufs) -> tagged o "highway" v -> In (v, z) tb ->
  z <= tz t <= 20 -> valid_tile t -> (prep = true -> 10 < tz t) -> (2 <= length (way_points O bufs refs))%nat ->
  meets (tz t) t (bounding_box (GLine [way_points O bufs refs])) = true ->
  clip (l_cut L) (draw_area t) (outline L raw (tz t) (GLine [way_points O bufs refs])) = Ok g' -> shift_geom (tz t) g' <> GNull ->
  shows_in L st t "road" (fun f => v_id f = to_u64 (o_id o) /\ relative_geom (tile_corner t) (shift_geom (tz t) g') = Some (v_geom f) /\ has_text o "highway" f /\ has_text o "name" f).
Proof. exact roads_shown. Qed.
(** Places: a node of the file tagged as a place is a point of every tile it lies in, from the zoom level of the table on, at the pixel
    where it is, with the names it has in the file. *)
Theorem c70_places_shown : forall L O p all bufs co raw prep st, imported_file L O p all bufs co raw prep st ->
  forall tb o l v layer z t, place_table p tb -> In (o, l) (file_nodes bufs) -> tagged o "place" v -> In (v, layer, z) tb ->
  z <= tz t <= 20 -> in_tile t (ol_merc O l) ->
  shows_in L st t layer (fun f => v_id f = to_u64 (o_id o) /\ v_geom f = VPoints [pixel t (ol_merc O l)] /\ has_text o "place" f /\ has_text o "name" f) /\
  (0 <= fst (pixel t (ol_merc O l)) < 4096 /\ 0 <= snd (pixel t (ol_merc O l)) < 4096)%Z.
Proof. exact places_shown. Qed.
(** Areas: the first row of the profile's table that fits decides on the layer and, with the size of the area, on the zoom level. *)
Theorem c70_areas_shown : forall L O p all bufs co raw prep st, imported_file L O p all bufs co raw prep st ->
  forall rows a ps l1 r l2 t g', area_table p rows -> In a (file_areas O bufs) -> area_shape O a ps ->
  rows = l1 ++ r :: l2 -> Forall (fun x => ~ row_fits (fst a) x) l1 -> row_fits (fst a) r ->
  row_zoom (l_oarea L (GPoly ps)) r <= tz t <= 20 -> valid_tile t -> meets (tz t) t (bounding_box (GPoly ps)) = true ->
  clip (l_cut L) (draw_area t) (outline L raw (tz t) (GPoly ps)) = Ok g' -> shift_geom (tz t) g' <> GNull ->
  (prep = true -> tz t <= 10 -> (256 <= l_area L (shift_geom (tz t) g'))%Z) ->
  shows_in L st t (a_layer r) (fun f => v_id f = to_u64 (o_id (fst a)) /\ relative_geom (tile_corner t) (shift_geom (tz t) g') = Some (v_geom f) /\
    forall kind, a_kind r = Some kind -> In (lit "landuse", MString (lit kind)) (v_tags f)).
Proof. exact areas_shown. Qed.
(** Waterways that are neither roads nor rails, *)
Theorem c70_waterways_shown : forall L O p all bufs co raw prep st, imported_file L O p all bufs co raw prep st ->
  forall o refs v z t g', In (o, refs) (file_ways bufs) -> untagged o "highway" -> (forall x, In x ["rail"; "light_rail"; "subway"; "tram"; "narrow_gauge"]%string -> ~ tagged o "railway" x) ->
  tagged o "waterway" v -> In (v, z) waterways ->
  z <= tz t <= 20 -> valid_tile t -> (prep = true -> 10 < tz t) -> (2 <= length (way_points O bufs refs))%nat ->
  meets (tz t) t (bounding_box (GLine [way_points O bufs refs])) = true ->
  clip (l_cut L) (draw_area t) (outline L raw (tz t) (GLine [way_points O bufs refs])) = Ok g' -> shift_geom (tz t) g' <> GNull ->
  shows_in L st t "waterway" (fun f => v_id f = to_u64 (o_id o) /\ relative_geom (tile_corner t) (shift_geom (tz t) g') = Some (v_geom f)).
Proof. exact waterways_shown. Qed.
(** and rails that are not roads, with the kind of line. *)
Theorem c70_rails_shown : forall L O p all bufs co raw prep st, imported_file L O p all bufs co raw prep st ->
  forall o refs v kind z t g', In (o, refs) (file_ways bufs) -> untagged o "highway" -> tagged o "railway" v -> rail_kind p o v kind z ->
  z <= tz t <= 20 -> valid_tile t -> (prep = true -> 10 < tz t) -> (2 <= length (way_points O bufs refs))%nat ->
  meets (tz t) t (bounding_box (GLine [way_points O bufs refs])) = true ->
  clip (l_cut L) (draw_area t) (outline L raw (tz t) (GLine [way_points O bufs refs])) = Ok g' -> shift_geom (tz t) g' <> GNull ->
  shows_in L st t "rail" (fun f => v_id f = to_u64 (o_id o) /\ relative_geom (tile_corner t) (shift_geom (tz t) g') = Some (v_geom f) /\ In (lit "rail", MString (lit kind)) (v_tags f)).
Proof. exact rails_shown. Qed.
Print Assumptions c70_job_ok.
Print Assumptions c70_objects_shown.
Print Assumptions c70_roads_shown.
Print Assumptions c70_places_shown.
Print Assumptions c70_areas_shown.
Print Assumptions c70_waterways_shown.
Print Assumptions c70_rails_shown.

(** C71: the handlers.  No two threads use the same one at a time, *)
Theorem c71_exclusive : forall n works st t u s, hreach n works st -> h_pc st t = HUse s -> h_pc st u = HUse s -> t = u /\ (s < n)%nat.
Proof.
  intros n works st t u s HR Ht Hu. apply hinv_reach in HR. pose proof (hi_use _ _ _ HR t s Ht) as A. pose proof (hi_use _ _ _ HR u s Hu) as B. split; [congruence|].
  rewrite <- (hi_len _ _ _ HR). apply nth_error_Some. congruence.
Qed.
(** nor one after the other: a thread always gets the handler it got first, and nobody else ever gets it; *)
Theorem c71_same : forall n works st st' t s, hreach n works st -> hsteps works st st' -> h_pc st t = HUse s -> forall u s', h_pc st' u = HUse s' -> (u = t <-> s' = s).
Proof.
  intros n works st st' t s HR HS Ht u s' Hu. apply hinv_reach in HR. destruct (kept_steps n works st st' t s HR HS (hi_use _ _ _ HR t s Ht)) as [A HI]. pose proof (hi_use _ _ _ HI u s' Hu) as B. split.
  - intros ->. apply (hi_one _ _ _ HI s' s t); left; assumption.
  - intros ->. congruence.
Qed.
(** and it fails only if there are more threads than handlers. *)
Theorem c71_enough : forall n ts st t, hreach n (fun u => In u ts) st -> (length ts <= n)%nat -> h_pc st t <> HThrow.
Proof.
  intros n ts st t HR Hl Ht. pose proof (hi_throw _ _ _ (hinv_reach _ _ _ HR) t Ht) as [Hi _]. destruct (throw_many _ _ _ _ HR Ht) as (us & L & N & F & Hn).
  assert (length (t :: us) <= length ts)%nat; [|cbn [length] in *; lia]. apply NoDup_incl_length; [constructor; assumption|]. intros u [<-|Hu]; [exact Hi | exact (proj1 (Forall_forall _ _) F u Hu)].
Qed.
(** But there is a race: one thread may be about to read an id while another one is about to write it, without synchronization. *)
Theorem c71_race_refuted : exists st t u s, hreach 2 (fun u => In u [0; 1]%nat) st /\ t <> u /\ h_pc st t = HScan s /\ h_pc st u = HWrite s.
Proof. exact race. Qed.
Print Assumptions c71_exclusive.
Print Assumptions c71_same.
Print Assumptions c71_enough.
Print Assumptions c71_race_refuted.

(** ** A concrete case: a city, a road through nodes of two buffers, one of which is not in the file, and a building *)
Definition c69_node (id : Z) (ts : list (string * string)) (x y : Z) : entity := ENode (OsmObj id (map (fun t => (lit (fst t), lit (snd t))) ts)) (x, y).
Definition c69_way (id : Z) (ts : list (string * string)) (refs : list Z) : entity := EWay (OsmObj id (map (fun t => (lit (fst t), lit (snd t))) ts)) (map (fun r => (r, (undef_coord, undef_coord))) refs).
Definition c69_file : list buffer :=
  [[c69_node 1 [("place", "city"); ("name", "Darmstadt")]%string 86000000 498000000; c69_node 2 [] 86000100 498000100];
   [c69_node 3 [] 86000200 498000300; c69_node 4 [] 86000300 498000100; c69_node (-5) [] 86000300 498000000;
    c69_way 10 [("highway", "primary"); ("name", "Rheinstr."); ("ref", "B26")]%string [2; 99; 3; 4]%Z];
   [c69_way 11 [("building", "yes")]%string [2; 3; 4; -5; 2]%Z; c69_way 12 [("highway", "track")]%string [2; 99]%Z; ERelation (OsmObj 20 []) []]].
Definition c69_libs : osm_libs := {|
  ol_sort := PropNodeIdx.ex_sort;
  ol_merc := fun l => (fst l + 1800000000, 1800000000 - snd l)%Z;
  ol_areas := fun _ ws => flat_map (fun w => match snd w with
      | r :: _ => if (4 <=? length (snd w))%nat && (fst r =? fst (last (snd w) r))%Z then [(OsmObj (2 * o_id (fst w)) (o_tags (fst w)), [ROuter (map snd (snd w))])] else []
      | [] => []
      end) ws |}.
Example c69_ex_file : file_ok false c69_file.
Proof.
  constructor.
  - repeat constructor; vm_compute; reflexivity.
  - repeat apply Forall_cons; try apply Forall_nil; (split; [vm_compute; reflexivity | split; [split; split; vm_compute; discriminate | right; vm_compute; reflexivity]]).
  - vm_compute. reflexivity.
  - repeat constructor; vm_compute; try reflexivity; try discriminate.
Qed.
Example c69_ex_contents : contents_ok ex_libs c69_libs c69_file.
Proof.
  constructor.
  - exact PropNodeIdx.ex_sort_sorts.
  - intros l [H1 H2]. unfold on_map. cbn [c69_libs ol_merc fst snd]. lia.
  - repeat constructor.
  - repeat constructor.
  - split; [repeat constructor; vm_compute; intuition discriminate | repeat constructor; vm_compute; reflexivity].
  - split; [repeat constructor; vm_compute; tauto|]. repeat constructor. eexists. split; [vm_compute; reflexivity|]. split; [right|vm_compute; reflexivity].
    apply PropFinish.c61_usable_ring; [vm_compute; reflexivity | cbn; lia | vm_compute; reflexivity].
  - vm_compute. reflexivity.
Qed.
(** an area of two parts, one of them with a hole; a location that is not in the world is left out *)
Example c69_ex_shape : area_shape c69_libs (OsmObj 1 [], [ROther; ROuter [(0, 0); (90, 0); (90, -90); (0, 0)]; RInner [(10, -1); (30, -1); (0, 2000000000); (30, -20)]; ROther; ROuter [(100, 0); (190, 0); (190, -90)]]%Z)
  [([(1800000000, 1800000000); (1800000090, 1800000000); (1800000090, 1800000090); (1800000000, 1800000000)], [[(1800000010, 1800000001); (1800000030, 1800000001); (1800000030, 1800000020); (1800000010, 1800000001)]]);
   ([(1800000100, 1800000000); (1800000190, 1800000000); (1800000190, 1800000090); (1800000100, 1800000000)], [])]%Z.
Proof.
  exists [([(0, 0); (90, 0); (90, -90); (0, 0)], [[(10, -1); (30, -1); (0, 2000000000); (30, -20)]]); ([(100, 0); (190, 0); (190, -90)], [])]%Z. split; [discriminate|]. split; [reflexivity|].
  repeat constructor; cbn [fst snd length].
  - exists (1800000000, 1800000000)%Z. eexists. split; [reflexivity|]. left. split; reflexivity.
  - exists (1800000010, 1800000001)%Z. eexists. split; [reflexivity|]. right. split; [vm_compute; discriminate | reflexivity].
  - exists (1800000100, 1800000000)%Z. eexists. split; [reflexivity|]. right. split; [vm_compute; discriminate | reflexivity].
Qed.
(** the road, without the missing node; nothing of the track *)
Definition c70_city : osm_input := (OsmObj 1 [(lit "place", lit "city"); (lit "name", lit "Darmstadt")], GPoint [(1886000000, 1302000000)]%Z, pr_node background (OsmObj 1 [(lit "place", lit "city"); (lit "name", lit "Darmstadt")])).
Definition c70_street : osm_obj := OsmObj 10 [(lit "highway", lit "primary"); (lit "name", lit "Rheinstr."); (lit "ref", lit "B26")].
Definition c70_road : osm_input := (c70_street, GLine [[(1886000100, 1301999900); (1886000200, 1301999700); (1886000300, 1301999900)]]%Z, pr_way background c70_street).
Definition c70_house : osm_input := (OsmObj 22 [(lit "building", lit "yes")], GPoly [([(1886000100, 1301999900); (1886000200, 1301999700); (1886000300, 1301999900); (1886000300, 1302000000); (1886000100, 1301999900)], [])]%Z, pr_area background (OsmObj 22 [(lit "building", lit "yes")])).
Definition c70_plain (id x y : Z) : osm_input := (OsmObj id [], GPoint [(x, y)], pr_node background (OsmObj id [])).
Definition c70_objs : list osm_input :=
  [c70_city; c70_plain 2 1886000100 1301999900; c70_plain 3 1886000200 1301999700; c70_plain 4 1886000300 1301999900; c70_plain (-5) 1886000300 1302000000;
   c70_road; (OsmObj 11 [(lit "building", lit "yes")], GLine [[(1886000100, 1301999900); (1886000200, 1301999700); (1886000300, 1301999900); (1886000300, 1302000000); (1886000100, 1301999900)]]%Z, pr_way background (OsmObj 11 [(lit "building", lit "yes")]));
   (OsmObj 12 [(lit "highway", lit "track")], GNull, pr_way background (OsmObj 12 [(lit "highway", lit "track")])); c70_house].
Example c69_ex : load_objects sub32 c69_libs background c69_file = Ok c70_objs.
Proof. vm_compute. reflexivity. Qed.
(** further east the subtraction overflows: undefined behaviour; with wrapping around, the same as above *)
Example c69_ex_east : load_objects sub32 c69_libs background [[c69_node 1 [] 400000000 0; c69_way 2 [] [1; 1]%Z]] = UB /\
  load_objects wsub32 c69_libs background [[c69_node 1 [] 400000000 0; c69_way 2 [] [1; 1]%Z]] =
  Ok [c70_plain 1 2200000000 1800000000; (OsmObj 2 [], GLine [[(2200000000, 1800000000); (2200000000, 1800000000)]]%Z, [])].
Proof. split; vm_compute; reflexivity. Qed.
Definition c70_job : job := Job [] c70_objs.
(** a point has at least 32 bytes if it is far enough from the middle of the map *)
Lemma c70_city_moderate : object_moderate ex_libs 1000 4 c70_city.
Proof.
  unfold c70_city. set (g := GPoint [(1886000000, 1302000000)]%Z). set (o := OsmObj 1 _). assert (HI : forall l m, imported ex_libs (o, g, pr_node background o) l m -> m = 6).
  { intros l m (H & _). vm_compute in H. congruence. }
  split; [intros mn _; eexists; eexists; vm_compute; reflexivity|]. intros l m H. apply HI in H. subst m. split; [discriminate|]. split; [apply few_check; [vm_compute; reflexivity | vm_compute; discriminate]|].
  intros idx ms _ Hms d fast f' v _ HS E. destruct (ProofImportObjects.one_per_key_incl _ _ Hms) as [HIn HN]. pose proof HS as (_ & _ & _ & _ & HP & Eg). cbn [f_geom f_meta] in HP, Eg. split.
  - apply (ProofPack.feature_far_size _ _ _ _ _ E); rewrite Eg; vm_compute; intuition discriminate.
  - destruct (ProofFeatureSize.feature_size _ _ _ _ _ E) as (b & E1 & _ & E3). rewrite Eg in E1, E3. rewrite (ProofFeatureSize.meta_cost_perm _ _ HP) in E3. pose proof (meta_cost_incl _ _ HN HIn) as HM.
    assert (HX : match serialize_geom g with Ok b' => 130 + meta_cost (metadata ex_libs (o, g, pr_node background o)) + masks_cost (make_masks (l_mk ex_libs) g) + blen b' <=? 1000 | _ => true end = true) by (vm_compute; reflexivity).
    rewrite E1 in HX. lia.
Qed.
Lemma c70_ex_moderate : moderate ex_libs [lit "features"; lit "pack"; lit "tiles"] c70_job 20 1000 4.
Proof.
  assert (Hr : object_moderate ex_libs 1000 4 c70_road /\ imported ex_libs c70_road (lit "road") 9).
  { unfold c70_road. apply (ex_object 1000 4 c70_street _ _ (lit "road") 9).
    - reflexivity.
    - reflexivity.
    - discriminate.
    - discriminate.
    - repeat constructor.
    - reflexivity.
    - discriminate.
    - apply PropFinish.c61_usable_line; [discriminate | vm_compute; reflexivity].
    - apply PropFinish.c61_meta. vm_compute. reflexivity.
    - vm_compute. reflexivity.
    - reflexivity.
    - vm_compute. reflexivity.
    - vm_compute. discriminate. }
  constructor.
  - discriminate.
  - intros _. split; [vm_compute; discriminate|]. cbn [c70_job j_objs c70_objs]. repeat apply Forall_cons; try apply Forall_nil; try (apply ex_rejected; [reflexivity | repeat constructor]).
    + exact c70_city_moderate.
    + apply Hr.
    + split; [intros mn _; eexists; eexists; vm_compute; reflexivity|]. intros layer mn (_ & _ & H). congruence.
    + unfold c70_house. apply (ex_object 1000 4 _ _ _ (lit "building") 14).
      * reflexivity.
      * reflexivity.
      * discriminate.
      * discriminate.
      * repeat constructor.
      * reflexivity.
      * discriminate.
      * apply PropFinish.c61_usable_ring; [vm_compute; reflexivity | cbn; lia | vm_compute; reflexivity].
      * apply PropFinish.c61_meta. vm_compute. reflexivity.
      * vm_compute. reflexivity.
      * reflexivity.
      * vm_compute. reflexivity.
      * vm_compute. discriminate.
  - intros _. left. split; [reflexivity|]. exists c70_road, (lit "road"), 9. split; [do 5 right; left; reflexivity | apply Hr].
  - split; [discriminate|]. split; vm_compute; reflexivity.
Qed.
(** loaded, packed and with prepared tiles, whatever was there before *)
Example c70_ex_import : forall st, exists st', import_run ex_libs [lit "features"; lit "pack"; lit "tiles"] c70_job st st' /\ imported_file ex_libs c69_libs background false c69_file false false true st'.
Proof.
  assert (HD : forall z, int64_ok z = true -> length (l_dbl ex_libs z) = 8%nat) by reflexivity.
  assert (HJ : job_ok ex_libs c70_job) by (apply (c70_job_ok ex_libs c69_libs background false c69_file); [exact HD | left; reflexivity | exact c69_ex_file | exact c69_ex_contents | exact c69_ex]).
  intros st. destruct (PropFinish.c65_import_completes ex_libs [lit "features"; lit "pack"; lit "tiles"] c70_job 20 1000 4 st ex_libs_ok HJ eq_refl c70_ex_moderate) as (st' & H1 & H2).
  exists st'. split; [exact H1|]. constructor; [exact ex_libs_ok | exact HD | left; reflexivity | exact c69_ex_file | exact c69_ex_contents|]. exists c70_job. split; [exact c69_ex|].
  exact (h_load ex_libs c70_job [lit "features"; lit "pack"; lit "tiles"] st st' eq_refl H1 H2).
Qed.
(** the city on a tile of zoom level 7, the street on one of zoom level 14 *)
Example c70_ex_city : forall st, imported_file ex_libs c69_libs background false c69_file false false true st ->
  shows_in ex_libs st (Tile 56 38 7) "cities" (fun f => v_id f = 1 /\ v_geom f = VPoints [(848, 3287)]%Z /\ In (lit "name", MString (lit "Darmstadt")) (v_tags f)).
Proof.
  intros st H. destruct (c70_places_shown _ _ _ _ _ _ _ _ _ H bg_places (OsmObj 1 [(lit "place", lit "city"); (lit "name", lit "Darmstadt")]) (86000000, 498000000)%Z "city" "cities" 6 (Tile 56 38 7)) as [HS _].
  - left. split; reflexivity.
  - left. reflexivity.
  - reflexivity.
  - do 4 right. left. reflexivity.
  - split; discriminate.
  - split; (split; [vm_compute; discriminate | vm_compute; reflexivity]).
  - unfold shows_in in *. eapply answers_mono; [|exact HS]. intros vls (vl & f & A & B & C & D & E & _ & G). exists vl, f. split; [exact A|]. split; [exact B|]. split; [exact C|]. split; [exact D|]. split; [exact E|]. apply G. reflexivity.
Qed.
Example c70_ex_road : forall st, imported_file ex_libs c69_libs background false c69_file false false true st ->
  shows_in ex_libs st (Tile 7194 4966 14) "road" (fun f => v_id f = 10 /\ v_geom f = VLines [[(2127, 3012); (2129, 3009); (2130, 3012)]]%Z /\ In (lit "name", MString (lit "Rheinstr.")) (v_tags f)).
Proof.
  intros st H. pose proof (c70_roads_shown _ _ _ _ _ _ _ _ _ H bg_roads c70_street [2; 99; 3; 4]%Z "primary" 9 (Tile 7194 4966 14) (GLine [[(1886000100, 1301999900); (1886000200, 1301999700); (1886000300, 1301999900)]]%Z)) as HS.
  assert (HR : shows_in ex_libs st (Tile 7194 4966 14) "road" (fun f => v_id f = to_u64 (o_id c70_street) /\ relative_geom (tile_corner (Tile 7194 4966 14)) (shift_geom 14 (GLine [[(1886000100, 1301999900); (1886000200, 1301999700); (1886000300, 1301999900)]]%Z)) = Some (v_geom f) /\ has_text c70_street "highway" f /\ has_text c70_street "name" f)).
  { apply HS.
    - left. split; reflexivity.
    - left. reflexivity.
    - reflexivity.
    - do 4 right. left. reflexivity.
    - split; discriminate.
    - split; vm_compute; reflexivity.
    - reflexivity.
    - vm_compute. lia.
    - vm_compute. reflexivity.
    - vm_compute. reflexivity.
    - vm_compute. discriminate. }
  unfold shows_in in *. eapply answers_mono; [|exact HR]. intros vls (vl & f & A & B & C & D & E & _ & G). exists vl, f. split; [exact A|]. split; [exact B|]. split; [exact C|]. split; [exact D|]. split; [|apply G; reflexivity].
  vm_compute in E. injection E as E. symmetry. exact E.
Qed.
(** the building, an area made of a way *)
Definition c70_ring : line := [(1886000100, 1301999900); (1886000200, 1301999700); (1886000300, 1301999900); (1886000300, 1302000000); (1886000100, 1301999900)]%Z.
Example c70_ex_area : forall st, imported_file ex_libs c69_libs background false c69_file false false true st ->
  shows_in ex_libs st (Tile 7194 4966 14) "building" (fun f => v_id f = 22 /\ v_geom f = VRings [[(2127, 3012); (2129, 3009); (2130, 3012); (2130, 3014); (2127, 3012)]]%Z).
Proof.
  intros st H. pose proof (c70_areas_shown _ _ _ _ _ _ _ _ _ H bg_rows (OsmObj 22 [(lit "building", lit "yes")], [ROuter [(86000100, 498000100); (86000200, 498000300); (86000300, 498000100); (86000300, 498000000); (86000100, 498000100)]%Z])
    [(c70_ring, [])] [] building_row ([landuse_row "complex" complex_tags] ++ common_rows) (Tile 7194 4966 14) (GPoly [(c70_ring, [])])) as HS.
  assert (HR : shows_in ex_libs st (Tile 7194 4966 14) "building" (fun f => v_id f = 22 /\ relative_geom (tile_corner (Tile 7194 4966 14)) (shift_geom 14 (GPoly [(c70_ring, [])])) = Some (v_geom f) /\
    forall kind, a_kind building_row = Some kind -> In (lit "landuse", MString (lit kind)) (v_tags f))).
  { apply HS.
    - left. split; reflexivity.
    - left. reflexivity.
    - exists [([(86000100, 498000100); (86000200, 498000300); (86000300, 498000100); (86000300, 498000000); (86000100, 498000100)]%Z, [])]. split; [discriminate|]. split; [reflexivity|].
      constructor; [|constructor]. split; [|constructor]. split; [|cbn; lia]. exists (1886000100, 1301999900)%Z. eexists. split; [reflexivity|]. left. split; reflexivity.
    - reflexivity.
    - constructor.
    - exists ("building", "")%string. split; [left; reflexivity | discriminate].
    - vm_compute. split; discriminate.
    - split; vm_compute; reflexivity.
    - vm_compute. reflexivity.
    - vm_compute. reflexivity.
    - vm_compute. discriminate.
    - intros _ X. vm_compute in X. exfalso. now apply X. }
  unfold shows_in in *. eapply answers_mono; [|exact HR]. intros vls (vl & f & A & B & C & D & E & _). exists vl, f. split; [exact A|]. split; [exact B|]. split; [exact C|]. split; [exact D|].
  vm_compute in E. injection E as E. symmetry. exact E.
Qed.
(** a stream and a siding *)
Example c70_ex_waterway : let o := OsmObj 7 [(lit "waterway", lit "stream")] in
  untagged o "highway" /\ (forall x, In x ["rail"; "light_rail"; "subway"; "tram"; "narrow_gauge"]%string -> ~ tagged o "railway" x) /\ tagged o "waterway" "stream" /\ In ("stream"%string, 13) waterways.
Proof. split; [reflexivity|]. split; [intros x _ X; discriminate X|]. split; [reflexivity | cbn; tauto]. Qed.
Example c70_ex_rail : let o := OsmObj 7 [(lit "railway", lit "rail"); (lit "service", lit "yard")] in untagged o "highway" /\ tagged o "railway" "rail" /\ rail_kind background o "rail" "detail" 14.
Proof.
  split; [reflexivity|]. split; [reflexivity|]. split; [left; split; [reflexivity | left; reflexivity]|]. left. split; [|split; reflexivity].
  exists "service"%string, "yard"%string. split; [cbn; tauto | reflexivity].
Qed.
(** handlers: two threads with two handlers *)
Example c71_ex : exists st, hreach 2 (fun u => In u [0; 1]%nat) st /\ h_pc st 1%nat = HUse 0 /\ h_pc st 0%nat = HScan 0.
Proof.
  assert (R : hreach 2 (fun u => In u [0; 1]%nat) (hst0 2)) by apply hs_refl. unfold hst0 in R. cbn [repeat] in R.
  eapply hs_next in R; [|eapply (hs_call _ _ _ _ 0%nat); [cbn; tauto | reflexivity]].
  eapply hs_next in R; [|eapply (hs_call _ _ _ _ 1%nat); [cbn; tauto | reflexivity]].
  eapply hs_next in R; [|eapply (hs_other _ _ _ _ 1%nat 0%nat); [cbn; tauto | reflexivity | reflexivity | discriminate]].
  eapply hs_next in R; [|eapply (hs_other _ _ _ _ 1%nat 1%nat); [cbn; tauto | reflexivity | reflexivity | discriminate]].
  eapply hs_next in R; [|eapply (hs_end _ _ _ _ 1%nat 2%nat); [cbn; tauto | reflexivity | reflexivity]].
  eapply hs_next in R; [|eapply (hs_take _ _ _ _ 1%nat); [cbn; tauto | reflexivity | cbn; lia]].
  eapply hs_next in R; [|eapply (hs_write _ _ _ _ 1%nat 0%nat); [cbn; tauto | reflexivity]].
  eexists. split; [exact R|]. split; reflexivity.
Qed.
