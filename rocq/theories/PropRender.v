(** C44, C52: serving tiles from the database. *)
From Coq Require Import Permutation.
From Verif Require Import Base BaseProof ModelTile SpecTile ModelPackFile ModelCodec ModelGeom SpecGeom ModelFeature SpecFeature
  ModelQuadTree SpecQuadTree ModelPack ModelPacker SpecPacker ModelBqTree SpecBqTree ModelMvt SpecMvt ModelRender SpecRender ProofBestTile ProofMvtTile ProofBqQuery ProofRender PropCodec PropPacker.
Open Scope N_scope.

(** C44: a stored tile is sent as it is, whatever else the database holds *)
Theorem c44_stored_verbatim : forall tiles features s x t k b,
  tz t <= 20 -> valid_tile t -> prepared x t -> tile_to_key t 0 = Ok k ->
  table_sorted tiles -> In (k, b) tiles ->
  get_tile tiles features s x t = Ok (Some b).
Proof. exact stored_verbatim. Qed.
Print Assumptions c44_stored_verbatim.

(** C44: a tile that was not stored and is not covered by sea is empty *)
Theorem c44_not_stored : forall tiles features s x t k sea,
  tz t <= 20 -> valid_tile t -> prepared x t -> tile_to_key t 0 = Ok k ->
  (forall b, ~ In (k, b) tiles) -> seaside_is x sea -> ~ covered sea t ->
  get_tile tiles features s x t = Ok None.
Proof. exact not_stored. Qed.
Print Assumptions c44_not_stored.

(** C44: covered by sea and not stored: one layer (the first one) with one
    feature, the sea square; or nothing when fully seaside tiles are ignored *)
Theorem c44_sea_only : forall tiles features s x t k sea name,
  tz t <= 20 -> valid_tile t -> prepared x t -> tile_to_key t 0 = Ok k ->
  (forall b, ~ In (k, b) tiles) -> seaside_is x sea -> covered sea t ->
  nth_error (x_names x) 0 = Some name ->
  cut_ok (x_cut x) -> cuts_areas (x_cut x) -> keeps_square (x_cut x) ->
  aggregate_ok (x_aggregate x) -> joins_lines (x_aggregate x) ->
  if x_ignore_seaside x then get_tile tiles features s x t = Ok None
  else exists buf, buf <> [] /\
    (forall r, get_tile tiles features s x t = Ok r -> sent x buf r) /\
    (x_compress x = false -> get_tile tiles features s x t = Ok (Some buf)) /\
    (blen buf < 2 ^ 29 -> exists v, decode_tile buf = Some [v] /\ vl_name v = name /\
      exists u, vl_features v = [u] /\ is_sea k (tz t) u).
Proof. exact sea_only. Qed.
Print Assumptions c44_sea_only.

(** C52: a tile is rendered without failing *)
Theorem c52_total : forall raw enc mk srt x t tiles features s rows sea,
  sorts_by_key srt -> tz t <= 20 -> valid_tile t -> renderer_ok enc mk x (tz t) -> seaside_is x sea ->
  database_ok raw enc (x_dec x) mk (x_rd x) srt s features rows -> ~ prepared x t -> x_names x <> [] ->
  Forall (fun f => f_layer f < N.of_nat (length (x_names x)) /\ meta_ok f /\
    areal (simplified raw mk (x_rd x) (tz t) f) /\ (x_agg_lines x = true -> joinable (simplified raw mk (x_rd x) (tz t) f))) (near_features rows t) ->
  total_deflate x ->
  exists r, get_tile tiles features s x t = Ok r.
Proof. exact get_total. Qed.
Print Assumptions c52_total.

(** C52: every feature that must be drawn on the tile (zoom level in its range,
    bounding box touching the tile, something left after simplification, clipping
    and rounding to pixels) is in the tile that is sent, with its id, its layer,
    its tags and its geometry.  All stored features with its layer, id and kind
    of geometry are copies of it (a feature is stored once per index tile), and it
    is not joined with others.  Where polygons are collected and those smaller than a pixel
    are dropped, it is large enough; in the layer of the coastlines its id is not that of a sea
    square (those come first). *)
Theorem c52_feature_shown : forall raw enc mk srt x t tiles features s rows sea,
  sorts_by_key srt -> tz t <= 20 -> valid_tile t -> renderer_ok enc mk x (tz t) -> seaside_is x sea ->
  database_ok raw enc (x_dec x) mk (x_rd x) srt s features rows -> ~ prepared x t -> x_names x <> [] ->
  Forall (fun f => f_layer f < N.of_nat (length (x_names x)) /\ meta_ok f /\
    areal (simplified raw mk (x_rd x) (tz t) f) /\ (x_agg_lines x = true -> joinable (simplified raw mk (x_rd x) (tz t) f))) (near_features rows t) ->
  forall f g, In f (near_features rows t) -> must_draw raw mk (x_rd x) t f ->
  (f_layer f = 0 -> kind (f_geom f) = 3 -> forall e, covers t e -> covered sea e -> tile_to_key e 0 <> Ok (f_id f)) ->
  (forall f', In f' (near_features rows t) -> f_layer f' = f_layer f -> f_id f' = f_id f -> kind (f_geom f') = kind (f_geom f) ->
     same_but f f' (f_geom f)) ->
  ~ (x_agg_lines x = true /\ kind (f_geom f) = 2) ->
  clip (x_cut x) (draw_area t) (simplified raw mk (x_rd x) (tz t) f) = Ok g -> shift_geom (tz t) g <> GNull ->
  (f_layer f <> 0 -> kind (f_geom f) = 3 -> x_agg_polys x = true -> x_drop_subpixel x = true -> (256 <= x_area x (shift_geom (tz t) g))%Z) ->
  exists buf, buf <> [] /\
    (forall r, get_tile tiles features s x t = Ok r -> sent x buf r) /\
    (x_compress x = false -> get_tile tiles features s x t = Ok (Some buf)) /\
    (blen buf < 2 ^ 29 -> exists vls l v, decode_tile buf = Some vls /\ In l vls /\ In v (vl_features l) /\
       nth_error (x_names x) (N.to_nat (f_layer f)) = Some (vl_name l) /\ shows_stored raw (tile_corner t) mk x t f v).
Proof. exact feature_shown. Qed.
Print Assumptions c52_feature_shown.

(** C52: nothing else is in the tile: everything shown is a sea square of a
    seaside tile inside the tile, or a stored feature that may be drawn there
    (or lines joined from stored lines) *)
Theorem c52_only_stored : forall raw enc mk srt x t tiles features s rows sea,
  sorts_by_key srt -> tz t <= 20 -> valid_tile t -> renderer_ok enc mk x (tz t) -> seaside_is x sea ->
  database_ok raw enc (x_dec x) mk (x_rd x) srt s features rows -> ~ prepared x t -> x_names x <> [] ->
  Forall (fun f => f_layer f < N.of_nat (length (x_names x)) /\ meta_ok f /\
    areal (simplified raw mk (x_rd x) (tz t) f) /\ (x_agg_lines x = true -> joinable (simplified raw mk (x_rd x) (tz t) f))) (near_features rows t) ->
  forall b, get_tile tiles features s x t = Ok (Some b) ->
  exists buf, buf <> [] /\ sent x buf (Some b) /\ (blen buf < 2 ^ 29 -> exists vls, decode_tile buf = Some vls /\ forall l v, In l vls -> In v (vl_features l) ->
    (nth_error (x_names x) 0 = Some (vl_name l) /\ v_tags v = [] /\ vkind (v_geom v) = 3 /\
       exists e, covers t e /\ covered sea e /\ tile_to_key e 0 = Ok (v_id v)) \/
    (exists f, In f (near_features rows t) /\ may_draw raw mk (x_rd x) t f /\
       nth_error (x_names x) (N.to_nat (f_layer f)) = Some (vl_name l) /\ vkind (v_geom v) = kind (f_geom f) /\
       (shows_stored raw (tile_corner t) mk x t f v \/
        x_agg_lines x = true /\ kind (f_geom f) = 2 /\ v_id v = f_id f /\ exists ms, Permutation ms (f_meta f) /\ tags_of ms (v_tags v)))).
Proof. exact only_stored. Qed.
Print Assumptions c52_only_stored.

(** tiles below zoom level 20 are refused *)
Theorem c52_too_deep : forall tiles features s x t, 20 < tz t -> get_tile tiles features s x t = Throw.
Proof. intros. unfold get_tile, kMaxZoomLevel. replace (tz t <=? 20) with false by lia. reflexivity. Qed.
Print Assumptions c52_too_deep.

(** ** A concrete database *)
(** third party clipping stand-in: keeps what lies inside and is closed *)
Definition c52_inside (b : fbox) (g : geom) : bool :=
  forallb (fun p => (bminx b <=? fst p) && (fst p <=? bmaxx b) && (bminy b <=? snd p) && (snd p <=? bmaxy b))%Z (geom_points g).
Definition c52_closed (r : line) : bool :=
  match r with p :: q => negb (length q =? 0)%nat && pt_eqb (last q p) p | [] => false end.
Definition c52_cut (b : fbox) (g : geom) : res geom :=
  Ok (if c52_inside b g && match g with GPoly ps => forallb c52_closed (poly_rings ps) | _ => true end then g else GNull).
Example c52_ex_cut : cut_ok c52_cut /\ cuts_areas c52_cut /\ keeps_square c52_cut.
Proof.
  split; [|split].
  - intros b g g' _ H. unfold c52_cut in H. apply Ok_inj in H. destruct (c52_inside b g && _) eqn:E; subst g'.
    2: { split; [constructor|]. split; [exact I | now left]. }
    apply andb_prop in E as [E1 E2]. split; [|split; [|now right]].
    + unfold geom_in. apply Forall_forall. intros p Hp. unfold c52_inside in E1. rewrite forallb_forall in E1. specialize (E1 p Hp). lia.
    + destruct g as [|?|?|ps]; try exact I. cbn [rings_closed]. apply Forall_forall. intros r Hr. rewrite forallb_forall in E2. specialize (E2 r Hr).
      destruct r as [|p q]; [discriminate|]. cbn [c52_closed] in E2. apply andb_prop in E2 as [E2 E3]. destruct (ProofShift.pt_eqb_spec (last q p) p) as [E|]; [|discriminate].
      exists p. destruct q as [|a q] using rev_ind; [discriminate|]. rewrite last_last in E. subst a. exists q. reflexivity.
  - intros b g _ _. unfold c52_cut. eauto.
  - intros b (Hx & _ & Hy & _). exists 0%nat. split; [lia|]. set (g := GPoly [(square_ring b 0, [])]). unfold c52_cut. replace (c52_inside b g && _) with true; [reflexivity|]. symmetry. apply andb_true_iff. split.
    + unfold g, square_ring, c52_inside, geom_points, flat_map, poly_points. cbn [skipn firstn fst snd app concat map forallb]. rewrite ?app_nil_r. cbn [forallb fst snd app]. lia.
    + unfold g, square_ring. cbn [skipn firstn poly_rings flat_map app fst snd forallb c52_closed length Nat.eqb negb last andb]. destruct (ProofShift.pt_eqb_spec (bminx b, bminy b) (bminx b, bminy b)); [reflexivity | congruence].
Qed.

Definition c52_root : tile := Tile 550 340 10.
Definition c52_f1 : feature := Feature 7 1 5 12 [([110], [2; 65]); ([111], [1])]
  (GLine [[(2306867200, 1426063360); (2306868201, 1426064360); (2307869998, 1427063398)]]%Z).
Definition c52_f2 : feature := Feature 8 2 11 20 [] (GPoint [(2310000000, 1426163360)]%Z).
Definition c52_features : list feature := [c52_f1; c52_f2].
Definition c52_pack : bytes :=
  match (do ss <- map_res (serialize_feature c21_enc c21_mk true) c52_features; pack_features ss) with Ok p => p | _ => [] end.
Definition c52_B : bytes :=
  match pack_features_quad c21_enc c21_dec c21_mk c21_rd isort c52_root [c52_pack] with Ok B => B | _ => [] end.
Definition c52_file : pfile := PFile c52_B (blen c52_B).
Definition c52_rows : list row := [Row c52_root 0 [(Rec 0 (blen c52_B), c52_features)]].
Definition c52_table : table :=
  [(match tile_to_key c52_root 0 with Ok k => k | _ => 0 end, pack_records_serialize [Rec 0 (blen c52_B)])].
Definition c52_sea : list tile := [Tile 1101 681 11; Tile 0 0 3].
Definition c52_x : rctx :=
  RCtx 4 (match make_bq_tree c52_sea with Ok v => v | _ => [] end) [[99]; [114; 100]; [112]] c21_dec
    false false false false false true (fun b => Ok b) c52_cut (fun _ => 0%Z) (fun ls _ => Ok (filter (of_kind 2) ls)) c21_rd.

Lemma c52_ex_plain : Forall plain_feature c52_features.
Proof.
  repeat apply Forall_cons; [..|apply Forall_nil]; split; try discriminate; do 4 (split; [vm_compute; reflexivity|]);
    repeat (apply Forall_cons; [split; vm_compute; reflexivity|]); apply Forall_nil.
Qed.
Example c52_ex_database : database_ok false c21_enc (x_dec c52_x) c21_mk (x_rd c52_x) isort c52_file c52_table c52_rows.
Proof.
  split; [|split].
  - apply Forall2_cons; [|apply Forall2_nil]. split; [vm_compute; reflexivity|]. split; [|vm_compute; reflexivity].
    apply Forall_cons; [split; vm_compute; reflexivity | apply Forall_nil].
  - split; [apply Forall_nil | exact I].
  - apply Forall_cons; [|apply Forall_nil]. split; [reflexivity|]. split; [split; vm_compute; reflexivity|].
    apply Forall_cons; [|apply Forall_nil]. split; [exact c52_ex_plain|]. exists [c52_pack], [c52_features], c52_B. split; [reflexivity|]. split.
    { apply Forall2_cons; [|apply Forall2_nil].
      assert (HX : forall f s, serialize_feature c21_enc c21_mk true f = Ok s -> (blen s <? 2 ^ 32) = true -> stored_as c21_dec f s).
      { intros f s H1 H2. split; [now apply N.ltb_lt|]. exists f, c21_enc, c21_mk, true. split; [repeat split; apply Permutation_refl|]. split; [apply c21_ex | assumption]. }
      eexists _, _. split; [vm_compute; reflexivity|]. apply Forall2_cons; [|apply Forall2_cons; [|apply Forall2_nil]]; apply HX; vm_compute; reflexivity. }
    split; [vm_compute; reflexivity|]. split; [apply N.ltb_lt; vm_compute; reflexivity | vm_compute; reflexivity].
Qed.
(** the same features as the inserter leaves them, before packing *)
Definition c52_raw_pack : bytes :=
  match (do ss <- map_res (serialize_feature (fun _ => None) (fun _ => []) true) c52_features; pack_features ss) with Ok p => p | _ => [] end.
Definition c52_raw_file : pfile := PFile c52_raw_pack (blen c52_raw_pack).
Definition c52_raw_rows : list row := [Row c52_root 0 [(Rec 0 (blen c52_raw_pack), c52_features)]].
Definition c52_raw_table : table :=
  [(match tile_to_key c52_root 0 with Ok k => k | _ => 0 end, pack_records_serialize [Rec 0 (blen c52_raw_pack)])].
Example c52_ex_raw_database : database_ok true c21_enc (x_dec c52_x) c21_mk (x_rd c52_x) isort c52_raw_file c52_raw_table c52_raw_rows.
Proof.
  split; [|split].
  - apply Forall2_cons; [|apply Forall2_nil]. split; [vm_compute; reflexivity|]. split; [|vm_compute; reflexivity].
    apply Forall_cons; [split; vm_compute; reflexivity | apply Forall_nil].
  - split; [apply Forall_nil | exact I].
  - apply Forall_cons; [|apply Forall_nil]. split; [reflexivity|]. split; [split; vm_compute; reflexivity|].
    apply Forall_cons; [|apply Forall_nil]. split; [exact c52_ex_plain|].
    eexists _, c52_raw_pack. split; [|split; [|vm_compute; reflexivity]].
    + apply Forall2_cons; [|apply Forall2_cons; [|apply Forall2_nil]]; (split; [vm_compute; reflexivity | apply N.ltb_lt; vm_compute; reflexivity]).
    + vm_compute; reflexivity.
Qed.
Example c52_ex_context : renderer_ok c21_enc c21_mk c52_x 11 /\ seaside_is c52_x c52_sea /\ sorts_by_key isort.
Proof.
  split; [|split].
  - destruct c52_ex_cut as (H1 & H2 & _). split; [apply c21_ex|]. split.
    { intros l. cbn [x_rd c52_x]. unfold c21_rd, c21_mk. cbn [fst]. now rewrite map_length. }
    split; [exact H1|]. split; [exact H2|]. split; [|intros ls z; cbn; eauto].
    intros ls z r. cbn [x_aggregate c52_x]. intros H. apply Ok_inj in H. subst r. split.
    + intros f Hf. apply filter_In in Hf as [Hf1 Hf2]. unfold of_kind in Hf2. split; [lia|]. eauto.
    + apply NoDup_map_filter.
  - split; [|split; [|vm_compute; reflexivity]].
    + repeat apply Forall_cons; [..|apply Forall_nil]; (split; [vm_compute; discriminate | split; vm_compute; reflexivity]).
    + apply (fits_by_zoom c52_sea 11); [|vm_compute; discriminate]. repeat apply Forall_cons; [..|apply Forall_nil]; vm_compute; discriminate.
  - exact c12_ex_sort.
Qed.
Example c52_ex_features : forall t, Forall (fun f => f_layer f < N.of_nat (length (x_names c52_x)) /\ meta_ok f /\
  areal (simplified false c21_mk (x_rd c52_x) (tz t) f) /\ (x_agg_lines c52_x = true -> joinable (simplified false c21_mk (x_rd c52_x) (tz t) f))) (near_features c52_rows t).
Proof.
  intros t. assert (H : Forall (fun f => f_layer f < N.of_nat (length (x_names c52_x)) /\ meta_ok f /\
    areal (simplified false c21_mk (x_rd c52_x) (tz t) f) /\ (x_agg_lines c52_x = true -> joinable (simplified false c21_mk (x_rd c52_x) (tz t) f))) c52_features).
  { repeat apply Forall_cons; [..|apply Forall_nil]; (split; [vm_compute; reflexivity|]); (split; [|split; [exact I | discriminate]]); repeat apply Forall_cons; try apply Forall_nil; right; discriminate. }
  unfold near_features, c52_rows. cbn [filter]. destruct (relatedb _ t); [|apply Forall_nil]. cbn [flat_map row_features row_packs snd app].
  rewrite ?app_nil_r. exact H.
Qed.
Example c52_ex_must : must_draw false c21_mk c21_rd (Tile 1100 680 11) c52_f1 /\ ~ must_draw false c21_mk c21_rd (Tile 1100 680 11) c52_f2 /\
  must_draw false c21_mk c21_rd (Tile 1101 680 11) c52_f2.
Proof.
  split; [|split].
  - split; [split; vm_compute; discriminate|]. split; [apply boxes_touch_spec; vm_compute; reflexivity | vm_compute; discriminate].
  - intros (_ & H & _). apply boxes_touch_spec in H. vm_compute in H. discriminate.
  - split; [split; vm_compute; discriminate|]. split; [apply boxes_touch_spec; vm_compute; reflexivity | vm_compute; discriminate].
Qed.
Definition c52_ids (t : tile) : option (list (bytes * list (N * list (bytes * mvalue)))) :=
  match get_tile [] c52_table c52_file c52_x t with
  | Ok (Some b) => option_map (map (fun l => (vl_name l, map (fun v => (v_id v, v_tags v)) (vl_features l)))) (decode_tile b)
  | _ => None
  end.
Example c52_ex : c52_ids (Tile 1100 680 11) = Some [([114; 100], [(7, [([110], MString [65]); ([111], MBool true)])])] /\
  c52_ids (Tile 550 340 10) = Some [([99], [(6341255467336597504, [])]); ([114; 100], [(7, [([110], MString [65]); ([111], MBool true)])])] /\
  c52_ids (Tile 1101 680 11) = Some [([112], [(8, [])])] /\
  ~ prepared c52_x (Tile 1100 680 11).
Proof. split; [vm_compute; reflexivity|]. split; [vm_compute; reflexivity|]. split; [vm_compute; reflexivity|]. intros [_ H]. vm_compute in H. congruence. Qed.

(** C44: a prepared tile, a tile fully at sea, and one that is neither *)
Definition c44_tiles : table := [(match tile_to_key (Tile 5 5 4) 0 with Ok k => k | _ => 0 end, [1; 2; 3])].
Example c44_ex : get_tile c44_tiles c52_table c52_file c52_x (Tile 5 5 4) = Ok (Some [1; 2; 3]) /\
  get_tile c44_tiles c52_table c52_file c52_x (Tile 6 5 4) = Ok None /\
  (match get_tile c44_tiles c52_table c52_file c52_x (Tile 1 1 4) with
   | Ok (Some b) => option_map (map (fun l => (vl_name l, vl_features l))) (decode_tile b)
   | _ => None
   end = Some [([99], [VFeature 2305843284091731968 (VRings [[(-1, -1); (-1, 4096); (4096, 4096); (4096, -1); (-1, -1)]]%Z) []])]) /\
  prepared c52_x (Tile 1 1 4) /\ covered c52_sea (Tile 1 1 4).
Proof.
  split; [vm_compute; reflexivity|]. split; [vm_compute; reflexivity|]. split; [vm_compute; reflexivity|].
  split; [split; vm_compute; congruence|]. exists (Tile 0 0 3). split; [right; now left | split; [vm_compute; discriminate | split; vm_compute; reflexivity]].
Qed.
