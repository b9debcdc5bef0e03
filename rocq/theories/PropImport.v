(** C61-C64: whole imports.  Coastlines and map objects are loaded into a database, it may be packed and
    tiles may be prepared; what the server then answers. *)
From Coq Require Import Permutation String Ascii.
From Coq Require Import List.
From Verif Require Import Base BaseProof ModelTile SpecTile ModelGeom SpecGeom ModelFeature SpecFeature ModelCodec ModelPacker SpecPacker ModelBqTree SpecBqTree ModelMvt SpecMvt ModelRender SpecRender
  ModelInserter SpecInserter ModelDict SpecDict ModelOsm SpecOsm ModelDrain ModelCoast SpecCoast ModelServer ModelImport SpecImport
  ProofCoastRun PropCoast ProofImportLoad ProofImportRun ProofImportServe ProofImportTop ProofImportShow.
Import ListNotations.
Open Scope N_scope.

(** C61: after every history of runs the server answers for every tile, without failing *)
Theorem c61_total : forall L j co fe raw prep st, libs_ok L -> job_ok L j -> history L j co fe raw prep st ->
  forall t, tz t <= 20 -> valid_tile t -> exists r, serve_tile L st t = Ok r.
Proof. intros L j co fe raw prep st HL HJ H. exact (shown_total L j co fe raw prep true st HL (history_sinv _ _ _ _ _ _ _ HL HJ H)). Qed.
Print Assumptions c61_total.

(** C62: a map object the profile approves is on every tile with a zoom level from the approved one on that its bounding
    box meets: in its layer, with its id, its metadata and its geometry, simplified (if packed), clipped to the
    tile's surroundings and rounded to pixels, unless nothing is left of it.  It is
    the only one with its layer, id and kind of geometry (1 points, 2 lines, 3 polygons), and not a
    polygon in the layer of the coastlines.  On prepared tiles, lines are joined to others and polygons must not
    be too small. *)
Theorem c62_object_shown : forall L j co raw prep st, libs_ok L -> job_ok L j -> history L j co true raw prep st ->
  forall t o g cs layer mn g', tz t <= 20 -> valid_tile t ->
  In (o, g, cs) (j_objs j) -> imported L (o, g, cs) layer mn ->
  (layer = coastline -> kind g <> 3) ->
  (forall o' h cs' mn', In (o', h, cs') (j_objs j) -> imported L (o', h, cs') layer mn' -> to_u64 (o_id o') = to_u64 (o_id o) -> kind h = kind g -> (o', h, cs') = (o, g, cs)) ->
  mn <= tz t -> meets (tz t) t (bounding_box g) = true ->
  clip (l_cut L) (draw_area t) (outline L raw (tz t) g) = Ok g' -> shift_geom (tz t) g' <> GNull ->
  (prep = true -> tz t <= 10 -> kind g <> 2 /\ (layer <> coastline -> kind g = 3 -> (256 <= l_area L (shift_geom (tz t) g'))%Z)) ->
  answers_with L st t (fun vls => exists vl v, In vl vls /\ In v (vl_features vl) /\ vl_name vl = layer /\ shows_object L t (o, g, cs) g' v).
Proof.
  intros L j co raw prep st HL HJ H t o g cs layer mn g' Hz Hv Hi Him Hco Hun Hmn HM.
  apply (shown_object L j co raw prep true st HL (history_sinv _ _ _ _ _ _ _ HL HJ H) t o g cs layer mn g' Hz Hv Hi Him Hco Hun Hmn HM (or_introl eq_refl)).
Qed.
Print Assumptions c62_object_shown.

(** C63: the sea.  Where reading the coastlines found sea only, every tile shows the square of the sea; *)
Theorem c63_sea_shown : forall L j fe raw prep st, libs_ok L -> job_ok L j -> history L j true fe raw prep st ->
  exists s, coast_result L (j_polys j) s /\
  (forall t k, tz t <= 20 -> valid_tile t -> covered (c_sea s) t -> tile_to_key t 0 = Ok k ->
    answers_with L st t (fun vls => exists vl v, In vl vls /\ In v (vl_features vl) /\ vl_name vl = coastline /\ is_sea k (tz t) v)) /\
(** a tile that contains such tiles shows the square of each largest one (if something is left of it); with prepared tiles, only if
    something else is stored for the tile; *)
  (forall t e k g', tz t <= 20 -> valid_tile t -> ~ covered (c_sea s) t -> maximal (c_sea s) e -> covers t e -> tile_to_key e 0 = Ok k ->
    (prep = false \/ exists e' f', In (e', f') (c_inserted s) /\ related e' t) ->
    clip (l_cut L) (draw_area t) (sea_square e) = Ok g' -> shift_geom (tz t) g' <> GNull ->
    answers_with L st t (fun vls => exists vl v, In vl vls /\ In v (vl_features vl) /\ vl_name vl = coastline /\
      v_id v = k /\ v_tags v = [] /\ relative_geom (tile_corner t) (shift_geom (tz t) g') = Some (v_geom v))) /\
(** and a piece of sea found for a tile of zoom level 10 is shown on every tile it touches that contains that tile or lies in it. *)
  (forall t e f g', tz t <= 20 -> valid_tile t -> In (e, f) (c_inserted s) ->
    (fe = true -> forall o g cs mn, In (o, g, cs) (j_objs j) -> imported L (o, g, cs) coastline mn -> kind g <> 3) ->
    related e t -> touches (bounding_box (f_geom f)) (tile_area t) ->
    clip (l_cut L) (draw_area t) (outline L raw (tz t) (f_geom f)) = Ok g' -> shift_geom (tz t) g' <> GNull ->
    answers_with L st t (fun vls => exists vl v, In vl vls /\ In v (vl_features vl) /\ vl_name vl = coastline /\
      tile_to_key e 0 = Ok (v_id v) /\ v_tags v = [] /\ relative_geom (tile_corner t) (shift_geom (tz t) g') = Some (v_geom v))).
Proof.
  intros L j fe raw prep st HL HJ H. destruct (shown_sea L j fe raw prep true st HL (history_sinv _ _ _ _ _ _ _ HL HJ H)) as (s & HR & H1 & H2 & H3).
  exists s. split; [assumption|]. split; [assumption|]. split.
  - intros t e k g' Hz Hv Hnc Hm Hcv Hk Hp. apply H2; try assumption. destruct Hp as [Hp|(e' & f' & He & Hr)]; [now left|]. right. exists e', f'. auto.
  - intros t e f g' Hz Hv Hd. apply H3; auto.
Qed.
Print Assumptions c63_sea_shown.

(** C64: nothing else is shown: squares of tiles with sea only, pieces of sea found for a tile of zoom level 10, and objects the
    profile approves, from the approved zoom level on and near their bounding box; each as in C62
    and C63, but lines may be joined on prepared tiles *)
Theorem c64_nothing_else : forall L j co fe raw prep st, libs_ok L -> job_ok L j -> history L j co fe raw prep st ->
  exists s, (co = true -> coast_result L (j_polys j) s) /\
  forall t z, tz t <= 20 -> valid_tile t -> serve_tile L st t = Ok (Some z) ->
  exists buf, l_deflate L buf = Ok z /\ (blen buf < 2 ^ 29 -> exists vls, decode_tile buf = Some vls /\ forall vl v, In vl vls -> In v (vl_features vl) ->
    (co = true /\ vl_name vl = coastline /\ v_tags v = [] /\ vkind (v_geom v) = 3 /\ exists e, covers t e /\ covered (c_sea s) e /\ tile_to_key e 0 = Ok (v_id v)) \/
    (co = true /\ exists e f g', In (e, f) (c_inserted s) /\ related e t /\ touches (bounding_box (f_geom f)) (draw_area t) /\
       vl_name vl = coastline /\ tile_to_key e 0 = Ok (v_id v) /\ v_tags v = [] /\
       clip (l_cut L) (draw_area t) (outline L raw (tz t) (f_geom f)) = Ok g' /\ relative_geom (tile_corner t) (shift_geom (tz t) g') = Some (v_geom v)) \/
    (fe = true /\ exists o g cs mn, In (o, g, cs) (j_objs j) /\ imported L (o, g, cs) (vl_name vl) mn /\ mn <= tz t /\ touches (bounding_box g) (draw_area t) /\
       ((exists g', clip (l_cut L) (draw_area t) (outline L raw (tz t) g) = Ok g' /\ shows_object L t (o, g, cs) g' v) \/
        prep = true /\ tz t <= 10 /\ kind g = 2 /\ vkind (v_geom v) = 2 /\ v_id v = to_u64 (o_id o) /\ shows_tags L (o, g, cs) v))).
Proof. intros L j co fe raw prep st HL HJ H. exact (shown_only L j co fe raw prep true st HL (history_sinv _ _ _ _ _ _ _ HL HJ H)). Qed.
Print Assumptions c64_nothing_else.
