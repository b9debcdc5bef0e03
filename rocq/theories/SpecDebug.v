(** Specification vocabulary: vector tiles whose features need not have an id (as the format allows). *)
From Verif Require Import Base ModelTile ModelGeom SpecMvt.
From Verif Require Import ModelServer SpecServer.
From Coq Require Import String.
From Coq Require Import List.
Import ListNotations.
Open Scope N_scope.

Record afeature := AFeature { a_id : option N; a_geom : vgeom; a_tags : list (bytes * mvalue) }.
Record alayer := ALayer {
  al_version : N; al_name : bytes; al_extent : N; al_keys : list bytes; al_values : list mvalue; al_features : list afeature }.

Definition read_feature (ks : list bytes) (vs : list mvalue) (b : bytes) : option afeature :=
  obind (parse_msg b) (fun m =>
  obind (match field_all 1 m with [] => Some None | [WInt i] => Some (Some i) | _ => None end) (fun id =>
  obind (obind (field_one (field_all 3 m)) as_int) (fun ty =>
  obind (obind (obind (field_one (field_all 4 m)) as_len) unpack_u32) (fun cmds =>
  obind (match field_all 2 m with [] => Some [] | [WLen t] => unpack_u32 t | _ => None end) (fun t =>
  obind (decode_geometry 1 ty cmds) (fun g =>
  obind (resolve_tags ks vs t) (fun tags => Some (AFeature id g tags)))))))).
Definition read_layer (b : bytes) : option alayer :=
  obind (parse_msg b) (fun m =>
  obind (obind (field_one (field_all 15 m)) as_int) (fun version =>
  obind (obind (field_one (field_all 1 m)) as_len) (fun name =>
  obind (obind (field_one (field_all 5 m)) as_int) (fun extent =>
  obind (all_some (map as_len (field_all 3 m))) (fun ks =>
  obind (all_some (map (fun w => obind (as_len w) decode_value) (field_all 4 m))) (fun vs =>
  obind (all_some (map (fun w => obind (as_len w) (read_feature ks vs)) (field_all 2 m))) (fun fs =>
  Some (ALayer version name extent ks vs fs)))))))).
Definition read_tile (b : bytes) : option (list alayer) :=
  obind (parse_msg b) (fun m =>
    all_some (map (fun f => if fst f =? 3 then obind (as_len (snd f)) read_layer else None) m)).

(** a layer whose features all have ids *)
Definition with_id (v : vfeature) : afeature := AFeature (Some (v_id v)) (v_geom v) (v_tags v).
Definition with_ids (l : vlayer) : alayer :=
  ALayer (vl_version l) (vl_name l) (vl_extent l) (vl_keys l) (vl_values l) (map with_id (vl_features l)).

(** the layer that tells which tile it is *)
Definition names_tile (t : tile) (s : bytes) : Prop :=
  exists x y z, decimal x (tx t) /\ decimal y (ty t) /\ decimal z (tz t) /\
    s = lit "[x=" ++ x ++ lit ", y=" ++ y ++ lit ", z=" ++ z ++ lit "]".
Definition debug_info (label : bytes) : alayer :=
  ALayer 2 (lit "tiles_debug_info") 4096 [lit "tile_id"] [MString label]
    [AFeature None (VPoints [(2048, 2048)%Z]) [(lit "tile_id", MString label)];
     AFeature None (VLines [[(0, 0); (0, 4096); (4096, 4096); (4096, 0); (0, 0)]%Z]) []].
