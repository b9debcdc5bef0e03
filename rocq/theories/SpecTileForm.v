(** Specification vocabulary: what every vector tile must look like, whatever it shows. *)
From Verif Require Import Base ModelTile ModelCodec ModelGeom SpecGeom ModelFeature ModelMvt SpecMvt SpecRender ModelOsm ModelImport SpecImport.
Open Scope N_scope.

(** the geometry is not empty and stays inside the tile and a border of 4096 pixels of the deepest zoom level
    (relative to the tile's corner, 4096 pixels being the side of the tile); lines have two points or more, rings are closed
    and have three or more; no point is repeated *)
Definition geometry_fine (z : N) (v : vgeom) : Prop :=
  vpoints v <> [] /\
  Forall (fun p => bminx (sea_box z) <= fst p <= bmaxx (sea_box z) /\ bminy (sea_box z) <= snd p <= bmaxy (sea_box z))%Z (vpoints v) /\
  match v with
  | VPoints _ => True
  | VLines ls => Forall (fun l => (2 <= length l)%nat /\ no_equal_neighbours l) ls
  | VRings rs => Forall (fun r => (3 <= length r)%nat /\ no_equal_neighbours r /\ closed_ring r) rs
  end.
(** a layer: has the version and extent readers expect and at least one feature; no two features with the same id and kind of geometry; no
    feature with the same key twice; no key twice in the table *)
Definition layer_fine (z : N) (vl : vlayer) : Prop :=
  vl_version vl = 2 /\ vl_extent vl = 4096 /\ vl_features vl <> [] /\ NoDup (vl_keys vl) /\
  NoDup (map (fun v => (v_id v, vkind (v_geom v))) (vl_features vl)) /\
  Forall (fun v => v_id v < 2 ^ 64 /\ geometry_fine z (v_geom v) /\ NoDup (map fst (v_tags v))) (vl_features vl).
(** a tile: fine layers with different names *)
Definition tile_fine (z : N) (vls : list vlayer) : Prop :=
  NoDup (map vl_name vls) /\ Forall (layer_fine z) vls.
(** everything an object says is made of bytes *)
Definition says_bytes (L : libs) (i : osm_input) : Prop := Forall (fun m => bytes_ok (snd m)) (metadata L i).
