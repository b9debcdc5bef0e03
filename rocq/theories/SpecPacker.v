(** Specification vocabulary for indexed feature packs. *)
From Coq Require Import Permutation.
From Verif Require Import Base ModelTile SpecTile ModelCodec ModelGeom SpecGeom ModelFeature SpecFeature
  ModelQuadTree SpecQuadTree ModelPack ModelPacker.
Open Scope N_scope.

(** level-20 pixel area of a tile: 4096 pixels times 2^(20-z), borders included *)
Definition tile_area (t : tile) : fbox :=
  let s := (4096 * 2 ^ (20 - Z.of_N (tz t)))%Z in
  FBox (Z.of_N (tx t) * s) (Z.of_N (ty t) * s) ((Z.of_N (tx t) + 1) * s) ((Z.of_N (ty t) + 1) * s).

(** closed boxes have a common point *)
Definition touches (a b : fbox) : Prop :=
  (bminx a <= bmaxx b /\ bminx b <= bmaxx a /\ bminy a <= bmaxy b /\ bminy b <= bmaxy a)%Z.
Definition box_wf (b : fbox) : Prop := (bminx b <= bmaxx b /\ bminy b <= bmaxy b)%Z.

(** any function that sorts by quad key *)
Definition sorts_by_key (srt : list qfeature -> list qfeature) : Prop :=
  forall l, Permutation (srt l) l /\
            StronglySorted (fun a b => lex_leb (qf_key a) (qf_key b) = true) (srt l).

(** a feature as the importer produces it: C++ value ranges, no empty geometry,
    rings of at least four points *)
Definition plain_feature (f : feature) : Prop := feature_ok f /\ proper (f_geom f).

(** [s] is the stored form of [f] (its metadata in any order), with any dictionary [dec] can decode, fast or not *)
Definition stored_as (dec : N -> res meta) (f : feature) (s : bytes) : Prop :=
  blen s < 2 ^ 32 /\
  exists f' enc mk fast, same_but f f' (f_geom f) /\ coder_ok enc dec /\ serialize_feature enc mk fast f' = Ok s.
(** reading [s] gives [f] back: same id, layer, zoom levels, geometry; metadata up to order *)
Definition reads_as (dec : N -> res meta) (rd : mask_reader) (f : feature) (s : bytes) : Prop :=
  exists f', deserialize_feature dec rd no_hints s = Ok (Some f') /\ same_but f f' (f_geom f).
(** the pack [p] holds the features [fs] *)
Definition pack_holds (dec : N -> res meta) (p : bytes) (fs : list feature) : Prop :=
  exists strs rest, unpack_features p = Ok (strs, rest) /\ Forall2 (stored_as dec) fs strs.

(** the quad tree node of a feature *)
Definition node_related (root : tile) (f : feature) (q : tile) : Prop :=
  exists node, find_best_tile root (bounding_box (f_geom f)) = Ok node /\ related node q.
(** the features a query for [q] must find *)
Definition must_find (root q : tile) (f : feature) : Prop :=
  f_minz f <= N.max (tz root) (tz q) /\ touches (bounding_box (f_geom f)) (tile_area q).

(** what the packer needs of a feature: inside the root, minimum zoom level on
    the map, and a stored form of at least 32 bytes *)
Definition fits (enc : meta -> option N) (mk : line -> bytes) (root : tile) (f : feature) : Prop :=
  plain_feature f /\ f_minz f <= 20 /\ touches (bounding_box (f_geom f)) (tile_area root) /\
  (forall f' s, same_but f f' (f_geom f) -> serialize_feature enc mk false f' = Ok s -> 32 <= blen s).
