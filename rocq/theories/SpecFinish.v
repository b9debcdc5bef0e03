(** Specification vocabulary: inputs of which an import can be completed. *)
From Coq Require Import Permutation String Ascii.
From Coq Require Import List.
From Verif Require Import Base ModelTile SpecTile ModelPackFile ModelTable ModelCodec ModelGeom SpecGeom ModelFeature SpecFeature ModelPacker SpecPacker
  ModelInserter SpecInserter ModelDict SpecDict ModelOsm SpecOsm ModelDrain ModelCoast SpecCoast ModelServer ModelImport SpecImport.
Import ListNotations.
Open Scope N_scope.

(** the stored forms of a feature, as inserted or as packed with any dictionary [d], have at least 32 and at most
    [B] bytes *)
Definition stored_size (L : libs) (B : N) (f : feature) : Prop :=
  forall d fast f' v, N.of_nat (length d) < 2 ^ 64 -> same_but f f' (f_geom f) ->
    serialize_feature (dict_encode (coder_make (l_psort L) d)) (l_mk L) fast f' = Ok v -> 32 <= blen v <= B.
(** the box meets at most [W] index tiles *)
Definition meets_few (W : N) (b : fbox) : Prop :=
  forall ts, NoDup ts -> Forall (fun t => index_tile 10 t /\ meets 10 t b = true) ts -> N.of_nat (length ts) <= W.

(** the profile names a layer for every object it approves, and does not approve it for zoom level 21 and
    above only *)
Definition object_moderate (L : libs) (B W : N) (i : osm_input) : Prop :=
  let '(o, g, cs) := i in
  (forall mn, last_some (approval (l_oarea L g)) cs = Some mn -> exists c n, last_some layer_of cs = Some (c :: n)) /\
  forall layer mn, imported L i layer mn -> mn <= 20 /\ meets_few W (bounding_box g) /\
    forall idx ms, idx < 2 ^ 64 -> one_per_key (metadata L i) ms -> stored_size L B (Feature (to_u64 (o_id o)) idx mn 21 ms g).

(** at most [K] objects and tiles with a coastline, each of which is stored with at most [B] bytes in at most [W] tiles; the
    product is below 1 GiB *)
Record moderate (L : libs) (tasks : list bytes) (j : job) (K B W : N) : Prop := {
  mo_coast : has_any_task tasks [lit "coastlines"] = true ->
    no_exception (l_ccut L) (l_cdiff L) (l_fix_rings L) (coast_tasks (j_polys j)) /\
    forall s, coast_result L (j_polys j) s -> N.of_nat (length (c_inserted s)) <= K /\
      Forall (fun e => coords_small (f_geom (snd e)) /\ touches (bounding_box (f_geom (snd e))) (tile_area (fst e)) /\ stored_size L B (snd e)) (c_inserted s);
  mo_objs : has_any_task tasks [lit "features"] = true -> N.of_nat (length (j_objs j)) <= K /\ Forall (object_moderate L B W) (j_objs j);
  (* there is something to pack *)
  mo_some : has_any_task tasks [lit "pack"; lit "tiles"] = true ->
    (has_any_task tasks [lit "features"] = true /\ exists i layer mn, In i (j_objs j) /\ imported L i layer mn) \/
    (has_any_task tasks [lit "coastlines"] = true /\ forall s, coast_result L (j_polys j) s -> c_inserted s <> []);
  mo_size : 1 <= W /\ 2 * (K + 1) * W * (B + 20) < 2 ^ 30 /\ 2 * (K + 1) * (B + 1500) < 2 ^ 30 }.
