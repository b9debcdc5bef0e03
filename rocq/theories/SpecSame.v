(** Specification vocabulary for imports that differ only in how they were run. *)
From Coq Require Import List Permutation.
From Verif Require Import Base ModelTile ModelCodec ModelGeom ModelFeature ModelMvt SpecMvt ModelRender ModelServer ModelDict ModelOsm SpecOsm ModelImport SpecImport.
Import ListNotations.
Open Scope N_scope.

(** The libraries give the same geometry and numbers.  Threads, the order of equal elements when sorting, compression and the joining of lines may differ. *)
Record same_results (L1 L2 : libs) : Prop := SameResults {
  same_stod : l_stod L1 = l_stod L2; same_dbl : l_dbl L1 = l_dbl L2; same_oarea : l_oarea L1 = l_oarea L2;
  same_mk : l_mk L1 = l_mk L2; same_rd : l_rd L1 = l_rd L2; same_cut : l_cut L1 = l_cut L2; same_area : l_area L1 = l_area L2 }.
Definition same_feature (v1 v2 : vfeature) : Prop := v_id v1 = v_id v2 /\ v_geom v1 = v_geom v2 /\ Permutation (v_tags v1) (v_tags v2).
(** the features of a tile that belong to this id and kind of geometry in the layer *)
Definition drawn_in (vls : list vlayer) (layer : bytes) (id k : N) (v : vfeature) : Prop :=
  exists vl, In vl vls /\ In v (vl_features vl) /\ vl_name vl = layer /\ v_id v = id /\ vkind (v_geom v) = k.
(** both servers send the tile and what they send is related *)
Definition both_answer (L1 L2 : libs) (st1 st2 : store) (t : tile) (P : list vlayer -> list vlayer -> Prop) : Prop :=
  exists buf1 z1 buf2 z2, serve_tile L1 st1 t = Ok (Some z1) /\ l_deflate L1 buf1 = Ok z1 /\ serve_tile L2 st2 t = Ok (Some z2) /\ l_deflate L2 buf2 = Ok z2 /\
    (blen buf1 < 2 ^ 29 -> blen buf2 < 2 ^ 29 -> exists vls1 vls2, decode_tile buf1 = Some vls1 /\ decode_tile buf2 = Some vls2 /\ P vls1 vls2).
(** the libraries that cut the coastlines agree *)
Definition same_coast (L1 L2 : libs) : Prop := l_ccut L1 = l_ccut L2 /\ l_cdiff L1 = l_cdiff L2 /\ l_fix_rings L1 = l_fix_rings L2.
(** no imported area is in the layer of the sea *)
Definition no_coast_areas (L : libs) (j : job) (fe : bool) : Prop :=
  fe = true -> forall o g cs mn, In (o, g, cs) (j_objs j) -> imported L (o, g, cs) coastline mn -> kind g <> 3.
