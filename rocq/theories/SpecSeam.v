(** Specification vocabulary for neighbouring tiles. *)
From Coq Require Import List.
From Verif Require Import Base ModelTile ModelCodec ModelGeom SpecGeom ModelFeature ModelMvt SpecMvt ModelRender SpecRender SpecClip ModelDict ModelOsm SpecOsm ModelImport SpecImport.
Import ListNotations.
Open Scope N_scope.

(** a point of a tile as a pixel of the whole map at its zoom level, which has 4096 * 2^z pixels in each direction *)
Definition map_pixel (t : tile) (q : pt) : pt := (fst q + 4096 * Z.of_N (tx t), snd q + 4096 * Z.of_N (ty t))%Z.
Definition on_the_map (t : tile) (v : vgeom) : vgeom :=
  match v with
  | VPoints ps => VPoints (map (map_pixel t) ps)
  | VLines ls => VLines (map (map (map_pixel t)) ls)
  | VRings rs => VRings (map (map (map_pixel t)) rs)
  end.
(** the library function that cuts lines leaves those alone that are inside the box *)
Definition keeps_lines (cut : fbox -> geom -> res geom) : Prop :=
  forall b ls, range_box b -> Forall (strictly_inside b) (geom_points (GLine ls)) -> cut b (GLine ls) = Ok (GLine ls).
(** [q] comes right after [p] *)
Definition adjacent (p q : pt) (l : line) : Prop := exists a b, l = a ++ p :: q :: b.
(** the library function that cuts lines keeps segments of which both ends are inside the box *)
Definition keeps_segments (cut : fbox -> geom -> res geom) : Prop :=
  forall b ls g' l p q, range_box b -> cut b (GLine ls) = Ok g' -> In l ls -> adjacent p q l -> p <> q -> strictly_inside b p -> strictly_inside b q ->
    exists ls' l', g' = GLine ls' /\ In l' ls' /\ adjacent p q l'.
Definition lines_of (g : geom) : list line := match g with GLine ls => ls | _ => [] end.
Definition drawn_lines (v : vgeom) : list line := match v with VLines ls => ls | _ => [] end.
Definition drawn_points (v : vgeom) : list pt := match v with VPoints ps => ps | _ => [] end.
(** no other object of the layer has the same id and kind of geometry *)
Definition only_one (L : libs) (j : job) (layer : bytes) (o : osm_obj) (g : geom) (cs : list call) : Prop :=
  forall o' h cs' mn', In (o', h, cs') (j_objs j) -> imported L (o', h, cs') layer mn' -> to_u64 (o_id o') = to_u64 (o_id o) -> kind h = kind g -> (o', h, cs') = (o, g, cs).
(** whatever a sent tile contains for this id and kind of geometry in the layer *)
Definition always_drawn (L : libs) (st : store) (t : tile) (layer : bytes) (id k : N) (P : vgeom -> Prop) : Prop :=
  forall z, serve_tile L st t = Ok (Some z) -> exists buf, l_deflate L buf = Ok z /\ (blen buf < 2 ^ 29 -> exists vls, decode_tile buf = Some vls /\
    forall vl v, In vl vls -> In v (vl_features vl) -> vl_name vl = layer -> v_id v = id -> vkind (v_geom v) = k -> P (v_geom v)).
