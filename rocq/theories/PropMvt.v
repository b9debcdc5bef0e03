(** C25-C27: vector tiles. *)
From Coq Require Import Sorting.Sorted.
From Verif Require Import Base ModelTile ModelCodec ModelGeom SpecGeom ModelFeature ModelMvt SpecMvt
  ProofMvtGeom ProofMvt ProofMvtTile.
Open Scope N_scope.

(** C25: whatever encode_geometry writes for a drawable geometry near the tile is
    read back by a vector tile reader as exactly these points, lines or closed
    rings, relative to the tile's top left corner. *)
Theorem c25_roundtrip : forall spec g bs,
  let o := (bminx (px_bounds spec), bminy (px_bounds spec)) in
  encode_geometry spec g = Ok bs -> blen bs < 2 ^ 29 ->
  drawable g -> close_to o g -> rings_closed g ->
  exists v, relative_geom o g = Some v /\ decode_geometry_fields 1 bs = Some v.
Proof. intros spec g bs o H Hb Hd. intros. apply geometry_roundtrip; auto; [now apply drawable_mvt | now apply drawable_rings3]. Qed.
Print Assumptions c25_roundtrip.

(** a reader that insists on the two LineTo commands per ring the standard asks
    for also accepts every ring of at least four points *)
Theorem c25_roundtrip_strict : forall spec g bs,
  let o := (bminx (px_bounds spec), bminy (px_bounds spec)) in
  encode_geometry spec g = Ok bs -> blen bs < 2 ^ 29 ->
  drawable g -> close_to o g -> rings_closed g ->
  (match g with GPoly ps => Forall (fun r => (4 <= length r)%nat) (poly_rings ps) | _ => True end) ->
  exists v, relative_geom o g = Some v /\ decode_geometry_fields 2 bs = Some v.
Proof. intros spec g bs o H Hb Hd. intros. apply geometry_roundtrip; auto. now apply drawable_mvt. Qed.
Print Assumptions c25_roundtrip_strict.

(** C25, for a tile: a geometry clipped to the draw bounds of any existing tile and
    shifted to its zoom level is encoded without exception or overflow (or
    vanishes), decodes to the shifted points relative to the tile, and stays
    within one tile extent around the tile. *)
Theorem c25_shifted : forall t spec g, make_tile_spec t = Ok spec ->
  geom_in (draw_bounds spec) g -> rings_closed g ->
  let g' := shift_geom (tz t) g in
  let o := (bminx (px_bounds spec), bminy (px_bounds spec)) in
  g' <> GNull ->
  exists bs v, encode_geometry spec g' = Ok bs /\ relative_geom o g' = Some v /\
    (blen bs < 2 ^ 29 -> decode_geometry_fields 1 bs = Some v) /\
    Forall (fun p => -4096 <= fst p <= 8192 /\ -4096 <= snd p <= 8192)%Z (vpoints v).
Proof. exact shifted_tile. Qed.
Print Assumptions c25_shifted.

Example c25_ex : exists spec bs, make_tile_spec (Tile 1 0 1) = Ok spec /\
  let g := GPoly [([(2147483648, 0); (2147483648, 2097152); (2147487744, 5); (2147483648, 0)], [])]%Z in
  geom_in (draw_bounds spec) g /\ rings_closed g /\
  shift_geom 1 g = GPoly [([(4096, 0); (4096, 4); (4096, 0)], [])]%Z /\
  encode_geometry spec (shift_geom 1 g) = Ok bs /\
  decode_geometry_fields 1 bs = Some (VRings [[(0, 0); (0, 4); (0, 0)]])%Z.
Proof.
  eexists. eexists. split; [vm_compute; reflexivity|]. cbv zeta. split; [|split; [|split; [|split]]].
  - unfold geom_in. cbn [geom_points flat_map fst snd concat app draw_bounds bminx bminy bmaxx bmaxy].
    repeat (apply Forall_cons; [cbn [fst snd]; lia|]). constructor.
  - cbn [rings_closed poly_rings flat_map fst snd app]. apply Forall_cons; [|constructor].
    exists (2147483648, 0)%Z, [(2147483648, 2097152); (2147487744, 5)]%Z. reflexivity.
  - vm_compute. reflexivity.
  - vm_compute. reflexivity.
  - vm_compute. reflexivity.
Qed.

(** C48 (finding): the standard asks for at least two LineTo points per ring; the
    ring of the example above (a valid closed ring of the tile, collapsed by the
    shift) is encoded with only one, so a strict reader rejects the tile. *)
Theorem c48_strict_rings_refuted : ~ (forall t spec g bs, make_tile_spec t = Ok spec ->
  geom_in (draw_bounds spec) g -> rings_closed g -> shift_geom (tz t) g <> GNull ->
  encode_geometry spec (shift_geom (tz t) g) = Ok bs ->
  exists v, decode_geometry_fields 2 bs = Some v).
Proof.
  intros H. destruct c25_ex as (spec & bs & Hs & Hi & Hc & Hsh & He & _).
  destruct (H _ _ _ bs Hs Hi Hc) as (v & Hv).
  - cbn [tz]. rewrite Hsh. discriminate.
  - exact He.
  - revert Hs He Hv. cbn [tz] in *. rewrite Hsh. clear. intros Hs He Hv.
    assert (E : make_tile_spec (Tile 1 0 1) = Ok (match make_tile_spec (Tile 1 0 1) with Ok s => s | _ => TSpec (FBox 0 0 0 0) (FBox 0 0 0 0) (FBox 0 0 0 0) end))
      by (vm_compute; reflexivity).
    rewrite E in Hs. apply BaseProof.Ok_inj in Hs. subst spec. vm_compute in He.
    apply BaseProof.Ok_inj in He. subst bs. vm_compute in Hv. discriminate.
Qed.
Print Assumptions c48_strict_rings_refuted.

(** C26/C27: a finished tile, read by an independent vector tile reader, contains
    exactly the layers that have something to draw, in increasing layer order;
    each with the layer's name, version 2, extent 4096, key and value tables
    without duplicates, and exactly the layer's drawn features in order, each with
    its id, its geometry relative to the tile, and its visible metadata (key and
    typed value) in order. *)
Theorem c26_tile_content : forall c t fs buf,
  ctx_for c t -> Forall (fun f => f_id f < 2 ^ 64) fs -> aggregate_ok (c_aggregate c) ->
  build_tile c fs = Ok buf -> blen buf < 2 ^ 29 ->
  exists ls vls, decode_tile buf = Some vls /\ Forall2 (shows_layer c) ls vls /\
    StronglySorted N.lt (map fst ls) /\
    (forall i ws, In (i, ws) ls <-> layer_content c i fs = Ok ws /\ ws <> []).
Proof. exact tile_decodes. Qed.
Print Assumptions c26_tile_content.

(** C26: building never fails for valid layers and well-formed values *)
Theorem c26_tile_total : forall c t fs,
  ctx_for c t -> cuts_areas (c_cut c) -> aggregate_ok (c_aggregate c) -> joins_lines (c_aggregate c) ->
  Forall (fun f => f_id f < 2 ^ 64 /\ f_layer f < N.of_nat (length (c_names c)) /\ meta_ok f /\
                areal (f_geom f) /\ (c_agg_lines c = true -> joinable (f_geom f))) fs ->
  exists buf, build_tile c fs = Ok buf.
Proof. intros c t fs Hc Ht Ha Hat. exact (build_tile_total c t Hc Ht Ha Hat fs). Qed.
Print Assumptions c26_tile_total.

(** C27: no layer of the tile is empty and none shows the same id twice with the
    same kind of geometry *)
Theorem c27_ids_unique : forall c t fs buf vls,
  ctx_for c t -> Forall (fun f => f_id f < 2 ^ 64) fs -> aggregate_ok (c_aggregate c) ->
  build_tile c fs = Ok buf -> blen buf < 2 ^ 29 -> decode_tile buf = Some vls ->
  Forall (fun l => vl_features l <> [] /\ NoDup (map (fun v => (v_id v, vkind (v_geom v))) (vl_features l))) vls.
Proof. exact tile_ids_unique. Qed.
Print Assumptions c27_ids_unique.

(** C27: the first feature with its layer, id and kind is shown unless clipping
    and shifting leave nothing of it (or it is buffered for joining) *)
Theorem c27_first_shown : forall c t a f b buf f',
  let fs := a ++ f :: b in
  ctx_for c t -> Forall (fun f => f_id f < 2 ^ 64) fs -> aggregate_ok (c_aggregate c) ->
  build_tile c fs = Ok buf -> blen buf < 2 ^ 29 ->
  (forall g, In g a -> ~ (f_layer g = f_layer f /\ f_id g = f_id f /\ kind (f_geom g) = kind (f_geom f))) ->
  not_null f = true -> buffered c f = false -> clip_shift c f = Ok f' -> not_null f' = true ->
  exists vls l v, decode_tile buf = Some vls /\ In l vls /\ In v (vl_features l) /\
    nth_error (c_names c) (N.to_nat (f_layer f)) = Some (vl_name l) /\
    shows (bminx (px_bounds (c_spec c)), bminy (px_bounds (c_spec c))) f' v.
Proof. exact tile_present. Qed.
Print Assumptions c27_first_shown.

(** a cutter that keeps lines inside the box, and no joining *)
Definition ex_cut (b : fbox) (g : geom) : res geom :=
  Ok (if (kind g =? 2) && forallb (fun p => (bminx b <=? fst p) && (fst p <=? bmaxx b) && (bminy b <=? snd p) && (snd p <=? bmaxy b))%Z (geom_points g)
      then g else GNull).
Definition ex_ctx : tctx :=
  TCtx [[99]; [114; 100]; [112]] false false true 0
    (TSpec (FBox 0 0 4096 4096) (FBox 0 0 4294967296 4294967296) (FBox (-4096) (-4096) 4294971392 4294971392))
    ex_cut (fun _ => 0%Z) (fun ls _ => Ok ls).
Definition ex_feats : list feature :=
  [Feature 7 2 0 20 [([110], [2; 65]); ([95; 95; 120], [9])] (GPoint [(1048576, 2097152)]%Z);
   Feature 8 1 0 20 [([110], [2; 65]); ([111], [1])] (GLine [[(0, 0); (2097152, 0)]]%Z);
   Feature 7 2 0 20 [([110], [2; 65])] (GPoint [(1048576, 2097152)]%Z);
   Feature 9 1 0 20 [([111], [1])] (GLine [[(0, 0); (1, 0)]]%Z)].

Example c26_ex_ctx : ctx_for ex_ctx (Tile 0 0 0) /\ cuts_areas (c_cut ex_ctx) /\ joins_lines (c_aggregate ex_ctx).
Proof.
  split; [split; [vm_compute; reflexivity|split; [reflexivity|]]|split].
  - intros b g g' _ H. apply BaseProof.Ok_inj in H. subst g'.
    match goal with |- context [if ?b then _ else _] => destruct b eqn:E end.
    + apply andb_true_iff in E as [E1 E2]. split; [|split; [|now right]].
      * apply Forall_forall. intros p Hp. rewrite forallb_forall in E2. specialize (E2 p Hp). lia.
      * destruct g; try discriminate. exact I.
    + split; [constructor|]. split; [exact I | now left].
  - intros b g. eexists. reflexivity.
  - intros b g. eexists. reflexivity.
Qed.

Example c26_ex : exists buf, build_tile ex_ctx ex_feats = Ok buf /\
  decode_tile buf = Some
    [VLayer 2 [114; 100] 4096 [[110]; [111]] [MString [65]; MBool true]
       [VFeature 8 (VLines [[(0, 0); (2, 0)]]%Z) [([110], MString [65]); ([111], MBool true)]];
     VLayer 2 [112] 4096 [[110]] [MString [65]]
       [VFeature 7 (VPoints [(1, 2)]%Z) [([110], MString [65])]]].
Proof. eexists. split; [vm_compute; reflexivity|vm_compute; reflexivity]. Qed.
