(** Properties C19-C24: integers, geometries, features, shift. *)
From Coq Require Import Permutation.
From Verif Require Import Base ModelTile ModelCodec ProofCodec ModelGeom SpecGeom ProofGeom ProofShift
  ModelFeature SpecFeature ProofFeature.
Open Scope N_scope.

(** C19 *)
Theorem c19_varint_roundtrip : forall v rest, v < 2 ^ 64 -> varint_dec (varint_enc v ++ rest) = Ok (v, rest).
Proof. exact varint_roundtrip. Qed.
Print Assumptions c19_varint_roundtrip.

Theorem c19_varint_length : forall v, v < 2 ^ 64 ->
  (1 <= length (varint_enc v) <= 10)%nat /\ (v < 2 ^ 32 -> (length (varint_enc v) <= 5)%nat).
Proof. exact varint_length. Qed.
Print Assumptions c19_varint_length.

Theorem c19_varint_prefix_free : forall v w a b, v < 2 ^ 64 -> w < 2 ^ 64 ->
  varint_enc v ++ a = varint_enc w ++ b -> v = w /\ a = b.
Proof. exact varint_prefix_free. Qed.
Print Assumptions c19_varint_prefix_free.

Theorem c19_varint_is_bytes : forall v, v < 2 ^ 64 -> bytes_ok (varint_enc v).
Proof. exact varint_bytes_ok. Qed.
Print Assumptions c19_varint_is_bytes.

Theorem c19_zigzag : forall z, (- 2 ^ 63 <= z < 2 ^ 63)%Z -> zigzag z < 2 ^ 64 /\ unzigzag (zigzag z) = z.
Proof. exact zigzag_ok. Qed.
Print Assumptions c19_zigzag.

Theorem c19_zigzag_onto : forall n, n < 2 ^ 64 ->
  (- 2 ^ 63 <= unzigzag n < 2 ^ 63)%Z /\ zigzag (unzigzag n) = n.
Proof. exact unzigzag_ok. Qed.
Print Assumptions c19_zigzag_onto.

Example c19_ex : varint_enc 300 = [172; 2] /\ varint_dec [172; 2; 77] = Ok (300, [77])
  /\ zigzag (-3)%Z = 5 /\ length (varint_enc (2 ^ 64 - 1)) = 10%nat.
Proof. vm_compute. auto. Qed.

(** C20: a proper geometry is read back unchanged; every geometry with
    coordinates is read back up to rings of fewer than four points. *)
Theorem c20_geometry_roundtrip : forall g bs, proper g -> coords64 g ->
  serialize_geom g = Ok bs -> blen bs < 2 ^ 32 -> deserialize_geom NoMasks bs = Ok g.
Proof. exact geom_roundtrip_proper. Qed.
Print Assumptions c20_geometry_roundtrip.

Theorem c20_geometry_roundtrip_any : forall g bs, coords64 g ->
  serialize_geom g = Ok bs -> blen bs < 2 ^ 32 -> deserialize_geom NoMasks bs = Ok (normal g).
Proof. exact geom_roundtrip. Qed.
Print Assumptions c20_geometry_roundtrip_any.

Theorem c20_serialize_rejects_exactly_empty : forall g, coords_small g ->
  match g with
  | GNull | GPoint [] | GLine [] | GPoly [] => serialize_geom g = Throw
  | _ => exists bs, serialize_geom g = Ok bs
  end.
Proof. exact serialize_geom_total. Qed.
Print Assumptions c20_serialize_rejects_exactly_empty.

Definition c20_poly : geom := GPoly [([(0, 0); (9, 0); (9, 9); (0, 0)], [[(1, 1); (2, 1); (2, 2); (1, 1)]])]%Z.
Example c20_ex : proper c20_poly /\ coords64 c20_poly /\
  exists bs, serialize_geom c20_poly = Ok bs /\ blen bs < 2 ^ 32 /\ deserialize_geom NoMasks bs = Ok c20_poly.
Proof.
  split; [split; [discriminate|]; repeat constructor|].
  split; [repeat (apply Forall_cons; [split; vm_compute; reflexivity|]); apply Forall_nil|].
  eexists. split; [vm_compute; reflexivity|].
  split; vm_compute; reflexivity.
Qed.

(** C21 *)
Theorem c21_feature_roundtrip : forall enc dec mk rd fast f bs,
  feature_ok f -> coder_ok enc dec -> proper (f_geom f) ->
  serialize_feature enc mk fast f = Ok bs -> blen bs < 2 ^ 32 ->
  exists f', deserialize_feature dec rd no_hints bs = Ok (Some f') /\ same_but f f' (f_geom f) /\
             (fast = true -> f' = f).
Proof. exact feature_roundtrip. Qed.
Print Assumptions c21_feature_roundtrip.

Theorem c21_serialize_succeeds : forall enc mk fast f,
  coords_small (f_geom f) -> box_points (f_geom f) <> [] ->
  exists bs, serialize_feature enc mk fast f = Ok bs.
Proof. exact serialize_feature_total. Qed.
Print Assumptions c21_serialize_succeeds.

(** a dictionary with one entry, and a stand-in mask writer/reader pair: one
    byte per point, 1 = keep at every zoom level *)
Definition c21_enc (m : meta) : option N :=
  if bytes_eqb (fst m) [7] then if bytes_eqb (snd m) [8] then Some 0 else None else None.
Definition c21_dec (i : N) : res meta := if i =? 0 then Ok ([7], [8]) else Throw.
Definition c21_mk (l : line) : bytes := map (fun p => if Z.even (fst p) then 1 else 0) l.
Definition c21_rd (m : bytes) (z : N) : Z * (Z -> bool) :=
  (Z.of_nat (length m), fun i => nth (Z.to_nat i) m 0 =? 1).
Definition c21_f : feature :=
  Feature 42 3 5 12 [([1], [2]); ([7], [8]); ([], [9])] (GLine [[(100, 200); (101, 5); (300, 400)]]%Z).
Example c21_ex : feature_ok c21_f /\ coder_ok c21_enc c21_dec /\ proper (f_geom c21_f) /\
  exists bs, serialize_feature c21_enc c21_mk false c21_f = Ok bs /\ blen bs < 2 ^ 32 /\
  deserialize_feature c21_dec c21_rd no_hints bs =
    Ok (Some (Feature 42 3 5 12 [([7], [8]); ([1], [2]); ([], [9])] (f_geom c21_f))).
Proof.
  split; [do 4 (split; [vm_compute; reflexivity|]);
          repeat (apply Forall_cons; [split; vm_compute; reflexivity|]); apply Forall_nil|].
  split.
  { intros [k v] i. unfold c21_enc, bytes_eqb. cbn [fst snd].
    destruct (list_eq_dec N.eq_dec k [7]) as [->|]; [|discriminate].
    destruct (list_eq_dec N.eq_dec v [8]) as [->|]; [|discriminate].
    intros [= <-]. split; [lia | reflexivity]. }
  split; [discriminate|].
  eexists. split; [vm_compute; reflexivity|]. split; vm_compute; reflexivity.
Qed.

(** C22: with hints a feature is dropped iff the zoom level is outside its
    inclusive range, its stored box misses the query box, or simplification at
    that zoom level leaves nothing of it; otherwise it comes back whole. *)
Theorem c22_filters : forall enc dec mk rd h fast f bs,
  feature_ok f -> coder_ok enc dec -> mask_ok mk rd (h_zoom h) -> proper (f_geom f) ->
  h_zoom h <> kInvalidZoomLevel ->
  serialize_feature enc mk fast f = Ok bs -> blen bs < 2 ^ 32 ->
  let g := if fast then f_geom f else select_geom rd (h_zoom h) (make_masks mk (f_geom f)) (f_geom f) in
  (deserialize_feature dec rd h bs = Ok None /\
     (~ (zoom_visible (h_zoom h) f /\ box_visible (h_box h) (bounding_box (f_geom f))) \/ g = GNull)) \/
  (exists f', deserialize_feature dec rd h bs = Ok (Some f') /\ same_but f f' g /\ g <> GNull /\
     zoom_visible (h_zoom h) f /\ box_visible (h_box h) (bounding_box (f_geom f))).
Proof. exact feature_filtered. Qed.
Print Assumptions c22_filters.

(** no segment between two points of the outline that touches the query box is
    ever filtered out (every point of the segment, at any rational position) *)
Theorem c22_touching_is_visible : forall g a b q k n,
  In a (box_points g) -> In b (box_points g) -> segment_in_box a b q k n ->
  box_visible q (bounding_box g).
Proof. exact segment_visible. Qed.
Print Assumptions c22_touching_is_visible.

Example c22_ex : mask_ok c21_mk c21_rd 5 /\
  exists bs, serialize_feature c21_enc c21_mk false c21_f = Ok bs /\
    deserialize_feature c21_dec c21_rd (Hints (FBox 300 400 999 999) 5) bs =
      Ok (Some (Feature 42 3 5 12 [([7], [8]); ([1], [2]); ([], [9])] (GLine [[(100, 200); (300, 400)]]%Z))) /\
    deserialize_feature c21_dec c21_rd (Hints (FBox 301 400 999 999) 5) bs = Ok None /\
    deserialize_feature c21_dec c21_rd (Hints (FBox 300 400 999 999) 4) bs = Ok None /\
    deserialize_feature c21_dec c21_rd (Hints (FBox 300 400 999 999) 13) bs = Ok None.
Proof.
  split; [intros l; unfold c21_rd, c21_mk; cbn [fst]; now rewrite map_length|].
  eexists. split; [vm_compute; reflexivity|]. do 3 (split; [vm_compute; reflexivity|]). vm_compute; reflexivity.
Qed.
Example c22_ex_segment : segment_in_box (0, 0)%Z (10, 10)%Z (FBox 5 5 6 6) 1 2.
Proof. vm_compute. intuition discriminate. Qed.

(** C23 *)
Theorem c23_masks_select : forall rd z ms g bs, coords64 g ->
  serialize_geom g = Ok bs -> blen bs < 2 ^ 32 -> geom_masks_fit rd z ms g ->
  deserialize_geom (Masks rd z ms) bs = Ok (select_geom rd z ms g).
Proof. exact geom_masked. Qed.
Print Assumptions c23_masks_select.

(** point i of a line survives iff its bit is set *)
Theorem c23_select_meaning : forall keep ps,
  select keep 0 ps =
  map snd (filter (fun ip => keep (Z.of_nat (fst ip))) (combine (seq 0 (length ps)) ps)).
Proof. exact select_combine. Qed.
Print Assumptions c23_select_meaning.

Theorem c23_all_bits_set : forall rd z ms g bs, coords64 g ->
  serialize_geom g = Ok bs -> blen bs < 2 ^ 32 -> geom_masks_fit rd z ms g ->
  (forall m i, In m ms -> snd (rd m z) i = true) ->
  deserialize_geom (Masks rd z ms) bs = deserialize_geom NoMasks bs.
Proof. exact all_bits_set. Qed.
Print Assumptions c23_all_bits_set.

Example c23_ex : exists bs,
  serialize_geom (GLine [[(1, 1); (2, 2); (3, 3)]; [(4, 4); (5, 5)]]%Z) = Ok bs /\
  deserialize_geom (Masks c21_rd 0 [[1; 0; 1]; [1; 1]]) bs = Ok (GLine [[(1, 1); (3, 3)]; [(4, 4); (5, 5)]]%Z).
Proof. eexists. split; [vm_compute; reflexivity | vm_compute; reflexivity]. Qed.

(** C24 *)
Theorem c24_shift : forall z g, z <= 20 -> shifted z g (shift_geom z g).
Proof. exact shift_spec. Qed.
Print Assumptions c24_shift.

(** the specification determines the result *)
Theorem c24_shift_unique : forall l s s', squeezed l s -> squeezed l s' -> s = s'.
Proof. exact squeezed_fun. Qed.
Print Assumptions c24_shift_unique.

Example c24_ex : shift_geom 18 (GLine [[(-1, 0); (0, 0); (1, 3); (4, 4)]; [(0, 0); (1, 1)]])%Z
  = GLine [[(-1, 0); (0, 0); (1, 1)]]%Z.
Proof. vm_compute. reflexivity. Qed.
