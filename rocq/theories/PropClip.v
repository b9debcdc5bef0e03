(** C72-C74: clipping to a tile. *)
From Coq Require Import Permutation.
From Verif Require Import Base BaseProof ModelTile SpecTile ModelPackFile ModelCodec ModelGeom SpecGeom ModelFeature SpecFeature
  ModelQuadTree SpecQuadTree ModelPack ModelPacker SpecPacker ModelBqTree SpecBqTree ModelMvt SpecMvt ModelRender SpecRender
  ModelCoast SpecCoast ProofCoast ProofCoastClip ModelClip SpecClip ProofMvtTile ProofRender ProofClip PropCodec PropPacker PropRender.
Open Scope Z_scope.

(** C72: clipping as the renderer needs it: results lie in the box, keep their kind and have closed rings; only polygons without
    an area may fail; a square clipped by itself stays *)
Theorem c72_fits_renderer : forall k, clipper_ok k -> cut_ok (cut_of k) /\ cuts_areas (cut_of k) /\ keeps_square (cut_of k).
Proof. intros k H. split; [|split]; [now apply cut_of_ok | now apply cut_of_areas | now apply cut_of_square]. Qed.
Print Assumptions c72_fits_renderer.

(** points: exactly those strictly inside *)
Theorem c72_points : forall k b ps, exists qs, keeps_only (strictly_inside b) ps qs /\
  cut_of k b (GPoint ps) = Ok (match qs with [] => GNull | _ => GPoint qs end).
Proof. intros k b ps. exists (filter (within b) ps). split; [|cbn [cut_of]; destruct (filter _ _); reflexivity]. apply filter_keeps. intros p. unfold within, strictly_inside. lia. Qed.
Print Assumptions c72_points.
(** lines: what the library returns, without those of fewer than two points *)
Theorem c72_lines : forall k b ls, exists out, keeps_only (fun l => (2 <= length l)%nat) (k_lines k b ls) out /\
  cut_of k b (GLine ls) = Ok (match out with [] => GNull | _ => GLine out end).
Proof. intros k b ls. exists (filter (fun l => negb (length l <? 2)%nat) (k_lines k b ls)). split; [|cbn [cut_of]; unfold clip_lines; destruct (filter _ _); reflexivity]. apply filter_keeps. intros l. destruct (Nat.ltb_spec (length l) 2); cbn; split; intros; try lia; discriminate. Qed.
Print Assumptions c72_lines.

(** polygons: one polygon for every contour of the solution that is not a hole, with the holes directly inside it *)
Theorem c72_polygons : forall k b ps g, clipper_ok k -> range_box b -> cut_of k b (GPoly ps) = Ok g ->
  let solution := k_execute k (map ring_path (poly_rings ps)) (box_to_path b) in
  match g with
  | GNull => solution = []
  | GPoly out => solution <> [] /\ exists ms, Permutation ms (flat_map solids solution) /\ Forall2 poly_of ms out
  | _ => False
  end.
Proof.
  intros k b ps g HK Hb H. destruct (clip_polygon_made k b ps g HK Hb H) as (_ & [[E ->]|(HN & out & ms & -> & HP & HF & _)]); [exact E|]. split; [exact HN|]. exists ms. auto.
Qed.
Print Assumptions c72_polygons.

(** the area that is drawn is the area inside the box, up to [1] level 20 pixel at its border *)
Theorem c72_region : forall k b ps g n c, clipper_ok k -> clips_near k -> range_box b -> rings_closed (GPoly ps) -> cut_of k b (GPoly ps) = Ok g -> 0 <= n ->
  (deep_in (n + 1) (poly_rings ps) c -> cell_in (n + 1) b c -> deep_in n (rings_in g) c) /\
  (deep_out (n + 1) (poly_rings ps) c -> deep_out n (rings_in g) c) /\
  (forall d, inside (rings_in g) d = true -> cell_in 0 b d).
Proof. exact cut_of_region. Qed.
Print Assumptions c72_region.

(** C73: a polygon whose rings have no area at all (all points of each ring on a straight line) cannot be clipped: the library accepts none of
    its rings; *)
Theorem c73_no_area_fails : forall k b ps, clipper_ok k -> range_box b -> Forall in_range (geom_points (GPoly ps)) ->
  Forall (fun r => r <> [] /\ flat (ring_path r)) (poly_rings ps) -> cut_of k b (GPoly ps) = Throw.
Proof. exact flat_fails. Qed.
Print Assumptions c73_no_area_fails.
(** clipping a polygon fails only if none of its rings is accepted; *)
Theorem c73_fails_only : forall k b ps, clipper_ok k -> range_box b -> Forall in_range (geom_points (GPoly ps)) -> Forall (fun r => r <> []) (poly_rings ps) ->
  (exists g, cut_of k b (GPoly ps) = Ok g) \/ (cut_of k b (GPoly ps) = Throw /\ Forall (fun r => k_add k (ring_path r) = Ok false) (poly_rings ps)).
Proof.
  intros k b ps HK Hb HR HN. destruct (clip_polygon_spec k b ps HK Hb HR HN) as [[_ [[_ E]|(_ & out & ms & E & _)]]|[H1 H2]]; eauto.
Qed.
Print Assumptions c73_fails_only.
(** and one such polygon makes the whole tile fail: nothing is sent for any tile it has to be drawn on *)
Theorem c73_tile_fails : forall raw enc mk srt x t tiles features s rows sea k f ps,
  sorts_by_key srt -> (tz t <= 20)%N -> valid_tile t -> coder_ok enc (x_dec x) -> mask_ok mk (x_rd x) (tz t) -> clipper_ok k -> x_cut x = cut_of k -> seaside_is x sea ->
  database_ok raw enc (x_dec x) mk (x_rd x) srt s features rows -> ~ prepared x t ->
  In f (near_features rows t) -> must_draw raw mk (x_rd x) t f ->
  (f_layer f = 0%N -> forall e, covers t e -> covered sea e -> tile_to_key e 0 <> Ok (f_id f)) ->
  (forall f', In f' (near_features rows t) -> f_layer f' = f_layer f -> f_id f' = f_id f -> kind (f_geom f') = 3%N -> same_but f f' (f_geom f)) ->
  simplified raw mk (x_rd x) (tz t) f = GPoly ps -> Forall in_range (geom_points (GPoly ps)) -> Forall (fun r => r <> [] /\ flat (ring_path r)) (poly_rings ps) ->
  forall r, get_tile tiles features s x t <> Ok r.
Proof. exact flat_get. Qed.
Print Assumptions c73_tile_fails.

(** C74: after clipping, all exterior rings turn one way and all interior rings the other; *)
Theorem c74_consistent : forall k b ps out, clipper_ok k -> exact_signs k -> range_box b -> cut_of k b (GPoly ps) = Ok (GPoly out) ->
  Forall (fun p => surveyor (fst p) <= 0 /\ Forall (fun r => 0 <= surveyor r) (snd p)) out.
Proof. exact cut_of_winding. Qed.
Print Assumptions c74_consistent.
(** this is not the direction the vector tile specification asks for: no polygon is wound as specified; *)
Theorem c74_winding_refuted : forall k b ps out, clipper_ok k -> exact_signs k -> range_box b -> cut_of k b (GPoly ps) = Ok (GPoly out) ->
  Forall (fun p => ~ wound_as_specified p) out.
Proof.
  intros k b ps out H1 H2 H3 H4. eapply Forall_impl; [|exact (cut_of_winding k b ps out H1 H2 H3 H4)]. cbn beta. intros p [H _] [H' _]. lia.
Qed.
Print Assumptions c74_winding_refuted.
(** and the square of the sea is written the wrong way around as well *)
Theorem c74_sea_refuted : forall k z v, (z <= 20)%N -> is_sea k z v -> exists r, v_geom v = VRings [r] /\ ~ wound_as_specified (r, []).
Proof. exact sea_winding. Qed.
Print Assumptions c74_sea_refuted.
(** rounding to the pixels of a tile may turn a ring around *)
Theorem c74_rounding_refuted : exists z p q, (z <= 20)%N /\ surveyor (fst p) < 0 /\ shift_geom z (GPoly [p]) = GPoly [q] /\ 0 < surveyor (fst q).
Proof. exists 18%N, ([(3, 5); (4, 1); (1, 11); (3, 5)], []), ([(0, 1); (1, 0); (0, 2); (0, 1)], []). split; [discriminate|]. split; [reflexivity|]. split; reflexivity. Qed.
Print Assumptions c74_rounding_refuted.

(** ** Examples *)
(** libraries that meet the contract: polygons are cut into rectangles along the grid; lines are kept if they lie in the box *)
Definition c72_flatb (l : line) : bool := forallb (fun p => forallb (fun q => forallb (fun r => orient p q r =? 0) l) l) l.
Definition c72_k : clipper := {|
  k_lines b ls := filter (forallb (fun p => (bminx b <=? fst p) && (fst p <=? bmaxx b) && (bminy b <=? snd p) && (snd p <=? bmaxy b))) ls;
  k_add l := Ok (negb (c72_flatb l));
  k_execute s clip :=
    let b := box_around clip in
    if match s with [l] => pts_eqb l (corner_path b 0) | _ => false end then [PNode (corner_path b 0) []]
    else map (fun r => PNode (box_to_path r) []) (boxes_cut s b);
  k_area r := - surveyor r |}.
Lemma c72_flat_spec l : c72_flatb l = true <-> flat l.
Proof.
  unfold c72_flatb, flat. rewrite forallb_forall. split.
  - intros H p q r Hp Hq Hr. specialize (H p Hp). rewrite forallb_forall in H. specialize (H q Hq). rewrite forallb_forall in H. specialize (H r Hr). lia.
  - intros H p Hp. apply forallb_forall. intros q Hq. apply forallb_forall. intros r Hr. rewrite (H p q r Hp Hq Hr). reflexivity.
Qed.
Lemma c72_pts_refl l : pts_eqb l l = true.
Proof.
  unfold pts_eqb. rewrite Nat.eqb_refl. cbn [andb]. apply forallb_forall. intros [p q] H. induction l as [|a l IH]; [destruct H|].
  destruct H as [H|H]; [injection H as -> ->; cbn [fst snd]; destruct (ProofShift.pt_eqb_spec q q); congruence | auto].
Qed.
Lemma c72_rects b s : box_some b = true -> Forall (fun c : line => c <> [] /\ Forall (in_area b) c) (map box_to_path (boxes_cut s b)).
Proof.
  intros Hb. apply Forall_map, Forall_forall. intros r Hr. pose proof (proj1 (Forall_forall _ _) (boxes_cut_some s b) r Hr) as Hs. split; [discriminate|].
  assert (HI : bminx b <= bminx r /\ bmaxx r <= bmaxx b /\ bminy b <= bminy r /\ bmaxy r <= bmaxy b).
  { unfold boxes_cut in Hr. destruct (rects_of s) as [bs|].
    - apply filter_In in Hr as [Hr _]. apply in_map_iff in Hr as (a & <- & _). unfold box_meet. cbn [bminx bminy bmaxx bmaxy]. lia.
    - apply in_map_iff in Hr as (c & <- & Hc). apply filter_In in Hc as [Hc _]. apply cells_In in Hc. unfold cell_inb, box_meet, unit_box in *. cbn [bminx bminy bmaxx bmaxy] in *. lia. }
  unfold box_some in Hs. unfold box_to_path, in_area. repeat apply Forall_cons; [..|apply Forall_nil]; cbn [fst snd]; lia.
Qed.
Lemma c72_box b : range_box b -> box_some b = true.
Proof. unfold range_box, box_some. lia. Qed.
Example c72_ex_clipper : clipper_ok c72_k.
Proof.
  constructor; cbn [c72_k k_lines k_add k_execute k_area].
  - intros b ls _. apply Forall_forall. intros l Hl. apply filter_In in Hl as [_ Hl]. apply Forall_forall. intros p Hp. rewrite forallb_forall in Hl. specialize (Hl p Hp). unfold in_area. lia.
  - eauto.
  - intros l _ Ha. destruct (c72_flatb l) eqn:E; [|reflexivity]. apply c72_flat_spec, flat_no_area in E. contradiction.
  - intros l _ Hf. apply c72_flat_spec in Hf. now rewrite Hf.
  - intros s b Hb. rewrite around_box. destruct (match s with [l] => pts_eqb l (corner_path b 0) | _ => false end).
    + cbn [flat_map node_paths app]. apply Forall_cons; [|apply Forall_nil]. split; [discriminate|]. unfold range_box in Hb. unfold corner_path, in_area. cbn [skipn firstn app].
      repeat apply Forall_cons; [..|apply Forall_nil]; cbn [fst snd]; lia.
    + rewrite leaf_paths. apply c72_rects. now apply c72_box.
  - intros b Hb. exists 0%nat, (corner_path b 0). split; [lia|]. split; [now left|]. rewrite around_box, c72_pts_refl. reflexivity.
  - intros b i Hb Hi. rewrite surveyor_rev. enough (surveyor (square_ring b i) < 0) by lia. unfold range_box in Hb. unfold square_ring.
    do 4 (destruct i as [|i]; [cbn [skipn firstn app surveyor fst snd]; nia|]). lia.
Qed.
Example c72_ex_near : clips_near c72_k /\ exact_signs c72_k.
Proof.
  split.
  - intros s b n c Hb Hn. cbn [c72_k k_execute]. rewrite around_box. destruct (match s with [l] => pts_eqb l (corner_path b 0) | _ => false end) eqn:E.
    + destruct s as [|l [|? ?]]; try discriminate. apply pts_eqb_eq in E. subst l. cbn [flat_map node_paths app]. split; intros D; [intros _|]; intros d Hd; apply D; unfold near_cell in *; lia.
    + rewrite leaf_paths. split; [intros D Hc|intros D]; intros d Hd; rewrite inside_boxes, boxes_cut_inside by apply boxes_cut_some; rewrite D by (unfold near_cell in *; lia).
      * rewrite andb_true_r. apply cell_inb_spec. unfold cell_in, near_cell in *. lia.
      * apply andb_false_r.
  - intros r _ _. cbn [c72_k k_area]. apply Z.sgn_opp.
Qed.
(** a polygon with a hole, clipped by a box that cuts both: the area is exact, and every exterior ring has a negative area *)
Definition c72_poly : list poly :=
  [([(0, 0); (6, 0); (6, 4); (0, 4); (0, 0)], [[(2, 1); (4, 1); (4, 3); (2, 3); (2, 1)]])].
Example c72_ex : match cut_of c72_k (FBox 1 1 4 9) (GPoly c72_poly) with
  | Ok (GPoly out) => forallb (fun c => Bool.eqb (inside (rings_in (GPoly out)) c) (inside (poly_rings c72_poly) c && cell_inb (FBox 1 1 4 9) c)) (cells (FBox (-1) (-1) 8 8)) &&
      forallb (fun p => surveyor (fst p) <? 0) out && negb (length out =? 0)%nat
  | _ => false
  end = true.
Proof. vm_compute. reflexivity. Qed.

(** C73: the features of the example of C52 and a polygon without an area *)
Definition c73_ring : line := [(2310000000, 1426163360); (2310000100, 1426163460); (2310000200, 1426163560); (2310000000, 1426163360)].
Definition c73_f : feature := Feature 9 2 11 20 [] (GPoly [(c73_ring, [])]).
Definition c73_features : list feature := c52_features ++ [c73_f].
Definition c73_pack : bytes :=
  match (do ss <- map_res (serialize_feature (fun _ => None) (fun _ => []) true) c73_features; pack_features ss) with Ok p => p | _ => [] end.
Definition c73_file : pfile := PFile c73_pack (blen c73_pack).
Definition c73_rows : list row := [Row c52_root 0 [(Rec 0 (blen c73_pack), c73_features)]].
Definition c73_table : table :=
  [(match tile_to_key c52_root 0 with Ok k => k | _ => 0%N end, pack_records_serialize [Rec 0 (blen c73_pack)])].
Definition c73_x : rctx :=
  RCtx 4 (match make_bq_tree c52_sea with Ok v => v | _ => [] end) [[99%N]; [114; 100]%N; [112%N]] c21_dec
    false false false false false true (fun b => Ok b) (cut_of c72_k) (fun _ => 0) (fun ls _ => Ok (filter (of_kind 2) ls)) c21_rd.
Definition c73_t : tile := Tile 2202 1360 12.
Lemma c73_ex_plain : Forall plain_feature c73_features.
Proof.
  apply Forall_app. split; [exact c52_ex_plain|]. apply Forall_cons; [|apply Forall_nil]. split; [|split; [discriminate|]; repeat apply Forall_cons; try apply Forall_nil; (split; [cbn; lia | apply Forall_nil])].
  do 4 (split; [vm_compute; reflexivity|]). repeat (apply Forall_cons; [split; vm_compute; reflexivity|]); apply Forall_nil.
Qed.
Example c73_ex_database : database_ok true c21_enc (x_dec c73_x) c21_mk (x_rd c73_x) isort c73_file c73_table c73_rows.
Proof.
  split; [|split].
  - apply Forall2_cons; [|apply Forall2_nil]. split; [vm_compute; reflexivity|]. split; [|vm_compute; reflexivity].
    apply Forall_cons; [split; vm_compute; reflexivity | apply Forall_nil].
  - split; [apply Forall_nil | exact I].
  - apply Forall_cons; [|apply Forall_nil]. split; [reflexivity|]. split; [split; vm_compute; reflexivity|].
    apply Forall_cons; [|apply Forall_nil]. split; [exact c73_ex_plain|].
    eexists _, c73_pack. split; [|split; [|vm_compute; reflexivity]].
    + apply Forall2_cons; [|apply Forall2_cons; [|apply Forall2_cons; [|apply Forall2_nil]]]; (split; [vm_compute; reflexivity | apply N.ltb_lt; vm_compute; reflexivity]).
    + vm_compute; reflexivity.
Qed.
(** the tile has the point to show, but is not delivered *)
Example c73_ex : get_tile [] c73_table c73_file c73_x c73_t = Throw /\ In c52_f2 (near_features c73_rows c73_t) /\ must_draw true c21_mk (x_rd c73_x) c73_t c52_f2 /\
  (exists b, get_tile [] c52_raw_table c52_raw_file c73_x c73_t = Ok (Some b)) /\
  (forall r, get_tile [] c73_table c73_file c73_x c73_t <> Ok r).
Proof.
  split; [vm_compute; reflexivity|]. split; [vm_compute; tauto|]. split.
  { split; [split; vm_compute; discriminate|]. split; [apply ProofBestTile.boxes_touch_spec; vm_compute; reflexivity | vm_compute; discriminate]. }
  split; [eexists; vm_compute; reflexivity|].
  eapply (c73_tile_fails true c21_enc c21_mk isort c73_x c73_t [] c73_table c73_file c73_rows c52_sea c72_k c73_f [(c73_ring, [])]).
  - exact c12_ex_sort.
  - vm_compute; discriminate.
  - split; vm_compute; reflexivity.
  - apply c21_ex.
  - intros l. cbn [x_rd c73_x]. unfold c21_rd, c21_mk. cbn [fst]. now rewrite map_length.
  - exact c72_ex_clipper.
  - reflexivity.
  - exact (proj1 (proj2 c52_ex_context)).
  - exact c73_ex_database.
  - intros [_ H]. vm_compute in H. congruence.
  - vm_compute; tauto.
  - split; [split; vm_compute; discriminate|]. split; [apply ProofBestTile.boxes_touch_spec; vm_compute; reflexivity | vm_compute; discriminate].
  - discriminate.
  - intros f' Hf. vm_compute in Hf. destruct Hf as [<-|[<-|[<-|[]]]]; intros H1 H2 _; try discriminate H1; try discriminate H2. repeat split. apply Permutation_refl.
  - reflexivity.
  - apply Forall_forall. intros p Hp. unfold in_range. change (2 ^ 62) with 4611686018427387904. vm_compute in Hp.
    repeat (destruct Hp as [<-|Hp]; [cbn [fst snd]; lia|]). destruct Hp.
  - apply Forall_cons; [|apply Forall_nil]. split; [discriminate|]. apply c72_flat_spec. vm_compute. reflexivity.
Qed.
