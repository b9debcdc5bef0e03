(** Proofs about serving tiles from the database. *)
From Coq Require Import Permutation Sorting.Sorted.
From Verif Require Import Base BaseProof ModelTile SpecTile ProofTile ModelPackFile ModelCodec ModelGeom SpecGeom ModelFeature SpecFeature ProofFeature
  ModelQuadTree SpecQuadTree ModelPack ModelPacker SpecPacker ProofBestTile ProofPackerProps ModelBqTree SpecBqTree ProofBqQuery
  ModelMvt SpecMvt ProofMvtTile ModelRender SpecRender.
Open Scope N_scope.

Lemma map_res_total {A B} (f : A -> res B) l : (forall a, In a l -> exists b, f a = Ok b) -> exists r, map_res f l = Ok r.
Proof.
  induction l as [|a l IH]; intros H; [exists []; reflexivity|]. cbn [map_res].
  destruct (H a (or_introl eq_refl)) as (b & ->). cbn [bind]. destruct IH as (r & ->); [intros; apply H; now right|]. cbn [bind]. eauto.
Qed.
Lemma map_res_Forall2 {A B} (f : A -> res B) l : forall r, map_res f l = Ok r <-> Forall2 (fun a b => f a = Ok b) l r.
Proof.
  induction l as [|a l IH]; intros r; cbn [map_res].
  - split; intros H; [apply Ok_inj in H; subst; constructor | inversion H; reflexivity].
  - split; intros H.
    + apply bind_ok in H as (b & E & H). apply bind_ok in H as (bs & E2 & H). apply Ok_inj in H. subst. constructor; [assumption | now apply IH].
    + inversion H as [|? b ? bs E F]; subst. rewrite E. cbn [bind]. apply IH in F. rewrite F. reflexivity.
Qed.

Lemma table_get_in t k b : table_sorted t -> In (k, b) t -> table_get t k = Some b.
Proof.
  induction t as [|[k' v] t IH]; intros Hs Hi; [destruct Hi|]. cbn [table_get table_sorted] in *. destruct Hs as [H1 H2].
  destruct Hi as [Hi|Hi]; [injection Hi as -> ->; now rewrite N.eqb_refl|].
  pose proof (proj1 (Forall_forall _ _) H1 _ Hi) as H3. cbn [fst] in H3. replace (k' =? k) with false by lia. now apply IH.
Qed.
Lemma table_get_none t k : (forall b, ~ In (k, b) t) -> table_get t k = None.
Proof.
  induction t as [|[k' v] t IH]; intros H; [reflexivity|]. cbn [table_get]. destruct (N.eqb_spec k' k) as [->|].
  - destruct (H v). now left.
  - apply IH. intros b Hb. apply (H b). now right.
Qed.

Lemma stored_verbatim tiles features s x t k b :
  tz t <= 20 -> valid_tile t -> prepared x t -> tile_to_key t 0 = Ok k ->
  table_sorted tiles -> In (k, b) tiles ->
  get_tile tiles features s x t = Ok (Some b).
Proof.
  intros Hz Hv [H1 H2] Hk Hs Hi. unfold get_tile, kMaxZoomLevel. replace (tz t <=? 20) with true by lia. cbn [verify bind].
  rewrite H1. replace (Z.of_N (tz t) <=? x_max_prepared x)%Z with true by lia. cbn [negb andb]. rewrite Hk. cbn [bind].
  now rewrite (table_get_in _ _ _ Hs Hi).
Qed.

Lemma sea_deep sea : Forall (fun t => tz t <= 20 /\ valid_tile t) sea -> Forall (fun t => tz t < 2 ^ 31 /\ valid_tile t) sea.
Proof. apply Forall_impl. intros t [H1 H2]. split; [|assumption]. change (2 ^ 31) with 2147483648. lia. Qed.
Lemma sea_contains x sea t : seaside_is x sea -> tz t <= 20 -> valid_tile t -> exists b, bq_contains (x_seaside x) t = Ok b /\ (b = true <-> covered sea t).
Proof.
  intros (H1 & H2 & H3) Hz Hv. apply sea_deep in H1. destruct (contains_ok sea H1 H2) as (v & E & H). rewrite H3 in E. apply Ok_inj in E. subst v. apply H; [assumption | lia].
Qed.
Lemma sea_leafs x sea t : seaside_is x sea -> tz t <= 20 -> valid_tile t -> exists L, bq_all_leafs (x_seaside x) t = Ok L /\ NoDup L /\
  (covered sea t -> L = [t]) /\ (~ covered sea t -> forall e, In e L <-> maximal sea e /\ covers t e /\ e <> t).
Proof.
  intros (H1 & H2 & H3) Hz Hv. apply sea_deep in H1. destruct (leafs_result sea H1 H2) as (v & E & H). rewrite H3 in E. apply Ok_inj in E. subst v.
  destruct (H t Hv ltac:(lia)) as (L & A & B & C & D & _). eauto.
Qed.

Lemma not_stored tiles features s x t k sea :
  tz t <= 20 -> valid_tile t -> prepared x t -> tile_to_key t 0 = Ok k ->
  (forall b, ~ In (k, b) tiles) -> seaside_is x sea -> ~ covered sea t ->
  get_tile tiles features s x t = Ok None.
Proof.
  intros Hz Hv [H1 H2] Hk Hn Hsea Hc. unfold get_tile, kMaxZoomLevel. replace (tz t <=? 20) with true by lia. cbn [verify bind].
  rewrite H1. replace (Z.of_N (tz t) <=? x_max_prepared x)%Z with true by lia. cbn [negb andb]. rewrite Hk. cbn [bind].
  rewrite table_get_none by assumption. destruct (sea_contains x sea t Hsea Hz Hv) as (b & -> & Hb). cbn [bind].
  destruct b; [tauto | reflexivity].
Qed.

Lemma spec_area t : tz t <= 20 -> valid_tile t ->
  exists s, make_tile_spec t = Ok s /\ draw_bounds s = draw_area t /\ bminx (px_bounds s) = (Z.of_N (tx t) * 4096)%Z /\ bminy (px_bounds s) = (Z.of_N (ty t) * 4096)%Z.
Proof.
  intros Hz Hv. destruct (tile_spec_area t Hz Hv) as (s & E & A). exists s. split; [assumption|].
  unfold make_tile_spec in E. apply bind_ok in E as (u1 & _ & E). apply bind_ok in E as (u2 & _ & E). apply Ok_inj in E. subst s.
  cbn [insert_bounds draw_bounds px_bounds bminx bminy] in *. split; [|split; reflexivity]. unfold draw_area. rewrite <- A. cbn [bminx bminy bmaxx bmaxy]. reflexivity.
Qed.

Definition square_geom (b : fbox) (i : nat) : geom := GPoly [(square_ring b i, [])].
Definition box_ring (b : fbox) : geom := GPoly [(square_ring b 0, [])].
Definition sea_of (t : tile) (k : N) : feature := Feature k 0 0 21 [(str_layer, str_coastline)] (box_ring (draw_area t)).

Lemma seaside_feature_ok t k : tz t <= 20 -> valid_tile t -> tile_to_key t 0 = Ok k -> seaside_feature t = Ok (sea_of t k).
Proof.
  intros Hz Hv Hk. unfold seaside_feature. destruct (spec_area t Hz Hv) as (s & -> & D & _). cbn [bind]. rewrite Hk, D. reflexivity.
Qed.

Lemma area_range t : tz t <= 20 -> valid_tile t -> range_box (draw_area t).
Proof. intros Hz Hv. destruct (spec_area t Hz Hv) as (s & E & D & _). rewrite <- D. exact (spec_range _ _ E). Qed.
Lemma square_areal b : range_box b -> areal (box_ring b).
Proof.
  intros (H1 & H2 & H3 & H4). unfold box_ring, square_geom, areal. split; [|split].
  - cbn [geom_points flat_map poly_points fst snd square_ring skipn firstn app concat]. repeat apply Forall_cons; try apply Forall_nil; unfold in_range; cbn [fst snd]; lia.
  - repeat constructor. discriminate.
  - apply Exists_cons_hd. cbn [fst]. split.
    + eexists _, [_; _; _]. reflexivity.
    + cbn [square_ring skipn firstn app surveyor fst snd]. nia.
Qed.
Lemma shift_square t i : tz t <= 20 -> (i < 4)%nat ->
  shift_geom (tz t) (square_geom (draw_area t) i) =
  GPoly [(map (fun p => (Z.of_N (tx t) * 4096 + fst p, Z.of_N (ty t) * 4096 + snd p)%Z) (square_ring (sea_box (tz t)) i), [])].
Proof.
  intros Hz Hi. unfold square_geom, square_ring, draw_area, tile_area, sea_box. cbn [bminx bminy bmaxx bmaxy].
  set (P := (2 ^ (20 - Z.of_N (tz t)))%Z). assert (HP : (0 < P)%Z) by (apply Z.pow_pos_nonneg; lia).
  set (m := ((-4096) / P)%Z). set (n := (4096 / P)%Z).
  assert (E1 : forall a, ((a * (4096 * P) - 4096) / P = a * 4096 + m)%Z).
  { intros a. replace (a * (4096 * P) - 4096)%Z with ((a * 4096) * P + (-4096))%Z by ring. now rewrite Z.div_add_l by lia. }
  assert (E2 : forall a, (((a + 1) * (4096 * P) + 4096) / P = a * 4096 + (4096 + n))%Z).
  { intros a. replace ((a + 1) * (4096 * P) + 4096)%Z with (((a + 1) * 4096) * P + 4096)%Z by ring. rewrite Z.div_add_l by lia. fold n. ring. }
  assert (Hm : (m < 0)%Z) by (apply Z.div_lt_upper_bound; lia). assert (Hn : (0 <= n)%Z) by (apply Z.div_pos; lia).
  assert (ES : forall a b, shift_pt (tz t) (a, b) = (a / P, b / P)%Z).
  { intros a b. unfold shift_pt. cbn [fst snd]. rewrite !Z.shiftr_div_pow2 by lia. reflexivity. }
  assert (HE : forall a b c d, a <> c \/ b <> d -> pt_eqb (a, b) (c, d) = false).
  { intros a b c d H. destruct (pt_eqb _ _) eqn:E; [|reflexivity]. unfold pt_eqb in E. cbn [fst snd] in E. lia. }
  clearbody m n.
  do 4 (destruct i as [|i]; [cbn [skipn firstn app shift_geom map fst snd]; unfold transform_erase; cbn [map fst snd]; rewrite !ES, !E1, !E2;
    cbn [dedup dedup_from]; rewrite !HE by lia; cbn [filter length Nat.ltb Nat.leb negb map fst snd]; reflexivity|]). lia.
Qed.

Lemma builder_for x t : tz t <= 20 -> valid_tile t -> cut_ok (x_cut x) ->
  exists c, make_builder x t = Ok c /\ ctx_for c t /\ c_names c = x_names x /\ c_cut c = x_cut x /\ c_aggregate c = x_aggregate x /\
    c_agg_lines c = x_agg_lines x /\ c_agg_polys c = x_agg_polys x /\ c_z c = tz t /\ draw_bounds (c_spec c) = draw_area t /\
    (bminx (px_bounds (c_spec c)), bminy (px_bounds (c_spec c))) = tile_corner t.
Proof.
  intros Hz Hv Hc. destruct (spec_area t Hz Hv) as (s & E & D & B1 & B2). unfold make_builder. rewrite E. cbn [bind].
  eexists. split; [reflexivity|]. unfold ctx_for. cbn [c_spec c_z c_cut c_names c_aggregate c_agg_lines c_agg_polys].
  rewrite B1, B2. repeat (split; [first [assumption | reflexivity | now split]|]). reflexivity.
Qed.

Lemma ss_lt_singleton (l : list N) (a : N) : StronglySorted N.lt l -> (forall x, In x l <-> x = a) -> l = [a].
Proof.
  intros H HI. destruct l as [|x l]; [destruct (proj2 (HI a) eq_refl)|].
  assert (x = a) by (apply HI; now left). subst x. destruct l as [|y l]; [reflexivity|].
  assert (y = a) by (apply HI; right; now left). subst y. apply StronglySorted_inv in H as [_ H]. apply Forall_inv in H. lia.
Qed.

Lemma sea_content c t k : tz t <= 20 -> c_z c = tz t -> valid_tile t -> draw_bounds (c_spec c) = draw_area t -> keeps_square (c_cut c) ->
  exists n, (n < 4)%nat /\
  let f' := set_geom (sea_of t k) (shift_geom (tz t) (square_geom (draw_area t) n)) in
  not_null f' = true /\
  forall i, layer_content c i [sea_of t k] = Ok (if i =? 0 then [f'] else []).
Proof.
  intros Hz Ez Hv Hd Hk. destruct (Hk (draw_area t) (area_range t Hz Hv)) as (n & Hn4 & Hk'). exists n. split; [exact Hn4|]. intros f'. assert (Hn : not_null f' = true).
  { unfold f', not_null. cbn [set_geom f_geom]. now rewrite shift_square. }
  split; [assumption|]. intros i. unfold layer_content. cbn [filter sea_of f_layer].
  destruct (N.eqb_spec i 0) as [->|Hi].
  2: { replace (0 =? i) with false by lia. reflexivity. }
  change (0 =? 0) with true. cbv iota.
  assert (EC : clip_shift c (sea_of t k) = Ok f').
  { unfold clip_shift, sea_of, box_ring, square_geom. cbn [f_geom clip]. rewrite Hd, Hk'. cbn [bind]. rewrite Ez. reflexivity. }
  unfold first_of_kind. fold (sea_of t k). cbn [sea_of f_geom box_ring kind existsb N.eqb].
  fold (sea_of t k). cbn [filter]. unfold buffered, of_kind. cbn [sea_of f_geom box_ring kind]. fold (box_ring (draw_area t)). fold (sea_of t k).
  replace (3 =? 2) with false by reflexivity. replace (3 =? 3) with true by reflexivity.
  rewrite andb_false_r. cbn [orb]. rewrite andb_true_r.
  assert (HB : big_enough c f' = true) by reflexivity.
  destruct (c_agg_polys c); cbn [negb map_res bind]; rewrite EC; cbn [bind app filter]; rewrite ?HB; cbn [app filter]; rewrite Hn; reflexivity.
Qed.
Lemma relative_square t (r : line) : relative_geom (tile_corner t)
  (GPoly [(map (fun p => (Z.of_N (tx t) * 4096 + fst p, Z.of_N (ty t) * 4096 + snd p)%Z) r, [])]) = Some (VRings [r]).
Proof.
  unfold relative_geom, poly_rings, flat_map. cbn [fst snd app map]. rewrite map_map. do 3 f_equal.
  rewrite <- (map_id r) at 2. apply map_ext. intros [a b]. unfold rel, tile_corner. cbn [fst snd]. f_equal; ring.
Qed.
Lemma sea_only tiles features s x t k sea name :
  tz t <= 20 -> valid_tile t -> prepared x t -> tile_to_key t 0 = Ok k ->
  (forall b, ~ In (k, b) tiles) -> seaside_is x sea -> covered sea t ->
  nth_error (x_names x) 0 = Some name ->
  cut_ok (x_cut x) -> cuts_areas (x_cut x) -> keeps_square (x_cut x) ->
  aggregate_ok (x_aggregate x) -> joins_lines (x_aggregate x) ->
  if x_ignore_seaside x then get_tile tiles features s x t = Ok None
  else exists buf, buf <> [] /\
    (forall r, get_tile tiles features s x t = Ok r -> sent x buf r) /\
    (x_compress x = false -> get_tile tiles features s x t = Ok (Some buf)) /\
    (blen buf < 2 ^ 29 -> exists v, decode_tile buf = Some [v] /\ vl_name v = name /\
      exists u, vl_features v = [u] /\ is_sea k (tz t) u).
Proof.
  intros Hz Hv [H1 H2] Hk Hn Hsea Hc Hname Hcut Htot Hsq Hagg Hat.
  assert (EG : get_tile tiles features s x t = render_tile x t []).
  { unfold get_tile, kMaxZoomLevel. replace (tz t <=? 20) with true by lia. cbn [verify bind].
    rewrite H1. replace (Z.of_N (tz t) <=? x_max_prepared x)%Z with true by lia. cbn [negb andb]. rewrite Hk. cbn [bind].
    rewrite table_get_none by assumption. destruct (sea_contains x sea t Hsea Hz Hv) as (b & -> & Hb). cbn [bind].
    destruct b; [reflexivity|]. apply Hb in Hc. discriminate. }
  rewrite EG. destruct (builder_for x t Hz Hv Hcut) as (c & EB & HX & N1 & N2 & N3 & _ & _ & N6 & N7 & N8).
  assert (ES : seaside_features x t = Ok [sea_of t k]).
  { unfold seaside_features. destruct (sea_leafs x sea t Hsea Hz Hv) as (L & -> & _ & HL & _). cbn [bind]. rewrite (HL Hc).
    cbn [map_res]. rewrite (seaside_feature_ok t k Hz Hv Hk). reflexivity. }
  assert (EF : render_features x t [] = Ok []).
  { unfold render_features. destruct (spec_area t Hz Hv) as (sp & -> & _). reflexivity. }
  unfold render_tile. rewrite EB, ES, EF. cbn [bind]. destruct (sea_contains x sea t Hsea Hz Hv) as (b & E & Hb). rewrite E.
  destruct b; [|apply Hb in Hc; discriminate]. destruct (x_ignore_seaside x); [reflexivity|]. cbn [bind andb app].
  rewrite <- N2 in *. rewrite <- N3 in *.
  assert (Hkb : k < 2 ^ 64).
  { unfold tile_to_key in Hk. destruct (tile_key_roundtrip t 0) as [[HT _]|(k' & HT & Hk' & _)]; destruct Hv as [V1 V2].
    1-4: assert (2 ^ tz t <= 2 ^ 20) by (apply N.pow_le_mono_r; lia); change (2 ^ 20) with 1048576 in *; lia.
    - unfold tile_to_key in HT. congruence.
    - unfold tile_to_key in HT. rewrite Hk in HT. apply Ok_inj in HT. subst. assumption. }
  destruct (build_tile_total c t HX Htot Hagg Hat [sea_of t k]) as (buf & EBT).
  { apply Forall_cons; [|apply Forall_nil]. split; [exact Hkb|]. split.
    - cbn [sea_of f_layer]. rewrite N1. destruct (x_names x); [discriminate|]. cbn [length]. lia.
    - split; [|split; [exact (square_areal _ (area_range t Hz Hv)) | intros _; exact I]]. unfold meta_ok. cbn [sea_of f_meta]. apply Forall_cons; [|apply Forall_nil]. left. left. reflexivity. }
  rewrite EBT. cbn [bind]. exists buf.
  destruct (sea_content c t k Hz N6 Hv N7 Hsq) as (n & Hn4 & Hnn & HLC).
  set (f' := set_geom (sea_of t k) (shift_geom (tz t) (square_geom (draw_area t) n))) in *.
  assert (HD : blen buf < 2 ^ 29 -> exists v, decode_tile buf = Some [v] /\ vl_name v = name /\ exists u, vl_features v = [u] /\ is_sea k (tz t) u).
  { intros Hb29. destruct (tile_decodes c t [sea_of t k] buf HX) as (ls & vls & D1 & D2 & D3 & D4); try assumption.
    { apply Forall_cons; [exact Hkb | apply Forall_nil]. }
    assert (HL : ls = [(0, [f'])]).
    { assert (HM : map fst ls = [0]).
      { apply ss_lt_singleton; [assumption|]. intros i. rewrite in_map_iff. split.
        - intros ([j w] & <- & Hin). apply D4 in Hin as [Hin Hne]. rewrite HLC in Hin. cbn [fst]. destruct (N.eqb_spec j 0); [assumption|].
          apply Ok_inj in Hin. congruence.
        - intros ->. exists (0, [f']). split; [reflexivity|]. apply D4. rewrite HLC. split; [reflexivity | discriminate]. }
      destruct ls as [|[j w] [|? ls]]; try discriminate. cbn [map fst] in HM. injection HM as ->.
      assert (HI : In (0, w) [(0, w)]) by now left. apply D4 in HI as [HI _]. rewrite HLC in HI. cbn [N.eqb] in HI. apply Ok_inj in HI. now subst. }
    subst ls. inversion D2 as [|? v ? vls' HS HF]; subst. inversion HF; subst. clear HF D2 D3 D4.
    exists v. split; [assumption|]. destruct HS as (_ & _ & S1 & _ & _ & S2). cbn [fst snd] in *.
    split. { rewrite N1 in S1. change (N.to_nat 0) with 0%nat in S1. congruence. }
    inversion S2 as [|? u ? us HU HF]; subst. inversion HF; subst. exists u. split; [reflexivity|].
    destruct HU as (U1 & U2 & U3). rewrite N8 in U2. unfold is_sea. destruct u as [i g tg]. cbn [v_id v_geom v_tags] in *. exists n. split; [exact Hn4|].
    f_equal.
    - exact U1.
    - unfold f' in U2. cbn [set_geom f_geom] in U2. rewrite shift_square in U2 by assumption. rewrite relative_square in U2. congruence.
    - cbn [f' set_geom sea_of f_meta] in U3. inversion U3 as [|? ? ? ? ? HT|? ? ? ? ? HNI]; subst; [inversion HT; reflexivity|]. destruct HNI. left. reflexivity. }
  assert (Hne : buf <> []).
  { intros ->. destruct HD as (v & D & _); [reflexivity|]. discriminate D. }
  split; [assumption|]. destruct buf as [|b0 buf]; [congruence|]. split; [|split; [|assumption]].
  - intros r. unfold sent. cbn [length Nat.eqb]. destruct (x_compress x).
    + intros Hr. apply bind_ok in Hr as (z & Ez & Hr). apply Ok_inj in Hr. subst. eauto.
    + intros Hr. apply Ok_inj in Hr. now subst.
  - intros ->. reflexivity.
Qed.

(** ** Rendering from features *)
Lemma unpack_raw (fs : list feature) (strs : list bytes) B root t (P : feature -> bytes -> Prop) : pack_features strs = Ok B ->
  Forall2 (fun f str => P f str /\ blen str < 2 ^ 32) fs strs -> unpack_features_for root B t = Ok strs.
Proof.
  intros H HF. pose proof H as H0. unfold pack_features, pack_header in H0.
  destruct (N.ltb_spec (N.of_nat (length strs)) (2 ^ 32)) as [Hl|]; [|discriminate]. cbn [verify bind] in H0.
  apply bind_ok in H0 as (b & Hb0 & H0). apply Ok_inj in H0. unfold append_features in Hb0. apply bind_ok in Hb0 as (b' & Hb1 & Hb0).
  apply Ok_inj in Hb0. apply ProofPack.append_each_inv in Hb1 as [F E].
  destruct (ProofPack.pack_unpack strs) as (bs & E1 & rest & E2).
  { clear - F HF. induction HF as [|f str fs strs [_ H] HF IH]; [constructor|]. apply Forall_cons_iff in F as [F1 F2]. constructor; [|exact (IH F2)].
    split; [exact F1|]. change (2 ^ 32) with 4294967296 in H. change (2 ^ 64) with 18446744073709551616. lia. }
  { exact Hl. }
  rewrite H in E1. apply Ok_inj in E1. subst bs.
  assert (HD : exists data, B = le_bytes 4 (N.of_nat (length strs)) ++ [0] ++ data).
  { subst B b b'. unfold pack_finish, append_span_end. cbn [length flat_map]. rewrite app_nil_r, <- !app_assoc. eexists. reflexivity. }
  destruct HD as (data & HD). unfold unpack_features_for.
  assert (HL : 5 <=? blen B = true).
  { rewrite HD, !blen_app. unfold blen at 1 2. rewrite le_bytes_length. cbn [length]. lia. }
  rewrite HL. cbn [verify bind]. unfold find_segment_offset.
  replace (nth 4 B 0) with 0. { cbn [N.to_nat find_segment bind]. rewrite E2. reflexivity. }
  rewrite HD. rewrite app_nth2; rewrite le_bytes_length; [reflexivity|lia].
Qed.
Section R.
Context (raw : bool) (enc : meta -> option N) (mk : line -> bytes) (srt : list qfeature -> list qfeature) (x : rctx) (t : tile).
Hypothesis Hsrt : sorts_by_key srt.
Hypothesis Hz : tz t <= 20.
Hypothesis Hv : valid_tile t.
Hypothesis Hcod : coder_ok enc (x_dec x).
Hypothesis Hmask : mask_ok mk (x_rd x) (tz t).

Definition drawn_as (f g : feature) : Prop := same_but f g (simplified raw mk (x_rd x) (tz t) f).

Lemma area_bounds : (0 <= bminx (tile_area t) /\ 0 <= bminy (tile_area t) /\ bmaxx (tile_area t) <= 2 ^ 32 /\ bmaxy (tile_area t) <= 2 ^ 32 /\
  bminx (tile_area t) < bmaxx (tile_area t) /\ bminy (tile_area t) < bmaxy (tile_area t))%Z.
Proof.
  unfold tile_area. cbn [bminx bminy bmaxx bmaxy]. destruct Hv as [H1 H2].
  assert (HP : (0 < 2 ^ (20 - Z.of_N (tz t)))%Z) by (apply Z.pow_pos_nonneg; lia).
  assert (HM : (2 ^ Z.of_N (tz t) * 2 ^ (20 - Z.of_N (tz t)) = 2 ^ 20)%Z) by (rewrite <- Z.pow_add_r by lia; f_equal; lia).
  assert (A : (Z.of_N (tx t) + 1 <= 2 ^ Z.of_N (tz t))%Z) by (change 2%Z with (Z.of_N 2); rewrite <- N2Z.inj_pow; lia).
  assert (B : (Z.of_N (ty t) + 1 <= 2 ^ Z.of_N (tz t))%Z) by (change 2%Z with (Z.of_N 2); rewrite <- N2Z.inj_pow; lia).
  clear H1 H2. set (P := (2 ^ (20 - Z.of_N (tz t)))%Z) in *. set (Q := (2 ^ Z.of_N (tz t))%Z) in *. clearbody P Q.
  change (2 ^ 32)%Z with (4096 * 2 ^ 20)%Z. rewrite <- HM. clear HM. nia.
Qed.
Lemma draw_visible b : box_visible (draw_area t) b <-> touches b (draw_area t).
Proof.
  pose proof area_bounds as H. unfold box_visible, axis_visible, touches, draw_area, max64. cbn [bminx bminy bmaxx bmaxy].
  change (2 ^ 63 - 1)%Z with 9223372036854775807%Z. change (2 ^ 32)%Z with 4294967296%Z in *. lia.
Qed.
Lemma touches_draw b : touches b (tile_area t) -> touches b (draw_area t).
Proof. unfold touches, draw_area. cbn [bminx bminy bmaxx bmaxy]. lia. Qed.

Lemma same_but_trans f f1 f2 g : same_but f f1 (f_geom f) -> same_but f1 f2 g -> same_but f f2 g.
Proof.
  intros (A1 & A2 & A3 & A4 & A5 & A6) (B1 & B2 & B3 & B4 & B5 & B6). unfold same_but. rewrite B1, B2, B3, B4, B6, A1, A2, A3, A4.
  repeat (split; [reflexivity|]). split; [now rewrite B5 | reflexivity].
Qed.

Definition legible (f : feature) (s : bytes) : Prop :=
  exists f', same_but f f' (f_geom f) /\ plain_feature f' /\ serialize_feature enc mk raw f' = Ok s /\ blen s < 2 ^ 32.
Lemma written_drawn f s : legible f s ->
  (deserialize_feature (x_dec x) (x_rd x) (Hints (draw_area t) (tz t)) s = Ok None /\ ~ may_draw raw mk (x_rd x) t f) \/
  (exists g, deserialize_feature (x_dec x) (x_rd x) (Hints (draw_area t) (tz t)) s = Ok (Some g) /\ drawn_as f g /\ may_draw raw mk (x_rd x) t f).
Proof.
  intros (f1 & SB & [HO HPr] & HS & HB). pose proof SB as (A1 & A2 & A3 & A4 & A5 & A6).
  assert (HI : tz t <> kInvalidZoomLevel) by (unfold kInvalidZoomLevel; lia).
  assert (HV : zoom_visible (tz t) f1 <-> in_zoom_range (tz t) f) by (unfold zoom_visible, in_zoom_range; rewrite A3, A4; tauto).
  destruct (feature_filtered enc (x_dec x) mk (x_rd x) (Hints (draw_area t) (tz t)) raw f1 s HO Hcod Hmask HPr HI HS HB) as [[E D]|(g & E & SB1 & D1 & D2 & D3)].
  - left. split; [assumption|]. intros (M1 & M2 & M3). cbn [h_box h_zoom] in D. rewrite A6 in D. destruct D as [D|D]; [|now apply M3].
    apply D. split; [now apply HV | now apply draw_visible].
  - right. exists g. cbn [h_box h_zoom] in *. rewrite A6 in *. split; [assumption|]. split; [exact (same_but_trans _ _ _ _ SB SB1)|].
    split; [now apply HV|]. split; [now apply draw_visible | exact D1].
Qed.

Lemma must_may f : must_draw raw mk (x_rd x) t f -> may_draw raw mk (x_rd x) t f.
Proof. intros (A & B & C). split; [assumption|]. split; [now apply touches_draw | assumption]. Qed.

Lemma strings_drawn found out : Forall2 legible found out ->
  exists os, map_res (deserialize_feature (x_dec x) (x_rd x) (Hints (draw_area t) (tz t))) out = Ok os /\
  exists shown hidden, Permutation (shown ++ hidden) found /\
    Forall2 drawn_as shown (flat_map (fun o : option feature => match o with Some f => [f] | None => [] end) os) /\
    Forall (may_draw raw mk (x_rd x) t) shown /\ Forall (fun f => ~ must_draw raw mk (x_rd x) t f) hidden.
Proof.
  induction 1 as [|f s found out W F (os & E & shown & hidden & P & G1 & G2 & G3)].
  - exists []. split; [reflexivity|]. exists [], []. repeat split; constructor.
  - cbn [map_res]. destruct (written_drawn f s W) as [[D N]|(g & D & A & M)]; rewrite D, E; cbn [bind].
    + eexists. split; [reflexivity|]. exists shown, (f :: hidden). split; [rewrite <- Permutation_middle; now constructor|].
      cbn [flat_map app]. split; [assumption|]. split; [assumption|]. constructor; [|assumption]. intros HM. apply N. now apply must_may.
    + eexists. split; [reflexivity|]. exists (f :: shown), hidden. split; [cbn [app]; now constructor|].
      cbn [flat_map app]. split; [now constructor|]. split; [now constructor | assumption].
Qed.

Lemma pack_drawn s root rf : tz root = 10 -> valid_tile root -> related root t ->
  record_holds raw enc (x_dec x) mk (x_rd x) srt s root rf ->
  exists B gs, pf_get s (fst rf) = Ok B /\ pack_features_of x t (draw_area t) (root, B) = Ok gs /\
  exists shown hidden, Permutation (shown ++ hidden) (snd rf) /\ Forall2 drawn_as shown gs /\
    Forall (may_draw raw mk (x_rd x) t) shown /\ Forall (fun f => ~ must_draw raw mk (x_rd x) t f) hidden.
Proof.
  intros Hr Hvr HR [HF HH]. assert (HC : exists B out found missed, pf_get s (fst rf) = Ok B /\ unpack_features_for root B t = Ok out /\
    Permutation (found ++ missed) (snd rf) /\ Forall2 legible found out /\ Forall (fun f => ~ must_find root t f) missed).
  { destruct raw eqn:ER.
    - destruct HH as (strs & B & H1 & H2 & H3). exists B, strs, (snd rf), []. split; [exact H3|]. split; [exact (unpack_raw _ _ _ root t _ H2 H1)|].
      split; [now rewrite app_nil_r|]. split; [|constructor]. clear - H1 HF ER. induction H1 as [|f str fs strs [H1 H2] H3 IH]; [constructor|].
      apply Forall_cons_iff in HF as [F1 F2]. constructor; [|exact (IH F2)]. exists f. split; [repeat split; reflexivity|]. split; [exact F1|].
      rewrite ER. split; [exact H1|exact H2].
    - destruct HH as (packs & fss & B & E & HP & HQ & HB & HG). rewrite E in HF.
      destruct (indexed_core enc (x_dec x) mk (x_rd x) srt root Hsrt packs fss B t ltac:(lia) Hvr HP HF HQ HB Hz HR)
        as (out & found & missed & U & P & W & _ & NM).
      exists B, out, found, missed. split; [assumption|]. split; [assumption|]. split; [now rewrite E|]. split; [|assumption].
      eapply ProofPackerProps.Forall2_mono; [|exact W]. intros f str (f' & W1 & W2 & W3 & W4). exists f'. rewrite ER.
      split; [assumption|]. split; [assumption|]. split; [assumption|]. change (2 ^ 30) with 1073741824 in W4. lia. }
  destruct HC as (B & out & found & missed & HG & U & P & W & NM).
  destruct (strings_drawn found out W) as (os & EO & shown & hidden & PS & G1 & G2 & G3).
  exists B. eexists. split; [assumption|]. split.
  { unfold pack_features_of. cbn [fst snd]. rewrite U. cbn [bind]. rewrite EO. cbn [bind]. reflexivity. }
  exists shown, (hidden ++ missed). split; [|split; [assumption|split; [assumption|]]].
  - rewrite <- P, <- PS, app_assoc. reflexivity.
  - apply Forall_app. split; [assumption|]. eapply Forall_impl; [|exact NM]. cbv beta. intros f H (M1 & M2 & _). apply H. split; [|assumption].
    unfold in_zoom_range in M1. lia.
Qed.

Lemma packs_drawn s (l : list (tile * (pack_record * list feature))) :
  Forall (fun p => tz (fst p) = 10 /\ valid_tile (fst p) /\ related (fst p) t /\ record_holds raw enc (x_dec x) mk (x_rd x) srt s (fst p) (snd p)) l ->
  exists ps gss, map_res (fun tr : tile * pack_record => do b <- pf_get s (snd tr); Ok (fst tr, b)) (map (fun p => (fst p, fst (snd p))) l) = Ok ps /\
  map_res (pack_features_of x t (draw_area t)) ps = Ok gss /\
  exists shown hidden, Permutation (shown ++ hidden) (flat_map (fun p => snd (snd p)) l) /\ Forall2 drawn_as shown (concat gss) /\
    Forall (may_draw raw mk (x_rd x) t) shown /\ Forall (fun f => ~ must_draw raw mk (x_rd x) t f) hidden.
Proof.
  induction l as [|[root rf] l IH]; intros H.
  - exists [], []. split; [reflexivity|]. split; [reflexivity|]. exists [], []. repeat split; constructor.
  - inversion H as [|? ? (H1 & H2 & H3 & H4) HF]; subst. cbn [fst snd] in *. destruct (IH HF) as (ps & gss & E1 & E2 & sh & hi & P & G1 & G2 & G3).
    destruct (pack_drawn s root rf H1 H2 H3 H4) as (B & gs & F1 & F2 & sh' & hi' & P' & K1 & K2 & K3).
    exists ((root, B) :: ps), (gs :: gss). cbn [map map_res fst snd]. rewrite F1. cbn [bind]. rewrite E1, F2. cbn [bind]. rewrite E2. cbn [bind].
    split; [reflexivity|]. split; [reflexivity|]. exists (sh' ++ sh), (hi' ++ hi). cbn [flat_map snd concat]. split; [|split; [|split]].
    + rewrite <- P, <- P'. rewrite <- !app_assoc. apply Permutation_app_head. rewrite !app_assoc. apply Permutation_app_tail, Permutation_app_comm.
    + now apply Forall2_app.
    + now apply Forall_app.
    + now apply Forall_app.
Qed.

Lemma flat_map_flat_map {A B C} (f : A -> list B) (g : B -> list C) l : flat_map g (flat_map f l) = flat_map (fun a => flat_map g (f a)) l.
Proof. induction l as [|a l IH]; [reflexivity|]. cbn [flat_map]. now rewrite flat_map_app, IH. Qed.
Lemma flat_map_map' {A B C} (f : A -> B) (g : B -> list C) l : flat_map g (map f l) = flat_map (fun a => g (f a)) l.
Proof. induction l as [|a l IH]; [reflexivity|]. cbn [flat_map map]. now rewrite IH. Qed.
Lemma map_flat_map' {A B C} (f : A -> list B) (g : B -> C) l : map g (flat_map f l) = flat_map (fun a => map g (f a)) l.
Proof. induction l as [|a l IH]; [reflexivity|]. cbn [flat_map]. now rewrite map_app, IH. Qed.
Lemma filter_map' {A B} (f : A -> B) p l : filter p (map f l) = map f (filter (fun a => p (f a)) l).
Proof. induction l as [|a l IH]; [reflexivity|]. cbn [filter map]. destruct (p (f a)); cbn [map]; now rewrite IH. Qed.

Lemma features_drawn s features rows : database_ok raw enc (x_dec x) mk (x_rd x) srt s features rows ->
  exists ps gs, foreach_pack features s t = Ok ps /\ render_features x t ps = Ok gs /\
  exists shown hidden, Permutation (shown ++ hidden) (near_features rows t) /\ Forall2 drawn_as shown gs /\
    Forall (may_draw raw mk (x_rd x) t) shown /\ Forall (fun f => ~ must_draw raw mk (x_rd x) t f) hidden.
Proof.
  intros (D1 & D2 & D3). set (rs := filter (fun r => relatedb (row_tile r) t) rows).
  set (l := flat_map (fun r => map (pair (row_tile r)) (row_packs r)) rs).
  destruct (packs_drawn s l) as (ps & gss & E1 & E2 & sh & hi & P & G1 & G2 & G3).
  { apply Forall_forall. intros [root rf] Hin. apply in_flat_map in Hin as (r & Hr & Hin). apply in_map_iff in Hin as (rf' & Er & Hin). injection Er as <- <-.
    apply filter_In in Hr as [Hr1 Hr2]. destruct (proj1 (Forall_forall _ _) D3 _ Hr1) as (T1 & T2 & T3). cbn [fst snd].
    split; [assumption|]. split; [assumption|]. split; [now apply relatedb_spec|]. exact (proj1 (Forall_forall _ _) T3 _ Hin). }
  assert (HN : flat_map (fun p => snd (snd p)) l = near_features rows t).
  { unfold l, near_features. fold rs. rewrite flat_map_flat_map. apply flat_map_ext. intros r. rewrite flat_map_map'. reflexivity. }
  assert (HM : map (fun p => (fst p, fst (snd p))) l = flat_map (fun d : tile * N * list pack_record => map (fun r => (fst (fst d), r)) (snd d))
       (filter (fun d => (tz (fst (fst d)) =? 10) && relatedb (fst (fst d)) t) (map row_index rows))).
  { rewrite filter_map', flat_map_map'. cbn [row_index fst snd]. unfold l. rewrite map_flat_map'.
    assert (HE : filter (fun a => (tz (row_tile a) =? 10) && relatedb (row_tile a) t) rows = rs).
    { unfold rs. clear - D3. induction D3 as [|r rows (H & _) HF IH]; [reflexivity|]. cbn [filter]. rewrite H, IH. reflexivity. }
    rewrite HE. apply flat_map_ext. intros r. rewrite !map_map. reflexivity. }
  exists ps, (concat gss). split; [|split].
  - unfold foreach_pack. rewrite (foreach_exact_db _ _ t D1 D2 Hz Hv), <- HM. exact E1.
  - unfold render_features. destruct (spec_area t Hz Hv) as (sp & E & D & _). rewrite E. cbn [bind]. rewrite D, E2. reflexivity.
  - exists sh, hi. rewrite <- HN. auto.
Qed.
End R.

(** ** Whole tiles *)
Lemma simplified_kind raw mk rd z f : simplified raw mk rd z f = GNull \/ kind (simplified raw mk rd z f) = kind (f_geom f).
Proof.
  unfold simplified. destruct raw; [now right|]. destruct (f_geom f) as [|ps|ls|ps] eqn:E; cbn [select_geom]; auto.
  match goal with |- context [normal ?g] => destruct (normal g) eqn:En end; auto; exfalso; revert En; cbn [normal]; try discriminate;
    repeat match goal with |- context [match ?l with _ => _ end] => destruct l end; discriminate.
Qed.
Lemma kind_null g : kind g = 0 <-> g = GNull.
Proof. destruct g; split; intros H; try reflexivity; discriminate. Qed.

Lemma Forall2_in_r {A B} (R : A -> B -> Prop) l m b : Forall2 R l m -> In b m -> exists a, In a l /\ R a b.
Proof. induction 1 as [|a b' l m H F IH]; intros Hb; [destruct Hb|]. destruct Hb as [->|Hb]; [exists a; split; [now left|assumption]|]. destruct (IH Hb) as (a' & ? & ?). exists a'. split; [now right|assumption]. Qed.
Lemma Forall2_in_l {A B} (R : A -> B -> Prop) l m a : Forall2 R l m -> In a l -> exists b, In b m /\ R a b.
Proof. induction 1 as [|a' b l m H F IH]; intros Ha; [destruct Ha|]. destruct Ha as [->|Ha]; [exists b; split; [now left|assumption]|]. destruct (IH Ha) as (b' & ? & ?). exists b'. split; [now right|assumption]. Qed.

Lemma first_match {A} (p : A -> bool) l : (exists a, In a l /\ p a = true) ->
  exists u a v, l = u ++ a :: v /\ p a = true /\ forall b, In b u -> p b = false.
Proof.
  induction l as [|y l IH]; intros (a & Hin & Ha); [destruct Hin|]. destruct (p y) eqn:E.
  - exists [], y, l. repeat split; auto. intros b [].
  - destruct Hin as [->|Hin]; [congruence|]. destruct IH as (u & b & v & -> & Hb & Hu); [eauto|].
    exists (y :: u), b, v. repeat split; auto. intros c [<-|Hc]; auto.
Qed.

Lemma sea_total x t sea : seaside_is x sea -> tz t <= 20 -> valid_tile t ->
  exists ss, seaside_features x t = Ok ss /\
    Forall (fun f => f_layer f = 0 /\ f_id f < 2 ^ 64 /\ meta_ok f /\
                     areal (f_geom f) /\
                     exists e, covers t e /\ covered sea e /\ tile_to_key e 0 = Ok (f_id f) /\ f = sea_of e (f_id f)) ss.
Proof.
  intros Hsea Hz Hv. pose proof Hsea as (HA & _ & _). unfold seaside_features.
  destruct (sea_leafs x sea t Hsea Hz Hv) as (L & -> & _ & L1 & L2). cbn [bind].
  assert (HL : Forall (fun e => tz e <= 20 /\ valid_tile e /\ covers t e /\ covered sea e) L).
  { destruct (sea_contains x sea t Hsea Hz Hv) as (b & _ & Hb). destruct b.
    - assert (Hc : covered sea t) by now apply Hb. rewrite (L1 Hc). apply Forall_cons; [|apply Forall_nil]. repeat split; auto; try apply Hv; try lia;
        rewrite N.sub_diag; cbn [N.pow]; now rewrite N.div_1_r.
    - assert (Hc : ~ covered sea t) by (intros Hc; apply Hb in Hc; discriminate). apply Forall_forall. intros e He. apply (L2 Hc) in He as (M1 & M2 & M3).
      destruct M1 as [M1 _]. destruct (proj1 (Forall_forall _ _) HA _ M1) as [V1 V2]. repeat split; auto; try apply V2; try apply M2.
      exists e. split; [assumption|]. repeat split; try lia; rewrite N.sub_diag; cbn [N.pow]; now rewrite N.div_1_r. }
  clear L1 L2. induction L as [|e L IH]; [exists []; split; [reflexivity | constructor]|].
  inversion HL as [|? ? (H1 & H2 & H3 & H4) HF]; subst. destruct (IH HF) as (ss & E & F). cbn [map_res].
  destruct (tile_key_roundtrip e 0) as [[_ HT]|(k & Hk & Hk64 & _)].
  1-4: destruct H2; assert (2 ^ tz e <= 2 ^ 20) by (apply N.pow_le_mono_r; lia); change (2 ^ 20) with 1048576 in *; change (2 ^ 32) with 4294967296 in *; lia.
  { destruct HT. destruct H2. assert (2 ^ tz e <= 2 ^ 20) by (apply N.pow_le_mono_r; lia). change (2 ^ 20) with 1048576 in *.
    unfold key_range. change (2 ^ 21) with 2097152. change (2 ^ 5) with 32. change (2 ^ 17) with 131072. lia. }
  rewrite (seaside_feature_ok e k H1 H2 Hk). cbn [bind]. rewrite E. cbn [bind]. eexists. split; [reflexivity|]. constructor; [|assumption].
  cbn [sea_of f_layer f_id]. split; [reflexivity|]. split; [assumption|]. split.
  { unfold meta_ok. cbn [f_meta]. apply Forall_cons; [|apply Forall_nil]. left. left. reflexivity. }
  split; [exact (square_areal _ (area_range e H1 H2))|]. exists e. auto.
Qed.

Section T.
Context (raw : bool) (enc : meta -> option N) (mk : line -> bytes) (srt : list qfeature -> list qfeature) (x : rctx) (t : tile)
  (tiles features : table) (s : pfile) (rows : list row) (sea : list tile).
Hypothesis Hsrt : sorts_by_key srt.
Hypothesis Hz : tz t <= 20.
Hypothesis Hv : valid_tile t.
Hypothesis Hr : renderer_ok enc mk x (tz t).
Hypothesis Hsea : seaside_is x sea.
Hypothesis Hdb : database_ok raw enc (x_dec x) mk (x_rd x) srt s features rows.
Hypothesis Hprep : ~ prepared x t.
Hypothesis Hnames : x_names x <> [].
Hypothesis Hf : Forall (fun f => f_layer f < N.of_nat (length (x_names x)) /\ meta_ok f /\
    areal (simplified raw mk (x_rd x) (tz t) f) /\ (x_agg_lines x = true -> joinable (simplified raw mk (x_rd x) (tz t) f))) (near_features rows t).

Lemma near_plain f : In f (near_features rows t) -> plain_feature f.
Proof.
  intros H. apply in_flat_map in H as (r & H1 & H2). apply filter_In in H1 as [H1 _]. apply in_flat_map in H2 as (rf & H2 & H3).
  destruct Hdb as (_ & _ & D). destruct (proj1 (Forall_forall _ _) D _ H1) as (_ & _ & D').
  destruct (proj1 (Forall_forall _ _) D' _ H2) as [P _]. exact (proj1 (Forall_forall _ _) P _ H3).
Qed.

Lemma get_unprepared : get_tile tiles features s x t = (do ps <- foreach_pack features s t; render_tile x t ps).
Proof.
  unfold get_tile, kMaxZoomLevel. replace (tz t <=? 20) with true by lia. cbn [verify bind].
  destruct (negb (x_ignore_prepared x) && (Z.of_N (tz t) <=? x_max_prepared x)%Z) eqn:E; [|reflexivity].
  exfalso. apply Hprep. apply andb_prop in E as [E1 E2]. split; [now destruct (x_ignore_prepared x) | lia].
Qed.

Lemma rendered : exists c ss gs buf,
  make_builder x t = Ok c /\ ctx_for c t /\ c_names c = x_names x /\ c_cut c = x_cut x /\ c_aggregate c = x_aggregate x /\
    c_agg_lines c = x_agg_lines x /\ c_agg_polys c = x_agg_polys x /\ c_z c = tz t /\ draw_bounds (c_spec c) = draw_area t /\
    (bminx (px_bounds (c_spec c)), bminy (px_bounds (c_spec c))) = tile_corner t /\
  build_tile c (ss ++ gs) = Ok buf /\
  Forall (fun f => f_id f < 2 ^ 64) (ss ++ gs) /\
  (Forall (fun f => f_layer f = 0 /\ exists e, covers t e /\ covered sea e /\ tile_to_key e 0 = Ok (f_id f) /\ f = sea_of e (f_id f)) ss /\ seaside_features x t = Ok ss) /\
  (exists shown hidden, Permutation (shown ++ hidden) (near_features rows t) /\ Forall2 (drawn_as raw mk x t) shown gs /\
    Forall (may_draw raw mk (x_rd x) t) shown /\ Forall (fun f => ~ must_draw raw mk (x_rd x) t f) hidden) /\
  (get_tile tiles features s x t = Ok None /\ gs = [] /\ x_ignore_seaside x = true /\ covered sea t \/
   get_tile tiles features s x t = match buf with
    | [] => Ok None
    | _ => if x_compress x then do z <- x_deflate x buf; Ok (Some z) else Ok (Some buf)
    end).
Proof.
  destruct Hr as (R1 & R2 & R3 & R4 & R5 & R6).
  destruct (builder_for x t Hz Hv R3) as (c & EB & HX & N1 & N2 & N3 & N4 & N5 & N6 & N7 & N8).
  destruct (sea_total x t sea Hsea Hz Hv) as (ss & ES & FS).
  destruct (features_drawn raw enc mk srt x t Hsrt Hz Hv R1 R2 s features rows Hdb) as (ps & gs & E1 & E2 & shown & hidden & P & G1 & G2 & G3).
  assert (HG : Forall (fun f => f_id f < 2 ^ 64 /\ f_layer f < N.of_nat (length (x_names x)) /\ meta_ok f /\ areal (f_geom f) /\ (x_agg_lines x = true -> joinable (f_geom f))) gs).
  { apply Forall_forall. intros g Hg. destruct (Forall2_in_r _ _ _ _ G1 Hg) as (f & Hfs & A1 & A2 & A3 & A4 & A5 & A6).
    assert (Hn : In f (near_features rows t)) by (apply (Permutation_in _ P); apply in_or_app; now left).
    destruct (near_plain f Hn) as [(O1 & _) _]. destruct (proj1 (Forall_forall _ _) Hf _ Hn) as (L1 & L2 & L4 & L3).
    rewrite A1, A2. split; [assumption|]. split; [assumption|]. split; [|rewrite A6; split; [exact L4 | exact L3]]. unfold meta_ok. eapply Permutation_Forall; [symmetry; exact A5|]. exact L2. }
  destruct (build_tile_total c t HX) with (fs := ss ++ gs) as (buf & EBT).
  { now rewrite N2. }
  { now rewrite N3. }
  { now rewrite N3. }
  { rewrite N1, N4. apply Forall_app. split; [|assumption]. eapply Forall_impl; [|exact FS]. cbv beta. intros f (F1 & F2 & F3 & F5 & e & _ & _ & _ & F4). rewrite F1.
    split; [assumption|]. split; [|split; [assumption|split; [assumption|]; intros _; rewrite F4; exact I]]. destruct (x_names x); [congruence|]. cbn [length]. lia. }
  exists c, ss, gs, buf. repeat (split; [assumption|]). split; [|split; [|split]].
  - apply Forall_app. split; [eapply Forall_impl; [|exact FS] | eapply Forall_impl; [|exact HG]]; cbv beta; tauto.
  - split; [|assumption]. eapply Forall_impl; [|exact FS]. cbv beta. tauto.
  - eauto 8.
  - rewrite get_unprepared, E1. cbn [bind]. unfold render_tile. rewrite EB, ES, E2. cbn [bind].
    destruct (x_ignore_seaside x) eqn:EI; [|right; cbn [bind]; rewrite EBT; reflexivity].
    destruct (sea_contains x sea t Hsea Hz Hv) as (b & Eb & Hb). rewrite Eb. cbn [bind]. destruct b; [|right; cbn [andb]; rewrite EBT; reflexivity].
    cbn [andb]. destruct gs as [|g gs]; [left; repeat split; auto; now apply Hb | right; rewrite EBT; reflexivity].
Qed.

Lemma feature_shown f g : In f (near_features rows t) -> must_draw raw mk (x_rd x) t f ->
  (f_layer f = 0 -> kind (f_geom f) = 3 -> forall e, covers t e -> covered sea e -> tile_to_key e 0 <> Ok (f_id f)) ->
  (forall f', In f' (near_features rows t) -> f_layer f' = f_layer f -> f_id f' = f_id f -> kind (f_geom f') = kind (f_geom f) -> same_but f f' (f_geom f)) ->
  ~ (x_agg_lines x = true /\ kind (f_geom f) = 2) ->
  clip (x_cut x) (draw_area t) (simplified raw mk (x_rd x) (tz t) f) = Ok g -> shift_geom (tz t) g <> GNull ->
  (f_layer f <> 0 -> kind (f_geom f) = 3 -> x_agg_polys x = true -> x_drop_subpixel x = true -> (256 <= x_area x (shift_geom (tz t) g))%Z) ->
  exists buf, buf <> [] /\
    (forall r, get_tile tiles features s x t = Ok r -> sent x buf r) /\
    (x_compress x = false -> get_tile tiles features s x t = Ok (Some buf)) /\
    (blen buf < 2 ^ 29 -> exists vls l v, decode_tile buf = Some vls /\ In l vls /\ In v (vl_features l) /\
       nth_error (x_names x) (N.to_nat (f_layer f)) = Some (vl_name l) /\ shows_stored raw (tile_corner t) mk x t f v).
Proof.
  intros Hin Hm Hl Hu Ha1 Hg Hgn Ha2.
  destruct rendered as (c & ss & gs & buf & EB & HX & N1 & N2 & N3 & N4 & N5 & N6 & N7 & N8 & EBT & HID & [HSS HES] & (shown & hidden & P & G1 & G2 & G3) & HGT).
  assert (Hsh : In f shown).
  { apply (Permutation_in _ (Permutation_sym P)) in Hin. apply in_app_or in Hin as [H|H]; [assumption|]. destruct (proj1 (Forall_forall _ _) G3 _ H Hm). }
  set (p := fun h => (f_layer h =? f_layer f) && (f_id h =? f_id f) && (kind (f_geom h) =? kind (f_geom f))).
  assert (Hk : forall f' h, drawn_as raw mk x t f' h -> may_draw raw mk (x_rd x) t f' -> kind (f_geom h) = kind (f_geom f')).
  { intros f' h (_ & _ & _ & _ & _ & E) (_ & _ & Hnn). rewrite E. destruct (simplified_kind raw mk (x_rd x) (tz t) f'); [contradiction | assumption]. }
  destruct (first_match p gs) as (u & h & v & Eg & Hp & Hbefore).
  { destruct (Forall2_in_l _ _ _ _ G1 Hsh) as (h & Hh & HD). exists h. split; [assumption|]. pose proof (Hk f h HD (proj1 (Forall_forall _ _) G2 _ Hsh)) as K.
    destruct HD as (D1 & D2 & _). unfold p. rewrite K, D1, D2, !N.eqb_refl. reflexivity. }
  assert (Hh : In h gs) by (rewrite Eg; apply in_or_app; right; now left).
  destruct (Forall2_in_r _ _ _ _ G1 Hh) as (f1 & Hf1 & HD). pose proof (Hk f1 h HD (proj1 (Forall_forall _ _) G2 _ Hf1)) as K.
  assert (SB : same_but f f1 (f_geom f)).
  { unfold p in Hp. destruct HD as (D1 & D2 & _). rewrite K, D1, D2 in Hp. apply Hu; try lia. apply (Permutation_in _ P). apply in_or_app. now left. }
  destruct SB as (B1 & B2 & B3 & B4 & B5 & B6). destruct HD as (D1 & D2 & D3 & D4 & D5 & D6).
  assert (ESf : simplified raw mk (x_rd x) (tz t) f1 = simplified raw mk (x_rd x) (tz t) f) by (unfold simplified; now rewrite B6).
  rewrite ESf in D6.
  assert (c_drop_subpixel c = x_drop_subpixel x /\ c_area c = x_area x) as [N9 N10].
  { clear - EB. unfold make_builder in EB. apply bind_ok in EB as (sp & _ & EB). apply Ok_inj in EB. subst c. auto. }
  set (h' := set_geom h (shift_geom (tz t) g)).
  assert (EC : clip_shift c h = Ok h').
  { unfold clip_shift. rewrite D6, N7, N2, Hg. cbn [bind]. rewrite N6. reflexivity. }
  assert (Hnn : not_null h' = true).
  { unfold not_null, h'. cbn [set_geom f_geom]. destruct (kind (shift_geom (tz t) g) =? 0) eqn:E; [|reflexivity]. apply N.eqb_eq, kind_null in E. contradiction. }
  assert (Hnh : not_null h = true).
  { unfold not_null. rewrite D6. destruct (kind _ =? 0) eqn:E; [|reflexivity]. apply N.eqb_eq, kind_null in E. destruct Hm as (_ & _ & Hm). contradiction. }
  assert (Hli : ~ (c_agg_lines c = true /\ kind (f_geom h) = 2)) by (rewrite N4, K, B6; exact Ha1).
  assert (Hpo : c_agg_polys c = true -> kind (f_geom h) = 3 -> big_enough c h' = true).
  { rewrite N5, K, B6. intros Hp1 Hp2. unfold big_enough, h'. cbn [set_geom f_layer f_geom]. rewrite D2, B2, N9, N10.
    destruct (f_layer f =? 0) eqn:E0; [reflexivity|]. cbn [orb]. destruct (x_drop_subpixel x) eqn:E1; [|reflexivity]. cbn [negb orb]. apply Z.leb_le. apply Ha2; auto. lia. }
  assert (HD : blen buf < 2 ^ 29 -> exists vls l v, decode_tile buf = Some vls /\ In l vls /\ In v (vl_features l) /\
       nth_error (x_names x) (N.to_nat (f_layer f)) = Some (vl_name l) /\ shows_stored raw (tile_corner t) mk x t f v).
  { intros Hb. destruct (tile_present_big c t (ss ++ u) h v buf h') as (vls & l & v0 & T1 & T2 & T3 & T4 & T5); try assumption.
    - rewrite <- app_assoc, <- Eg. assumption.
    - rewrite N3. apply Hr.
    - rewrite <- app_assoc, <- Eg. assumption.
    - intros g0 Hg0 (Q1 & Q2 & Q3). apply in_app_or in Hg0 as [Hg0|Hg0].
      + destruct (proj1 (Forall_forall _ _) HSS _ Hg0) as (L0 & e & E1 & E2 & E3 & E4). rewrite D2, B2 in Q1. rewrite D1, B1 in Q2. rewrite K, B6 in Q3.
        apply (Hl (eq_trans (eq_sym Q1) L0)) with (e := e); auto; [|now rewrite <- Q2]. rewrite <- Q3, E4. reflexivity.
      + specialize (Hbefore _ Hg0). unfold p in Hbefore. rewrite Q1, Q2, Q3, K, B6, D2, D1, B1, B2, !N.eqb_refl in Hbefore. discriminate.
    - exists vls, l, v0. repeat (split; [assumption|]). split; [rewrite <- N1; rewrite D2, B2 in T4; assumption|].
      destruct T5 as (U1 & U2 & U3). unfold shows_stored. rewrite N8 in U2. cbn [h' set_geom f_id f_geom f_meta] in *. split; [congruence|]. split.
      + exists (f_meta h). split; [|assumption]. rewrite D5. assumption.
      + exists g. split; assumption. }
  exists buf. assert (Hne : buf <> []).
  { intros ->. destruct HD as (vls & l & v0 & Q1 & Q2 & _); [reflexivity|]. unfold decode_tile in Q1. cbn in Q1. injection Q1 as <-. destruct Q2. }
  split; [assumption|].
  destruct HGT as [(_ & E0 & _)|HGT]; [rewrite E0 in Hh; destruct Hh|]. rewrite HGT. clear HGT. split; [|split; [|assumption]].
  - intros r. destruct buf as [|b0 bf]; [congruence|]. unfold sent. cbn [length Nat.eqb]. destruct (x_compress x).
    + intros HR. apply bind_ok in HR as (z & Ez & HR). apply Ok_inj in HR. subst. eauto.
    + intros HR. apply Ok_inj in HR. now subst.
  - intros ->. destruct buf; [congruence | reflexivity].
Qed.

(** the sea squares are drawn *)
Lemma sea_shown e k g : covered sea t /\ e = t \/ ~ covered sea t /\ maximal sea e /\ covers t e -> tile_to_key e 0 = Ok k ->
  clip (x_cut x) (draw_area t) (box_ring (draw_area e)) = Ok g -> shift_geom (tz t) g <> GNull -> x_ignore_seaside x = false ->
  exists buf, buf <> [] /\
    (forall r, get_tile tiles features s x t = Ok r -> sent x buf r) /\
    (x_compress x = false -> get_tile tiles features s x t = Ok (Some buf)) /\
    (blen buf < 2 ^ 29 -> exists vls l v, decode_tile buf = Some vls /\ In l vls /\ In v (vl_features l) /\
       nth_error (x_names x) 0 = Some (vl_name l) /\ v_id v = k /\ v_tags v = [] /\ relative_geom (tile_corner t) (shift_geom (tz t) g) = Some (v_geom v)).
Proof.
  intros He Hk Hg Hgn Hig.
  destruct rendered as (c & ss & gs & buf & EB & HX & N1 & N2 & N3 & N4 & N5 & N6 & N7 & N8 & EBT & HID & [HSS HES] & _ & HGT).
  destruct (sea_leafs x sea t Hsea Hz Hv) as (lf & EL & ND & L1 & L2).
  assert (Hin : In e lf).
  { destruct He as [[Hc ->]|(Hc & Hm & Hcv)]; [rewrite (L1 Hc); now left|]. apply (L2 Hc). split; [assumption|]. split; [assumption|]. intros ->. apply Hc. exists t. destruct Hm as [Hm _]. split; [assumption|].
    exact Hcv. }
  unfold seaside_features in HES. rewrite EL in HES. cbn [bind] in HES. apply map_res_Forall2 in HES.
  assert (Hsplit : exists u v, ss = u ++ sea_of e k :: v /\ forall h, In h u -> f_id h <> k).
  { assert (HLs : Forall (fun e => tz e <= 20 /\ valid_tile e) lf).
    { destruct (sea_contains x sea t Hsea Hz Hv) as (b & _ & Hb). destruct b.
      - rewrite (L1 (proj1 Hb eq_refl)). apply Forall_cons; [auto | apply Forall_nil].
      - assert (Hc : ~ covered sea t) by (intros Hc; apply Hb in Hc; discriminate). apply Forall_forall. intros e' He'. apply (L2 Hc) in He' as ([M1 _] & _ & _).
        destruct Hsea as (HA & _ & _). exact (proj1 (Forall_forall _ _) HA _ M1). }
    clear - HES Hin ND Hk HLs. revert ND Hin HLs. induction HES as [|e0 h lf ss E HES IH]; intros ND Hin HLs; [destruct Hin|]. inversion ND as [|? ? N1 N2]; subst. inversion HLs as [|? ? [Z V] HLs']; subst.
    assert (K0 : exists k0, tile_to_key e0 0 = Ok k0 /\ h = sea_of e0 k0).
    { unfold seaside_feature in E. destruct (spec_area e0 Z V) as (sp & Es & Ed & _). rewrite Es in E. cbn [bind] in E. apply bind_ok in E as (k0 & Ek & E). apply Ok_inj in E. exists k0. split; [assumption|].
      subst h. unfold sea_of. rewrite Ed. reflexivity. }
    destruct K0 as (k0 & Ek0 & ->). destruct (tile_dec e0 e) as [->|Et].
    - rewrite Hk in Ek0. apply Ok_inj in Ek0. subst k0. exists [], ss. split; [reflexivity | intros h []].
    - destruct Hin as [->|Hin]; [congruence|].
      destruct (IH N2 Hin HLs') as (u & v & -> & Hu). exists (sea_of e0 k0 :: u), v. split; [reflexivity|]. intros h [<-|Hh]; [|auto]. cbn [sea_of f_id]. intros ->.
      destruct (tile_key_injective _ _ _ _ _ Hk Ek0) as [-> _]. contradiction. }
  destruct Hsplit as (u & v & Ess & Hu).
  set (h' := set_geom (sea_of e k) (shift_geom (tz t) g)).
  assert (EC : clip_shift c (sea_of e k) = Ok h').
  { unfold clip_shift. cbn [sea_of f_geom]. rewrite N7, N2, Hg. cbn [bind]. rewrite N6. reflexivity. }
  assert (Hnn : not_null h' = true).
  { unfold not_null, h'. cbn [set_geom f_geom]. destruct (kind (shift_geom (tz t) g) =? 0) eqn:E; [|reflexivity]. apply N.eqb_eq, kind_null in E. contradiction. }
  assert (HD : blen buf < 2 ^ 29 -> exists vls l v, decode_tile buf = Some vls /\ In l vls /\ In v (vl_features l) /\
       nth_error (x_names x) 0 = Some (vl_name l) /\ v_id v = k /\ v_tags v = [] /\ relative_geom (tile_corner t) (shift_geom (tz t) g) = Some (v_geom v)).
  { intros Hb. rewrite Ess, <- app_assoc in *. cbn [app] in *.
    destruct (tile_present_big c t u (sea_of e k) (v ++ gs) buf h') as (vls & l & v0 & T1 & T2 & T3 & T4 & T5); try assumption.
    - rewrite N3. apply Hr.
    - intros g0 Hg0 (_ & Q2 & _). exact (Hu _ Hg0 Q2).
    - reflexivity.
    - intros [_ Q]. discriminate Q.
    - reflexivity.
    - exists vls, l, v0. repeat (split; [assumption|]). rewrite <- N1. split; [exact T4|].
      destruct T5 as (U1 & U2 & U3). rewrite N8 in U2. cbn [h' set_geom sea_of f_id f_geom f_meta] in *. split; [assumption|]. split; [|assumption].
      inversion U3 as [|? ? ? ? ? HT|? ? ? ? ? HNI]; subst; [inversion HT; reflexivity|]. destruct HNI. left. reflexivity. }
  exists buf. assert (Hne : buf <> []).
  { intros ->. destruct HD as (vls & l & v0 & Q1 & Q2 & _); [reflexivity|]. unfold decode_tile in Q1. cbn in Q1. injection Q1 as <-. destruct Q2. }
  split; [assumption|].
  destruct HGT as [(_ & _ & E0 & _)|HGT]; [rewrite E0 in Hig; discriminate Hig|]. rewrite HGT. clear HGT. split; [|split; [|assumption]].
  - intros r. destruct buf as [|b0 bf]; [congruence|]. unfold sent. cbn [length Nat.eqb]. destruct (x_compress x).
    + intros HR. apply bind_ok in HR as (z & Ez & HR). apply Ok_inj in HR. subst. eauto.
    + intros HR. apply Ok_inj in HR. now subst.
  - intros ->. destruct buf; [congruence | reflexivity].
Qed.

Lemma only_stored b : get_tile tiles features s x t = Ok (Some b) ->
  exists buf, buf <> [] /\ sent x buf (Some b) /\ (blen buf < 2 ^ 29 -> exists vls, decode_tile buf = Some vls /\ forall l v, In l vls -> In v (vl_features l) ->
    (nth_error (x_names x) 0 = Some (vl_name l) /\ v_tags v = [] /\ vkind (v_geom v) = 3 /\
       exists e, covers t e /\ covered sea e /\ tile_to_key e 0 = Ok (v_id v)) \/
    (exists f, In f (near_features rows t) /\ may_draw raw mk (x_rd x) t f /\
       nth_error (x_names x) (N.to_nat (f_layer f)) = Some (vl_name l) /\ vkind (v_geom v) = kind (f_geom f) /\
       (shows_stored raw (tile_corner t) mk x t f v \/
        x_agg_lines x = true /\ kind (f_geom f) = 2 /\ v_id v = f_id f /\ exists ms, Permutation ms (f_meta f) /\ tags_of ms (v_tags v)))).
Proof.
  intros Hget.
  destruct rendered as (c & ss & gs & buf & EB & HX & N1 & N2 & N3 & N4 & N5 & N6 & N7 & N8 & EBT & HID & [HSS HES] & (shown & hidden & P & G1 & G2 & G3) & HGT).
  destruct HGT as [(HGT & _)|HGT]; rewrite HGT in Hget; [discriminate|]. 
  assert (buf <> [] /\ sent x buf (Some b)) as [Hne Hsent].
  { clear - Hget. destruct buf as [|b0 bf]; [discriminate|]. split; [discriminate|]. unfold sent. cbn [length Nat.eqb]. destruct (x_compress x).
    - apply bind_ok in Hget as (z & Ez & HR). apply Ok_inj in HR. eauto.
    - apply Ok_inj in Hget. now symmetry. }
  exists buf. split; [assumption|]. split; [assumption|]. intros Hb. clear Hget HGT.
  assert (HAG : aggregate_ok (c_aggregate c)) by (rewrite N3; apply Hr).
  destruct (tile_decodes c t (ss ++ gs) buf HX HID HAG EBT Hb) as (ls & vls & D1 & D2 & D3 & D4).
  exists vls. split; [assumption|]. intros l v Hl Hvl.
  destruct (Forall2_in_r _ _ _ _ D2 Hl) as ([i ws] & Hiw & HS). destruct HS as (_ & _ & S1 & _ & _ & S2). cbn [fst snd] in *. rewrite N1 in S1.
  destruct (Forall2_in_r _ _ _ _ S2 Hvl) as (w & Hw & U1 & U2 & U3). rewrite N8 in U2.
  apply D4 in Hiw as [Hiw _]. destruct (content_cases c i _ ws w Hiw Hw) as (Hn & w0 & EC & HCase).
  assert (Hdr : forall g, In g gs -> exists f, In f (near_features rows t) /\ may_draw raw mk (x_rd x) t f /\ drawn_as raw mk x t f g /\ kind (f_geom g) = kind (f_geom f)).
  { intros g Hg. destruct (Forall2_in_r _ _ _ _ G1 Hg) as (f & Hfs & HD). exists f. pose proof (proj1 (Forall_forall _ _) G2 _ Hfs) as HM.
    split; [apply (Permutation_in _ P); apply in_or_app; now left|]. split; [assumption|]. split; [assumption|].
    destruct HD as (_ & _ & _ & _ & _ & E). rewrite E. destruct (simplified_kind raw mk (x_rd x) (tz t) f); [destruct HM as (_ & _ & HM); contradiction | assumption]. }
  assert (Hvk : vkind (v_geom v) = kind (f_geom w)).
  { destruct (f_geom w); cbn [relative_geom] in U2; try discriminate; injection U2 as <-; reflexivity. }
  destruct HCase as [[Hi Ei]|(ls' & r & A1 & A2 & A3)].
  - assert (Hid0 : f_id w0 < 2 ^ 64) by exact (proj1 (Forall_forall _ _) HID _ Hi).
    destruct (clip_shift_present c t w0 w HX Hid0 EC Hn) as (_ & W1 & W2 & W3 & W4).
    apply in_app_or in Hi as [Hi|Hi].
    + left. destruct (proj1 (Forall_forall _ _) HSS _ Hi) as (L0 & e & E1 & E2 & E3 & E4). rewrite L0 in Ei. subst i. change (N.to_nat 0) with 0%nat in S1.
      split; [assumption|]. split; [|split].
      * rewrite W3, E4 in U3. cbn [sea_of f_meta] in U3. inversion U3 as [|? ? ? ? ? HT|? ? ? ? ? HNI]; subst; [inversion HT; reflexivity|]. destruct HNI. left. reflexivity.
      * rewrite Hvk, W4, E4. reflexivity.
      * exists e. rewrite U1, W1. auto.
    + right. destruct (Hdr w0 Hi) as (f & F1 & F2 & (Q1 & Q2 & Q3 & Q4 & Q5 & Q6) & F4). exists f. split; [assumption|]. split; [assumption|].
      split; [rewrite <- Q2, Ei; assumption|]. split; [congruence|]. left. unfold shows_stored. split; [congruence|]. split.
      * exists (f_meta w0). split; [assumption|]. now rewrite <- W3.
      * unfold clip_shift in EC. rewrite N7, N2, Q6 in EC. apply bind_ok in EC as (g & Eg & EC). apply Ok_inj in EC. subst w.
        exists g. split; [assumption|]. cbn [set_geom f_geom] in U2. rewrite N6 in U2. assumption.
  - right. destruct (HAG _ _ _ A1) as [HA _]. destruct (HA _ A2) as (K2 & w1 & I1 & I2 & I3). destruct (A3 _ I1) as (J1 & J2 & J3 & J4).
    assert (Hid0 : f_id w0 < 2 ^ 64) by (rewrite <- I2; exact (proj1 (Forall_forall _ _) HID _ J1)).
    destruct (clip_shift_present c t w0 w HX Hid0 EC Hn) as (_ & W1 & W2 & W3 & W4).
    apply in_app_or in J1 as [J1|J1].
    { exfalso. destruct (proj1 (Forall_forall _ _) HSS _ J1) as (_ & e & _ & _ & _ & E4). rewrite E4 in J4. discriminate. }
    destruct (Hdr w1 J1) as (f & F1 & F2 & (Q1 & Q2 & Q3 & Q4 & Q5 & Q6) & F4). exists f. split; [assumption|]. split; [assumption|].
    split; [rewrite <- Q2, J2; assumption|]. split; [congruence|]. right. rewrite <- N4. split; [assumption|]. split; [congruence|]. split; [congruence|].
    exists (f_meta w1). split; [assumption|]. now rewrite I3, <- W3.
Qed.

Lemma get_total : total_deflate x -> exists r, get_tile tiles features s x t = Ok r.
Proof.
  intros Hd. destruct rendered as (c & ss & gs & buf & H).
  do 14 (destruct H as [_ H]). destruct H as [(E & _)|E]; rewrite E; [eauto|]. clear E.
  destruct buf; [eauto|]. destruct (x_compress x); [|eauto]. match goal with |- context [x_deflate x ?b] => destruct (Hd b) as (z & ->) end. cbn [bind]. eauto.
Qed.
End T.
