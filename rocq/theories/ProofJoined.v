(** Lines on prepared tiles: the joined lines of a layer. *)
From Coq Require Import Permutation Sorting.Sorted.
From Verif Require Import Base BaseProof ModelTile SpecTile ProofTile ModelPackFile ModelCodec ModelGeom SpecGeom ModelFeature SpecFeature ProofFeature
  ModelQuadTree SpecQuadTree ModelPack ModelPacker SpecPacker ProofBestTile ProofPackerProps ModelBqTree SpecBqTree ProofBqQuery
  ModelMvt SpecMvt ProofMvt ProofMvtTile SpecLines ModelRender SpecRender ProofRender.
Import ListNotations.
Open Scope N_scope.

Lemma layer_ok c fs buf : build_tile c fs = Ok buf -> forall i, exists ws, layer_content c i fs = Ok ws.
Proof.
  intros H i. destruct (filter (fun g => f_layer g =? i) fs) as [|f0 r0] eqn:Ef.
  - exists []. unfold layer_content. rewrite Ef. cbn [first_of_kind filter map_res bind app]. reflexivity.
  - unfold build_tile in H. apply bind_ok in H as (tb & E0 & H).
    destruct (tb_add_features_spec c fs [] [] tb (tb_inv_init c) E0) as (I1 & I2 & I3). cbn [app] in *.
    assert (Hin : In i (keys tb)) by (apply I2; unfold part; rewrite Ef; discriminate).
    destruct (lookup_in _ _ Hin) as (lb & El). destruct (I3 _ _ El) as (name & _ & Hadds).
    apply lookup_some_in in El as [_ El].
    clear - H Hadds El. revert buf H. induction tb as [|[j lb0] tb IH]; intros buf H; [destruct El|]. cbn [tb_finish] in H.
    apply bind_ok in H as (lb1 & E1 & H). apply bind_ok in H as (l & _ & H). apply bind_ok in H as (r & E3 & _).
    destruct El as [El|El]; [|now apply IH with (buf := r)]. injection El as -> ->.
    destruct (layer_spec c name _ fs lb lb1 Hadds E1) as (ws & Hws & _). eauto.
Qed.

(** the lines of a layer that are joined *)
Definition line_part (i : N) (fs : list feature) : list feature := filter (of_kind 2) (first_of_kind [] (filter (fun f => f_layer f =? i) fs)).
Lemma line_part_in i fs f : In f (line_part i fs) -> In f fs /\ f_layer f = i /\ kind (f_geom f) = 2.
Proof.
  intros H. unfold line_part in H. apply filter_In in H as [H1 H2]. apply first_of_kind_in in H1 as [H1 _]. apply filter_In in H1 as [H1 H3]. unfold of_kind in H2. split; [assumption|]. split; lia.
Qed.
Lemma line_part_ids i fs : NoDup (map f_id (line_part i fs)).
Proof.
  unfold line_part. pose proof (first_of_kind_nodup (filter (fun f => f_layer f =? i) fs) []) as H. revert H. generalize (first_of_kind [] (filter (fun f => f_layer f =? i) fs)). intros l.
  induction l as [|f l IH]; intros H; [constructor|]. cbn [map] in H. apply NoDup_cons_iff in H as [H1 H2]. cbn [filter]. destruct (of_kind 2 f) eqn:E; [|auto]. cbn [map]. constructor; [|auto].
  intros Hin. apply H1. apply in_map_iff in Hin as (g & E1 & Hg). apply filter_In in Hg as [Hg E2]. unfold of_kind in *. apply in_map_iff. exists g. split; [|assumption]. unfold id_kind. rewrite E1. f_equal. lia.
Qed.
Lemma content_lines c t i fs ws : ctx_for c t -> Forall (fun f => f_id f < 2 ^ 64) fs -> layer_content c i fs = Ok ws -> c_agg_lines c = true ->
  exists r, (line_part i fs = [] /\ r = [] \/ c_aggregate c (line_part i fs) (c_z c) = Ok r) /\
    (forall q, In q r -> exists q', clip_shift c q = Ok q' /\ (not_null q' = true -> In q' ws)) /\
    (forall w, In w ws -> kind (f_geom w) = 2 -> exists q, In q r /\ clip_shift c q = Ok w).
Proof.
  intros Hc Hid H Ha. unfold layer_content in H. apply bind_ok in H as (direct & E1 & H). apply bind_ok in H as (polys & E2 & H).
  apply bind_ok in H as (joined & E3 & H). apply bind_ok in H as (lines & E4 & H). apply Ok_inj in H. subst ws.
  replace (filter (fun f => c_agg_lines c && of_kind 2 f) (first_of_kind [] (filter (fun f => f_layer f =? i) fs))) with (line_part i fs) in E3 by (rewrite Ha; reflexivity).
  exists joined. split; [|split].
  - destruct (line_part i fs) eqn:E; [left; split; [reflexivity|]; apply Ok_inj in E3; now subst | right; exact E3].
  - intros q Hq. pose proof (proj1 (map_res_Forall2 _ _ _) E4) as F. destruct (Forall2_in_l _ _ _ _ F Hq) as (q' & Hq' & E). exists q'. split; [assumption|].
    intros Hn. apply filter_In. split; [|assumption]. apply in_app_iff; right. apply in_app_iff; now right.
  - intros w Hw Hk. apply filter_In in Hw as [Hw Hn].
    assert (HX : forall p l, map_res (clip_shift c) (filter p (first_of_kind [] (filter (fun f => f_layer f =? i) fs))) = Ok l -> In w l -> exists f, In f (first_of_kind [] (filter (fun f => f_layer f =? i) fs)) /\ p f = true /\ kind (f_geom f) = 2).
    { intros p l El Hl. pose proof (proj1 (map_res_Forall2 _ _ _) El) as F. destruct (Forall2_in_r _ _ _ _ F Hl) as (f & Hf & E). apply filter_In in Hf as [Hf Hp]. exists f. split; [assumption|]. split; [assumption|].
      assert (Hf' := Hf). apply first_of_kind_in in Hf' as [Hf' _]. apply filter_In in Hf' as [Hf' _]. pose proof (proj1 (Forall_forall _ _) Hid _ Hf') as Hi. destruct (clip_shift_present c t f w Hc Hi E Hn) as (_ & _ & _ & _ & K). congruence. }
    apply in_app_iff in Hw as [Hw|Hw].
    + exfalso. destruct (HX _ _ E1 Hw) as (f & _ & Hp & K). unfold buffered in Hp. rewrite Ha, K in Hp. discriminate Hp.
    + apply in_app_iff in Hw as [Hw|Hw].
      * exfalso. apply filter_In in Hw as [Hw _]. destruct (HX _ _ E2 Hw) as (f & _ & Hp & K). unfold of_kind in Hp. rewrite K, andb_false_r in Hp. discriminate Hp.
      * pose proof (proj1 (map_res_Forall2 _ _ _) E4) as F. destruct (Forall2_in_r _ _ _ _ F Hw) as (q & Hq & E). eauto.
Qed.

Section J.
Context (raw : bool) (enc : meta -> option N) (mk : line -> bytes) (srt : list qfeature -> list qfeature) (x : rctx) (t : tile) (tiles features : table) (s : pfile) (rows : list row) (sea : list tile).
Hypothesis Hsrt : sorts_by_key srt.
Hypothesis Hz : tz t <= 20.
Hypothesis Hv : valid_tile t.
Hypothesis Hr : renderer_ok enc mk x (tz t).
Hypothesis Hsea : seaside_is x sea.
Hypothesis Hdb : database_ok raw enc (x_dec x) mk (x_rd x) srt s features rows.
Hypothesis Hprep : ~ prepared x t.
Hypothesis Hnames : x_names x <> [].
Hypothesis Hf : Forall (fun f => f_layer f < N.of_nat (length (x_names x)) /\ meta_ok f /\ areal (simplified raw mk (x_rd x) (tz t) f) /\
  (x_agg_lines x = true -> joinable (simplified raw mk (x_rd x) (tz t) f))) (near_features rows t).
Hypothesis Hlines : x_agg_lines x = true.
Hypothesis Hsea_on : x_ignore_seaside x = false.
Hypothesis Hdiff : NoDup (x_names x).

(** what a vector tile feature shows of the joined feature [q], drawn as [g] *)
Definition shows_joined (q : feature) (g : geom) (v : vfeature) : Prop :=
  v_id v = f_id q /\ tags_of (f_meta q) (v_tags v) /\ relative_geom (tile_corner t) (shift_geom (tz t) g) = Some (v_geom v).

Lemma tile_lines : exists buf,
  (forall b, get_tile tiles features s x t = Ok (Some b) -> buf <> [] /\ sent x buf (Some b)) /\
  (forall r, buf <> [] -> get_tile tiles features s x t = Ok r -> sent x buf r) /\
  (blen buf < 2 ^ 29 -> exists vls, decode_tile buf = Some vls /\ forall l, In l vls -> In (vl_name l) (x_names x)) /\
  forall i, exists ls r,
    NoDup (map f_id ls) /\ Forall line_feature ls /\
    (forall h, In h ls -> exists f, In f (near_features rows t) /\ may_draw raw mk (x_rd x) t f /\ drawn_as raw mk x t f h /\ f_layer f = i /\ kind (f_geom f) = 2) /\
    (forall f, In f (near_features rows t) -> must_draw raw mk (x_rd x) t f -> f_layer f = i -> kind (f_geom f) = 2 ->
      exists h, In h ls /\ f_id h = f_id f) /\
    (ls = [] /\ r = [] \/ x_aggregate x ls (tz t) = Ok r) /\
    (forall q, In q r -> exists g, clip (x_cut x) (draw_area t) (f_geom q) = Ok g /\
      (shift_geom (tz t) g <> GNull -> buf <> [] /\ (forall vls, blen buf < 2 ^ 29 -> decode_tile buf = Some vls ->
         exists l v, In l vls /\ In v (vl_features l) /\ nth_error (x_names x) (N.to_nat i) = Some (vl_name l) /\ shows_joined q g v))) /\
    (forall vls l v, blen buf < 2 ^ 29 -> decode_tile buf = Some vls -> In l vls -> In v (vl_features l) -> nth_error (x_names x) (N.to_nat i) = Some (vl_name l) -> vkind (v_geom v) = 2 ->
       exists q g, In q r /\ clip (x_cut x) (draw_area t) (f_geom q) = Ok g /\ shows_joined q g v).
Proof.
  destruct (rendered raw enc mk srt x t tiles features s rows sea Hsrt Hz Hv Hr Hsea Hdb Hprep Hnames Hf)
    as (c & ss & gs & buf & EB & HX & N1 & N2 & N3 & N4 & N5 & N6 & N7 & N8 & EBT & HID & [HSS HES] & (shown & hidden & P & G1 & G2 & G3) & HGT).
  destruct HGT as [(_ & _ & HGT & _)|HGT]; [congruence|].
  assert (HAG : aggregate_ok (c_aggregate c)) by (rewrite N3; apply Hr). assert (Ha : c_agg_lines c = true) by now rewrite N4.
  exists buf. split; [|split; [|split]].
  - intros b. rewrite HGT. destruct buf as [|b0 bf]; [discriminate|]. split; [discriminate|]. revert H. unfold sent. cbn [length Nat.eqb]. destruct (x_compress x).
    + intros HR. apply bind_ok in HR as (z & Ez & HR). apply Ok_inj in HR. eauto.
    + intros HR. apply Ok_inj in HR. now symmetry.
  - intros r Hne. rewrite HGT. destruct buf as [|b0 bf]; [congruence|]. unfold sent. cbn [length Nat.eqb]. destruct (x_compress x).
    + intros HR. apply bind_ok in HR as (z & Ez & HR). apply Ok_inj in HR. subst. eauto.
    + intros HR. apply Ok_inj in HR. now subst.
  - intros Hb. destruct (tile_decodes c t (ss ++ gs) buf HX HID HAG EBT Hb) as (ls & vls & D1 & D2 & _). exists vls. split; [assumption|]. intros l Hl. destruct (Forall2_in_r _ _ _ _ D2 Hl) as (iw & _ & (_ & _ & S1 & _)). rewrite N1 in S1. exact (nth_error_In _ _ S1).
  - intros i. destruct (layer_ok c _ _ EBT i) as (ws & Hws). destruct (content_lines c t i _ ws HX HID Hws Ha) as (r & R1 & R2 & R3).
    set (ls := line_part i (ss ++ gs)) in *.
    assert (Hdr : forall h, In h ls -> exists f, In f (near_features rows t) /\ may_draw raw mk (x_rd x) t f /\ drawn_as raw mk x t f h /\ f_layer f = i /\ kind (f_geom f) = 2).
    { intros h Hh. apply line_part_in in Hh as (H1 & H2 & H3). apply in_app_or in H1 as [H1|H1].
      { exfalso. destruct (proj1 (Forall_forall _ _) HSS _ H1) as (_ & e & _ & _ & _ & E4). rewrite E4 in H3. discriminate. }
      destruct (Forall2_in_r _ _ _ _ G1 H1) as (f & Hfs & HD). pose proof (proj1 (Forall_forall _ _) G2 _ Hfs) as HM. exists f. split; [apply (Permutation_in _ P); apply in_or_app; now left|].
      split; [assumption|]. split; [assumption|]. destruct HD as (_ & D2 & _ & _ & _ & E). split; [congruence|]. rewrite E in H3. destruct (simplified_kind raw mk (x_rd x) (tz t) f); [destruct HM as (_ & _ & HM); contradiction | congruence]. }
    exists ls, r. split; [apply line_part_ids|]. split; [|split; [exact Hdr|split; [|split; [|split]]]].
    + apply Forall_forall. intros h Hh. destruct (Hdr h Hh) as (f & F1 & F2 & (_ & _ & _ & _ & _ & E) & _ & K). destruct (proj1 (Forall_forall _ _) Hf _ F1) as (_ & _ & _ & HJ). specialize (HJ Hlines).
      assert (Hk : kind (f_geom h) = 2) by (rewrite E; destruct (simplified_kind raw mk (x_rd x) (tz t) f); [destruct F2 as (_ & _ & F2); contradiction | congruence]).
      rewrite <- E in HJ. unfold line_feature. destruct (f_geom h) as [|p|l|p]; try discriminate Hk. exists l. split; [reflexivity | exact HJ].
    + intros f Hin Hm El Ek. assert (Hsh : In f shown).
      { apply (Permutation_in _ (Permutation_sym P)) in Hin. apply in_app_or in Hin as [H|H]; [assumption|]. destruct (proj1 (Forall_forall _ _) G3 _ H Hm). }
      destruct (Forall2_in_l _ _ _ _ G1 Hsh) as (h0 & Hh0 & HD). destruct HD as (D1 & D2 & _ & _ & _ & E).
      assert (Hk0 : kind (f_geom h0) = 2) by (rewrite E; destruct (simplified_kind raw mk (x_rd x) (tz t) f); [destruct Hm as (_ & _ & Hm); contradiction | congruence]).
      set (p := fun h => (f_id h =? f_id f) && (kind (f_geom h) =? 2)).
      destruct (first_match p (filter (fun g => f_layer g =? i) (ss ++ gs))) as (u & h & w & Eg & Hp & Hbefore).
      { exists h0. split; [apply filter_In; split; [apply in_or_app; now right|]; lia|]. unfold p. rewrite D1, Hk0, !N.eqb_refl. reflexivity. }
      unfold p in Hp. exists h. split; [|lia]. unfold ls, line_part. apply filter_In. split; [|unfold of_kind; lia]. rewrite Eg. apply first_of_kind_mem; [unfold not_null; replace (kind (f_geom h)) with 2 by lia; reflexivity | reflexivity|].
      intros g Hg E'. unfold id_kind in E'. injection E' as E1 E2. specialize (Hbefore _ Hg). unfold p in Hbefore. rewrite E1, E2 in Hbefore. rewrite Hbefore in Hp. discriminate Hp.
    + rewrite <- N3, <- N6. exact R1.
    + intros q Hq. destruct (R2 q Hq) as (q' & E & Hin). unfold clip_shift in E. rewrite N7, N2 in E. apply bind_ok in E as (g & Eg & E). apply Ok_inj in E. subst q'. exists g. split; [assumption|]. intros Hgn.
      assert (HW : In (set_geom q (shift_geom (c_z c) g)) ws).
      { apply Hin. unfold not_null. cbn [set_geom f_geom]. rewrite N6. destruct (kind (shift_geom (tz t) g) =? 0) eqn:E; [|reflexivity]. apply N.eqb_eq, kind_null in E. contradiction. }
      assert (HD : forall vls, blen buf < 2 ^ 29 -> decode_tile buf = Some vls -> exists l v, In l vls /\ In v (vl_features l) /\ nth_error (x_names x) (N.to_nat i) = Some (vl_name l) /\ shows_joined q g v).
      { intros vls Hb Hdec. destruct (tile_decodes c t (ss ++ gs) buf HX HID HAG EBT Hb) as (lys & vls' & D1 & D2 & _ & D4). rewrite Hdec in D1. injection D1 as <-.
        assert (Hil : In (i, ws) lys) by (apply D4; split; [assumption|]; intros ->; destruct HW).
        destruct (Forall2_in_l _ _ _ _ D2 Hil) as (l & Hl & (_ & _ & S1 & _ & _ & S2)). cbn [fst snd] in *. destruct (Forall2_in_l _ _ _ _ S2 HW) as (v & Hv1 & (U1 & U2 & U3)).
        exists l, v. rewrite <- N1. split; [assumption|]. split; [assumption|]. split; [assumption|]. cbn [set_geom f_id f_geom f_meta] in *. rewrite N8, N6 in U2. split; [assumption|]. split; assumption. }
      split; [|exact HD]. intros ->. destruct (HD []) as (l & v & [] & _); reflexivity.
    + intros vls l v Hb Hdec Hl Hvl Hn Hk. destruct (tile_decodes c t (ss ++ gs) buf HX HID HAG EBT Hb) as (lys & vls' & D1 & D2 & _ & D4). rewrite Hdec in D1. injection D1 as <-.
      destruct (Forall2_in_r _ _ _ _ D2 Hl) as ([i' ws'] & Hiw & HS). destruct HS as (_ & _ & S1 & _ & _ & S2). cbn [fst snd] in *. rewrite N1 in S1.
      assert (i' = i). { enough (N.to_nat i' = N.to_nat i) by lia. apply (proj1 (NoDup_nth_error (x_names x)) Hdiff); [|congruence]. apply nth_error_Some. congruence. }
      subst i'. apply D4 in Hiw as [Hiw _]. rewrite Hws in Hiw. apply Ok_inj in Hiw. subst ws'.
      destruct (Forall2_in_r _ _ _ _ S2 Hvl) as (w & Hw & U1 & U2 & U3). rewrite N8 in U2.
      assert (Hvk : kind (f_geom w) = 2) by (rewrite <- Hk; destruct (f_geom w); cbn [relative_geom] in U2; try discriminate; injection U2 as <-; reflexivity).
      destruct (R3 w Hw Hvk) as (q & Hq & E). unfold clip_shift in E. rewrite N7, N2 in E. apply bind_ok in E as (g & Eg & E). apply Ok_inj in E. subst w. exists q, g. cbn [set_geom f_id f_geom f_meta] in *. rewrite N6 in U2.
      split; [assumption|]. split; [assumption|]. split; [assumption|]. split; assumption.
Qed.
End J.
