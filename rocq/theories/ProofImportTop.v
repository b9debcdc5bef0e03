(** Whole imports: what tiles show. *)
From Coq Require Import Permutation String Ascii Sorting.Sorted.
From Coq Require Import List.
From Verif Require Import Base BaseProof ModelTile SpecTile ProofTile ModelPackFile SpecPackFile ModelTable ModelCodec ModelGeom SpecGeom ModelFeature SpecFeature
  ModelPack ModelPacker SpecPacker ModelBqTree SpecBqTree ProofBqQuery ModelMvt SpecMvt SpecLines ModelRender SpecRender ProofRender ModelPrepare SpecPrepare
  ModelInserter SpecInserter ProofInserter ModelDict SpecDict ProofDict
  ModelOsm SpecOsm ModelDrain ModelCoast SpecCoast SpecLayout ModelRepack SpecRepack ModelServer ModelImport SpecImport
  ProofImportObjects ProofImportLoad ProofImportRun ProofImportPack ProofImportServe.
Import ListNotations.
Open Scope N_scope.

Lemma select_incl keep : forall l i, incl (select keep i l) l.
Proof. induction l as [|p l IH]; intros i q; cbn [select]; [auto|]. destruct (keep i); [intros [->|H]; [now left|]|intros H]; right; eapply IH; eauto. Qed.
Lemma world_line (l : line) : l <> [] -> Forall (fun p : pt => (0 <= fst p < 2 ^ 32)%Z /\ (0 <= snd p < 2 ^ 32)%Z) l -> line_ok l.
Proof.
  intros Hn HF. destruct l as [|p l]; [congruence|]. split; [discriminate|]. rewrite Forall_forall in HF. split.
  - unfold first_pt. cbn [hd]. intros E. specialize (HF p (or_introl eq_refl)). rewrite E in HF. cbn [fst] in HF. unfold max64 in HF. lia.
  - unfold last_pt. intros E. assert (Hin : In (last (p :: l) (0, 0)%Z) (p :: l)). { destruct (exists_last (l := p :: l)) as (l' & q & Eq); [discriminate|]. rewrite Eq, last_last. apply in_or_app. right. now left. }
    specialize (HF _ Hin). rewrite E in HF. cbn [fst] in HF. unfold max64 in HF. lia.
Qed.
Lemma select_lines_ok mk rd z : keeps_some mk rd z -> forall ls : list line, Forall (fun l => l <> []) ls ->
  Forall (fun p : pt => (0 <= fst p < 2 ^ 32)%Z /\ (0 <= snd p < 2 ^ 32)%Z) (concat ls) ->
  Forall line_ok (select_lines rd z (map mk ls) ls) /\ length (select_lines rd z (map mk ls) ls) = length ls.
Proof.
  intros HK. induction ls as [|l ls IH]; intros H1 H2; cbn [map select_lines]; [split; [constructor | reflexivity]|].
  inversion H1 as [|? ? L1 L2]; subst. cbn [concat] in H2. apply Forall_app in H2 as [W1 W2]. destruct (IH L2 W2) as [I1 I2]. split; [|cbn [length]; now rewrite I2]. constructor; [|assumption].
  apply world_line; [now apply HK|]. apply Forall_forall. intros p Hp. apply select_incl in Hp. exact (proj1 (Forall_forall _ _) W1 _ Hp).
Qed.
Lemma outline_joinable L raw z g : libs_ok L -> z <= 20 -> usable L g -> joinable (outline L raw z g).
Proof.
  intros HL Hz HU. unfold outline. destruct raw; [now apply (usable_joinable L)|]. destruct (ok_mask _ HL z Hz) as [_ HK]. destruct HU as (_ & HU & HW & _).
  destruct g as [|ps|ls|ps]; cbn [make_masks select_geom] in *.
  - exact I.
  - cbn [normal]. destruct ps; exact I.
  - destruct HU as [U1 U2]. cbn [geom_points] in HW. destruct (select_lines_ok _ _ _ HK ls U1 HW) as [S1 S2]. cbn [joinable]. split; [assumption|]. rewrite S2. assumption.
  - unfold normal. match goal with |- joinable (match ?q with _ => _ end) => destruct q; exact I end.
Qed.

(** the index tile of a point *)
Lemma index_axis z X p : z <= 20 -> p < 2 ^ 32 -> X * 2 ^ (32 - z) <= p < (X + 1) * 2 ^ (32 - z) ->
  p / 2 ^ 22 < 2 ^ 10 /\ if z <=? 10 then X = p / 2 ^ 22 / 2 ^ (10 - z) else p / 2 ^ 22 = X / 2 ^ (z - 10).
Proof.
  intros Hz Hp HX. split; [apply N.div_lt_upper_bound; [discriminate|exact Hp]|].
  assert (EX : X = p / 2 ^ (32 - z)). { apply N.div_unique with (r := p - X * 2 ^ (32 - z)); [|]; revert HX; generalize (2 ^ (32 - z)); intros a HX; nia. }
  destruct (N.leb_spec z 10) as [H|H].
  - rewrite N.div_div by (try discriminate; apply N.pow_nonzero; discriminate). rewrite <- N.pow_add_r. replace (22 + (10 - z)) with (32 - z) by lia. exact EX.
  - rewrite EX. rewrite N.div_div by (apply N.pow_nonzero; discriminate). rewrite <- N.pow_add_r. replace (32 - z + (z - 10)) with 22 by lia. reflexivity.
Qed.
Lemma corner_axis (X a : N) lo hi : (Z.of_N X * Z.of_N a <= hi)%Z -> (lo < (Z.of_N X + 1) * Z.of_N a)%Z -> (0 <= lo <= hi)%Z -> (hi < 2 ^ 32)%Z -> 0 < a ->
  let p := Z.max lo (Z.of_N X * Z.of_N a) in Z.to_N p < 2 ^ 32 /\ X * a <= Z.to_N p < (X + 1) * a /\ (lo <= p <= hi)%Z /\ (0 <= p)%Z.
Proof.
  intros H1 H2 H3 H4 H5. rewrite Z.mul_add_distr_r, Z.mul_1_l in H2. rewrite N.mul_add_distr_r, N.mul_1_l. rewrite <- N2Z.inj_mul in *. generalize dependent (X * a). intros m H1 H2.
  change (2 ^ 32)%Z with 4294967296%Z in *. change (2 ^ 32) with 4294967296. cbv zeta. lia.
Qed.
Lemma index_of t b : tz t <= 20 -> valid_tile t -> in_world b -> meets (tz t) t b = true ->
  exists i, index_tile 10 i /\ related i t /\ meets 10 i b = true.
Proof.
  intros Hz [Vx Vy] (W1 & W2 & W3 & W4) HM. unfold meets in HM. apply andb_prop in HM as [HM M4]. apply andb_prop in HM as [HM M3]. apply andb_prop in HM as [M1 M2].
  set (px := Z.max (bminx b) (Z.of_N (tx t) * side (tz t))). set (py := Z.max (bminy b) (Z.of_N (ty t) * side (tz t))).
  assert (HS : side (tz t) = Z.of_N (2 ^ (32 - tz t))) by (unfold side; rewrite N2Z.inj_pow; f_equal; lia).
  assert (HS10 : side 10 = Z.of_N (2 ^ 22)) by reflexivity.
  assert (Hs0 : 0 < 2 ^ (32 - tz t)) by (apply N.neq_0_lt_0, N.pow_nonzero; discriminate).
  assert (Ax : Z.to_N px < 2 ^ 32 /\ tx t * 2 ^ (32 - tz t) <= Z.to_N px < (tx t + 1) * 2 ^ (32 - tz t) /\ (bminx b <= px <= bmaxx b)%Z /\ (0 <= px)%Z).
  { unfold px. rewrite HS in *. apply corner_axis; try assumption; lia. }
  assert (Ay : Z.to_N py < 2 ^ 32 /\ ty t * 2 ^ (32 - tz t) <= Z.to_N py < (ty t + 1) * 2 ^ (32 - tz t) /\ (bminy b <= py <= bmaxy b)%Z /\ (0 <= py)%Z).
  { unfold py. rewrite HS in *. apply corner_axis; try assumption; lia. }
  clearbody px py. destruct Ax as (X1 & X2 & X3 & X4). destruct Ay as (Y1 & Y2 & Y3 & Y4).
  destruct (index_axis (tz t) (tx t) (Z.to_N px) Hz X1 X2) as [Ix Rx]. destruct (index_axis (tz t) (ty t) (Z.to_N py) Hz Y1 Y2) as [Iy Ry].
  exists (Tile (Z.to_N px / 2 ^ 22) (Z.to_N py / 2 ^ 22) 10). split; [repeat split; assumption|]. split.
  - unfold related, covers. cbn [tx ty tz]. destruct (N.leb_spec (tz t) 10); [right | left]; (split; [lia|]); split; assumption.
  - clear -X3 X4 Y3 Y4. unfold meets. cbn [tx ty]. change (side 10) with (Z.of_N (2 ^ 22)).
    assert (G : forall p, (0 <= p)%Z -> (Z.of_N (Z.to_N p / 2 ^ 22) * Z.of_N (2 ^ 22) <= p < (Z.of_N (Z.to_N p / 2 ^ 22) + 1) * Z.of_N (2 ^ 22))%Z).
    { intros p Hp. pose proof (N.div_mod (Z.to_N p) (2 ^ 22)) as E. pose proof (N.mod_lt (Z.to_N p) (2 ^ 22)) as E2. change (2 ^ 22) with 4194304 in *. lia. }
    pose proof (G px X4) as H. pose proof (G py Y4) as H0. clear G. revert H H0. generalize (Z.to_N px / 2 ^ 22) (Z.to_N py / 2 ^ 22). change (Z.of_N (2 ^ 22)) with 4194304%Z. intros a c H H0. lia.
Qed.
Lemma meets_touches t b : tz t <= 20 -> meets (tz t) t b = true -> touches b (tile_area t).
Proof.
  intros Hz HM. unfold meets in HM. unfold touches, tile_area. cbn [bminx bminy bmaxx bmaxy].
  replace (4096 * 2 ^ (20 - Z.of_N (tz t)))%Z with (side (tz t)); [lia|]. unfold side. change 4096%Z with (2 ^ 12)%Z. rewrite <- Z.pow_add_r by lia. f_equal. lia.
Qed.

(** ** What the renderer needs *)
(** a database that can be read and shows nothing but [D] and [fs] (and perhaps not all of it) *)
Record shown_db (L : libs) (raw : bool) (d : list meta) (D : list (tile * feature)) (fs : list feature) (F : table) (pf : pfile) (rows : list row) : Prop := {
  h_db : database_ok raw (dict_encode (coder_make (l_psort L) d)) (dict_decode d) (l_mk L) (l_rd L) (l_qsort L) pf F rows;
  h_near : forall t f, In f (near_features rows t) -> exists i, index_tile 10 i /\ related i t /\ cont D fs i f }.
Lemma binv_shown L raw d D fs F pf rows : binv L raw d D fs F pf rows -> shown_db L raw d D fs F pf rows.
Proof. intros HB. constructor; [apply (b_db _ _ _ _ _ _ _ _ HB)|]. intros t f H. destruct (near_only _ _ _ _ _ _ _ _ t f HB H) as (i & H1 & H2 & H3 & _). eauto. Qed.

Section S.
Context (L : libs) (j : job) (co fe raw prep : bool) (st : store).
Hypothesis HL : libs_ok L.
Hypothesis HJ : job_ok L j.

Section C.
Context (D : list (tile * feature)) (ks : list kept) (fs : list feature) (names : list bytes) (d : list meta) (sea : list tile).
Hypothesis HC : content L j co fe D ks fs names d sea.
Context (t : tile).
Hypothesis Hz : tz t <= 20.
Hypothesis Hv : valid_tile t.
Context (x : rctx) (tiles F : table) (pf : pfile) (rows : list row).
Hypothesis HV : view L names d sea (prep && (tz t <=? 10)) t x.
Hypothesis HD : shown_db L raw d D fs F pf rows.

Lemma v_renderer : renderer_ok (dict_encode (coder_make (l_psort L) d)) (l_mk L) x (tz t).
Proof.
  unfold renderer_ok. rewrite (v_dec _ _ _ _ _ _ _ HV), (v_rd _ _ _ _ _ _ _ HV), (v_cut _ _ _ _ _ _ _ HV), (v_aggregate _ _ _ _ _ _ _ HV). split; [apply coder_good; [assumption | apply (n_dict _ _ _ _ _ _ _ _ _ _ HC)]|].
  split; [apply (ok_mask _ HL); assumption|]. split; [apply (ok_cut _ HL)|]. split; [apply (ok_cut_areas _ HL)|]. split; [apply (ok_aggregate _ HL) | apply (ok_joins _ HL)].
Qed.
Lemma v_database : database_ok raw (dict_encode (coder_make (l_psort L) d)) (x_dec x) (l_mk L) (x_rd x) (l_qsort L) pf F rows.
Proof. rewrite (v_dec _ _ _ _ _ _ _ HV), (v_rd _ _ _ _ _ _ _ HV). apply (h_db _ _ _ _ _ _ _ _ HD). Qed.
Lemma v_named : x_names x <> [].
Proof. rewrite (v_names _ _ _ _ _ _ _ HV). intros E. pose proof (n_first _ _ _ _ _ _ _ _ _ _ HC) as H. rewrite E in H. discriminate H. Qed.
Lemma near_in f : In f (near_features rows t) -> In f (map snd D ++ fs).
Proof.
  intros H. apply (h_near _ _ _ _ _ _ _ _ HD t) in H as (i & _ & _ & [Hc|[Hc _]]); apply in_or_app; [left; apply in_map_iff; exists (i, f); auto | now right].
Qed.
Lemma v_features : Forall (fun f => f_layer f < N.of_nat (length (x_names x)) /\ meta_ok f /\
    areal (simplified raw (l_mk L) (x_rd x) (tz t) f) /\ (x_agg_lines x = true -> joinable (simplified raw (l_mk L) (x_rd x) (tz t) f))) (near_features rows t).
Proof.
  rewrite (v_names _ _ _ _ _ _ _ HV), (v_rd _ _ _ _ _ _ _ HV). apply Forall_forall. intros f Hf. apply near_in in Hf.
  destruct (proj1 (Forall_forall _ _) (n_meta _ _ _ _ _ _ _ _ _ _ HC) _ Hf) as (H1 & H2 & H3 & HA). split; [assumption|]. split; [assumption|]. split; [exact (HA raw (tz t) Hz)|]. intros _.
  apply in_app_or in Hf as [Hf|Hf].
  - apply in_map_iff in Hf as (e & <- & He). destruct (proj1 (Forall_forall _ _) (n_D _ _ _ _ _ _ _ _ _ _ HC) _ He) as (_ & _ & _ & _ & _ & _ & _ & ps & E). unfold simplified. rewrite E in *.
    destruct raw; [exact I|]. cbn [select_geom]. unfold normal. match goal with |- joinable (match ?q with _ => _ end) => destruct q; exact I end.
  - apply (outline_joinable L raw (tz t) (f_geom f) HL Hz). exact (proj1 (Forall_forall _ _) (n_usable _ _ _ _ _ _ _ _ _ _ HC) _ Hf).
Qed.

Lemma v_total : exists r, get_tile tiles F pf x t = Ok r.
Proof.
  apply (get_total raw _ (l_mk L) (l_qsort L) x t tiles F pf rows sea (ok_qsort _ HL) Hz Hv v_renderer (v_sea _ _ _ _ _ _ _ HV) v_database (v_not _ _ _ _ _ _ _ HV) v_named v_features).
  intros b. rewrite (v_deflate _ _ _ _ _ _ _ HV). apply (ok_deflate _ HL).
Qed.

(** from the statements about rendering to answers *)
Lemma v_answer (P : list vlayer -> Prop) : serve_tile L st t = get_tile tiles F pf x t ->
  (exists buf, buf <> [] /\ (forall r, get_tile tiles F pf x t = Ok r -> sent x buf r) /\ (blen buf < 2 ^ 29 -> exists vls, decode_tile buf = Some vls /\ P vls)) ->
  answers_with L st t P.
Proof.
  intros E (buf & Hn & H1 & H2). destruct v_total as (r & Er). specialize (H1 r Er). unfold sent in H1. rewrite (v_compress _ _ _ _ _ _ _ HV), (v_deflate _ _ _ _ _ _ _ HV) in H1.
  destruct buf as [|b0 buf]; [congruence|]. cbn [length Nat.eqb] in H1. destruct H1 as (z & Ez & ->). exists (b0 :: buf), z. rewrite E. auto.
Qed.

Lemma pairs : Forall2 (fun k f => made L k f /\ nth_error names (N.to_nat (f_layer f)) = Some (snd (fst k))) ks fs.
Proof.
  pose proof (n_made _ _ _ _ _ _ _ _ _ _ HC) as H1. pose proof (n_layer _ _ _ _ _ _ _ _ _ _ HC) as H2. clear -H1 H2. revert H2. induction H1 as [|k f ks fs M H1 IH]; intros H2; inversion H2; subst; constructor; auto.
Qed.

Lemma imported_fun i layer mn layer' mn' : imported L i layer mn -> imported L i layer' mn' -> layer' = layer /\ mn' = mn.
Proof. destruct i as [[o g] cs]. intros (A & B & _) (A' & B' & _). rewrite A in A'. rewrite B in B'. injection A' as <-. injection B' as <-. auto. Qed.

Lemma shows_it i layer mn f v g' ms : f = Feature (to_u64 (o_id (fst (fst i)))) (f_layer f) mn 21 ms (snd (fst i)) -> one_per_key (metadata L i) ms ->
  clip (l_cut L) (draw_area t) (outline L raw (tz t) (snd (fst i))) = Ok g' ->
  shows_stored raw (tile_corner t) (l_mk L) x t f v -> imported L i layer mn -> shows_object L t i g' v.
Proof.
  intros Ef Hms Hg (S1 & (ms' & S2 & S3) & g & S4 & S5) _. rewrite (v_cut _ _ _ _ _ _ _ HV), (v_rd _ _ _ _ _ _ _ HV) in S4. rewrite Ef in S1, S2, S4. cbn [f_id f_meta f_geom] in *.
  assert (g = g'). { unfold simplified in S4. cbn [f_geom] in S4. unfold outline in Hg. rewrite Hg in S4. now apply Ok_inj in S4. } subst g.
  split; [assumption|]. split; [|assumption]. exists ms, ms'. auto.
Qed.

Lemma v_object_in i layer mn g' : (forall f, In f fs -> f_geom f = snd (fst i) -> In f (near_features rows t)) -> fe = true -> In i (j_objs j) -> imported L i layer mn ->
  (layer = coastline -> kind (snd (fst i)) <> 3) ->
  (forall i' mn', In i' (j_objs j) -> imported L i' layer mn' -> to_u64 (o_id (fst (fst i'))) = to_u64 (o_id (fst (fst i))) -> kind (snd (fst i')) = kind (snd (fst i)) -> i' = i) ->
  mn <= tz t -> meets (tz t) t (bounding_box (snd (fst i))) = true ->
  clip (l_cut L) (draw_area t) (outline L raw (tz t) (snd (fst i))) = Ok g' -> shift_geom (tz t) g' <> GNull ->
  (prep = true -> tz t <= 10 -> kind (snd (fst i)) <> 2 /\ (layer <> coastline -> kind (snd (fst i)) = 3 -> (256 <= l_area L (shift_geom (tz t) g'))%Z)) ->
  serve_tile L st t = get_tile tiles F pf x t ->
  answers_with L st t (fun vls => exists vl v, In vl vls /\ In v (vl_features vl) /\ vl_name vl = layer /\ shows_object L t i g' v).
Proof.
  intros HN Hfe Hi Him Hco Hun Hmn HM Hg Hgn Hag ES.
  pose proof (n_objs _ _ _ _ _ _ _ _ _ _ HC) as Hks. rewrite Hfe in Hks. assert (Hk : In (i, layer, mn) ks) by (apply Hks; auto).
  destruct (Forall2_in_l _ _ _ _ pairs Hk) as (f & Hf & (ms & Ef & Hms) & Hn). cbn [fst snd] in *.
  assert (Eid : f_id f = to_u64 (o_id (fst (fst i)))) by (rewrite Ef; reflexivity). assert (Egm : f_geom f = snd (fst i)) by (rewrite Ef; reflexivity).
  assert (Emn : f_minz f = mn) by (rewrite Ef; reflexivity). assert (Emx : f_maxz f = 21) by (rewrite Ef; reflexivity).
  assert (Emt : f_meta f = ms) by (rewrite Ef; reflexivity).
  pose proof (proj1 (Forall_forall _ _) (n_usable _ _ _ _ _ _ _ _ _ _ HC) _ Hf) as HU. cbn beta in HU. rewrite Egm in HU.
  pose proof (HN f Hf Egm) as Hnear.
  assert (Hsim : simplified raw (l_mk L) (x_rd x) (tz t) f = outline L raw (tz t) (snd (fst i))) by (unfold simplified, outline; now rewrite (v_rd _ _ _ _ _ _ _ HV), Egm).
  assert (Hlay0 : f_layer f = 0 <-> layer = coastline).
  { pose proof (n_first _ _ _ _ _ _ _ _ _ _ HC) as H0. split; intros E.
    - rewrite E in Hn. change (N.to_nat 0) with O in Hn. congruence.
    - pose proof (n_names _ _ _ _ _ _ _ _ _ _ HC) as ND. rewrite E, <- H0 in Hn. assert (N.to_nat (f_layer f) = O); [|lia].
      apply (proj1 (NoDup_nth_error names) ND); [|assumption]. apply nth_error_Some. rewrite Hn, H0. discriminate. }
  destruct (feature_shown raw _ (l_mk L) (l_qsort L) x t tiles F pf rows sea (ok_qsort _ HL) Hz Hv v_renderer (v_sea _ _ _ _ _ _ _ HV) v_database (v_not _ _ _ _ _ _ _ HV) v_named v_features f g' Hnear)
    as (buf & B1 & B2 & _ & B3).
  - split; [|split].
    + unfold in_zoom_range. rewrite Emn, Emx. lia.
    + rewrite Egm. now apply meets_touches.
    + rewrite Hsim. intros E. rewrite E in Hg. cbn [clip] in Hg. apply Ok_inj in Hg. subst g'. now apply Hgn.
  - rewrite Egm. intros H0 H3. exfalso. apply (Hco (proj1 Hlay0 H0) H3).
  - intros f' Hf' E1 E2 E3. rewrite Egm in E3. apply (h_near _ _ _ _ _ _ _ _ HD t f') in Hf' as (i0 & _ & _ & [Hd|[Hf' _]]).
    + exfalso. destruct (proj1 (Forall_forall _ _) (n_D _ _ _ _ _ _ _ _ _ _ HC) _ Hd) as (_ & _ & _ & Z0 & _ & _ & _ & ps & Eg). cbn [snd] in *.
      rewrite Eg in E3. apply (Hco (proj1 Hlay0 (eq_trans (eq_sym E1) Z0))). now rewrite <- E3.
    + destruct (Forall2_in_r _ _ _ _ pairs Hf') as ([[i' layer'] mn'] & Hk' & (ms' & Ef' & Hms') & Hn'). cbn [fst snd] in *. rewrite E1, Hn in Hn'. injection Hn' as <-.
      apply Hks in Hk' as [Hi' Him']. assert (i' = i).
      { apply (Hun i' mn' Hi' Him'). - rewrite <- Eid, <- E2, Ef'. reflexivity. - rewrite <- E3, Ef'. reflexivity. }
      subst i'. destruct (imported_fun _ _ _ _ _ Him Him') as [_ ->]. assert (Emt' : f_meta f' = ms') by (rewrite Ef'; reflexivity).
      split; [exact E2|]. split; [exact E1|]. split; [rewrite Ef', Emn; reflexivity|]. split; [rewrite Ef', Emx; reflexivity|]. split; [|rewrite Ef', Egm; reflexivity].
      rewrite Emt, Emt'. apply NoDup_Permutation; [now apply one_per_key_incl in Hms' | now apply one_per_key_incl in Hms|]. intros [k v]. destruct Hms as [_ Hms], Hms' as [_ Hms']. now rewrite Hms, Hms'.
  - rewrite (v_lines _ _ _ _ _ _ _ HV), Egm. intros [H1 H2]. apply andb_prop in H1 as [H1 H3]. destruct (Hag H1) as [Hx _]; [lia | contradiction].
  - rewrite (v_cut _ _ _ _ _ _ _ HV), Hsim. exact Hg.
  - exact Hgn.
  - rewrite (v_polys _ _ _ _ _ _ _ HV), (v_area _ _ _ _ _ _ _ HV), Egm. intros Hl H3 H1 _. apply andb_prop in H1 as [H1 H4]. apply (Hag H1); [lia| |assumption]. intros E. apply Hl, Hlay0, E.
  - apply v_answer; [exact ES|]. exists buf. split; [assumption|]. split; [assumption|]. intros Hb. destruct (B3 Hb) as (vls & vl & v & D1 & D2 & D3 & D4 & D5). exists vls. split; [assumption|]. exists vl, v.
    split; [assumption|]. split; [assumption|]. split; [|eapply shows_it; eauto; now rewrite Ef]. rewrite (v_names _ _ _ _ _ _ _ HV), Hn in D4. congruence.
Qed.

(** coastlines *)
Lemma v_coast_in e f g' : In f (near_features rows t) -> co = true -> In (e, f) D -> ForallOrdPairs (fun a b => ~ related a b) (map fst D ++ sea) ->
  (fe = true -> forall i mn, In i (j_objs j) -> imported L i coastline mn -> kind (snd (fst i)) <> 3) ->
  related e t -> touches (bounding_box (f_geom f)) (tile_area t) ->
  clip (l_cut L) (draw_area t) (outline L raw (tz t) (f_geom f)) = Ok g' -> shift_geom (tz t) g' <> GNull ->
  serve_tile L st t = get_tile tiles F pf x t ->
  answers_with L st t (fun vls => exists vl v, In vl vls /\ In v (vl_features vl) /\ vl_name vl = coastline /\
    tile_to_key e 0 = Ok (v_id v) /\ v_tags v = [] /\ relative_geom (tile_corner t) (shift_geom (tz t) g') = Some (v_geom v)).
Proof.
  intros Hnear Hco Hd HP Hno Hr Ht Hg Hgn ES. destruct (proj1 (Forall_forall _ _) (n_D _ _ _ _ _ _ _ _ _ _ HC) _ Hd) as (Z1 & Z2 & K & F1 & F2 & F3 & F4 & ps & F5). cbn [fst snd] in *.
  assert (Ie : index_tile 10 e). { split; [assumption|]. unfold valid_tile in Z2. rewrite Z1 in Z2. exact Z2. }
  assert (Hsim : simplified raw (l_mk L) (x_rd x) (tz t) f = outline L raw (tz t) (f_geom f)) by (unfold simplified, outline; now rewrite (v_rd _ _ _ _ _ _ _ HV)).
  assert (Hself : forall a, related a a) by (intros a; left; split; [lia|]; rewrite N.sub_diag; cbn [N.pow]; now rewrite !N.div_1_r).
  destruct (feature_shown raw _ (l_mk L) (l_qsort L) x t tiles F pf rows sea (ok_qsort _ HL) Hz Hv v_renderer (v_sea _ _ _ _ _ _ _ HV) v_database (v_not _ _ _ _ _ _ _ HV) v_named v_features f g' Hnear)
    as (buf & B1 & B2 & _ & B3).
  - split; [|split].
    + unfold in_zoom_range. rewrite F2, F3. lia.
    + assumption.
    + rewrite Hsim. intros E. rewrite E in Hg. cbn [clip] in Hg. apply Ok_inj in Hg. subst g'. now apply Hgn.
  - intros _ _ e' Ce Cs Hk. destruct (tile_key_injective _ _ _ _ _ K Hk) as [<- _]. destruct Cs as (s & Hs & Cs).
    assert (Q : ~ related e s). { clear -HP Hd Hs. induction D as [|[a b] D' IH]; [destruct Hd|]. cbn [map app fst] in HP. inversion HP as [|? ? P1 P2]; subst. destruct Hd as [E|Hd]; [|auto]. injection E as -> ->.
      apply (proj1 (Forall_forall _ _) P1). apply in_or_app. now right. }
    apply Q. now right.
  - intros f' Hf' E1 E2 E3. rewrite F5 in E3. apply (h_near _ _ _ _ _ _ _ _ HD t f') in Hf' as (i0 & _ & _ & [Hd'|[Hf' _]]).
    + destruct (proj1 (Forall_forall _ _) (n_D _ _ _ _ _ _ _ _ _ _ HC) _ Hd') as (_ & _ & K' & _). cbn [fst snd] in *. rewrite E2 in K'. destruct (tile_key_injective _ _ _ _ _ K K') as [<- _].
      assert (f' = f).
      { assert (HN : NoDup (map fst D)). { clear -HP Hself. assert (H : ForallOrdPairs (fun a b => ~ related a b) (map fst D)) by (revert HP; generalize (map fst D); intros l; induction l as [|a l IH]; intros H; [constructor|]; cbn [app] in H; inversion H as [|? ? P1 P2]; subst; constructor; [apply Forall_app in P1 as [P1 _]; exact P1 | auto]).
          clear HP. induction H as [|a l P1 P2 IH]; constructor; [|assumption]. intros Hin. apply (proj1 (Forall_forall _ _) P1 _ Hin). apply Hself. }
        clear -HN Hd Hd'. induction D as [|[a b] D' IH]; [destruct Hd|]. cbn [map fst] in HN. inversion HN as [|? ? N1 N2]; subst.
        destruct Hd as [E|Hd], Hd' as [E'|Hd']; [congruence | | |auto].
        - injection E as -> ->. exfalso. apply N1. apply in_map_iff. exists (e, f'). auto.
        - injection E' as -> ->. exfalso. apply N1. apply in_map_iff. exists (e, f). auto. }
      subst f'. unfold same_but. repeat split; apply Permutation_refl.
    + exfalso. destruct (Forall2_in_r _ _ _ _ pairs Hf') as ([[i' layer'] mn'] & Hk' & (ms' & Ef' & Hms') & Hn'). cbn [fst snd] in *. rewrite E1, F1 in Hn'. change (N.to_nat 0) with O in Hn'.
      rewrite (n_first _ _ _ _ _ _ _ _ _ _ HC) in Hn'. injection Hn' as <-. pose proof (n_objs _ _ _ _ _ _ _ _ _ _ HC) as Hks. destruct fe; [|rewrite Hks in Hk'; destruct Hk']. apply Hks in Hk' as [Hi' Him'].
      apply (Hno eq_refl i' mn' Hi' Him'). rewrite Ef' in E3. exact E3.
  - rewrite F5. intros [_ H]. discriminate H.
  - rewrite (v_cut _ _ _ _ _ _ _ HV), Hsim. exact Hg.
  - exact Hgn.
  - intros H. contradiction.
  - apply v_answer; [exact ES|]. exists buf. split; [assumption|]. split; [assumption|]. intros Hb. destruct (B3 Hb) as (vls & vl & v & D1 & D2 & D3 & D4 & S1 & (ms & S2 & S3) & g & S4 & S5). exists vls. split; [assumption|]. exists vl, v.
    split; [assumption|]. split; [assumption|]. rewrite (v_names _ _ _ _ _ _ _ HV), F1 in D4. change (N.to_nat 0) with O in D4. rewrite (n_first _ _ _ _ _ _ _ _ _ _ HC) in D4. split; [congruence|].
    split; [now rewrite S1|]. rewrite F4 in S2. apply Permutation_sym, Permutation_nil in S2. subst ms. split; [now inversion S3|].
    rewrite (v_cut _ _ _ _ _ _ _ HV), Hsim, Hg in S4. apply Ok_inj in S4. subst g. exact S5.
Qed.

Lemma v_sea_square e k g' : covered sea t /\ e = t \/ ~ covered sea t /\ maximal sea e /\ covers t e -> tile_to_key e 0 = Ok k ->
  clip (l_cut L) (draw_area t) (sea_square e) = Ok g' -> shift_geom (tz t) g' <> GNull ->
  serve_tile L st t = get_tile tiles F pf x t ->
  answers_with L st t (fun vls => exists vl v, In vl vls /\ In v (vl_features vl) /\ vl_name vl = coastline /\
    v_id v = k /\ v_tags v = [] /\ relative_geom (tile_corner t) (shift_geom (tz t) g') = Some (v_geom v)).
Proof.
  intros He Hk Hg Hgn ES.
  destruct (sea_shown raw _ (l_mk L) (l_qsort L) x t tiles F pf rows sea (ok_qsort _ HL) Hz Hv v_renderer (v_sea _ _ _ _ _ _ _ HV) v_database (v_not _ _ _ _ _ _ _ HV) v_named v_features e k g' He Hk)
    as (buf & B1 & B2 & _ & B3).
  - rewrite (v_cut _ _ _ _ _ _ _ HV). exact Hg.
  - exact Hgn.
  - exact (v_ignore _ _ _ _ _ _ _ HV).
  - apply v_answer; [exact ES|]. exists buf. split; [assumption|]. split; [assumption|]. intros Hb. destruct (B3 Hb) as (vls & vl & v & D1 & D2 & D3 & D4 & D5). exists vls. split; [assumption|]. exists vl, v.
    split; [assumption|]. split; [assumption|]. rewrite (v_names _ _ _ _ _ _ _ HV) in D4. rewrite (n_first _ _ _ _ _ _ _ _ _ _ HC) in D4. split; [congruence | assumption].
Qed.

(** everything shown *)
Lemma v_only z : get_tile tiles F pf x t = Ok (Some z) ->
  exists buf, l_deflate L buf = Ok z /\ (blen buf < 2 ^ 29 -> exists vls, decode_tile buf = Some vls /\ forall vl v, In vl vls -> In v (vl_features vl) ->
    (vl_name vl = coastline /\ v_tags v = [] /\ vkind (v_geom v) = 3 /\ exists e, covers t e /\ covered sea e /\ tile_to_key e 0 = Ok (v_id v)) \/
    (exists e f g', In (e, f) D /\ related e t /\ touches (bounding_box (f_geom f)) (draw_area t) /\ vl_name vl = coastline /\ tile_to_key e 0 = Ok (v_id v) /\ v_tags v = [] /\
       clip (l_cut L) (draw_area t) (outline L raw (tz t) (f_geom f)) = Ok g' /\ relative_geom (tile_corner t) (shift_geom (tz t) g') = Some (v_geom v)) \/
    (exists i mn, fe = true /\ In i (j_objs j) /\ imported L i (vl_name vl) mn /\ mn <= tz t /\ touches (bounding_box (snd (fst i))) (draw_area t) /\
       ((exists g', clip (l_cut L) (draw_area t) (outline L raw (tz t) (snd (fst i))) = Ok g' /\ shows_object L t i g' v) \/
        prep = true /\ tz t <= 10 /\ kind (snd (fst i)) = 2 /\ vkind (v_geom v) = 2 /\ v_id v = to_u64 (o_id (fst (fst i))) /\ shows_tags L i v))).
Proof.
  intros E. destruct (only_stored raw _ (l_mk L) (l_qsort L) x t tiles F pf rows sea (ok_qsort _ HL) Hz Hv v_renderer (v_sea _ _ _ _ _ _ _ HV) v_database (v_not _ _ _ _ _ _ _ HV) v_named v_features z E) as (buf & B1 & B2 & B3).
  unfold sent in B2. rewrite (v_compress _ _ _ _ _ _ _ HV), (v_deflate _ _ _ _ _ _ _ HV) in B2. destruct buf as [|b0 buf]; [congruence|]. cbn [length Nat.eqb] in B2. destruct B2 as (z' & Ez & B2). injection B2 as <-.
  exists (b0 :: buf). split; [assumption|]. intros Hb. destruct (B3 Hb) as (vls & D1 & D2). exists vls. split; [assumption|]. intros vl v Hvl Hvv.
  rewrite (v_names _ _ _ _ _ _ _ HV) in D2. rewrite (n_first _ _ _ _ _ _ _ _ _ _ HC) in D2.
  destruct (D2 vl v Hvl Hvv) as [(A1 & A2 & A3 & A4)|(f & A1 & (M1 & M2 & M3) & A3 & A4 & A5)]; [left; split; [congruence | auto]|right].
  apply (h_near _ _ _ _ _ _ _ _ HD t) in A1 as (i0 & _ & Hrel & [Hd|[Hf _]]).
  - left. destruct (proj1 (Forall_forall _ _) (n_D _ _ _ _ _ _ _ _ _ _ HC) _ Hd) as (Z1 & Z2 & K & F1 & F2 & F3 & F4 & ps & F5). cbn [fst snd] in *.
    destruct A5 as [(S1 & (ms & S2 & S3) & g & S4 & S5)|(_ & A5 & _)]; [|rewrite F5 in A5; discriminate A5]. exists i0, f, g.
    rewrite F1 in A3. change (N.to_nat 0) with O in A3. rewrite (n_first _ _ _ _ _ _ _ _ _ _ HC) in A3. rewrite F4 in S2. apply Permutation_sym, Permutation_nil in S2. subst ms.
    split; [assumption|]. split; [assumption|]. split; [assumption|]. split; [congruence|]. split; [now rewrite S1|]. split; [now inversion S3|].
    unfold simplified in S4. rewrite (v_cut _ _ _ _ _ _ _ HV), (v_rd _ _ _ _ _ _ _ HV) in S4. split; [exact S4 | exact S5].
  - right. destruct (Forall2_in_r _ _ _ _ pairs Hf) as ([[i layer] mn] & Hk & (ms & Ef & Hms) & Hn). cbn [fst snd] in *. rewrite A3 in Hn. injection Hn as <-.
    pose proof (n_objs _ _ _ _ _ _ _ _ _ _ HC) as Hks. destruct fe; [|rewrite Hks in Hk; destruct Hk]. apply Hks in Hk as [Hi Him]. exists i, mn. split; [reflexivity|]. split; [assumption|]. split; [assumption|].
    assert (Egm : f_geom f = snd (fst i)) by (rewrite Ef; reflexivity). rewrite Egm in *. split; [unfold in_zoom_range in M1; rewrite Ef in M1; cbn [f_minz] in M1; lia|]. split; [assumption|].
    destruct A5 as [A5|(Q1 & Q2 & Q3 & ms' & Q4 & Q5)].
    + left. pose proof A5 as (_ & _ & g & S4 & _). exists g. rewrite (v_cut _ _ _ _ _ _ _ HV), (v_rd _ _ _ _ _ _ _ HV) in S4. unfold simplified in S4. rewrite Egm in S4. split; [exact S4|].
      eapply (shows_it i (vl_name vl) mn f v g ms); eauto.
    + right. rewrite (v_lines _ _ _ _ _ _ _ HV) in Q1. apply andb_prop in Q1 as [Q1 Q1']. split; [assumption|]. split; [lia|]. split; [assumption|]. split; [now rewrite A4|]. split; [now rewrite Q3, Ef|].
      exists ms, ms'. rewrite Ef in Q4. cbn [f_meta] in Q4. auto.
Qed.
End C.
End S.

Lemma shown_total L j co fe raw prep whole st : libs_ok L -> sinv L j co fe raw prep whole (open_store st) -> forall t, tz t <= 20 -> valid_tile t -> exists r, serve_tile L st t = Ok r.
Proof.
  intros HL H t Hz Hv. destruct (serve_sinv L j co fe raw prep whole st HL H) as (D & ks & fs & names & d & sea & HC & _ & HS).
  destruct (HS t Hz Hv) as [(x & tiles & pf & rows & HV & HB & E)|(_ & _ & E & _)]; rewrite E; [|eauto].
  exact (v_total L j co fe raw prep HL D ks fs names d sea HC t Hz Hv x tiles (st_features st) pf rows HV (binv_shown _ _ _ _ _ _ _ _ HB)).
Qed.
