(** Whole imports: what tiles show, for every database of which the invariant holds. *)
From Coq Require Import Permutation String Ascii.
From Coq Require Import List.
From Verif Require Import Base BaseProof ModelTile SpecTile ModelPackFile ModelGeom SpecGeom ModelFeature SpecFeature ModelCodec ModelPacker SpecPacker ModelBqTree SpecBqTree ModelMvt SpecMvt ModelRender SpecRender ProofRender
  ModelInserter SpecInserter ModelDict SpecDict ModelOsm SpecOsm ModelDrain ModelCoast SpecCoast ModelServer ModelImport SpecImport
  ProofCoastRun PropCoast ProofImportLoad ProofImportRun ProofImportServe ProofImportTop.
Import ListNotations.
Open Scope N_scope.

Lemma shown_object : forall L j co raw prep whole st, libs_ok L -> sinv L j co true raw prep whole (open_store st) ->
  forall t o g cs layer mn g', tz t <= 20 -> valid_tile t ->
  In (o, g, cs) (j_objs j) -> imported L (o, g, cs) layer mn ->
  (layer = coastline -> kind g <> 3) ->
  (forall o' h cs' mn', In (o', h, cs') (j_objs j) -> imported L (o', h, cs') layer mn' -> to_u64 (o_id o') = to_u64 (o_id o) -> kind h = kind g -> (o', h, cs') = (o, g, cs)) ->
  mn <= tz t -> meets (tz t) t (bounding_box g) = true ->
  (whole = true \/ exists i, index_tile 10 i /\ related i t /\ meets 10 i (bounding_box g) = true /\ has_entry (st_features st) i) ->
  clip (l_cut L) (draw_area t) (outline L raw (tz t) g) = Ok g' -> shift_geom (tz t) g' <> GNull ->
  (prep = true -> tz t <= 10 -> kind g <> 2 /\ (layer <> coastline -> kind g = 3 -> (256 <= l_area L (shift_geom (tz t) g'))%Z)) ->
  answers_with L st t (fun vls => exists vl v, In vl vls /\ In v (vl_features vl) /\ vl_name vl = layer /\ shows_object L t (o, g, cs) g' v).
Proof.
  intros L j co raw prep whole st HL H t o g cs layer mn g' Hz Hv Hi Him Hco Hun Hmn HM Hen Hg Hgn Hag.
  destruct (serve_sinv L j co true raw prep whole st HL H) as (D & ks & fs & names & d & sea & HC & HW & HS).
  assert (HX : forall f, In f fs -> f_geom f = g -> exists ix, index_tile 10 ix /\ related ix t /\ cont D fs ix f /\ has_entry (st_features st) ix).
  { intros f Hf Eg. destruct Hen as [Hw|(ix & I1 & I2 & I3 & I4)].
    - pose proof (proj1 (Forall_forall _ _) (n_usable _ _ _ _ _ _ _ _ _ _ HC) _ Hf) as HU. cbn beta in HU. rewrite Eg in HU.
      destruct (index_of t (bounding_box g) Hz Hv (usable_world L _ HU) HM) as (ix & Ix & Rx & Mx). assert (HK : cont D fs ix f) by (right; split; [assumption|]; now rewrite Eg).
      exists ix. split; [assumption|]. split; [assumption|]. split; [assumption|]. exact (HW Hw ix f Ix HK).
    - exists ix. split; [assumption|]. split; [assumption|]. split; [|assumption]. right. split; [assumption|]. now rewrite Eg. }
  destruct (HS t Hz Hv) as [(x & tiles & pf & rows & HV & HB & E)|(_ & _ & E & Hno & _)].
  - apply (v_object_in L j co true raw prep st HL D ks fs names d sea HC t Hz Hv x tiles (st_features st) pf rows HV (binv_shown _ _ _ _ _ _ _ _ HB) (o, g, cs) layer mn g'); auto.
    + intros f Hf Eg. cbn [fst snd] in Eg. destruct (HX f Hf Eg) as (ix & I1 & I2 & I3 & I4). eapply near_all; eauto.
    + intros [[o' h] cs'] mn' Hi' Him' Eo Ek. cbn [fst snd] in *. eapply Hun; eauto.
  - exfalso. pose proof (n_objs _ _ _ _ _ _ _ _ _ _ HC) as Hks. cbn beta iota in Hks.
    assert (Hk : In (o, g, cs, layer, mn) ks) by (apply Hks; auto). destruct (ProofRender.Forall2_in_l _ _ _ _ (n_made _ _ _ _ _ _ _ _ _ _ HC) Hk) as (f & Hf & (ms & Ef & _)).
    assert (Eg : f_geom f = g) by (rewrite Ef; reflexivity). destruct (HX f Hf Eg) as (ix & I1 & I2 & I3 & I4). exact (Hno ix I1 I2 I4).
Qed.

Lemma shown_sea : forall L j fe raw prep whole st, libs_ok L -> sinv L j true fe raw prep whole (open_store st) ->
  exists s, coast_result L (j_polys j) s /\
  (forall t k, tz t <= 20 -> valid_tile t -> covered (c_sea s) t -> tile_to_key t 0 = Ok k ->
    answers_with L st t (fun vls => exists vl v, In vl vls /\ In v (vl_features vl) /\ vl_name vl = coastline /\ is_sea k (tz t) v)) /\
  (forall t e k g', tz t <= 20 -> valid_tile t -> ~ covered (c_sea s) t -> maximal (c_sea s) e -> covers t e -> tile_to_key e 0 = Ok k ->
    (prep = false \/ exists e' f', In (e', f') (c_inserted s) /\ related e' t /\ (whole = true \/ has_entry (st_features st) e')) ->
    clip (l_cut L) (draw_area t) (sea_square e) = Ok g' -> shift_geom (tz t) g' <> GNull ->
    answers_with L st t (fun vls => exists vl v, In vl vls /\ In v (vl_features vl) /\ vl_name vl = coastline /\
      v_id v = k /\ v_tags v = [] /\ relative_geom (tile_corner t) (shift_geom (tz t) g') = Some (v_geom v))) /\
  (forall t e f g', tz t <= 20 -> valid_tile t -> In (e, f) (c_inserted s) -> (whole = true \/ has_entry (st_features st) e) ->
    (fe = true -> forall o g cs mn, In (o, g, cs) (j_objs j) -> imported L (o, g, cs) coastline mn -> kind g <> 3) ->
    related e t -> touches (bounding_box (f_geom f)) (tile_area t) ->
    clip (l_cut L) (draw_area t) (outline L raw (tz t) (f_geom f)) = Ok g' -> shift_geom (tz t) g' <> GNull ->
    answers_with L st t (fun vls => exists vl v, In vl vls /\ In v (vl_features vl) /\ vl_name vl = coastline /\
      tile_to_key e 0 = Ok (v_id v) /\ v_tags v = [] /\ relative_geom (tile_corner t) (shift_geom (tz t) g') = Some (v_geom v))).
Proof.
  intros L j fe raw prep whole st HL H.
  destruct (serve_sinv L j true fe raw prep whole st HL H) as (D & ks & fs & names & d & sea & HC & HW & HS).
  pose proof (n_coast _ _ _ _ _ _ _ _ _ _ HC) as HR. cbn beta iota in HR. destruct HR as (s & HR & -> & ->). exists s. split; [assumption|].
  destruct HR as (R1 & R2 & R3). destruct (c57_partition _ _ _ _ _ _ R3 R1 R2) as (HP & HD & _).
  assert (HX : forall e f, In (e, f) (c_inserted s) -> whole = true \/ has_entry (st_features st) e -> index_tile 10 e /\ cont (c_inserted s) fs e f /\ has_entry (st_features st) e).
  { intros e f He Hw. destruct (proj1 (Forall_forall _ _) HD _ He) as (Z1 & Z2 & _). cbn [fst] in *.
    assert (Ie : index_tile 10 e) by (split; [assumption|]; unfold valid_tile in Z2; rewrite Z1 in Z2; exact Z2). split; [assumption|]. split; [now left|].
    destruct Hw as [Hw|Hw]; [|assumption]. apply (HW Hw e f Ie). now left. }
  split; [|split].
  - intros t k Hz Hv Hc Hk. destruct (HS t Hz Hv) as [(x & tiles & pf & rows & HV & HB & E)|(_ & _ & E & _ & Hno)]; [|contradiction].
    destruct (ok_square _ HL (draw_area t) (ProofRender.area_range t Hz Hv)) as (i & Hi & Hsq). pose proof (ProofRender.shift_square t i Hz Hi) as Hsh.
    destruct (v_sea_square L j true fe raw prep st HL _ ks fs names d _ HC t Hz Hv x tiles (st_features st) pf rows HV (binv_shown _ _ _ _ _ _ _ _ HB) t k (ProofRender.square_geom (draw_area t) i) (or_introl (conj Hc eq_refl)) Hk Hsq) as (buf & z & A1 & A2 & A3); [now rewrite Hsh | assumption|].
    exists buf, z. split; [assumption|]. split; [assumption|]. intros Hb. destruct (A3 Hb) as (vls & A4 & vl & v & A5 & A6 & A7 & A8 & A9 & A10). exists vls. split; [assumption|]. exists vl, v. repeat (split; [assumption|]).
    rewrite Hsh, ProofRender.relative_square in A10. destruct v as [vi vg vt]. cbn [v_id v_geom v_tags] in *. exists i. split; [assumption|]. congruence.
  - intros t e k g' Hz Hv Hnc Hm Hcv Hk Hp Hg Hgn. destruct (HS t Hz Hv) as [(x & tiles & pf & rows & HV & HB & E)|(Ep & _ & E & Hno & _)].
    + exact (v_sea_square L j true fe raw prep st HL _ ks fs names d _ HC t Hz Hv x tiles (st_features st) pf rows HV (binv_shown _ _ _ _ _ _ _ _ HB) e k g' (or_intror (conj Hnc (conj Hm Hcv))) Hk Hg Hgn E).
    + exfalso. destruct Hp as [Hp|(e' & f' & He & Hr & Hw)]; [congruence|]. destruct (HX e' f' He Hw) as (I1 & _ & I3). exact (Hno e' I1 Hr I3).
  - intros t e f g' Hz Hv Hd Hen Hob Hr Ht Hg Hgn. destruct (HX e f Hd Hen) as (I1 & I2 & I3). destruct (HS t Hz Hv) as [(x & tiles & pf & rows & HV & HB & E)|(_ & _ & E & Hno & _)].
    + apply (v_coast_in L j true fe raw prep st HL _ ks fs names d _ HC t Hz Hv x tiles (st_features st) pf rows HV (binv_shown _ _ _ _ _ _ _ _ HB) e f g'); auto.
      * eapply near_all; eauto.
      * intros Hfe [[o g] cs] mn Hi Him. cbn [fst snd]. eapply Hob; eauto.
    + exfalso. exact (Hno e I1 Hr I3).
Qed.

Lemma shown_only : forall L j co fe raw prep whole st, libs_ok L -> sinv L j co fe raw prep whole (open_store st) ->
  exists s, (co = true -> coast_result L (j_polys j) s) /\
  forall t z, tz t <= 20 -> valid_tile t -> serve_tile L st t = Ok (Some z) ->
  exists buf, l_deflate L buf = Ok z /\ (blen buf < 2 ^ 29 -> exists vls, decode_tile buf = Some vls /\ forall vl v, In vl vls -> In v (vl_features vl) ->
    (co = true /\ vl_name vl = coastline /\ v_tags v = [] /\ vkind (v_geom v) = 3 /\ exists e, covers t e /\ covered (c_sea s) e /\ tile_to_key e 0 = Ok (v_id v)) \/
    (co = true /\ exists e f g', In (e, f) (c_inserted s) /\ related e t /\ touches (bounding_box (f_geom f)) (draw_area t) /\
       vl_name vl = coastline /\ tile_to_key e 0 = Ok (v_id v) /\ v_tags v = [] /\
       clip (l_cut L) (draw_area t) (outline L raw (tz t) (f_geom f)) = Ok g' /\ relative_geom (tile_corner t) (shift_geom (tz t) g') = Some (v_geom v)) \/
    (fe = true /\ exists o g cs mn, In (o, g, cs) (j_objs j) /\ imported L (o, g, cs) (vl_name vl) mn /\ mn <= tz t /\ touches (bounding_box g) (draw_area t) /\
       ((exists g', clip (l_cut L) (draw_area t) (outline L raw (tz t) g) = Ok g' /\ shows_object L t (o, g, cs) g' v) \/
        prep = true /\ tz t <= 10 /\ kind g = 2 /\ vkind (v_geom v) = 2 /\ v_id v = to_u64 (o_id o) /\ shows_tags L (o, g, cs) v))).
Proof.
  intros L j co fe raw prep whole st HL H. destruct (serve_sinv L j co fe raw prep whole st HL H) as (D & ks & fs & names & d & sea & HC & _ & HS).
  pose proof (n_coast _ _ _ _ _ _ _ _ _ _ HC) as HR.
  assert (HX : exists s, (co = true -> coast_result L (j_polys j) s) /\ (co = true -> D = c_inserted s /\ sea = c_sea s) /\ (co = false -> D = [] /\ sea = [])).
  { destruct co; [destruct HR as (s & ? & ? & ?); exists s | exists (Cst 0 [] 0 [] [] MExit [] [])]; (split; [intros HH; auto; discriminate HH|split; intros HH; auto; discriminate HH]). }
  destruct HX as (s & X1 & X2 & X3). exists s. split; [assumption|]. intros t z Hz Hv E.
  destruct (HS t Hz Hv) as [(x & tiles & pf & rows & HV & HB & E')|(_ & _ & E' & _)]; [|congruence]. rewrite E' in E.
  destruct (v_only L j co fe raw prep HL D ks fs names d sea HC t Hz Hv x tiles (st_features st) pf rows HV (binv_shown _ _ _ _ _ _ _ _ HB) z E) as (buf & B1 & B2). exists buf. split; [assumption|]. intros Hb. destruct (B2 Hb) as (vls & D1 & D2). exists vls. split; [assumption|].
  intros vl v H1 H2. destruct (D2 vl v H1 H2) as [(A1 & A2 & A3 & e & A4 & A5 & A6)|[(e & f & g' & A1 & A2)|([[o g] cs] & mn & A1 & A2 & A3 & A4 & A5 & A6)]].
  - left. destruct co; [|destruct (X3 eq_refl) as [_ ->]; destruct A5 as (q & [] & _)]. destruct (X2 eq_refl) as [_ <-]. split; [reflexivity|]. repeat (split; [assumption|]). exists e. auto.
  - right; left. destruct co; [|destruct (X3 eq_refl) as [-> _]; destruct A1]. destruct (X2 eq_refl) as [<- _]. split; [reflexivity|]. exists e, f, g'. split; assumption.
  - right; right. split; [assumption|]. exists o, g, cs, mn. auto.
Qed.
