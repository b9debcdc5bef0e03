(** Serving prepared tiles. *)
From Coq Require Import Permutation.
From Verif Require Import Base BaseProof ModelTile SpecTile ProofTile ModelPackFile ModelCodec ModelGeom ModelFeature SpecGeom ModelBqTree SpecBqTree
  SpecPacker ModelMvt SpecMvt ProofMvt ProofMvtTile ModelRender SpecRender ProofRender ModelTable ProofTable ModelPrepare SpecPrepare ProofPrepare.
Open Scope N_scope.

(** the flags for joining do not matter for the sea square alone *)
Definition with_flags (c : tctx) (a b : bool) : tctx :=
  TCtx (c_names c) a b (c_drop_subpixel c) (c_z c) (c_spec c) (c_cut c) (c_area c) (c_aggregate c).

Lemma poly_alone c f ps a b : f_geom f = GPoly ps -> f_layer f = 0 -> build_tile (with_flags c a b) [f] = build_tile c [f].
Proof.
  intros EG EL0.
  assert (H : forall a b, build_tile (with_flags c a b) [f] =
    match nth_error (c_names c) 0 with
    | None => Throw
    | Some name => do f' <- clip_shift c f;
        do lb <- write_feature c (layer_builder_init name) f';
        do l <- (if lb_has lb then do b <- lb_finish lb; Ok (field_bytes MT_LAYERS b) else Ok []);
        Ok (l ++ [])
    end).
  { clear a b. intros a b. unfold build_tile. cbn [tb_add_features]. unfold tb_add_feature. cbn [with_flags c_names]. rewrite EL0.
    change (N.to_nat 0) with O. destruct (nth_error (c_names c) 0) as [name|]; [|reflexivity].
    cbn [map_update]. unfold lb_add_feature. rewrite EG.
    change (lb_polys (layer_builder_init name)) with (@nil N). change (lb_nodes (layer_builder_init name)) with (@nil N).
    change (lb_lines (layer_builder_init name)) with (@nil N). change (lb_poly_buf (layer_builder_init name)) with (@nil feature).
    change (lb_line_buf (layer_builder_init name)) with (@nil feature). change (lb_has (layer_builder_init name)) with false.
    change (lb_keys (layer_builder_init name)) with (@nil bytes). change (lb_vals (layer_builder_init name)) with (@nil bytes).
    cbn [mem existsb with_flags c_agg_polys app].
    assert (W : forall p q ids g, write_feature c (LB [] [] ids p q false (lb_buf (layer_builder_init name)) [] []) g =
      (do lb <- write_feature c (layer_builder_init name) g; Ok (match f_geom g with GNull => LB [] [] ids p q false (lb_buf (layer_builder_init name)) [] [] | _ => LB [] [] ids p q (lb_has lb) (lb_buf lb) (lb_keys lb) (lb_vals lb) end))).
    { intros p q ids g. unfold write_feature. change (lb_keys (layer_builder_init name)) with (@nil bytes). change (lb_vals (layer_builder_init name)) with (@nil bytes).
      cbn [lb_polys lb_nodes lb_lines lb_poly_buf lb_line_buf lb_has lb_buf lb_keys lb_vals].
      destruct (f_geom g) as [|pg|lg|pg]; cbn [bind]; [reflexivity|..];
        match goal with |- context [encode_geometry ?s ?g0] => destruct (encode_geometry s g0) as [e| | |] end; cbn [bind]; try reflexivity;
        destruct (collect_tags [] [] (f_meta g)) as [[ks vs] tg]; reflexivity. }
    assert (F : forall lb ids p q, lb_finish (LB [] [] ids p q (lb_has lb) (lb_buf lb) (lb_keys lb) (lb_vals lb)) = lb_finish lb) by reflexivity.
    assert (G0 : forall lb g, write_feature c (layer_builder_init name) g = Ok lb -> f_geom g = GNull -> lb_has lb = false).
    { intros lb g Hw Hg. unfold write_feature in Hw. rewrite Hg in Hw. apply Ok_inj in Hw. subst lb. reflexivity. }
    destruct b; cbv iota.
    - cbn [bind tb_finish]. unfold aggregate_geometry. cbn [with_flags c_agg_polys c_agg_lines lb_poly_buf write_polys].
      change (clip_shift (with_flags c a true)) with (clip_shift c). change (write_feature (with_flags c a true)) with (write_feature c).
      destruct (clip_shift c f) as [f'| | |] eqn:EC; cbn [bind]; [|reflexivity..].
      assert (EL : f_layer f' = 0).
      { unfold clip_shift in EC. apply bind_ok in EC as (g & _ & EC). apply Ok_inj in EC. subst f'. exact EL0. }
      rewrite EL. change (0 =? kLayerCoastlineIdx) with true. cbn [negb andb].
      rewrite W. destruct (write_feature c (layer_builder_init name) f') as [lb| | |] eqn:EW; cbn [bind]; [|reflexivity..].
      assert (LBz : forall g : geom, lb_line_buf (match g with GNull => LB [] [] [f_id f] [] [f] false (lb_buf (layer_builder_init name)) [] [] | _ => LB [] [] [f_id f] [] [f] (lb_has lb) (lb_buf lb) (lb_keys lb) (lb_vals lb) end) = []) by (intros []; reflexivity).
      rewrite LBz. cbn [negb]. rewrite andb_false_r. cbn [bind]. destruct (f_geom f') eqn:Eg; cbn [lb_has].
      + rewrite (G0 _ _ EW Eg). reflexivity.
      + rewrite F. destruct (lb_has lb); [|reflexivity]. destruct (lb_finish lb); reflexivity.
      + rewrite F. destruct (lb_has lb); [|reflexivity]. destruct (lb_finish lb); reflexivity.
      + rewrite F. destruct (lb_has lb); [|reflexivity]. destruct (lb_finish lb); reflexivity.
    - change (clip_shift (with_flags c a false)) with (clip_shift c). change (write_feature (with_flags c a false)) with (write_feature c).
      destruct (clip_shift c f) as [f'| | |] eqn:EC; cbn [bind]; [|reflexivity..].
      rewrite W. destruct (write_feature c (layer_builder_init name) f') as [lb| | |] eqn:EW; cbn [bind tb_finish]; [|reflexivity..].
      unfold aggregate_geometry. cbn [with_flags c_agg_polys c_agg_lines bind].
      assert (LBz : forall g : geom, lb_line_buf (match g with GNull => LB [] [] [f_id f] [] [] false (lb_buf (layer_builder_init name)) [] [] | _ => LB [] [] [f_id f] [] [] (lb_has lb) (lb_buf lb) (lb_keys lb) (lb_vals lb) end) = []) by (intros []; reflexivity).
      rewrite LBz. cbn [negb]. rewrite andb_false_r. cbn [bind]. destruct (f_geom f') eqn:Eg; cbn [lb_has].
      + rewrite (G0 _ _ EW Eg). reflexivity.
      + rewrite F. destruct (lb_has lb); [|reflexivity]. destruct (lb_finish lb); reflexivity.
      + rewrite F. destruct (lb_has lb); [|reflexivity]. destruct (lb_finish lb); reflexivity.
      + rewrite F. destruct (lb_has lb); [|reflexivity]. destruct (lb_finish lb); reflexivity. }
  rewrite H. rewrite <- (H (c_agg_lines c) (c_agg_polys c)). destruct c; reflexivity.
Qed.
Lemma sea_alone c t k a b : build_tile (with_flags c a b) [sea_of t k] = build_tile c [sea_of t k].
Proof. eapply poly_alone; reflexivity. Qed.

(** an empty tile has no content *)
Lemma empty_no_content c fs i ws : build_tile c fs = Ok [] -> layer_content c i fs = Ok ws -> ws = [].
Proof.
  intros H HL. unfold build_tile in H. apply bind_ok in H as (tb & E0 & H).
  destruct (tb_add_features_spec c fs [] [] tb (tb_inv_init c) E0) as (I1 & I2 & I3). cbn [app] in *.
  destruct (in_dec N.eq_dec i (keys tb)) as [Hin|Hni].
  2: { assert (Z : part i fs = []) by (destruct (part i fs) eqn:Ep; [reflexivity|]; exfalso; apply Hni, I2; rewrite Ep; discriminate).
       unfold layer_content in HL. unfold part in Z. rewrite Z in HL. cbn in HL. apply Ok_inj in HL. congruence. }
  destruct (lookup_in _ _ Hin) as (lb & El). destruct (I3 _ _ El) as (name & _ & Hadds).
  apply lookup_some_in in El as [_ El]. clear - H Hadds El HL.
  induction tb as [|[j lb0] tb IH]; [destruct El|]. cbn [tb_finish] in H.
  apply bind_ok in H as (lb1 & E1 & H). apply bind_ok in H as (l & E2 & H). apply bind_ok in H as (r & E3 & H). apply Ok_inj in H.
  apply app_eq_nil in H as [-> ->]. destruct El as [El|El]; [|now apply IH]. injection El as -> ->.
  destruct (layer_spec c name i fs lb lb1 Hadds E1) as (ws' & Hc & Hinv). rewrite HL in Hc. apply Ok_inj in Hc. subst ws'.
  destruct Hinv as (? & _ & _ & Hh & _). destruct ws; [reflexivity|]. cbn [negb] in Hh. rewrite Hh in E2.
  apply bind_ok in E2 as (b & _ & E2). apply Ok_inj in E2. discriminate.
Qed.

(** with the sea square first, the tile is not empty *)
Lemma sea_first_drawn c t k fs : tz t <= 20 -> c_z c = tz t -> valid_tile t -> draw_bounds (c_spec c) = draw_area t -> keeps_square (c_cut c) ->
  build_tile c (sea_of t k :: fs) <> Ok [].
Proof.
  intros Hz Ez Hv Hd Hk H. destruct (Hk (draw_area t) (area_range t Hz Hv)) as (n & Hn4 & Hk').
  assert (Hn : not_null (set_geom (sea_of t k) (shift_geom (tz t) (square_geom (draw_area t) n))) = true).
  { unfold not_null. cbn [set_geom f_geom]. now rewrite shift_square. }
  set (f' := set_geom (sea_of t k) (shift_geom (tz t) (square_geom (draw_area t) n))) in *.
  assert (EC : clip_shift c (sea_of t k) = Ok f').
  { unfold clip_shift, sea_of, box_ring, square_geom. cbn [f_geom clip]. rewrite Hd, Hk'. cbn [bind]. rewrite Ez. reflexivity. }
  assert (Hlc : exists ws, layer_content c 0 (sea_of t k :: fs) = Ok ws).
  { assert (H' := H). unfold build_tile in H'. apply bind_ok in H' as (tb & E0 & H').
    destruct (tb_add_features_spec c (sea_of t k :: fs) [] [] tb (tb_inv_init c) E0) as (I1 & I2 & I3). cbn [app] in *.
    assert (Hin : In 0 (keys tb)) by (apply I2; discriminate).
    destruct (lookup_in _ _ Hin) as (lb & El). destruct (I3 _ _ El) as (name & _ & Hadds).
    apply lookup_some_in in El as [_ El].
    clear - H' Hadds El. revert H'. generalize (@nil N) as buf. induction tb as [|[j lb0] tb IH]; intros buf H; [destruct El|]. cbn [tb_finish] in H.
    apply bind_ok in H as (lb1 & E1 & H). apply bind_ok in H as (l & _ & H). apply bind_ok in H as (r & E3 & _).
    destruct El as [El|El]; [|now apply IH with (buf := r)]. injection El as -> ->.
    destruct (layer_spec c name _ _ lb lb1 Hadds E1) as (ws & Hws & _). eauto. }
  destruct Hlc as (ws & Hws). pose proof (empty_no_content _ _ _ _ H Hws) as ->.
  unfold layer_content in Hws.
  apply bind_ok in Hws as (direct & E1 & H1). apply bind_ok in H1 as (polys & E2 & H1).
  apply bind_ok in H1 as (joined & E3 & H1). apply bind_ok in H1 as (lines & E4 & H1). apply Ok_inj in H1.
  assert (Hin : In (sea_of t k) (first_of_kind [] (filter (fun f => f_layer f =? 0) (sea_of t k :: fs)))).
  { cbn [filter sea_of f_layer]. change (0 =? 0) with true. cbv iota. fold (sea_of t k).
    apply (first_of_kind_mem (sea_of t k) _ []); [reflexivity|reflexivity|]. intros g []. }
  assert (In f' (filter not_null (direct ++ filter (big_enough c) polys ++ lines))); [|rewrite H1 in *; auto].
  apply filter_In. split; [|exact Hn]. apply in_app_iff. destruct (c_agg_polys c) eqn:Ea.
  - right. apply in_app_iff. left. apply filter_In. split; [|reflexivity]. apply (map_res_mem _ _ _ (sea_of t k) f' E2); [|exact EC].
    apply filter_In. split; [exact Hin | reflexivity].
  - left. apply (map_res_mem _ _ _ (sea_of t k) f' E1); [|exact EC]. apply filter_In. split; [exact Hin|].
    unfold buffered. rewrite Ea. cbn [sea_of f_geom box_ring kind]. rewrite andb_false_r. reflexivity.
Qed.

Lemma square_ctx t : tz t <= 20 -> valid_tile t -> exists sp, make_tile_spec t = Ok sp /\ draw_bounds sp = draw_area t.
Proof. intros Hz Hv. destruct (spec_area t Hz Hv) as (sp & E & H). exists sp. split; [exact E|]. apply H. Qed.

Lemma serve_core features max tiles x pf t k sea features' pf' r :
  prepare_tile features pf x t = Ok r -> table_get tiles k = r -> tz t <= max -> max <= 20 -> valid_tile t ->
  tile_to_key t 0 = Ok k -> seaside_is x sea -> keeps_square (x_cut x) ->
  get_tile tiles features' pf' (serving x max) t = get_tile [] features pf (on_demand x) t.
Proof.
  intros Er Hr Hz Hmax Hv Hk Hsea Hsq. assert (Hz20 : tz t <= 20) by lia.
  unfold get_tile, kMaxZoomLevel. replace (tz t <=? 20) with true by lia. cbn [verify bind serving on_demand x_ignore_prepared x_max_prepared x_seaside negb andb].
  replace (Z.of_N (tz t) <=? Z.of_N max)%Z with true by lia. rewrite Hk. cbn [bind]. rewrite Hr. clear Hr.
  unfold prepare_tile in Er. apply bind_ok in Er as (ps & Eps & Er). rewrite Eps. cbn [bind].
  unfold render_tile in *. unfold make_builder in *. destruct (square_ctx t Hz20 Hv) as (sp & Esp & Hd). rewrite Esp in *. cbn [bind] in *.
  cbn [prepare_ctx serving on_demand x_names x_agg_lines x_agg_polys x_drop_subpixel x_cut x_area x_aggregate x_seaside x_ignore_seaside x_compress x_deflate] in *.
  change (seaside_features (prepare_ctx x) t) with (seaside_features x t) in Er.
  change (seaside_features (on_demand x) t) with (seaside_features x t).
  change (seaside_features (serving x max) t) with (seaside_features x t).
  change (render_features (prepare_ctx x) t ps) with (render_features x t ps) in Er.
  change (render_features (on_demand x) t ps) with (render_features x t ps).
  apply bind_ok in Er as (ss & Ess & Er). apply bind_ok in Er as (fs & Efs & Er). rewrite Ess, Efs. cbn [bind].
  destruct (sea_contains x sea t Hsea Hz20 Hv) as (b & Eb & Hcov). rewrite Eb in *. cbn [bind] in *.
  assert (EF0 : render_features (serving x max) t [] = Ok []) by (unfold render_features; rewrite Esp; reflexivity).
  assert (ESS : b = true -> ss = [sea_of t k]).
  { intros ->. unfold seaside_features in Ess. destruct (sea_leafs x sea t Hsea Hz20 Hv) as (L & EL & _ & HL & _). rewrite EL in Ess. cbn [bind] in Ess.
    rewrite (HL (proj1 Hcov eq_refl)) in Ess. cbn [map_res] in Ess. rewrite (seaside_feature_ok t k Hz20 Hv Hk) in Ess. cbn [bind] in Ess.
    apply Ok_inj in Ess. congruence. }
  set (c1 := TCtx (x_names x) true true (x_drop_subpixel x) (tz t) sp (x_cut x) (x_area x) (x_aggregate x)) in *.
  destruct (b && match fs with [] => true | _ => false end) eqn:Eskip.
  - apply Ok_inj in Er. subst r. apply andb_prop in Eskip as [-> Ef]. destruct fs; [|discriminate]. rewrite (ESS eq_refl). rewrite EF0. cbn [bind app].
    set (c2 := TCtx (x_names x) (x_agg_lines x) (x_agg_polys x) (x_drop_subpixel x) (tz t) sp (x_cut x) (x_area x) (x_aggregate x)).
    change c2 with (with_flags c1 (x_agg_lines x) (x_agg_polys x)). rewrite sea_alone. reflexivity.
  - destruct (build_tile c1 (ss ++ fs)) as [buf| | |] eqn:EB; [|discriminate..]. cbn [bind] in *. destruct buf as [|b0 buf].
    + apply Ok_inj in Er. subst r. destruct b; [|reflexivity]. exfalso. rewrite (ESS eq_refl) in EB. cbn [app] in EB.
      revert EB. apply sea_first_drawn; auto.
    + destruct (x_compress x).
      * destruct (x_deflate x (b0 :: buf)) as [z| | |]; [|discriminate..]. cbn [bind] in *. apply Ok_inj in Er. subst r. reflexivity.
      * apply Ok_inj in Er. subst r. reflexivity.
Qed.


Lemma serve_prepared features max m n tiles x pf s t k sea features' pf' :
  make_prepare_manager features max = Ok m -> prep_reach (prepare_tile features pf x) m n tiles s -> all_exited s -> (0 < n)%nat ->
  table_sorted tiles -> tz t <= max -> max <= 20 -> valid_tile t -> in_bounds features t ->
  tile_to_key t 0 = Ok k -> (forall b, ~ In (k, b) tiles) -> seaside_is x sea -> keeps_square (x_cut x) ->
  get_tile (p_tiles s) features' pf' (serving x max) t = get_tile [] features pf (on_demand x) t.
Proof.
  intros Hm R Hx Hn Hs Hz Hmax Hv Hb Hk Hold Hsea Hsq.
  destruct (prepare_done _ _ _ _ _ _ _ Hm R Hx Hn Hs) as (_ & D2 & _ & D4 & _).
  destruct (D4 t) as (r & Er & Hr). { apply D2. auto. }
  specialize (Hr k Hk). rewrite (table_get_none tiles k Hold) in Hr.
  apply (serve_core features max (p_tiles s) x pf t k sea features' pf' r); auto. destruct r; assumption.
Qed.

(** a tile that is not rendered stays as it was *)
Lemma not_prepared features max m n tiles x pf s t k :
  make_prepare_manager features max = Ok m -> prep_reach (prepare_tile features pf x) m n tiles s -> all_exited s -> (0 < n)%nat ->
  table_sorted tiles -> ~ (tz t <= max /\ in_bounds features t) -> tile_to_key t 0 = Ok k ->
  table_get (p_tiles s) k = table_get tiles k.
Proof.
  intros Hm R Hx Hn Hs Ho Hk. destruct (prepare_done _ _ _ _ _ _ _ Hm R Hx Hn Hs) as (_ & D2 & _ & _ & D5).
  apply D5. intros t' Ht' Hk'. destruct (tile_key_injective _ _ _ _ _ Hk Hk') as [-> _]. apply D2 in Ht'. auto.
Qed.
