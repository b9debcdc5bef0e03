(** The benchmark on an imported database. *)
From Coq Require Import Permutation String Ascii Sorting.Sorted.
From Coq Require Import List.
From Verif Require Import Base BaseProof ModelTile SpecTile ProofTile ModelPackFile SpecPackFile ModelTable ModelCodec ModelGeom SpecGeom ModelFeature SpecFeature
  ModelPack ModelPacker SpecPacker ModelBqTree SpecBqTree ProofBqQuery ModelMvt SpecMvt SpecLines ModelRender SpecRender ProofRender ModelPrepare SpecPrepare
  ModelInserter SpecInserter ProofInserter ModelDict SpecDict ProofDict
  ModelOsm SpecOsm ModelDrain ModelCoast SpecCoast SpecLayout ModelRepack SpecRepack ModelServer ModelImport SpecImport
  ProofImportObjects ProofImportLoad ProofImportRun ProofImportPack ProofImportServe ProofImportTop ModelCrash SpecCrash ProofCrash ModelPerf SpecPerf ProofPerf.
Import ListNotations.
Open Scope N_scope.

Lemma bench_total L j co fe raw prep whole st compress single ts : libs_ok L -> job_ok L j -> sinv L j co fe raw prep whole (open_store st) ->
  Forall (fun t => tz t <= 20 /\ valid_tile t) ts ->
  exists x, make_render_ctx L (st_meta st) = Ok x /\ x_ignore_seaside x = false /\
    exists r, bench_tiles (st_tiles st) (st_features st) (pf_open (st_pack st)) (bench_ctx x compress single) ts = Ok r.
Proof.
  intros HL HJ (D & ks & fs & names & d & sea & v & rows & HC & HM & Hsv & HB & _) Hts. cbn [open_store ss_meta ss_features ss_tiles ss_file] in *.
  exists (server_ctx L v names d prep). split; [apply (ctx_of L _ names d sea prep v HM Hsv)|]. split; [now destruct prep|]. set (x := bench_ctx (server_ctx L v names d prep) compress single).
  assert (Hsb : seaside_is (base_ctx L v names d) sea) by (apply sea_of_tree; [exact (n_sea _ _ _ _ _ _ _ _ _ _ HC) | assumption]).
  assert (HG : forall t, tz t <= 20 -> valid_tile t -> exists r, get_tile (st_tiles st) (st_features st) (pf_open (st_pack st)) x t = Ok r).
  { intros t Hz Hv. set (y := base_ctx L v names d).
    assert (HV : view L names d sea (false && (tz t <=? 10)) t y) by (constructor; try reflexivity; [exact Hsb | intros (_ & Hp); cbn in Hp; lia]).
    pose proof (v_renderer L j co fe false HL D ks fs names d sea HC t Hz y HV) as R1.
    pose proof (v_database L raw false D fs names d sea t y (st_features st) _ rows HV (binv_shown _ _ _ _ _ _ _ _ HB)) as R2.
    pose proof (v_named L j co fe false D ks fs names d sea HC t y HV) as R3.
    pose proof (v_features L j co fe raw false HL D ks fs names d sea HC t Hz y (st_features st) _ rows HV (binv_shown _ _ _ _ _ _ _ _ HB)) as R4.
    assert (R5 : Forall (fun f => joinable (simplified raw (l_mk L) (l_rd L) (tz t) f)) (near_features rows t)).
    { apply Forall_forall. intros f Hf. apply (near_in L raw D fs d t (st_features st) _ rows (binv_shown _ _ _ _ _ _ _ _ HB)) in Hf. apply in_app_or in Hf as [Hf|Hf].
      - apply in_map_iff in Hf as (e & <- & He). destruct (proj1 (Forall_forall _ _) (n_D _ _ _ _ _ _ _ _ _ _ HC) _ He) as (_ & _ & _ & _ & _ & _ & _ & ps & E). unfold simplified. rewrite E in *.
        destruct raw; [exact I|]. cbn [select_geom]. unfold normal. match goal with |- joinable (match ?q with _ => _ end) => destruct q; exact I end.
      - apply (outline_joinable L raw (tz t) (f_geom f) HL Hz). exact (proj1 (Forall_forall _ _) (n_usable _ _ _ _ _ _ _ _ _ _ HC) _ Hf). }
    assert (F1 : x_names x = names /\ x_dec x = x_dec y /\ x_rd x = x_rd y /\ x_cut x = x_cut y /\ x_aggregate x = x_aggregate y /\ x_seaside x = v /\ x_deflate x = l_deflate L /\ x_ignore_prepared x = true) by (unfold x; destruct prep; repeat split).
    destruct F1 as (F1 & F2 & F3 & F4 & F5 & F6 & F7 & F8).
    apply (get_total raw (dict_encode (coder_make (l_psort L) d)) (l_mk L) (l_qsort L) x t _ _ _ rows sea (ok_qsort _ HL) Hz Hv).
    - unfold renderer_ok in *. rewrite F2, F3, F4, F5. exact R1.
    - unfold seaside_is in *. rewrite F6. exact Hsb.
    - rewrite F2, F3. exact R2.
    - intros (Hp & _). rewrite F8 in Hp. discriminate.
    - rewrite F1. exact R3.
    - rewrite F1, F3. apply Forall_forall. intros f Hf. rewrite Forall_forall in R4, R5. destruct (R4 f Hf) as (A & B & C & _). split; [exact A|]. split; [exact B|]. split; [exact C|]. intros _. exact (R5 f Hf).
    - intros b. rewrite F7. apply (ok_deflate _ HL). }
  clearbody x. clear -HG Hts. unfold bench_tiles.
  assert (H : exists rs, map_res (get_tile_perf (st_tiles st) (st_features st) (pf_open (st_pack st)) x) ts = Ok rs).
  { induction Hts as [|t ts [Hz Hv] _ (rs & IH)]; [exists []; reflexivity|]. destruct (HG t Hz Hv) as (r & Er). rewrite <- perf_get in Er. apply bind_ok in Er as (p & Ep & _). exists (p :: rs). cbn [map_res]. now rewrite Ep, IH. }
  destruct H as (rs & ->). eexists. reflexivity.
Qed.
