(** Imports that end with an exception while the OSM file is loaded: what the server answers. *)
From Coq Require Import Permutation String Ascii Sorting.Sorted.
From Coq Require Import List.
From Verif Require Import Base BaseProof ModelTile SpecTile ProofTile ModelPackFile SpecPackFile ModelTable ModelCodec ModelGeom SpecGeom ModelFeature SpecFeature
  ModelPacker SpecPacker ModelBqTree SpecBqTree ModelMvt SpecMvt SpecLines ModelRender SpecRender ProofRender ModelPrepare SpecPrepare
  ModelInserter SpecInserter ModelDict SpecDict ProofDict ModelOsm SpecOsm ModelServer ModelImport SpecImport
  ProofImportObjects ProofImportLoad ProofImportRun ProofImportPack ProofImportServe ProofImportTop SpecFinish ProofImportFinish ProofImportFinish2 ModelAbort.
Import ListNotations.
Open Scope N_scope.

(** a feature of a layer without a name makes a tile fail *)
Lemma nameless_get raw enc mk srt x t tiles features s rows sea f :
  sorts_by_key srt -> tz t <= 20 -> valid_tile t -> coder_ok enc (x_dec x) -> mask_ok mk (x_rd x) (tz t) -> cut_ok (x_cut x) -> seaside_is x sea ->
  database_ok raw enc (x_dec x) mk (x_rd x) srt s features rows -> ~ prepared x t ->
  In f (near_features rows t) -> must_draw raw mk (x_rd x) t f -> N.of_nat (length (x_names x)) <= f_layer f ->
  forall r, get_tile tiles features s x t <> Ok r.
Proof.
  intros Hsrt Hz Hv R1 R2 R3 Hsea Hdb Hprep Hin Hm Hl r0 HG.
  rewrite (get_unprepared x t tiles features s Hz Hprep) in HG.
  destruct (builder_for x t Hz Hv R3) as (c & EB & HX & N1 & N2 & N3 & N4 & N5 & N6 & N7 & N8).
  destruct (sea_total x t sea Hsea Hz Hv) as (ss & ESS & FS).
  destruct (features_drawn raw enc mk srt x t Hsrt Hz Hv R1 R2 s features rows Hdb) as (pk & gs & E1 & E2 & shown & hidden & P & G1 & G2 & G3).
  rewrite E1 in HG. cbn [bind] in HG. unfold render_tile in HG. rewrite EB, ESS, E2 in HG. cbn [bind] in HG.
  assert (Hsh : In f shown).
  { apply (Permutation_in _ (Permutation_sym P)) in Hin. apply in_app_or in Hin as [H|H]; [assumption|]. destruct (proj1 (Forall_forall _ _) G3 _ H Hm). }
  destruct (Forall2_in_l _ _ _ _ G1 Hsh) as (h & Hh & HD). destruct HD as (_ & D2 & _).
  assert (HB : exists buf, build_tile c (ss ++ gs) = Ok buf).
  { destruct (x_ignore_seaside x) eqn:EI.
    - destruct (sea_contains x sea t Hsea Hz Hv) as (b & Eb & _). rewrite Eb in HG. cbn [bind] in HG. assert (Eskip : (b && match gs with [] => true | _ => false end)%bool = false) by (destruct gs; [destruct Hh | apply andb_false_r]).
      rewrite Eskip in HG. cbn [bind] in HG. apply bind_ok in HG as (buf & HG & _). eauto.
    - cbn [bind] in HG. apply bind_ok in HG as (buf & HG & _). eauto. }
  destruct HB as (buf & HB). unfold build_tile in HB. apply bind_ok in HB as (tb & HB & _).
  assert (Hfs : In h (ss ++ gs)) by (apply in_or_app; now right). clear - HB Hfs D2 Hl N1. revert HB Hfs. generalize (@nil (N * layer_builder)). generalize (ss ++ gs). intros l. induction l as [|g l IH]; intros tb0 HB Hfs; [destruct Hfs|].
  cbn [tb_add_features] in HB. apply bind_ok in HB as (tb' & E & HB). destruct Hfs as [->|Hfs]; [|exact (IH _ HB Hfs)].
  unfold tb_add_feature in E. replace (nth_error (c_names c) (N.to_nat (f_layer h))) with (@None bytes) in E; [discriminate E|]. symmetry. apply nth_error_None. rewrite N1. lia.
Qed.

(** the names and the dictionary that would have been stored *)
Lemma osm_finish L objs objs' fs m oc : libs_ok L -> Forall (object_ok L) objs -> N.of_nat (length (flat_map (metadata L) objs)) < 2 ^ 64 ->
  Permutation objs' objs -> handle_all L objs' nm_init = Ok (fs, m) -> Permutation oc (map CFeature fs) -> exists names dict, load_osm L objs oc names dict.
Proof.
  intros HL HO HMl HP EA HC.
  assert (HO' : Forall (object_ok L) objs') by (apply Forall_forall; intros i Hi; apply (proj1 (Forall_forall _ _) HO); now apply (Permutation_in _ HP)).
  assert (HM' : length (flat_map (metadata L) objs') = length (flat_map (metadata L) objs)) by (apply Permutation_length, Permutation_flat_map, HP).
  destruct (handle_all_spec L (ok_msort _ HL) objs' nm_init fs m HO' EA) as (ks & K1 & K2 & K3 & K4 & K5).
  destruct (layer_names_spec _ _ _ K3) as (ns & buf & N1 & _).
  { apply Forall_forall. intros l Hl. apply in_map_iff in Hl as ([[i l'] mn] & <- & Hk). cbn [fst snd]. apply K1 in Hk as [Hi Hk]. pose proof (proj1 (Forall_forall _ _) HO' _ Hi) as HOi.
    destruct i as [[o g] cs]. now apply HOi in Hk. }
  assert (HR : smb_run (l_msort L) ([] ++ flat_map f_meta fs) (Smb ([] ++ flat_map f_meta fs) [] [])) by (eapply run_step; [apply run_init | apply step_update]).
  cbn [app] in HR.
  destruct (store_load_spec _ _ _ (ok_msort _ HL) (ok_dsort _ HL) (ok_take _ HL) _ _ HR) as (dict & d & D1 & _); [lia| |reflexivity|].
  { apply Forall_forall. intros x Hx. apply in_flat_map in Hx as (f & Hf & Hx). destruct (Forall2_in_r _ _ _ _ K4 Hf) as (k & Hk & (ms & Ef & Hms)). rewrite Ef in Hx. cbn [f_meta] in Hx.
    destruct k as [[i l] mn]. apply K1 in Hk as [Hi Hk]. pose proof (proj1 (Forall_forall _ _) HO' _ Hi) as HOi. cbn [fst snd] in *. apply (in_meta_of L i) in Hx; [|assumption].
    destruct i as [[o g] cs]. apply HOi in Hk as (_ & _ & _ & HMt & _). now apply (proj1 (Forall_forall _ _) HMt _ Hx). }
  exists buf, dict, objs', fs, m, (flat_map f_meta fs), (Smb (flat_map f_meta fs) [] []). split; [assumption|]. split; [exact EA|]. split; [assumption|]. split; [exact HR|]. split; [reflexivity|]. split; [reflexivity|]. split; assumption.
Qed.

(** what is stored *)
Lemma failed_state L tasks j done st : libs_ok L -> job_ok L j -> failed_load L tasks j done st ->
  exists D ks fs names d sea rows, content L (Job (j_polys j) done) (has_any_task tasks [lit "coastlines"]) true D ks fs names d sea /\
    meta_says (st_meta st) [coastline] [] sea false /\ binv L true [] D fs (st_features st) (pf_open (st_pack st)) rows /\ whole_db D fs (st_features st).
Proof.
  intros HL (HJ1 & HJ2 & HJ3) (cc & m & objs & fs0 & nm & oc & n & s & rest & Hf & Hco & HP & Hob & HA & Hoc & HR & HD & HF & HC & HS & -> & Hsz).
  assert (HO : Forall (object_ok L) done) by (apply Forall_forall; intros i Hi; apply (proj1 (Forall_forall _ _) HJ1); apply (Permutation_in _ HP); apply in_or_app; now left).
  assert (HJ' : job_ok L (Job (j_polys j) done)).
  { split; [assumption|]. cbn [j_objs]. pose proof (Permutation_length HP) as E1. pose proof (Permutation_length (Permutation_flat_map (metadata L) HP)) as E2. rewrite flat_map_app, !app_length in E2. rewrite app_length in E1. split; lia. }
  destruct (osm_finish L done objs fs0 nm oc HL HO (proj2 (proj2 HJ')) Hob HA Hoc) as (ns & dict & HLo).
  set (b := Session (meta_put (meta_put m kLayerNames ns) kMetaCoding dict) (i_table s) [] (i_file s)).
  assert (HLP : load_phase L tasks (Job (j_polys j) done) (open_store empty_store) b).
  { exists cc, m, oc, (meta_put (meta_put m kLayerNames ns) kMetaCoding dict), n, s. cbn [j_polys j_objs open_store ss_meta ss_features ss_tiles ss_file]. split; [exact Hco|]. rewrite Hf. split; [eauto|]. repeat (split; [assumption|]). reflexivity. }
  destruct (loaded_sinv L tasks _ b HL HJ' HLP) as [HSI _]. rewrite Hf in HSI. apply reopen_step in HSI; [|exact Hsz].
  destruct HSI as (D & ks & fs & names & d & sea & v & rows & C1 & C2 & C3 & C4 & C5 & _). cbn [open_store close_session ss_meta ss_features ss_file ss_tiles st_meta st_features st_pack st_tiles b] in *.
  exists D, ks, fs, names, d, sea, rows. split; [assumption|]. split; [|split; [|auto]].
  - assert (Hm : meta_get m kLayerNames = None /\ meta_get m kMetaCoding = None /\ meta_get m kMaxPrepared = None).
    { destruct (has_any_task tasks [lit "coastlines"]); [destruct Hco as (e & _ & ->) | destruct Hco as [_ ->]]; repeat split; reflexivity. }
    destruct Hm as (M1 & M2 & M3). constructor; rewrite ?M1, ?M2, ?M3; try reflexivity. destruct (m_sea _ _ _ _ _ C2) as (v' & V1 & V2). exists v'. split; [|assumption].
    rewrite !(meta_get_put_other _ kMetaCoding), !(meta_get_put_other _ kLayerNames) in V1 by (apply key_neq; reflexivity). exact V1.
  - destruct C4 as [B1 B2 B3 B4 B5 B6 B7]. constructor; assumption.
Qed.

Lemma failed_serve L tasks j done st t : libs_ok L -> job_ok L j -> failed_load L tasks j done st -> tz t <= 20 -> valid_tile t ->
  exists D ks fs names d sea rows x, content L (Job (j_polys j) done) (has_any_task tasks [lit "coastlines"]) true D ks fs names d sea /\
    view L [coastline] [] sea false t x /\ binv L true [] D fs (st_features st) (pf_open (st_pack st)) rows /\ whole_db D fs (st_features st) /\
    serve_tile L st t = get_tile (st_tiles st) (st_features st) (pf_open (st_pack st)) x t.
Proof.
  intros HL HJ H Hz Hv. destruct (failed_state L tasks j done st HL HJ H) as (D & ks & fs & names & d & sea & rows & HC & HM & HB & HW).
  destruct (m_sea _ _ _ _ _ HM) as (v & _ & Hsv). exists D, ks, fs, names, d, sea, rows, (server_ctx L v [coastline] [] false). split; [assumption|]. split; [|split; [assumption|split; [assumption|]]].
  - constructor; try reflexivity; [apply sea_of_tree; [exact (n_sea _ _ _ _ _ _ _ _ _ _ HC) | assumption]|]. intros [_ Hp]. cbn [server_ctx base_ctx x_max_prepared] in Hp. lia.
  - unfold serve_tile. rewrite (ctx_of L _ [coastline] [] sea false v HM Hsv). reflexivity.
Qed.

Lemma failed_load_fails : forall L tasks j done st, libs_ok L -> job_ok L j -> failed_load L tasks j done st ->
  forall t i layer mn, tz t <= 20 -> valid_tile t -> In i done -> imported L i layer mn -> layer <> coastline -> mn <= tz t -> meets (tz t) t (bounding_box (snd (fst i))) = true ->
  forall r, serve_tile L st t <> Ok r.
Proof.
  intros L tasks j done st HL HJ H t i layer mn Hz Hv Hi Him Hly Hmn HM r.
  destruct (failed_serve L tasks j done st t HL HJ H Hz Hv) as (D & ks & fs & names & d & sea & rows & x & HC & HV & HB & HW & ->).
  pose proof (n_objs _ _ _ _ _ _ _ _ _ _ HC) as Hks. cbn beta iota in Hks. assert (Hkk : In (i, layer, mn) ks) by (apply Hks; auto).
  destruct (Forall2_in_l _ _ _ _ (pairs L _ _ true D ks fs names d sea HC) Hkk) as (f & Hf & (ms & Ef & Hms) & Hn). cbn [fst snd] in *.
  assert (Egm : f_geom f = snd (fst i)) by (rewrite Ef; reflexivity). assert (Emn : f_minz f = mn) by (rewrite Ef; reflexivity). assert (Emx : f_maxz f = 21) by (rewrite Ef; reflexivity).
  pose proof (proj1 (Forall_forall _ _) (n_usable _ _ _ _ _ _ _ _ _ _ HC) _ Hf) as HU. cbn beta in HU. rewrite Egm in HU.
  destruct (index_of t (bounding_box (snd (fst i))) Hz Hv (usable_world L _ HU) HM) as (ix & Ix & Rx & Mx). assert (HK : cont D fs ix f) by (right; split; [assumption|]; now rewrite Egm).
  apply (nameless_get true (dict_encode (coder_make (l_psort L) [])) (l_mk L) (l_qsort L) x t (st_tiles st) (st_features st) (pf_open (st_pack st)) rows sea f); try assumption.
  - apply (ok_qsort _ HL).
  - rewrite (v_dec _ _ _ _ _ _ _ HV). apply coder_good; [assumption | reflexivity].
  - rewrite (v_rd _ _ _ _ _ _ _ HV). now apply (ok_mask _ HL).
  - rewrite (v_cut _ _ _ _ _ _ _ HV). apply (ok_cut _ HL).
  - apply (v_sea _ _ _ _ _ _ _ HV).
  - rewrite (v_dec _ _ _ _ _ _ _ HV), (v_rd _ _ _ _ _ _ _ HV). apply (b_db _ _ _ _ _ _ _ _ HB).
  - apply (v_not _ _ _ _ _ _ _ HV).
  - eapply near_all; eauto.
  - split; [|split].
    + unfold in_zoom_range. rewrite Emn, Emx. lia.
    + rewrite Egm. now apply meets_touches.
    + unfold simplified. rewrite Egm. intros E. destruct HU as [HU _]. rewrite E in HU. destruct HU.
  - rewrite (v_names _ _ _ _ _ _ _ HV). cbn [length]. assert (f_layer f <> 0); [|lia]. intros E. rewrite E in Hn. pose proof (n_first _ _ _ _ _ _ _ _ _ _ HC) as H0. change (N.to_nat 0) with O in Hn. congruence.
Qed.

(** elsewhere nothing fails *)
Lemma bare_total L sea t x tiles F pf rows : libs_ok L -> tz t <= 20 -> valid_tile t -> view L [coastline] [] sea false t x ->
  database_ok true (dict_encode (coder_make (l_psort L) [])) (dict_decode []) (l_mk L) (l_rd L) (l_qsort L) pf F rows ->
  Forall (fun f => f_layer f = 0 /\ meta_ok f /\ joinable (f_geom f) /\ has_area L (f_geom f)) (near_features rows t) -> exists r, get_tile tiles F pf x t = Ok r.
Proof.
  intros HL Hz Hv HV HD HF.
  apply (get_total true (dict_encode (coder_make (l_psort L) [])) (l_mk L) (l_qsort L) x t tiles F pf rows sea); try assumption.
  - apply (ok_qsort _ HL).
  - unfold renderer_ok. rewrite (v_dec _ _ _ _ _ _ _ HV), (v_rd _ _ _ _ _ _ _ HV), (v_cut _ _ _ _ _ _ _ HV), (v_aggregate _ _ _ _ _ _ _ HV). split; [apply coder_good; [assumption | reflexivity]|].
    split; [apply (ok_mask _ HL); assumption|]. split; [apply (ok_cut _ HL)|]. split; [apply (ok_cut_areas _ HL)|]. split; [apply (ok_aggregate _ HL) | apply (ok_joins _ HL)].
  - apply (v_sea _ _ _ _ _ _ _ HV).
  - apply (v_not _ _ _ _ _ _ _ HV).
  - rewrite (v_names _ _ _ _ _ _ _ HV). discriminate.
  - rewrite (v_names _ _ _ _ _ _ _ HV), (v_rd _ _ _ _ _ _ _ HV). eapply Forall_impl; [|exact HF]. cbv beta. intros f (H1 & H2 & H3 & HA). rewrite H1. split; [reflexivity|]. split; [assumption|]. split; [exact (HA true (tz t) Hz) | intros _; exact H3].
  - intros b. rewrite (v_deflate _ _ _ _ _ _ _ HV). apply (ok_deflate _ HL).
Qed.
(** features without an object of another layer around *)
Lemma bare_features L j co D ks fs names d sea T pf rows t : content L j co true D ks fs names d sea -> shown_db L true [] D fs T pf rows ->
  (forall e i layer mn, index_tile 10 e -> related e t -> In i (j_objs j) -> imported L i layer mn -> layer <> coastline -> meets 10 e (bounding_box (snd (fst i))) = false) ->
  Forall (fun f => f_layer f = 0 /\ meta_ok f /\ joinable (f_geom f) /\ has_area L (f_geom f)) (near_features rows t).
Proof.
  intros HC HD Hno. apply Forall_forall. intros f Hf.
  destruct (h_near _ _ _ _ _ _ _ _ HD t f Hf) as (e & He & Hrel & Hc).
  assert (Hf' : In f (map snd D ++ fs)) by (destruct Hc as [Hc|[Hc _]]; apply in_or_app; [left; apply in_map_iff; exists (e, f); auto | now right]).
  destruct (proj1 (Forall_forall _ _) (n_meta _ _ _ _ _ _ _ _ _ _ HC) _ Hf') as (H1 & H2 & H3 & HA).
  split; [|auto]. destruct Hc as [Hc|[Hc Hm]].
  - destruct (proj1 (Forall_forall _ _) (n_D _ _ _ _ _ _ _ _ _ _ HC) _ Hc) as (_ & _ & HS). cbn [fst snd] in HS. destruct HS as (_ & E & _). exact E.
  - destruct (Forall2_in_r _ _ _ _ (pairs L _ _ true D ks fs names d sea HC) Hc) as ([[i layer] mn] & Hk & (ms & Ef & Hms) & Hn). cbn [fst snd] in *.
    pose proof (n_objs _ _ _ _ _ _ _ _ _ _ HC) as Hks. cbn beta iota in Hks. apply Hks in Hk as [Hi Him].
    destruct (list_eq_dec N.eq_dec layer coastline) as [El|El].
    * assert (N.to_nat (f_layer f) = 0%nat); [|lia]. pose proof (n_names _ _ _ _ _ _ _ _ _ _ HC) as HN. rewrite El in Hn. pose proof (n_first _ _ _ _ _ _ _ _ _ _ HC) as H0.
      apply (proj1 (NoDup_nth_error names) HN); [apply nth_error_Some; congruence | congruence].
    * specialize (Hno e i layer mn He Hrel Hi Him El). rewrite Ef in Hm. cbn [f_geom] in Hm. rewrite Hm in Hno. discriminate Hno.
Qed.
Lemma failed_load_total : forall L tasks j done st, libs_ok L -> job_ok L j -> failed_load L tasks j done st ->
  forall t, tz t <= 20 -> valid_tile t ->
  (forall e i layer mn, index_tile 10 e -> related e t -> In i done -> imported L i layer mn -> layer <> coastline -> meets 10 e (bounding_box (snd (fst i))) = false) ->
  exists r, serve_tile L st t = Ok r.
Proof.
  intros L tasks j done st HL HJ H t Hz Hv Hno.
  destruct (failed_serve L tasks j done st t HL HJ H Hz Hv) as (D & ks & fs & names & d & sea & rows & x & HC & HV & HB & HW & ->).
  pose proof (binv_shown _ _ _ _ _ _ _ _ HB) as HD.
  apply (bare_total L sea t x (st_tiles st) (st_features st) (pf_open (st_pack st)) rows); try assumption; [apply (h_db _ _ _ _ _ _ _ _ HD)|].
  exact (bare_features L _ _ D ks fs names d sea _ _ rows t HC HD Hno).
Qed.

(** such runs exist *)
Lemma job_part L polys objs done rest : job_ok L (Job polys objs) -> Permutation (done ++ rest) objs -> job_ok L (Job polys done).
Proof.
  intros (H1 & H2 & H3) HP. cbn [j_objs] in *. pose proof (Permutation_length HP) as E1. pose proof (Permutation_length (Permutation_flat_map (metadata L) HP)) as E2. rewrite flat_map_app, !app_length in E2. rewrite app_length in E1.
  split; [|cbn [j_objs]; split; lia]. apply Forall_forall. intros i Hi. apply (proj1 (Forall_forall _ _) H1). apply (Permutation_in _ HP), in_or_app. left. exact Hi.
Qed.
Lemma failed_load_exists : forall L tasks polys objs done rest K B W, libs_ok L -> job_ok L (Job polys objs) -> has_any_task tasks [lit "features"] = true ->
  Permutation (done ++ rest) objs -> moderate L tasks (Job polys done) K B W -> exists st, failed_load L tasks (Job polys objs) done st.
Proof.
  intros L tasks polys objs done rest K B W HL HJ Hf HP HM. pose proof (job_part _ _ _ _ _ HJ HP) as HJ'.
  destruct (load_exists L tasks (Job polys done) K B W HL HJ' HM) as (b & Hb).
  destruct (load_facts L tasks (Job polys done) K B W HL HJ' HM b Hb) as (D & ks & fs & names & d & sea & rows & _ & _ & HB & _ & _ & _ & _ & _ & Hsz).
  destruct Hb as (cc & m1 & oc & m2 & n & s & Hco & HF & HR & HD & HNF & HC & HS & Eb). rewrite Hf in HF. destruct HF as (ns & dict & (objs' & fs0 & nm & seen & sb & Q1 & Q2 & Q3 & _) & _).
  exists (close_session (Session m1 (i_table s) [] (i_file s))). exists cc, m1, objs', fs0, nm, oc, n, s, rest.
  split; [exact Hf|]. split; [exact Hco|]. split; [exact HP|]. split; [exact Q1|]. split; [exact Q2|]. split; [exact Q3|]. split; [exact HR|]. split; [exact HD|]. split; [exact HNF|]. split; [exact HC|]. split; [exact HS|]. split; [reflexivity|].
  cbn [close_session st_pack ss_file]. assert (HI : pf_inv (i_file s)). { pose proof (b_inv _ _ _ _ _ _ _ _ HB) as H. rewrite Eb in H. exact H. } pose proof (close_le _ HI) as Q. rewrite Eb in Hsz. cbn [ss_file] in Hsz.
  destruct (mo_size _ _ _ _ _ _ HM) as (M1 & M2 & M3). assert (2 * K * (W * (B + 20)) <= 2 * (K + 1) * W * (B + 20)) by nia.
  set (a := blen (pf_close _)) in *. set (c := blen (pf_mem _)) in *. clearbody a c. change (2 ^ 64) with 18446744073709551616. change (2 ^ 30) with 1073741824 in *. lia.
Qed.
