(** Whole imports: loading can be completed. *)
From Coq Require Import Permutation String Ascii Sorting.Sorted.
From Coq Require Import List.
From Verif Require Import Base BaseProof ModelTile SpecTile ProofTile ModelPackFile SpecPackFile ProofPackFile ModelTable ProofTable ModelCodec ModelGeom SpecGeom ModelFeature SpecFeature ProofFeature
  ModelPack ModelPacker SpecPacker ModelBqTree SpecBqTree ModelMvt SpecMvt ModelRender SpecRender ProofRender ModelInserter SpecInserter ProofInserter ProofInserterInv ProofInserterTop ProofInserterFinish
  ModelDict SpecDict ProofDict ModelOsm SpecOsm ProofOsm ModelDrain SpecDrain ProofDrain ProofDrainRun ModelCoast SpecCoast ProofCoast ProofCoastRun ProofCoastEx SpecLines SpecLayout ProofLayout
  ModelRepack SpecRepack ModelServer ModelImport SpecImport SpecFinish ProofImportObjects ProofImportLoad ProofImportRun.
Import ListNotations.
Open Scope N_scope.

(** ** Coastlines *)
Lemma proper_points ps : SpecGeom.proper (GPoly ps) -> box_points (GPoly ps) <> [].
Proof.
  cbn [SpecGeom.proper box_points]. intros [Hn HF]. destruct ps as [|[o hs] ps]; [congruence|]. inversion HF as [|? ? [Ho _] _]; subst. cbn [fst] in Ho. unfold poly_points. cbn [flat_map fst]. destruct o; [cbn in Ho; lia | discriminate].
Qed.
Lemma coast_exists L polys : libs_ok L -> no_exception (l_ccut L) (l_cdiff L) (l_fix_rings L) (coast_tasks polys) ->
  (forall s, coast_result L polys s -> Forall (fun e => coords_small (f_geom (snd e))) (c_inserted s)) ->
  exists cc e, load_coastlines L polys cc e.
Proof.
  intros HL NE HS. destruct (outcome_exists (l_ccut L) (l_cdiff L) (l_fix_rings L) polys) as (l & O0).
  destruct (coast_completes (coast_proc (l_ccut L) (l_cdiff L) (l_fix_rings L)) (coast_tasks polys) (l_threads L) l O0) as (s & R & E).
  { pose proof (ok_threads _ HL). lia. }
  destruct (coast_drained _ _ _ _ R E) as (_ & _ & _ & O). destruct (outcome_good _ _ _ _ _ NE O) as [_ H2].
  apply Forall_app in H2 as [H2 H3]. rewrite Forall_map in H2, H3.
  assert (F' : Forall (fun t => tz t <= 10 /\ valid_tile t) (c_sea s)). { eapply Forall_impl; [|exact H3]. intros t (V & Z). cbn [etile] in *. split; [lia | exact V]. }
  destruct (sea_entry _ F') as (bytes & v & S1 & _).
  assert (HR : coast_result L polys s) by (split; [exact R|split; [exact E | exact NE]]). specialize (HS s HR).
  assert (HV : forall d, In d (c_inserted s) -> exists c v, ser (snd d) = Ok v /\ c = CValue (fst d) v).
  { intros [t f] Hd. destruct (proj1 (Forall_forall _ _) H2 _ Hd) as (V & Z & SF & b & s' & ps & E1 & E2 & E3). cbn [etile snd fst] in *.
    destruct (ok_draw _ HL b s' ps E1 E2) as (D1 & D2 & _ & D3). rewrite <- E3 in D1, D2.
    destruct (serialize_feature_total (fun _ => None) (fun _ => []) true f (proj1 (Forall_forall _ _) HS _ Hd)) as (w & Ew).
    { destruct SF as (_ & _ & _ & _ & _ & qs & Eg). rewrite Eg in *. now apply proper_points. }
    exists (CValue t w), w. auto. }
  assert (HC : exists cc, Forall2 (fun d c => exists v, ser (snd d) = Ok v /\ c = CValue (fst d) v) (c_inserted s) cc).
  { clear -HV. induction (c_inserted s) as [|d l IH]; [exists []; constructor|]. destruct (HV d (or_introl eq_refl)) as (c & Hc). destruct IH as (cc & Hcc); [intros x Hx; apply HV; now right|]. exists (c :: cc). constructor; assumption. }
  destruct HC as (cc & HC). exists cc, bytes, s. split; [exact R|]. split; [exact E|]. split; [exact NE|]. split; [exact HC | exact S1].
Qed.

(** ** Objects *)
Lemma handle_exists L B W : sorts meta_ltb (l_msort L) -> forall objs names, Forall (object_ok L) objs -> Forall (object_moderate L B W) objs ->
  exists fs m, handle_all L objs names = Ok (fs, m).
Proof.
  intros Hs objs. induction objs as [|[[o g] cs] objs IH]; intros names HO HM; [exists [], names; reflexivity|].
  inversion HO as [|? ? HO1 HO2]; inversion HM as [|? ? HM1 HM2]; subst. cbn [handle_all]. destruct HM1 as [HM1 _].
  pose proof (handle_spec (l_msort L) (l_stod L) (l_dbl L) (l_oarea L) o g cs names Hs (proj1 HO1)) as HS.
  assert (exists f names1, handle_feature (l_msort L) (l_stod L) (l_dbl L) (l_oarea L) o g cs names = Ok (f, names1)) as (f & names1 & E).
  { destruct (last_some (approval (l_oarea L g)) cs) as [mn|]; [|eauto]. destruct (HM1 mn eq_refl) as (c & n & EL). rewrite EL in HS. destruct HS as [H1 H2].
    assert (g = GNull \/ g <> GNull) as [Hg|Hg] by (destruct g; [now left | right; discriminate ..]); [rewrite (H1 Hg); eauto|]. destruct (H2 Hg) as (ms & -> & _). eauto. }
  rewrite E. cbn [bind]. destruct (IH names1 HO2 HM2) as (fs & m & ->). cbn [bind]. eauto.
Qed.

Lemma osm_exists L B W objs : libs_ok L -> Forall (object_ok L) objs -> Forall (object_moderate L B W) objs ->
  N.of_nat (length (flat_map (metadata L) objs)) < 2 ^ 64 -> exists oc names dict, load_osm L objs oc names dict.
Proof.
  intros HL HO HM HMl. destruct (handle_exists L B W (ok_msort _ HL) objs nm_init HO HM) as (fs & m & EA).
  destruct (handle_all_spec L (ok_msort _ HL) objs nm_init fs m HO EA) as (ks & K1 & K2 & K3 & K4 & K5).
  destruct (layer_names_spec _ _ _ K3) as (ns & buf & N1 & _).
  { apply Forall_forall. intros l Hl. apply in_map_iff in Hl as ([[i l'] mn] & <- & Hk). cbn [fst snd]. apply K1 in Hk as [Hi Hk]. pose proof (proj1 (Forall_forall _ _) HO _ Hi) as HOi.
    destruct i as [[o g] cs]. now apply HOi in Hk. }
  assert (HR : smb_run (l_msort L) ([] ++ flat_map f_meta fs) (Smb ([] ++ flat_map f_meta fs) [] [])) by (eapply run_step; [apply run_init | apply step_update]).
  cbn [app] in HR.
  destruct (store_load_spec _ _ _ (ok_msort _ HL) (ok_dsort _ HL) (ok_take _ HL) _ _ HR) as (dict & d & D1 & _); [lia| |reflexivity|].
  { apply Forall_forall. intros x Hx. apply in_flat_map in Hx as (f & Hf & Hx). destruct (Forall2_in_r _ _ _ _ K4 Hf) as (k & Hk & (ms & Ef & Hms)). rewrite Ef in Hx. cbn [f_meta] in Hx.
    destruct k as [[i l] mn]. apply K1 in Hk as [Hi Hk]. pose proof (proj1 (Forall_forall _ _) HO _ Hi) as HOi. cbn [fst snd] in *. apply (in_meta_of L i) in Hx; [|assumption].
    destruct i as [[o g] cs]. apply HOi in Hk as (_ & _ & _ & HMt & _). now apply (proj1 (Forall_forall _ _) HMt _ Hx). }
  exists (map CFeature fs), buf, dict, objs, fs, m, (flat_map f_meta fs), (Smb (flat_map f_meta fs) [] []). split; [reflexivity|]. split; [exact EA|]. split; [reflexivity|]. split; [exact HR|]. split; [reflexivity|]. split; [reflexivity|]. split; assumption.
Qed.

(** ** Sizes *)
(** a feature of moderate size *)
Definition light (L : libs) (B W : N) (f : feature) : Prop := f_minz f <= 20 /\ stored_size L B f /\ meets_few W (bounding_box (f_geom f)).

Lemma same_but_refl f : same_but f f (f_geom f).
Proof. repeat split; reflexivity. Qed.
Lemma ser_any L d f : serialize_feature (dict_encode (coder_make (l_psort L) d)) (l_mk L) true f = ser f.
Proof. reflexivity. Qed.
Lemma ser_size L B f v : stored_size L B f -> ser f = Ok v -> 32 <= blen v <= B.
Proof. intros H E. apply (H [] true f v); [reflexivity | apply same_but_refl | rewrite ser_any; exact E]. Qed.

Lemma made_light L B W k f : object_moderate L B W (fst (fst k)) -> imported L (fst (fst k)) (snd (fst k)) (snd k) -> made L k f -> f_layer f < 2 ^ 64 -> light L B W f.
Proof.
  destruct k as [[[[o g] cs] layer] mn]. cbn [fst snd]. intros [_ HO] HI (ms & Ef & Hms) HL. cbn [fst snd] in *. destruct (HO _ _ HI) as (H1 & H2 & H3).
  rewrite Ef. split; [exact H1|]. split; [|exact H2]. apply H3; assumption.
Qed.

Lemma feature_call L B W f : in_world (bounding_box (f_geom f)) -> (exists v, ser f = Ok v) -> light L B W f -> insertable 10 (W * B) (CFeature f).
Proof.
  intros HW (v & E) (_ & HS & HF). split; [assumption|]. exists v. split; [assumption|]. destruct (ser_size _ _ _ _ HS E) as [H1 H2]. split; [assumption|].
  intros ts N1 N2. apply N.mul_le_mono; [now apply HF | assumption].
Qed.

(** bytes one call can add to the file *)
Lemma jcost_le M js : (forall j, In j js -> blen (snd j) <= M) -> jcost js <= N.of_nat (length js) * (M + 20).
Proof.
  induction js as [|j js IH]; intros H; [cbn; lia|]. rewrite jcost_cons. assert (blen (snd j) <= M) by (apply H; now left). assert (jcost js <= N.of_nat (length js) * (M + 20)) by (apply IH; intros x Hx; apply H; now right).
  unfold cost. cbn [length]. lia.
Qed.
Lemma call_cost L B W c : 1 <= W ->
  match c with CFeature f => in_world (bounding_box (f_geom f)) /\ light L B W f | CValue t v => blen v <= B end ->
  match call_jobs 10 c with Ok js => jcost js | _ => 0 end <= W * (B + 20).
Proof.
  intros HW H. destruct c as [f|t v].
  - destruct H as [Hw (H1 & H2 & H3)]. cbn [call_jobs]. destruct (insert_jobs 10 f) as [js| | |] eqn:E; try lia. apply jobs_form in E as (v & Ev & -> & _).
    destruct (ser_size _ _ _ _ H2 Ev) as [_ Hb]. etransitivity; [apply (jcost_le B)|].
    + intros j Hj. apply in_map_iff in Hj as (t & <- & _). exact Hb.
    + rewrite map_length. apply N.mul_le_mono_r. apply H3; [apply range_NoDup|]. apply Forall_forall. intros t Ht. assert (It : index_tile 10 t) by (apply (range_world 10 f t); [discriminate | assumption ..]). split; [exact It|]. apply range_in; [discriminate | assumption ..].
  - cbn [call_jobs]. rewrite jcost_cons. change (jcost []) with 0. unfold cost. cbn [snd]. nia.
Qed.
Lemma calls_cost L B W cs : 1 <= W ->
  Forall (fun c => match c with CFeature f => in_world (bounding_box (f_geom f)) /\ light L B W f | CValue t v => blen v <= B end) cs ->
  jcost (all_jobs 10 cs) <= N.of_nat (length cs) * (W * (B + 20)).
Proof.
  intros HW. induction 1 as [|c cs H F IH]; [cbn; lia|]. change (c :: cs) with ([c] ++ cs). unfold all_jobs. rewrite flat_map_app, jcost_app. fold (all_jobs 10 cs). cbn [flat_map]. rewrite app_nil_r.
  pose proof (call_cost L B W c HW H) as Hc. cbn [app length]. destruct (call_jobs 10 c); cbn beta iota in *; change (jcost []) with 0; lia.
Qed.

Lemma insertable_costs M cs : Forall (insertable 10 M) cs -> jcost (all_jobs 10 cs) <= N.of_nat (length cs) * (2 * M).
Proof.
  induction 1 as [|c cs H F IH]; [cbn; lia|]. change (c :: cs) with ([c] ++ cs). unfold all_jobs. rewrite flat_map_app, jcost_app. fold (all_jobs 10 cs). cbn [flat_map]. rewrite app_nil_r.
  assert (Hc : jcost (match call_jobs 10 c with Ok js => js | _ => [] end) <= 2 * M); [|cbn [app length]; lia].
  destruct c as [f|t v].
  - cbn [call_jobs]. destruct H as (Hw & v & Ev & H1 & H2). destruct (insert_jobs 10 f) as [js| | |] eqn:E; try (change (jcost []) with 0; lia). apply jobs_form in E as (v' & Ev' & -> & _).
    rewrite Ev in Ev'. apply Ok_inj in Ev'. subst v'. etransitivity; [apply (jcost_le (blen v))|].
    + intros j Hj. apply in_map_iff in Hj as (t & <- & _). cbn [snd]. lia.
    + rewrite map_length. assert (N.of_nat (length (job_range 10 f)) * blen v <= M); [|nia]. apply H2; [apply range_NoDup|]. apply Forall_forall. intros t Ht.
      assert (It : index_tile 10 t) by (apply (range_world 10 f t); [discriminate | assumption ..]). split; [exact It|]. apply range_in; [discriminate | assumption ..].
  - cbn [call_jobs]. rewrite jcost_cons. change (jcost []) with 0. unfold cost. cbn [snd]. destruct H as (_ & H1 & H2). lia.
Qed.

(** ** Loading *)
Section Load.
Context (L : libs) (tasks : list bytes) (j : job) (K B W : N).
Hypothesis HL : libs_ok L.
Hypothesis HJ : job_ok L j.
Hypothesis HM : moderate L tasks j K B W.

Lemma coast_bounds cc e : has_any_task tasks [lit "coastlines"] = true -> load_coastlines L (j_polys j) cc e ->
  N.of_nat (length cc) <= K /\ Forall (insertable 10 (W * B)) cc.
Proof.
  intros Hc He. destruct (mo_coast _ _ _ _ _ _ HM Hc) as [_ HB]. destruct (coast_part L _ _ _ HL He) as (s & v & C1 & C2 & C3 & C4 & C5 & C6 & C7).
  destruct (HB s C1) as [B1 B2]. split; [rewrite <- (Forall2_len _ _ _ C2); assumption|]. apply Forall_forall. intros c Hcc. destruct (Forall2_in_r _ _ _ _ C2 Hcc) as ([t f] & Hd & w & Ew & ->). cbn [fst snd] in *.
  destruct (proj1 (Forall_forall _ _) B2 _ Hd) as (_ & _ & HS). destruct (proj1 (Forall_forall _ _) C6 _ Hd) as (Z & V & _). cbn [fst snd] in *. destruct (ser_size _ _ _ _ HS Ew) as [S1 S2].
  destruct (mo_size _ _ _ _ _ _ HM) as (M1 & _). split; [|split; [assumption | nia]]. split; [assumption|]. unfold valid_tile in V. now rewrite Z in V.
Qed.

Lemma objects_bounds oc names dict : has_any_task tasks [lit "features"] = true -> load_osm L (j_objs j) oc names dict ->
  N.of_nat (length oc) <= K /\ Forall (insertable 10 (W * B)) oc.
Proof.
  intros Hf Ho. destruct (mo_objs _ _ _ _ _ _ HM Hf) as [HK HO]. destruct HJ as (J1 & J2 & J3). destruct (objects_part L _ _ _ _ HL J1 J2 J3 Ho) as (ks & fs & fs' & ns & d & F1 & F2 & F3 & F4 & F5 & F6 & F7 & F8 & F9 & F10 & F11 & F12).
  split.
  - rewrite F2, map_length, (Permutation_length F3), <- (Forall2_len _ _ _ F4). lia.
  - rewrite F2. apply Forall_map, Forall_forall. intros f Hin. apply (Permutation_in _ F3) in Hin. destruct (proj1 (Forall_forall _ _) F8 _ Hin) as ((P & v & Ev & _) & U & _).
    destruct (Forall2_in_r _ _ _ _ F4 Hin) as (k & Hk & Hm). apply feature_call with (L := L); [now apply (usable_world L) | eauto|].
    apply (made_light L B W k f); [| |assumption|].
    + destruct k as [[i l] mn]. apply F1 in Hk as [Hi _]. exact (proj1 (Forall_forall _ _) HO _ Hi).
    + destruct k as [[i l] mn]. now apply F1 in Hk as [_ Hi].
    + destruct P as [(_ & P & _) _]. unfold kInvalidLayer in P. lia.
Qed.

Lemma load_exists : exists b, load_phase L tasks j (open_store empty_store) b.
Proof.
  assert (Hco : exists cc m1, N.of_nat (length cc) <= K /\ Forall (insertable 10 (W * B)) cc /\ if has_any_task tasks [lit "coastlines"]
     then exists e, load_coastlines L (j_polys j) cc e /\ m1 = meta_put [] kSeasideTree e else cc = [] /\ m1 = []).
  { destruct (has_any_task tasks [lit "coastlines"]) eqn:Ec; [|exists [], []; split; [cbn; lia | split; [constructor | auto]]]. destruct (mo_coast _ _ _ _ _ _ HM Ec) as [NE HB].
    destruct (coast_exists L (j_polys j) HL NE) as (cc & e & He). { intros s Hs. destruct (HB s Hs) as [_ H]. eapply Forall_impl; [|exact H]. intros x Hx. apply Hx. }
    destruct (coast_bounds cc e Ec He) as [H1 H2]. exists cc, (meta_put [] kSeasideTree e). split; [assumption|]. split; [assumption|]. eauto. }
  destruct Hco as (cc & m1 & C1 & C2 & C3).
  assert (Hfe : exists oc m2, N.of_nat (length oc) <= K /\ Forall (insertable 10 (W * B)) oc /\ if has_any_task tasks [lit "features"]
     then exists names dict, load_osm L (j_objs j) oc names dict /\ m2 = meta_put (meta_put m1 kLayerNames names) kMetaCoding dict else oc = [] /\ m2 = m1).
  { destruct (has_any_task tasks [lit "features"]) eqn:Ef; [|exists [], m1; split; [cbn; lia | split; [constructor | auto]]]. destruct (mo_objs _ _ _ _ _ _ HM Ef) as [HK HO]. destruct HJ as (J1 & J2 & J3).
    destruct (osm_exists L B W (j_objs j) HL J1 HO J3) as (oc & names & dict & Ho). destruct (objects_bounds oc names dict Ef Ho) as [H1 H2]. exists oc, (meta_put (meta_put m1 kLayerNames names) kMetaCoding dict). split; [assumption|]. split; [assumption|]. eauto. }
  destruct Hfe as (oc & m2 & F1 & F2 & F3). destruct (mo_size _ _ _ _ _ _ HM) as (M1 & M2 & M3).
  assert (HWB : W * B < 2 ^ 30) by nia.
  destruct (finish 10 (2 ^ 30) (2 ^ 30 / 4 * 3) (l_isort L) (ok_isort _ HL) [] (pf_open []) 1) with (old := fun _ : tile => @nil bytes) (M := W * B) (cs := cc ++ oc) as (s & R1 & R2 & R3 & R4).
  { constructor. } { unfold pf_inv. vm_compute. discriminate. } { vm_compute. discriminate. } { discriminate. }
  { intros t Ht. destruct (index_key 10 t ltac:(discriminate) Ht) as (k & Hk). exists k. split; [exact Hk | reflexivity]. }
  { change (N.of_nat 1) with 1. rewrite N.mul_1_l. change (2 ^ 37) with 137438953472. change (2 ^ 30) with 1073741824 in *. lia. }
  { lia. }
  { apply Forall_app. split; assumption. }
  exists (Session m2 (i_table s) [] (i_file s)). exists cc, m1, oc, m2, 1%nat, s. cbn [open_store empty_store ss_meta ss_features ss_tiles ss_file st_meta st_features st_tiles st_pack].
  split; [exact C3|]. split; [exact F3|]. split; [exact R1|]. split; [exact R3|]. split; [exact R4|]. split; [exact R2|]. split; [|reflexivity].
  eapply N.le_lt_trans; [apply (file_bound 10 (2 ^ 30) (2 ^ 30 / 4 * 3) (l_isort L) (ok_isort _ HL) [] (pf_open []) 1); try eassumption|].
  { constructor. } { unfold pf_inv. vm_compute. discriminate. } { vm_compute. discriminate. } { discriminate. }
  replace (blen (pf_mem (pf_open []))) with 0 by reflexivity. rewrite R2.
  assert (HX : jcost (all_jobs 10 (cc ++ oc)) <= N.of_nat (length (cc ++ oc)) * (2 * (W * B))) by (apply insertable_costs, Forall_app; split; assumption).
  rewrite app_length in HX.
  assert (N.of_nat (length cc + length oc) * (2 * (W * B)) <= 2 * K * (2 * (W * B))) by (apply N.mul_le_mono_r; lia). change (2 ^ 64) with 18446744073709551616. change (2 ^ 30) with 1073741824 in *. nia.
Qed.

(** what every way to load results in *)
Lemma load_facts b : load_phase L tasks j (open_store empty_store) b ->
  exists D ks fs names d sea rows, content L j (has_any_task tasks [lit "coastlines"]) (has_any_task tasks [lit "features"]) D ks fs names d sea /\
    meta_says (ss_meta b) names d sea false /\ binv L true d D fs (ss_features b) (ss_file b) rows /\ whole_db D fs (ss_features b) /\ ss_tiles b = [] /\
    (forall i, index_tile 10 i -> N.of_nat (length (tile_features rows i)) <= 2 * K) /\
    Forall (fun e => touches (bounding_box (f_geom (snd e))) (tile_area (fst e)) /\ stored_size L B (snd e)) D /\ Forall (light L B W) fs /\
    blen (pf_mem (ss_file b)) <= 2 * K * (W * (B + 20)).
Proof.
  intros HP. destruct (load_full L tasks j b HL HJ HP) as (D & ks & fs & names & d & sea & rows & C1 & C2 & C3 & C3' & C4 & C5 & cc & fs' & n & s & C6 & C7 & C8 & C9 & C10 & C11).
  exists D, ks, fs, names, d, sea, rows. split; [assumption|]. split; [assumption|]. split; [assumption|]. split; [assumption|]. split; [assumption|].
  assert (HD : N.of_nat (length D) <= K /\ Forall (fun e => touches (bounding_box (f_geom (snd e))) (tile_area (fst e)) /\ stored_size L B (snd e)) D).
  { pose proof (n_coast _ _ _ _ _ _ _ _ _ _ C1) as H. destruct (has_any_task tasks [lit "coastlines"]) eqn:Ec; [|destruct H as [-> _]; split; [cbn; lia | constructor]].
    destruct H as (s' & H1 & -> & _). destruct (mo_coast _ _ _ _ _ _ HM Ec) as [_ HB]. destruct (HB s' H1) as [B1 B2]. split; [assumption|]. eapply Forall_impl; [|exact B2]. intros e (_ & H). exact H. }
  assert (HF : N.of_nat (length fs) <= K /\ Forall (light L B W) fs).
  { pose proof (n_objs _ _ _ _ _ _ _ _ _ _ C1) as H. pose proof (n_made _ _ _ _ _ _ _ _ _ _ C1) as Hm. destruct (has_any_task tasks [lit "features"]) eqn:Ef; [|subst ks; inversion Hm; split; [cbn; lia | constructor]].
    destruct (mo_objs _ _ _ _ _ _ HM Ef) as [HK HO]. split; [rewrite <- (Forall2_len _ _ _ Hm); lia|]. apply Forall_forall. intros f Hf. destruct (Forall2_in_r _ _ _ _ Hm Hf) as (k & Hk & Mk).
    apply (made_light L B W k f); [| |assumption|].
    - destruct k as [[i l] mn]. apply H in Hk as [Hi _]. exact (proj1 (Forall_forall _ _) HO _ Hi).
    - destruct k as [[i l] mn]. now apply H in Hk as [_ Hi].
    - assert (Hfi : In f (map snd D ++ fs)) by (apply in_or_app; now right). destruct (proj1 (Forall_forall _ _) (n_fine _ _ _ _ _ _ _ _ _ _ C1) _ Hfi) as [[(_ & P & _) _] _]. unfold kInvalidLayer in P. lia. }
  destruct HD as [D1 D2]. destruct HF as [F1 F2]. split; [intros i Hi; specialize (C5 i Hi); lia|]. split; [assumption|]. split; [assumption|].
  rewrite C10. etransitivity; [apply (file_bound 10 (2 ^ 30) (2 ^ 30 / 4 * 3) (l_isort L) (ok_isort _ HL) [] (pf_open []) n); try eassumption|].
  { constructor. } { unfold pf_inv. vm_compute. discriminate. } { vm_compute. discriminate. } { discriminate. }
  replace (blen (pf_mem (pf_open []))) with 0 by reflexivity.
  assert (HX : jcost (all_jobs 10 (i_calls s)) <= N.of_nat (length (i_calls s)) * (W * (B + 20))).
  { apply (calls_cost L); [apply (mo_size _ _ _ _ _ _ HM)|]. rewrite C9. apply Forall_app. split.
    - apply Forall_forall. intros c Hc. destruct (Forall2_in_r _ _ _ _ C7 Hc) as (e & He & v & Ev & ->). destruct (proj1 (Forall_forall _ _) D2 _ He) as [_ HS]. now apply (ser_size _ _ _ _ HS Ev).
    - apply Forall_map, Forall_forall. intros f Hf. apply (Permutation_in _ C6) in Hf. split; [|exact (proj1 (Forall_forall _ _) F2 _ Hf)]. apply (usable_world L). exact (proj1 (Forall_forall _ _) (n_usable _ _ _ _ _ _ _ _ _ _ C1) _ Hf). }
  revert HX. generalize (jcost (all_jobs 10 (i_calls s))). intros J HX. rewrite C9, app_length, map_length, <- (Forall2_len _ _ _ C7), (Permutation_length C6) in HX.
  assert (N.of_nat (length D + length fs) * (W * (B + 20)) <= 2 * K * (W * (B + 20))) by (apply N.mul_le_mono_r; lia). lia.
Qed.
End Load.
