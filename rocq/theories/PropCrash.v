(** C76, C77: imports that are stopped, by an exception or because the process is killed, after loading. *)
From Coq Require Import String Ascii.
From Coq Require Import List.
From Verif Require Import Base BaseProof ModelTile SpecTile ModelBqTree SpecBqTree ModelPacker SpecPacker ModelCodec ModelGeom SpecGeom ModelFeature SpecFeature ModelPackFile ModelTable ModelMvt SpecMvt ModelRender SpecRender ModelInserter SpecInserter
  ModelDict SpecDict ModelOsm SpecOsm ModelDrain ModelCoast SpecCoast ModelPrepare ModelRepack ModelServer ModelImport SpecImport SpecTileForm
  ProofImportServe ProofImportTop ProofImportShow ProofImportStats ProofImportFinish2 ProofTileForm ModelCrash SpecCrash ProofCrash ProofImportEx PropFinish.
Import ListNotations.
Open Scope N_scope.

(** C76: however runs are stopped after loading (while packing: between or within writes to the pack file, by an exception or a kill;
    while preparing tiles; in between), and continued or not: the server answers for every tile, without failing; *)
Theorem c76_total : forall L j co fe raw prep whole st, libs_ok L -> job_ok L j -> interrupted L j co fe raw prep whole st ->
  forall t, tz t <= 20 -> valid_tile t -> exists r, serve_tile L st t = Ok r.
Proof. intros L j co fe raw prep whole st HL HJ H. exact (shown_total L j co fe raw prep whole st HL (interrupted_sinv _ _ _ _ _ _ _ _ HL HJ H)). Qed.
Print Assumptions c76_total.

(** whatever it sends is well-formed (as in C75) *)
Theorem c76_tile_fine : forall L j co fe raw prep whole st, libs_ok L -> job_ok L j -> interrupted L j co fe raw prep whole st ->
  forall t z, tz t <= 20 -> valid_tile t -> serve_tile L st t = Ok (Some z) ->
  exists buf, buf <> [] /\ l_deflate L buf = Ok z /\ (blen buf < 2 ^ 29 -> exists vls, decode_tile buf = Some vls /\ tile_fine (tz t) vls /\
    ((fe = true -> Forall (says_bytes L) (j_objs j)) -> Forall (fun vl => NoDup (vl_values vl)) vls)).
Proof. intros L j co fe raw prep whole st HL HJ H. exact (served_fine L j co fe raw prep whole st HL (interrupted_sinv _ _ _ _ _ _ _ _ HL HJ H)). Qed.
Print Assumptions c76_tile_fine.

(** and shows nothing that was not loaded (as in C64); *)
Theorem c76_nothing_else : forall L j co fe raw prep whole st, libs_ok L -> job_ok L j -> interrupted L j co fe raw prep whole st ->
  exists s, (co = true -> coast_result L (j_polys j) s) /\
  forall t z, tz t <= 20 -> valid_tile t -> serve_tile L st t = Ok (Some z) ->
  exists buf, l_deflate L buf = Ok z /\ (blen buf < 2 ^ 29 -> exists vls, decode_tile buf = Some vls /\ forall vl v, In vl vls -> In v (vl_features vl) ->
    (co = true /\ vl_name vl = coastline /\ v_tags v = [] /\ vkind (v_geom v) = 3 /\ exists e, covers t e /\ covered (c_sea s) e /\ tile_to_key e 0 = Ok (v_id v)) \/
    (co = true /\ exists e f g', In (e, f) (c_inserted s) /\ related e t /\ touches (bounding_box (f_geom f)) (draw_area t) /\
       vl_name vl = coastline /\ tile_to_key e 0 = Ok (v_id v) /\ v_tags v = [] /\
       clip (l_cut L) (draw_area t) (outline L raw (tz t) (f_geom f)) = Ok g' /\ relative_geom (tile_corner t) (shift_geom (tz t) g') = Some (v_geom v)) \/
    (fe = true /\ exists o g cs mn, In (o, g, cs) (j_objs j) /\ imported L (o, g, cs) (vl_name vl) mn /\ mn <= tz t /\ touches (bounding_box g) (draw_area t) /\
       ((exists g', clip (l_cut L) (draw_area t) (outline L raw (tz t) g) = Ok g' /\ shows_object L t (o, g, cs) g' v) \/
        prep = true /\ tz t <= 10 /\ kind g = 2 /\ vkind (v_geom v) = 2 /\ v_id v = to_u64 (o_id o) /\ shows_tags L (o, g, cs) v))).
Proof. intros L j co fe raw prep whole st HL HJ H. exact (shown_only L j co fe raw prep whole st HL (interrupted_sinv _ _ _ _ _ _ _ _ HL HJ H)). Qed.
Print Assumptions c76_nothing_else.

(** (this covers runs that are not stopped) *)
Theorem c76_includes : forall L j co fe raw prep st, libs_ok L -> job_ok L j -> history L j co fe raw prep st -> interrupted L j co fe raw prep true st.
Proof. exact history_interrupted. Qed.
Print Assumptions c76_includes.

(** and the statistics can be computed. *)
Theorem c76_stats : forall L j co fe raw prep whole st, libs_ok L -> job_ok L j -> interrupted L j co fe raw prep whole st ->
  database_stats (open_store st) = Ok tt.
Proof. intros L j co fe raw prep whole st HL HJ H. exact (stats_ok L j co fe raw prep whole _ HL (interrupted_sinv _ _ _ _ _ _ _ _ HL HJ H)). Qed.
Print Assumptions c76_stats.

(** C77: what is lost.  Nothing, unless packing is stopped: every object is shown as in C62.  If packing is stopped, the tiles of zoom level 10 with an
    entry in the table of features have kept all their objects; *)
Theorem c77_object_shown : forall L j co raw prep whole st, libs_ok L -> job_ok L j -> interrupted L j co true raw prep whole st ->
  forall t o g cs layer mn g', tz t <= 20 -> valid_tile t ->
  In (o, g, cs) (j_objs j) -> imported L (o, g, cs) layer mn ->
  (layer = coastline -> kind g <> 3) ->
  (forall o' h cs' mn', In (o', h, cs') (j_objs j) -> imported L (o', h, cs') layer mn' -> to_u64 (o_id o') = to_u64 (o_id o) -> kind h = kind g -> (o', h, cs') = (o, g, cs)) ->
  mn <= tz t -> meets (tz t) t (bounding_box g) = true ->
  (whole = true \/ exists i, index_tile 10 i /\ related i t /\ meets 10 i (bounding_box g) = true /\ has_entry (st_features st) i) ->
  clip (l_cut L) (draw_area t) (outline L raw (tz t) g) = Ok g' -> shift_geom (tz t) g' <> GNull ->
  (prep = true -> tz t <= 10 -> kind g <> 2 /\ (layer <> coastline -> kind g = 3 -> (256 <= l_area L (shift_geom (tz t) g'))%Z)) ->
  answers_with L st t (fun vls => exists vl v, In vl vls /\ In v (vl_features vl) /\ vl_name vl = layer /\ shows_object L t (o, g, cs) g' v).
Proof. intros L j co raw prep whole st HL HJ H. exact (shown_object L j co raw prep whole st HL (interrupted_sinv _ _ _ _ _ _ _ _ HL HJ H)). Qed.
Print Assumptions c77_object_shown.

(** the sea is shown as in C63, with the same reserve for its pieces. *)
Theorem c77_sea_shown : forall L j fe raw prep whole st, libs_ok L -> job_ok L j -> interrupted L j true fe raw prep whole st ->
  exists s, coast_result L (j_polys j) s /\
  (forall t k, tz t <= 20 -> valid_tile t -> covered (c_sea s) t -> tile_to_key t 0 = Ok k ->
    answers_with L st t (fun vls => exists vl v, In vl vls /\ In v (vl_features vl) /\ vl_name vl = coastline /\ is_sea k (tz t) v)) /\
  (forall t e k g', tz t <= 20 -> valid_tile t -> ~ covered (c_sea s) t -> maximal (c_sea s) e -> covers t e -> tile_to_key e 0 = Ok k ->
    (prep = false \/ exists e' f', In (e', f') (c_inserted s) /\ related e' t /\ (whole = true \/ has_entry (st_features st) e')) ->
    clip (l_cut L) (draw_area t) (sea_square e) = Ok g' -> shift_geom (tz t) g' <> GNull ->
    answers_with L st t (fun vls => exists vl v, In vl vls /\ In v (vl_features vl) /\ vl_name vl = coastline /\
      v_id v = k /\ v_tags v = [] /\ relative_geom (tile_corner t) (shift_geom (tz t) g') = Some (v_geom v))) /\
  (forall t e f g', tz t <= 20 -> valid_tile t -> In (e, f) (c_inserted s) -> (whole = true \/ has_entry (st_features st) e) ->
    (fe = true -> forall o g cs mn, In (o, g, cs) (j_objs j) -> imported L (o, g, cs) coastline mn -> kind g <> 3) ->
    related e t -> touches (bounding_box (f_geom f)) (tile_area t) ->
    clip (l_cut L) (draw_area t) (outline L raw (tz t) (f_geom f)) = Ok g' -> shift_geom (tz t) g' <> GNull ->
    answers_with L st t (fun vls => exists vl v, In vl vls /\ In v (vl_features vl) /\ vl_name vl = coastline /\
      tile_to_key e 0 = Ok (v_id v) /\ v_tags v = [] /\ relative_geom (tile_corner t) (shift_geom (tz t) g') = Some (v_geom v))).
Proof. intros L j fe raw prep whole st HL HJ H. exact (shown_sea L j fe raw prep whole st HL (interrupted_sinv _ _ _ _ _ _ _ _ HL HJ H)). Qed.
Print Assumptions c77_sea_shown.

(** That the end of the pack file is kept has to be assumed only if a run that writes packs is killed: a run that only prepares tiles may be killed at any time
    and changes neither the pack file nor the table of features. *)
Theorem c77_kill_preparing : forall L j co fe raw prep whole st tasks j' pk pr wh st', libs_ok L -> job_ok L j -> interrupted L j co fe raw prep whole st ->
  small_packs st -> blen (st_pack st) + 1 < 2 ^ 64 -> loads tasks = false -> has_any_task tasks [lit "pack"] = false ->
  stopped_run L tasks j' st true pk pr wh st' ->
  interrupted L j co fe raw (prep || pr) whole st' /\ st_pack st' = st_pack st /\ st_features st' = st_features st.
Proof. exact kill_preparing. Qed.
Print Assumptions c77_kill_preparing.

(** A run that prepares tiles or computes statistics can be completed afterwards, if an entry is left to prepare. *)
Theorem c77_completes_after : forall L tasks j j' co fe raw prep whole st, libs_ok L -> job_ok L j -> interrupted L j co fe raw prep whole st -> small_packs st ->
  loads tasks = false -> has_any_task tasks [lit "pack"] = false -> (has_any_task tasks [lit "tiles"] = true -> st_features st <> []) -> blen (st_pack st) + 2 < 2 ^ 64 ->
  exists st', import_run L tasks j' st st' /\ small_packs st'.
Proof. intros L tasks j j' co fe raw prep whole st HL HJ H. exact (later_sinv L tasks j j' co fe raw prep whole st HL HJ (interrupted_sinv _ _ _ _ _ _ _ _ HL HJ H)). Qed.
Print Assumptions c77_completes_after.

(** ** Concrete cases, with the job of C61 *)
Lemma history_small L j co fe raw prep st : history L j co fe raw prep st -> small_packs st.
Proof. intros H. destruct H; assumption. Qed.
(** an exception when preparing the first tile: no tile is prepared; *)
Example c76_ex_preparing : exists st, interrupted ex_libs c61_job true true false false true st /\ st_tiles st = [] /\ st_features st <> [] /\ small_packs st.
Proof.
  destruct (c61_ex_history empty_store) as (st' & (s1 & s2 & s3 & H1 & H2 & H3 & H4 & -> & H6) & HH).
  assert (HS : small_packs (close_session s3)) by (exact (history_small _ _ _ _ _ _ _ HH)).
  destruct (tiles_keep ex_libs s2 s3 H4) as [K1 K2]. destruct H4 as (p & x & s & T1 & T2 & T3 & T4 & T5).
  assert (Et : ss_tiles s2 = []).
  { change (pack_phase ex_libs s1 s2) in H3. destruct H3 as (d & ts & q & T & _ & _ & _ & _ & _ & _ & ->). destruct H1 as (cc & m1 & oc & m2 & n & i & _ & _ & _ & _ & _ & _ & _ & ->). reflexivity. }
  assert (HS2 : small_packs (Store (ss_meta s2) (ss_features s2) (ss_tiles s2) (pf_close (ss_file s2)))).
  { intros k v rs Hi. apply (HS k v rs). cbn [close_session st_features] in *. now rewrite K1. }
  exists (Store (ss_meta s2) (ss_features s2) (ss_tiles s2) (pf_close (ss_file s2))). split; [|split; [exact Et|split; [|exact HS2]]].
  - apply (i_stop ex_libs c61_job [lit "all"] empty_store _ false true false true eq_refl).
    + exact (sr_preparing ex_libs [lit "all"] c61_job empty_store false s1 s2 p x _ (pf_close (ss_file s2)) H1 H3 eq_refl T1 T2 (pr_init _ _ _ _) eq_refl).
    + split; [exact HS2|]. split; [|discriminate]. cbn [st_pack]. cbn [close_session st_pack] in H6. now rewrite K2 in H6.
  - cbn [st_features]. intros E. apply (proj1 (ProofPrepare.manager_fails (ss_features s2) 10)) in E. congruence.
Qed.
(** the road is on its tile all the same, and preparing tiles can be done again *)
Example c77_ex_again : exists st st', interrupted ex_libs c61_job true true false false true st /\ st_tiles st = [] /\
  answers_with ex_libs st (Tile 2052 2052 12) (fun vls => exists vl v, In vl vls /\ In v (vl_features vl) /\ vl_name vl = lit "road" /\
    shows_object ex_libs (Tile 2052 2052 12) c61_road (snd (fst c61_road)) v) /\
  (blen (st_pack st) + 2 < 2 ^ 64 -> import_run ex_libs [lit "tiles"] (Job [] []) st st').
Proof.
  destruct c76_ex_preparing as (st & H1 & H2 & H3 & H4).
  assert (HA : answers_with ex_libs st (Tile 2052 2052 12) (fun vls => exists vl v, In vl vls /\ In v (vl_features vl) /\ vl_name vl = lit "road" /\
    shows_object ex_libs (Tile 2052 2052 12) c61_road (snd (fst c61_road)) v)).
  { apply (c77_object_shown ex_libs c61_job true false false true st ex_libs_ok c61_ex_job H1 (Tile 2052 2052 12) (fst (fst c61_road)) (snd (fst c61_road)) (snd c61_road) (lit "road") 6).
    - discriminate.
    - split; vm_compute; reflexivity.
    - left; reflexivity.
    - apply c61_road_ok.
    - discriminate.
    - intros o' h cs' mn' [Hi|[Hi|[Hi|[]]]] Him Eo Ek; [now symmetry | injection Hi as <- <- <-; discriminate Eo | injection Hi as <- <- <-; discriminate Eo].
    - discriminate.
    - vm_compute. reflexivity.
    - left; reflexivity.
    - vm_compute. reflexivity.
    - vm_compute. discriminate.
    - discriminate. }
  destruct (N.ltb_spec (blen (st_pack st) + 2) (2 ^ 64)) as [Hb|Hb].
  - destruct (c77_completes_after ex_libs [lit "tiles"] c61_job (Job [] []) _ _ _ _ _ st ex_libs_ok c61_ex_job H1 H4 eq_refl eq_refl (fun _ => H3) Hb) as (st' & R & _).
    exists st, st'. auto.
  - exists st, st. split; [assumption|]. split; [assumption|]. split; [assumption|]. intros Hb'. exfalso. clear -Hb Hb'. lia.
Qed.

(** the process is killed while packing defragments the pack file: nothing is left but the sea *)
Lemma passes_defrag qs rs ts pack limit batch pf tasks s : rp_reach qs rs ts pack limit batch pf tasks s ->
  ((exists n, r_pc s = RpFirst n) /\ r_out s = []) \/ r_pc s = RpThrown \/ exists s', rp_reach qs rs ts pack limit batch pf tasks s' /\ r_pc s' = RpDefrag /\ r_out s' = [].
Proof.
  induction 1 as [|s s' HR IH Hs]; [left; split; [exists 0|]; reflexivity|].
  destruct IH as [[[n En] Eo]|[Et|Hd]]; [| |right; right; exact Hd].
  - inversion Hs; subst; cbn [r_pc r_out] in *; try discriminate.
    + left. split; [eexists; reflexivity | assumption].
    + right; left; reflexivity.
    + right; right. eexists. split; [exact (rp_next _ _ _ _ _ _ _ _ _ _ HR Hs)|]. split; [reflexivity | assumption].
  - inversion Hs; subst; cbn [r_pc] in Et; discriminate.
Qed.
Example c77_ex_lost : exists st, interrupted ex_libs c61_job true true false false false st /\ st_features st = [] /\ st_pack st = [].
Proof.
  destruct (c61_ex_history empty_store) as (st' & (s1 & s2 & s3 & H1 & H2 & H3 & H4 & -> & H6) & HH).
  change (pack_phase ex_libs s1 s2) in H3. destruct H3 as (d & ts & q & T & P1 & P2 & P3 & P4 & _).
  destruct (passes_defrag _ _ _ _ _ _ _ _ _ P3) as [[[n En] _]|[Et|(q' & Q1 & Q2 & Q3)]]; [congruence | congruence|].
  exists (Store (ss_meta s1) [] (ss_tiles s1) []). split; [|split; reflexivity].
  apply (i_stop ex_libs c61_job [lit "all"] empty_store _ true true false false eq_refl).
  - apply (sr_packing ex_libs [lit "all"] c61_job empty_store true s1 d ts q' [] [] H1 eq_refl P1 P2 Q1); [rewrite Q3; intros u [] | rewrite Q3; reflexivity|].
    exact (mf_defrag _ _ _ true Q2).
  - split; [intros k v rs [] |]. split; [vm_compute; reflexivity|]. intros _ k v rs r [].
Qed.
