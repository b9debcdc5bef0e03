(** C80: imports that are killed while they load. *)
From Coq Require Import Permutation String Ascii.
From Coq Require Import List.
From Verif Require Import Base BaseProof ModelTile SpecTile ModelBqTree SpecBqTree ModelGeom SpecGeom ModelFeature ModelPackFile ModelTable ModelMvt SpecMvt ModelPacker SpecPacker ModelRender SpecRender ModelInserter SpecInserter ModelDict SpecDict ModelOsm SpecOsm
  ModelDrain ModelCoast SpecCoast ModelServer ModelImport SpecImport SpecFinish ModelCrash SpecCrash ProofCoastEx ProofCoastClip PropCoast ProofImportEx PropFinish PropImport ModelAbort PropAbort ProofKill.
Import ListNotations.
Open Scope N_scope.

(** If an import is killed while the coastlines are loaded, a server of the database answers for every tile, *)
Theorem c80_coast_total : forall L tasks j D st, libs_ok L -> job_ok L j -> killed_load L tasks j (LCoast D) st -> tail_kept st -> blen (st_pack st) + 1 < 2 ^ 64 ->
  forall t, tz t <= 20 -> valid_tile t -> exists r, serve_tile L st t = Ok r.
Proof. intros L tasks j D st HL HJ H HK Hm t Hz Hv. apply (killed_total L tasks j _ st HL HJ H HK Hm t Hz Hv). discriminate. Qed.
Print Assumptions c80_coast_total.

(** and shows only pieces of the sea that were handed to the inserter; *)
Theorem c80_coast_nothing_else : forall L tasks j D st, libs_ok L -> killed_load L tasks j (LCoast D) st -> tail_kept st -> blen (st_pack st) + 1 < 2 ^ 64 ->
  forall t z, tz t <= 20 -> valid_tile t -> serve_tile L st t = Ok (Some z) ->
  exists buf, l_deflate L buf = Ok z /\ (blen buf < 2 ^ 29 -> exists vls, decode_tile buf = Some vls /\ forall vl v, In vl vls -> In v (vl_features vl) ->
    exists e f g', In (e, f) D /\ related e t /\ touches (bounding_box (f_geom f)) (draw_area t) /\ vl_name vl = coastline /\ tile_to_key e 0 = Ok (v_id v) /\ v_tags v = [] /\
      clip (l_cut L) (draw_area t) (f_geom f) = Ok g' /\ relative_geom (tile_corner t) (shift_geom (tz t) g') = Some (v_geom v)).
Proof. exact killed_coast_only. Qed.
Print Assumptions c80_coast_nothing_else.

(** if it is killed while the OSM file is read: for every tile away from the objects handled so far (those of the layer of the sea aside; close to the
    others it fails as in C79); *)
Theorem c80_osm_elsewhere : forall L tasks j done st, libs_ok L -> job_ok L j -> killed_load L tasks j (LOsm done) st -> tail_kept st -> blen (st_pack st) + 1 < 2 ^ 64 ->
  forall t, tz t <= 20 -> valid_tile t ->
  (forall e i layer mn, index_tile 10 e -> related e t -> In i done -> imported L i layer mn -> layer <> coastline -> meets 10 e (bounding_box (snd (fst i))) = false) ->
  exists r, serve_tile L st t = Ok r.
Proof. intros L tasks j done st HL HJ H HK Hm t Hz Hv Hno. apply (killed_total L tasks j _ st HL HJ H HK Hm t Hz Hv). intros done' E. injection E as <-. exact Hno. Qed.
Print Assumptions c80_osm_elsewhere.

(** if it is killed later, while the last features are written: for every tile, *)
Theorem c80_end_total : forall L tasks j st, libs_ok L -> job_ok L j -> killed_load L tasks j LEnd st -> tail_kept st -> blen (st_pack st) + 1 < 2 ^ 64 ->
  forall t, tz t <= 20 -> valid_tile t -> exists r, serve_tile L st t = Ok r.
Proof. intros L tasks j st HL HJ H HK Hm t Hz Hv. apply (killed_total L tasks j _ st HL HJ H HK Hm t Hz Hv). discriminate. Qed.
Print Assumptions c80_end_total.

(** and shows nothing but the sea and objects of the file, with their layers, tags and shapes. *)
Theorem c80_end_nothing_else : forall L tasks j st, libs_ok L -> job_ok L j -> killed_load L tasks j LEnd st -> tail_kept st -> blen (st_pack st) + 1 < 2 ^ 64 ->
  let co := has_any_task tasks [lit "coastlines"] in
  exists s, (co = true -> coast_result L (j_polys j) s) /\
  forall t z, tz t <= 20 -> valid_tile t -> serve_tile L st t = Ok (Some z) ->
  exists buf, l_deflate L buf = Ok z /\ (blen buf < 2 ^ 29 -> exists vls, decode_tile buf = Some vls /\ forall vl v, In vl vls -> In v (vl_features vl) ->
    (co = true /\ vl_name vl = coastline /\ v_tags v = [] /\ vkind (v_geom v) = 3 /\ exists e, covers t e /\ covered (c_sea s) e /\ tile_to_key e 0 = Ok (v_id v)) \/
    (co = true /\ exists e f g', In (e, f) (c_inserted s) /\ related e t /\ touches (bounding_box (f_geom f)) (draw_area t) /\
       vl_name vl = coastline /\ tile_to_key e 0 = Ok (v_id v) /\ v_tags v = [] /\
       clip (l_cut L) (draw_area t) (f_geom f) = Ok g' /\ relative_geom (tile_corner t) (shift_geom (tz t) g') = Some (v_geom v)) \/
    (exists o g cs mn, In (o, g, cs) (j_objs j) /\ imported L (o, g, cs) (vl_name vl) mn /\ mn <= tz t /\ touches (bounding_box g) (draw_area t) /\
       exists g', clip (l_cut L) (draw_area t) g = Ok g' /\ shows_object L t (o, g, cs) g' v)).
Proof. exact killed_end_only. Qed.
Print Assumptions c80_end_nothing_else.

(** Another run that loads (of a moderate size) can be completed, and then the server answers for every tile. *)
Theorem c80_repaired : forall L tasks j g st tasks' j' K B W, libs_ok L -> killed_load L tasks j g st -> job_ok L j' -> loads tasks' = true -> moderate L tasks' j' K B W ->
  exists st', import_run L tasks' j' st st' /\ forall t, tz t <= 20 -> valid_tile t -> exists r, serve_tile L st' t = Ok r.
Proof.
  intros L tasks j g st tasks' j' K B W HL _ HJ Hl HM. destruct (c65_import_completes L tasks' j' K B W st HL HJ Hl HM) as (st' & H1 & H2).
  exists st'. split; [assumption|]. exact (c61_total L j' _ _ _ _ st' HL HJ (h_load L j' tasks' st st' Hl H1 H2)).
Qed.
Print Assumptions c80_repaired.

(** ** Kills like these happen, and may leave the end of the pack file intact *)
Theorem c80_happens_end : forall L tasks j K B W, libs_ok L -> job_ok L j -> moderate L tasks j K B W ->
  exists st, killed_load L tasks j LEnd st /\ tail_kept st /\ blen (st_pack st) + 1 < 2 ^ 64.
Proof. exact killed_end_exists. Qed.
Print Assumptions c80_happens_end.
Theorem c80_happens_osm : forall L tasks polys objs done rest K B W, libs_ok L -> job_ok L (Job polys objs) -> has_any_task tasks [lit "features"] = true ->
  Permutation (done ++ rest) objs -> moderate L tasks (Job polys done) K B W ->
  exists st, killed_load L tasks (Job polys objs) (LOsm done) st /\ tail_kept st /\ blen (st_pack st) + 1 < 2 ^ 64.
Proof. exact killed_osm_exists. Qed.
Print Assumptions c80_happens_osm.
Theorem c80_happens_coast : forall L tasks j K B W, libs_ok L -> job_ok L j -> has_any_task tasks [lit "coastlines"] = true -> has_any_task tasks [lit "features"] = false -> moderate L tasks j K B W ->
  exists s st, coast_result L (j_polys j) s /\ killed_load L tasks j (LCoast (c_inserted s)) st /\ tail_kept st /\ blen (st_pack st) + 1 < 2 ^ 64.
Proof. exact killed_coast_exists. Qed.
Print Assumptions c80_happens_coast.

(** ** Concrete cases *)
Example c80_ex_end : exists st, killed_load ex_libs [lit "all"] c61_job LEnd st /\ forall t, tz t <= 20 -> valid_tile t -> exists r, serve_tile ex_libs st t = Ok r.
Proof.
  destruct (c80_happens_end ex_libs [lit "all"] c61_job 8 1000 4 ex_libs_ok c61_ex_job c65_ex_moderate) as (st & H & HK & Hm).
  exists st. split; [exact H|]. exact (c80_end_total ex_libs [lit "all"] c61_job st ex_libs_ok c61_ex_job H HK Hm).
Qed.
Example c80_ex_osm : exists st, killed_load ex_libs [lit "features"] c61_job (LOsm [c61_road]) st /\ exists r, serve_tile ex_libs st (Tile 100 200 14) = Ok r.
Proof.
  destruct (c80_happens_osm ex_libs [lit "features"] c57_isle [c61_road; c61_lake; c61_bench] [c61_road] [c61_lake; c61_bench] 8 1000 4 ex_libs_ok c61_ex_job eq_refl (Permutation_refl _) c79_ex_moderate) as (st & H & HK & Hm).
  exists st. split; [exact H|]. apply (c80_osm_elsewhere ex_libs [lit "features"] c61_job [c61_road] st ex_libs_ok c61_ex_job H HK Hm (Tile 100 200 14)).
  - discriminate.
  - split; vm_compute; reflexivity.
  - intros e i layer mn [He _] Hr [<-|[]] _ _. destruct e as [ex ey ez]. cbn [tz] in He. subst ez. unfold meets. cbn [tx ty].
    assert (E : ex = 6 /\ ey = 12). { unfold related, covers in Hr. cbn [tx ty tz] in Hr. destruct Hr as [(_ & A & B)|(A & _)]; [|lia]. revert A B. vm_compute (2 ^ (14 - 10)). intros A B. vm_compute in A, B. now subst. }
    destruct E as [-> ->]. vm_compute. reflexivity.
Qed.
