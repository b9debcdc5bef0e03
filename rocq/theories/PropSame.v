(** C89: the map does not depend on how it was imported. *)
From Coq Require Import String Ascii.
From Coq Require Import Permutation.
From Coq Require Import List.
From Verif Require Import Base ModelTile SpecTile ModelCodec ModelGeom SpecGeom ModelFeature ModelMvt SpecMvt ModelRender SpecRender ModelClip SpecClip SpecCoast ModelOsm SpecOsm SpecInserter SpecPacker SpecBqTree ModelBqTree ModelDrain ModelCoast ModelDict
  ModelServer ModelImport SpecImport SpecSeam SpecSame ProofSame ProofSameCoast ProofCoastEx ProofCoastClip PropCoast ProofImportEx ProofQuadTree PropFinish.
Import ListNotations.
Open Scope N_scope.

(** C89: two databases, imported in any way (with any threads, in any order, with any other objects and coastlines, again and again, with or without prepared tiles), both packed or both not:
    an object that both contain is shown by both on the tiles it belongs to, with the same id, tags and geometry; *)
Theorem c89_both_show : forall L1 L2 j1 j2 co1 co2 raw prep1 prep2 st1 st2, same_results L1 L2 -> libs_ok L1 -> libs_ok L2 -> job_ok L1 j1 -> job_ok L2 j2 ->
  history L1 j1 co1 true raw prep1 st1 -> history L2 j2 co2 true raw prep2 st2 ->
  forall t o g cs layer mn g', tz t <= 20 -> valid_tile t -> In (o, g, cs) (j_objs j1) -> In (o, g, cs) (j_objs j2) -> imported L1 (o, g, cs) layer mn -> (layer = coastline -> kind g <> 3) ->
  only_one L1 j1 layer o g cs -> only_one L2 j2 layer o g cs -> mn <= tz t -> meets (tz t) t (bounding_box g) = true ->
  clip (l_cut L1) (draw_area t) (outline L1 raw (tz t) g) = Ok g' -> shift_geom (tz t) g' <> GNull ->
  (prep1 || prep2 = true -> tz t <= 10 -> kind g <> 2 /\ (layer <> coastline -> kind g = 3 -> (256 <= l_area L1 (shift_geom (tz t) g'))%Z)) ->
  both_answer L1 L2 st1 st2 t (fun vls1 vls2 => exists v1 v2, drawn_in vls1 layer (to_u64 (o_id o)) (kind g) v1 /\ drawn_in vls2 layer (to_u64 (o_id o)) (kind g) v2 /\ same_feature v1 v2).
Proof. exact imports_show. Qed.
(** and on every tile, whatever both show of it is the same *)
Theorem c89_same : forall L1 L2 j1 j2 co1 co2 raw prep1 prep2 st1 st2, same_results L1 L2 -> libs_ok L1 -> libs_ok L2 -> job_ok L1 j1 -> job_ok L2 j2 ->
  history L1 j1 co1 true raw prep1 st1 -> history L2 j2 co2 true raw prep2 st2 ->
  forall t o g cs layer mn, tz t <= 20 -> valid_tile t -> In (o, g, cs) (j_objs j1) -> In (o, g, cs) (j_objs j2) -> imported L1 (o, g, cs) layer mn -> layer <> coastline ->
  only_one L1 j1 layer o g cs -> only_one L2 j2 layer o g cs -> (prep1 || prep2 = true -> kind g = 2 -> 10 < tz t) ->
  forall z1 z2, serve_tile L1 st1 t = Ok (Some z1) -> serve_tile L2 st2 t = Ok (Some z2) ->
  exists buf1 buf2, l_deflate L1 buf1 = Ok z1 /\ l_deflate L2 buf2 = Ok z2 /\ (blen buf1 < 2 ^ 29 -> blen buf2 < 2 ^ 29 -> exists vls1 vls2, decode_tile buf1 = Some vls1 /\ decode_tile buf2 = Some vls2 /\
    forall v1 v2, drawn_in vls1 layer (to_u64 (o_id o)) (kind g) v1 -> drawn_in vls2 layer (to_u64 (o_id o)) (kind g) v2 -> same_feature v1 v2).
Proof. exact imports_same. Qed.
(** reading the same coastlines has the same result, whatever the number of threads and their schedule; *)
Theorem c89_coast : forall L1 L2 polys s1 s2, same_coast L1 L2 -> coast_result L1 polys s1 -> coast_result L2 polys s2 ->
  Permutation (c_inserted s1) (c_inserted s2) /\ Permutation (c_sea s1) (c_sea s2).
Proof. exact coast_same. Qed.
(** so two imports of the same coastlines show the sea on the same tiles, and the same pieces of it. *)
Theorem c89_sea : forall L1 L2 j1 j2 fe1 fe2 raw prep1 prep2 st1 st2, same_results L1 L2 -> same_coast L1 L2 -> libs_ok L1 -> libs_ok L2 -> job_ok L1 j1 -> job_ok L2 j2 ->
  history L1 j1 true fe1 raw prep1 st1 -> history L2 j2 true fe2 raw prep2 st2 -> j_polys j1 = j_polys j2 ->
  exists s, coast_result L1 (j_polys j1) s /\
  (forall t k, tz t <= 20 -> valid_tile t -> covered (c_sea s) t -> tile_to_key t 0 = Ok k ->
    both_answer L1 L2 st1 st2 t (fun vls1 vls2 => exists v1 v2, drawn_in vls1 coastline k 3 v1 /\ drawn_in vls2 coastline k 3 v2 /\ is_sea k (tz t) v1 /\ is_sea k (tz t) v2)) /\
  (forall t e f g' k, tz t <= 20 -> valid_tile t -> In (e, f) (c_inserted s) -> no_coast_areas L1 j1 fe1 -> no_coast_areas L2 j2 fe2 ->
    related e t -> touches (bounding_box (f_geom f)) (tile_area t) -> tile_to_key e 0 = Ok k ->
    clip (l_cut L1) (draw_area t) (outline L1 raw (tz t) (f_geom f)) = Ok g' -> shift_geom (tz t) g' <> GNull ->
    both_answer L1 L2 st1 st2 t (fun vls1 vls2 => exists vl1 v1 vl2 v2, In vl1 vls1 /\ In v1 (vl_features vl1) /\ vl_name vl1 = coastline /\ v_id v1 = k /\
      In vl2 vls2 /\ In v2 (vl_features vl2) /\ vl_name vl2 = coastline /\ same_feature v1 v2)).
Proof. exact sea_same. Qed.
Print Assumptions c89_coast.
Print Assumptions c89_sea.
Print Assumptions c89_both_show.
Print Assumptions c89_same.

(** the example import, and another one with one thread, another compression, other objects, in another order *)
Definition ex_libs3 : libs := {|
  l_ccut := l_ccut ex_libs; l_cdiff := l_cdiff ex_libs; l_fix_rings := l_fix_rings ex_libs; l_stod := l_stod ex_libs; l_dbl := l_dbl ex_libs; l_oarea := l_oarea ex_libs;
  l_msort := l_msort ex_libs; l_dsort := l_dsort ex_libs; l_take := l_take ex_libs; l_psort := l_psort ex_libs; l_isort := l_isort ex_libs; l_qsort := l_qsort ex_libs;
  l_possort := l_possort ex_libs; l_recsort := l_recsort ex_libs; l_tasksort := l_tasksort ex_libs; l_mk := l_mk ex_libs; l_rd := l_rd ex_libs;
  l_deflate := fun b => Ok (121 :: b); l_cut := l_cut ex_libs; l_area := l_area ex_libs; l_aggregate := l_aggregate ex_libs; l_threads := 1 |}.
Example c89_ex_libs : libs_ok ex_libs3 /\ same_results ex_libs ex_libs3.
Proof.
  split; [|split; reflexivity]. destruct ex_libs_ok. constructor; try assumption.
  - intros b. exists (121 :: b). reflexivity.
  - apply le_n.
Qed.
Definition c89_job : job := Job (j_polys c61_job) [c61_bench; c61_road].
Example c89_ex_job : job_ok ex_libs3 c89_job.
Proof.
  destruct c61_ex_job as (_ & _ & H). split; [|split; [reflexivity | exact H]]. repeat apply Forall_cons; [apply c61_bench_ok | apply c61_road_ok | apply Forall_nil].
Qed.
Example c89_ex : forall st1 st2, history ex_libs c61_job true true false true st1 -> history ex_libs3 c89_job true true false false st2 ->
  both_answer ex_libs ex_libs3 st1 st2 (Tile 2052 2052 12) (fun vls1 vls2 => exists v1 v2, drawn_in vls1 (lit "road") 7 2 v1 /\ drawn_in vls2 (lit "road") 7 2 v2 /\ same_feature v1 v2).
Proof.
  intros st1 st2 H1 H2. destruct c89_ex_libs as [HL HS].
  apply (c89_both_show ex_libs ex_libs3 c61_job c89_job true true false true false st1 st2 HS ex_libs_ok HL c61_ex_job c89_ex_job H1 H2 (Tile 2052 2052 12) (fst (fst c61_road)) (snd (fst c61_road)) (snd c61_road) (lit "road") 6 (snd (fst c61_road))).
  - discriminate.
  - split; vm_compute; reflexivity.
  - left; reflexivity.
  - right; left; reflexivity.
  - apply c61_road_ok.
  - discriminate.
  - intros o' h cs' mn' [Hi|[Hi|[Hi|[]]]] Him Eo Ek; [now symmetry | injection Hi as <- <- <-; discriminate Eo | injection Hi as <- <- <-; discriminate Eo].
  - intros o' h cs' mn' [Hi|[Hi|[]]] Him Eo Ek; [injection Hi as <- <- <-; discriminate Eo | now symmetry].
  - discriminate.
  - vm_compute. reflexivity.
  - vm_compute. reflexivity.
  - vm_compute. discriminate.
  - intros _ Hz. vm_compute in Hz. now destruct Hz.
Qed.
Example c89_ex_sea : forall st1 st2, history ex_libs c61_job true true false true st1 -> history ex_libs3 c89_job true true false false st2 ->
  exists k, tile_to_key (Tile 100 200 14) 0 = Ok k /\
  both_answer ex_libs ex_libs3 st1 st2 (Tile 100 200 14) (fun vls1 vls2 => exists v1 v2, drawn_in vls1 coastline k 3 v1 /\ drawn_in vls2 coastline k 3 v2 /\ is_sea k 14 v1 /\ is_sea k 14 v2).
Proof.
  intros st1 st2 H1 H2. destruct c89_ex_libs as [HL HS].
  destruct (c89_sea ex_libs ex_libs3 c61_job c89_job true true false true false st1 st2 HS (conj eq_refl (conj eq_refl eq_refl)) ex_libs_ok HL c61_ex_job c89_ex_job H1 H2 eq_refl) as (s & Hs & HA & _).
  eexists. split; [vm_compute; reflexivity|]. apply (HA (Tile 100 200 14)); [discriminate | split; vm_compute; reflexivity | | vm_compute; reflexivity].
  destruct (give_all (coast_proc grid_cut ex_diff (fun ps => ps)) 6 (map OTask (coast_tasks c57_isle))) as [l|] eqn:EG; [|vm_compute in EG; discriminate EG].
  pose proof (ex_sea _ _ EG s Hs) as HE. exists (Tile 0 0 5). split; [|repeat split; vm_compute; congruence]. apply HE.
  assert (HF : existsb (fun e => match e with inr t => tile_eqb t (Tile 0 0 5) | inl _ => false end) l = true) by (vm_compute in EG; injection EG as <-; vm_compute; reflexivity).
  apply existsb_exists in HF as ([e|t] & He & Et); [discriminate Et|]. apply ProofQuadTree.tile_eqb_eq in Et. now subst t.
Qed.
