(** C57-C59: the coastline import. *)
From Coq Require Import Permutation.
From Verif Require Import Base BaseProof ModelTile SpecTile ProofTile ModelCodec ModelGeom SpecGeom ModelFeature ModelMvt ModelRender ModelPrepare
  ModelBqTree SpecBqTree ModelPacker SpecPacker SpecRender ModelDrain SpecDrain ProofDrain ProofDrainRun
  ModelCoast SpecCoast ProofCoast ProofCoastRun ProofCoastFill ProofCoastClip ProofCoastEx.
Open Scope N_scope.

(** C57: in every schedule, when the storing thread leaves its loop and no task made the polygon
    clipper fail, the tiles with a stored sea polygon and the fully seaside tiles are pairwise
    disjoint; stored polygons are under tiles of zoom level 10 with the tile's key as their id. *)
Theorem c57_partition cut diff fix_rings polys n s :
  no_exception cut diff fix_rings (coast_tasks polys) ->
  creach (coast_proc cut diff fix_rings) (coast_tasks polys) n s -> c_main s = MExit ->
  ForallOrdPairs (fun a b => ~ related a b) (map fst (c_inserted s) ++ c_sea s) /\
  Forall (fun d => tz (fst d) = 10 /\ valid_tile (fst d) /\ sea_feature (fst d) (snd d)) (c_inserted s) /\
  Forall (fun t => 5 <= tz t <= 10 /\ valid_tile t) (c_sea s).
Proof.
  intros NE R E. destruct (coast_drained _ _ _ _ R E) as (_ & _ & _ & O). destruct (outcome_good _ _ _ _ _ NE O) as [H1 H2].
  apply Forall_app in H2 as [H2 H3]. rewrite map_app, !map_map in H1. cbn [etile] in H1. rewrite map_id in H1. split; [exact H1|].
  rewrite Forall_map in H2, H3. split.
  - eapply Forall_impl; [|exact H2]. intros [v f] (V & Z & S & _). cbn [etile fst snd] in *. auto.
  - eapply Forall_impl; [|exact H3]. intros t (V & Z). cbn [etile] in *. auto.
Qed.
Print Assumptions c57_partition.

(** C57: with at least one worker thread there is a schedule that ends, for every shapefile *)
Theorem c57_can_finish cut diff fix_rings polys n : (n <> 0)%nat ->
  exists s, creach (coast_proc cut diff fix_rings) (coast_tasks polys) n s /\ c_main s = MExit.
Proof. intros Hn. destruct (outcome_exists cut diff fix_rings polys) as (l & O). exact (coast_completes _ _ n l O Hn). Qed.
Print Assumptions c57_can_finish.

(** C57, its limit: without worker threads (hardware_concurrency() may return 0) it never ends *)
Theorem c57_no_worker_refuted cut diff fix_rings polys s :
  creach (coast_proc cut diff fix_rings) (coast_tasks polys) 0 s -> c_main s <> MExit.
Proof. apply coast_no_worker. intros H. apply (f_equal (@length _)) in H. unfold coast_tasks in H. rewrite map_length in H. vm_compute in H. discriminate H. Qed.
Print Assumptions c57_no_worker_refuted.

(** C58: a cell at least nine cells away from all land is drawn as sea *)
Theorem c58_sea cut diff fix_rings polys n s v c : clips_well cut diff fix_rings ->
  no_exception cut diff fix_rings (coast_tasks polys) ->
  creach (coast_proc cut diff fix_rings) (coast_tasks polys) n s -> c_main s = MExit ->
  valid_tile v -> tz v = 10 -> cell_in 1 (tile_area v) c ->
  Forall (fun p => deep_out 8 (land_paths p) c) polys ->
  covered (c_sea s) v \/ exists f, In (v, f) (c_inserted s) /\ inside (rings_of f) c = true.
Proof.
  intros W NE R E Hv Hz Hc D. destruct (coast_drained _ _ _ _ R E) as (_ & _ & _ & O).
  destruct (outcome_sea _ _ _ W _ _ v c NE O Hv Hz Hc D) as (e & He & S). apply in_app_or in He as [He|He]; apply in_map_iff in He as (x & <- & Hx).
  - destruct x as [w f]. destruct S as [-> S]. right. exists f. split; assumption.
  - left. exists x. split; assumption.
Qed.
Print Assumptions c58_sea.

(** C58: a cell at least nine cells inside one land polygon, and as far outside all others, is not *)
Theorem c58_land cut diff fix_rings p1 p p2 n s v c : clips_well cut diff fix_rings ->
  let polys := p1 ++ p :: p2 in
  no_exception cut diff fix_rings (coast_tasks polys) ->
  creach (coast_proc cut diff fix_rings) (coast_tasks polys) n s -> c_main s = MExit ->
  valid_tile v -> tz v = 10 -> cell_in 0 (tile_area v) c ->
  land_ok p -> deep_in 8 (land_paths p) c -> Forall (fun q => deep_out 8 (land_paths q) c) (p1 ++ p2) ->
  ~ covered (c_sea s) v /\ forall f, In (v, f) (c_inserted s) -> inside (rings_of f) c = false.
Proof.
  intros W polys NE R E Hv Hz Hc Hok Di Do. destruct (coast_drained _ _ _ _ R E) as (_ & _ & _ & O).
  pose proof (outcome_land _ _ _ W _ _ v c p1 p p2 NE O Hv Hz Hc eq_refl Hok Di Do) as F. apply Forall_app in F as [F1 F2]. rewrite Forall_map in F1, F2. split.
  - intros (z & Hz' & C). exact (proj1 (Forall_forall _ _) F2 z Hz' C).
  - intros f Hf. exact (proj1 (Forall_forall _ _) F1 (v, f) Hf eq_refl).
Qed.
Print Assumptions c58_land.

(** C59: the tree of the fully seaside tiles can be stored, is read back the same, and contains
    exactly the tiles that lie in a fully seaside one *)
Theorem c59_seaside_tree cut diff fix_rings polys n s :
  no_exception cut diff fix_rings (coast_tasks polys) ->
  creach (coast_proc cut diff fix_rings) (coast_tasks polys) n s -> c_main s = MExit ->
  exists bytes v, seaside_entry (c_sea s) = Ok bytes /\ bq_of_string bytes = Ok v /\
    (forall x, x_seaside x = v -> seaside_is x (c_sea s)) /\
    forall q, valid_tile q -> tz q <= 23 -> exists b, bq_contains v q = Ok b /\ (b = true <-> covered (c_sea s) q).
Proof.
  intros NE R E. destruct (c57_partition _ _ _ _ _ _ NE R E) as (_ & _ & F).
  assert (F' : Forall (fun t => tz t <= 10 /\ valid_tile t) (c_sea s)) by (eapply Forall_impl; [|exact F]; intros t [H1 H2]; split; [lia|exact H2]).
  destruct (sea_entry _ F') as (bytes & v & H1 & H2 & H3 & H4). exists bytes, v. split; [exact H1|]. split; [exact H2|]. split; [|exact H4].
  intros x Hx. split; [|split; [apply sea_fits, F'|rewrite Hx; exact H3]]. eapply Forall_impl; [|exact F']. intros t [A B]. split; [lia|exact B].
Qed.
Print Assumptions c59_seaside_tree.

(** ** Examples and limits *)
Open Scope Z_scope.
(** rectangles of land; coordinates in quarters of a tile of zoom level 10 *)
Definition land_rect (x0 y0 x1 y1 : Z) : poly :=
  let q := 2 ^ 20 in
  ([(x0 * q, y0 * q); (x1 * q, y0 * q); (x1 * q, y1 * q); (x0 * q, y1 * q); (x0 * q, y0 * q)], []).
Notation gproc := (coast_proc grid_cut grid_diff (fun ps => ps)).

(** what is expected of the clipper can be met *)
Example c58_ex_clipper : clips_well grid_cut grid_diff (fun ps => ps).
Proof. exact grid_clips_well. Qed.

(** an island over nine tiles, one of them all land *)
Definition c57_isle : list poly := [land_rect 2050 2050 2058 2058].
Example c57_ex_calm : no_exception grid_cut grid_diff (fun ps => ps) (coast_tasks c57_isle).
Proof. apply (calm_no_exception _ _ _ 6). vm_compute. reflexivity. Qed.
Example c57_ex_outcome : exists l, give_all gproc 6 (map OTask (coast_tasks c57_isle)) = Some l /\
  length (filter (fun e => match e with inl _ => true | inr _ => false end) l) = 8%nat /\ length l = 1047%nat.
Proof. eexists. split; [vm_compute; reflexivity|]. split; vm_compute; reflexivity. Qed.
Lemma rect_inside x0 y0 x1 y1 c : x0 < x1 -> y0 < y1 -> inside (land_paths (land_rect x0 y0 x1 y1)) c = cell_inb (FBox (x0 * 2 ^ 20) (y0 * 2 ^ 20) (x1 * 2 ^ 20) (y1 * 2 ^ 20)) c.
Proof.
  intros H1 H2. change (land_paths (land_rect x0 y0 x1 y1)) with [close (box_to_path (FBox (x0 * 2 ^ 20) (y0 * 2 ^ 20) (x1 * 2 ^ 20) (y1 * 2 ^ 20)))].
  rewrite inside_close. apply inside_rect. unfold box_some. cbn [bminx bminy bmaxx bmaxy]. change (2 ^ 20) with 1048576. lia.
Qed.
Example c58_ex_hyps : land_ok (land_rect 2050 2050 2058 2058) /\ deep_in 8 (land_paths (land_rect 2050 2050 2058 2058)) (2151000000, 2151000000) /\
  cell_in 0 (tile_area (Tile 512 512 10)) (2151000000, 2151000000) /\ cell_in 1 (tile_area (Tile 512 512 10)) (2149000000, 2149000000) /\
  deep_out 8 (land_paths (land_rect 2050 2050 2058 2058)) (2149000000, 2149000000).
Proof.
  split; [|split; [|split; [|split]]].
  - split; [discriminate|apply Forall_nil].
  - intros d H. rewrite rect_inside by lia. apply cell_inb_spec. change (2 ^ 20) with 1048576. unfold near_cell, cell_in in *. cbn [fst snd bminx bminy bmaxx bmaxy] in *. lia.
  - vm_compute. intuition congruence.
  - vm_compute. intuition congruence.
  - intros d H. rewrite rect_inside by lia. apply not_true_iff_false. rewrite cell_inb_spec. change (2 ^ 20) with 1048576. unfold near_cell, cell_in in *. cbn [fst snd bminx bminy bmaxx bmaxy] in *. lia.
Qed.

(** C58, its limit: the even-odd rule is applied over all polygons at once, so where two of them overlap
    there is sea *)
Definition c58_lapping : list poly := [land_rect 2049 2050 2055 2058; land_rect 2053 2050 2059 2058].
Theorem c58_overlap_refuted : exists cut diff fix_rings polys s v f c,
  clips_well cut diff fix_rings /\ Forall land_ok polys /\ no_exception cut diff fix_rings (coast_tasks polys) /\
  creach (coast_proc cut diff fix_rings) (coast_tasks polys) 1 s /\ c_main s = MExit /\
  Forall (fun p => deep_in 1000 (land_paths p) c) polys /\ cell_in 1000 (tile_area v) c /\
  In (v, f) (c_inserted s) /\ inside (rings_of f) c = true.
Proof.
  destruct (c57_can_finish grid_cut grid_diff (fun ps => ps) c58_lapping 1 ltac:(discriminate)) as (s & R & E).
  destruct (coast_drained _ _ _ _ R E) as (_ & _ & _ & O).
  destruct (give_all gproc 6 (map OTask (coast_tasks c58_lapping))) as [l|] eqn:EG; [|vm_compute in EG; discriminate EG].
  pose proof (give_all_outcome _ _ _ _ _ EG O) as HP.
  destruct (find (fun e => match e with inl (v, f) => tile_eqb v (Tile 513 513 10) | inr _ => false end) l) as [[[v f]|]|] eqn:EF.
  2, 3: exfalso; vm_compute in EG; injection EG as <-; vm_compute in EF; discriminate EF.
  assert (Hv : v = Tile 513 513 10 /\ inside (rings_of f) (2153778176, 2153778176) = true).
  { vm_compute in EG. injection EG as <-. vm_compute in EF. injection EF as <- <-. split; vm_compute; reflexivity. }
  destruct Hv as [-> Hf]. exists grid_cut, grid_diff, (fun ps => ps), c58_lapping, s, (Tile 513 513 10), f, (2153778176, 2153778176).
  split; [exact grid_clips_well|]. split; [repeat (apply Forall_cons; [split; [discriminate|apply Forall_nil]|]); apply Forall_nil|].
  split; [apply (calm_no_exception _ _ _ 6); vm_compute; reflexivity|]. split; [exact R|]. split; [exact E|]. split; [|split; [vm_compute; intuition congruence|split; [|exact Hf]]].
  - repeat (apply Forall_cons; [intros d H; rewrite rect_inside by lia; apply cell_inb_spec; change (2 ^ 20) with 1048576; unfold near_cell, cell_in in *; cbn [fst snd bminx bminy bmaxx bmaxy] in *; lia|]). apply Forall_nil.
  - apply find_some in EF as [EF _]. apply (Permutation_in _ (Permutation_sym HP)) in EF. apply in_app_or in EF as [EF|EF]; apply in_map_iff in EF as (x & Ex & Hx); [|discriminate Ex]. injection Ex as ->. exact Hx.
Qed.
Print Assumptions c58_overlap_refuted.

(** C57, its limit: where two disjoint land polygons together fill the area around a tile of zoom level 10, the
    difference is empty, and the check for it fails in a worker thread: the import is aborted *)
Definition c57_split_land : list poly := [land_rect 2050 2050 2054 2058; land_rect 2054 2050 2058 2058].
Theorem c57_adjacent_refuted : exists cut diff fix_rings polys g,
  clips_well cut diff fix_rings /\ Forall land_ok polys /\
  (forall c p q, In p polys -> In q polys -> inside (land_paths p) c = true -> inside (land_paths q) c = true -> p = q) /\
  task_reached cut diff fix_rings (coast_tasks polys) g /\ process_coastline cut diff fix_rings g = Throw.
Proof.
  destruct (descend grid_cut grid_diff (fun ps => ps) (Tile 8 8 4, map make_coast c57_split_land) [Tile 16 16 5; Tile 32 32 6; Tile 64 64 7; Tile 128 128 8; Tile 256 256 9]) as [g|] eqn:E; [|vm_compute in E; discriminate E].
  exists grid_cut, grid_diff, (fun ps => ps), c57_split_land, g.
  split; [exact grid_clips_well|]. split; [repeat (apply Forall_cons; [split; [discriminate|apply Forall_nil]|]); apply Forall_nil|]. split; [|split].
  - intros c p q [<-|[<-|[]]] [<-|[<-|[]]]; rewrite !rect_inside, !cell_inb_spec by lia; unfold cell_in; cbn [bminx bminy bmaxx bmaxy]; change (2 ^ 20) with 1048576; intros; try reflexivity; lia.
  - eapply descend_reached; [|exact E]. apply tr_first. unfold coast_tasks. apply (in_map (fun t => (t, map make_coast c57_split_land)) _ (Tile 8 8 4)).
    apply ProofPrepare.range_tiles_In. cbn [tx ty tz minx miny maxx maxy]. change (2 ^ 4)%N with 16%N. split; [reflexivity|]. split; lia.
  - vm_compute in E. injection E as <-. vm_compute. reflexivity.
Qed.
Print Assumptions c57_adjacent_refuted.
