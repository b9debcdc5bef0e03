(** C33, C54: preparing tiles. *)
From Coq Require Import Permutation.
From Verif Require Import Base BaseProof ModelTile SpecTile ModelPackFile ModelGeom SpecGeom ModelBqTree SpecBqTree ModelRender SpecRender ModelTable
  ModelPrepare SpecPrepare ProofPrepare ProofPrepareEnd ProofServe PropRender.
Open Scope N_scope.

(** C33: whatever the schedule of the [n] threads, when all are done each tile of the
    zoom levels 0..max that overlaps the rectangle spanned by the features was rendered
    exactly once, and no other *)
Theorem c33_covers_once : forall features max m n tiles render s,
  make_prepare_manager features max = Ok m -> prep_reach render m n tiles s -> all_exited s -> (0 < n)%nat -> table_sorted tiles ->
  NoDup (p_rendered s) /\ forall t, In t (p_rendered s) <-> tz t <= max /\ in_bounds features t.
Proof. intros features max m n tiles render s H1 H2 H3 H4 H5. destruct (prepare_done _ _ _ _ _ _ _ H1 H2 H3 H4 H5) as (A & B & _). auto. Qed.
Print Assumptions c33_covers_once.

(** C33: afterwards each of them that has a non-empty rendering is stored under its own key, and
    every other entry is as it was before *)
Theorem c33_stored : forall features max m n tiles render s,
  make_prepare_manager features max = Ok m -> prep_reach render m n tiles s -> all_exited s -> (0 < n)%nat -> table_sorted tiles ->
  table_sorted (p_tiles s) /\
  (forall t k, tz t <= max -> in_bounds features t -> tile_to_key t 0 = Ok k ->
     exists r, render t = Ok r /\ table_get (p_tiles s) k = match r with Some b => Some b | None => table_get tiles k end) /\
  (forall k, (forall t, tz t <= max -> in_bounds features t -> tile_to_key t 0 <> Ok k) -> table_get (p_tiles s) k = table_get tiles k).
Proof.
  intros features max m n tiles render s H1 H2 H3 H4 H5. destruct (prepare_done _ _ _ _ _ _ _ H1 H2 H3 H4 H5) as (_ & B & C & D & E).
  split; [exact C|]. split.
  - intros t k Hz Hb Hk. destruct (D t) as (r & Hr & Hg). { apply B. auto. } exists r. auto.
  - intros k Hk. apply E. intros t Ht. apply B in Ht as [Hz Hb]. auto.
Qed.
Print Assumptions c33_stored.

(** C33: no thread ever reads past the end of a range *)
Theorem c33_batches_defined : forall features max m n tiles render s,
  make_prepare_manager features max = Ok m -> prep_reach render m n tiles s -> exists b m', get_batch (p_man s) = Ok (b, m').
Proof. exact batches_defined. Qed.
Print Assumptions c33_batches_defined.

(** every schedule of the threads ends; it ends with all threads done, unless rendering a tile fails *)
Theorem c33_terminates : forall features max m n tiles render s,
  make_prepare_manager features max = Ok m -> prep_reach render m n tiles s ->
  Acc (fun b a => prep_step render a b) s /\
  (max <= 10 -> (forall t, tz t <= max -> in_bounds features t -> exists r, render t = Ok r) -> all_exited s \/ exists s', prep_step render s s').
Proof.
  intros features max m n tiles render s H R. split; [eapply prepare_ends; eassumption|]. intros Hm HR. eapply prepare_goes_on; eassumption.
Qed.
Print Assumptions c33_terminates.

(** preparing fails exactly for a database without features *)
Theorem c33_no_features : forall features max,
  (features = [] -> make_prepare_manager features max = Throw) /\ (features <> [] -> exists m, make_prepare_manager features max = Ok m).
Proof. exact manager_fails. Qed.
Print Assumptions c33_no_features.

(** C54: after preparing, the server answers for a tile within the bounds what rendering
    the tile from the database (lines and polygons joined) gives, whatever else changed.
    The tile was not stored before. *)
Theorem c54_served_as_rendered : forall features max m n tiles x pf s t k sea features' pf',
  make_prepare_manager features max = Ok m -> prep_reach (prepare_tile features pf x) m n tiles s -> all_exited s -> (0 < n)%nat ->
  table_sorted tiles -> tz t <= max -> max <= 20 -> valid_tile t -> in_bounds features t ->
  tile_to_key t 0 = Ok k -> (forall b, ~ In (k, b) tiles) -> seaside_is x sea -> keeps_square (x_cut x) ->
  get_tile (p_tiles s) features' pf' (serving x max) t = get_tile [] features pf (on_demand x) t.
Proof. exact serve_prepared. Qed.
Print Assumptions c54_served_as_rendered.

(** C54: a tile outside the bounds is empty unless it is covered by sea *)
Theorem c54_outside : forall features max m n tiles x pf s t k sea features' pf',
  make_prepare_manager features max = Ok m -> prep_reach (prepare_tile features pf x) m n tiles s -> all_exited s -> (0 < n)%nat ->
  table_sorted tiles -> tz t <= max -> max <= 20 -> valid_tile t -> ~ in_bounds features t ->
  tile_to_key t 0 = Ok k -> (forall b, ~ In (k, b) tiles) -> seaside_is x sea -> ~ covered sea t ->
  get_tile (p_tiles s) features' pf' (serving x max) t = Ok None.
Proof.
  intros features max m n tiles x pf s t k sea features' pf' H1 H2 H3 H4 H5 Hz Hmax Hv Hb Hk Hold Hsea Hc.
  apply ProofRender.not_stored with (k := k) (sea := sea); auto; try lia.
  - split; [reflexivity|]. cbn [serving x_max_prepared]. lia.
  - intros b Hin. apply (ProofRender.table_get_in _ _ _ (proj1 (c33_stored _ _ _ _ _ _ _ H1 H2 H3 H4 H5))) in Hin.
    rewrite (not_prepared _ _ _ _ _ _ _ _ _ _ H1 H2 H3 H4 H5 (fun H => Hb (proj2 H)) Hk) in Hin.
    apply ProofTable.table_get_In in Hin. exact (Hold _ Hin).
Qed.
Print Assumptions c54_outside.

(** ** A concrete run: the database of C52, zoom levels 0..2, two threads *)
Definition ok_or {A} (r : res A) (d : A) : A := match r with Ok a => a | _ => d end.
Definition c33_man : pman := match make_prepare_manager c52_table 2 with Ok m => m | _ => PMan 0 0 (Corners c52_root c52_root) [] end.
Definition c33_render (t : tile) : res (option bytes) := prepare_tile c52_table c52_file c52_x t.
Definition c33_out (t : tile) : option bytes := ok_or (c33_render t) None.
Definition c33_next (m : pman) : pman := match get_batch m with Ok (_, m') => m' | _ => m end.
Definition c33_st1 : list (tile * option bytes) := [(Tile 0 0 0, c33_out (Tile 0 0 0))].
Definition c33_st2 : list (tile * option bytes) := [(Tile 1 0 1, c33_out (Tile 1 0 1)); (Tile 2 1 2, c33_out (Tile 2 1 2))].
Definition c33_tiles1 : table := ok_or (store_batch [] c33_st2) [].
Definition c33_tiles2 : table := ok_or (store_batch c33_tiles1 c33_st1) [].
Definition c33_end : prep := Prep (c33_next (c33_next c33_man)) [TExit; TExit] c33_tiles2 [Tile 0 0 0; Tile 1 0 1; Tile 2 1 2].
Example c33_ex_run : make_prepare_manager c52_table 2 = Ok c33_man /\ prep_reach c33_render c33_man 2 [] c33_end /\ all_exited c33_end.
Proof.
  split; [vm_compute; reflexivity|]. split.
  2: { repeat constructor. }
  pose proof (pr_init c33_render c33_man 2 []) as R. cbn [repeat] in R.
  assert (B1 : get_batch c33_man = Ok ([Tile 0 0 0], c33_next c33_man)) by (vm_compute; reflexivity).
  assert (B2 : get_batch (c33_next c33_man) = Ok ([Tile 1 0 1; Tile 2 1 2], c33_next (c33_next c33_man))) by (vm_compute; reflexivity).
  assert (B3 : get_batch (c33_next (c33_next c33_man)) = Ok ([], c33_next (c33_next c33_man))) by (vm_compute; reflexivity).
  assert (R1 : map_res c33_render [Tile 0 0 0] = Ok [c33_out (Tile 0 0 0)]) by (vm_compute; reflexivity).
  assert (R2 : map_res c33_render [Tile 1 0 1; Tile 2 1 2] = Ok [c33_out (Tile 1 0 1); c33_out (Tile 2 1 2)]) by (vm_compute; reflexivity).
  assert (S1 : store_batch [] c33_st2 = Ok c33_tiles1) by (vm_compute; reflexivity).
  assert (S2 : store_batch c33_tiles1 c33_st1 = Ok c33_tiles2) by (vm_compute; reflexivity).
  eapply pr_step in R. 2: exact (pt_batch _ _ _ _ [] [TTop] [] [] B1). cbn [app] in R.
  eapply pr_step in R. 2: exact (pt_batch _ _ _ _ [TBatch [Tile 0 0 0]] [] [] [] B2). cbn [app] in R.
  eapply pr_step in R. 2: exact (pt_render _ _ [] _ [] [] _ _ R1). cbn [app] in R.
  eapply pr_step in R. 2: exact (pt_render _ _ [_] [] [] _ _ _ R2). cbn [app combine] in R.
  eapply pr_step in R. 2: exact (pt_store _ _ [_] [] _ _ _ _ S1). cbn [app] in R.
  eapply pr_step in R. 2: exact (pt_store _ _ [] _ _ _ _ _ S2). cbn [app] in R.
  eapply pr_step in R. 2: exact (pt_batch _ _ _ _ [] _ _ _ B3). cbn [app] in R.
  eapply pr_step in R. 2: exact (pt_batch _ _ _ _ [TExit] [] _ _ B3). cbn [app] in R.
  exact R.
Qed.
(** the tiles have sea and are stored under their keys; the bounds are those of the one index tile *)
Example c33_ex_stored : c33_out (Tile 0 0 0) <> None /\ c33_out (Tile 2 1 2) <> None /\
  match tile_to_key (Tile 0 0 0) 0 with Ok k => table_get (p_tiles c33_end) k = c33_out (Tile 0 0 0) | _ => False end /\
  in_bounds c52_table (Tile 2 1 2) /\ ~ in_bounds c52_table (Tile 0 0 2).
Proof.
  split; [vm_compute; discriminate|]. split; [vm_compute; discriminate|]. split; [vm_compute; reflexivity|].
  split.
  - exists (Tile 550 340 10). split.
    + split; [reflexivity|]. assert (I : In (hd (0, []) c52_table) c52_table) by (left; reflexivity).
      split; [|split; [|split]]; exists (hd (0, []) c52_table); (split; [exact I | vm_compute; discriminate]).
    + right. split; [vm_compute; discriminate|]. split; vm_compute; reflexivity.
  - intros (i & (Z & (a & A & La) & (b & B & Lb) & _) & Hr).
    assert (forall e, In e c52_table -> tx (key_to_tile (fst e)) = 550) as H550.
    { intros e [<-|[]]. vm_compute. reflexivity. }
    rewrite (H550 a A) in La. rewrite (H550 b B) in Lb. assert (E : tx i = 550) by lia.
    destruct Hr as [(R1 & R2 & R3)|(R1 & R2 & R3)]; cbn [tx ty tz] in *; rewrite Z in *.
    + lia.
    + rewrite E in R2. vm_compute in R2. discriminate.
Qed.
(** the server shows the prepared tile; but with no threads at all nothing is stored *)
Example c54_ex : get_tile (p_tiles c33_end) [] c52_file (serving c52_x 2) (Tile 0 0 0) = get_tile [] c52_table c52_file (on_demand c52_x) (Tile 0 0 0) /\
  get_tile [] c52_table c52_file (on_demand c52_x) (Tile 0 0 0) <> Ok None.
Proof. split; [vm_compute; reflexivity | vm_compute; discriminate]. Qed.
Example c33_ex_no_threads : prep_reach c33_render c33_man 0 [] (Prep c33_man [] [] []) /\ all_exited (Prep c33_man [] [] []).
Proof. split; [exact (pr_init c33_render c33_man 0 []) | constructor]. Qed.
