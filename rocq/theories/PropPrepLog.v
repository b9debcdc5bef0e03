(** C81: what the log says about prepared tiles. *)
From Coq Require Import Permutation.
From Verif Require Import Base BaseProof ModelTile SpecTile ModelPrepare SpecPrepare ModelPrepLog SpecPrepLog ProofPrepLog.
Open Scope N_scope.

(** Whatever the schedule of the threads: there is at most one line for each zoom level, only after all tiles of this level were rendered, and it says
    how many these were and how long it took altogether; *)
Theorem c81_lines : forall features max m n size s, make_prepare_manager features max = Ok m -> log_reach size m n s ->
  NoDup (map l_level (g_log s)) /\
  forall l, In l (g_log s) -> l_level l <= max /\ exists ds, level_done features s (l_level l) ds /\ l_total l = N.of_nat (length ds) /\ l_dur l = sum_of snd ds.
Proof.
  intros features max m n size s HM R. destruct (log_lines features max m n size s HM R) as (H1 & H2 & _). split; [exact H1|].
  intros l Hl. destruct (H2 l Hl) as (Z & ds & A & B & C & _). eauto.
Qed.
Print Assumptions c81_lines.

(** when all threads are done there is a line for every level; *)
Theorem c81_all_levels : forall features max m n size s, make_prepare_manager features max = Ok m -> log_reach size m n s -> (0 < n)%nat -> all_done s ->
  Permutation (map l_level (g_log s)) (nrange 0 (max + 1)).
Proof.
  intros features max m n size s HM R Hn HD. destruct (log_lines features max m n size s HM R) as (H1 & H2 & H3).
  apply NoDup_Permutation; [exact H1 | apply ProofPrepare.nrange_NoDup|]. intros z. rewrite ProofPrepare.nrange_In. split.
  - intros H. apply in_map_iff in H as (l & <- & Hl). destruct (H2 l Hl) as [Z _]. lia.
  - intros Hz. apply (H3 Hn HD). lia.
Qed.
Print Assumptions c81_all_levels.

(** neither the statistics (stats_[...], stats_.at(...)) nor the ranges are left: threads go on until all are done; *)
Theorem c81_goes_on : forall features max m n size s, make_prepare_manager features max = Ok m -> log_reach size m n s ->
  all_done s \/ exists s', log_step size s s'.
Proof. exact log_goes_on. Qed.
Print Assumptions c81_goes_on.

(** but the number of tiles called "empty" is the number of tiles that are not empty, and the average of the others is the size of all of them, divided by the
    number of empty ones. *)
Theorem c81_empty_refuted : forall features max m n size s, make_prepare_manager features max = Ok m -> log_reach size m n s ->
  forall l, In l (g_log s) -> exists ds, level_done features s (l_level l) ds /\
    l_empty l = drawn_tiles size ds /\
    l_average l = if empty_tiles size ds =? 0 then None else Some (sum_of (fun e => size (fst e)) ds, empty_tiles size ds).
Proof.
  intros features max m n size s HM R l Hl. destruct (log_lines features max m n size s HM R) as (_ & H2 & _).
  destruct (H2 l Hl) as (Z & ds & A & _ & _ & B & C). eauto.
Qed.
Print Assumptions c81_empty_refuted.

(** ** A concrete case: features in two neighbouring tiles of zoom level 10, levels 0 to 1 are prepared by two threads; of the two tiles of level 1 one is empty *)
Definition c81_table : table := [(match tile_to_key (Tile 511 300 10) 0 with Ok k => k | _ => 0 end, []); (match tile_to_key (Tile 512 300 10) 0 with Ok k => k | _ => 0 end, [])].
Definition c81_size (t : tile) : N := if tx t =? 1 then 0 else 100.
Definition c81_man : pman := pm_make (Corners (Tile 511 300 10) (Tile 512 300 10)) 1.
Example c81_ex : make_prepare_manager c81_table 1 = Ok c81_man /\
  exists s, log_reach c81_size c81_man 2 s /\ all_done s /\ g_log s = [PLine 0 7 1 None 1; PLine 1 8 2 (Some (100, 1)) 1].
Proof.
  split; [vm_compute; reflexivity|].
  assert (R0 : log_reach c81_size c81_man 2 (PLog c81_man (repeat (PStats 0 0 0 0 0) 2) ([] ++ LTop :: [LTop]) [] [])) by exact (lr_init c81_size c81_man 2).
  assert (R1 : log_reach c81_size c81_man 2 (PLog (PMan 1 1 (pm_base c81_man) [Tile 0 0 1; Tile 1 0 1]) [PStats 1 0 0 0 0; PStats 0 0 0 0 0] ([LTiles [Tile 0 0 0]] ++ LTop :: []) [] [])).
  { eapply lr_step; [exact R0|]. apply (lg_batch c81_size c81_man (PMan 1 1 (pm_base c81_man) [Tile 0 0 1; Tile 1 0 1]) _ _ [Tile 0 0 0] [] [LTop]). vm_compute. reflexivity. }
  set (m2 := PMan 1 2 (pm_base c81_man) (tile_range_on_z (pm_base c81_man) 2)).
  assert (R2 : log_reach c81_size c81_man 2 (PLog m2 [PStats 1 0 0 0 0; PStats 2 0 0 0 0] ([LTiles [Tile 0 0 0]] ++ LTiles [Tile 0 0 1; Tile 1 0 1] :: []) [] [])).
  { eapply lr_step; [exact R1|]. apply (lg_batch c81_size (PMan 1 1 (pm_base c81_man) [Tile 0 0 1; Tile 1 0 1]) m2 _ [PStats 1 0 0 0 0; PStats 2 0 0 0 0] [Tile 0 0 1; Tile 1 0 1] [LTiles [Tile 0 0 0]] []). vm_compute. reflexivity. }
  assert (R3 : log_reach c81_size c81_man 2 (PLog m2 [PStats 1 0 0 0 0; PStats 2 1 1 100 5] ([LTiles [Tile 0 0 0]] ++ LTiles [Tile 1 0 1] :: []) [] [(Tile 0 0 1, 5)])).
  { eapply lr_step; [exact R2|]. apply (lg_finish c81_size m2 _ [PStats 1 0 0 0 0; PStats 2 1 1 100 5] (Tile 0 0 1) [Tile 1 0 1] [LTiles [Tile 0 0 0]] [] [] [] 5 []). vm_compute. reflexivity. }
  assert (R4 : log_reach c81_size c81_man 2 (PLog m2 [PStats 1 1 1 100 7; PStats 2 1 1 100 5] ([] ++ LTop :: [LTiles [Tile 1 0 1]]) [PLine 0 7 1 None 1] [(Tile 0 0 1, 5); (Tile 0 0 0, 7)])).
  { eapply lr_step; [exact R3|]. apply (lg_finish c81_size m2 _ [PStats 1 1 1 100 7; PStats 2 1 1 100 5] (Tile 0 0 0) [] [] [LTiles [Tile 1 0 1]] [] [PLine 0 7 1 None 1] 7 [(Tile 0 0 1, 5)]). vm_compute. reflexivity. }
  assert (R5 : log_reach c81_size c81_man 2 (PLog m2 [PStats 1 1 1 100 7; PStats 2 2 1 100 8] ([LTop] ++ LTop :: []) [PLine 0 7 1 None 1; PLine 1 8 2 (Some (100, 1)) 1] [(Tile 0 0 1, 5); (Tile 0 0 0, 7); (Tile 1 0 1, 3)])).
  { eapply lr_step; [exact R4|]. apply (lg_finish c81_size m2 _ [PStats 1 1 1 100 7; PStats 2 2 1 100 8] (Tile 1 0 1) [] [LTop] [] [PLine 0 7 1 None 1] [PLine 1 8 2 (Some (100, 1)) 1] 3 [(Tile 0 0 1, 5); (Tile 0 0 0, 7)]). vm_compute. reflexivity. }
  assert (R6 : log_reach c81_size c81_man 2 (PLog m2 [PStats 1 1 1 100 7; PStats 2 2 1 100 8] ([] ++ LTop :: [LExit]) [PLine 0 7 1 None 1; PLine 1 8 2 (Some (100, 1)) 1] [(Tile 0 0 1, 5); (Tile 0 0 0, 7); (Tile 1 0 1, 3)])).
  { eapply lr_step; [exact R5|]. apply (lg_batch c81_size m2 m2 [PStats 1 1 1 100 7; PStats 2 2 1 100 8] [PStats 1 1 1 100 7; PStats 2 2 1 100 8] [] [LTop] []). vm_compute. reflexivity. }
  exists (PLog m2 [PStats 1 1 1 100 7; PStats 2 2 1 100 8] ([] ++ LExit :: [LExit]) [PLine 0 7 1 None 1; PLine 1 8 2 (Some (100, 1)) 1] [(Tile 0 0 1, 5); (Tile 0 0 0, 7); (Tile 1 0 1, 3)]).
  split; [|split; [repeat constructor | reflexivity]]. eapply lr_step; [exact R6|]. apply (lg_batch c81_size m2 m2 [PStats 1 1 1 100 7; PStats 2 2 1 100 8] [PStats 1 1 1 100 7; PStats 2 2 1 100 8] [] [] [LExit]). vm_compute. reflexivity.
Qed.
(** at level 0 the only tile is not empty *)
Example c81_ex_wrong : exists s l ds, log_reach c81_size c81_man 2 s /\ In l (g_log s) /\ level_done c81_table s (l_level l) ds /\ empty_tiles c81_size ds = 0 /\ l_empty l = 1.
Proof.
  destruct c81_ex as (HM & s & R & HD & E). destruct (c81_empty_refuted _ _ _ _ _ _ HM R (PLine 0 7 1 None 1)) as (ds & A & B & C); [rewrite E; left; reflexivity|].
  exists s, (PLine 0 7 1 None 1), ds. split; [exact R|]. split; [rewrite E; left; reflexivity|]. split; [exact A|]. split; [|reflexivity]. cbn [l_average] in C. destruct (N.eqb_spec (empty_tiles c81_size ds) 0); [assumption | discriminate C].
Qed.
