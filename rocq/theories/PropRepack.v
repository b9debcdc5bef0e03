(** Repacking: C36, C37, C55, C56. *)
From Coq Require Import Permutation Sorted Relation_Operators.
From Verif Require Import Base BaseProof ModelTile SpecTile ModelPackFile SpecPackFile ModelTable ModelRender ModelRepack SpecDict SpecRepack ProofDict ProofRepackRun ProofRepackEnd ProofPackDb.
Open Scope N_scope.

(** ** C36 *)
(** At every moment: what is still to be read is what was there at the start, what is in flight was
    read correctly, and every update handed to the callback refers to the packed bytes. *)
Theorem c36_intact : forall qsort rsort tsort pack limit batch pf0 tasks,
  sorts_positions qsort -> reorders rsort -> reorders tsort -> (forall t ps, pack t ps <> []) ->
  pf_inv pf0 -> pf_size pf0 < 2 ^ 64 -> valid_layout pf0 (flat_map snd tasks) ->
  forall s, rp_reach qsort rsort tsort pack limit batch pf0 tasks s ->
    (r_pc s <> RpThrown ->
      (forall t, In t (g_tasks (r_mgr s)) -> exists ps, read_task (g_pf (r_mgr s)) t = Ok ps /\ is_input pf0 tasks (fst t, ps)) /\
      (forall w, In w (r_fly s) -> is_input pf0 tasks w)) /\
    (forall u, In u (concat (r_out s)) -> exists t, In t (filled tasks) /\ repacked pack pf0 (g_pf (r_mgr s)) t u).
Proof.
  intros qsort rsort tsort pack limit batch pf0 tasks Hq Hr Ht Hp HI HS HL s HR.
  pose proof (reach_inv qsort rsort tsort pack limit batch Hq Hr Ht Hp pf0 tasks HI HS HL s HR) as Inv. split.
  - exact (intact rsort tsort pack Hr Ht pf0 tasks HS s Inv).
  - intros u Hu. apply (assigned_ok rsort tsort pack Hr Ht pf0 tasks HS s u Inv). apply in_app_iff. auto.
Qed.
Print Assumptions c36_intact.

(** At the end every tile of the input has exactly one update, which refers to the packed bytes;
    the file contains nothing else and no two updates overlap. *)
Theorem c36_complete : forall qsort rsort tsort pack limit batch pf0 tasks,
  sorts_positions qsort -> reorders rsort -> reorders tsort -> (forall t ps, pack t ps <> []) ->
  pf_inv pf0 -> pf_size pf0 < 2 ^ 64 -> valid_layout pf0 (flat_map snd tasks) ->
  forall s, rp_reach qsort rsort tsort pack limit batch pf0 tasks s -> r_pc s = RpDone ->
    (exists ts, Permutation ts (filled tasks) /\ Forall2 (repacked pack pf0 (g_pf (r_mgr s))) ts (concat (r_out s))) /\
    pf_size (g_pf (r_mgr s)) = total_size (map snd (concat (r_out s))) /\
    ForallOrdPairs apart (map snd (concat (r_out s))).
Proof.
  intros qsort rsort tsort pack limit batch pf0 tasks Hq Hr Ht Hp HI HS HL s HR Hd.
  pose proof (reach_inv qsort rsort tsort pack limit batch Hq Hr Ht Hp pf0 tasks HI HS HL s HR) as Inv.
  pose proof (done_flushed qsort rsort tsort pack limit batch pf0 tasks s HR (or_introl Hd)) as E.
  split.
  - destruct (complete rsort tsort pack Hr Ht pf0 tasks HS s Inv Hd) as (ts & P & F). rewrite E, app_nil_r in F. exists ts. split; assumption.
  - destruct (compacted rsort tsort pack pf0 tasks HS s Inv Hd) as [C1 C2]. unfold assigned in *. rewrite E, app_nil_r in *. split; assumption.
Qed.
Print Assumptions c36_complete.

(** No state is stuck (no access outside the file, no endless loop in the defragmentation), and an
    exception comes only from the defragmentation or from the final check. *)
Theorem c36_defined : forall qsort rsort tsort pack limit batch pf0 tasks,
  sorts_positions qsort -> reorders rsort -> reorders tsort -> (forall t ps, pack t ps <> []) ->
  pf_inv pf0 -> pf_size pf0 < 2 ^ 64 -> valid_layout pf0 (flat_map snd tasks) ->
  forall s, rp_reach qsort rsort tsort pack limit batch pf0 tasks s ->
    (r_pc s = RpDone \/ r_pc s = RpThrown \/ exists s', rp_step qsort pack limit batch s s') /\
    (forall s', rp_step qsort pack limit batch s s' -> r_pc s' = RpThrown -> r_pc s = RpDefrag \/ r_pc s = RpCheck).
Proof.
  intros qsort rsort tsort pack limit batch pf0 tasks Hq Hr Ht Hp HI HS HL s HR.
  pose proof (reach_inv qsort rsort tsort pack limit batch Hq Hr Ht Hp pf0 tasks HI HS HL s HR) as Inv. split.
  - pose proof (progress qsort rsort tsort pack limit batch Hq Hp pf0 tasks HI HS s Inv) as P.
    destruct (r_pc s); auto; right; right; apply P; discriminate.
  - intros s' H. exact (proj2 (step_inv qsort rsort tsort pack limit batch Hq Hp pf0 tasks HI HS s s' Inv H)).
Qed.
Print Assumptions c36_defined.

(** and every schedule ends: there is no infinite sequence of steps *)
Theorem c36_terminates : forall qsort pack limit batch, batch <> O ->
  forall s, Acc (fun b a => rp_step qsort pack limit batch a b) s.
Proof. exact all_acc. Qed.
Print Assumptions c36_terminates.

(** ** C55: does it succeed? *)
(** The defragmentation does not fail if everything fits into the memory used for work in flight,
    or if every tile has one record (a database that was packed before) and more space is free than
    the largest record takes. *)
Theorem c55_partial : forall qsort rsort tsort pack limit batch pf0 tasks,
  sorts_positions qsort -> reorders rsort -> reorders tsort -> (forall t ps, pack t ps <> []) ->
  pf_inv pf0 -> pf_size pf0 < 2 ^ 64 -> valid_layout pf0 (flat_map snd tasks) ->
  (total_size (flat_map snd tasks) < limit /\ 0 < pf_size pf0 \/
   largest_size (flat_map snd tasks) + total_size (flat_map snd tasks) < pf_size pf0 /\ sorts task_gtb tsort /\ Forall (fun t => (length (snd t) <= 1)%nat) tasks) ->
  forall s s', rp_reach qsort rsort tsort pack limit batch pf0 tasks s -> r_pc s = RpDefrag -> rp_step qsort pack limit batch s s' -> r_pc s' = RpLoop.
Proof.
  intros qsort rsort tsort pack limit batch pf0 tasks Hq Hr Ht Hp HI HS HL HC s s' HR Hd H.
  pose proof (defrag_ok_state qsort rsort tsort pack limit batch Hq Hr Ht Hp pf0 tasks HI HS HL s HR Hd HC) as N.
  destruct H; try discriminate; [reflexivity|]. cbn [r_mgr] in N. contradiction.
Qed.
Print Assumptions c55_partial.

(** Then there are schedules with which it succeeds, from the start and from every state in which it has not failed
    and the last loop has not been left too early (C32). *)
Theorem c55_can_complete : forall qsort rsort tsort pack limit batch pf0 tasks,
  sorts_positions qsort -> reorders rsort -> reorders tsort -> (forall t ps, pack t ps <> []) -> batch <> O ->
  pf_inv pf0 -> pf_size pf0 < 2 ^ 64 -> valid_layout pf0 (flat_map snd tasks) ->
  (total_size (flat_map snd tasks) < limit /\ 0 < pf_size pf0 \/
   largest_size (flat_map snd tasks) + total_size (flat_map snd tasks) < pf_size pf0 /\ sorts task_gtb tsort /\ Forall (fun t => (length (snd t) <= 1)%nat) tasks) ->
  forall s, rp_reach qsort rsort tsort pack limit batch pf0 tasks s -> r_pc s <> RpThrown -> (r_pc s = RpFlush3 \/ r_pc s = RpCheck -> r_fly s = []) ->
  exists s', clos_refl_trans_1n _ (rp_step qsort pack limit batch) s s' /\ r_pc s' = RpDone.
Proof.
  intros qsort rsort tsort pack limit batch pf0 tasks Hq Hr Ht Hp Hb HI HS HL HR s R H1 H2.
  exact (runs_to_done qsort rsort tsort pack limit batch Hb Hq Hr Ht Hp pf0 tasks HI HS HL HR s R (conj H1 H2)).
Qed.
Print Assumptions c55_can_complete.

(** ** C56: the database *)
(** When repacking has finished, every tile that had features has one entry, which refers to what
    the packing function makes of all packs of this tile; no other tile has one. *)
Theorem c56_completed : forall qsort rsort tsort pack limit batch pf0 db tbl,
  sorts_positions qsort -> reorders rsort -> reorders tsort -> (forall t ps, pack t ps <> []) ->
  Forall2 stores db tbl -> table_sorted tbl -> Forall (fun d => snd d <> []) db ->
  pf_inv pf0 -> pf_size pf0 < 2 ^ 64 -> valid_layout pf0 (flat_map snd db) ->
  exists tasks, read_tasks [] tbl = Ok tasks /\
  forall s, rp_reach qsort rsort tsort pack limit batch pf0 tasks s -> r_pc s = RpDone ->
    exists T, packed_table (r_out s) = Ok T /\ table_sorted T /\
      (forall t k, tile_to_key t 0 = Ok k ->
         (tile_records db t = [] /\ table_get T k = None) \/
         (tile_records db t <> [] /\ exists v, table_get T k = Some v /\ good_entry pack pf0 db (g_pf (r_mgr s)) t v)) /\
      (forall k v, In (k, v) T -> exists t, tile_to_key t 0 = Ok k).
Proof.
  intros qsort rsort tsort pack limit batch pf0 db tbl Hq Hr Ht Hp Hs HT Hne HI HS HL.
  destruct (tasks_of_db db tbl Hs HT Hne) as (tasks & H & _). exists tasks. split; [exact H|]. intros s HR Hd.
  exact (table_done qsort rsort tsort pack limit batch Hq Hr Ht Hp pf0 db tbl Hs HT Hne HI HS HL tasks H s HR Hd).
Qed.
Print Assumptions c56_completed.

(** After every number of committed transactions: every entry the table has is good. *)
Theorem c56_entries : forall qsort rsort tsort pack limit batch pf0 db tbl,
  sorts_positions qsort -> reorders rsort -> reorders tsort -> (forall t ps, pack t ps <> []) ->
  Forall2 stores db tbl -> table_sorted tbl -> Forall (fun d => snd d <> []) db ->
  pf_inv pf0 -> pf_size pf0 < 2 ^ 64 -> valid_layout pf0 (flat_map snd db) ->
  exists tasks, read_tasks [] tbl = Ok tasks /\
  forall s, rp_reach qsort rsort tsort pack limit batch pf0 tasks s ->
    exists T, packed_table (r_out s) = Ok T /\ table_sorted T /\
      (forall k v, table_get T k = Some v -> exists t, tile_to_key t 0 = Ok k /\ tile_records db t <> [] /\ good_entry pack pf0 db (g_pf (r_mgr s)) t v).
Proof.
  intros qsort rsort tsort pack limit batch pf0 db tbl Hq Hr Ht Hp Hs HT Hne HI HS HL.
  destruct (tasks_of_db db tbl Hs HT Hne) as (tasks & H & G). exists tasks. split; [exact H|]. intros s HR.
  destruct (table_now qsort rsort tsort pack limit batch Hq Hr Ht Hp pf0 db tbl Hs HT Hne HI HS HL tasks H s HR) as (T & Q1 & Q2 & _ & Q4 & Q5).
  exists T. split; [exact Q1|]. split; [exact Q2|]. intros k v Hk. destruct (Q4 k v Hk) as (t & r & H1 & H2 & ->). exists t. split; [exact H2|].
  destruct (Q5 t r H1) as [H3 H4]. split; [|exact H3]. destruct (gr_from _ _ G t H4) as (d & D1 & D2).
  exact (tile_records_some db t d D1 D2 (proj1 (Forall_forall _ _) Hne d D1)).
Qed.
Print Assumptions c56_entries.

(** ** examples *)
Definition ex_q (lt : nat -> nat -> bool) : list nat -> list nat := isort lt.
Definition ex_r := isort off_gtb.
Definition ex_t := isort task_gtb.
Lemma ex_q_sorts : sorts_positions ex_q.
Proof. intros rs l. cbn beta zeta. apply isort_sorts; unfold rec_ltb; intros; lia. Qed.
Lemma ex_r_sorts : reorders ex_r.
Proof. intros l. apply (isort_sorts off_gtb); unfold off_gtb; intros; lia. Qed.
Lemma ex_t_sorts : sorts task_gtb ex_t.
Proof. apply isort_sorts; unfold task_gtb; intros; lia. Qed.
Definition ex_pack (t : tile) (ps : list bytes) : bytes := 1 :: concat ps.
Definition ex_tile (i : N) : tile := Tile i 0 10.

(** Layouts for which it fails, although there is more free space than any record takes: the tile
    with the most records is defragmented last, and the blockers get in each other's way.  The
    first task (20 bytes, at the very front and in a gap) is in flight. *)
Definition ex_bad : list task :=
  [(ex_tile 0, [Rec 0 1; Rec 41 19]); (ex_tile 1, [Rec 28 8]); (ex_tile 2, [Rec 20 8]); (ex_tile 3, [Rec 12 8]);
   (ex_tile 4, [Rec 2 10]); (ex_tile 5, [Rec 1 1; Rec 39 2; Rec 60 2])].
Definition ex_file (n : nat) : pfile := PFile (repeat 7 n) (N.of_nat n).

Ltac pairs := repeat first [apply FOP_nil | apply FOP_cons | apply Forall_nil | apply Forall_cons]; unfold apart; cbn [r_off r_size]; lia.
Ltac each := repeat first [apply Forall_nil | apply Forall_cons]; (vm_compute; split; [reflexivity|discriminate]).

Theorem c55_refuted : exists s,
  pf_inv (ex_file 69) /\ valid_layout (ex_file 69) (flat_map snd ex_bad) /\
  rp_reach ex_q ex_r ex_t ex_pack 20 32 (ex_file 69) ex_bad s /\ r_pc s = RpThrown /\ r_out s = [] /\
  3 * largest_size (flat_map snd (g_tasks (r_mgr s))) <= pf_size (g_pf (r_mgr s)) - total_size (flat_map snd (g_tasks (r_mgr s))).
Proof.
  pose proof (rp_init ex_q ex_r ex_t ex_pack 20 32 (ex_file 69) ex_bad) as R.
  eapply rp_next in R. 2:{ eapply rp_first; [vm_compute; discriminate|reflexivity|vm_compute; reflexivity]. }
  eapply rp_next in R. 2:{ apply rp_first_end. right. vm_compute. discriminate. }
  eapply rp_next in R. 2:{ apply rp_defrag_throw. vm_compute. reflexivity. }
  eexists. split; [vm_compute; discriminate|]. split; [|split; [exact R|]].
  - split; [cbn [flat_map snd ex_bad app]; each|]. cbn [flat_map snd ex_bad app]. pairs.
  - split; [reflexivity|]. split; [reflexivity|]. vm_compute. discriminate.
Qed.
Print Assumptions c55_refuted.

(** an empty database with an empty pack file *)
Theorem c55_empty_refuted : exists s,
  rp_reach ex_q ex_r ex_t ex_pack 20 32 pf_empty [] s /\ r_pc s = RpThrown.
Proof.
  pose proof (rp_init ex_q ex_r ex_t ex_pack 20 32 pf_empty []) as R.
  eapply rp_next in R. 2:{ apply rp_first_end. left. reflexivity. }
  eapply rp_next in R. 2:{ apply rp_defrag_throw. vm_compute. reflexivity. }
  eexists. split; [exact R|reflexivity].
Qed.
Print Assumptions c55_empty_refuted.

(** A run with defragmentation, an inserted result, a stashed one and one appended at the end. *)
Definition ex_mem : bytes := [9; 9; 11; 12; 9; 9; 21; 9; 31; 32; 33; 9; 41; 9; 9; 9].
Definition ex_run_file : pfile := PFile ex_mem 16.
Definition ex_tasks : list task := [(ex_tile 1, [Rec 2 2; Rec 8 3]); (ex_tile 2, [Rec 6 1]); (ex_tile 3, [Rec 12 1]); (ex_tile 4, [])].
Ltac rstep R c := eapply rp_next in R; [|c]; vm_compute in R.
Example c36_ex : exists s, valid_layout ex_run_file (flat_map snd ex_tasks) /\
  rp_reach ex_q ex_r ex_t ex_pack 3 1 ex_run_file ex_tasks s /\ r_pc s = RpDone /\
  concat (r_out s) = [(ex_tile 1, Rec 0 6); (ex_tile 2, Rec 6 2); (ex_tile 3, Rec 8 2)] /\
  map (pf_get (g_pf (r_mgr s))) (map snd (concat (r_out s))) = [Ok [1; 31; 32; 33; 11; 12]; Ok [1; 21]; Ok [1; 41]].
Proof.
  pose proof (rp_init ex_q ex_r ex_t ex_pack 3 1 ex_run_file ex_tasks) as R. vm_compute in R.
  rstep R ltac:(apply rp_first with (ps := [[31; 32; 33]; [11; 12]]); [discriminate|reflexivity|reflexivity]).
  rstep R ltac:(apply rp_first_end; right; discriminate).
  rstep R ltac:(eapply rp_defrag; vm_compute; reflexivity).
  rstep R ltac:(apply rp_loop; discriminate).
  rstep R ltac:(eapply (rp_result _ _ _ _ _ [] _ _ []); vm_compute; reflexivity).
  rstep R ltac:(apply rp_deq_end).
  rstep R ltac:(apply rp_flush).
  rstep R ltac:(eapply rp_enq; [discriminate|vm_compute; reflexivity]).
  rstep R ltac:(apply rp_enq_end; right; reflexivity).
  rstep R ltac:(apply rp_loop; discriminate).
  rstep R ltac:(eapply (rp_result _ _ _ _ _ [] _ _ []); vm_compute; reflexivity).
  rstep R ltac:(apply rp_deq_end).
  rstep R ltac:(apply rp_flush).
  rstep R ltac:(eapply rp_enq; [discriminate|vm_compute; reflexivity]).
  rstep R ltac:(apply rp_enq_end; right; reflexivity).
  rstep R ltac:(apply rp_loop_end; reflexivity).
  rstep R ltac:(eapply rp_stash; vm_compute; reflexivity).
  rstep R ltac:(apply rp_flush2).
  rstep R ltac:(eapply (rp_drain _ _ _ _ _ [] _ _ []); vm_compute; reflexivity).
  rstep R ltac:(apply rp_drain_end).
  rstep R ltac:(apply rp_flush3).
  rstep R ltac:(apply rp_check; reflexivity).
  eexists. split; [|split; [exact R|split; [reflexivity|split; reflexivity]]].
  split; [cbn [flat_map snd ex_tasks app]; each|]. cbn [flat_map snd ex_tasks app]. pairs.
Qed.

(** The table is cleared, and the clearing committed, before the repacking: a crash at the start (or
    the exception of c55_refuted) leaves a database without any feature. *)
Definition ex_db : list (tile * N * list pack_record) := map (fun t => (fst t, 0, snd t)) ex_bad.
Definition ex_tbl : table := match map_res (fun t => do k <- tile_to_key (fst t) 0; Ok (k, pack_records_serialize (snd t))) ex_bad with Ok T => T | _ => [] end.

Theorem c37_crash_refuted : exists tasks s1 s2,
  Forall2 stores ex_db ex_tbl /\ table_sorted ex_tbl /\ Forall (fun d => snd d <> []) ex_db /\ valid_layout (ex_file 69) (flat_map snd ex_db) /\
  read_tasks [] ex_tbl = Ok tasks /\
  rp_reach ex_q ex_r ex_t ex_pack 20 32 (ex_file 69) tasks s1 /\ packed_table (r_out s1) = Ok [] /\ r_pc s1 <> RpThrown /\
  rp_reach ex_q ex_r ex_t ex_pack 20 32 (ex_file 69) tasks s2 /\ packed_table (r_out s2) = Ok [] /\ r_pc s2 = RpThrown /\
  length (tile_records ex_db (ex_tile 5)) = 3%nat.
Proof.
  destruct c55_refuted as (s & _ & HL & HR & H1 & H2 & _).
  exists ex_bad, (rst_start ex_r ex_t (ex_file 69) ex_bad), s.
  split. { repeat first [apply Forall2_nil|apply Forall2_cons]; (split; [reflexivity|]; split; [|reflexivity]; cbn [snd]; repeat constructor; vm_compute; reflexivity). }
  split. { vm_compute. repeat (split; [repeat (apply Forall_cons; [reflexivity|]); apply Forall_nil|]). exact I. }
  split. { repeat constructor; discriminate. }
  split. { exact HL. }
  split. { vm_compute. reflexivity. }
  split; [apply rp_init|]. split; [reflexivity|]. split; [discriminate|]. split; [exact HR|]. rewrite H2. split; [reflexivity|]. split; [exact H1|reflexivity].
Qed.
Print Assumptions c37_crash_refuted.

(** the hypotheses of c56_completed are met by a database with a tile in two entries, and the run
    of c36_ex is one for it *)
Definition ex_db2 : list (tile * N * list pack_record) := [(ex_tile 1, 0, [Rec 2 2]); (ex_tile 1, 3, [Rec 8 3]); (ex_tile 2, 1, [Rec 6 1])].
Definition ex_tbl2 : table := match map_res (fun d => do k <- tile_to_key (fst (fst d)) (snd (fst d)); Ok (k, pack_records_serialize (snd d))) ex_db2 with Ok T => T | _ => [] end.
Example c56_ex : Forall2 stores ex_db2 ex_tbl2 /\ table_sorted ex_tbl2 /\ Forall (fun d => snd d <> []) ex_db2 /\
  pf_inv ex_run_file /\ valid_layout ex_run_file (flat_map snd ex_db2) /\ tile_records ex_db2 (ex_tile 1) = [Rec 2 2; Rec 8 3].
Proof.
  split. { repeat first [apply Forall2_nil|apply Forall2_cons]; (split; [reflexivity|]; split; [|reflexivity]; cbn [snd]; repeat constructor; vm_compute; reflexivity). }
  split. { vm_compute. repeat (split; [repeat (apply Forall_cons; [reflexivity|]); apply Forall_nil|]). exact I. }
  split. { repeat constructor; discriminate. }
  split. { vm_compute. discriminate. }
  split; [|reflexivity].
  split; [cbn [flat_map snd ex_db2 app]; each|]. cbn [flat_map snd ex_db2 app]. pairs.
Qed.
