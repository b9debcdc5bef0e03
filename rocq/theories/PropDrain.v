(** C32: draining the queues at the end of an import stage. *)
From Coq Require Import Permutation.
From Verif Require Import Base ModelDrain SpecDrain ProofDrain.
Open Scope N_scope.

(** C32, load_coastlines: in every schedule, when the storing thread leaves its loop no
    task and no result is left anywhere, and what was inserted together with what was
    recorded as seaside is exactly everything the initial tasks result in *)
Theorem c32_coastlines_drained : forall G D Z (proc : G -> list (out G D Z)) tasks n s,
  creach proc tasks n s -> c_main s = MExit ->
  c_geo s = [] /\ c_db s = [] /\ Forall (fun w => w = WTop \/ w = WDeq \/ w = WExit) (c_workers s) /\
  outcome proc (map OTask tasks) (map inl (c_inserted s) ++ map inr (c_sea s)).
Proof. intros G D Z. exact (@coast_drained G D Z). Qed.
Print Assumptions c32_coastlines_drained.

(** C32, load_coastlines: from then on nothing changes any more *)
Theorem c32_coastlines_final : forall G D Z (proc : G -> list (out G D Z)) tasks n s s',
  creach proc tasks n s -> c_main s = MExit -> cstep proc s s' ->
  c_main s' = MExit /\ c_inserted s' = c_inserted s /\ c_sea s' = c_sea s.
Proof. intros G D Z. exact (@coast_stays G D Z). Qed.
Print Assumptions c32_coastlines_final.

(** C32, repack_features: the claim is false.  With one task and one worker there is a
    schedule in which the drain ends while the task's result is still in the queue: the
    main thread reads "no results pending", the worker hands over its result and
    finishes, the main thread reads "no work pending" and stops. *)
Theorem c32_repack_refuted : exists s, rreach (fun g : bool => negb g) [true] 1 s /\ r_main s = RExit /\
  r_inserted s = [] /\ r_res s = [false] /\ final_check s = Throw.
Proof.
  exists (Rst 0 [] 1 [false] [KTop] RExit []). split; [|repeat split].
  pose proof (rr_init (fun g : bool => negb g) [true] 1) as R. unfold rst_init in R. cbn [repeat] in R.
  eapply rr_step in R. 2: exact (r_inc _ 0 [] 0 [] [KTop] true [] []).
  eapply rr_step in R. 2: exact (r_push _ 1 [] 0 [] [KTop] true [] []).
  eapply rr_step in R. 2: exact (k_take _ 1 [] true [] 0 [] [] [] (RWork []) []).
  eapply rr_step in R. 2: exact (r_drain _ 1 [] 0 [] [KRun true] []).
  eapply rr_step in R. 2: exact (r_res_fin _ 1 [] 0 [] [KRun true] [] eq_refl).
  eapply rr_step in R. 2: exact (k_inc _ 1 [] 0 [] [] true [] RBoth []).
  eapply rr_step in R. 2: exact (k_push _ 1 [] 1 [] [] false [] RBoth []).
  eapply rr_step in R. 2: exact (k_finish _ 1 [] 1 [false] [] [] RBoth []).
  eapply rr_step in R. 2: exact (r_work_fin _ 0 [] 1 [false] [KTop] [] eq_refl).
  exact R.
Qed.
Print Assumptions c32_repack_refuted.

(** C32, repack_features, what does hold: a missed result is never lost silently.  When
    the drain ends every task was packed, what was not processed is still in the result
    queue, and the final check throws unless everything was processed.  (Missing: that
    everything is processed.) *)
Theorem c32_repack_partial : forall G D (pack : G -> D) tasks n s, rreach pack tasks n s -> r_main s = RExit ->
  r_work s = [] /\ Forall (fun k => k = KTop) (r_threads s) /\ Permutation (map pack tasks) (r_res s ++ r_inserted s) /\
  (final_check s = Ok tt <-> Permutation (map pack tasks) (r_inserted s)) /\ (final_check s = Ok tt \/ final_check s = Throw).
Proof. intros G D. exact (@repack_drained G D). Qed.
Print Assumptions c32_repack_partial.

(** non-vacuity, load_coastlines: a task that spawns a task and a result; the spawned one
    finds sea *)
Definition ex_proc (g : bool) : list (out bool N N) := if g then [OTask false; OResult 7] else [OSea 3].
Example c32_ex : exists s, creach ex_proc [true] 1 s /\ c_main s = MExit /\ c_inserted s = [7] /\ c_sea s = [3].
Proof.
  exists (Cst 0 [] 0 [] [WTop] MExit [7] [3]). split; [|repeat split].
  pose proof (cr_init ex_proc [true] 1) as R. unfold cst_init in R. cbn [repeat length] in R.
  change (N.of_nat 1) with 1 in R.
  eapply cr_step in R. 2: { apply (w_go ex_proc 1 [true] 0 [] [] []). discriminate. }
  eapply cr_step in R. 2: exact (w_take ex_proc 1 [] true [] 0 [] [] [] MTop [] []).
  eapply cr_step in R. 2: exact (w_inc_task ex_proc 1 [] 0 [] [] [] MTop [] [] false [OResult 7]).
  eapply cr_step in R. 2: exact (w_push_task ex_proc 2 [] 0 [] [] [] MTop [] [] false [OResult 7]).
  eapply cr_step in R. 2: exact (w_inc_result ex_proc 2 [false] 0 [] [] [] MTop [] [] 7 []).
  eapply cr_step in R. 2: exact (w_push_result ex_proc 2 [false] 1 [] [] [] MTop [] [] 7 []).
  eapply cr_step in R. 2: exact (w_finish ex_proc 2 [false] 1 [7] [] [] MTop [] []).
  eapply cr_step in R. 2: { apply (w_go ex_proc 1 [false] 1 [7] [] []). discriminate. }
  eapply cr_step in R. 2: exact (w_take ex_proc 1 [] false [] 1 [7] [] [] MTop [] []).
  eapply cr_step in R. 2: exact (w_sea ex_proc 1 [] 1 [7] [] [] MTop [] [] 3 []).
  eapply cr_step in R. 2: exact (w_finish ex_proc 1 [] 1 [7] [] [] MTop [] [3]).
  eapply cr_step in R. 2: exact (m_geo_fin ex_proc 0 [] 1 [7] [WTop] [] [3] eq_refl).
  eapply cr_step in R. 2: { apply (m_db_more ex_proc 0 [] 1 [7] [WTop]). discriminate. }
  eapply cr_step in R. 2: exact (m_take ex_proc 0 [] 1 [] 7 [] [WTop] [] [3]).
  eapply cr_step in R. 2: exact (m_insert ex_proc 0 [] 1 [] [WTop] 7 [] [3]).
  eapply cr_step in R. 2: exact (m_finish ex_proc 0 [] 1 [] [WTop] [7] [3]).
  eapply cr_step in R. 2: exact (m_geo_fin ex_proc 0 [] 0 [] [WTop] [7] [3] eq_refl).
  eapply cr_step in R. 2: exact (m_db_fin ex_proc 0 [] 0 [] [WTop] [7] [3] eq_refl).
  exact R.
Qed.
