(** C31: the in-order queue, for every schedule of any number of threads. *)
From Coq Require Import Permutation Sorting.Sorted Wf_nat.
From Verif Require Import Base ModelQueue SpecQueue ProofQueue.
Open Scope N_scope.

(** C31: in every reachable state the consumer has run for the items 0, 1, 2, ..., one
    at a time and each once; at most the next one is still running (or threw, and then
    nothing runs after it) *)
Theorem c31_in_order : forall T (srt : list (item T) -> list (item T)) n s, sorts_desc srt -> ioq_reach srt n s ->
  exists done last, q_trace s = one_by_one done ++ last /\ numbered done /\ incl done (q_calls s) /\
    (last = [] \/ exists x, (last = [Begin x] \/ last = [Begin x; Threw x]) /\
                            fst x = N.of_nat (length done) /\ In x (q_calls s)).
Proof. intros T. exact (@in_order T). Qed.
Print Assumptions c31_in_order.

(** C31: whenever no thread is inside a call, everything that can be consumed was
    consumed: the item next in order was never passed in, and the queue holds exactly
    the items after that gap *)
Theorem c31_nothing_left_behind : forall T (srt : list (item T) -> list (item T)) n s, sorts_desc srt ->
  ioq_reach srt n s -> quiet s -> no_throw s ->
  exists done, q_trace s = one_by_one done /\ numbered done /\ Permutation (q_calls s) (done ++ q_queue s) /\
    ~ In (N.of_nat (length done)) (map fst (q_calls s)).
Proof. intros T. exact (@nothing_left T). Qed.
Print Assumptions c31_nothing_left_behind.

(** C31: all of 0 .. k-1 passed in, in any order by any threads: all consumed, in order *)
Theorem c31_all_consumed : forall T (srt : list (item T) -> list (item T)) n s k, sorts_desc srt ->
  ioq_reach srt n s -> quiet s -> no_throw s ->
  Permutation (map fst (q_calls s)) (map N.of_nat (seq 0 k)) ->
  exists done, q_trace s = one_by_one done /\ numbered done /\ Permutation done (q_calls s) /\ q_queue s = [].
Proof. intros T. exact (@all_consumed T). Qed.
Print Assumptions c31_all_consumed.

(** C31: a thread inside a call can always go on (no deadlock) *)
Theorem c31_no_deadlock : forall T (srt : list (item T) -> list (item T)) s, ~ quiet s ->
  exists s', ioq_step srt s s' /\ q_calls s' = q_calls s.
Proof. intros T. exact (@can_go_on T). Qed.
Print Assumptions c31_no_deadlock.

(** C31: without new calls only finitely many steps are possible, so all calls return *)
Theorem c31_terminates : forall T (srt : list (item T) -> list (item T)), sorts_desc srt ->
  well_founded (fun s' s : ioq T => ioq_step srt s s' /\ q_calls s' = q_calls s).
Proof.
  intros T srt Hs. apply (well_founded_lt_compat _ (@effort T)). intros s' s [H1 H2]. exact (effort_step srt s s' Hs H1 H2).
Qed.
Print Assumptions c31_terminates.

(** C31, fed by sequential_until_finish: once the source has ended and the threads are
    done, the consumer saw exactly the source's items in the source's order *)
Theorem c31_pipeline : forall T (srt : list (item T) -> list (item T)) n src u s, sorts_desc srt ->
  feed_reach srt n src (u, s) -> quiet s -> no_throw s -> u_finished u = true ->
  exists done, q_trace s = one_by_one done /\ numbered done /\ map snd done = src /\ q_queue s = [].
Proof. intros T. exact (@feed_complete T). Qed.
Print Assumptions c31_pipeline.

(** non-vacuity: two threads, the later item arrives while the earlier one runs *)
Fixpoint ins_desc (x : item bool) (l : list (item bool)) : list (item bool) :=
  match l with [] => [x] | y :: r => if fst x <=? fst y then y :: ins_desc x r else x :: l end.
Definition isort_desc (l : list (item bool)) : list (item bool) := fold_right ins_desc [] l.
Lemma isort_desc_ok : sorts_desc isort_desc.
Proof.
  assert (P : forall x l, Permutation (ins_desc x l) (x :: l)).
  { intros x l. induction l as [|y r IH]; cbn [ins_desc]; auto. destruct (fst x <=? fst y); auto.
    rewrite IH. apply perm_swap. }
  assert (S1 : forall x l, StronglySorted (fun a b : item bool => fst b <= fst a) l ->
     StronglySorted (fun a b : item bool => fst b <= fst a) (ins_desc x l)).
  { intros x l. induction l as [|y r IH]; cbn [ins_desc]; intros H. { repeat constructor. }
    apply StronglySorted_inv in H as [H1 H2]. destruct (fst x <=? fst y) eqn:E.
    - constructor; auto. apply Forall_forall. intros z Hz. rewrite (P x r) in Hz. destruct Hz as [<-|Hz].
      + apply N.leb_le. exact E. + exact (proj1 (Forall_forall _ _) H2 z Hz).
    - apply N.leb_gt in E. constructor; [constructor; auto|]. constructor; [lia|].
      eapply Forall_impl; [|exact H2]. cbn beta. intros z Hz. lia. }
  intros l. split.
  - induction l as [|x l IH]; cbn [isort_desc fold_right]; auto. fold (isort_desc l). rewrite P, IH. reflexivity.
  - induction l as [|x l IH]; cbn [isort_desc fold_right]; [constructor|]. apply S1. exact IH.
Qed.

(** items 1 then 0: item 1 is queued first, the thread with item 0 then consumes both *)
Example c31_ex : exists s, ioq_reach isort_desc 2 s /\ quiet s /\ no_throw s /\
  Permutation (map fst (q_calls s)) (map N.of_nat (seq 0 2)) /\
  q_trace s = [Begin (0, true); End (0, true); Begin (1, false); End (1, false)].
Proof.
  set (x := (0, true)). set (y := (1, false)).
  exists (Ioq false false 2 [] [Idle; Idle] [y; x] [Begin x; End x; Begin y; End y]). split.
  - pose proof (reach_init isort_desc 2) as R. unfold ioq_init in R. cbn [repeat] in R.
    eapply reach_step in R. 2: { apply (st_call isort_desc false false 0 [] [Idle] [] [] [] y). intros []. }
    eapply reach_step in R. 2: { apply (st_call isort_desc false false 0 [] [] [Entry y] [y] [] x). intros [F|[]]; discriminate. }
    eapply reach_step in R. 2: exact (st_take isort_desc false false 0 [] [] [Entry y] [y; x] [] x eq_refl).
    eapply reach_step in R. 2: exact (st_begin isort_desc false true 0 [] [] [Entry y] [y; x] [] x []).
    eapply reach_step in R. 2: exact (st_defer isort_desc false true 0 [] [InFn x []] [] [y; x] [Begin x] y eq_refl).
    eapply reach_step in R. 2: exact (st_end isort_desc true true 0 [y] [] [Idle] [y; x] [Begin x] x []).
    eapply reach_step in R. 2: exact (st_update isort_desc true true 0 [y] [] [Idle] [y; x] [Begin x; End x] 0).
    eapply reach_step in R. 2: exact (st_scan isort_desc true true 1 [y] [] [Idle] [y; x] [Begin x; End x] [y] [] eq_refl).
    eapply reach_step in R. 2: exact (st_begin isort_desc false true 1 [] [] [Idle] [y; x] [Begin x; End x] y []).
    eapply reach_step in R. 2: exact (st_end isort_desc false true 1 [] [] [Idle] [y; x] [Begin x; End x; Begin y] y []).
    eapply reach_step in R. 2: exact (st_update isort_desc false true 1 [] [] [Idle] [y; x] [Begin x; End x; Begin y; End y] 1).
    eapply reach_step in R. 2: exact (st_scan isort_desc false true 2 [] [] [Idle] [y; x] [Begin x; End x; Begin y; End y] [] [] eq_refl).
    exact R.
  - split. { repeat constructor. } split. { intros z H. cbn [q_trace In] in H. intuition discriminate. }
    split; [|reflexivity]. cbn [q_calls map fst seq x y]. apply perm_swap.
Qed.
