(** Proofs about the in-order queue. *)
From Coq Require Import Permutation Sorting.Sorted.
From Verif Require Import Base BaseProof ModelQueue SpecQueue.
Open Scope N_scope.

Section Proofs.
Context {T : Type}.
Notation item := (item T). Notation pc := (pc T). Notation ioq := (ioq T). Notation event := (event T).

Definition busyb (p : pc) : bool := match p with Idle | Entry _ => false | _ => true end.
Definition busy (ts : list pc) : list pc := filter busyb ts.
Definition entries (ts : list pc) : list item := flat_map (fun p => match p with Entry x => [x] | _ => [] end) ts.
Definition desc (q : list item) : Prop := StronglySorted (fun a b => fst b <= fst a) q.

Definition hand (p : pc) : list item := match p with Work x r | InFn x r => x :: r | _ => [] end.
Definition open (p : pc) : list event := match p with InFn x r => [Begin x] | _ => [] end.
Definition at_next (p : pc) (n : N) (k : N) : Prop := match p with Update l => l + 1 = k | Scan => n = k | _ => True end.

Inductive inv (s : ioq) : Prop :=
| inv_rest done : q_active s = false -> busy (q_threads s) = [] -> q_trace s = one_by_one done -> numbered done ->
    q_next s = N.of_nat (length done) -> Permutation (q_calls s) (done ++ q_queue s ++ entries (q_threads s)) ->
    NoDup (map fst (q_calls s)) -> (q_dirty s = false -> desc (q_queue s)) ->
    ~ In (q_next s) (map fst (q_queue s)) -> inv s
| inv_busy done p : q_active s = true -> busy (q_threads s) = [p] -> q_trace s = one_by_one done ++ open p ->
    numbered (done ++ hand p) -> at_next p (q_next s) (N.of_nat (length done)) ->
    Permutation (q_calls s) (done ++ hand p ++ q_queue s ++ entries (q_threads s)) ->
    NoDup (map fst (q_calls s)) -> (q_dirty s = false -> desc (q_queue s)) -> inv s
| inv_dead done x : q_active s = true -> busy (q_threads s) = [] -> q_trace s = one_by_one done ++ [Begin x; Threw x] ->
    numbered (done ++ [x]) -> incl (done ++ [x]) (q_calls s) -> NoDup (map fst (q_calls s)) -> inv s.

Lemma busy_app a b : busy (a ++ b) = busy a ++ busy b.
Proof. apply filter_app. Qed.
Lemma entries_app a b : entries (a ++ b) = entries a ++ entries b.
Proof. apply flat_map_app. Qed.
Lemma one_by_one_app (a b : list item) : one_by_one (a ++ b) = one_by_one a ++ one_by_one b.
Proof. apply flat_map_app. Qed.
Lemma numbered_nil : numbered (@nil item).
Proof. intros [|k] x H; discriminate. Qed.
Lemma numbered_app_l (a b : list item) : numbered (a ++ b) -> numbered a.
Proof. intros H k x E. apply H. rewrite nth_error_app1; auto. apply nth_error_Some. congruence. Qed.
Lemma numbered_snoc (a : list item) x : numbered a -> fst x = N.of_nat (length a) -> numbered (a ++ [x]).
Proof.
  intros H E k y Hk. destruct (lt_dec k (length a)) as [Hl|Hl].
  - rewrite nth_error_app1 in Hk by lia. auto.
  - rewrite nth_error_app2 in Hk by lia. destruct (k - length a)%nat as [|j] eqn:Ej.
    + cbn [nth_error] in Hk. injection Hk as <-. rewrite E. f_equal. lia.
    + cbn [nth_error] in Hk. destruct j; discriminate.
Qed.
Lemma numbered_mid (a b : list item) x : numbered (a ++ x :: b) -> fst x = N.of_nat (length a).
Proof. intros H. apply (H (length a) x). rewrite nth_error_app2, Nat.sub_diag by lia. reflexivity. Qed.
Lemma numbered_In (a : list item) i : numbered a -> i < N.of_nat (length a) -> In i (map fst a).
Proof.
  intros H Hi. destruct (nth_error a (N.to_nat i)) as [x|] eqn:E.
  - pose proof (H _ _ E). apply in_map_iff. exists x. split; [lia|]. eapply nth_error_In; eauto.
  - apply nth_error_None in E. lia.
Qed.
Lemma numbered_lt (a : list item) x : numbered a -> In x a -> fst x < N.of_nat (length a).
Proof. intros H Hi. apply In_nth_error in Hi as [k Hk]. rewrite (H _ _ Hk).
  assert (k < length a)%nat by (apply nth_error_Some; congruence). lia. Qed.

Lemma pop_ready_spec (rq : list item) : forall n rdy lft, pop_ready n rq = (rdy, lft) ->
  rq = rdy ++ lft /\ (forall k x, nth_error rdy k = Some x -> fst x = n + N.of_nat k) /\
  match lft with [] => True | y :: _ => fst y <> n + N.of_nat (length rdy) end.
Proof.
  induction rq as [|x r IH]; intros n rdy lft H; cbn [pop_ready] in H.
  - injection H as <- <-. repeat split. intros [|k] x H; discriminate.
  - destruct (fst x =? n) eqn:E.
    + destruct (pop_ready (n + 1) r) as [rdy' lft'] eqn:Er. injection H as <- <-.
      destruct (IH _ _ _ Er) as (H1 & H2 & H3). repeat split.
      * cbn [app]. f_equal. exact H1.
      * intros [|k] y Hk; cbn [nth_error] in Hk. { injection Hk as <-. apply N.eqb_eq in E. lia. }
        rewrite (H2 _ _ Hk). lia.
      * destruct lft' as [|y l']; auto. cbn [length]. intros F. apply H3. lia.
    + injection H as <- <-. repeat split. { intros [|k] y Hk; discriminate. }
      apply N.eqb_neq in E. cbn [length]. lia.
Qed.

Lemma sorted_app_inv (R : item -> item -> Prop) (a b : list item) : StronglySorted R (a ++ b) ->
  StronglySorted R a /\ StronglySorted R b /\ (forall x y, In x a -> In y b -> R x y).
Proof.
  induction a as [|z a IH]; cbn [app]; intros H.
  - repeat split; auto. constructor. intros x y [].
  - apply StronglySorted_inv in H as [H1 H2]. destruct (IH H1) as (A & B & C).
    pose proof (proj1 (Forall_forall _ _) H2) as H3. repeat split; auto.
    + constructor; auto. apply Forall_forall. intros x Hx. apply H3. apply in_app_iff. auto.
    + intros x y [->|Hx] Hy; auto. apply H3. apply in_app_iff. auto.
Qed.

Lemma NoDup_perm_fst (a b : list item) : Permutation a b -> NoDup (map fst a) -> NoDup (map fst b).
Proof. intros H. apply Permutation_NoDup. apply Permutation_map. exact H. Qed.

Lemma NoDup_app_no {A} (a b : list A) x : NoDup (a ++ b) -> In x a -> In x b -> False.
Proof.
  induction a as [|y a IH]; cbn [app]; intros H [].
  - subst. intros Hb. apply NoDup_cons_iff in H as [H _]. apply H. apply in_app_iff. auto.
  - apply NoDup_cons_iff in H as [_ H]. auto.
Qed.

(** the scan: what is found are the next items, and if nothing is found the next
    item is not in the queue *)
Lemma scan_spec srt d q n (done : list item) ts rdy lft calls :
  sorts_desc srt -> (d = false -> desc q) -> numbered done -> n = N.of_nat (length done) ->
  Permutation calls (done ++ q ++ ts) -> NoDup (map fst calls) ->
  pop_ready n (rev (if d then srt q else q)) = (rdy, lft) ->
  Permutation q (rdy ++ rev lft) /\ numbered (done ++ rdy) /\ desc (rev lft) /\
  (rdy = [] -> ~ In n (map fst (rev lft))).
Proof.
  intros Hs Hd Hn -> Hp Hnd Hr. destruct (pop_ready_spec _ _ _ _ Hr) as (E & Hk & Hl).
  set (q' := if d then srt q else q) in *.
  assert (Pq : Permutation q q') by (unfold q'; destruct d; [symmetry; apply Hs|reflexivity]).
  assert (Sq : desc q') by (unfold q', desc; destruct d; [apply Hs|apply Hd; reflexivity]).
  assert (Eq : q' = rev lft ++ rev rdy) by (rewrite <- rev_app_distr, <- E, rev_involutive; reflexivity).
  assert (Sl : desc (rev lft)) by (rewrite Eq in Sq; apply sorted_app_inv in Sq; tauto).
  repeat split; auto.
  - rewrite Pq, Eq, Permutation_app_comm, <- Permutation_rev. reflexivity.
  - intros k x Hx. destruct (lt_dec k (length done)) as [L|L].
    + rewrite nth_error_app1 in Hx by lia. auto.
    + rewrite nth_error_app2 in Hx by lia. rewrite (Hk _ _ Hx). lia.
  - intros -> Hin. destruct lft as [|y l']; [destruct Hin|].
    cbn [length] in Hl. rewrite N.add_0_r in Hl. cbn [rev] in *.
    unfold desc in Sl. apply sorted_app_inv in Sl as (_ & _ & C).
    assert (Hy : fst y < N.of_nat (length done)).
    { apply in_map_iff in Hin as (z & Ez & Hz). apply in_app_iff in Hz as [Hz|[<-|[]]]; [|congruence].
      specialize (C z y Hz (or_introl eq_refl)). lia. }
    assert (Iy : In y q). { rewrite Pq, Eq. apply in_app_iff. left. apply in_app_iff. right. left. reflexivity. }
    pose proof (NoDup_perm_fst _ _ Hp Hnd) as N2. rewrite map_app, map_app in N2.
    pose proof (numbered_In _ _ Hn Hy) as N3.
    apply (NoDup_app_no _ _ _ N2 N3). apply in_app_iff. left. apply in_map. exact Iy.
Qed.

Ltac lists := cbn [q_dirty q_active q_next q_queue q_threads q_calls q_trace] in *;
  rewrite ?busy_app, ?entries_app in *; cbn [busy filter busyb entries flat_map app] in *;
  fold (busy) in *; fold (entries) in *.

Lemma busy_lazy a b (p : pc) : busyb p = false -> busy (a ++ p :: b) = busy a ++ busy b.
Proof. intros H. rewrite busy_app. unfold busy at 2. cbn [filter]. rewrite H. reflexivity. Qed.
Lemma busy_this a b (p : pc) : busyb p = true -> busy (a ++ p :: b) = busy a ++ p :: busy b.
Proof. intros H. rewrite busy_app. unfold busy at 2. cbn [filter]. rewrite H. reflexivity. Qed.
Lemma one_busy a b (p q : pc) : busyb p = true -> busy (a ++ p :: b) = [q] -> q = p /\ busy a = [] /\ busy b = [].
Proof.
  intros H. rewrite busy_this by auto. destruct (busy a) as [|y l]; cbn [app]; intros E.
  - injection E as <- E. auto.
  - injection E as _ E. destruct l; discriminate.
Qed.
Lemma no_busy a b (p : pc) : busyb p = true -> busy (a ++ p :: b) = [] -> False.
Proof. intros H. rewrite busy_this by auto. destruct (busy a); discriminate. Qed.
Lemma entries_this a b x : entries (a ++ Entry x :: b) = entries a ++ x :: entries b.
Proof. rewrite entries_app. reflexivity. Qed.
Lemma entries_other a b (p : pc) : match p with Entry _ => False | _ => True end -> entries (a ++ p :: b) = entries a ++ entries b.
Proof. rewrite entries_app. destruct p; intros []; reflexivity. Qed.

Lemma perm_call (l a : list item) q e1 e2 x : Permutation l (a ++ q ++ e1 ++ e2) ->
  Permutation (l ++ [x]) (a ++ q ++ e1 ++ x :: e2).
Proof.
  intros ->. rewrite <- Permutation_cons_append.
  transitivity (x :: (a ++ q ++ e1) ++ e2). { rewrite !app_assoc. reflexivity. }
  rewrite (Permutation_middle (a ++ q ++ e1) e2 x). rewrite !app_assoc. reflexivity.
Qed.
Lemma perm_defer (l a : list item) q e1 e2 x : Permutation l (a ++ q ++ e1 ++ x :: e2) ->
  Permutation l (a ++ (q ++ [x]) ++ e1 ++ e2).
Proof. intros ->. apply Permutation_app_head. rewrite <- app_assoc. apply Permutation_app_head. cbn [app].
  rewrite <- Permutation_middle. reflexivity. Qed.

Lemma NoDup_snoc {A} (l : list A) x : NoDup l -> ~ In x l -> NoDup (l ++ [x]).
Proof. intros H N. apply (Permutation_NoDup (l := x :: l)). apply Permutation_cons_append. constructor; auto. Qed.

Lemma step_inv srt s s' : sorts_desc srt -> inv s -> ioq_step srt s s' -> inv s'.
Proof.
  intros Hs H St. destruct St as [d a n q ts1 ts2 cs tr x Hx|d a n q ts1 ts2 cs tr x Hx|d a n q ts1 ts2 cs tr x Hx|
    d a n q ts1 ts2 cs tr x r|d a n q ts1 ts2 cs tr x r|d a n q ts1 ts2 cs tr x r|d a n q ts1 ts2 cs tr l|
    d a n q ts1 ts2 cs tr rdy lft Hr];
  destruct H as [done Ha Hb Ht Hn Hnx Hp Hnd Hds Hni|done p Ha Hb Ht Hn Hat Hp Hnd Hds|done y Ha Hb Ht Hn Hic Hnd];
  cbn [q_dirty q_active q_next q_queue q_threads q_calls q_trace] in *; try subst a;
  try (exfalso; eapply no_busy; [|exact Hb]; reflexivity).
  (* call *)
  - rewrite busy_lazy in Hb by reflexivity. rewrite entries_other in Hp by exact I.
    apply inv_rest with done; cbn [q_dirty q_active q_next q_queue q_threads q_calls q_trace]; auto.
    + rewrite busy_lazy; auto.
    + rewrite entries_this. apply perm_call. exact Hp.
    + rewrite map_app. apply NoDup_snoc; auto.
  - rewrite busy_lazy in Hb by reflexivity. rewrite entries_other in Hp by exact I.
    apply inv_busy with done p; cbn [q_dirty q_active q_next q_queue q_threads q_calls q_trace]; auto.
    + rewrite busy_lazy; auto.
    + rewrite entries_this. rewrite app_assoc in *. apply perm_call. exact Hp.
    + rewrite map_app. apply NoDup_snoc; auto.
  - rewrite busy_lazy in Hb by reflexivity.
    apply inv_dead with done y; cbn [q_dirty q_active q_next q_queue q_threads q_calls q_trace]; auto.
    + rewrite busy_lazy; auto.
    + intros z Hz. apply in_app_iff. left. auto.
    + rewrite map_app. apply NoDup_snoc; auto.
  (* defer *)
  - rewrite busy_lazy in Hb by reflexivity. rewrite entries_this in Hp.
    rewrite orb_false_r in Hx. apply negb_true_iff, N.eqb_neq in Hx.
    apply inv_rest with done; cbn [q_dirty q_active q_next q_queue q_threads q_calls q_trace]; auto.
    + rewrite busy_lazy; auto.
    + rewrite entries_other by exact I. apply perm_defer. exact Hp.
    + discriminate.
    + rewrite map_app, in_app_iff. intros [F|[F|[]]]; auto.
  - rewrite busy_lazy in Hb by reflexivity. rewrite entries_this in Hp.
    apply inv_busy with done p; cbn [q_dirty q_active q_next q_queue q_threads q_calls q_trace]; auto.
    + rewrite busy_lazy; auto.
    + rewrite entries_other by exact I. rewrite app_assoc in *. apply perm_defer. exact Hp.
    + discriminate.
  - rewrite busy_lazy in Hb by reflexivity.
    apply inv_dead with done y; cbn [q_dirty q_active q_next q_queue q_threads q_calls q_trace]; auto.
    rewrite busy_lazy; auto.
  (* take *)
  - rewrite busy_lazy in Hb by reflexivity. rewrite entries_this in Hp. apply app_eq_nil in Hb as [Hb1 Hb2].
    rewrite orb_false_r in Hx. apply negb_false_iff, N.eqb_eq in Hx.
    apply inv_busy with done (Work x []); cbn [q_dirty q_active q_next q_queue q_threads q_calls q_trace hand open at_next]; auto.
    + rewrite busy_this by reflexivity. rewrite Hb1, Hb2. reflexivity.
    + rewrite app_nil_r. exact Ht.
    + apply numbered_snoc; [assumption|]. congruence.
    + rewrite entries_other by exact I. rewrite Hp. apply Permutation_app_head. cbn [app].
      rewrite <- !Permutation_middle. reflexivity.
  - rewrite orb_true_r in Hx. discriminate.
  - rewrite orb_true_r in Hx. discriminate.
  (* begin *)
  - apply one_busy in Hb as (-> & Hb1 & Hb2); [|reflexivity]. rewrite entries_other in Hp by exact I.
    cbn [hand open at_next] in *. rewrite app_nil_r in Ht.
    apply inv_busy with done (InFn x r); cbn [q_dirty q_active q_next q_queue q_threads q_calls q_trace hand open at_next]; auto.
    + rewrite busy_this, Hb1, Hb2 by reflexivity. reflexivity.
    + rewrite Ht. reflexivity.
    + rewrite entries_other by exact I. exact Hp.
  (* end *)
  - apply one_busy in Hb as (-> & Hb1 & Hb2); [|reflexivity]. rewrite entries_other in Hp by exact I.
    cbn [hand open at_next] in *.
    assert (Et : tr ++ [End x] = one_by_one (done ++ [x])).
    { rewrite Ht, one_by_one_app, <- app_assoc. reflexivity. }
    assert (Ef : fst x = N.of_nat (length done)) by (eapply numbered_mid; eauto).
    destruct r as [|y r].
    + apply inv_busy with (done ++ [x]) (Update (fst x)); cbn [q_dirty q_active q_next q_queue q_threads q_calls q_trace hand open at_next]; auto.
      * rewrite busy_this, Hb1, Hb2 by reflexivity. reflexivity.
      * rewrite app_nil_r. exact Et.
      * rewrite app_nil_r. exact Hn.
      * rewrite app_length. cbn [length]. lia.
      * rewrite entries_other by exact I. cbn [app] in *. rewrite <- app_assoc. exact Hp.
    + apply inv_busy with (done ++ [x]) (Work y r); cbn [q_dirty q_active q_next q_queue q_threads q_calls q_trace hand open at_next]; auto.
      * rewrite busy_this, Hb1, Hb2 by reflexivity. reflexivity.
      * rewrite app_nil_r. exact Et.
      * rewrite <- app_assoc. exact Hn.
      * rewrite entries_other by exact I. cbn [app] in *. rewrite <- app_assoc. exact Hp.
  (* throw *)
  - apply one_busy in Hb as (-> & Hb1 & Hb2); [|reflexivity].
    cbn [hand open at_next] in *.
    apply inv_dead with done x; cbn [q_dirty q_active q_next q_queue q_threads q_calls q_trace]; auto.
    + rewrite busy_lazy, Hb1, Hb2 by reflexivity. reflexivity.
    + rewrite Ht, <- app_assoc. reflexivity.
    + change (x :: r) with ([x] ++ r) in Hn. rewrite app_assoc in Hn. eapply numbered_app_l; eauto.
    + intros z Hz. rewrite Hp. rewrite !in_app_iff in *. cbn [In] in *. destruct Hz as [Hz|[<-|[]]]; auto.
  (* update *)
  - apply one_busy in Hb as (-> & Hb1 & Hb2); [|reflexivity]. rewrite entries_other in Hp by exact I.
    cbn [hand open at_next] in *.
    apply inv_busy with done Scan; cbn [q_dirty q_active q_next q_queue q_threads q_calls q_trace hand open at_next]; auto.
    + rewrite busy_this, Hb1, Hb2 by reflexivity. reflexivity.
    + rewrite entries_other by exact I. exact Hp.
  (* scan *)
  - apply one_busy in Hb as (-> & Hb1 & Hb2); [|reflexivity]. rewrite entries_other in Hp by exact I.
    cbn [hand open at_next app] in *. rewrite app_nil_r in Ht, Hn.
    destruct (scan_spec srt d q n done (entries ts1 ++ entries ts2) rdy lft cs Hs Hds Hn Hat Hp Hnd Hr) as (P1 & P2 & P3 & P4).
    destruct rdy as [|y rdy].
    + apply inv_rest with done; cbn [q_dirty q_active q_next q_queue q_threads q_calls q_trace]; auto.
      * rewrite busy_lazy, Hb1, Hb2 by reflexivity. reflexivity.
      * rewrite entries_other by exact I. rewrite Hp, P1. reflexivity.
    + apply inv_busy with done (Work y rdy); cbn [q_dirty q_active q_next q_queue q_threads q_calls q_trace hand open at_next]; auto.
      * rewrite busy_this, Hb1, Hb2 by reflexivity. reflexivity.
      * rewrite app_nil_r. exact Ht.
      * rewrite entries_other by exact I. rewrite Hp, P1, <- app_assoc. reflexivity.
Qed.

Lemma reach_inv srt n s : sorts_desc srt -> ioq_reach srt n s -> inv s.
Proof.
  intros Hs H. induction H as [|s s' H IH St].
  - assert (Ee : entries (repeat (@Idle T) n) = []) by (induction n; auto).
    apply inv_rest with []; cbn [ioq_init q_dirty q_active q_next q_queue q_threads q_calls q_trace app length]; auto.
    + induction n; auto.
    + apply numbered_nil.
    + rewrite Ee. apply Permutation_refl.
    + constructor.
    + constructor.
  - eapply step_inv; eauto.
Qed.

(** at any time: the consumer ran for items 0, 1, 2, ... one at a time, and for
    nothing after it threw *)
Lemma in_order srt n (s : ioq) : sorts_desc srt -> ioq_reach srt n s ->
  exists done last, q_trace s = one_by_one done ++ last /\ numbered done /\ incl done (q_calls s) /\ (last = [] \/ exists x, (last = [Begin x] \/ last = [Begin x; Threw x]) /\ fst x = N.of_nat (length done) /\ In x (q_calls s)).
Proof.
  intros Hs H. apply (reach_inv _ _ _ Hs) in H.
  destruct H as [done Ha Hb Ht Hn Hnx Hp Hnd Hds Hni|done p Ha Hb Ht Hn Hat Hp Hnd Hds|done y Ha Hb Ht Hn Hic Hnd].
  - exists done, []. rewrite app_nil_r. repeat split; auto. intros x Hx. rewrite Hp. apply in_app_iff. auto.
  - exists done, (open p). repeat split; auto.
    + eapply numbered_app_l; eauto.
    + intros x Hx. rewrite Hp. apply in_app_iff. auto.
    + destruct p; cbn [open hand] in *; auto. right. exists cur. repeat split; auto.
      * eapply numbered_mid; eauto.
      * rewrite Hp. apply in_app_iff. right. left. reflexivity.
  - exists done, [Begin y; Threw y]. repeat split; auto.
    + eapply numbered_app_l; eauto.
    + intros x Hx. apply Hic. apply in_app_iff. auto.
    + right. exists y. repeat split; auto.
      * eapply numbered_mid; eauto.
      * apply Hic. apply in_app_iff. right. left. reflexivity.
Qed.

(** when no call is in progress, the queue holds exactly what cannot be consumed yet *)
Lemma nothing_left srt n (s : ioq) : sorts_desc srt -> ioq_reach srt n s -> quiet s -> no_throw s ->
  exists done, q_trace s = one_by_one done /\ numbered done /\ Permutation (q_calls s) (done ++ q_queue s) /\ ~ In (N.of_nat (length done)) (map fst (q_calls s)).
Proof.
  intros Hs H Hq Hnt. apply (reach_inv _ _ _ Hs) in H. unfold quiet in Hq.
  assert (Eb : busy (q_threads s) = []).
  { induction Hq as [|p l -> Hq IH]; auto. }
  assert (Ee : entries (q_threads s) = []).
  { induction Hq as [|p l -> Hq IH]; auto. }
  destruct H as [done Ha Hb Ht Hn Hnx Hp Hnd Hds Hni|done p Ha Hb Ht Hn Hat Hp Hnd Hds|done y Ha Hb Ht Hn Hic Hnd].
  - exists done. rewrite Ee, app_nil_r in Hp. repeat split; auto.
    rewrite Hp, map_app, in_app_iff, <- Hnx. intros [F|F]; [|tauto].
    apply in_map_iff in F as (z & Ez & Hz). pose proof (numbered_lt _ _ Hn Hz). lia.
  - congruence.
  - exfalso. apply (Hnt y). rewrite Ht. apply in_app_iff. right. right. left. reflexivity.
Qed.

Lemma numbered_perm_iota (l done q : list item) k : numbered done -> Permutation l (done ++ q) ->
  Permutation (map fst l) (map N.of_nat (seq 0 k)) -> ~ In (N.of_nat (length done)) (map fst l) -> q = [] /\ length done = k.
Proof.
  intros Hn Hp Hk Hnot.
  assert (L : (length l = k)%nat).
  { apply Permutation_length in Hk. rewrite !map_length, seq_length in Hk. exact Hk. }
  assert (Hge : (k <= length done)%nat).
  { destruct (le_lt_dec k (length done)) as [E|E]; auto. exfalso. apply Hnot. rewrite Hk.
    apply in_map. apply in_seq. lia. }
  apply Permutation_length in Hp. rewrite app_length in Hp. destruct q; cbn [length] in Hp; split; auto; lia.
Qed.

(** all of 0 .. k-1 were passed in: all are consumed, in order, and the queue is empty *)
Lemma all_consumed srt n (s : ioq) k : sorts_desc srt -> ioq_reach srt n s -> quiet s -> no_throw s ->
  Permutation (map fst (q_calls s)) (map N.of_nat (seq 0 k)) ->
  exists done, q_trace s = one_by_one done /\ numbered done /\ Permutation done (q_calls s) /\ q_queue s = [].
Proof.
  intros Hs H Hq Hnt Hk. destruct (nothing_left _ _ _ Hs H Hq Hnt) as (done & H1 & H2 & H3 & H4).
  destruct (numbered_perm_iota _ _ _ _ H2 H3 Hk H4) as [E1 E2]. exists done. rewrite E1, app_nil_r in H3.
  repeat split; auto. symmetry. exact H3.
Qed.

(** no deadlock: a thread inside a call can always go on *)
Lemma can_go_on srt (s : ioq) : ~ quiet s -> exists s', ioq_step srt s s' /\ q_calls s' = q_calls s.
Proof.
  intros Hq. destruct s as [d a n q ts cs tr]. unfold quiet in Hq. cbn [q_threads] in Hq.
  assert (exists a p b, ts = a ++ p :: b /\ p <> Idle) as (ts1 & p & ts2 & -> & Hp).
  { clear -Hq. induction ts as [|p ts IH]; [exfalso; apply Hq; constructor|].
    destruct p; try (eexists [], _, ts; split; [reflexivity|discriminate]).
    destruct IH as (x & y & z & -> & Hy). { intros F. apply Hq. constructor; auto. }
    exists (Idle :: x), y, z. auto. }
  destruct p as [|x|x r|x r|l|]; [congruence| | | | |].
  - destruct (negb (n =? fst x) || a) eqn:E; eexists; (split; [first [apply st_defer; exact E|apply st_take; exact E]|reflexivity]).
  - eexists; split; [apply st_begin|reflexivity].
  - eexists; split; [apply st_end|reflexivity].
  - eexists; split; [apply st_update|reflexivity].
  - destruct (pop_ready n (rev (if d then srt q else q))) as [rdy lft] eqn:E.
    eexists; split; [apply st_scan; exact E|]. destruct rdy; reflexivity.
Qed.

(** no livelock: without new calls only finitely many steps are possible *)
Definition weight (p : pc) : nat :=
  match p with Idle => 0 | Entry _ => 5 | Work _ r => 4 + 2 * length r | InFn _ r => 3 + 2 * length r | Update _ => 2 | Scan => 1 end.
Definition weights (ts : list pc) : nat := fold_right (fun p w => weight p + w)%nat 0%nat ts.
Definition effort (s : ioq) : nat := (4 * length (q_queue s) + weights (q_threads s))%nat.
Lemma weights_mid a p b : weights (a ++ p :: b) = (weight p + weights (a ++ b))%nat.
Proof. induction a as [|x a IH]; cbn [app weights fold_right]; [reflexivity|]. fold (weights (a ++ p :: b)). fold (weights (a ++ b)). lia. Qed.
Lemma effort_step srt (s s' : ioq) : sorts_desc srt -> ioq_step srt s s' -> q_calls s' = q_calls s -> (effort s' < effort s)%nat.
Proof.
  intros Hs St. destruct St as [d a n q ts1 ts2 cs tr x Hx|d a n q ts1 ts2 cs tr x Hx|d a n q ts1 ts2 cs tr x Hx|
    d a n q ts1 ts2 cs tr x r|d a n q ts1 ts2 cs tr x r|d a n q ts1 ts2 cs tr x r|d a n q ts1 ts2 cs tr l|
    d a n q ts1 ts2 cs tr rdy lft Hr]; cbn [q_calls]; intros E; unfold effort;
    cbn [q_queue q_threads]; rewrite ?weights_mid; cbn [weight]; rewrite ?app_length; cbn [length]; try lia.
  - rewrite <- (app_nil_r cs) in E at 2. apply app_inv_head in E. discriminate.
  - destruct r; cbn [weight length]; lia.
  - apply pop_ready_spec in Hr as (Hr & _). apply (f_equal (@length _)) in Hr.
    rewrite rev_length, app_length in Hr.
    assert (El : length (if d then srt q else q) = length q) by (destruct d; [apply Permutation_length, Hs|reflexivity]).
    destruct rdy as [|y rdy]; cbn [q_queue q_threads length] in *; rewrite ?weights_mid; cbn [weight];
      rewrite rev_length; lia.
Qed.

(** ** with the source *)
Lemma feed_sim srt n src (u : suf T) (s : ioq) : feed_reach srt n src (u, s) -> ioq_reach srt n s /\ exists k, map snd (q_calls s) = firstn k src /\ numbered (q_calls s) /\ u_counter u = N.of_nat (length (q_calls s)) /\ u_src u = skipn k src /\ (u_finished u = true -> u_src u = []).
Proof.
  intros H. remember (u, s) as us eqn:E. revert u s E. induction H as [|us us' H IH St]; intros u s E.
  - injection E as <- <-. split; [constructor|]. exists 0%nat. cbn. repeat split; auto. apply numbered_nil. discriminate.
  - destruct St as [u1 u1' d a nn q ts1 ts2 cs tr x Hx|u1 u1' s1 Hx|u1 s1 s1' Hs Hc]; injection E as <- <-;
    destruct (IH _ _ eq_refl) as (R & k & H1 & H2 & H3 & H4 & H5); cbn [q_calls] in *.
    + unfold suf_process in Hx. destruct (u_finished u1) eqn:Ef; [discriminate|].
      destruct (u_src u1) as [|t r] eqn:Es; [discriminate|]. injection Hx as <- <-. split.
      * eapply reach_step; [exact R|]. apply st_call. cbn [fst]. rewrite H3. intros F.
        apply in_map_iff in F as (z & Ez & Hz). pose proof (numbered_lt _ _ H2 Hz). lia.
      * exists (S k). cbn [u_counter u_src u_finished].
        assert (Hk : nth_error src k = Some t /\ skipn (S k) src = r).
        { clear -H4. revert src H4. induction k as [|k IH]; intros [|y src] H; try discriminate.
          - cbn [skipn] in H. injection H as -> ->. auto.
          - cbn [skipn] in H. apply IH in H. exact H. }
        destruct Hk as [Hk1 Hk2]. repeat split.
        { transitivity (firstn k src ++ [t]); [rewrite map_app; f_equal; exact H1|]. clear -Hk1. revert src Hk1.
          induction k as [|k IH]; intros [|y src] H; try discriminate.
          - cbn [nth_error firstn app] in *. injection H as ->. reflexivity.
          - cbn [firstn app]. f_equal. apply IH. exact H. }
        { apply numbered_snoc; auto. }
        { rewrite app_length. cbn [length]. lia. }
        { auto. }
        { discriminate. }
    + unfold suf_process in Hx. destruct (u_finished u1) eqn:Ef.
      * injection Hx as <-. split; auto. exists k. rewrite Ef. auto.
      * destruct (u_src u1) as [|t r] eqn:Es; [|discriminate]. injection Hx as <-. split; auto.
        exists k. cbn [u_counter u_src u_finished]. auto.
    + split. { eapply reach_step; eauto. } rewrite Hc. exists k. auto.
Qed.

Lemma numbered_unique (a b : list item) : numbered a -> numbered b -> Permutation a b -> a = b.
Proof.
  revert b. induction a as [|x a IH] using rev_ind; intros b Ha Hb Hp.
  - apply Permutation_nil in Hp. auto.
  - destruct b as [|y b _] using rev_ind. { symmetry in Hp. apply Permutation_nil in Hp. destruct a; discriminate. }
    assert (L : length a = length b). { apply Permutation_length in Hp. rewrite !app_length in Hp. cbn [length] in Hp. lia. }
    assert (Ex : fst x = N.of_nat (length a)) by (eapply numbered_mid; eauto).
    assert (Hin : In x (b ++ [y])). { rewrite <- Hp. apply in_app_iff. right. left. auto. }
    apply in_app_iff in Hin as [Hin|[->|[]]].
    + apply numbered_app_l in Hb. pose proof (numbered_lt _ _ Hb Hin). lia.
    + f_equal. apply IH. { eapply numbered_app_l; eauto. } { eapply numbered_app_l; eauto. }
      apply Permutation_app_inv_r in Hp. exact Hp.
Qed.

(** fed by sequential_until_finish: when the source has reported its end and all
    threads are done, the consumer saw the source's items in the source's order *)
Lemma feed_complete srt n src (u : suf T) (s : ioq) : sorts_desc srt -> feed_reach srt n src (u, s) -> quiet s -> no_throw s ->
  u_finished u = true -> exists done, q_trace s = one_by_one done /\ numbered done /\ map snd done = src /\ q_queue s = [].
Proof.
  intros Hs H Hq Hnt Hf. destruct (feed_sim _ _ _ _ _ H) as (R & k & H1 & H2 & H3 & H4 & H5).
  rewrite (H5 Hf) in H4. assert (Es : firstn k src = src).
  { rewrite <- (firstn_skipn k src) at 2. rewrite <- H4, app_nil_r. reflexivity. }
  destruct (nothing_left _ _ _ Hs R Hq Hnt) as (done & D1 & D2 & D3 & D4).
  assert (Hlt : (length (q_calls s) <= length done)%nat).
  { destruct (le_lt_dec (length (q_calls s)) (length done)) as [E|E]; auto. exfalso. apply D4.
    apply numbered_In; auto. lia. }
  assert (q_queue s = []) as Eq.
  { pose proof (Permutation_length D3) as L. rewrite app_length in L. destruct (q_queue s); auto. cbn [length] in L. lia. }
  exists done. rewrite Eq, app_nil_r in D3. repeat split; auto.
  rewrite <- (numbered_unique _ _ H2 D2 D3), H1. exact Es.
Qed.
End Proofs.
