(** Repacking ends. *)
From Coq Require Import Permutation Sorted Relation_Operators.
From Verif Require Import Base BaseProof ModelTile ModelPackFile SpecPackFile ModelTable ModelRepack SpecDict SpecRepack ProofRepack ProofRepackRun.
Import ListNotations.
Open Scope N_scope.

Section Ends.
Variable qsort : (nat -> nat -> bool) -> list nat -> list nat.
Variable pack : tile -> list bytes -> bytes.
Variable limit : N.
Variable batch : nat.
Hypothesis Hb : batch <> O.
Let back (b a : rst) : Prop := rp_step qsort pack limit batch a b.

Lemma end_acc s : r_pc s = RpThrown \/ r_pc s = RpDone -> Acc back s.
Proof. intros H. constructor. intros s' St. destruct St; cbn [r_pc] in H; destruct H; discriminate. Qed.
Lemma insert_tasks g t b g' : insert_result g t b = Ok g' -> g_tasks g' = g_tasks g.
Proof.
  unfold insert_result. destruct (g_tasks g) as [|t0 ts] eqn:E.
  - destruct (pf_append (g_pf g) b). intros H. apply Ok_inj in H. subst. reflexivity.
  - intros H. apply bind_ok in H as (u & _ & H). destruct (_ <? _).
    + destruct (pf_append (g_pf g) b). apply Ok_inj in H. subst. reflexivity.
    + destruct (pf_insert (g_pf g) (g_off g) b). apply Ok_inj in H. subst. reflexivity.
Qed.

(** the last phase *)
Definition mc (s : rst) : nat :=
  match r_pc s with
  | RpStash => S (S (S (S (length (r_fly s))))) | RpFlush2 => S (S (S (length (r_fly s)))) | RpDrain => S (S (length (r_fly s)))
  | RpFlush3 => 1 | RpCheck => 0 | _ => 0 end%nat.
Definition is_c (p : rpc) : Prop := match p with RpStash | RpFlush2 | RpDrain | RpFlush3 | RpCheck => True | _ => False end.
Lemma c_acc s : is_c (r_pc s) -> Acc back s.
Proof.
  remember (mc s) as k. revert s Heqk. induction k as [k IH] using (well_founded_induction lt_wf); intros s -> H.
  constructor. intros s' St. destruct St; cbn [r_pc is_c] in H; try contradiction;
    try (apply end_acc; cbn [r_pc]; auto; fail);
    (eapply IH; [|reflexivity|cbn [r_pc is_c]; auto]); unfold mc; cbn [r_pc r_fly]; rewrite ?app_length; cbn [length]; lia.
Qed.

(** the loop *)
Definition mb (s : rst) : nat :=
  let T := length (g_tasks (r_mgr s)) in let K := (2 * batch + 10)%nat in
  match r_pc s with
  | RpLoop => if (T =? 0)%nat then 1 else K * T + batch + 5
  | RpDeq n => K * T + n + 4
  | RpFlush => K * T + 3
  | RpEnq n => if (T =? 0)%nat then 2 else if (n =? batch)%nat then K * T + 2 else K * T + batch + 6 + n
  | _ => 0 end%nat.
Definition is_b (p : rpc) : Prop := match p with RpLoop | RpDeq _ | RpFlush | RpEnq _ => True | _ => False end.
Lemma rest_len g : g_tasks g <> [] -> length (g_tasks g) = S (length (g_tasks (rest_tasks g))).
Proof. intros H. cbn [rest_tasks g_tasks]. rewrite (tasks_split g H) at 1. rewrite app_length. cbn [length]. lia. Qed.
Lemma b_acc s : is_b (r_pc s) -> Acc back s.
Proof.
  remember (mb s) as k. revert s Heqk. induction k as [k IH] using (well_founded_induction lt_wf); intros s -> H.
  constructor. intros s' St. destruct St; cbn [r_pc is_b] in H; try contradiction;
    try (apply end_acc; cbn [r_pc]; auto; fail); try (apply c_acc; cbn [r_pc is_c]; auto; fail);
    (eapply IH; [|reflexivity|cbn [r_pc is_b]; auto]); unfold mb; cbn [r_pc r_mgr].
  - destruct (g_tasks g); [congruence|]. cbn [length Nat.eqb]. lia.
  - rewrite (insert_tasks _ _ _ _ H0). lia.
  - lia.
  - lia.
  - cbn [flush_upd g_tasks]. destruct (length (g_tasks g)) as [|T]; cbn [Nat.eqb]; [lia|]. rewrite Nat.eqb_refl. lia.
  - rewrite (rest_len g H0). set (T := length (g_tasks (rest_tasks g))). rewrite Nat.mul_succ_r. change (S T =? 0)%nat with false.
    generalize ((2 * batch + 10) * T)%nat. intros KT.
    destruct (Nat.eqb_spec T 0), (Nat.eqb_spec (S n) batch), (Nat.eqb_spec n batch); lia.
  - destruct H0 as [H0|H0]; [rewrite H0; cbn [length Nat.eqb]; lia|]. subst n. destruct (length (g_tasks g)) as [|T]; [cbn [Nat.eqb]; lia|].
    destruct (Nat.eqb_spec 0 batch); [congruence|]. cbn [Nat.eqb]. lia.
Qed.

(** the beginning *)
Lemma a_acc s : match r_pc s with RpFirst _ | RpDefrag => True | _ => False end -> Acc back s.
Proof.
  assert (HD : forall s, r_pc s = RpDefrag -> Acc back s).
  { intros s0 E. constructor. intros s' St. destruct St; try discriminate E; [apply b_acc; exact I | apply end_acc; auto]. }
  destruct s as [g fly out pc]. cbn [r_pc]. destruct pc; intros H; try contradiction; [|apply HD; reflexivity]. clear H.
  remember (length (g_tasks g)) as k. revert g fly size Heqk. induction k as [k IH] using (well_founded_induction lt_wf); intros g fly size ->.
  constructor. intros s' St. inversion St; subst.
  - eapply IH; [|reflexivity]. rewrite (rest_len g); [lia|assumption].
  - apply end_acc; auto.
  - apply HD. reflexivity.
Qed.
Lemma all_acc s : Acc back s.
Proof.
  destruct (r_pc s) eqn:E; first [apply a_acc; rewrite E; exact I | apply b_acc; rewrite E; exact I | apply c_acc; rewrite E; exact I | apply end_acc; rewrite E; auto].
Qed.
End Ends.

Section Completes.
Variable qsort : (nat -> nat -> bool) -> list nat -> list nat.
Variable rsort : list pack_record -> list pack_record.
Variable tsort : list task -> list task.
Variable pack : tile -> list bytes -> bytes.
Variable limit : N.
Variable batch : nat.
Hypothesis Hb : batch <> O.
Hypothesis Hq : sorts_positions qsort.
Hypothesis Hr : reorders rsort.
Hypothesis Ht : reorders tsort.
Hypothesis Hp : forall t ps, pack t ps <> [].
Variable pf0 : pfile.
Variable tasks0 : list task.
Hypothesis I0 : pf_inv pf0.
Hypothesis S0small : pf_size pf0 < 2 ^ 64.
Hypothesis L0 : valid_layout pf0 (flat_map snd tasks0).
Hypothesis Room : total_size (flat_map snd tasks0) < limit /\ 0 < pf_size pf0 \/
   largest_size (flat_map snd tasks0) + total_size (flat_map snd tasks0) < pf_size pf0 /\ sorts task_gtb tsort /\ Forall (fun t => (length (snd t) <= 1)%nat) tasks0.

Definition good_state (s : rst) : Prop := r_pc s <> RpThrown /\ (r_pc s = RpFlush3 \/ r_pc s = RpCheck -> r_fly s = []).
Lemma choose s : rp_reach qsort rsort tsort pack limit batch pf0 tasks0 s -> good_state s ->
  r_pc s = RpDone \/ exists s', rp_step qsort pack limit batch s s' /\ good_state s'.
Proof.
  intros R [HT HF]. pose proof (reach_inv _ _ _ _ limit batch Hq Hr Ht Hp _ _ I0 S0small L0 s R) as HI.
  assert (HD : r_pc s = RpDone \/ r_pc s <> RpDone) by (destruct (r_pc s); auto; right; discriminate). destruct HD as [HD|HD]; [now left|right].
  destruct (progress qsort rsort tsort pack limit batch Hq Hp _ _ I0 S0small s HI HD HT) as (s' & St).
  pose proof (proj2 (step_inv qsort rsort tsort pack limit batch Hq Hp _ _ I0 S0small s s' HI St)) as HTh. unfold throws_from in HTh.
  destruct s as [g fly out pc]. destruct pc; cbn [r_pc r_fly] in *; try congruence;
    try (exists s'; split; [exact St|]; split; [intros X; destruct (HTh X); discriminate|]; clear HTh; inversion St; subst; cbn [r_pc r_fly]; intros [X|X]; discriminate X).
  - pose proof (defrag_ok_state qsort rsort tsort pack limit batch Hq Hr Ht Hp _ _ I0 S0small L0 _ R eq_refl Room) as HN. cbn [r_mgr] in HN.
    inversion St; subst; [|congruence]. eexists. split; [exact St|]. split; cbn [r_pc]; [discriminate|intros [X|X]; discriminate X].
  - destruct fly as [|[t ps] fly].
    + exists (RSt g [] out RpFlush3). split; [apply rp_drain_end|]. split; cbn [r_pc]; [discriminate|reflexivity].
    + destruct HI as (_ & _ & (HC & _)). cbn [r_mgr] in HC. destruct (pf_append (g_pf g) (pack t ps)) as [pf r] eqn:EA.
      exists (RSt (Mgr pf [] (g_stash g) (g_off g) (g_upd g ++ [(t, r)])) ([] ++ fly) out RpDrain). split; [|split; cbn [r_pc]; [discriminate|intros [X|X]; discriminate X]].
      change ((t, ps) :: fly) with ([] ++ (t, ps) :: fly). apply rp_drain. unfold insert_result. rewrite HC, EA. reflexivity.
  - exists (RSt (flush_upd g) fly (out ++ [g_upd g]) RpCheck). split; [apply rp_flush3|]. split; cbn [r_pc r_fly]; [discriminate|]. intros _. apply HF. now left.
  - destruct HI as (_ & _ & (HC & _)). cbn [r_mgr] in HC. rewrite (HF (or_intror eq_refl)) in *. exists (RSt g [] out RpDone). split; [now apply rp_check|]. split; cbn [r_pc]; [discriminate|intros [X|X]; discriminate X].
Qed.
Lemma runs_to_done s : rp_reach qsort rsort tsort pack limit batch pf0 tasks0 s -> good_state s ->
  exists s', clos_refl_trans_1n _ (rp_step qsort pack limit batch) s s' /\ r_pc s' = RpDone.
Proof.
  pose proof (all_acc qsort pack limit batch Hb s) as HA. induction HA as [s _ IH]. intros R HG.
  destruct (choose s R HG) as [E|(s' & St & HG')]; [exists s; split; [constructor|assumption]|].
  destruct (IH s' St) as (s2 & C & E); [eapply rp_next; eassumption|assumption|]. exists s2. split; [econstructor; eassumption|assumption].
Qed.
Lemma reach_on s s' : clos_refl_trans_1n _ (rp_step qsort pack limit batch) s s' -> rp_reach qsort rsort tsort pack limit batch pf0 tasks0 s -> rp_reach qsort rsort tsort pack limit batch pf0 tasks0 s'.
Proof. induction 1; intros R; [assumption|]. apply IHclos_refl_trans_1n. eapply rp_next; eassumption. Qed.
Lemma can_complete : exists s, rp_reach qsort rsort tsort pack limit batch pf0 tasks0 s /\ r_pc s = RpDone.
Proof.
  destruct (runs_to_done (rst_start rsort tsort pf0 tasks0)) as (s & C & E); [apply rp_init| |].
  - split; cbn [r_pc rst_start]; [discriminate|intros [X|X]; discriminate X].
  - exists s. split; [|assumption]. eapply reach_on; [eassumption|apply rp_init].
Qed.
End Completes.
