(** The coastline import can always run to its end: with at least one worker there is a schedule that does. *)
From Coq Require Import Permutation.
From Verif Require Import Base ModelDrain SpecDrain.
Open Scope N_scope.

Section Run.
Context {G D Z : Type}.
Variable proc : G -> list (out G D Z).
Notation st := (cst G D Z).
Inductive steps : st -> st -> Prop :=
| st_refl s : steps s s
| st_more s s' s'' : cstep proc s s' -> steps s' s'' -> steps s s''.
Lemma steps_trans a b c : steps a b -> steps b c -> steps a c.
Proof. induction 1; intros H'; [exact H'|]. eapply st_more; [eassumption|auto]. Qed.
Lemma steps_reach tasks n s s' : creach proc tasks n s -> steps s s' -> creach proc tasks n s'.
Proof. intros R H. induction H as [|s s' s'' S _ IH]; [exact R|]. apply IH. eapply cr_step; eassumption. Qed.

Fixpoint deep (k : nat) (o : out G D Z) : Prop :=
  match o with
  | OTask g => match k with O => False | S k => Forall (deep k) (proc g) end
  | _ => True
  end.
Lemma deep_more k o : deep k o -> forall m, (k <= m)%nat -> deep m o.
Proof.
  revert o. induction k as [|k IH]; intros [g|d|z] H m L; destruct m as [|m]; cbn [deep] in *; try exact I; try contradiction; [lia|].
  eapply Forall_impl; [|exact H]. intros o Ho. apply (IH o Ho). lia.
Qed.
Lemma gives_deep : forall o l, gives proc o l -> exists k, deep k o.
Proof.
  fix IH 3. intros o l H. destruct H as [d|z|g ls F]; [exists 0%nat; exact I|exists 0%nat; exact I|].
  assert (HH : exists k, Forall (deep k) (proc g)).
  { induction F as [|o l os ls H F IHF]; [exists 0%nat; constructor|]. destruct (IH _ _ H) as (k1 & H1). destruct IHF as (k2 & H2). exists (Nat.max k1 k2). constructor.
    - apply (deep_more k1); [exact H1|lia].
    - eapply Forall_impl; [|exact H2]. intros o' Ho. apply (deep_more k2); [exact Ho|lia]. }
  destruct HH as (k & Hk). exists (S k). exact Hk.
Qed.

Definition tasks_in (os : list (out G D Z)) : list G := flat_map (fun o => match o with OTask g => [g] | _ => [] end) os.
Definition results_in (os : list (out G D Z)) : list D := flat_map (fun o => match o with OResult d => [d] | _ => [] end) os.
Definition seas_in (os : list (out G D Z)) : list Z := flat_map (fun o => match o with OSea z => [z] | _ => [] end) os.
Notation len l := (N.of_nat (length l)).
Lemma run_outs ws os : forall gp geo dp db ins sea,
  steps (Cst gp geo dp db (WRun os :: ws) MTop ins sea)
        (Cst (gp + len (tasks_in os)) (geo ++ tasks_in os) (dp + len (results_in os)) (db ++ results_in os) (WRun [] :: ws) MTop ins (sea ++ seas_in os)).
Proof.
  induction os as [|o os IH]; intros gp geo dp db ins sea.
  - cbn [tasks_in results_in seas_in flat_map length N.of_nat]. rewrite !N.add_0_r, !app_nil_r. apply st_refl.
  - destruct o as [g|d|z]; cbn [tasks_in results_in seas_in flat_map app]; fold (tasks_in os) (results_in os) (seas_in os).
    + eapply st_more; [apply (w_inc_task proc gp geo dp db [] ws)|]. eapply st_more; [apply (w_push_task proc (gp + 1) geo dp db [] ws)|]. cbn [app].
      replace (gp + len (g :: tasks_in os)) with (gp + 1 + len (tasks_in os)) by (cbn [length]; lia). replace (geo ++ g :: tasks_in os) with ((geo ++ [g]) ++ tasks_in os) by (rewrite <- app_assoc; reflexivity). apply IH.
    + eapply st_more; [apply (w_inc_result proc gp geo dp db [] ws)|]. eapply st_more; [apply (w_push_result proc gp geo (dp + 1) db [] ws)|]. cbn [app].
      replace (dp + len (d :: results_in os)) with (dp + 1 + len (results_in os)) by (cbn [length]; lia). replace (db ++ d :: results_in os) with ((db ++ [d]) ++ results_in os) by (rewrite <- app_assoc; reflexivity). apply IH.
    + eapply st_more; [apply (w_sea proc gp geo dp db [] ws)|]. cbn [app]. replace (sea ++ z :: seas_in os) with ((sea ++ [z]) ++ seas_in os) by (rewrite <- app_assoc; reflexivity). apply IH.
Qed.
Lemma run_tasks ws : forall k gs, Forall (fun g => deep k (OTask g)) gs -> forall geo db ins sea,
  exists db' sea', steps (Cst (len (geo ++ gs)) (geo ++ gs) (len db) db (WTop :: ws) MTop ins sea) (Cst (len geo) geo (len db') db' (WTop :: ws) MTop ins sea').
Proof.
  induction k as [|k IHk]; intros gs F.
  { destruct F as [|g gs Hg F]; [|destruct Hg]. intros geo db ins sea. rewrite app_nil_r. exists db, sea. apply st_refl. }
  induction F as [|g gs Hg F IH]; intros geo db ins sea.
  - rewrite app_nil_r. exists db, sea. apply st_refl.
  - cbn [deep] in Hg.
    assert (FT : Forall (fun g => deep k (OTask g)) (tasks_in (proc g))).
    { clear -Hg. induction Hg as [|o os Ho _ IH]; [constructor|]. cbn [tasks_in flat_map]. fold (tasks_in os). destruct o; cbn [app]; [constructor; assumption|exact IH|exact IH]. }
    destruct (IHk _ FT (geo ++ gs) (db ++ results_in (proc g)) ins (sea ++ seas_in (proc g))) as (db1 & sea1 & S1).
    destruct (IH geo db1 ins sea1) as (db2 & sea2 & S2). exists db2, sea2. eapply st_more.
    { apply (w_go proc (len (geo ++ g :: gs)) (geo ++ g :: gs) (len db) db [] ws). rewrite app_length. cbn [length]. lia. }
    eapply st_more. { cbn [app]. apply (w_take proc (len (geo ++ g :: gs)) geo g gs (len db) db [] ws). }
    cbn [app]. eapply steps_trans; [apply run_outs|]. eapply st_more; [apply (w_finish proc _ _ _ _ [] ws)|]. cbn [app]. eapply steps_trans; [|exact S2].
    replace (len (geo ++ g :: gs) + len (tasks_in (proc g)) - 1) with (len ((geo ++ gs) ++ tasks_in (proc g))) by (rewrite !app_length; cbn [length]; lia).
    replace (len db + len (results_in (proc g))) with (len (db ++ results_in (proc g))) by (rewrite app_length; lia). exact S1.
Qed.
Lemma run_store ws sea db : forall ins, exists ins', steps (Cst 0 [] (len db) db ws MTop ins sea) (Cst 0 [] 0 [] ws MExit ins' sea).
Proof.
  induction db as [|d db IH]; intros ins.
  - exists ins. eapply st_more; [apply m_geo_fin; reflexivity|]. eapply st_more; [apply m_db_fin; reflexivity|]. apply st_refl.
  - destruct (IH (ins ++ [d])) as (ins' & S). exists ins'. eapply st_more; [apply m_geo_fin; reflexivity|]. eapply st_more; [apply m_db_more; cbn [length]; lia|].
    eapply st_more; [apply (m_take proc 0 [] (len (d :: db)) [] d db)|]. eapply st_more; [apply m_insert|]. eapply st_more; [apply m_finish|]. cbn [app].
    replace (len (d :: db) - 1) with (len db) by (cbn [length]; lia). exact S.
Qed.
Lemma coast_completes tasks n l : outcome proc (map OTask tasks) l -> (n <> 0)%nat -> exists s, creach proc tasks n s /\ c_main s = MExit.
Proof.
  intros (ls & F & _) Hn. destruct n as [|n]; [congruence|].
  assert (HD : exists k, Forall (fun g => deep k (OTask g)) tasks).
  { revert ls F. induction tasks as [|g gs IH]; intros ls F; cbn [map] in F; [exists 0%nat; constructor|]. inversion F as [|? l1 ? ? H F']; subst.
    destruct (gives_deep _ _ H) as (k1 & H1). destruct (IH _ F') as (k2 & H2). exists (Nat.max k1 k2). constructor; [apply (deep_more k1); [exact H1|lia]|].
    eapply Forall_impl; [|exact H2]. intros o' Ho. apply (deep_more k2); [exact Ho|lia]. }
  destruct HD as (k & Hk). destruct (run_tasks (repeat WTop n) k tasks Hk [] [] [] []) as (db & sea & S1). destruct (run_store (WTop :: repeat WTop n) sea db []) as (ins & S2).
  exists (Cst 0 [] 0 [] (WTop :: repeat WTop n) MExit ins sea). split; [|reflexivity]. eapply steps_reach; [apply cr_init|]. eapply steps_trans; [exact S1|exact S2].
Qed.
(** with no worker the storing thread waits forever *)
Lemma coast_no_worker tasks s : tasks <> [] -> creach proc tasks 0 s -> c_main s <> MExit.
Proof.
  intros Ht R. assert (H : c_workers s = [] /\ c_gpend s <> 0 /\ (c_main s = MTop \/ c_main s = MDeq) /\ c_db s = []).
  { induction R as [|s s' R (I1 & I2 & I3 & I4) S].
    - cbn. split; [reflexivity|]. split; [destruct tasks; [congruence|cbn [length]; lia]|]. split; [left; reflexivity|reflexivity].
    - destruct S; cbn [c_workers c_gpend c_main c_db] in *; try (destruct w1; discriminate I1); try (destruct I3; discriminate); repeat split; auto; try congruence; try (destruct d1; discriminate I4). }
  destruct H as (_ & _ & H & _). destruct H as [->| ->]; discriminate.
Qed.
End Run.
