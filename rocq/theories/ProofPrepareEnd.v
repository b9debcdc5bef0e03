(** Preparing tiles ends. *)
From Coq Require Import Permutation.
From Verif Require Import Base BaseProof ModelTile SpecTile ProofTile ModelTable ModelPrepare SpecPrepare ProofPerm ProofRender ProofPrepare.
Import ListNotations.
Open Scope N_scope.

Section Ends.
Variable render : tile -> res (option bytes).
Definition weight (p : tpc) : nat := match p with TExit => 0 | TTop => 1 | TStore _ => 2 | TBatch _ => 3 end.
Definition measure (s : prep) : nat := 4 * length (todo (p_man s)) + list_sum (map weight (p_threads s)).

Lemma weight_mid t1 p t2 : list_sum (map weight (t1 ++ p :: t2)) = (weight p + list_sum (map weight (t1 ++ t2)))%nat.
Proof. rewrite !map_app, !list_sum_app. cbn [map list_sum fold_right]. fold (list_sum (map weight t2)). lia. Qed.
Lemma step_less all tiles0 s s' : pinv render tiles0 all s -> prep_step render s s' -> (measure s' < measure s)%nat.
Proof.
  intros [Hm _ _ _] St. unfold measure. destruct St as [m m' b t1 t2 tiles log Hb|m t1 t2 tiles log b rs Hr|m t1 t2 tiles tiles' log rs Hs];
    cbn [p_man p_threads] in *; rewrite !weight_mid; cbn [weight]; try lia.
  destruct (get_batch_spec m Hm) as (b2 & m2 & E & _ & B & _). rewrite Hb in E. apply Ok_inj in E. injection E as <- <-.
  rewrite B, app_length. destruct b; cbn [length weight]; lia.
Qed.
Lemma run_acc all tiles0 s : pinv render tiles0 all s -> Acc (fun b a => prep_step render a b) s.
Proof.
  remember (measure s) as k. revert s Heqk. induction k as [k IH] using (well_founded_induction lt_wf); intros s -> H.
  constructor. intros s' St. apply (IH (measure s')); [eapply step_less; eauto | reflexivity | eapply prep_step_inv; eauto].
Qed.

Lemma exited_or ps : Forall (fun p => p = TExit) ps \/ exists t1 p t2, ps = t1 ++ p :: t2 /\ p <> TExit.
Proof.
  induction ps as [|p ps IH]; [left; constructor|]. destruct IH as [IH|(t1 & q & t2 & -> & Hq)].
  - destruct p; [right; exists [], TTop, ps | right; exists [], (TBatch b), ps | right; exists [], (TStore rs), ps | left; constructor; auto]; split; auto; discriminate.
  - right. exists (p :: t1), q, t2. auto.
Qed.
Lemma put_results_ok rs : (forall t r, In (t, r) rs -> exists k, tile_to_key t 0 = Ok k) -> forall tiles, exists tiles', put_results tiles rs = Ok tiles'.
Proof.
  induction rs as [|[t [b|]] rs IH]; intros H tiles; cbn [put_results]; [eauto| |].
  - destruct (H t (Some b) (or_introl eq_refl)) as (k & ->). cbn [bind]. apply IH. intros t' r' Hi. apply (H t' r'). now right.
  - apply IH. intros t' r' Hi. apply (H t' r'). now right.
Qed.
End Ends.

Lemma key_tile_small k : tx (key_to_tile k) < 2 ^ 21 /\ ty (key_to_tile k) < 2 ^ 21.
Proof.
  unfold key_to_tile, kXMask, kYMask. cbn [tx ty]. change (N.shiftl 1 21 - 1) with (N.ones 21). rewrite !N.land_ones.
  assert (forall a, (a mod 2 ^ 21) mod 2 ^ 32 < 2 ^ 21).
  { intros a. rewrite N.mod_small; [apply N.mod_lt; discriminate|]. apply N.lt_trans with (2 ^ 21); [apply N.mod_lt; discriminate|reflexivity]. }
  auto.
Qed.
Lemma bounds_key features t : tz t <= 10 -> in_bounds features t -> exists k, tile_to_key t 0 = Ok k.
Proof.
  intros Hz (i & (Zi & _ & (ex & _ & Lx) & _ & (ey & _ & Ly)) & Hr).
  pose proof (key_tile_small (fst ex)) as [Kx _]. pose proof (key_tile_small (fst ey)) as [_ Ky].
  assert (H : tx t < 2 ^ 21 /\ ty t < 2 ^ 21).
  { destruct Hr as [(Hl & Ex & Ey)|(Hl & Ex & Ey)].
    - replace (tz t - tz i) with 0 in * by lia. cbn [N.pow] in *. rewrite N.div_1_r in *. lia.
    - pose proof (N.pow_nonzero 2 (tz i - tz t) ltac:(discriminate)) as P. remember (2 ^ (tz i - tz t)) as q.
      assert (A : forall a, a / q <= a) by (intros a; apply N.div_le_upper_bound; [assumption|nia]).
      pose proof (A (tx i)). pose proof (A (ty i)). rewrite Ex, Ey. lia. }
  rewrite tile_to_key_spec. destruct (N.ltb_spec (tx t) (2 ^ 21)); [|lia]. destruct (N.ltb_spec (ty t) (2 ^ 21)); [|lia]. destruct (N.ltb_spec (tz t) (2 ^ 5)) as [|Hb]; [|change (2 ^ 5) with 32 in Hb; lia]. change (0 <? 2 ^ 17) with true. cbn [andb]. eexists. reflexivity.
Qed.

(** every schedule of the threads ends, and none stops before all threads have finished, unless rendering fails *)
Lemma prepare_ends features max m n tiles render s :
  make_prepare_manager features max = Ok m -> prep_reach render m n tiles s ->
  Acc (fun b a => prep_step render a b) s.
Proof.
  intros Hm R. destruct (manager_ok _ _ _ Hm) as (x0 & y0 & x1 & y1 & -> & Hx1 & Hy1 & _ & Hr).
  assert (M : man_ok (pm_make (base_of x0 y0 x1 y1) max)).
  { split; cbn [pm_make pm_base pm_rest]; [intros z|]; apply on_z_nonempty; auto. }
  eapply run_acc. exact (prep_reach_inv _ _ _ _ _ M R).
Qed.
Lemma prepare_goes_on features max m n tiles render s :
  make_prepare_manager features max = Ok m -> max <= 10 -> prep_reach render m n tiles s ->
  (forall t, tz t <= max -> in_bounds features t -> exists r, render t = Ok r) ->
  all_exited s \/ exists s', prep_step render s s'.
Proof.
  intros Hm Hmax R HR. destruct (manager_ok _ _ _ Hm) as (x0 & y0 & x1 & y1 & -> & Hx1 & Hy1 & _ & Hr).
  assert (M : man_ok (pm_make (base_of x0 y0 x1 y1) max)).
  { split; cbn [pm_make pm_base pm_rest]; [intros z|]; apply on_z_nonempty; auto. }
  destruct (prep_reach_inv _ _ _ _ _ M R) as [P1 Pa _ (st & _ & S2 & _)].
  destruct (todo_all x0 y0 x1 y1 max Hx1 Hy1) as [_ T2].
  assert (HB : forall t, In t (p_rendered s ++ flat_map inflight (p_threads s) ++ todo (p_man s)) -> tz t <= max /\ in_bounds features t).
  { intros t Hi. apply (Permutation_in _ (Permutation_sym Pa)) in Hi. apply T2 in Hi as [A (i & B & C)]. split; [assumption|]. exists i. split; [now apply Hr|assumption]. }
  destruct s as [mm ps tl log]. cbn [p_man p_threads p_tiles p_rendered] in *. unfold all_exited. cbn [p_threads].
  destruct (exited_or ps) as [H|(t1 & p & t2 & -> & Hp)]; [now left|right]. destruct p as [|b|rs|]; [| | |congruence].
  - destruct (get_batch_spec mm P1) as (b & m' & E & _). eexists. eapply pt_batch. exact E.
  - destruct (map_res_total render b) as (rs & E).
    { intros t Ht. apply HR; apply HB; rewrite !in_app_iff; right; left; rewrite flat_map_app; apply in_app_iff; right; cbn [flat_map inflight]; apply in_app_iff; now left. }
    eexists. eapply pt_render. exact E.
  - destruct (put_results_ok rs) with (tiles := tl) as (tl' & E).
    { intros t r Hi. destruct (HB t) as [A B]; [|apply (bounds_key features); [lia|assumption]].
      apply in_or_app. left. apply (Permutation_in _ (Permutation_sym S2)). apply in_map_iff. exists (t, r). split; [reflexivity|].
      apply in_or_app. right. rewrite flat_map_app. apply in_app_iff. right. cbn [flat_map unstored]. apply in_app_iff. now left. }
    assert (exists tl'', store_batch tl rs = Ok tl'') as (tl'' & E'). { unfold store_batch. destruct (forallb _ rs); eauto. }
    eexists. eapply pt_store. exact E'.
Qed.
(** so a complete run exists from every state *)
Lemma prepare_completes features max m n tiles render s :
  make_prepare_manager features max = Ok m -> max <= 10 -> prep_reach render m n tiles s ->
  (forall t, tz t <= max -> in_bounds features t -> exists r, render t = Ok r) ->
  exists s', prep_reach render m n tiles s' /\ all_exited s'.
Proof.
  intros Hm Hmax R HR. pose proof (prepare_ends _ _ _ _ _ _ _ Hm R) as HA. induction HA as [s _ IH].
  destruct (prepare_goes_on _ _ _ _ _ _ _ Hm Hmax R HR) as [H|(s' & St)]; [eauto|]. apply (IH s' St). eapply pr_step; eauto.
Qed.
