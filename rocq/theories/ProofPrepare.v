(** Proofs about preparing tiles. *)
From Coq Require Import Permutation.
From Coq Require FinFun.
From Verif Require Import Base BaseProof ModelTile SpecTile ProofTile ModelPackFile ModelRender ProofRender ModelTable ProofTable
  ModelPrepare SpecPrepare ProofPerm.
Import ModelTile.
Open Scope N_scope.

(** ** ranges *)
Lemma nrange_In a n x : In x (nrange a n) <-> a <= x < a + n.
Proof.
  unfold nrange. rewrite in_map_iff. split.
  - intros (i & <- & Hi). apply in_seq in Hi. lia.
  - intros H. exists (N.to_nat (x - a)). split; [lia|]. apply in_seq. lia.
Qed.
Lemma nrange_NoDup a n : NoDup (nrange a n).
Proof. unfold nrange. apply FinFun.Injective_map_NoDup; [|apply seq_NoDup]. intros i j H. lia. Qed.

Lemma range_tiles_In b z t : In t (range_tiles b z) <-> tz t = z /\ minx b <= tx t < maxx b /\ miny b <= ty t < maxy b.
Proof.
  unfold range_tiles. rewrite in_flat_map. split.
  - intros (y & Hy & Ht). apply in_map_iff in Ht as (x & <- & Hx). rewrite nrange_In in *. cbn [tx ty tz]. lia.
  - intros (E & Hx & Hy). exists (ty t). rewrite nrange_In. split; [lia|]. apply in_map_iff. exists (tx t).
    rewrite nrange_In. split; [destruct t as [a0 b0 c0]; cbn [tx ty tz] in *; congruence|lia].
Qed.
Lemma NoDup_flat {A B} (f : A -> list B) l : NoDup l -> (forall a, In a l -> NoDup (f a)) ->
  (forall a a' x, In a l -> In a' l -> In x (f a) -> In x (f a') -> a = a') -> NoDup (flat_map f l).
Proof.
  induction l as [|a l IH]; intros Hn Hf Hd; cbn [flat_map]; [constructor|]. apply NoDup_cons_iff in Hn as [Ha Hn].
  apply ProofBqQuery.NoDup_app_disj.
  - apply Hf. left. reflexivity.
  - apply IH; auto. + intros; apply Hf; right; auto. + intros; eapply Hd; try right; eauto.
  - intros x Hx Hx'. apply in_flat_map in Hx' as (a' & Ha' & Hx'). apply Ha.
    rewrite (Hd a a' x); auto. left. reflexivity. right. auto.
Qed.
Lemma range_tiles_NoDup b z : NoDup (range_tiles b z).
Proof.
  unfold range_tiles. apply NoDup_flat; [apply nrange_NoDup| |].
  - intros y _. apply FinFun.Injective_map_NoDup; [|apply nrange_NoDup]. intros x x' H. injection H as H. exact H.
  - intros y y' t _ _ H H'. apply in_map_iff in H as (x & <- & _). apply in_map_iff in H' as (x' & E & _).
    injection E. auto.
Qed.

Lemma up_range x0 x1 x d : x0 <= x1 -> (x0 / 2 ^ d <= x < x1 / 2 ^ d + 1 <-> exists i, x0 <= i <= x1 /\ x = i / 2 ^ d).
Proof.
  intros H. assert (P : 0 < 2 ^ d) by (apply N.neq_0_lt_0, N.pow_nonzero; lia). split.
  - intros [A B]. set (p := 2 ^ d) in *. clearbody p.
    exists (N.max x0 (x * p)). destruct (N.max_spec x0 (x * p)) as [[C ->]|[C ->]].
    + split; [|now rewrite N.div_mul by lia]. split; [lia|].
      assert (x <= x1 / p) by lia. apply N.le_trans with (x1 / p * p); [apply N.mul_le_mono_r; lia|].
      rewrite N.mul_comm. apply N.mul_div_le. lia.
    + split; [lia|]. apply N.le_antisymm; [|exact A]. apply N.div_le_lower_bound; lia.
  - intros (i & [A B] & ->). split.
    + apply N.div_le_mono; lia.
    + rewrite N.add_1_r. apply N.lt_succ_r. apply N.div_le_mono; lia.
Qed.
Lemma down_range x0 x1 x d : x0 * 2 ^ d <= x < (x1 + 1) * 2 ^ d <-> x0 <= x / 2 ^ d <= x1.
Proof.
  assert (P : 0 < 2 ^ d) by (apply N.neq_0_lt_0, N.pow_nonzero; lia). set (p := 2 ^ d) in *. clearbody p. split.
  - intros [A B]. split. + apply N.div_le_lower_bound; lia.
    + apply N.lt_succ_r. apply N.div_lt_upper_bound; lia.
  - intros [A B]. split.
    + apply N.le_trans with (x / p * p). * apply N.mul_le_mono_r. exact A. * rewrite N.mul_comm. apply N.mul_div_le. lia.
    + assert (x < p * N.succ (x / p)) by (apply N.mul_succ_div_gt; lia).
      apply N.lt_le_trans with (p * N.succ (x / p)); auto. rewrite N.mul_comm. apply N.mul_le_mono_r. lia.
Qed.

Definition rect (x0 y0 x1 y1 : N) (i : tile) : Prop := tz i = 10 /\ x0 <= tx i <= x1 /\ y0 <= ty i <= y1.
Definition base_of (x0 y0 x1 y1 : N) : corners := Corners (Tile x0 y0 10) (Tile x1 y1 10).

Lemma on_z_In x0 y0 x1 y1 z t : x0 <= x1 -> y0 <= y1 ->
  In t (tile_range_on_z (base_of x0 y0 x1 y1) z) <-> tz t = z /\ exists i, rect x0 y0 x1 y1 i /\ related i t.
Proof.
  intros Hx Hy. unfold tile_range_on_z. rewrite range_tiles_In. unfold bounds_on_z, base_of. cbn [c_first c_last tx ty tz].
  destruct (N.ltb_spec z 10) as [L|L]; cbn [minx miny maxx maxy]; rewrite ?N.shiftr_div_pow2, ?N.shiftl_mul_pow2.
  - rewrite (up_range x0 x1 (tx t)), (up_range y0 y1 (ty t)) by assumption. split.
    + intros (E & (i & Hi & Ei) & (j & Hj & Ej)). split; auto. exists (Tile i j 10). split. { split; auto. }
      right. split; cbn [tx ty tz]; [lia|]. rewrite E. auto.
    + intros (E & i & (Z & HX & HY) & R). split; auto. destruct R as [R|R].
      { destruct R as [R _]. lia. }
      destruct R as (R1 & R2 & R3). rewrite Z, E in *. split; eexists; split; eauto.
  - rewrite (down_range x0 x1 (tx t)), (down_range y0 y1 (ty t)). split.
    + intros (E & HX & HY). split; auto. exists (Tile (tx t / 2 ^ (z - 10)) (ty t / 2 ^ (z - 10)) 10). split. { split; auto. }
      left. split; cbn [tx ty tz]; [lia|]. rewrite E. auto.
    + intros (E & i & (Z & HX & HY) & R). split; auto. destruct R as [(R1 & R2 & R3)|(R1 & R2 & R3)].
      * rewrite Z, E in *. rewrite <- R2, <- R3. auto.
      * assert (z = 10) by lia. replace (z - 10) with 0 by lia. rewrite N.pow_0_r, !N.div_1_r.
        rewrite Z, E in *. replace (10 - z) with 0 in * by lia. rewrite N.pow_0_r, N.div_1_r in *. lia.
Qed.
Lemma on_z_NoDup c z : NoDup (tile_range_on_z c z).
Proof. apply range_tiles_NoDup. Qed.
Lemma on_z_nonempty x0 y0 x1 y1 z : x0 <= x1 -> y0 <= y1 -> tile_range_on_z (base_of x0 y0 x1 y1) z <> [].
Proof.
  intros Hx Hy E.
  set (t := if z <? 10 then Tile (x0 / 2 ^ (10 - z)) (y0 / 2 ^ (10 - z)) z else Tile (x0 * 2 ^ (z - 10)) (y0 * 2 ^ (z - 10)) z).
  assert (In t (tile_range_on_z (base_of x0 y0 x1 y1) z)) as H.
  { apply on_z_In; auto. unfold t. destruct (N.ltb_spec z 10); cbn [tz]; split; auto; exists (Tile x0 y0 10).
    - split; [split; cbn [tx ty tz]; lia|]. right. split; cbn [tx ty tz]; [lia|]. auto.
    - split; [split; cbn [tx ty tz]; lia|]. left. split; cbn [tx ty tz]; [lia|]. rewrite !N.div_mul; [auto|apply N.pow_nonzero; lia..]. }
  rewrite E in H. destruct H.
Qed.

(** ** batches *)
Definition todo (m : pman) : list tile :=
  if pm_max m <? pm_z m then []
  else pm_rest m ++ flat_map (tile_range_on_z (pm_base m)) (nrange (pm_z m + 1) (pm_max m - pm_z m)).
Definition man_ok (m : pman) : Prop :=
  (forall z, tile_range_on_z (pm_base m) z <> []) /\ pm_rest m <> [].

Lemma batch_loop_spec n : forall m, man_ok m -> exists b m', batch_loop n m = Ok (b, m') /\ man_ok m' /\
  todo m = b ++ todo m' /\ (b = [] -> n = O \/ todo m = []).
Proof.
  induction n as [|n IH]; intros m Hm; cbn [batch_loop].
  - exists [], m. repeat split; auto; apply Hm.
  - destruct (N.ltb_spec (pm_max m) (pm_z m)) as [L|L].
    + exists [], m. unfold todo at 3. replace (pm_max m <? pm_z m) with true by lia. repeat split; auto; apply Hm.
    + destruct Hm as [H1 H2]. destruct (pm_rest m) as [|t rest] eqn:E; [congruence|].
      set (m' := match rest with [] => _ | _ => _ end).
      assert (Hm' : man_ok m' /\ todo m = t :: todo m').
      { unfold m'. destruct rest as [|t' rest].
        - split. { split; cbn [pm_base pm_rest]; auto. }
          unfold todo. cbn [pm_max pm_z pm_base pm_rest]. rewrite E. replace (pm_max m <? pm_z m) with false by lia. cbn [app].
          f_equal. destruct (N.ltb_spec (pm_max m) (pm_z m + 1)) as [L'|L'].
          + replace (pm_max m - pm_z m) with 0 by lia. reflexivity.
          + replace (nrange (pm_z m + 1) (pm_max m - pm_z m)) with (pm_z m + 1 :: nrange (pm_z m + 1 + 1) (pm_max m - (pm_z m + 1))); [reflexivity|].
            unfold nrange. replace (N.to_nat (pm_max m - pm_z m)) with (S (N.to_nat (pm_max m - (pm_z m + 1)))) by lia.
            cbn [seq map]. f_equal; [lia|]. rewrite <- seq_shift, map_map. apply map_ext. intros i. lia.
        - split. { split; cbn [pm_base pm_rest]; auto. discriminate. }
          unfold todo. cbn [pm_max pm_z pm_base pm_rest]. rewrite E. replace (pm_max m <? pm_z m) with false by lia. reflexivity. }
      destruct Hm' as [Hm' Ht]. destruct (IH m' Hm') as (b & m'' & -> & A & B & _). cbn [bind].
      exists (t :: b), m''. repeat split; auto; try apply A. rewrite Ht, B. reflexivity. discriminate.
Qed.
Lemma get_batch_spec m : man_ok m -> exists b m', get_batch m = Ok (b, m') /\ man_ok m' /\ todo m = b ++ todo m' /\ (b = [] -> todo m = []).
Proof.
  intros Hm. unfold get_batch. destruct (batch_loop_spec (N.to_nat (N.shiftl 1 9 / N.shiftl 1 (9 - pm_z m))) m Hm) as (b & m' & E & A & B & C).
  exists b, m'. repeat split; auto; try apply A. intros Eb. destruct (C Eb) as [F|F]; auto. exfalso.
  assert (1 <= N.shiftl 1 9 / N.shiftl 1 (9 - pm_z m)); [|lia].
  apply N.div_le_lower_bound. { rewrite N.shiftl_mul_pow2, N.mul_1_l. apply N.pow_nonzero. lia. }
  rewrite N.mul_1_r, !N.shiftl_mul_pow2, !N.mul_1_l. apply N.pow_le_mono_r; lia.
Qed.

(** ** the threads *)
Section Threads.
Variable render : tile -> res (option bytes).
Variable tiles0 : table.

Definition inflight (p : tpc) : list tile := match p with TBatch b => b | _ => [] end.
Definition unstored (p : tpc) : list (tile * option bytes) := match p with TStore rs => rs | _ => [] end.
Definition agrees (r : tile * option bytes) : Prop := render (fst r) = Ok (snd r).

Record pinv (all : list tile) (s : prep) : Prop := {
  pi_man : man_ok (p_man s);
  pi_all : Permutation all (p_rendered s ++ flat_map inflight (p_threads s) ++ todo (p_man s));
  pi_exit : In TExit (p_threads s) -> todo (p_man s) = [];
  pi_st : exists st, put_results tiles0 st = Ok (p_tiles s) /\
            Permutation (p_rendered s) (map fst (st ++ flat_map unstored (p_threads s))) /\
            Forall agrees (st ++ flat_map unstored (p_threads s)) }.

Lemma put_results_app a : forall t b, put_results t (a ++ b) = do t' <- put_results t a; put_results t' b.
Proof.
  induction a as [|[x [v|]] a IH]; intros t b; cbn [app put_results bind]; auto.
  destruct (tile_to_key x 0); cbn [bind]; auto.
Qed.
Lemma store_batch_put t rs t' : store_batch t rs = Ok t' -> put_results t rs = Ok t'.
Proof.
  unfold store_batch. destruct (forallb _ rs) eqn:E; auto. intros H. rewrite <- H. clear H.
  induction rs as [|[x [v|]] rs IH]; auto; cbn [forallb snd andb] in E. discriminate.
Qed.
Lemma combine_fst {A B} (a : list A) (b : list B) : length a = length b -> map fst (combine a b) = a.
Proof. revert b. induction a as [|x a IH]; intros [|y b] H; cbn [length combine map fst] in *; auto; try discriminate. f_equal. apply IH. lia. Qed.

Lemma prep_step_inv all s s' : pinv all s -> prep_step render s s' -> pinv all s'.
Proof.
  intros [Hm Ha He (st & S1 & S2 & S3)] St. destruct St as [m m' b t1 t2 tiles log Hb|m t1 t2 tiles log b rs Hr|m t1 t2 tiles tiles' log rs Hs];
    cbn [p_man p_threads p_tiles p_rendered] in *.
  - destruct (get_batch_spec m Hm) as (b2 & m2 & E & A & B & C). rewrite Hb in E. apply Ok_inj in E. injection E as <- <-.
    split; cbn [p_man p_threads p_tiles p_rendered]; auto.
    + rewrite Ha, B. rewrite !flat_map_app. cbn [flat_map inflight app].
      replace (inflight (match b with [] => TExit | _ => TBatch b end)) with b by (destruct b; reflexivity). perm.
    + intros Hi. apply in_app_iff in Hi as [Hi|[Hi|Hi]].
      * assert (E : todo m = []) by (apply He; apply in_app_iff; auto). rewrite E in B. symmetry in B. apply app_eq_nil in B as [_ B]. exact B.
      * destruct b; [|discriminate]. specialize (C eq_refl). cbn [app] in B. congruence.
      * assert (E : todo m = []) by (apply He; apply in_app_iff; right; right; auto). rewrite E in B. symmetry in B. apply app_eq_nil in B as [_ B]. exact B.
    + exists st. replace (flat_map unstored (t1 ++ match b with [] => TExit | _ => TBatch b end :: t2)) with (flat_map unstored (t1 ++ TTop :: t2)).
      * auto. * rewrite !flat_map_app. cbn [flat_map]. destruct b; reflexivity.
  - assert (L : length b = length rs) by (apply map_res_Forall2 in Hr; clear -Hr; induction Hr; cbn [length]; congruence).
    split; cbn [p_man p_threads p_tiles p_rendered]; auto.
    + rewrite Ha. rewrite !flat_map_app. cbn [flat_map inflight app]. perm.
    + intros Hi. apply He. apply in_app_iff in Hi as [Hi|[Hi|Hi]]; try discriminate; apply in_app_iff; [left|right; right]; auto.
    + exists st. split; auto. rewrite !flat_map_app in *. cbn [flat_map unstored app] in *. split.
      * rewrite S2. rewrite !map_app. rewrite combine_fst by exact L. perm.
      * rewrite !Forall_app in *. repeat split; try tauto. apply map_res_Forall2 in Hr.
        clear -Hr. induction Hr as [|x y b rs H Hr IH]; cbn [combine]; constructor; auto.
  - apply store_batch_put in Hs. split; cbn [p_man p_threads p_tiles p_rendered]; auto.
    + rewrite Ha. rewrite !flat_map_app. cbn [flat_map inflight app]. perm.
    + intros Hi. apply He. apply in_app_iff in Hi as [Hi|[Hi|Hi]]; try discriminate; apply in_app_iff; [left|right; right]; auto.
    + exists (st ++ rs). rewrite !flat_map_app in *. cbn [flat_map unstored app] in *. split; [|split].
      * rewrite put_results_app, S1. exact Hs.
      * rewrite S2. rewrite !map_app. perm.
      * rewrite !Forall_app in *. tauto.
Qed.

Lemma prep_reach_inv m n s : man_ok m -> prep_reach render m n tiles0 s -> pinv (todo m) s.
Proof.
  intros Hm R. induction R as [|s s' R IH St].
  - assert (E1 : flat_map inflight (repeat TTop n) = []) by (clear; induction n; auto).
    assert (E2 : flat_map unstored (repeat TTop n) = []) by (clear; induction n; auto).
    split; cbn [p_man p_threads p_tiles p_rendered]; auto.
    + rewrite E1. reflexivity.
    + intros H. apply repeat_spec in H. discriminate.
    + exists []. rewrite E2. repeat split; constructor.
  - eapply prep_step_inv; eauto.
Qed.

(** what the table holds in the end *)
Lemma put_results_get st : forall t t', table_sorted t -> put_results t st = Ok t' -> NoDup (map fst st) ->
  table_sorted t' /\
  (forall x r k, In (x, r) st -> tile_to_key x 0 = Ok k -> table_get t' k = match r with Some b => Some b | None => table_get t k end) /\
  (forall k, (forall x r, In (x, r) st -> tile_to_key x 0 <> Ok k) -> table_get t' k = table_get t k).
Proof.
  induction st as [|[x r] st IH]; intros t t' Hs H Hn.
  - cbn [put_results] in H. apply Ok_inj in H. subst t'. split; [|split]; auto. intros x r k [].
  - cbn [map fst] in Hn. apply NoDup_cons_iff in Hn as [Hx Hn].
    assert (Hother : forall k, tile_to_key x 0 = Ok k -> forall y q, In (y, q) st -> tile_to_key y 0 <> Ok k).
    { intros k Hk y q Hy Hk2. apply Hx. destruct (tile_key_injective _ _ _ _ _ Hk Hk2) as [-> _].
      apply in_map_iff. exists (y, q). auto. }
    destruct r as [v|]; cbn [put_results] in H.
    + apply bind_ok in H as (kx & Hk & H). destruct (IH _ _ (table_put_sorted _ kx v Hs) H Hn) as (A & B & C). split; [exact A|]. split.
      * intros y r k [E|Hy] Hky.
        -- injection E as -> <-. rewrite Hk in Hky. apply Ok_inj in Hky. subst k. rewrite C by (apply Hother; exact Hk).
           rewrite table_get_put by exact Hs. rewrite N.eqb_refl. reflexivity.
        -- rewrite (B y r k Hy Hky). destruct r; auto. rewrite table_get_put by exact Hs.
           destruct (N.eqb_spec kx k) as [E|]; auto. subst kx. exfalso. eapply Hother; eauto.
      * intros k Hk2. rewrite C by (intros y q Hy; apply (Hk2 y q); right; exact Hy). rewrite table_get_put by exact Hs.
        destruct (N.eqb_spec kx k) as [E|]; auto. subst kx. exfalso. apply (Hk2 x (Some v)); [left; reflexivity|exact Hk].
    + destruct (IH _ _ Hs H Hn) as (A & B & C). split; [exact A|]. split.
      * intros y r k [E|Hy] Hky.
        -- injection E as -> <-. apply C. apply Hother. exact Hky.
        -- apply (B y r k Hy Hky).
      * intros k Hk2. apply C. intros y q Hy. apply (Hk2 y q). right. exact Hy.
Qed.
End Threads.

Lemma flat_map_nil {A B} (f : A -> list B) l : Forall (fun a => f a = []) l -> flat_map f l = [].
Proof. induction 1 as [|a l H _ IH]; auto. cbn [flat_map]. rewrite H, IH. reflexivity. Qed.

Lemma todo_all x0 y0 x1 y1 max : x0 <= x1 -> y0 <= y1 ->
  NoDup (todo (pm_make (base_of x0 y0 x1 y1) max)) /\
  forall t, In t (todo (pm_make (base_of x0 y0 x1 y1) max)) <-> tz t <= max /\ exists i, rect x0 y0 x1 y1 i /\ related i t.
Proof.
  intros Hx Hy. unfold todo, pm_make. cbn [pm_max pm_z pm_base pm_rest]. replace (max <? 0) with false by lia.
  assert (E : tile_range_on_z (base_of x0 y0 x1 y1) 0 ++ flat_map (tile_range_on_z (base_of x0 y0 x1 y1)) (nrange (0 + 1) (max - 0))
     = flat_map (tile_range_on_z (base_of x0 y0 x1 y1)) (0 :: nrange 1 max)).
  { cbn [flat_map]. rewrite N.sub_0_r. reflexivity. }
  rewrite E. split.
  - apply NoDup_flat.
    + constructor; [|apply nrange_NoDup]. rewrite nrange_In. lia.
    + intros z _. apply on_z_NoDup.
    + intros z z' t _ _ H H'. apply on_z_In in H as [H _]; auto. apply on_z_In in H' as [H' _]; auto. congruence.
  - intros t. rewrite in_flat_map. split.
    + intros (z & Hz & Ht). apply on_z_In in Ht as [Ht Hr]; auto. split; auto. destruct Hz as [<-|Hz]; [lia|]. rewrite nrange_In in Hz. lia.
    + intros [Hz Hr]. exists (tz t). split.
      * destruct (N.eq_dec (tz t) 0) as [->|]; [left; reflexivity|]. right. apply nrange_In. lia.
      * apply on_z_In; auto.
Qed.

Lemma key_bounds_spec features x0 y0 x1 y1 : key_bounds features = (x0, y0, x1, y1) ->
  (features = [] -> x0 = 2 ^ 32 - 1) /\
  (features <> [] -> x0 < 2 ^ 21 /\ y0 < 2 ^ 21 /\ x0 <= x1 /\ y0 <= y1 /\
    (exists e, In e features /\ tx (key_to_tile (fst e)) = x0) /\ (exists e, In e features /\ tx (key_to_tile (fst e)) = x1) /\
    (exists e, In e features /\ ty (key_to_tile (fst e)) = y0) /\ (exists e, In e features /\ ty (key_to_tile (fst e)) = y1)) /\
  (forall e, In e features -> x0 <= tx (key_to_tile (fst e)) <= x1 /\ y0 <= ty (key_to_tile (fst e)) <= y1).
Proof.
  assert (Hk : forall k, tx (key_to_tile k) < 2 ^ 21 /\ ty (key_to_tile k) < 2 ^ 21).
  { intros k. unfold key_to_tile, kXMask, kYMask. cbn [tx ty]. change (N.shiftl 1 21 - 1) with (N.ones 21). rewrite !N.land_ones.
    assert (forall a, (a mod 2 ^ 21) mod 2 ^ 32 < 2 ^ 21).
    { intros a. rewrite N.mod_small; [apply N.mod_lt; discriminate|]. apply N.lt_trans with (2 ^ 21); [apply N.mod_lt; discriminate|reflexivity]. }
    auto. }
  revert x0 y0 x1 y1. unfold key_bounds.
  induction features as [|e features IH] using rev_ind; intros x0 y0 x1 y1.
  - cbn [fold_left]. intros E. injection E as <- <- <- <-. split; [reflexivity|]. split; [congruence|]. intros e [].
  - rewrite fold_left_app. cbn [fold_left]. destruct (fold_left _ features _) as [[[a b] c] d] eqn:F.
    specialize (IH _ _ _ _ eq_refl). destruct IH as (I1 & I2 & I3). destruct (Hk (fst e)) as [K1 K2].
    set (X := tx (key_to_tile (fst e))) in *. set (Y := ty (key_to_tile (fst e))) in *.
    intros E. injection E as <- <- <- <-. split. { intros E. destruct features; discriminate. }
    split.
    + intros _. destruct features as [|e0 fs] eqn:Ef.
      * cbn [fold_left] in F. injection F as <- <- <- <-. change (2 ^ 32 - 1) with 4294967295. change (2 ^ 21) with 2097152 in *.
        repeat split; try lia; exists e; (split; [left; reflexivity|]); fold X Y; lia.
      * destruct I2 as (A & B & C & D & (e1 & E1 & Ex1) & (e2 & E2 & Ex2) & (e3 & E3 & Ex3) & (e4 & E4 & Ex4)); [discriminate|].
        change (2 ^ 21) with 2097152 in *. repeat split; try lia.
        -- destruct (N.min_spec a X) as [[_ ->]|[_ ->]]; [exists e1|exists e]; split; auto; apply in_app_iff; [left; auto|right; left; auto].
        -- destruct (N.max_spec c X) as [[_ ->]|[_ ->]]; [exists e|exists e2]; split; auto; apply in_app_iff; [right; left; auto|left; auto].
        -- destruct (N.min_spec b Y) as [[_ ->]|[_ ->]]; [exists e3|exists e]; split; auto; apply in_app_iff; [left; auto|right; left; auto].
        -- destruct (N.max_spec d Y) as [[_ ->]|[_ ->]]; [exists e|exists e4]; split; auto; apply in_app_iff; [right; left; auto|left; auto].
    + intros e' He'. apply in_app_iff in He' as [He'|[<-|[]]]; [|fold X Y; lia]. destruct (I3 _ He') as [J1 J2]. lia.
Qed.

Lemma manager_ok features max m : make_prepare_manager features max = Ok m ->
  exists x0 y0 x1 y1, m = pm_make (base_of x0 y0 x1 y1) max /\ x0 <= x1 /\ y0 <= y1 /\ features <> [] /\
    forall i, rect x0 y0 x1 y1 i <-> in_rectangle features i.
Proof.
  unfold make_prepare_manager. destruct (key_bounds features) as [[[x0 y0] x1] y1] eqn:E. intros H.
  apply bind_ok in H as (u & V & H). apply Ok_inj in H. subst m.
  destruct (key_bounds_spec _ _ _ _ _ E) as (K1 & K2 & K3).
  assert (Hne : features <> []).
  { intros F. apply K1 in F. rewrite F, N.eqb_refl in V. discriminate. }
  destruct (K2 Hne) as (_ & _ & C & D & (e1 & E1 & Ex1) & (e2 & E2 & Ex2) & (e3 & E3 & Ex3) & (e4 & E4 & Ex4)).
  exists x0, y0, x1, y1. split; [reflexivity|]. split; [exact C|]. split; [exact D|]. split; [exact Hne|].
  intros i. split.
  - intros (Z & X & Y). split; [exact Z|].
    split; [exists e1; split; auto; lia|]. split; [exists e2; split; auto; lia|].
    split; [exists e3; split; auto; lia|]. exists e4; split; auto; lia.
  - intros (Z & (a & Ha & La) & (b & Hb & Lb) & (c & Hc & Lc) & (d & Hd & Ld)).
    pose proof (K3 a Ha). pose proof (K3 b Hb). pose proof (K3 c Hc). pose proof (K3 d Hd). split; [exact Z|]. lia.
Qed.

(** manager creation fails exactly for a database without features *)
Lemma manager_fails features max : (features = [] -> make_prepare_manager features max = Throw) /\
  (features <> [] -> exists m, make_prepare_manager features max = Ok m).
Proof.
  unfold make_prepare_manager. destruct (key_bounds features) as [[[x0 y0] x1] y1] eqn:E.
  destruct (key_bounds_spec _ _ _ _ _ E) as (K1 & K2 & K3). split; intros H.
  - rewrite (K1 H), N.eqb_refl. reflexivity.
  - destruct (K2 H) as (A & B & _). change (2 ^ 32 - 1) with 4294967295. change (2 ^ 21) with 2097152 in *.
    replace (x0 =? 4294967295) with false by lia. replace (y0 =? 4294967295) with false by lia. cbn [negb andb verify bind]. eauto.
Qed.

Lemma prepare_done features max m n tiles render s :
  make_prepare_manager features max = Ok m -> prep_reach render m n tiles s -> all_exited s -> (0 < n)%nat -> table_sorted tiles ->
  NoDup (p_rendered s) /\ (forall t, In t (p_rendered s) <-> tz t <= max /\ in_bounds features t) /\ table_sorted (p_tiles s) /\
  (forall t, In t (p_rendered s) -> exists r, render t = Ok r /\ forall k, tile_to_key t 0 = Ok k ->
     table_get (p_tiles s) k = match r with Some b => Some b | None => table_get tiles k end) /\
  (forall k, (forall t, In t (p_rendered s) -> tile_to_key t 0 <> Ok k) -> table_get (p_tiles s) k = table_get tiles k).
Proof.
  intros Hm R Hx Hn Hs. destruct (manager_ok _ _ _ Hm) as (x0 & y0 & x1 & y1 & -> & Hx1 & Hy1 & _ & Hr).
  assert (M : man_ok (pm_make (base_of x0 y0 x1 y1) max)).
  { split; cbn [pm_make pm_base pm_rest]; [intros z|]; apply on_z_nonempty; auto. }
  assert (Ln : length (p_threads s) = n).
  { clear -R. induction R as [|s s' R IH St]; cbn [p_threads]; [apply repeat_length|].
    destruct St; cbn [p_threads] in *; rewrite app_length in *; cbn [length] in *; exact IH. }
  destruct (prep_reach_inv _ _ _ _ _ M R) as [_ Ha He (st & S1 & S2 & S3)].
  unfold all_exited in Hx.
  assert (E1 : flat_map inflight (p_threads s) = []) by (apply flat_map_nil; eapply Forall_impl; [|exact Hx]; intros p ->; reflexivity).
  assert (E2 : flat_map unstored (p_threads s) = []) by (apply flat_map_nil; eapply Forall_impl; [|exact Hx]; intros p ->; reflexivity).
  assert (E3 : todo (p_man s) = []).
  { apply He. destruct (p_threads s) as [|p ps]; [cbn [length] in Ln; lia|]. left. exact (Forall_inv Hx). }
  rewrite E1, E3, app_nil_r in Ha. rewrite E2, app_nil_r in *.
  destruct (todo_all x0 y0 x1 y1 max Hx1 Hy1) as [T1 T2].
  assert (N1 : NoDup (p_rendered s)) by (eapply Permutation_NoDup; eauto).
  assert (N2 : NoDup (map fst st)) by (eapply Permutation_NoDup; eauto).
  destruct (put_results_get st tiles (p_tiles s) Hs S1 N2) as (P1 & P2 & P3).
  split; [exact N1|]. split; [|split; [exact P1|split]].
  - intros t. rewrite <- Ha, T2. unfold in_bounds. split; intros [A (i & B & C)]; split; auto; exists i; (split; [apply Hr; exact B|exact C]).
  - intros t Ht. rewrite S2 in Ht. apply in_map_iff in Ht as ([t' r] & E & Ht). cbn [fst] in E. subst t'. exists r. split.
    + exact (proj1 (Forall_forall _ _) S3 _ Ht).
    + intros k Hk. apply (P2 t r k Ht Hk).
  - intros k Hk. apply P3. intros x r Hxr. apply Hk. rewrite S2. apply in_map_iff. exists (x, r). auto.
Qed.

(** batches never read past the end of a range *)
Lemma batches_defined features max m n tiles render s :
  make_prepare_manager features max = Ok m -> prep_reach render m n tiles s -> exists b m', get_batch (p_man s) = Ok (b, m').
Proof.
  intros Hm R. destruct (manager_ok _ _ _ Hm) as (x0 & y0 & x1 & y1 & -> & Hx1 & Hy1 & _ & Hr).
  assert (M : man_ok (pm_make (base_of x0 y0 x1 y1) max)).
  { split; cbn [pm_make pm_base pm_rest]; [intros z|]; apply on_z_nonempty; auto. }
  destruct (prep_reach_inv _ _ _ _ _ M R) as [H _ _ _]. destruct (get_batch_spec _ H) as (b & m' & E & _). eauto.
Qed.
