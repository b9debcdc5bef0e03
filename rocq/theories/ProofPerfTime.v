(** What the benchmark's times add up to. *)
From Coq Require Import Permutation Sorting.Sorted.
From Coq Require Import List.
From Verif Require Import Base BaseProof ModelTile ModelPackFile ModelCodec ModelGeom ModelFeature ModelPack ModelPacker ModelBqTree ModelMvt ModelRender ModelPerf SpecPerf ProofPerf.
Import ListNotations.
Open Scope N_scope.

(** clock readings between [a] and [b] *)
Fixpoint within (a : N) (clock : list N) (b : N) : Prop := match clock with [] => a <= b | t :: c => a <= t /\ within t c b end.
Lemma within_le clock : forall a b, within a clock b -> a <= b.
Proof. induction clock as [|t c IH]; cbn [within]; intros a b H; [assumption|]. destruct H as [H1 H2]. apply IH in H2. lia. Qed.
Lemma within_app c1 c2 : forall a b, within a (c1 ++ c2) b -> exists m, within a c1 m /\ within m c2 b.
Proof.
  induction c1 as [|t c IH]; cbn [app within]; intros a b H.
  - exists a. split; [lia | assumption].
  - destruct H as [H1 H2]. destruct (IH _ _ H2) as (m & H3 & H4). exists m. auto.
Qed.
Lemma sum_app l1 l2 : sum (l1 ++ l2) = sum l1 + sum l2.
Proof. induction l1 as [|x l IH]; cbn [app sum fold_right]; [reflexivity|]. change (fold_right N.add 0 ?l) with (sum l). rewrite IH. lia. Qed.

Definition total (K : list perf_task) (pc : perf_counter) : N := sum (map (fun k => sum (finished pc k)) K).
Lemma total_same K pc pc' : (forall k, In k K -> finished pc' k = finished pc k) -> total K pc' = total K pc.
Proof. intros H. unfold total. f_equal. apply map_ext_in. intros k Hk. now rewrite H. Qed.
Lemma total_push K pc k v : NoDup K -> total K (push pc k v) <= total K pc + v.
Proof.
  intros HN. unfold total. induction K as [|k' K IH]; [cbn; lia|]. apply NoDup_cons_iff in HN as [HN1 HN2]. cbn [map sum fold_right]. change (fold_right N.add 0 ?l) with (sum l).
  cbn [push finished] in *. destruct (task_eqb k k') eqn:E.
  - apply task_eqb_eq in E. subst k'. rewrite sum_app. cbn [sum fold_right].
    assert (E : map (fun k0 => sum (if task_eqb k k0 then finished pc k ++ [v] else finished pc k0)) K = map (fun k0 => sum (finished pc k0)) K).
    { apply map_ext_in. intros k0 H0. destruct (task_eqb k k0) eqn:E; [apply task_eqb_eq in E; congruence | reflexivity]. }
    rewrite E. lia.
  - specialize (IH HN2). lia.
Qed.
Lemma total_one k pc : total [k] pc = sum (finished pc k).
Proof. unfold total. cbn. lia. Qed.

(** calls that measure nothing of [K] *)
Definition mem_task (k : perf_task) (K : list perf_task) : bool := existsb (task_eqb k) K.
Lemma mem_task_in k K : mem_task k K = true <-> In k K.
Proof. unfold mem_task. rewrite existsb_exists. split; [intros (x & H & E); apply task_eqb_eq in E; now subst | intros H; exists k; split; [assumption | apply task_eqb_refl]]. Qed.
Definition quiet (K : list perf_task) (es : list perf_call) : Prop := forallb (fun e => match e with Start _ => true | Stop k | Append k _ => negb (mem_task k K) end) es = true.
Lemma quiet_app K e1 e2 : quiet K e1 -> quiet K e2 -> quiet K (e1 ++ e2).
Proof. unfold quiet. rewrite forallb_app. intros -> ->. reflexivity. Qed.
Lemma quiet_flat {A} K (f : A -> list perf_call) l : (forall a, quiet K (f a)) -> quiet K (flat_map f l).
Proof. intros H. induction l as [|a l IH]; [reflexivity|]. cbn [flat_map]. now apply quiet_app. Qed.
Lemma step_quiet K e t pc : quiet K [e] -> forall k, In k K -> finished (perf_step pc (e, t)) k = finished pc k.
Proof.
  unfold quiet. cbn [forallb]. rewrite andb_true_r. intros H k Hk.
  assert (HN : forall k', negb (mem_task k' K) = true -> task_eqb k' k = false).
  { intros k' E. apply negb_true_iff in E. destruct (task_eqb k' k) eqn:E'; [|reflexivity]. apply task_eqb_eq in E'. subst k'. apply mem_task_in in Hk. congruence. }
  destruct e as [k'|k'|k' v]; unfold perf_step; cbn [fst snd]; [reflexivity| |].
  - destruct (running pc k'); [|reflexivity]. cbn [set_running push finished]. now rewrite (HN _ H).
  - cbn [push finished]. now rewrite (HN _ H).
Qed.
Lemma run_quiet K : forall es clock pc, quiet K es -> forall k, In k K -> finished (perf_run pc (combine es clock)) k = finished pc k.
Proof.
  induction es as [|e es IH]; intros clock pc H k Hk; [reflexivity|]. destruct clock as [|t clock]; [reflexivity|]. cbn [combine perf_run fold_left]. change (fold_left perf_step ?l ?p) with (perf_run p l).
  unfold quiet in H. cbn [forallb] in H. apply andb_true_iff in H as [H1 H2]. rewrite (IH clock _ H2 k Hk). apply (step_quiet K); [unfold quiet; cbn [forallb]; now rewrite H1 | assumption].
Qed.
Lemma run_free k : forall es clock pc, free k es -> running (perf_run pc (combine es clock)) k = running pc k.
Proof.
  induction es as [|e es IH]; intros clock pc H; [reflexivity|]. destruct clock as [|t clock]; [reflexivity|]. cbn [combine perf_run fold_left]. change (fold_left perf_step ?l ?p) with (perf_run p l).
  unfold free in H. cbn [forallb] in H. apply andb_true_iff in H as [H1 H2]. apply negb_true_iff in H1. rewrite (IH clock _ H2). destruct e as [k'|k'|k' v]; unfold perf_step; cbn [fst snd task_of] in *.
  - cbn [set_running running]. now rewrite task_eqb_sym, H1.
  - destruct (running pc k'); [|reflexivity]. cbn [set_running running]. now rewrite task_eqb_sym, H1.
  - reflexivity.
Qed.

(** the measurements of [K] do not exceed the time *)
Definition fits (K : list perf_task) (es : list perf_call) : Prop := forall pc clock a b, length clock = length es -> within a clock b ->
  total K (perf_run pc (combine es clock)) + a <= total K pc + b.
Lemma fits_quiet K es : quiet K es -> fits K es.
Proof. intros H pc clock a b HL HW. rewrite (total_same K pc) by (intros; now apply (run_quiet K)). apply within_le in HW. lia. Qed.
Lemma fits_app K e1 e2 : fits K e1 -> fits K e2 -> fits K (e1 ++ e2).
Proof.
  intros H1 H2 pc clock a b HL HW. destruct (combine_split e1 e2 clock HL) as (c1 & c2 & -> & L1 & L2 & ->). destruct (within_app _ _ _ _ HW) as (m & W1 & W2). rewrite run_app.
  specialize (H1 pc c1 a m L1 W1). specialize (H2 (perf_run pc (combine e1 c1)) c2 m b L2 W2). lia.
Qed.
Lemma fits_flat {A} K (f : A -> list perf_call) l : (forall a, fits K (f a)) -> fits K (flat_map f l).
Proof. intros H. induction l as [|a l IH]; [apply fits_quiet; reflexivity|]. cbn [flat_map]. now apply fits_app. Qed.
(** one measurement *)
Lemma measured k mid pc clock a b : free k mid -> length clock = length ([Start k] ++ mid ++ [Stop k]) -> within a clock b ->
  exists c t1 t2, clock = t1 :: c ++ [t2] /\ length c = length mid /\ a <= t1 /\ within t1 c t2 /\ t2 <= b /\
  perf_run pc (combine ([Start k] ++ mid ++ [Stop k]) clock) =
    let pc' := perf_run (set_running pc k (Some t1)) (combine mid c) in set_running (push pc' k (Z.to_N ((Z.of_N t2 - Z.of_N t1) mod 2 ^ 64))) k None.
Proof.
  intros HF HL HW. destruct (combine_split [Start k] (mid ++ [Stop k]) clock HL) as (c1 & c2 & -> & L1 & L2 & ->). destruct c1 as [|t1 [|]]; try discriminate.
  destruct (combine_split mid [Stop k] c2 L2) as (c3 & c4 & -> & L3 & L4 & ->). destruct c4 as [|t2 [|]]; try discriminate.
  exists c3, t1, t2. split; [reflexivity|]. split; [assumption|]. cbn [app within] in HW. destruct HW as [W1 W2]. destruct (within_app _ _ _ _ W2) as (m & W3 & W4). cbn [within] in W4. destruct W4 as [W4 W5].
  split; [assumption|]. split; [|split; [assumption|]].
  - clear -W3 W4. revert t1 W3. induction c3 as [|t c IH]; cbn [within]; intros t1 H; [lia|]. destruct H as [H1 H2]. split; [assumption | now apply IH].
  - rewrite !run_app. cbv zeta. change (perf_run pc (combine [Start k] [t1])) with (set_running pc k (Some t1)). set (pc' := perf_run (set_running pc k (Some t1)) (combine mid c3)).
    assert (E : running pc' k = Some t1) by (unfold pc'; rewrite (run_free k) by assumption; cbn [set_running running]; now rewrite task_eqb_refl).
    cbn [combine perf_run fold_left]. unfold perf_step. cbn [fst snd]. now rewrite E.
Qed.
Lemma mod_le t1 t2 : t1 <= t2 -> Z.to_N ((Z.of_N t2 - Z.of_N t1) mod 2 ^ 64) <= t2 - t1.
Proof. intros H. pose proof (Z.mod_le (Z.of_N t2 - Z.of_N t1) (2 ^ 64) ltac:(lia) ltac:(lia)). lia. Qed.
Lemma mod_same t1 t2 : t1 <= t2 -> t2 < 2 ^ 64 -> Z.to_N ((Z.of_N t2 - Z.of_N t1) mod 2 ^ 64) = t2 - t1.
Proof. intros H H'. rewrite Z.mod_small by lia. lia. Qed.
Lemma fits_block K k mid : NoDup K -> free k mid -> quiet K mid -> fits K ([Start k] ++ mid ++ [Stop k]).
Proof.
  intros HN HF HQ pc clock a b HL HW. destruct (measured k mid pc clock a b HF HL HW) as (c & t1 & t2 & -> & L & W1 & W2 & W3 & ->). cbv zeta.
  change (total K (set_running ?p k None)) with (total K p). eapply N.le_trans; [apply N.add_le_mono_r, total_push; assumption|].
  rewrite (total_same K (set_running pc k (Some t1))) by (intros; now apply (run_quiet K)). change (total K (set_running ?p k (Some t1))) with (total K p).
  pose proof (mod_le _ _ (within_le _ _ _ W2)). pose proof (within_le _ _ _ W2). lia.
Qed.

(** the same when the call to find the first pack is not being measured *)
Definition fits' (K : list perf_task) (q : perf_task) (es : list perf_call) : Prop := forall pc clock a b, length clock = length es -> within a clock b -> running pc q = None ->
  total K (perf_run pc (combine es clock)) + a <= total K pc + b /\ running (perf_run pc (combine es clock)) q = None.
Lemma fits'_free K q es : fits K es -> free q es -> fits' K q es.
Proof. intros H HF pc clock a b HL HW HR. split; [now apply H|]. now rewrite run_free. Qed.
Lemma fits'_app K q e1 e2 : fits' K q e1 -> fits' K q e2 -> fits' K q (e1 ++ e2).
Proof.
  intros H1 H2 pc clock a b HL HW HR. destruct (combine_split e1 e2 clock HL) as (c1 & c2 & -> & L1 & L2 & ->). destruct (within_app _ _ _ _ HW) as (m & W1 & W2). rewrite run_app.
  destruct (H1 pc c1 a m L1 W1 HR) as [A1 A2]. destruct (H2 (perf_run pc (combine e1 c1)) c2 m b L2 W2 A2). split; [lia | assumption].
Qed.
Lemma fits'_flat {A} K q (f : A -> list perf_call) l : (forall a, fits' K q (f a)) -> fits' K q (flat_map f l).
Proof. intros H. induction l as [|a l IH]; [apply fits'_free; [apply fits_quiet|]; reflexivity|]. cbn [flat_map]. now apply fits'_app. Qed.
Lemma fits'_stop K q : fits' K q [Stop q].
Proof.
  intros pc clock a b HL HW HR. destruct clock as [|t [|]]; try discriminate. cbn [combine perf_run fold_left]. unfold perf_step. cbn [fst snd]. rewrite HR. split; [|assumption].
  cbn [within] in HW. lia.
Qed.
Lemma fits_then K q e1 e2 : fits K e1 -> (forall pc clock, length clock = length e1 -> running (perf_run pc (combine e1 clock)) q = None) -> fits' K q e2 -> fits K (e1 ++ e2).
Proof.
  intros H1 HR H2 pc clock a b HL HW. destruct (combine_split e1 e2 clock HL) as (c1 & c2 & -> & L1 & L2 & ->). destruct (within_app _ _ _ _ HW) as (m & W1 & W2). rewrite run_app.
  specialize (H1 pc c1 a m L1 W1). destruct (H2 (perf_run pc (combine e1 c1)) c2 m b L2 W2 (HR _ _ L1)). lia.
Qed.

(** ** The parts of rendering *)
Definition render_parts : list perf_task := [RENDER_TILE_FIND_SEASIDE; RENDER_TILE_ADD_SEASIDE; RENDER_TILE_QUERY_FEATURE;
  RENDER_TILE_DESER_FEATURE_OKAY; RENDER_TILE_DESER_FEATURE_SKIP; RENDER_TILE_ADD_FEATURE; RENDER_TILE_FINISH].
Definition total_parts : list perf_task := [GET_TILE_FETCH; GET_TILE_RENDER; GET_TILE_COMPRESS].
Lemma nodup_parts : NoDup render_parts /\ NoDup total_parts.
Proof. split; repeat (apply NoDup_cons; [cbn [In]; intuition discriminate|]); apply NoDup_nil. Qed.

Lemma fits_one K k : NoDup K -> fits K [Start k; Stop k].
Proof. intros H. apply (fits_block K k [] H); reflexivity. Qed.
Lemma strings_fit o : fits render_parts (string_calls o).
Proof.
  pose proof (proj1 nodup_parts) as HN. destruct o as [f|].
  - change (string_calls (Some f)) with (([Start RENDER_TILE_DESER_FEATURE_OKAY] ++ [Start RENDER_TILE_DESER_FEATURE_SKIP] ++ [Stop RENDER_TILE_DESER_FEATURE_OKAY]) ++ [Start RENDER_TILE_ADD_FEATURE; Stop RENDER_TILE_ADD_FEATURE]).
    apply fits_app; [apply fits_block; (assumption || reflexivity) | now apply fits_one].
  - change (string_calls None) with ([Start RENDER_TILE_DESER_FEATURE_OKAY] ++ [Start RENDER_TILE_DESER_FEATURE_SKIP; Stop RENDER_TILE_DESER_FEATURE_SKIP] ++ [Start RENDER_TILE_ITER_FEATURE]).
    apply fits_app; [apply fits_quiet; reflexivity|]. apply fits_app; [now apply fits_one | apply fits_quiet; reflexivity].
Qed.
Definition pack_rest (os : list (option feature)) : list perf_call := [Stop RENDER_TILE_ITER_FEATURE] ++ flat_map string_calls os ++ [Start RENDER_TILE_ITER_FEATURE].
Lemma pack_rest_fits os : fits render_parts (pack_rest os) /\ free RENDER_TILE_QUERY_FEATURE (pack_rest os).
Proof.
  unfold pack_rest. split.
  - apply fits_app; [apply fits_quiet; reflexivity|]. apply fits_app; [apply fits_flat; exact strings_fit | apply fits_quiet; reflexivity].
  - apply free_app; [reflexivity|]. apply free_app; [apply free_flat; intros []; reflexivity | reflexivity].
Qed.
Lemma packs_fit packs : fits render_parts (feature_calls packs).
Proof.
  assert (HP : forall os, pack_calls os = [Stop RENDER_TILE_QUERY_FEATURE] ++ pack_rest os) by reflexivity. unfold feature_calls.
  destruct packs as [|p packs]; [apply fits_quiet; reflexivity|]. cbn [flat_map]. rewrite HP.
  change (Start RENDER_TILE_QUERY_FEATURE :: ([Stop RENDER_TILE_QUERY_FEATURE] ++ pack_rest p) ++ flat_map pack_calls packs) with ([Start RENDER_TILE_QUERY_FEATURE; Stop RENDER_TILE_QUERY_FEATURE] ++ (pack_rest p ++ flat_map pack_calls packs)).
  apply (fits_then _ RENDER_TILE_QUERY_FEATURE); [apply fits_one, nodup_parts | intros pc [|t1 [|t2 [|]]]; try discriminate; intros _; reflexivity|].
  apply fits'_app; [apply fits'_free; apply pack_rest_fits|]. apply fits'_flat. intros os. rewrite HP. apply fits'_app; [apply fits'_stop|]. apply fits'_free; apply pack_rest_fits.
Qed.
Lemma inner_fits sea packs : fits render_parts (inner_calls sea packs).
Proof.
  unfold inner_calls, sea_calls. pose proof (proj1 nodup_parts) as HN. apply fits_app; [apply fits_app; [now apply fits_one | apply fits_flat; intros _; now apply fits_one]|].
  apply fits_app; [apply packs_fit | now apply fits_one].
Qed.

(** ** Parts and whole *)
Definition covers (K : list perf_task) (k : perf_task) (es : list perf_call) : Prop := forall pc clock a b, length clock = length es -> within a clock b -> b < 2 ^ 64 ->
  total K (perf_run pc (combine es clock)) + sum (finished pc k) <= total K pc + sum (finished (perf_run pc (combine es clock)) k).
Lemma covers_app K k e1 e2 : covers K k e1 -> covers K k e2 -> covers K k (e1 ++ e2).
Proof.
  intros H1 H2 pc clock a b HL HW Hb. destruct (combine_split e1 e2 clock HL) as (c1 & c2 & -> & L1 & L2 & ->). destruct (within_app _ _ _ _ HW) as (m & W1 & W2). rewrite run_app.
  pose proof (within_le _ _ _ W2). specialize (H1 pc c1 a m L1 W1 ltac:(lia)). specialize (H2 (perf_run pc (combine e1 c1)) c2 m b L2 W2 Hb). lia.
Qed.
Lemma covers_quiet K k es : quiet (k :: K) es -> covers K k es.
Proof.
  intros H pc clock a b HL HW Hb. rewrite (run_quiet (k :: K) es clock pc H k (or_introl eq_refl)), (total_same K pc); [lia|]. intros k' Hk'. apply (run_quiet (k :: K)); [assumption | right; assumption].
Qed.
Lemma covers_flat {A} K k (f : A -> list perf_call) l : (forall a, covers K k (f a)) -> covers K k (flat_map f l).
Proof. intros H. induction l as [|a l IH]; [apply covers_quiet; reflexivity|]. cbn [flat_map]. now apply covers_app. Qed.
Lemma covers_block K k mid : ~ In k K -> free k mid -> fits K mid -> covers K k ([Start k] ++ mid ++ [Stop k]).
Proof.
  intros HK HF HM pc clock a b HL HW Hb. destruct (measured k mid pc clock a b HF HL HW) as (c & t1 & t2 & -> & L & W1 & W2 & W3 & ->). cbv zeta.
  change (total K (set_running ?p k None)) with (total K p). set (pc' := perf_run (set_running pc k (Some t1)) (combine mid c)). rewrite mod_same by (lia || exact (within_le _ _ _ W2)).
  assert (E1 : total K (push pc' k (t2 - t1)) = total K pc').
  { apply total_same. intros k' Hk'. cbn [push finished]. destruct (task_eqb k k') eqn:E; [apply task_eqb_eq in E; congruence | reflexivity]. }
  assert (E2 : finished pc' k = finished pc k).
  { unfold pc'. rewrite (run_quiet [k] mid c (set_running pc k (Some t1))); [reflexivity| |left; reflexivity]. unfold quiet. unfold free in HF. rewrite forallb_forall in *. intros e He. specialize (HF e He). rename HF into H. destruct e as [k'|k'|k' v]; try reflexivity; cbn [task_of] in H; unfold mem_task; cbn [existsb]; now rewrite orb_false_r, task_eqb_sym. }
  cbn [set_running push finished]. rewrite E1, task_eqb_refl, sum_app, E2. cbn [sum fold_right]. pose proof (HM (set_running pc k (Some t1)) c t1 t2 L W2) as H. change (total K (set_running ?p k (Some t1))) with (total K p) in H. fold pc' in H. pose proof (within_le _ _ _ W2). lia.
Qed.

Lemma tile_render c w : covers render_parts GET_TILE_RENDER (tile_calls c w).
Proof.
  destruct w as [[sea packs] a]. unfold tile_calls. cbn [fst snd]. apply covers_app; [apply covers_quiet; reflexivity|]. apply covers_app.
  - apply covers_block; [cbn; intuition discriminate | now apply outer_free | apply inner_fits].
  - apply covers_quiet. destruct a, c; reflexivity.
Qed.
Lemma free_quiet K es : (forall k, In k K -> free k es) -> quiet K es.
Proof.
  intros H. unfold quiet. apply forallb_forall. intros e He. destruct e as [k|k|k v]; [reflexivity| |].
  all: apply negb_true_iff; destruct (mem_task k K) eqn:E; [|reflexivity]; apply mem_task_in in E; specialize (H k E); unfold free in H; rewrite forallb_forall in H; specialize (H _ He); cbn [task_of] in H; rewrite task_eqb_refl in H; discriminate.
Qed.
Lemma tile_mid c sea packs a : fits total_parts (([Start GET_TILE_RENDER] ++ inner_calls sea packs ++ [Stop GET_TILE_RENDER]) ++ tail_calls c a) /\
  free GET_TILE_TOTAL (([Start GET_TILE_RENDER] ++ inner_calls sea packs ++ [Stop GET_TILE_RENDER]) ++ tail_calls c a).
Proof.
  pose proof (proj2 nodup_parts) as HN. split.
  - apply fits_app.
    + apply fits_block; [assumption | now apply outer_free|]. apply free_quiet. intros k Hk. apply outer_free. cbn [total_parts In] in Hk. intuition (subst; reflexivity).
    + destruct a as [z|]; [|apply fits_quiet; reflexivity]. cbn [tail_calls]. apply fits_app; [|apply fits_quiet; reflexivity]. destruct c; [now apply fits_one | apply fits_quiet; reflexivity].
  - apply free_app; [apply free_app; [reflexivity|]; apply free_app; [now apply outer_free | reflexivity] | apply tail_free; discriminate].
Qed.
Lemma tile_total c w : covers total_parts GET_TILE_TOTAL (tile_calls c w) /\ fits [GET_TILE_TOTAL] (tile_calls c w).
Proof.
  destruct w as [[sea packs] a]. unfold tile_calls. cbn [fst snd]. rewrite (app_assoc _ (tail_calls c a)). destruct (tile_mid c sea packs a) as [H1 H2]. split.
  - apply covers_block; [cbn; intuition discriminate | assumption | assumption].
  - apply fits_block; [apply NoDup_cons; [intros [] | apply NoDup_nil] | assumption|]. apply free_quiet. intros k [<-|[]]. assumption.
Qed.
Lemma sorted_within clock : Sorted N.le clock -> within (hd 0 clock) clock (last clock 0).
Proof.
  destruct clock as [|t c]; [intros _; cbn; lia|]. intros H. cbn [hd within]. split; [lia|]. revert t H. induction c as [|u c IH]; intros t H; [cbn; lia|].
  apply Sorted_inv in H as [H1 H2]. apply HdRel_inv in H2. cbn [within]. split; [assumption|]. change (last (t :: u :: c) 0) with (last (u :: c) 0). now apply IH.
Qed.

(** ** Runs *)
Lemma bench_calls tiles features s x ts answers calls : x_ignore_prepared x = true -> x_ignore_seaside x = false -> bench_tiles tiles features s x ts = Ok (answers, calls) ->
  exists ws : list work, calls = flat_map (tile_calls (x_compress x)) ws /\ answers = map snd ws /\ length ws = length ts /\
    Forall2 (fun t sea => seaside_features x t = Ok sea) ts (map (fun w => fst (fst w)) ws) /\ Forall2 (packs_of x features s) ts (map (fun w => snd (fst w)) ws).
Proof.
  intros E1 E2 H. unfold bench_tiles in H. apply bind_ok in H as (rs & H & HE). injection HE as <- <-. revert rs H. induction ts as [|t ts IH]; cbn [map_res]; intros rs H.
  - injection H as <-. exists []. repeat split; constructor.
  - apply bind_ok in H as ([a c] & Ht & H). apply bind_ok in H as (rs' & Hr & H). injection H as <-. destruct (IH rs' Hr) as (ws & C1 & C2 & C3 & C4 & C5).
    destruct (tile_perf _ _ _ _ _ _ _ Ht E1 E2) as (sea & packs & P1 & P2 & P3). exists ((sea, packs, a) :: ws). cbn [flat_map map length fst snd]. rewrite C1, C2, C3, P3.
    repeat split; try (constructor; assumption).
Qed.
Lemma appended_sizes c ws : flat_map (fun e => match e with Append RESULT_SIZE v => [v] | _ => [] end) (flat_map (tile_calls c) ws) = map blen (answered (map snd ws)) /\
  forallb (fun e => match e with Start k | Stop k => negb (task_eqb RESULT_SIZE k) | _ => true end) (flat_map (tile_calls c) ws) = true.
Proof.
  set (g := fun e => match e with Append RESULT_SIZE v => [v] | _ => [] end). set (q := fun e => match e with Start k | Stop k => negb (task_eqb RESULT_SIZE k) | _ => true end).
  assert (HF : forall es, free RESULT_SIZE es -> flat_map g es = [] /\ forallb q es = true).
  { unfold free. induction es as [|e es IH]; [split; reflexivity|]. cbn [forallb flat_map]. intros H. apply andb_true_iff in H as [H1 H2]. destruct (IH H2) as [I1 I2]. rewrite I1, I2. destruct e as [k|k|k v]; cbn [g q task_of] in *; rewrite ?H1; try (split; reflexivity). destruct k; (discriminate || (split; reflexivity)). }
  induction ws as [|[[sea packs] a] ws [IH1 IH2]]; [split; reflexivity|]. cbn [flat_map map]. rewrite flat_map_app, forallb_app, IH1, IH2. unfold tile_calls. cbn [fst snd]. rewrite !flat_map_app, !forallb_app.
  destruct (HF (inner_calls sea packs) ltac:(now apply outer_free)) as [-> ->]. destruct a, c; split; reflexivity.
Qed.
Lemma bench_counts tiles features s x ts answers calls clock : x_ignore_prepared x = true -> x_ignore_seaside x = false ->
  bench_tiles tiles features s x ts = Ok (answers, calls) -> length clock = length calls ->
  exists seas packs, Forall2 (fun t sea => seaside_features x t = Ok sea) ts seas /\ Forall2 (packs_of x features s) ts packs /\
    let M := fun k => finished (perf_run no_measurements (combine calls clock)) k in
    length (M GET_TILE_TOTAL) = length ts /\ length (M GET_TILE_RENDER) = length ts /\ length (M RENDER_TILE_FIND_SEASIDE) = length ts /\ length (M RENDER_TILE_FINISH) = length ts /\
    M GET_TILE_FETCH = [] /\ M RESULT_SIZE = map blen (answered answers) /\
    length (M GET_TILE_COMPRESS) = (if x_compress x then length (answered answers) else 0%nat) /\
    length (M RENDER_TILE_ADD_SEASIDE) = length (concat seas) /\
    length (M RENDER_TILE_QUERY_FEATURE) = length (filter (fun ps => negb (length ps =? 0)%nat) packs) /\
    length (M RENDER_TILE_DESER_FEATURE_OKAY) = num_read (concat packs) /\ length (M RENDER_TILE_ADD_FEATURE) = num_read (concat packs) /\
    length (M RENDER_TILE_DESER_FEATURE_SKIP) = num_skipped (concat packs) /\
    length (M RENDER_TILE_ITER_FEATURE) = (length (concat packs) - 1)%nat.
Proof.
  intros E1 E2 H HL. destruct (bench_calls _ _ _ _ _ _ _ E1 E2 H) as (ws & -> & -> & C3 & C4 & C5). set (c := x_compress x) in *.
  exists (map (fun w => fst (fst w)) ws), (map (fun w => snd (fst w)) ws). split; [assumption|]. split; [assumption|]. cbv zeta.
  assert (HN : forall k, length (finished (perf_run no_measurements (combine (flat_map (tile_calls c) ws) clock)) k) = num k false (flat_map (tile_calls c) ws)).
  { intros k. exact (proj1 (count_run k _ clock no_measurements HL _ _ (surjective_pairing (count k false (flat_map (tile_calls c) ws))))). }
  assert (HK : forall k, k <> RENDER_TILE_ITER_FEATURE -> length (finished (perf_run no_measurements (combine (flat_map (tile_calls c) ws) clock)) k) = list_sum (map (expected c k) ws)).
  { intros k Hk. rewrite HN. now apply run_num. }
  assert (H1 : list_sum (map (fun _ : work => 1%nat) ws) = length ts).
  { rewrite <- C3. clear. induction ws as [|w ws IH]; [reflexivity|]. cbn [map list_sum fold_right length]. change (fold_right Nat.add 0%nat ?l) with (list_sum l). rewrite IH. lia. }
  do 4 (split; [rewrite HK by discriminate; exact H1|]).
  split; [apply length_zero_iff_nil; rewrite HK by discriminate; apply (sum_zero ws)|].
  split; [destruct (appended_sizes c ws) as [A1 A2]; rewrite (run_sizes _ clock _ HL A2), A1; reflexivity|].
  split.
  { rewrite HK by discriminate. clear. unfold answered. destruct c.
    - induction ws as [|w ws IH]; [reflexivity|]. cbn [map list_sum fold_right flat_map]. change (fold_right Nat.add 0%nat ?l) with (list_sum l). rewrite app_length, <- IH. destruct w as [? [a|]]; reflexivity.
    - apply (sum_zero ws). }
  split.
  { rewrite HK by discriminate. clear. induction ws as [|w ws IH]; [reflexivity|]. cbn [map list_sum fold_right concat]. change (fold_right Nat.add 0%nat ?l) with (list_sum l). rewrite app_length, IH. reflexivity. }
  split.
  { rewrite HK by discriminate. clear. induction ws as [|w ws IH]; [reflexivity|]. cbn [map list_sum fold_right filter]. change (fold_right Nat.add 0%nat ?l) with (list_sum l). rewrite IH. cbn [expected]. destruct (snd (fst w)); reflexivity. }
  assert (HP : forall p : option feature -> bool, list_sum (map (fun w : work => length (filter p (concat (snd (fst w))))) ws) = length (filter p (concat (concat (map (fun w => snd (fst w)) ws))))).
  { intros p. clear. induction ws as [|w ws IH]; [reflexivity|]. cbn [map list_sum fold_right concat]. change (fold_right Nat.add 0%nat ?l) with (list_sum l). rewrite concat_app, filter_app, app_length, IH. reflexivity. }
  do 3 (split; [rewrite HK by discriminate; apply HP|]). rewrite HN. apply iter_run.
Qed.
Lemma bench_times tiles features s x ts answers calls clock : x_ignore_prepared x = true -> x_ignore_seaside x = false ->
  bench_tiles tiles features s x ts = Ok (answers, calls) -> length clock = length calls -> Sorted N.le clock -> Forall (fun t => t < 2 ^ 64) clock ->
  let S k := sum (finished (perf_run no_measurements (combine calls clock)) k) in
  S RENDER_TILE_FIND_SEASIDE + S RENDER_TILE_ADD_SEASIDE + S RENDER_TILE_QUERY_FEATURE + S RENDER_TILE_DESER_FEATURE_OKAY + S RENDER_TILE_DESER_FEATURE_SKIP +
    S RENDER_TILE_ADD_FEATURE + S RENDER_TILE_FINISH <= S GET_TILE_RENDER /\
  S GET_TILE_FETCH + S GET_TILE_RENDER + S GET_TILE_COMPRESS <= S GET_TILE_TOTAL /\
  S GET_TILE_TOTAL <= last clock 0 - hd 0 clock.
Proof.
  intros E1 E2 H HL HS HB. destruct (bench_calls _ _ _ _ _ _ _ E1 E2 H) as (ws & -> & _ & _ & _ & _). set (c := x_compress x) in *. cbv zeta.
  assert (Hlast : last clock 0 < 2 ^ 64). { destruct clock as [|t0 cl] using rev_ind; [reflexivity|]. rewrite last_last. apply Forall_app in HB as [_ HB]. now apply Forall_inv in HB. }
  pose proof (sorted_within clock HS) as HW.
  pose proof (covers_flat _ _ (tile_calls c) ws (tile_render c) no_measurements clock _ _ HL HW Hlast) as A1.
  pose proof (covers_flat _ _ (tile_calls c) ws (fun w => proj1 (tile_total c w)) no_measurements clock _ _ HL HW Hlast) as A2.
  pose proof (fits_flat _ (tile_calls c) ws (fun w => proj2 (tile_total c w)) no_measurements clock _ _ HL HW) as A3.
  set (pc := perf_run no_measurements (combine (flat_map (tile_calls c) ws) clock)) in *. clearbody pc. unfold total, render_parts, total_parts in A1, A2, A3. cbn [map sum fold_right no_measurements finished] in A1, A2, A3.
  pose proof (within_le _ _ _ HW). split; [lia|]. split; lia.
Qed.
