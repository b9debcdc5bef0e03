(** What is measured when tiles are rendered. *)
From Coq Require Import Permutation Sorting.Sorted.
From Coq Require Import List.
From Verif Require Import Base BaseProof ModelTile ModelPackFile ModelCodec ModelGeom ModelFeature ModelPack ModelPacker ModelBqTree ModelMvt ModelRender ModelPerf SpecPerf.
Import ListNotations.
Open Scope N_scope.

(** ** Calls *)
Lemma task_eqb_refl k : task_eqb k k = true.
Proof. now destruct k. Qed.
Lemma task_eqb_eq a b : task_eqb a b = true <-> a = b.
Proof. split; [|intros ->; apply task_eqb_refl]. destruct a, b; (reflexivity || discriminate). Qed.
Lemma task_eqb_sym a b : task_eqb a b = task_eqb b a.
Proof. now destruct a, b. Qed.

Lemma combine_split {A B} (l1 l2 : list A) (c : list B) : length c = length (l1 ++ l2) ->
  exists c1 c2, c = c1 ++ c2 /\ length c1 = length l1 /\ length c2 = length l2 /\ combine (l1 ++ l2) c = combine l1 c1 ++ combine l2 c2.
Proof.
  revert c. induction l1 as [|a l1 IH]; intros c H; cbn [app] in *.
  - exists [], c. repeat split; assumption.
  - destruct c as [|b c]; [discriminate|]. destruct (IH c) as (c1 & c2 & -> & H1 & H2 & H3); [cbn [length] in H; lia|].
    exists (b :: c1), c2. cbn [app combine length]. rewrite H3. repeat split; lia || assumption.
Qed.
Lemma run_app pc e1 e2 : perf_run pc (e1 ++ e2) = perf_run (perf_run pc e1) e2.
Proof. apply fold_left_app. Qed.

(** ** How many measurements *)
Definition some {A} (o : option A) : bool := match o with Some _ => true | None => false end.
Fixpoint count (k : perf_task) (b : bool) (es : list perf_call) : nat * bool :=
  match es with
  | [] => (0%nat, b)
  | Start k' :: r => count k (if task_eqb k k' then true else b) r
  | Stop k' :: r => if task_eqb k k' then let (n, b') := count k false r in ((if b then S n else n), b') else count k b r
  | Append k' _ :: r => let (n, b') := count k b r in ((if task_eqb k k' then S n else n), b')
  end.
Lemma count_run k : forall es clock pc, length clock = length es -> forall n b, count k (some (running pc k)) es = (n, b) ->
  length (finished (perf_run pc (combine es clock)) k) = (length (finished pc k) + n)%nat /\ some (running (perf_run pc (combine es clock)) k) = b.
Proof.
  induction es as [|e es IH]; intros clock pc HL n b HC; cbn [count combine] in *.
  - injection HC as <- <-. cbn [perf_run fold_left]. split; [lia | reflexivity].
  - destruct clock as [|t clock]; [discriminate|]. cbn [combine perf_run fold_left]. change (fold_left perf_step ?l ?p) with (perf_run p l). cbn [length] in HL. apply Nat.succ_inj in HL.
    destruct e as [k'|k'|k' v]; unfold perf_step; cbn [fst snd].
    + destruct (IH clock (set_running pc k' (Some t)) HL n b) as [H1 H2]; [|split; assumption].
      cbn [set_running running]. rewrite task_eqb_sym. destruct (task_eqb k k'); assumption.
    + destruct (task_eqb k k') eqn:E.
      * apply task_eqb_eq in E. subst k'. destruct (count k false es) as [m b'] eqn:EC. injection HC as <- <-.
        destruct (running pc k) as [t0|] eqn:Er; cbn [some].
        -- destruct (IH clock (set_running (push pc k (Z.to_N ((Z.of_N t - Z.of_N t0) mod 2 ^ 64))) k None) HL m b') as [H1 H2]; [cbn [set_running running]; now rewrite task_eqb_refl|].
           split; [rewrite H1; cbn [set_running push finished]; rewrite task_eqb_refl, app_length; cbn [length]; lia | exact H2].
        -- destruct (IH clock pc HL m b') as [H1 H2]; [now rewrite Er|]. split; assumption.
      * destruct (running pc k') as [t0|]; [|now apply IH].
        destruct (IH clock (set_running (push pc k' (Z.to_N ((Z.of_N t - Z.of_N t0) mod 2 ^ 64))) k' None) HL n b) as [H1 H2].
        -- cbn [set_running push running]. rewrite task_eqb_sym, E. assumption.
        -- split; [rewrite H1; cbn [set_running push finished]; rewrite task_eqb_sym, E; reflexivity | exact H2].
    + destruct (count k (some (running pc k)) es) as [m b'] eqn:EC. injection HC as <- <-.
      destruct (IH clock (push pc k' v) HL m b' EC) as [H1 H2]. split; [|exact H2]. rewrite H1. cbn [push finished]. rewrite (task_eqb_sym k' k). destruct (task_eqb k k') eqn:E; [apply task_eqb_eq in E; subst k'; rewrite app_length; cbn [length]; lia | reflexivity].
Qed.
Lemma count_app k : forall e1 e2 b, count k b (e1 ++ e2) = let (n, b1) := count k b e1 in let (m, b2) := count k b1 e2 in ((n + m)%nat, b2).
Proof.
  induction e1 as [|e e1 IH]; intros e2 b; cbn [app count]; [now destruct (count k b e2)|].
  destruct e as [k'|k'|k' v]; rewrite ?IH; [reflexivity| |].
  - destruct (task_eqb k k'); [|reflexivity]. destruct (count k false e1) as [n b1]. destruct (count k b1 e2) as [m b2]. now destruct b.
  - destruct (count k b e1) as [n b1]. destruct (count k b1 e2) as [m b2]. now destruct (task_eqb k k').
Qed.
Definition num k b es : nat := fst (count k b es).
Definition aft k b es : bool := snd (count k b es).
Lemma num_app k b e1 e2 : num k b (e1 ++ e2) = (num k b e1 + num k (aft k b e1) e2)%nat.
Proof. unfold num, aft. rewrite count_app. destruct (count k b e1) as [n b1]. cbn [fst snd]. now destruct (count k b1 e2). Qed.
Lemma aft_app k b e1 e2 : aft k b (e1 ++ e2) = aft k (aft k b e1) e2.
Proof. unfold num, aft. rewrite count_app. destruct (count k b e1) as [n b1]. cbn [fst snd]. now destruct (count k b1 e2). Qed.

Definition task_of (e : perf_call) : perf_task := match e with Start k | Stop k | Append k _ => k end.
Definition free (k : perf_task) (es : list perf_call) : Prop := forallb (fun e => negb (task_eqb k (task_of e))) es = true.
Lemma free_app k e1 e2 : free k e1 -> free k e2 -> free k (e1 ++ e2).
Proof. unfold free. rewrite forallb_app. intros -> ->. reflexivity. Qed.
Lemma free_flat {A} k (f : A -> list perf_call) l : (forall a, free k (f a)) -> free k (flat_map f l).
Proof. intros H. induction l as [|a l IH]; [reflexivity|]. cbn [flat_map]. now apply free_app. Qed.
Lemma count_free k es b : free k es -> count k b es = (0%nat, b).
Proof.
  unfold free. induction es as [|e es IH]; [reflexivity|]. cbn [forallb]. intros H. apply andb_true_iff in H as [H1 H2]. apply negb_true_iff in H1. specialize (IH H2).
  destruct e as [k'|k'|k' v]; cbn [count task_of] in *; rewrite H1, IH; reflexivity.
Qed.
Lemma num_free k es b : free k es -> num k b es = 0%nat.
Proof. intros H. unfold num. now rewrite (count_free _ _ _ H). Qed.
Lemma aft_free k es b : free k es -> aft k b es = b.
Proof. intros H. unfold aft. now rewrite (count_free _ _ _ H). Qed.
Lemma num_flat {A} k (f : A -> list perf_call) (g : A -> nat) l : (forall a b, num k b (f a) = g a) -> forall b, num k b (flat_map f l) = list_sum (map g l).
Proof. intros H. induction l as [|a l IH]; intros b; [reflexivity|]. cbn [flat_map map list_sum]. rewrite num_app, H, IH. reflexivity. Qed.

(** ** The calls for one tile *)
Definition tail_calls (compress : bool) (a : option bytes) : list perf_call :=
  match a with None => [] | Some z => (if compress then [Start GET_TILE_COMPRESS; Stop GET_TILE_COMPRESS] else []) ++ [Append RESULT_SIZE (blen z)] end.
Definition inner_calls (sea : list feature) (packs : list (list (option feature))) : list perf_call :=
  sea_calls sea ++ feature_calls packs ++ [Start RENDER_TILE_FINISH; Stop RENDER_TILE_FINISH].
Definition tile_calls (c : bool) (w : list feature * list (list (option feature)) * option bytes) : list perf_call :=
  [Start GET_TILE_TOTAL] ++ ([Start GET_TILE_RENDER] ++ inner_calls (fst (fst w)) (snd (fst w)) ++ [Stop GET_TILE_RENDER]) ++ tail_calls c (snd w) ++ [Stop GET_TILE_TOTAL].

Lemma render_perf x t ps a calls : render_tile_perf x t ps = Ok (a, calls) -> x_ignore_seaside x = false ->
  exists sea spec packs, seaside_features x t = Ok sea /\ make_tile_spec t = Ok spec /\ map_res (read_pack x t (draw_bounds spec)) ps = Ok packs /\
    calls = [Start GET_TILE_RENDER] ++ inner_calls sea packs ++ [Stop GET_TILE_RENDER] ++ tail_calls (x_compress x) a.
Proof.
  intros H E. unfold render_tile_perf in H. rewrite E in H. apply bind_ok in H as (c & _ & H). apply bind_ok in H as (sea & H1 & H). apply bind_ok in H as (spec & H2 & H).
  apply bind_ok in H as (packs & H3 & H). cbn [bind] in H. apply bind_ok in H as (buf & _ & H). exists sea, spec, packs. repeat (split; [assumption|]). unfold inner_calls.
  destruct buf as [|b0 buf].
  - injection H as <- <-. cbn [tail_calls app]. rewrite ?app_nil_r, <- ?app_assoc. reflexivity.
  - destruct (x_compress x); [apply bind_ok in H as (z & _ & H)|]; injection H as <- <-; cbn [tail_calls app]; rewrite <- ?app_assoc; reflexivity.
Qed.
Lemma tile_perf tiles features s x t a calls : get_tile_perf tiles features s x t = Ok (a, calls) -> x_ignore_prepared x = true -> x_ignore_seaside x = false ->
  exists sea packs, seaside_features x t = Ok sea /\ packs_of x features s t packs /\ calls = tile_calls (x_compress x) (sea, packs, a).
Proof.
  intros H E1 E2. unfold get_tile_perf in H. rewrite E1 in H. cbn [negb andb] in H. apply bind_ok in H as ([] & _ & H). apply bind_ok in H as (ps & H1 & H). apply bind_ok in H as ([a' calls'] & H2 & H).
  cbn [fst snd] in H. injection H as -> <-. destruct (render_perf _ _ _ _ _ H2 E2) as (sea & spec & packs & H3 & H4 & H5 & ->). exists sea, packs. split; [assumption|]. split; [exists ps, spec; auto|].
  unfold tile_calls. cbn [fst snd app]. rewrite <- ?app_assoc. reflexivity.
Qed.

(** the answers are those of get_tile *)
Lemma bind_bind {A B C} (a : res A) (f : A -> res B) (g : B -> res C) : bind (bind a f) g = bind a (fun x => bind (f x) g).
Proof. now destruct a. Qed.
Lemma read_features x t box ps : bind (map_res (read_pack x t box) ps) (fun packs => Ok (map taken packs)) = map_res (pack_features_of x t box) ps.
Proof.
  induction ps as [|p ps IH]; [reflexivity|]. cbn [map_res]. rewrite <- IH. unfold read_pack, pack_features_of. rewrite !bind_bind.
  destruct (unpack_features_for (fst p) (snd p) t) as [strs| | |]; cbn [bind]; try reflexivity. destruct (map_res _ strs) as [os| | |]; cbn [bind]; try reflexivity.
  rewrite !bind_bind. destruct (map_res (read_pack x t box) ps); reflexivity.
Qed.
Lemma perf_render x t ps : bind (render_tile_perf x t ps) (fun r => Ok (fst r)) = render_tile x t ps.
Proof.
  unfold render_tile_perf, render_tile, render_features. rewrite !bind_bind. destruct (make_builder x t) as [c| | |]; cbn [bind]; try reflexivity. rewrite !bind_bind.
  destruct (seaside_features x t) as [sea| | |]; cbn [bind]; try reflexivity. rewrite !bind_bind. destruct (make_tile_spec t) as [spec| | |]; cbn [bind]; try reflexivity. rewrite !bind_bind, <- read_features, !bind_bind.
  destruct (map_res (read_pack x t (draw_bounds spec)) ps) as [packs| | |]; cbn [bind]; try reflexivity. rewrite <- flat_map_concat_map, !bind_bind.
  destruct (if x_ignore_seaside x then _ else _) as [skip| | |]; cbn [bind]; try reflexivity. destruct skip; [reflexivity|]. rewrite bind_bind.
  destruct (build_tile c (sea ++ flat_map taken packs)) as [[|b0 buf]| | |]; cbn [bind]; try reflexivity. destruct (x_compress x); [|reflexivity]. rewrite bind_bind. destruct (x_deflate x (b0 :: buf)); reflexivity.
Qed.
Lemma perf_get tiles features s x t : bind (get_tile_perf tiles features s x t) (fun r => Ok (fst r)) = get_tile tiles features s x t.
Proof.
  unfold get_tile_perf, get_tile. rewrite bind_bind. destruct (verify (tz t <=? kMaxZoomLevel)); cbn [bind]; try reflexivity. destruct (negb (x_ignore_prepared x) && (Z.of_N (tz t) <=? x_max_prepared x)%Z).
  - rewrite bind_bind. destruct (tile_to_key t 0) as [key| | |]; cbn [bind]; try reflexivity. destruct (table_get tiles key); [reflexivity|]. rewrite bind_bind. destruct (bq_contains (x_seaside x) t) as [b| | |]; cbn [bind]; try reflexivity.
    destruct b; [|reflexivity]. rewrite bind_bind. rewrite <- (perf_render x t []). destruct (render_tile_perf x t []); reflexivity.
  - rewrite bind_bind. destruct (foreach_pack features s t) as [ps| | |]; cbn [bind]; try reflexivity. rewrite bind_bind, <- perf_render. destruct (render_tile_perf x t ps); reflexivity.
Qed.
Lemma bench_same tiles features s x ts : bind (bench_tiles tiles features s x ts) (fun r => Ok (fst r)) = map_res (get_tile tiles features s x) ts.
Proof.
  unfold bench_tiles. rewrite bind_bind. cbn [bind fst]. induction ts as [|t ts IH]; [reflexivity|]. cbn [map_res]. rewrite <- IH, <- perf_get, !bind_bind.
  destruct (get_tile_perf tiles features s x t) as [r| | |]; cbn [bind]; try reflexivity. rewrite !bind_bind. destruct (map_res (get_tile_perf tiles features s x) ts); reflexivity.
Qed.

(** ** The numbers of measurements *)
Notation work := (list feature * list (list (option feature)) * option bytes)%type.
Definition expected (c : bool) (k : perf_task) (w : work) : nat :=
  match k with
  | GET_TILE_TOTAL | GET_TILE_RENDER | RENDER_TILE_FIND_SEASIDE | RENDER_TILE_FINISH => 1
  | GET_TILE_COMPRESS | RESULT_SIZE => if (match k with RESULT_SIZE => true | _ => c end) && is_some (snd w) then 1 else 0
  | RENDER_TILE_ADD_SEASIDE => length (fst (fst w))
  | RENDER_TILE_QUERY_FEATURE => match snd (fst w) with [] => 0 | _ => 1 end
  | RENDER_TILE_DESER_FEATURE_OKAY | RENDER_TILE_ADD_FEATURE => num_read (snd (fst w))
  | RENDER_TILE_DESER_FEATURE_SKIP => num_skipped (snd (fst w))
  | GET_TILE_FETCH | RENDER_TILE_ITER_FEATURE => 0
  end%nat.

Lemma sum_filter {A} (p : A -> bool) (l : list (list A)) : list_sum (map (fun os => list_sum (map (fun o => if p o then 1 else 0)%nat os)) l) = length (filter p (concat l)).
Proof.
  assert (H : forall os, list_sum (map (fun o => if p o then 1 else 0)%nat os) = length (filter p os)).
  { induction os as [|o os IH]; [reflexivity|]. cbn [map list_sum fold_right filter]. change (fold_right Nat.add 0%nat ?l) with (list_sum l). rewrite IH. destruct (p o); reflexivity. }
  induction l as [|os l IH]; [reflexivity|]. cbn [map concat]. rewrite filter_app, app_length, <- IH, <- H. reflexivity.
Qed.
(** string and pack calls *)
Definition string_num (k : perf_task) (o : option feature) : nat :=
  match k with
  | RENDER_TILE_DESER_FEATURE_OKAY | RENDER_TILE_ADD_FEATURE => if is_some o then 1 else 0
  | RENDER_TILE_DESER_FEATURE_SKIP => if negb (is_some o) then 1 else 0
  | _ => 0 end%nat.
Lemma string_calls_num k o b : k <> RENDER_TILE_ITER_FEATURE -> num k b (string_calls o) = string_num k o.
Proof. intros H. destruct o, k, b; (reflexivity || congruence). Qed.
Lemma sum_zero {A} (l : list A) : list_sum (map (fun _ => 0%nat) l) = 0%nat.
Proof. induction l; [reflexivity | assumption]. Qed.
Lemma pack_calls_num k b os : k <> RENDER_TILE_ITER_FEATURE -> k <> RENDER_TILE_QUERY_FEATURE -> num k b (pack_calls os) = list_sum (map (string_num k) os).
Proof.
  intros H1 H2. unfold pack_calls. rewrite num_app, num_app, (num_flat k string_calls (string_num k)) by (intros; now apply string_calls_num).
  rewrite !num_free by (destruct k; (reflexivity || congruence)). lia.
Qed.
Lemma pack_calls_query os : num RENDER_TILE_QUERY_FEATURE true (pack_calls os) = 1%nat /\ forall b, aft RENDER_TILE_QUERY_FEATURE b (pack_calls os) = false.
Proof.
  assert (HF : free RENDER_TILE_QUERY_FEATURE (flat_map string_calls os ++ [Start RENDER_TILE_ITER_FEATURE])) by (apply free_app; [apply free_flat; intros []; reflexivity | reflexivity]).
  unfold pack_calls. split; [|intros b]; rewrite ?num_app, ?aft_app, ?(num_free _ _ _ HF), <- ?aft_app, ?aft_app, <- ?num_app.
  - rewrite num_app. rewrite (num_free _ _ _ HF). reflexivity.
  - rewrite <- aft_app, (aft_free _ _ _ HF). now destruct b.
Qed.
Lemma query_none packs : num RENDER_TILE_QUERY_FEATURE false (flat_map pack_calls packs) = 0%nat.
Proof.
  induction packs as [|p packs IH]; [reflexivity|]. cbn [flat_map]. rewrite num_app, (proj2 (pack_calls_query p)), IH.
  unfold pack_calls. rewrite num_app.
  assert (HF : free RENDER_TILE_QUERY_FEATURE (flat_map string_calls p ++ [Start RENDER_TILE_ITER_FEATURE])) by (apply free_app; [apply free_flat; intros []; reflexivity | reflexivity]).
  rewrite (num_free _ _ _ HF). reflexivity.
Qed.
Lemma feature_calls_num k b packs : k <> RENDER_TILE_ITER_FEATURE -> num k b (feature_calls packs) =
  match k with RENDER_TILE_QUERY_FEATURE => match packs with [] => 0 | _ => 1 end | _ => list_sum (map (fun os => list_sum (map (string_num k) os)) packs) end%nat.
Proof.
  intros H. unfold feature_calls. change (Start RENDER_TILE_QUERY_FEATURE :: ?l) with ([Start RENDER_TILE_QUERY_FEATURE] ++ l). rewrite num_app.
  assert (E : k = RENDER_TILE_QUERY_FEATURE \/ k <> RENDER_TILE_QUERY_FEATURE) by (destruct k; ((left; reflexivity) || (right; discriminate))).
  destruct E as [->|E].
  - change (num RENDER_TILE_QUERY_FEATURE b [Start RENDER_TILE_QUERY_FEATURE]) with 0%nat. change (aft RENDER_TILE_QUERY_FEATURE b [Start RENDER_TILE_QUERY_FEATURE]) with true.
    destruct packs as [|p packs]; [reflexivity|]. cbn [flat_map]. rewrite num_app, (proj2 (pack_calls_query p)), (proj1 (pack_calls_query p)), query_none. reflexivity.
  - rewrite num_free by (destruct k; (reflexivity || congruence)). rewrite (num_flat k pack_calls (fun os => list_sum (map (string_num k) os))) by (intros; now apply pack_calls_num).
    destruct k; (reflexivity || congruence).
Qed.
Lemma sea_calls_num k b sea : num k b (sea_calls sea) = match k with RENDER_TILE_FIND_SEASIDE => 1 | RENDER_TILE_ADD_SEASIDE => length sea | _ => 0 end%nat.
Proof.
  unfold sea_calls. rewrite num_app, (num_flat k _ (fun _ => match k with RENDER_TILE_ADD_SEASIDE => 1 | _ => 0 end%nat)) by (intros a b'; destruct k, b'; reflexivity).
  assert (E : forall n, list_sum (map (fun _ : feature => n) sea) = (length sea * n)%nat) by (intros n; clear; induction sea as [|f l IH]; [reflexivity|]; cbn [map list_sum fold_right length]; change (fold_right Nat.add 0%nat ?l) with (list_sum l); rewrite IH; lia).
  rewrite E. destruct k, b; cbn [num count task_eqb fst]; try reflexivity; try (unfold num; cbn [count task_eqb fst]; lia).
Qed.
Lemma num_block k b mid : free k mid -> num k b ([Start k] ++ mid ++ [Stop k]) = 1%nat.
Proof.
  intros H. rewrite !num_app, (num_free _ _ _ H), (aft_free _ _ _ H). unfold num, aft. cbn [count]. rewrite task_eqb_refl. reflexivity.
Qed.
Lemma num_peel k b pre mid post : free k pre -> free k post -> num k b (pre ++ mid ++ post) = num k b mid.
Proof. intros H1 H2. rewrite !num_app, (num_free _ _ _ H1), (aft_free _ _ _ H1), (num_free _ _ _ H2). lia. Qed.
Definition outer (k : perf_task) : bool := match k with RESULT_SIZE | GET_TILE_TOTAL | GET_TILE_FETCH | GET_TILE_RENDER | GET_TILE_COMPRESS => true | _ => false end.
Lemma outer_free k sea packs : outer k = true -> free k (inner_calls sea packs).
Proof.
  intros H. unfold inner_calls, sea_calls, feature_calls. apply free_app; [|apply free_app].
  - apply free_app; [|apply free_flat; intros _]; destruct k; (discriminate || reflexivity).
  - change (Start RENDER_TILE_QUERY_FEATURE :: ?l) with ([Start RENDER_TILE_QUERY_FEATURE] ++ l). apply free_app; [|apply free_flat; intros os; unfold pack_calls; apply free_app; [|apply free_app; [apply free_flat; intros []|]]]; destruct k; (discriminate || reflexivity).
  - destruct k; (discriminate || reflexivity).
Qed.
Lemma tail_free k c a : k <> GET_TILE_COMPRESS -> k <> RESULT_SIZE -> free k (tail_calls c a).
Proof. intros H1 H2. destruct a, c, k; (congruence || reflexivity). Qed.
Lemma free_one k e : k <> task_of e -> free k [e].
Proof. intros H. unfold free. cbn [forallb]. rewrite andb_true_r. apply negb_true_iff. destruct (task_eqb k (task_of e)) eqn:E; [apply task_eqb_eq in E; congruence | reflexivity]. Qed.
Lemma inner_num k b sea packs : outer k = false -> k <> RENDER_TILE_ITER_FEATURE ->
  num k b (inner_calls sea packs) = (match k with RENDER_TILE_FIND_SEASIDE => 1 | RENDER_TILE_ADD_SEASIDE => length sea | _ => 0 end +
    (match k with RENDER_TILE_QUERY_FEATURE => match packs with [] => 0 | _ => 1 end | _ => list_sum (map (fun os => list_sum (map (string_num k) os)) packs) end +
    match k with RENDER_TILE_FINISH => 1 | _ => 0 end))%nat.
Proof.
  intros H1 H2. unfold inner_calls. rewrite !num_app, sea_calls_num, feature_calls_num by assumption. do 2 f_equal. generalize (aft k (aft k b (sea_calls sea)) (feature_calls packs)). intros b'. destruct k, b'; (discriminate || reflexivity).
Qed.
Lemma tile_num c k b w : k <> RENDER_TILE_ITER_FEATURE -> num k b (tile_calls c w) = expected c k w.
Proof.
  intros H. destruct w as [[sea packs] a]. unfold tile_calls. cbn [fst snd].
  assert (HO : k = GET_TILE_TOTAL \/ k <> GET_TILE_TOTAL) by (destruct k; ((left; reflexivity) || (right; discriminate))). destruct HO as [->|HO].
  { rewrite (app_assoc _ (tail_calls c a)). apply num_block. apply free_app; [|apply tail_free; discriminate]. apply free_app; [reflexivity|]. apply free_app; [now apply outer_free | reflexivity]. }
  rewrite (app_assoc _ (tail_calls c a)), num_peel by (apply free_one; exact HO).
  assert (HC : outer k = true \/ outer k = false) by (destruct (outer k); auto). destruct HC as [HC|HC].
  - assert (HR : k = GET_TILE_RENDER \/ k <> GET_TILE_RENDER) by (destruct k; ((left; reflexivity) || (right; discriminate))). destruct HR as [->|HR].
    + rewrite num_app, num_block by now apply outer_free. rewrite (num_free _ (tail_calls c a)) by (apply tail_free; discriminate). reflexivity.
    + assert (HF : free k ([Start GET_TILE_RENDER] ++ inner_calls sea packs ++ [Stop GET_TILE_RENDER])) by (apply free_app; [apply free_one; exact HR|]; apply free_app; [now apply outer_free | apply free_one; exact HR]).
      rewrite num_app, (num_free _ _ _ HF), (aft_free _ _ _ HF). destruct a, c, k, b; try discriminate; try congruence; reflexivity.
  - rewrite num_app, num_peel by (apply free_one; intros ->; discriminate HC). rewrite (num_free _ (tail_calls c a)) by (apply tail_free; intros ->; discriminate HC).
    rewrite (inner_num _ _ _ _ HC H). unfold expected, num_read, num_skipped. cbn [fst snd]. rewrite <- !sum_filter.
    destruct k; try discriminate HC; try congruence; cbn [string_num]; rewrite ?Nat.add_0_l, ?Nat.add_0_r; try reflexivity;
      rewrite (map_ext _ (fun _ => 0%nat)) by (intros os; apply sum_zero); rewrite sum_zero; lia.
Qed.
Lemma run_num c k ws b : k <> RENDER_TILE_ITER_FEATURE -> num k b (flat_map (tile_calls c) ws) = list_sum (map (expected c k) ws).
Proof. intros H. apply num_flat. intros w b'. now apply tile_num. Qed.

(** between two packs that follow each other in the whole run *)
Lemma iter_strings os b : count RENDER_TILE_ITER_FEATURE b (flat_map string_calls os) = (0%nat, b || negb (forallb is_some os)).
Proof.
  revert b. induction os as [|o os IH]; intros b; [cbn; now rewrite orb_false_r|]. cbn [flat_map]. rewrite count_app. destruct o; cbn [string_calls app count task_eqb is_some forallb andb negb]; rewrite IH; cbn; [reflexivity|]. now rewrite orb_true_r.
Qed.
Lemma iter_packs packs : forall b, count RENDER_TILE_ITER_FEATURE b (flat_map pack_calls packs) =
  match packs with [] => (0%nat, b) | _ => ((length packs - 1) + (if b then 1 else 0), true)%nat end.
Proof.
  assert (H1 : forall os b, count RENDER_TILE_ITER_FEATURE b (pack_calls os) = ((if b then 1 else 0)%nat, true)).
  { intros os b. unfold pack_calls. rewrite count_app. assert (E : count RENDER_TILE_ITER_FEATURE b [Stop RENDER_TILE_QUERY_FEATURE; Stop RENDER_TILE_ITER_FEATURE] = ((if b then 1 else 0)%nat, false)) by (destruct b; reflexivity).
    rewrite E, count_app, iter_strings. cbn [count task_eqb]. destruct b; reflexivity. }
  induction packs as [|p packs IH]; intros b; [reflexivity|]. cbn [flat_map]. rewrite count_app, H1, IH. destruct packs; cbn [length]; [destruct b; reflexivity|]. f_equal. destruct b; lia.
Qed.
Lemma iter_tile c w b : count RENDER_TILE_ITER_FEATURE b (tile_calls c w) =
  match snd (fst w) with [] => (0%nat, b) | ps => ((length ps - 1) + (if b then 1 else 0), true)%nat end.
Proof.
  destruct w as [[sea packs] a]. unfold tile_calls, inner_calls, feature_calls. cbn [fst snd]. change (Start RENDER_TILE_QUERY_FEATURE :: ?l) with ([Start RENDER_TILE_QUERY_FEATURE] ++ l).
  assert (HS : free RENDER_TILE_ITER_FEATURE (sea_calls sea)) by (unfold sea_calls; apply free_app; [reflexivity | apply free_flat; intros; reflexivity]).
  assert (HT : free RENDER_TILE_ITER_FEATURE (tail_calls c a)) by (apply tail_free; discriminate).
  assert (E : forall e b', count RENDER_TILE_ITER_FEATURE b' e = (num RENDER_TILE_ITER_FEATURE b' e, aft RENDER_TILE_ITER_FEATURE b' e)) by (intros; apply surjective_pairing).
  rewrite E, !num_app, !aft_app. rewrite ?(aft_free _ _ _ HS), ?(num_free _ _ _ HS), ?(aft_free _ _ _ HT), ?(num_free _ _ _ HT).
  assert (F : forall e b', task_of e <> RENDER_TILE_ITER_FEATURE -> aft RENDER_TILE_ITER_FEATURE b' [e] = b' /\ num RENDER_TILE_ITER_FEATURE b' [e] = 0%nat) by (intros e b' He; split; [apply aft_free | apply num_free]; apply free_one; congruence).
  change [Start RENDER_TILE_FINISH; Stop RENDER_TILE_FINISH] with ([Start RENDER_TILE_FINISH] ++ [Stop RENDER_TILE_FINISH]). rewrite ?num_app, ?aft_app.
  repeat match goal with |- context [aft RENDER_TILE_ITER_FEATURE ?b' [?e]] => rewrite (proj1 (F e b' ltac:(discriminate))) end.
  repeat match goal with |- context [num RENDER_TILE_ITER_FEATURE ?b' [?e]] => rewrite (proj2 (F e b' ltac:(discriminate))) end.
  unfold num, aft. rewrite iter_packs. destruct packs as [|p packs]; [reflexivity|]. cbn [fst snd]. f_equal. lia.
Qed.
Lemma iter_run c ws : num RENDER_TILE_ITER_FEATURE false (flat_map (tile_calls c) ws) = (length (concat (map (fun w => snd (fst w)) ws)) - 1)%nat.
Proof.
  assert (H : forall ws b, num RENDER_TILE_ITER_FEATURE b (flat_map (tile_calls c) ws) = if b then length (concat (map (fun w => snd (fst w)) ws)) else (length (concat (map (fun w => snd (fst w)) ws)) - 1)%nat).
  { clear ws. induction ws as [|w ws IH]; intros b; [now destruct b|]. cbn [flat_map map concat]. rewrite num_app. unfold num at 1, aft. rewrite iter_tile, app_length. destruct w as [[sea packs] a]. cbn [fst snd]. destruct packs as [|p packs]; cbn [fst snd].
    - rewrite IH. destruct b; reflexivity.
    - rewrite IH. cbn [length]. destruct b; lia. }
  exact (H ws false).
Qed.

(** the sizes *)
Lemma run_sizes : forall es clock pc, length clock = length es -> forallb (fun e => match e with Start k | Stop k => negb (task_eqb RESULT_SIZE k) | _ => true end) es = true ->
  finished (perf_run pc (combine es clock)) RESULT_SIZE = finished pc RESULT_SIZE ++ flat_map (fun e => match e with Append RESULT_SIZE v => [v] | _ => [] end) es.
Proof.
  induction es as [|e es IH]; intros clock pc HL H; [cbn; now rewrite app_nil_r|]. destruct clock as [|t clock]; [discriminate|]. cbn [combine perf_run fold_left]. change (fold_left perf_step ?l ?p) with (perf_run p l). injection HL as HL.
  cbn [forallb] in H. apply andb_true_iff in H as [H1 H2]. rewrite (IH clock _ HL H2). destruct e as [k|k|k v]; unfold perf_step; cbn [fst snd flat_map]; [reflexivity| |].
  - apply negb_true_iff in H1. destruct (running pc k); [|reflexivity]. cbn [set_running push finished]. rewrite task_eqb_sym, H1. reflexivity.
  - cbn [push finished]. destruct k; cbn [task_eqb]; rewrite <- ?app_assoc; reflexivity.
Qed.
