(** C86: the benchmark. *)
From Coq Require Import Permutation Sorting.Sorted.
From Coq Require Import List.
From Verif Require Import Base BaseProof ModelTile SpecTile ModelPackFile ModelCodec ModelGeom ModelFeature ModelPack ModelPacker ModelBqTree ModelMvt ModelRender ModelImport SpecImport ModelCrash SpecCrash ProofCrash
  ModelPerf SpecPerf ProofPerf ProofPerfTime ProofPerfReport ProofPerfDb PropRender.
Import ListNotations.
Open Scope N_scope.

(** the measurements of a task, when the calls read [clock] *)
Definition measurements (calls : list perf_call) (clock : list N) (k : perf_task) : list N := finished (perf_run no_measurements (combine calls clock)) k.

(** C86: the benchmark renders what the server would render: with counters every tile has the same outcome as without *)
Theorem c86_same : forall tiles features s x ts,
  (do r <- bench_tiles tiles features s x ts; Ok (fst r)) = map_res (get_tile tiles features s x) ts.
Proof. exact bench_same. Qed.
Print Assumptions c86_same.

(** The server it asks: tiles are always rendered, never taken from the prepared ones; lines and polygons are joined and small polygons
    dropped as that server does, and always if one tile is asked for; and all else is as in that server. *)
Theorem c86_switches : forall x compress single, let y := bench_ctx x compress single in
  x_ignore_prepared y = true /\ x_compress y = compress /\ x_ignore_seaside y = x_ignore_seaside x /\
  (single = true -> x_agg_lines y = true /\ x_agg_polys y = true /\ x_drop_subpixel y = true) /\
  (single = false -> x_agg_lines y = x_agg_lines x /\ x_agg_polys y = x_agg_polys x /\ x_drop_subpixel y = x_drop_subpixel x) /\
  x_seaside y = x_seaside x /\ x_names y = x_names x /\ x_dec y = x_dec x /\ x_deflate y = x_deflate x /\
  x_cut y = x_cut x /\ x_area y = x_area x /\ x_aggregate y = x_aggregate x /\ x_rd y = x_rd x.
Proof. intros x compress [] y; repeat split; intros; discriminate || auto. Qed.
Print Assumptions c86_switches.

(** and on a database that a (perhaps stopped) import has left it ends without exceptions. *)
Theorem c86_total : forall L j co fe raw prep whole st compress single ts, libs_ok L -> job_ok L j -> interrupted L j co fe raw prep whole st ->
  Forall (fun t => tz t <= 20 /\ valid_tile t) ts ->
  exists x, make_render_ctx L (st_meta st) = Ok x /\ x_ignore_seaside x = false /\
    exists r, bench_tiles (st_tiles st) (st_features st) (pf_open (st_pack st)) (bench_ctx x compress single) ts = Ok r.
Proof. intros. eapply bench_total; eauto. eapply interrupted_sinv; eauto. Qed.
Print Assumptions c86_total.

(** How many measurements it reports: one per tile, per square of the sea, per feature that was read (or skipped), per answer with
    its size; for [RENDER_TILE_ITER_FEATURE] one less than packs in the whole run. *)
Theorem c86_counts : forall tiles features s x ts answers calls clock, x_ignore_prepared x = true -> x_ignore_seaside x = false ->
  bench_tiles tiles features s x ts = Ok (answers, calls) -> length clock = length calls ->
  exists seas packs, Forall2 (fun t sea => seaside_features x t = Ok sea) ts seas /\ Forall2 (packs_of x features s) ts packs /\
    let M := measurements calls clock in
    length (M GET_TILE_TOTAL) = length ts /\ length (M GET_TILE_RENDER) = length ts /\ length (M RENDER_TILE_FIND_SEASIDE) = length ts /\ length (M RENDER_TILE_FINISH) = length ts /\
    M GET_TILE_FETCH = [] /\ M RESULT_SIZE = map blen (answered answers) /\
    length (M GET_TILE_COMPRESS) = (if x_compress x then length (answered answers) else 0%nat) /\
    length (M RENDER_TILE_ADD_SEASIDE) = length (concat seas) /\
    length (M RENDER_TILE_QUERY_FEATURE) = length (filter (fun ps => negb (length ps =? 0)%nat) packs) /\
    length (M RENDER_TILE_DESER_FEATURE_OKAY) = num_read (concat packs) /\ length (M RENDER_TILE_ADD_FEATURE) = num_read (concat packs) /\
    length (M RENDER_TILE_DESER_FEATURE_SKIP) = num_skipped (concat packs) /\
    length (M RENDER_TILE_ITER_FEATURE) = (length (concat packs) - 1)%nat.
Proof. exact bench_counts. Qed.
Print Assumptions c86_counts.

(** What the times add up to, if the clock does not go back: the parts of rendering to no more than rendering, fetching, rendering and
    compressing to no more than the total, and that to no more than the time of the run. *)
Theorem c86_times : forall tiles features s x ts answers calls clock, x_ignore_prepared x = true -> x_ignore_seaside x = false ->
  bench_tiles tiles features s x ts = Ok (answers, calls) -> length clock = length calls -> Sorted N.le clock -> Forall (fun t => t < 2 ^ 64) clock ->
  let S k := sum (measurements calls clock k) in
  S RENDER_TILE_FIND_SEASIDE + S RENDER_TILE_ADD_SEASIDE + S RENDER_TILE_QUERY_FEATURE + S RENDER_TILE_DESER_FEATURE_OKAY + S RENDER_TILE_DESER_FEATURE_SKIP +
    S RENDER_TILE_ADD_FEATURE + S RENDER_TILE_FINISH <= S GET_TILE_RENDER /\
  S GET_TILE_FETCH + S GET_TILE_RENDER + S GET_TILE_COMPRESS <= S GET_TILE_TOTAL /\
  S GET_TILE_TOTAL <= last clock 0 - hd 0 clock.
Proof. exact bench_times. Qed.
Print Assumptions c86_times.

(** A line of the report, if there are fewer than 2^47 measurements: their number, a value of which at least 95 percent are at most as
    great and at most 95 percent smaller, and the greatest. *)
Theorem c86_report : forall vs sorted, Permutation vs sorted -> StronglySorted N.le sorted -> N.of_nat (length vs) < 2 ^ 47 ->
  if (length vs =? 0)%nat then report_line sorted = Ok (0, None)
  else exists q m, report_line sorted = Ok (N.of_nat (length vs), Some (q, m)) /\ q95_of q vs /\ greatest m vs.
Proof. exact report_exact. Qed.
Print Assumptions c86_report.

(** ** A concrete run, on the database of C52: a tile with a feature, again, one without features, one on which a feature is skipped (it shows the sea only) *)
Definition c86_tiles : list tile := [Tile 1100 680 11; Tile 1100 680 11; Tile 3 3 11; Tile 4 2 3].
Definition c86_run : res (list (option bytes) * list perf_call) := bench_tiles [] c52_table c52_file (bench_ctx c52_x true false) c86_tiles.
Definition c86_calls : list perf_call := match c86_run with Ok (_, calls) => calls | _ => [] end.
Definition c86_answers : list (option bytes) := match c86_run with Ok (answers, _) => answers | _ => [] end.
(** the clock ticks between the first two calls and between the first two tiles *)
Definition c86_clock : list N := 0 :: repeat 5 19 ++ repeat 1005 (length c86_calls - 20).
Example c86_ex : bench_tiles [] c52_table c52_file (bench_ctx c52_x true false) c86_tiles = Ok (c86_answers, c86_calls) /\ length c86_clock = length c86_calls /\ Sorted N.le c86_clock /\ Forall (fun t => t < 2 ^ 64) c86_clock /\
  map (measurements c86_calls c86_clock) [GET_TILE_TOTAL; RENDER_TILE_DESER_FEATURE_OKAY; RENDER_TILE_DESER_FEATURE_SKIP; RENDER_TILE_QUERY_FEATURE] = [[5; 0; 0; 0]; [0; 0]; [0]; [0; 0; 0]] /\
  map (fun a => match a with Some z => length z | None => 0%nat end) c86_answers = [48; 48; 40; 39]%nat.
Proof.
  split; [vm_compute; reflexivity|]. split; [vm_compute; reflexivity|].
  assert (HS : forall l, forallb (fun p => fst p <=? snd p) (combine l (tl l)) = true -> Sorted N.le l).
  { induction l as [|a l IH]; intros H; [constructor|]. destruct l as [|b l]; [repeat constructor|]. cbn [tl combine forallb fst snd] in H. apply andb_true_iff in H as [H1 H2]. constructor; [now apply IH | constructor; now apply N.leb_le]. }
  split; [apply HS; vm_compute; reflexivity|]. split; [|split; vm_compute; reflexivity].
  assert (HF : forallb (fun t => t <? 2 ^ 64) c86_clock = true) by (vm_compute; reflexivity). rewrite forallb_forall in HF. apply Forall_forall. intros t Ht. apply N.ltb_lt. now apply HF.
Qed.

(** But the time spent between packs is measured wrongly: the measurement that is begun behind a tile's last pack ends with the
    first pack of a later tile, so what is reported can exceed the time of the whole. *)
Theorem c86_iter_refuted : exists tiles features s x ts answers calls clock, x_ignore_prepared x = true /\ x_ignore_seaside x = false /\
  bench_tiles tiles features s x ts = Ok (answers, calls) /\ length clock = length calls /\ Sorted N.le clock /\ Forall (fun t => t < 2 ^ 64) clock /\
  sum (measurements calls clock GET_TILE_TOTAL) < sum (measurements calls clock RENDER_TILE_ITER_FEATURE).
Proof.
  destruct c86_ex as (H1 & H2 & H3 & H4 & _). exists [], c52_table, c52_file, (bench_ctx c52_x true false), c86_tiles, c86_answers, c86_calls, c86_clock.
  split; [reflexivity|]. split; [reflexivity|]. split; [exact H1|]. split; [exact H2|]. split; [exact H3|]. split; [exact H4|]. vm_compute. reflexivity.
Qed.
Print Assumptions c86_iter_refuted.
(** (a report of twenty values) *)
Example c86_ex_report : report_line [1; 2; 3; 4; 5; 6; 7; 8; 9; 10; 11; 12; 13; 14; 15; 16; 17; 18; 19; 100] = Ok (20, Some (100, 100)).
Proof. vm_compute. reflexivity. Qed.
