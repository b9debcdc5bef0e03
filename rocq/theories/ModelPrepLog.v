(** Statistics of preparing tiles: src/db/prepare_tiles.cc:26-105.  (The tiles themselves: ModelPrepare.) *)
From Verif Require Import Base ModelTile ModelPrepare.
Open Scope N_scope.

(** prepare_tiles.cc:26-32 prepare_stats.  Simplified: the sums do not wrap around (2^64 bytes or nanoseconds). *)
Record pstats := PStats { s_total : N; s_finished : N; s_empty : N; s_size : N; s_dur : N }.
(** prepare_tiles.cc:95-101: what a line of the log says; the average is the quotient of two numbers (a double), or 0 *)
Record pline := PLine { l_level : N; l_dur : N; l_total : N; l_average : option (N * N); l_empty : N }.

(** stats_[i] = f(stats_[i]); [out] if there is no such element *)
Fixpoint stat_update (out : res (list pstats)) (st : list pstats) (i : nat) (f : pstats -> pstats) : res (list pstats) :=
  match st, i with
  | [], _ => out
  | s :: st', O => Ok (f s :: st')
  | s :: st', S i' => do r <- stat_update out st' i' f; Ok (s :: r)
  end.

(** prepare_tiles.cc:51-79 get_batch (as ModelPrepare.get_batch) with the number of tiles of each level, :64; operator[] does not check *)
Fixpoint batch_loop_stats (n : nat) (m : pman) (st : list pstats) : res (list tile * pman * list pstats) :=
  match n with
  | O => Ok ([], m, st)
  | S n' =>
      if pm_max m <? pm_z m then Ok ([], m, st)
      else
        do st1 <- stat_update UB st (N.to_nat (pm_z m)) (fun s => PStats (s_total s + 1) (s_finished s) (s_empty s) (s_size s) (s_dur s));
        match pm_rest m with
        | [] => UB
        | t :: rest =>
            let m' := match rest with
                      | [] => PMan (pm_max m) (pm_z m + 1) (pm_base m) (tile_range_on_z (pm_base m) (pm_z m + 1))
                      | _ => PMan (pm_max m) (pm_z m) (pm_base m) rest
                      end in
            do (r, st2) <- batch_loop_stats n' m' st1; let '(b, m'') := r in Ok (t :: b, m'', st2)
        end
  end.
Definition get_batch_stats (m : pman) (st : list pstats) : res (list tile * pman * list pstats) :=
  batch_loop_stats (N.to_nat (N.shiftl 1 9 / N.shiftl 1 (9 - pm_z m))) m st.

(** prepare_tiles.cc:81-102 finish, under the mutex; vector::at throws *)
Definition finish (m : pman) (st : list pstats) (t : tile) (size dur : N) : res (list pstats * list pline) :=
  do st' <- stat_update Throw st (N.to_nat (tz t)) (fun s =>
    PStats (s_total s) (s_finished s + 1) (if negb (size =? 0) then s_empty s + 1 else s_empty s) (s_size s + size) (s_dur s + dur));
  match nth_error st' (N.to_nat (tz t)) with
  | None => UB
  | Some s =>
      if (tz t =? pm_z m) || (s_finished s <? s_total s) then Ok (st', [])
      else Ok (st', [PLine (tz t) (s_dur s) (s_total s)
        (if s_total s =? s_empty s then None else Some (s_size s, s_total s - s_empty s)) (s_empty s)])
  end.

(** prepare_tiles.cc:149-185: a worker thread; storing the batch is left out.  [size t]: bytes of the rendered tile, 0 if it is empty *)
Inductive lpc : Type :=
| LTop                       (** :150 about to call get_batch *)
| LTiles (b : list tile)     (** :166 tiles of the batch to be rendered *)
| LExit.
Record plog := PLog { g_man : pman; g_stats : list pstats; g_threads : list lpc; g_log : list pline;
  g_done : list (tile * N) }. (** tiles finished so far, with the time it took *)
Inductive log_step (size : tile -> N) : plog -> plog -> Prop :=
| lg_batch m m' st st' b t1 t2 log dn : get_batch_stats m st = Ok (b, m', st') ->
    log_step size (PLog m st (t1 ++ LTop :: t2) log dn) (PLog m' st' (t1 ++ match b with [] => LExit | _ => LTiles b end :: t2) log dn)
| lg_finish m st st' t b t1 t2 log out dur dn : finish m st t (size t) dur = Ok (st', out) ->
    log_step size (PLog m st (t1 ++ LTiles (t :: b) :: t2) log dn)
      (PLog m st' (t1 ++ match b with [] => LTop | _ => LTiles b end :: t2) (log ++ out) (dn ++ [(t, dur)])).
(** prepare_tiles.cc:44, 136-206 with [n] threads *)
Inductive log_reach (size : tile -> N) (m : pman) (n : nat) : plog -> Prop :=
| lr_init : log_reach size m n (PLog m (repeat (PStats 0 0 0 0 0) (N.to_nat (pm_max m) + 1)) (repeat LTop n) [] [])
| lr_step s s' : log_reach size m n s -> log_step size s s' -> log_reach size m n s'.
