(** Repacking the pack file in place: include/tiles/db/repack_features.h, and
    pack_features(tile_db_handle&, pack_handle&, pack_fn), src/db/feature_pack.cc:73-116. *)
From Verif Require Import Base ModelTile ModelPackFile ModelTable.
Open Scope N_scope.

(** size_t subtraction *)
Definition sub64 (a b : N) : N := (a + 2 ^ 64 - b) mod 2 ^ 64.
Definition end_of (r : pack_record) : N := r_off r + r_size r.

(** repack_features.h:18-21 tile_record *)
Definition task : Type := tile * list pack_record.
(** :23-30 tile_record_single *)
Definition single : Type := tile * pack_record.

(** ** defragment_pack_file, :71-262 *)
(** The records of all tasks, task after task, are one list; a pair (task_idx, record_idx) is the
    position in it, the lexicographic order of pairs is the order of positions.  [d_frag] and
    [d_defrag] hold such positions, [d_end] is end_offset, [d_last] is (last_task_idx,
    last_record_idx) ([None]: the initial maximum). *)
Record dfs := Dfs {
  d_pf : pfile; d_recs : list pack_record; d_end : N;
  d_frag : list nat; d_idx : nat; d_defrag : list nat; d_last : option nat }.

Definition no_rec : pack_record := Rec 0 0.
Definition rec_at (s : dfs) (i : nat) : pack_record := nth i (d_recs s) no_rec.
Definition is_nil {A} (l : list A) : bool := match l with [] => true | _ => false end.

(** :119-160 refresh_defrag_queue; [k] is the current position *)
Fixpoint refresh (fuel : nat) (k : nat) (s : dfs) : res dfs :=
  match fuel with
  | O => Fuel
  | S f =>
      let '(Dfs pf rs e fr ix df la) := s in
      if is_nil fr && is_nil df then Ok s else
      if (length fr <=? ix)%nat then
        (* :125-139 *)
        do _ <- verify (negb (match la with Some l => (l =? k)%nat | None => false end));
        refresh f k (Dfs pf rs e df 0 [] (Some k))
      else if (nth ix fr O <? k)%nat then refresh f k (Dfs pf rs e fr (S ix) df la)
      else if (last fr O <? k)%nat then refresh f k (Dfs pf rs e (removelast fr) ix df la)
      else if negb (is_nil df) && (last df O <? k)%nat then refresh f k (Dfs pf rs e fr ix (removelast df) la)
      else Ok s
  end.

(** :162-166 and :172-177 peek_last_fragmented, get_last_fragmented (after the refresh) *)
Definition last_frag (s : dfs) : res nat :=
  do _ <- verify (negb (is_nil (d_frag s))); Ok (last (d_frag s) O).
(** :167-171 and :178-182 peek_next_fragmented, get_next_fragmented (after the refresh);
    vector::at throws *)
Definition next_frag (s : dfs) : res nat :=
  do _ <- verify (negb (is_nil (d_frag s)));
  match nth_error (d_frag s) (d_idx s) with Some i => Ok i | None => Throw end.
(** :183-186 defrag_insert_offset (after the refresh) *)
Definition insert_at (s : dfs) : N :=
  match d_defrag s with [] => 0 | _ => end_of (rec_at s (last (d_defrag s) O)) end.
(** :187-203 begin_space (after the refresh) *)
Definition begin_space (s : dfs) : res N :=
  if is_nil (d_frag s) && is_nil (d_defrag s) then Ok (d_end s)
  else if is_nil (d_defrag s) then do i <- next_frag s; Ok (r_off (rec_at s i))
  else if is_nil (d_frag s) then Ok (sub64 (d_end s) (insert_at s))
  else
    do i <- next_frag s;
    do _ <- verify (insert_at s <=? r_off (rec_at s i));
    Ok (r_off (rec_at s i) - insert_at s).
(** :204-208 end_space (after the refresh) *)
Definition end_space (s : dfs) : N :=
  sub64 (d_end s) (match d_frag s with [] => 0 | _ => end_of (rec_at s (last (d_frag s) O)) end).

Definition set_rec (rs : list pack_record) (i : nat) (r : pack_record) : list pack_record :=
  firstn i rs ++ r :: skipn (S i) rs.
(** *record = pack_handle_.move(off, *record) *)
Definition move_rec (s : dfs) (off : N) (i : nat) : res dfs :=
  do (pf, r) <- pf_move (d_pf s) off (rec_at s i);
  Ok (Dfs pf (set_rec (d_recs s) i r) (d_end s) (d_frag s) (d_idx s) (d_defrag s) (d_last s)).

(** :227-234 making space at the front *)
Fixpoint compact (fuel : nat) (k : nat) (s : dfs) : res dfs :=
  match fuel with
  | O => Fuel
  | S f =>
      do s <- refresh fuel k s;
      do space <- begin_space s;
      do l <- last_frag s;
      if space <? r_size (rec_at s l) then
        let off := insert_at s in
        do i <- next_frag s;
        do _ <- verify (off <=? r_off (rec_at s i));
        do s' <- move_rec (Dfs (d_pf s) (d_recs s) (d_end s) (d_frag s) (S (d_idx s)) (d_defrag s) (d_last s)) off i;
        compact f k (Dfs (d_pf s') (d_recs s') (d_end s') (d_frag s') (d_idx s') (d_defrag s' ++ [i]) (d_last s'))
      else Ok s
  end.

(** :225-243 moving blockers away *)
Fixpoint unblock (fuel : nat) (k : nat) (s : dfs) : res dfs :=
  match fuel with
  | O => Fuel
  | S f =>
      do s <- refresh fuel k s;
      if end_space s <? r_size (rec_at s k) then
        do s <- compact fuel k s;
        let off := insert_at s in
        do i <- last_frag s;
        do _ <- verify (off <=? r_off (rec_at s i));
        do s' <- move_rec (Dfs (d_pf s) (d_recs s) (d_end s) (removelast (d_frag s)) (d_idx s) (d_defrag s) (d_last s)) off i;
        unblock f k (Dfs (d_pf s') (d_recs s') (d_end s') (d_frag s') (d_idx s') (d_defrag s' ++ [i]) (d_last s'))
      else Ok s
  end.

(** :216-218 and :246-248 moving the element *)
Definition move_end (k : nat) (s : dfs) : res dfs :=
  let e := sub64 (d_end s) (r_size (rec_at s k)) in
  do s' <- move_rec (Dfs (d_pf s) (d_recs s) e (d_frag s) (d_idx s) (d_defrag s) (d_last s)) e k;
  do _ <- verify (negb (r_off (rec_at s' k) =? 0));
  Ok s'.

(** :210-249 one record *)
Definition defrag_one (fuel : nat) (k : nat) (s : dfs) : res dfs :=
  do _ <- verify (negb (is_nil (d_frag s)));
  do s <- refresh fuel k s;
  do b <- last_frag s;
  if (b =? k)%nat then move_end k s
  else do s <- unblock fuel k s; move_end k s.

(** :208-250; [ks]: the positions still to do *)
Fixpoint defrag_all (fuel : nat) (ks : list nat) (s : dfs) : res dfs :=
  match ks with
  | [] => Ok s
  | k :: ks' => do s' <- defrag_one fuel k s; defrag_all fuel ks' s'
  end.

(** operator< of pack_record, pack_file.h:22-24 *)
Definition rec_ltb (a b : pack_record) : bool :=
  (r_off a <? r_off b) || ((r_off a =? r_off b) && (r_size a <? r_size b)).

Section Repack.
(** std::sort of q_frag, :92-94 *)
Variable qsort : (nat -> nat -> bool) -> list nat -> list nat.

(** :71-104; used_space is added up without wrapping (the records are in the file) *)
Definition defrag (pf : pfile) (rs : list pack_record) : res dfs :=
  let used := fold_right (fun r n => r_size r + n) 0 rs in
  let largest := fold_right (fun r n => N.max (r_size r) n) 0 rs in
  let lt i j := rec_ltb (nth i rs no_rec) (nth j rs no_rec) in
  do _ <- verify (used <=? pf_size pf);
  do _ <- verify (largest <? pf_size pf - used);
  defrag_all (6 * length rs + 12) (seq 0 (length rs))
    (Dfs pf rs (pf_size pf) (qsort lt (seq 0 (length rs))) 0 [] None).

(** writing the records back into the tasks *)
Fixpoint regroup (tasks : list task) (rs : list pack_record) : list task :=
  match tasks with
  | [] => []
  | (t, r) :: tl => (t, firstn (length r) rs) :: regroup tl (skipn (length r) rs)
  end.

(** ** repack_memory_manager, :36-288 *)
(** std::sort of records (:40-42) and of tasks (:44-46) *)
Variable rsort : list pack_record -> list pack_record.
Variable tsort : list task -> list task.
Definition off_gtb (a b : pack_record) : bool := r_off b <? r_off a.
Definition task_gtb (a b : task) : bool :=
  r_off (last (snd b) no_rec) <? r_off (last (snd a) no_rec).

Record mgr := Mgr {
  g_pf : pfile; g_tasks : list task; g_stash : list single; g_off : N; g_upd : list single }.

(** :36-48 the constructor *)
Definition mgr_init (pf : pfile) (tasks : list task) : mgr :=
  Mgr pf (tsort (map (fun t => (fst t, rsort (snd t))) (filter (fun t => negb (is_nil (snd t))) tasks))) [] 0 [].

(** :57-71 insert_result *)
Definition insert_result (g : mgr) (t : tile) (buf : bytes) : res mgr :=
  match g_tasks g with
  | [] => let '(pf, r) := pf_append (g_pf g) buf in Ok (Mgr pf [] (g_stash g) (g_off g) (g_upd g ++ [(t, r)]))
  | _ =>
      let end_offset := r_off (last (snd (last (g_tasks g) (Tile 0 0 0, []))) no_rec) in
      do _ <- verify (g_off g <=? end_offset);
      if end_offset - g_off g <? blen buf then
        let '(pf, r) := pf_append (g_pf g) buf in Ok (Mgr pf (g_tasks g) (g_stash g ++ [(t, r)]) (g_off g) (g_upd g))
      else
        let '(pf, r) := pf_insert (g_pf g) (g_off g) buf in
        Ok (Mgr pf (g_tasks g) (g_stash g) (g_off g + blen buf) (g_upd g ++ [(t, r)]))
  end.

(** :73-262 on the tasks *)
Definition defragment (g : mgr) : res mgr :=
  do s <- defrag (g_pf g) (flat_map snd (g_tasks g));
  Ok (Mgr (d_pf s) (regroup (g_tasks g) (d_recs s)) (g_stash g) (g_off g) (g_upd g)).

(** :267-270 the loop of finish_back_stash *)
Fixpoint move_stash (pf : pfile) (off : N) (upd : list single) (st : list single) : res (pfile * N * list single) :=
  match st with
  | [] => Ok (pf, off, upd)
  | (t, r) :: st' => do (pf', r') <- pf_move pf off r; move_stash pf' (off + r_size r) (upd ++ [(t, r')]) st'
  end.
(** :264-274 finish_back_stash *)
Definition finish_stash (g : mgr) : res mgr :=
  do _ <- verify (is_nil (g_tasks g));
  do (p, upd) <- move_stash (g_pf g) (g_off g) (g_upd g) (g_stash g);
  Ok (Mgr (pf_resize (fst p) (snd p)) [] [] (snd p) upd).

(** ** repack_features, :290-376 *)
(** Work and results in flight: a task whose packs were copied out of the file and whose result
    was not yet taken.  Which result comes when is up to the scheduler (see ModelDrain for the
    queues); a dequeue may time out; the drains may end at any time.  An exception in the packing
    function is not modelled (it terminates the process, queue_processor runs it on a thread). *)
Variable pack : tile -> list bytes -> bytes.
Variable limit : N.       (** kRepackInFlightMemory *)
Variable batch : nat.     (** kRepackBatchSize *)

Inductive rpc : Type :=
| RpFirst (size : N)      (** :351 enqueue_work(-1) *)
| RpDefrag                (** :352 *)
| RpLoop                  (** :353 *)
| RpDeq (n : nat)         (** :354 *)
| RpFlush                 (** :355 *)
| RpEnq (n : nat)         (** :356 *)
| RpStash                 (** :358 *)
| RpFlush2                (** :359 *)
| RpDrain                 (** :361 *)
| RpFlush3                (** :362 *)
| RpCheck                 (** :371-375 *)
| RpDone
| RpThrown.

Record rst := RSt {
  r_mgr : mgr;
  r_fly : list (tile * list bytes);
  r_out : list (list single);     (** the arguments of the calls of callback so far *)
  r_pc : rpc }.

Definition rst_start (pf : pfile) (tasks : list task) : rst := RSt (mgr_init pf tasks) [] [] (RpFirst 0).

(** :316-325 the packs of a task, copied *)
Definition read_task (pf : pfile) (t : task) : res (list bytes) := map_res (pf_get pf) (snd t).
Definition task_size (t : task) : N := fold_right (fun r n => r_size r + n) 0 (snd t).
(** :50-55 dequeue_task: all but the last *)
Definition rest_tasks (g : mgr) : mgr := Mgr (g_pf g) (removelast (g_tasks g)) (g_stash g) (g_off g) (g_upd g).
Definition next_task (g : mgr) : task := last (g_tasks g) (Tile 0 0 0, []).
(** :276-280 *)
Definition flush_upd (g : mgr) : mgr := Mgr (g_pf g) (g_tasks g) (g_stash g) (g_off g) [].

Inductive rp_step : rst -> rst -> Prop :=
(** :331-334 *)
| rp_first g fly out n ps : g_tasks g <> [] -> n < limit -> read_task (g_pf g) (next_task g) = Ok ps ->
    rp_step (RSt g fly out (RpFirst n)) (RSt (rest_tasks g) (fly ++ [(fst (next_task g), ps)]) out (RpFirst (n + task_size (next_task g))))
| rp_first_throw g fly out n : g_tasks g <> [] -> n < limit -> read_task (g_pf g) (next_task g) = Throw ->
    rp_step (RSt g fly out (RpFirst n)) (RSt g fly out RpThrown)
| rp_first_end g fly out n : g_tasks g = [] \/ limit <= n ->
    rp_step (RSt g fly out (RpFirst n)) (RSt g fly out RpDefrag)
| rp_defrag g fly out g' : defragment g = Ok g' ->
    rp_step (RSt g fly out RpDefrag) (RSt g' fly out RpLoop)
| rp_defrag_throw g fly out : defragment g = Throw ->
    rp_step (RSt g fly out RpDefrag) (RSt g fly out RpThrown)
| rp_loop g fly out : g_tasks g <> [] ->
    rp_step (RSt g fly out RpLoop) (RSt g fly out (RpDeq batch))
| rp_loop_end g fly out : g_tasks g = [] ->
    rp_step (RSt g fly out RpLoop) (RSt g fly out RpStash)
(** :340-360 *)
| rp_result g f1 t ps f2 out n g' : insert_result g t (pack t ps) = Ok g' ->
    rp_step (RSt g (f1 ++ (t, ps) :: f2) out (RpDeq (S n))) (RSt g' (f1 ++ f2) out (RpDeq n))
| rp_result_throw g f1 t ps f2 out n : insert_result g t (pack t ps) = Throw ->
    rp_step (RSt g (f1 ++ (t, ps) :: f2) out (RpDeq (S n))) (RSt g (f1 ++ f2) out RpThrown)
| rp_timeout g fly out n :
    rp_step (RSt g fly out (RpDeq (S n))) (RSt g fly out (RpDeq n))
| rp_deq_end g fly out n :
    rp_step (RSt g fly out (RpDeq n)) (RSt g fly out RpFlush)
| rp_flush g fly out :
    rp_step (RSt g fly out RpFlush) (RSt (flush_upd g) fly (out ++ [g_upd g]) (RpEnq batch))
(** :336-339 *)
| rp_enq g fly out n ps : g_tasks g <> [] -> read_task (g_pf g) (next_task g) = Ok ps ->
    rp_step (RSt g fly out (RpEnq (S n))) (RSt (rest_tasks g) (fly ++ [(fst (next_task g), ps)]) out (RpEnq n))
| rp_enq_throw g fly out n : g_tasks g <> [] -> read_task (g_pf g) (next_task g) = Throw ->
    rp_step (RSt g fly out (RpEnq (S n))) (RSt g fly out RpThrown)
| rp_enq_end g fly out n : g_tasks g = [] \/ n = O ->
    rp_step (RSt g fly out (RpEnq n)) (RSt g fly out RpLoop)
| rp_stash g fly out g' : finish_stash g = Ok g' ->
    rp_step (RSt g fly out RpStash) (RSt g' fly out RpFlush2)
| rp_stash_throw g fly out : finish_stash g = Throw ->
    rp_step (RSt g fly out RpStash) (RSt g fly out RpThrown)
| rp_flush2 g fly out :
    rp_step (RSt g fly out RpFlush2) (RSt (flush_upd g) fly (out ++ [g_upd g]) RpDrain)
| rp_drain g f1 t ps f2 out g' : insert_result g t (pack t ps) = Ok g' ->
    rp_step (RSt g (f1 ++ (t, ps) :: f2) out RpDrain) (RSt g' (f1 ++ f2) out RpDrain)
| rp_drain_throw g f1 t ps f2 out : insert_result g t (pack t ps) = Throw ->
    rp_step (RSt g (f1 ++ (t, ps) :: f2) out RpDrain) (RSt g (f1 ++ f2) out RpThrown)
| rp_drain_end g fly out :
    rp_step (RSt g fly out RpDrain) (RSt g fly out RpFlush3)
| rp_flush3 g fly out :
    rp_step (RSt g fly out RpFlush3) (RSt (flush_upd g) fly (out ++ [g_upd g]) RpCheck)
| rp_check g out : g_tasks g = [] ->
    rp_step (RSt g [] out RpCheck) (RSt g [] out RpDone)
| rp_check_throw g fly out : g_tasks g <> [] \/ fly <> [] ->
    rp_step (RSt g fly out RpCheck) (RSt g fly out RpThrown).

Inductive rp_reach (pf : pfile) (tasks : list task) : rst -> Prop :=
| rp_init : rp_reach pf tasks (rst_start pf tasks)
| rp_next s s' : rp_reach pf tasks s -> rp_step s s' -> rp_reach pf tasks s'.

(** ** pack_features, feature_pack.cc:73-116 *)
(** :79-92 the tasks: adjacent entries of the same tile belong together *)
Definition add_records (acc : list task) (t : tile) (rs : list pack_record) : list task :=
  match acc with
  | [] => [(t, rs)]
  | _ =>
      let '(t', rs') := last acc (t, []) in
      if tile_eqb t' t then removelast acc ++ [(t', rs' ++ rs)] else acc ++ [(t, rs)]
  end.
Fixpoint read_tasks (acc : list task) (T : table) : res (list task) :=
  match T with
  | [] => Ok acc
  | (key, v) :: T' =>
      do rs <- pack_records_deserialize v;
      do _ <- verify (negb (is_nil rs));
      read_tasks (add_records acc (key_to_tile key) rs) T'
  end.
(** :99-114 the callback: a transaction that puts all updates; nothing for no updates *)
Fixpoint put_all (T : table) (us : list single) : res table :=
  match us with
  | [] => Ok T
  | (t, r) :: us' => do k <- tile_to_key t 0; put_all (table_put T k (pack_records_serialize [r])) us'
  end.
(** :95-96 the table is cleared before; so after some calls of the callback it contains: *)
Definition packed_table (out : list (list single)) : res table := put_all [] (concat out).
End Repack.
