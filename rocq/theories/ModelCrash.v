(** An import that does not finish: the process is killed, or an exception ends it.
    src/import.cc:66-113 with src/db/feature_pack.cc:73-116, include/tiles/db/repack_features.h,
    src/db/prepare_tiles.cc:136-213 and the destructor of pack_handle, include/tiles/db/pack_file.h:114-120.
    The operating system goes on: what was written to the mapped pack file, and every transaction that
    was committed, is kept (lmdb: a transaction that was not committed has no effect). *)
From Coq Require Import String Ascii.
From Coq Require Import List.
From Verif Require Import Base ModelTile ModelPackFile ModelTable ModelDict ModelPrepare ModelRepack ModelServer ModelImport.
Import ListNotations.
Open Scope N_scope.

(** ** The pack file *)
(** memcpy or memmove of [n] bytes to [off] was interrupted: the bytes there may be anything; the file may have grown,
    and is filled with '\0' there (pack_file.h:140-153) *)
Definition torn (a : bytes) (off n : N) (m : bytes) : Prop :=
  (length a <= length m)%nat /\
  forall i, N.of_nat i < off \/ off + n <= N.of_nat i -> nth i m 0 = nth i a 0.

(** repack_features.h:57-71: where insert_result writes [buf] *)
Definition insert_place (g : mgr) (buf : bytes) : N :=
  match g_tasks g with
  | [] => pf_size (g_pf g)
  | _ =>
      let end_offset := r_off (last (snd (last (g_tasks g) (Tile 0 0 0, []))) no_rec) in
      if end_offset - g_off g <? blen buf then pf_size (g_pf g) else g_off g
  end.

(** the file when the process stops while packing, repack_features.h:290-376; [killed]: without running destructors *)
Inductive mid_file (pack : tile -> list bytes -> bytes) (s : rst) (m : bytes) : forall killed : bool, Prop :=
(** between two operations *)
| mf_between : m = pf_crash (g_pf (r_mgr s)) -> mid_file pack s m true
(** while a result is inserted, :340-360 *)
| mf_insert t ps : (exists n, r_pc s = RpDeq (S n)) \/ r_pc s = RpDrain -> In (t, ps) (r_fly s) ->
    torn (pf_mem (g_pf (r_mgr s))) (insert_place (r_mgr s) (pack t ps)) (blen (pack t ps)) m -> mid_file pack s m true
(** while defragmenting, or when it throws, :352: the file may contain anything *)
| mf_defrag killed : r_pc s = RpDefrag -> mid_file pack s m killed
(** while the stash is moved, :264-274, after [st1] *)
| mf_stash st1 t r st2 pf off upd : r_pc s = RpStash -> g_stash (r_mgr s) = st1 ++ (t, r) :: st2 ->
    move_stash (g_pf (r_mgr s)) (g_off (r_mgr s)) (g_upd (r_mgr s)) st1 = Ok (pf, off, upd) ->
    torn (pf_mem pf) off (r_size r) m -> mid_file pack s m true
(** an exception, :371-375; the destructor closes the file *)
| mf_thrown : r_pc s = RpThrown -> m = pf_close (g_pf (r_mgr s)) -> mid_file pack s m false.

(** the file when the process stops while it is not written: as it is, or closed by the destructor *)
Definition left_file (killed : bool) (pf : pfile) (m : bytes) : Prop := m = if killed then pf_crash pf else pf_close pf.

(** ** The run *)
(** import.cc:66-113, stopped after loading ([killed]: without running destructors).  [pk]: packing was begun, [pr]: preparing tiles was finished, [wh]: packing, if begun,
    was finished *)
Inductive stopped_run (L : libs) (tasks : list bytes) (j : job) (st : store) (killed : bool) : forall pk pr wh : bool, store -> Prop :=
(** :98-99, or before the first transaction of packing, feature_pack.cc:73-97, or without packing before or in prepare_tiles *)
| sr_loaded s1 m : load_phase L tasks j (open_store (if loads tasks then empty_store else st)) s1 -> left_file killed (ss_file s1) m ->
    stopped_run L tasks j st killed false false true (Store (ss_meta s1) (ss_features s1) (ss_tiles s1) m)
(** feature_pack.cc:95-114: all calls of the callback in [r_out] were committed *)
| sr_packing s1 d rtasks s T m : load_phase L tasks j (open_store (if loads tasks then empty_store else st)) s1 ->
    has_any_task tasks [lit "pack"] = true ->
    load_dict (meta_get (ss_meta s1) kMetaCoding) = Ok d -> read_tasks [] (ss_features s1) = Ok rtasks ->
    rp_reach (l_possort L) (l_recsort L) (l_tasksort L) (packs_with L d) (2 ^ 30) 32 (ss_file s1) rtasks s ->
    (forall u, In u (concat (r_out s)) -> pf_get (g_pf (r_mgr s)) (snd u) <> Ok failed_pack) ->
    packed_table (r_out s) = Ok T -> mid_file (packs_with L d) s m killed ->
    stopped_run L tasks j st killed true false false (Store (ss_meta s1) T (ss_tiles s1) m)
(** prepare_tiles.cc:136-206: all batches in [p_tiles] were committed *)
| sr_preparing s1 s2 p x s m : load_phase L tasks j (open_store (if loads tasks then empty_store else st)) s1 ->
    (if has_any_task tasks [lit "pack"] then pack_phase L s1 s2 else s2 = s1) -> has_any_task tasks [lit "tiles"] = true ->
    make_prepare_manager (ss_features s2) 10 = Ok p -> make_render_ctx L (ss_meta s2) = Ok x ->
    prep_reach (prepare_tile (ss_features s2) (ss_file s2) x) p (l_threads L) (ss_tiles s2) s -> left_file killed (ss_file s2) m ->
    stopped_run L tasks j st killed (has_any_task tasks [lit "pack"]) false true (Store (ss_meta s2) (ss_features s2) (p_tiles s) m)
(** import.cc:111, or after packing, if no tiles are prepared *)
| sr_prepared s1 s2 s3 m : load_phase L tasks j (open_store (if loads tasks then empty_store else st)) s1 ->
    (if has_any_task tasks [lit "pack"] then pack_phase L s1 s2 else s2 = s1) ->
    (if has_any_task tasks [lit "tiles"] then tiles_phase L s2 s3 else s3 = s2) -> left_file killed (ss_file s3) m ->
    stopped_run L tasks j st killed (has_any_task tasks [lit "pack"]) (has_any_task tasks [lit "tiles"]) true (Store (ss_meta s3) (ss_features s3) (ss_tiles s3) m).
