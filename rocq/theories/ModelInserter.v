(** The feature inserter: include/tiles/db/feature_inserter_mt.h.

    Threads that share an inserter, as a transition system.  Atomic steps are: an operation
    on the atomic [cache_size_], taking a mutex, the body of a critical section of a
    bucket's mutex, reading a bucket's [mem_size_] in flush (not synchronised in the
    code: a data race; the model reads some current value), one step of the LMDB
    transaction. *)
From Verif Require Import Base ModelTile ModelPackFile ModelGeom ModelFeature ModelPack ModelTable ModelRender ModelPrepare.
Open Scope N_scope.

(** feature_inserter_mt.h:23-29 *)
Record bucket := Bucket { b_tile : tile; b_size : N; b_mem : list bytes }.

Section Inserter.
(** kTileDefaultIndexZoomLvl: 10 *)
Variable z : N.
(** kCacheThresholdUpper, kCacheThresholdLower: 2^30 and three quarters of it *)
Variables upper lower : N.
(** std::sort of (size, bucket pointer) pairs, :100 *)
Variable srt : list (N * nat) -> list (N * nat).
(** serialize_feature with the default arguments, :62 (serialize.h:17-18: no metadata coder, fast) *)
Definition ser (f : feature) : res bytes := serialize_feature (fun _ => None) (fun _ => []) true f.

(** :39-45 one bucket per tile of the index zoom level, in the order of geo::tile_iterator *)
Definition init_buckets : list bucket :=
  map (fun t => Bucket t 0 []) (range_tiles (TBounds 0 0 (2 ^ z) (2 ^ z)) z).

(** std::lower_bound (library) with the comparison :158-160 *)
Definition tile_before (a b : tile) : bool := (ty a <? ty b) || ((ty a =? ty b) && (tx a <? tx b)).
Fixpoint bucket_bound (fuel first len : nat) (bs : list bucket) (t : tile) : nat :=
  match fuel with
  | O => first
  | S f =>
      if (len =? 0)%nat then first else
      let half := Nat.div2 len in
      let mid := (first + half)%nat in
      match nth_error bs mid with
      | Some b => if tile_before (b_tile b) t then bucket_bound f (S mid) (len - half - 1) bs t
                  else bucket_bound f first half bs t
      | None => first
      end
  end.
(** :155-165 get_bucket: the position of the bucket *)
Definition get_bucket (bs : list bucket) (t : tile) : res nat :=
  let i := bucket_bound (S (length bs)) 0 (length bs) bs t in
  match nth_error bs i with
  | Some b => do _ <- verify (tile_eqb t (b_tile b)); Ok i
  | None => Throw
  end.

(** :57-65 insert(feature): the calls of insert(tile, value), in order *)
Definition insert_jobs (f : feature) : res (list (tile * bytes)) :=
  let '(x1, y1, x2, y2) := make_tile_range (bounding_box (f_geom f)) z in
  let range := range_tiles (TBounds x1 y1 (x2 + 1) (y2 + 1)) z in
  do _ <- verify (match range with [] => false | _ => true end);
  do value <- ser f;
  Ok (map (fun t => (t, value)) range).

(** A call: insert(feature), :57-68, or insert(tile, value), :70-77, followed by flush(), as in
    src/osm/load_coastlines.cc:317-318 *)
Inductive icall : Type := CFeature (f : feature) | CValue (t : tile) (v : bytes).
Definition call_jobs (c : icall) : res (list (tile * bytes)) :=
  match c with CFeature f => insert_jobs f | CValue t v => Ok [(t, v)] end.

(** :72-76 insert(tile, value), in the critical section *)
Definition bucket_add (b : bucket) (value : bytes) : bucket :=
  Bucket (b_tile b) (b_size b + blen value) (b_mem b ++ [value]).
(** :124-129 the bucket after its features were taken *)
Definition bucket_take (b : bucket) : bucket := Bucket (b_tile b) 0 [].

(** :137-146 storing one element of the queue: pack, append to the pack file, update the
    entry in the transaction *)
Definition flush_put (tbl : table) (s : pfile) (t : tile) (features : list bytes) : res (table * pfile) :=
  do key <- tile_to_key t 0;
  do p <- pack_features features;
  let '(s', r) := pf_append s p in
  match table_get tbl key with
  | Some el => do v <- pack_records_update el r; Ok (table_put tbl key v, s')
  | None => Ok (table_put tbl key (pack_records_serialize [r]), s')
  end.

(** Where a thread is.  [d] tells whether flush was called by the destructor (:49).  A
    queue element (:86) is represented by the bucket's tile and the features. *)
Inductive ipc : Type :=
| IIdle
| ICount (js : list (tile * bytes))                       (** :64 loop: next insert(tile, value), :71 *)
| IPut (j : tile * bytes) (js : list (tile * bytes))      (** :72 counted, not yet in a bucket *)
| FCheck1 (d : bool)                                      (** :88 *)
| FLock (d : bool)                                        (** :91 *)
| FCheck2 (d : bool)                                      (** :92 *)
| FScan (d : bool) (acc : list (N * nat)) (rest : list nat)                (** :98-102 *)
| FLoop (d : bool) (l : list (N * nat)) (q : list (tile * list bytes))     (** :108-111 *)
| FTake (d : bool) (i : nat) (l : list (N * nat)) (q : list (tile * list bytes))  (** :113 *)
| FBegin (d : bool) (q : list (tile * list bytes))                         (** :133 *)
| FPut (d : bool) (dn rest : list (tile * list bytes)) (tbl : table)       (** :136 *)
| IFailed (lost : list (tile * list bytes))               (** an exception left insert or flush *)
| IDone.                                                  (** the destructor has returned *)

(** a thread, and the number of bytes its current call added to [cache_size_] until phase 1 of
    its flush was over (a bookkeeping value for specifications) *)
Record ithread := ITh { th_pc : ipc; th_counted : N }.

Record ist := Ist {
  i_cache : N;                 (** cache_size_; sizes of data in memory, does not wrap *)
  i_buckets : list bucket;     (** cache_ *)
  i_flock : bool;              (** flush_mutex_ *)
  i_wlock : bool;              (** LMDB's writer lock *)
  i_table : table;             (** the features table, committed *)
  i_file : pfile;
  i_threads : list ithread;
  i_calls : list icall;        (** all calls so far *)
  i_final : bool }.            (** the destructor was called *)

Definition ist_init (tbl : table) (s : pfile) (n : nat) : ist :=
  Ist 0 init_buckets false false tbl s (repeat (ITh IIdle 0) n) [] false.

Definition up (d : bool) : N := if d then 0 else upper.
Definition low (d : bool) : N := if d then 0 else lower.
(** the end of flush *)
Definition flushed (d : bool) : ipc := if d then IDone else IIdle.

(** the end of the scan, :104-108 *)
Definition after_scan (d : bool) (acc : list (N * nat)) : ipc :=
  match acc with [] => flushed d | _ => FLoop d (srt acc) [] end.
Definition scan_keeps (acc : list (N * nat)) : bool := match acc with [] => false | _ => true end.

Definition quiet (t : ithread) : Prop := match th_pc t with IIdle | IFailed _ => True | _ => False end.

Inductive istep : ist -> ist -> Prop :=
(** a call, :57-62 *)
| s_call c bs fl wl T s t1 t2 m cs f js : call_jobs f = Ok js ->
    istep (Ist c bs fl wl T s (t1 ++ ITh IIdle m :: t2) cs false)
          (Ist c bs fl wl T s (t1 ++ ITh (ICount js) 0 :: t2) (cs ++ [f]) false)
| s_call_fail c bs fl wl T s t1 t2 m cs f : call_jobs f = Throw ->
    istep (Ist c bs fl wl T s (t1 ++ ITh IIdle m :: t2) cs false)
          (Ist c bs fl wl T s (t1 ++ ITh (IFailed []) 0 :: t2) (cs ++ [f]) false)
(** :71 cache_size_ += value.size() *)
| s_count c bs fl wl T s t1 t2 m cs fin j js :
    istep (Ist c bs fl wl T s (t1 ++ ITh (ICount (j :: js)) m :: t2) cs fin)
          (Ist (c + blen (snd j)) bs fl wl T s (t1 ++ ITh (IPut j js) (m + blen (snd j)) :: t2) cs fin)
(** :72-76 *)
| s_put c b1 b b2 fl wl T s t1 t2 m cs fin j js : get_bucket (b1 ++ b :: b2) (fst j) = Ok (length b1) ->
    istep (Ist c (b1 ++ b :: b2) fl wl T s (t1 ++ ITh (IPut j js) m :: t2) cs fin)
          (Ist c (b1 ++ bucket_add b (snd j) :: b2) fl wl T s (t1 ++ ITh (ICount js) m :: t2) cs fin)
| s_put_fail c bs fl wl T s t1 t2 m cs fin j js : get_bucket bs (fst j) = Throw ->
    istep (Ist c bs fl wl T s (t1 ++ ITh (IPut j js) m :: t2) cs fin)
          (Ist c bs fl wl T s (t1 ++ ITh (IFailed (map (fun e => (fst e, [snd e])) (j :: js))) m :: t2) cs fin)
(** :67 *)
| s_flush c bs fl wl T s t1 t2 m cs fin :
    istep (Ist c bs fl wl T s (t1 ++ ITh (ICount []) m :: t2) cs fin)
          (Ist c bs fl wl T s (t1 ++ ITh (FCheck1 false) m :: t2) cs fin)
(** :88-90 *)
| s_check1_low c bs fl wl T s t1 t2 m cs fin d : c <= up d ->
    istep (Ist c bs fl wl T s (t1 ++ ITh (FCheck1 d) m :: t2) cs fin)
          (Ist c bs fl wl T s (t1 ++ ITh (flushed d) 0 :: t2) cs fin)
| s_check1_high c bs fl wl T s t1 t2 m cs fin d : up d < c ->
    istep (Ist c bs fl wl T s (t1 ++ ITh (FCheck1 d) m :: t2) cs fin)
          (Ist c bs fl wl T s (t1 ++ ITh (FLock d) m :: t2) cs fin)
(** :91 *)
| s_lock c bs wl T s t1 t2 m cs fin d :
    istep (Ist c bs false wl T s (t1 ++ ITh (FLock d) m :: t2) cs fin)
          (Ist c bs true wl T s (t1 ++ ITh (FCheck2 d) m :: t2) cs fin)
(** :92-94 *)
| s_check2_low c bs fl wl T s t1 t2 m cs fin d : c <= up d ->
    istep (Ist c bs fl wl T s (t1 ++ ITh (FCheck2 d) m :: t2) cs fin)
          (Ist c bs false wl T s (t1 ++ ITh (flushed d) 0 :: t2) cs fin)
| s_check2_high c bs fl wl T s t1 t2 m cs fin d : up d < c ->
    istep (Ist c bs fl wl T s (t1 ++ ITh (FCheck2 d) m :: t2) cs fin)
          (Ist c bs fl wl T s (t1 ++ ITh (FScan d [] (seq 0 (length bs))) m :: t2) cs fin)
(** :98-102 *)
| s_scan c bs fl wl T s t1 t2 m cs fin d acc i rest b : nth_error bs i = Some b ->
    istep (Ist c bs fl wl T s (t1 ++ ITh (FScan d acc (i :: rest)) m :: t2) cs fin)
          (Ist c bs fl wl T s (t1 ++ ITh (FScan d (if 0 <? b_size b then acc ++ [(b_size b, i)] else acc) rest) m :: t2) cs fin)
(** :103-106; if no bucket was found the mutex is released *)
| s_scan_end c bs fl wl T s t1 t2 m cs fin d acc :
    istep (Ist c bs fl wl T s (t1 ++ ITh (FScan d acc []) m :: t2) cs fin)
          (Ist c bs (scan_keeps acc) wl T s (t1 ++ ITh (after_scan d acc) (if scan_keeps acc then m else 0) :: t2) cs fin)
(** :109-111 *)
| s_enough c bs fl wl T s t1 t2 m cs fin d e l q : c < low d ->
    istep (Ist c bs fl wl T s (t1 ++ ITh (FLoop d (e :: l) q) m :: t2) cs fin)
          (Ist c bs false wl T s (t1 ++ ITh (FBegin d q) 0 :: t2) cs fin)
| s_more c bs fl wl T s t1 t2 m cs fin d e l q : low d <= c ->
    istep (Ist c bs fl wl T s (t1 ++ ITh (FLoop d (e :: l) q) m :: t2) cs fin)
          (Ist c bs fl wl T s (t1 ++ ITh (FTake d (snd e) l q) m :: t2) cs fin)
| s_all c bs fl wl T s t1 t2 m cs fin d q :
    istep (Ist c bs fl wl T s (t1 ++ ITh (FLoop d [] q) m :: t2) cs fin)
          (Ist c bs false wl T s (t1 ++ ITh (FBegin d q) 0 :: t2) cs fin)
(** :113-130, in the critical section *)
| s_take c b1 b b2 fl wl T s t1 t2 m cs fin d l q :
    istep (Ist c (b1 ++ b :: b2) fl wl T s (t1 ++ ITh (FTake d (length b1) l q) m :: t2) cs fin)
          (Ist (c - b_size b) (b1 ++ bucket_take b :: b2) fl wl T s
               (t1 ++ ITh (FLoop d l (q ++ [(b_tile b, b_mem b)])) m :: t2) cs fin)
(** :133 begin_txn: waits for the writer lock; the transaction sees the committed table *)
| s_begin c bs fl T s t1 t2 m cs fin d q :
    istep (Ist c bs fl false T s (t1 ++ ITh (FBegin d q) m :: t2) cs fin)
          (Ist c bs fl true T s (t1 ++ ITh (FPut d [] q T) m :: t2) cs fin)
(** :136-147 *)
| s_write c bs fl wl T s t1 t2 m cs fin d dn e rest W W' s' : flush_put W s (fst e) (snd e) = Ok (W', s') ->
    istep (Ist c bs fl wl T s (t1 ++ ITh (FPut d dn (e :: rest) W) m :: t2) cs fin)
          (Ist c bs fl wl T s' (t1 ++ ITh (FPut d (dn ++ [e]) rest W') m :: t2) cs fin)
(** the exception leaves flush; the transaction is aborted *)
| s_write_fail c bs fl wl T s t1 t2 m cs fin d dn e rest W : flush_put W s (fst e) (snd e) = Throw ->
    istep (Ist c bs fl wl T s (t1 ++ ITh (FPut d dn (e :: rest) W) m :: t2) cs fin)
          (Ist c bs fl false T s (t1 ++ ITh (IFailed (dn ++ e :: rest)) m :: t2) cs fin)
(** :148 *)
| s_commit c bs fl wl T s t1 t2 m cs fin d dn W :
    istep (Ist c bs fl wl T s (t1 ++ ITh (FPut d dn [] W) m :: t2) cs fin)
          (Ist c bs fl false W s (t1 ++ ITh (flushed d) 0 :: t2) cs fin)
(** :49 the destructor; no call is running and none follows *)
| s_destroy c bs fl wl T s ts cs : Forall quiet ts ->
    istep (Ist c bs fl wl T s ts cs false)
          (Ist c bs fl wl T s (ts ++ [ITh (FCheck1 true) 0]) cs true).

Inductive ireach (tbl : table) (s0 : pfile) (n : nat) : ist -> Prop :=
| ir_init : ireach tbl s0 n (ist_init tbl s0 n)
| ir_step s s' : ireach tbl s0 n s -> istep s s' -> ireach tbl s0 n s'.
End Inserter.
