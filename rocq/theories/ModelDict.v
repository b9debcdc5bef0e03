(** Layer names and the shared metadata dictionary: include/tiles/db/layer_names.h
    and include/tiles/db/shared_metadata.h. *)
From Coq Require Import Permutation.
From Verif Require Import Base ModelTile ModelCodec ModelGeom ModelFeature.
Open Scope N_scope.

(** std::string operator<: bytes as unsigned characters, a proper prefix is smaller *)
Fixpoint bytes_ltb (a b : bytes) : bool :=
  match a, b with
  | _, [] => false
  | [], _ :: _ => true
  | x :: a', y :: b' => if x <? y then true else if y <? x then false else bytes_ltb a' b'
  end.

(** feature/metadata.h:56-69: operator==, operator< (std::tie) *)
Definition meta_eqb (a b : meta) : bool := bytes_eqb (fst a) (fst b) && bytes_eqb (snd a) (snd b).
Definition meta_ltb (a b : meta) : bool :=
  bytes_ltb (fst a) (fst b) || (negb (bytes_ltb (fst b) (fst a)) && bytes_ltb (snd a) (snd b)).

(** ** Layer names *)

(** layer_names.h:18: kLayerCoastlineName = "coastline" *)
Definition coastline : bytes := [99; 111; 97; 115; 116; 108; 105; 110; 101].

(** layer_names.h:20-28 write_layer_names *)
Definition write_layer_names (v : list bytes) : bytes := flat_map (field_bytes 1) v.

(** layer_names.h:30-37 read_layer_names.  Fuel: every field takes at least one byte. *)
Fixpoint read_strings (fuel : nat) (bs : bytes) : res (list bytes) :=
  match fuel with
  | O => Fuel
  | S f =>
      do o <- next_field bs;
      match o with
      | None => Ok []
      | Some (_, wt, r) =>
          do (s, r') <- get_len wt r;
          do l <- read_strings f r';
          Ok (s :: l)
      end
  end.
Definition read_layer_names (bs : bytes) : res (list bytes) := read_strings (S (length bs)) bs.

(** layer_names.h:39-63 layer_names_builder: the std::map as an association list
    (its iteration order is irrelevant) *)
Definition names_map := list (bytes * N).
Fixpoint nm_find (m : names_map) (name : bytes) : option N :=
  match m with
  | [] => None
  | (n, i) :: m' => if bytes_eqb n name then Some i else nm_find m' name
  end.
(** layer_names.h:40-42 *)
Definition nm_init : names_map := [(coastline, 0)].
(** layer_names.h:44-47 get_layer_idx, utl::get_or_create_index (third party): the
    new index is the map's size.  The whole call runs under the mutex, so any
    interleaving of threads is a sequence of calls. *)
Definition get_layer_idx (m : names_map) (name : bytes) : N * names_map :=
  match nm_find m name with
  | Some i => (i, m)
  | None => (N.of_nat (length m), m ++ [(name, N.of_nat (length m))])
  end.
Fixpoint get_layer_idxs (m : names_map) (names : list bytes) : list N * names_map :=
  match names with
  | [] => ([], m)
  | n :: ns =>
      let '(i, m1) := get_layer_idx m n in
      let '(is, m2) := get_layer_idxs m1 ns in
      (i :: is, m2)
  end.
(** layer_names.h:49-60 store: the value put under kMetaKeyLayerNames *)
Definition put_at {A} (i : nat) (x : A) (v : list A) : list A := firstn i v ++ x :: skipn (S i) v.
Fixpoint fill_names (m : names_map) (v : list bytes) : res (list bytes) :=
  match m with
  | [] => Ok v
  | (n, i) :: m' =>
      do _ <- verify (i <? N.of_nat (length v));
      fill_names m' (put_at (N.to_nat i) n v)
  end.
Definition store_layer_names (m : names_map) : res bytes :=
  do v <- fill_names m (repeat [] (length m));
  Ok (write_layer_names v).
(** layer_names.h:66-75 get_layer_names; the argument is the stored value *)
Definition get_layer_names (o : option bytes) : res (list bytes) :=
  match o with None => Ok [coastline] | Some b => read_layer_names b end.

(** ** Shared metadata: counting *)

Definition counts := list (meta * N).

(** shared_metadata.h:54-57: utl::equal_ranges_linear over the sorted buffer *)
Fixpoint count_runs (l : list meta) : counts :=
  match l with
  | [] => []
  | m :: l' =>
      match count_runs l' with
      | (m', n) :: r => if meta_eqb m m' then (m, n + 1) :: r else (m, 1) :: (m', n) :: r
      | [] => [(m, 1)]
      end
  end.

(** shared_metadata.h:60-65: std::concat + std::inplace_merge (stable) by key *)
Fixpoint merge_counts (a : counts) : counts -> counts :=
  fix go (b : counts) : counts :=
    match a, b with
    | [], _ => b
    | _, [] => a
    | x :: a', y :: b' =>
        if meta_ltb (fst y) (fst x) then y :: go b' else x :: merge_counts a' b
    end.

(** shared_metadata.h:67-78: ranges of equal pairs have at most two elements (or
    verify throws); the second one's count is added to the first and zeroed *)
Fixpoint run_of (m : meta) (l : counts) : counts * counts :=
  match l with
  | [] => ([], [])
  | x :: l' => if meta_eqb m (fst x) then let '(a, b) := run_of m l' in (x :: a, b) else ([], l)
  end.
Fixpoint join_equal (fuel : nat) (l : counts) : res counts :=
  match fuel with
  | O => Fuel
  | S f =>
      match l with
      | [] => Ok []
      | (m, n) :: l' =>
          let '(run, rest) := run_of m l' in
          do r <- join_equal f rest;
          match run with
          | [] => Ok ((m, n) :: r)
          | [(m', n')] => Ok ((m, (n + n') mod 2 ^ 64) :: (m', 0) :: r)
          | _ => Throw
          end
      end
  end.

(** shared_metadata.h:51-82 flush, from the dequeued buffer on.  [srt] is std::sort. *)
Definition flush_buf (srt : list meta -> list meta) (c : counts) (buf : list meta) : res counts :=
  let bc := count_runs (srt buf) in
  let c' := merge_counts c bc in
  do j <- join_equal (S (length c')) c';
  Ok (filter (fun p => negb (snd p =? 0)) j).

(** shared_metadata.h:30-83 with any number of threads in update(): [s_queue] is
    the concurrent queue, [s_bufs] the buffers threads have dequeued but not yet
    merged, [s_counts] the merged counts.  update enqueues; flush takes any part
    of the queue (the queue promises no order between producers) and later merges
    it under the mutex.  Whether flush runs (should_flush) is left open: the steps
    include every choice. *)
Record smb := Smb { s_queue : list meta; s_bufs : list (list meta); s_counts : counts }.
Inductive smb_step (srt : list meta -> list meta) : list meta -> smb -> smb -> Prop :=
| step_update data q bs c : smb_step srt data (Smb q bs c) (Smb (q ++ data) bs c)
| step_dequeue buf q q' bs c : Permutation q (buf ++ q') ->
    smb_step srt [] (Smb q bs c) (Smb q' (buf :: bs) c)
| step_merge bs1 buf bs2 q c c' : flush_buf srt c buf = Ok c' ->
    smb_step srt [] (Smb q (bs1 ++ buf :: bs2) c) (Smb q (bs1 ++ bs2) c').
(** a run from the constructed builder, with everything passed to update so far *)
Inductive smb_run (srt : list meta -> list meta) : list meta -> smb -> Prop :=
| run_init : smb_run srt [] (Smb [] [] [])
| run_step seen s data s' : smb_run srt seen s -> smb_step srt data s s' -> smb_run srt (seen ++ data) s'.

(** shared_metadata.h:86-87: while (flush(true)).  [take] is dequeue_bulk on the
    no longer shared queue. *)
Fixpoint flush_all (srt : list meta -> list meta) (take : list meta -> list meta * list meta)
    (fuel : nat) (q : list meta) (c : counts) : res counts :=
  match fuel with
  | O => Fuel
  | S f =>
      let '(buf, q') := take q in
      match buf with
      | [] => Ok c
      | _ => do c' <- flush_buf srt c buf; flush_all srt take f q' c'
      end
  end.

(** shared_metadata.h:96-101 the stored value *)
Definition write_dict (d : list meta) : bytes :=
  flat_map (fun m => field_bytes 1 (fst m) ++ field_bytes 1 (snd m)) d.

(** shared_metadata.h:85-105 store; [dsrt] sorts by descending count (std::sort) *)
Definition store_dict (srt : list meta -> list meta) (dsrt : counts -> counts)
    (take : list meta -> list meta * list meta) (s : smb) : res bytes :=
  do c <- flush_all srt take (S (length (s_queue s))) (s_queue s) (s_counts s);
  Ok (write_dict (map fst (dsrt (filter (fun p => negb (snd p =? 1)) c)))).

(** ** Shared metadata: coding *)

(** shared_metadata.h:157-175 load_shared_metadata *)
Fixpoint load_dict_f (fuel : nat) (bs : bytes) : res (list meta) :=
  match fuel with
  | O => Fuel
  | S f =>
      do o <- next_field bs;
      match o with
      | None => Ok []
      | Some (_, wt, r) =>
          do (k, r1) <- get_len wt r;
          do o2 <- next_field r1;
          match o2 with
          | None => Throw
          | Some (_, wt2, r2) =>
              do (v, r3) <- get_len wt2 r2;
              do l <- load_dict_f f r3;
              Ok ((k, v) :: l)
          end
      end
  end.
Definition load_dict (o : option bytes) : res (list meta) :=
  match o with None => Ok [] | Some b => load_dict_f (S (length b)) b end.

(** shared_metadata.h:121 decode: std::vector::at *)
Definition dict_decode (d : list meta) (i : N) : res meta :=
  match nth_error d (N.to_nat i) with Some m => Ok m | None => Throw end.

(** shared_metadata.h:129-137: the pairs (entry, position); [psrt] is std::sort on them *)
Fixpoint number_from (i : N) (d : list meta) : counts :=
  match d with [] => [] | m :: d' => (m, i) :: number_from (i + 1) d' end.
Definition coder_make (psrt : counts -> counts) (d : list meta) : counts := psrt (number_from 0 d).

(** std::lower_bound (library): first position whose element is not less *)
Fixpoint lower_bound (fuel : nat) (first len : nat) (e : counts) (q : meta) : nat :=
  match fuel with
  | O => first
  | S f =>
      if (len =? 0)%nat then first else
      let half := Nat.div2 len in
      let mid := (first + half)%nat in
      match nth_error e mid with
      | Some p => if meta_ltb (fst p) q then lower_bound f (S mid) (len - half - 1) e q
                  else lower_bound f first half e q
      | None => first
      end
  end.

(** shared_metadata.h:139-147 encode *)
Definition dict_encode (e : counts) (q : meta) : option N :=
  match nth_error e (lower_bound (S (length e)) 0 (length e) e q) with
  | None => None
  | Some p => if meta_eqb (fst p) q then Some (snd p) else None
  end.
