(** Feature packs with a quad tree index:
    src/db/feature_pack_quadtree.cc, include/tiles/db/feature_pack.h *)
From Verif Require Import Base ModelTile ModelCodec ModelGeom ModelFeature ModelQuadTree ModelPack.
Open Scope N_scope.

(** ** Choice of the quad tree node *)
(** feature_pack_quadtree.cc:70-75: the closed boxes do not miss each other *)
Definition boxes_touch (f t : fbox) : bool :=
  negb (((bmaxx f <? bminx t) || (bmaxx t <? bminx f) || ((bmaxy f <? bminy t) || (bmaxy t <? bminy f)))%Z).

(** feature_pack_quadtree.cc:67-80: the loop over the children.  [None] is the
    early return of the previous best tile. *)
Fixpoint pick_child (fb : fbox) (cs : list tile) (next_best : option tile) : res (option (option tile)) :=
  match cs with
  | [] => Ok (Some next_best)
  | c :: cs' =>
      do s <- make_tile_spec c;
      if negb (boxes_touch fb (insert_bounds s)) then pick_child fb cs' next_best
      else match next_best with
           | Some _ => Ok None
           | None => pick_child fb cs' (Some c)
           end
  end.

(** feature_pack_quadtree.cc:61-87 find_best_tile; at most 20 iterations *)
Fixpoint best_tile_loop (fuel : nat) (fb : fbox) (best : tile) : res tile :=
  if negb (tz best <? kMaxZoomLevel) then Ok best
  else match fuel with
       | O => Fuel
       | S f =>
           do o <- pick_child fb (direct_children best) None;
           match o with
           | None => Ok best
           | Some None => Throw
           | Some (Some c) => best_tile_loop f fb c
           end
       end.
Definition find_best_tile (root : tile) (fb : fbox) : res tile :=
  best_tile_loop (N.to_nat (kMaxZoomLevel - tz root)) fb root.

(** feature_pack_quadtree.cc:95-99: the trace, most recent tile first, then the root *)
Fixpoint key_trace (fuel : nat) (root : tile) (trace : list tile) : res (list tile) :=
  match fuel, trace with
  | _, [] => UB
  | O, _ => Fuel
  | S f, b :: _ =>
      if tile_eqb (tile_parent b) root then Ok (root :: trace)
      else do _ <- verify (tz root <? tz b); key_trace f root (tile_parent b :: trace)
  end.
(** feature_pack_quadtree.cc:89-105 make_quad_key *)
Definition make_quad_key (root t : tile) : res (list N) :=
  if tile_eqb t root then Ok []
  else do tr <- key_trace (S (N.to_nat (tz t))) root [t]; Ok (map quad_pos tr).

(** ** Packing *)
(** feature_pack_quadtree.h:13-28 quadtree_feature *)
Record qfeature := QF { qf_key : list N; qf_tile : tile; qf_feat : feature }.

(** features_by_min_z.at(z).emplace_back(...) *)
Fixpoint put_at (z : nat) (q : qfeature) (ls : list (list qfeature)) : res (list (list qfeature)) :=
  match z, ls with
  | _, [] => Throw
  | O, l :: ls' => Ok ((l ++ [q]) :: ls')
  | S z', l :: ls' => do r <- put_at z' q ls'; Ok (l :: r)
  end.

(** feature_pack_quadtree.cc:19-28: one feature of an input pack *)
Definition read_input (dec : N -> res meta) (rd : mask_reader) (root : tile) (str : bytes)
    (ls : list (list qfeature)) : res (list (list qfeature)) :=
  do o <- deserialize_feature dec rd no_hints str;
  match o with
  | None => Throw
  | Some f =>
      do best <- find_best_tile root (bounding_box (f_geom f));
      let z := N.max (tz root) (f_minz f) - tz root in
      do key <- make_quad_key root best;
      put_at (N.to_nat z) (QF key best f) ls
  end.
Fixpoint read_inputs dec rd root (strs : list bytes) (ls : list (list qfeature)) : res (list (list qfeature)) :=
  match strs with
  | [] => Ok ls
  | s :: strs' => do ls' <- read_input dec rd root s ls; read_inputs dec rd root strs' ls'
  end.
(** feature_pack_quadtree.cc:17-30: all input packs; the second component is
    feature_count (the uint32_t counter is checked against its range when the
    header is written) *)
Fixpoint read_packs dec rd root (packs : list bytes) (ls : list (list qfeature)) (n : N) :
  res (list (list qfeature) * N) :=
  match packs with
  | [] => Ok (ls, n)
  | p :: packs' =>
      do (strs, _) <- unpack_features p;
      do ls' <- read_inputs dec rd root strs ls;
      read_packs dec rd root packs' ls' (n + N.of_nat (length strs))
  end.

(** utl::equal_ranges (third party) after sorting: maximal runs with equal key *)
Fixpoint runs (l : list qfeature) : list (list qfeature) :=
  match l with
  | [] => []
  | x :: l' =>
      match runs l' with
      | (y :: g) :: gs => if bytes_eqb (qf_key x) (qf_key y) then (x :: y :: g) :: gs else [x] :: (y :: g) :: gs
      | _ => [[x]]
      end
  end.

(** feature_pack_quadtree.cc:107-116 serialize_and_append_span *)
Fixpoint append_span (enc : meta -> option N) (mk : line -> bytes) (buf : bytes) (g : list qfeature) : res bytes :=
  match g with
  | [] => Ok (append_span_end buf)
  | q :: g' =>
      do s <- serialize_feature enc mk false (qf_feat q);
      do buf' <- append_feature buf s;
      append_span enc mk buf' g'
  end.

(** feature_pack_quadtree.cc:42-48: the spans of one level and their index entries *)
Fixpoint append_runs enc mk (buf : bytes) (gs : list (list qfeature)) : res (bytes * list quad_input) :=
  match gs with
  | [] => Ok (buf, [])
  | [] :: _ => UB
  | (x :: g) :: gs' =>
      do buf' <- append_span enc mk buf (x :: g);
      do (buf'', es) <- append_runs enc mk buf' gs';
      Ok (buf'', QIn (qf_tile x) (blen buf mod 2 ^ 32) 1 :: es)
  end.

(** feature_pack_quadtree.cc:35-51: all levels; the quad trees as strings.
    [srt] is std::sort by quad_key (third party, not stable): the theorems hold
    for every sorting function. *)
Fixpoint append_levels enc mk (srt : list qfeature -> list qfeature) (root : tile) (buf : bytes)
    (ls : list (list qfeature)) : res (bytes * list bytes) :=
  match ls with
  | [] => Ok (buf, [])
  | [] :: ls' =>
      do (buf', ts) <- append_levels enc mk srt root buf ls';
      Ok (buf', [] :: ts)
  | l :: ls' =>
      do (buf', es) <- append_runs enc mk buf (runs (srt l));
      do t <- make_quad_tree root es;
      do (buf'', ts) <- append_levels enc mk srt root buf' ls';
      Ok (buf'', t :: ts)
  end.

(** feature_pack_quadtree.cc:56-59 with feature_pack.h:119-124 append: the trees
    and their offsets *)
Fixpoint append_trees (buf : bytes) (ts : list bytes) : bytes * list N :=
  match ts with
  | [] => (buf, [])
  | t :: ts' =>
      match t with
      | [] => let (buf', os) := append_trees buf ts' in (buf', 0 :: os)
      | _ => let (buf', os) := append_trees (buf ++ t) ts' in (buf', (blen buf mod 2 ^ 32) :: os)
      end
  end.

(** feature_pack.h:110-117 append_packed *)
Definition append_packed (buf : bytes) (os : list N) : bytes * N :=
  (buf ++ flat_map varint_enc os, blen buf mod 2 ^ 32).

(** feature_pack.h:85-87 update_segment_offset of the only registered segment,
    whose offset is at position 6 (feature_pack.h:77-81) *)
Definition set_segment_offset (buf : bytes) (o : N) : bytes :=
  firstn 6 buf ++ le_bytes 4 o ++ skipn 10 buf.

(** feature_pack_quadtree.h:31-36 (one segment with id 0), feature_pack_quadtree.cc:13-60
    and feature_pack.cc:56-63.  A root below level 21 makes the size of the level
    vector wrap around: the allocation fails. *)
Definition kQuadTreeFeatureIndexId : N := 0.
Definition pack_features_quad enc dec (mk : line -> bytes) (rd : mask_reader)
    (srt : list qfeature -> list qfeature) (root : tile) (packs : list bytes) : res bytes :=
  do _ <- verify (tz root <=? 21);
  do (ls, n) <- read_packs dec rd root packs (repeat [] (N.to_nat (21 - tz root))) 0;
  do h <- pack_header [kQuadTreeFeatureIndexId] n;
  do (buf, ts) <- append_levels enc mk srt root h ls;
  let (buf, os) := append_trees buf ts in
  let (buf, o) := append_packed buf os in
  Ok (pack_finish (set_segment_offset buf o)).

(** ** Reading with the index *)
(** feature_pack.h:127-138 find_segment_offset: the last matching entry; a table
    that leaves the buffer is UB *)
Fixpoint find_segment (bs : bytes) (id : N) (n : nat) (i : N) (acc : option N) : res (option N) :=
  match n with
  | O => Ok acc
  | S n' =>
      let base := (1 + i) * 5 in
      if base + 5 <=? blen bs then
        find_segment bs id n' (i + 1)
          (if nth (N.to_nat base) bs 0 =? id then Some (le_val (slice bs (base + 1) 4)) else acc)
      else UB
  end.
Definition find_segment_offset (bs : bytes) (id : N) : res (option N) :=
  find_segment bs id (N.to_nat (nth 4 bs 0)) 0 None.

(** feature_pack.h:183-187: one null terminated run of features *)
Fixpoint read_run (fuel : nat) (r : bytes) : res (list bytes * bytes) :=
  match fuel with
  | O => Fuel
  | S f =>
      do (size, r1) <- varint_dec r;
      if size =? 0 then Ok ([], r1)
      else do (x, r2) <- take_feature size r1;
           do (xs, r3) <- read_run f r2;
           Ok (x :: xs, r3)
  end.
(** feature_pack.h:181-188: [count] runs *)
Fixpoint read_runs (count : nat) (r : bytes) : res (list bytes) :=
  match count with
  | O => Ok []
  | S c =>
      do (xs, r') <- read_run (S (length r)) r;
      do ys <- read_runs c r';
      Ok (xs ++ ys)
  end.
(** feature_pack.h:178-189: the callback of the walk *)
Definition read_span (bs : bytes) (s : N * N) : res (list bytes) :=
  if fst s <=? blen bs then read_runs (N.to_nat (snd s)) (skipn (N.to_nat (fst s)) bs) else UB.

(** feature_pack.h:169-190: [n] levels of the index array starting at [idx] *)
Fixpoint unpack_levels (root : tile) (bs : bytes) (q : tile) (n : nat) (idx : bytes) : res (list bytes) :=
  match n with
  | O => Ok []
  | S n' =>
      do (o, idx') <- varint_dec idx;
      do xs <- (if o =? 0 then Ok []
                else if o <=? blen bs then
                  do spans <- walk_quad_tree (skipn (N.to_nat o) bs) root q;
                  do ls <- map_res (read_span bs) spans;
                  Ok (concat ls)
                else UB);
      do ys <- unpack_levels root bs q n' idx';
      Ok (xs ++ ys)
  end.

(** feature_pack.h:160-191 unpack_features(root, string, tile, fn): the strings
    handed to fn *)
Definition unpack_features_for (root : tile) (bs : bytes) (q : tile) : res (list bytes) :=
  do _ <- verify (5 <=? blen bs);
  do o <- find_segment_offset bs kQuadTreeFeatureIndexId;
  match o with
  | None => do (fs, _) <- unpack_features bs; Ok fs
  | Some idx =>
      do _ <- verify (idx <=? blen bs);
      unpack_levels root bs q (N.to_nat (N.max (tz root) (tz q) - tz root + 1)) (skipn (N.to_nat idx) bs)
  end.
