(** Features and their serialization: include/tiles/feature/{feature,serialize,deserialize}.h *)
From Verif Require Import Base ModelTile ModelCodec ModelGeom.
Open Scope N_scope.

(** include/tiles/feature/metadata.h:53-71 *)
Definition meta := (bytes * bytes)%type.

(** include/tiles/feature/feature.h:21-27 *)
Record feature := Feature {
  f_id : N; f_layer : N; f_minz : N; f_maxz : N; f_meta : list meta; f_geom : geom }.

(** feature.h:17-19: kInvalidZoomLevel = 63, kInvalidBoxHint = max int64 *)
Definition kInvalidZoomLevel : N := 63.
Definition kInvalidLayer : N := 2 ^ 64 - 1.

(** feature.h:31-46 *)
Definition F_HEADER : N := 1.
Definition F_ID : N := 2.
Definition F_META_PAIRS : N := 3.
Definition F_KEYS : N := 4.
Definition F_VALUES : N := 5.
Definition F_MASKS : N := 6.
Definition F_GEOMETRY : N := 7.

(** serialize.h:24-37: zoom levels, delta coded box (x: min, max; y: min, max),
    layer (cast to int64_t) *)
Definition feature_header (f : feature) : res (list Z) :=
  let b := bounding_box (f_geom f) in
  do x1 <- sub64 (bminx b) kMagicOffset;
  do x2 <- sub64 (bmaxx b) (bminx b);
  do y1 <- sub64 (bminy b) kMagicOffset;
  do y2 <- sub64 (bmaxy b) (bminy b);
  Ok [Z.of_N (f_minz f); Z.of_N (f_maxz f); x1; x2; y1; y2; to_i64 (f_layer f)].

(** serialize.h:45-56: ids of the metadata known to the coder, and the rest *)
Fixpoint split_meta (enc : meta -> option N) (ms : list meta) : list N * list meta :=
  match ms with
  | [] => ([], [])
  | m :: ms' =>
      let '(ids, rest) := split_meta enc ms' in
      match enc m with Some i => (i :: ids, rest) | None => (ids, m :: rest) end
  end.

(** serialize.h:44-73 *)
Definition meta_fields (enc : meta -> option N) (fast : bool) (ms : list meta) : bytes :=
  let '(ids, rest) := if fast then ([], ms) else split_meta enc ms in
  field_packed_u64 F_META_PAIRS ids
  ++ flat_map (fun m => field_bytes F_KEYS (fst m)) rest
  ++ flat_map (fun m => field_bytes F_VALUES (snd m)) rest.

(** include/tiles/fixed/algo/make_simplify_mask.h: one mask per line or ring
    ([mk] is the third party geo::make_simplify_mask + serialize_simplify_mask),
    none for points. *)
Definition make_masks (mk : line -> bytes) (g : geom) : list bytes :=
  match g with
  | GNull | GPoint _ => []
  | GLine ls => map mk ls
  | GPoly ps => flat_map (fun p => mk (fst p) :: map mk (snd p)) ps
  end.

(** serialize.h:16-86 serialize_feature *)
Definition serialize_feature (enc : meta -> option N) (mk : line -> bytes) (fast : bool) (f : feature) : res bytes :=
  do h <- feature_header f;
  do g <- serialize_geom (f_geom f);
  Ok (field_packed_sint64 F_HEADER h
      ++ field_varint F_ID (f_id f)
      ++ meta_fields enc fast (f_meta f)
      ++ (if fast then [] else flat_map (field_bytes F_MASKS) (make_masks mk (f_geom f)))
      ++ field_bytes F_GEOMETRY g).

(** ** Deserialization (deserialize.h:15-128) *)
Record fstate := FState {
  s_id : N; s_minz : N; s_maxz : N; s_layer : N;
  s_fill : nat; s_meta : list meta; s_masks : list bytes; s_geom : geom }.

(** deserialize.h:22-33 *)
Definition fstate0 : fstate := FState 0 kInvalidZoomLevel kInvalidZoomLevel kInvalidLayer 0 [] [] GNull.

(** [hint] : deserialize.h:18-20; None fields are the kInvalid* defaults *)
Record hints := Hints { h_box : fbox; h_zoom : N }.
Definition no_hints : hints := Hints (FBox max64 max64 max64 max64) kInvalidZoomLevel.

(** deserialize.h:41-44 next() *)
Definition hdr_next (r : bytes) : res (Z * bytes) :=
  do _ <- verify (negb (match r with [] => true | _ => false end));
  next_sint r.

(** deserialize.h:39-79 header case; [Ok None] = feature filtered out *)
Definition read_header (h : hints) (r : bytes) : res (option (N * N * N)) :=
  let zh := h_zoom h in
  let b := h_box h in
  do (v, r) <- hdr_next r;
  let minz := to_u32 v in
  if negb (zh =? kInvalidZoomLevel) && (zh <? minz) then Ok None else
  do (v, r) <- hdr_next r;
  let maxz := to_u32 v in
  if negb (zh =? kInvalidZoomLevel) && (maxz <? zh) then Ok None else
  do (dx1, r) <- hdr_next r;
  do min_x <- add64 kMagicOffset dx1;
  do (dx2, r) <- hdr_next r;
  do max_x <- add64 min_x dx2;
  if (negb (bminx b =? max64) && negb (bmaxx b =? max64) && ((max_x <? bminx b) || (bmaxx b <? min_x)))%Z
  then Ok None else
  do (dy1, r) <- hdr_next r;
  do min_y <- add64 kMagicOffset dy1;
  do (dy2, r) <- hdr_next r;
  do max_y <- add64 min_y dy2;
  if (negb (bminy b =? max64) && negb (bmaxy b =? max64) && ((max_y <? bminy b) || (bmaxy b <? min_y)))%Z
  then Ok None else
  do (l, r) <- hdr_next r;
  do _ <- verify (match r with [] => true | _ => false end);
  Ok (Some (minz, maxz, to_u64 l)).

(** packed uint64 ids of deserialize.h:86-88, read until the range is empty
    (fuel: at least one byte per element) *)
Fixpoint read_ids (dec : N -> res meta) (fuel : nat) (r : bytes) : res (list meta) :=
  match r with
  | [] => Ok []
  | _ =>
      match fuel with
      | O => Fuel
      | S f =>
          do (v, r') <- varint_dec r;
          do m <- dec v;
          do ms <- read_ids dec f r';
          Ok (m :: ms)
      end
  end.

Fixpoint set_value (i : nat) (v : bytes) (ms : list meta) : list meta :=
  match ms, i with
  | [], _ => []
  | (k, _) :: ms', O => (k, v) :: ms'
  | m :: ms', S i' => m :: set_value i' v ms'
  end.

(** one field of the message, deserialize.h:37-122; [Ok None] = return nullopt *)
Definition feature_field (dec : N -> res meta) (rd : mask_reader) (h : hints)
    (s : fstate) (tag wt : N) (bs : bytes) : res (option (fstate * bytes)) :=
  if tag =? F_HEADER then
    do (range, r) <- get_len wt bs;
    do o <- read_header h range;
    match o with
    | None => Ok None
    | Some (minz, maxz, layer) =>
        Ok (Some (FState (s_id s) minz maxz layer (s_fill s) (s_meta s) (s_masks s) (s_geom s), r))
    end
  else if tag =? F_ID then
    do (v, r) <- get_varint wt bs;
    Ok (Some (FState v (s_minz s) (s_maxz s) (s_layer s) (s_fill s) (s_meta s) (s_masks s) (s_geom s), r))
  else if tag =? F_META_PAIRS then
    do _ <- verify (match s_meta s with [] => true | _ => false end);
    do (range, r) <- get_len wt bs;
    do ms <- read_ids dec (length range) range;
    Ok (Some (FState (s_id s) (s_minz s) (s_maxz s) (s_layer s) (length ms) ms (s_masks s) (s_geom s), r))
  else if tag =? F_KEYS then
    do (k, r) <- get_len wt bs;
    Ok (Some (FState (s_id s) (s_minz s) (s_maxz s) (s_layer s) (s_fill s) (s_meta s ++ [(k, [])])
                     (s_masks s) (s_geom s), r))
  else if tag =? F_VALUES then
    do _ <- verify (s_fill s <? length (s_meta s))%nat;
    do (v, r) <- get_len wt bs;
    Ok (Some (FState (s_id s) (s_minz s) (s_maxz s) (s_layer s) (S (s_fill s))
                     (set_value (s_fill s) v (s_meta s)) (s_masks s) (s_geom s), r))
  else if tag =? F_MASKS then
    do (m, r) <- get_len wt bs;
    Ok (Some (FState (s_id s) (s_minz s) (s_maxz s) (s_layer s) (s_fill s) (s_meta s)
                     (s_masks s ++ [m]) (s_geom s), r))
  else if tag =? F_GEOMETRY then
    do (gb, r) <- get_len wt bs;
    if negb (h_zoom h =? kInvalidZoomLevel) && negb (match s_masks s with [] => true | _ => false end) then
      do g <- deserialize_geom (Masks rd (h_zoom h) (s_masks s)) gb;
      match g with
      | GNull => Ok None
      | _ => Ok (Some (FState (s_id s) (s_minz s) (s_maxz s) (s_layer s) (s_fill s) (s_meta s) [] g, r))
      end
    else
      do g <- deserialize_geom NoMasks gb;
      Ok (Some (FState (s_id s) (s_minz s) (s_maxz s) (s_layer s) (s_fill s) (s_meta s) [] g, r))
  else
    do r <- skip_field wt bs;
    Ok (Some (s, r)).

Fixpoint feature_loop (dec : N -> res meta) (rd : mask_reader) (h : hints)
    (fuel : nat) (s : fstate) (bs : bytes) : res (option fstate) :=
  match fuel with
  | O => Fuel
  | S fuel' =>
      do o <- next_field bs;
      match o with
      | None => Ok (Some s)
      | Some (tag, wt, r) =>
          do o2 <- feature_field dec rd h s tag wt r;
          match o2 with
          | None => Ok None
          | Some (s', r') => feature_loop dec rd h fuel' s' r'
          end
      end
  end.

(** deserialize.h:15-128; every field takes at least one byte, so the fuel
    never runs out *)
Definition deserialize_feature (dec : N -> res meta) (rd : mask_reader) (h : hints) (bs : bytes)
    : res (option feature) :=
  do o <- feature_loop dec rd h (S (length bs)) fstate0 bs;
  match o with
  | None => Ok None
  | Some s =>
      do _ <- verify (s_fill s =? length (s_meta s))%nat;
      do _ <- verify (negb (s_layer s =? kInvalidLayer));
      Ok (Some (Feature (s_id s) (s_layer s) (s_minz s) (s_maxz s) (s_meta s) (s_geom s)))
  end.
