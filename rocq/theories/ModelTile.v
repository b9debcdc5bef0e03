(** Tiles, tile keys and the feature table scan. *)
From Verif Require Import Base.
Open Scope N_scope.

(** geo::tile (third party motis-project/geo, tile.h): x_, y_, z_ are uint32_t. *)
Record tile := Tile { tx : N; ty : N; tz : N }.

Definition tile_eqb (a b : tile) : bool :=
  (tx a =? tx b) && (ty a =? ty b) && (tz a =? tz b).

(** geo::tile::parent (third party): halves x and y, one zoom level up
    (uint32_t wrap at z = 0). *)
Definition tile_parent (t : tile) : tile :=
  Tile (N.shiftr (tx t) 1) (N.shiftr (ty t) 1) ((tz t + (2^32 - 1)) mod 2^32).

(** geo::tile::quad_pos (third party): index 0..3 of the tile in its parent. *)
Definition quad_pos (t : tile) : N :=
  N.lor (N.land (tx t) 1) (N.shiftl (N.land (ty t) 1) 1).

(** geo::tile::direct_children (third party): the four children in quad_pos
    order (tile_iterator is y-major over the 2x2 range). *)
Definition direct_children (t : tile) : list tile :=
  [ Tile (2 * tx t) (2 * ty t) (tz t + 1);
    Tile (2 * tx t + 1) (2 * ty t) (tz t + 1);
    Tile (2 * tx t) (2 * ty t + 1) (tz t + 1);
    Tile (2 * tx t + 1) (2 * ty t + 1) (tz t + 1) ].

(** geo::tile::bounds_on_z (third party): half-open x/y ranges of the tile on
    zoom level z. *)
Record tbounds := TBounds { minx : N; miny : N; maxx : N; maxy : N }.
Definition bounds_on_z (t : tile) (z : N) : tbounds :=
  if z <? tz t then
    let d := tz t - z in
    TBounds (N.shiftr (tx t) d) (N.shiftr (ty t) d)
            (N.shiftr (tx t) d + 1) (N.shiftr (ty t) d + 1)
  else
    let d := z - tz t in
    TBounds (N.shiftl (tx t) d) (N.shiftl (ty t) d)
            (N.shiftl (tx t + 1) d) (N.shiftl (ty t + 1) d).

(** include/tiles/db/tile_index.h:20-31 *)
Definition kZShift : N := 59.
Definition kZMask : N := N.shiftl 1 5 - 1.
Definition kYShift : N := 38.
Definition kYMask : N := N.shiftl 1 21 - 1.
Definition kXShift : N := 17.
Definition kXMask : N := N.shiftl 1 21 - 1.
Definition kNShift : N := 0.
Definition kNMask : N := N.shiftl 1 17 - 1.

(** uint64_t left shift: bits above 63 are lost. *)
Definition shl64 (a k : N) : N := N.shiftl a k mod 2 ^ 64.

(** include/tiles/db/tile_index.h:33-49 tile_to_key (both overloads) *)
Definition tile_to_key (t : tile) (n : N) : res N :=
  do _ <- verify ((N.land (tx t) kXMask =? tx t) && (N.land (ty t) kYMask =? ty t)
                  && (N.land (tz t) kZMask =? tz t) && (N.land n kNMask =? n));
  let key := 0 in
  let key := N.lor key (shl64 (N.land (tz t) kZMask) kZShift) in
  let key := N.lor key (shl64 (N.land (ty t) kYMask) kYShift) in
  let key := N.lor key (shl64 (N.land (tx t) kXMask) kXShift) in
  let key := N.lor key (shl64 (N.land n kNMask) kNShift) in
  Ok key.

(** include/tiles/db/tile_index.h:51-56 key_to_tile *)
Definition key_to_tile (key : N) : tile :=
  Tile (N.land (N.shiftr key kXShift) kXMask mod 2 ^ 32)
       (N.land (N.shiftr key kYShift) kYMask mod 2 ^ 32)
       (N.land (N.shiftr key kZShift) kZMask mod 2 ^ 32).

(** include/tiles/db/tile_index.h:58-60 key_to_n *)
Definition key_to_n (key : N) : N := N.land (N.shiftr key kNShift) kNMask.

(** include/tiles/db/tile_index.h:62 *)
Definition kTileDefaultIndexZoomLvl : N := 10.

(** include/tiles/db/pack_file.h:14-29 pack_record; both members are size_t. *)
Record pack_record := Rec { r_off : N; r_size : N }.

(** include/tiles/bin_utils.h:7-10 append<pack_record> (16 bytes, two 64-bit
    little-endian words) *)
Definition record_bytes (r : pack_record) : bytes :=
  le_bytes 8 (r_off r) ++ le_bytes 8 (r_size r).

(** include/tiles/db/pack_file.h:31-35, 37-45 pack_records_serialize *)
Definition pack_records_serialize (rs : list pack_record) : bytes :=
  flat_map record_bytes rs.

(** include/tiles/db/pack_file.h:47-51 pack_records_update *)
Definition pack_records_update (dat : bytes) (r : pack_record) : res bytes :=
  do _ <- verify (blen dat mod 16 =? 0);
  Ok (dat ++ record_bytes r).

(** include/tiles/bin_utils.h:22-32 read_nth<pack_record>; reading past the end
    of the buffer is undefined behaviour. *)
Definition read_nth_record (dat : bytes) (i : nat) : res pack_record :=
  let off := (16 * i)%nat in
  if (off + 16 <=? length dat)%nat then
    let b := firstn 16 (skipn off dat) in
    Ok (Rec (le_val (firstn 8 b)) (le_val (skipn 8 b)))
  else UB.

(** include/tiles/db/pack_file.h:53-64 pack_records_deserialize and :66-73
    pack_records_foreach: the records in the order they are delivered. *)
Definition pack_records_deserialize (dat : bytes) : res (list pack_record) :=
  do _ <- verify (blen dat mod 16 =? 0);
  map_res (read_nth_record dat) (seq 0 (length dat / 16)).

(** An LMDB table with MDB_INTEGERKEY (tile_database.h): entries in strictly
    increasing key order.  A cursor is the list of entries from its position. *)
Definition table := list (N * bytes).

(** lmdb::cursor::get(SET_RANGE, key) (third party): first entry with key >= k. *)
Fixpoint set_range (k : N) (t : table) : table :=
  match t with
  | [] => []
  | (k', v) :: t' => if k' <? k then set_range k t' else t
  end.

(** include/tiles/get_tile.h:92-100: inner loop from cursor position [cur]. *)
Fixpoint scan_row (key_end : N) (cur : table) : res (list (tile * pack_record)) :=
  match cur with
  | [] => Ok []
  | (k, v) :: cur' =>
      if k <? key_end then
        do rs <- pack_records_deserialize v;
        do rest <- scan_row key_end cur';
        Ok (map (fun r => (key_to_tile k, r)) rs ++ rest)
      else Ok []
  end.

(** include/tiles/get_tile.h:87-91, 101: outer loop over the rows; [n] rows
    starting at y. *)
Fixpoint scan_rows (tbl : table) (x0 x1 y : N) (n : nat) : res (list (tile * pack_record)) :=
  match n with
  | O => Ok []
  | S n' =>
      do key_begin <- tile_to_key (Tile x0 y kTileDefaultIndexZoomLvl) 0;
      do key_end <- tile_to_key (Tile x1 y kTileDefaultIndexZoomLvl) 0;
      do row <- scan_row key_end (set_range key_begin tbl);
      do rest <- scan_rows tbl x0 x1 (y + 1) n';
      Ok (row ++ rest)
  end.

(** include/tiles/get_tile.h:82-102 pack_records_foreach(cursor, tile, fn): the
    sequence of (tile, record) pairs handed to [fn]. *)
Definition pack_records_foreach (tbl : table) (q : tile) : res (list (tile * pack_record)) :=
  let b := bounds_on_z q kTileDefaultIndexZoomLvl in
  scan_rows tbl (minx b) (maxx b) (miny b) (N.to_nat (maxy b - miny b)).

(** Boxes in level-20 pixel coordinates (fixed_box, fixed_geometry.h:26) *)
Record fbox := FBox { bminx : Z; bminy : Z; bmaxx : Z; bmaxy : Z }.

(** include/tiles/mvt/tile_spec.h:16-50: [kOverdraw] = 4096, kTileSize = 4096,
    kMaxZoomLevel = 20; geo's pixel coordinates are int64_t. *)
Definition kMaxZoomLevel : N := 20.
Record tile_spec := TSpec { px_bounds : fbox; insert_bounds : fbox; draw_bounds : fbox }.
Definition make_tile_spec (t : tile) : res tile_spec :=
  do _ <- verify (tz t <=? kMaxZoomLevel);
  let d := Z.of_N (kMaxZoomLevel - tz t) in
  do _ <- verify ((tx t <? N.shiftl 1 (tz t)) && (ty t <? N.shiftl 1 (tz t)));
  let x := Z.of_N (tx t) in
  let y := Z.of_N (ty t) in
  let px := FBox (x * 4096) (y * 4096) ((x + 1) * 4096) ((y + 1) * 4096) in
  let ins := FBox (Z.shiftl (bminx px) d) (Z.shiftl (bminy px) d)
                  (Z.shiftl (bmaxx px) d) (Z.shiftl (bmaxy px) d) in
  let drw := FBox (Z.shiftl (bminx px) d - 4096) (Z.shiftl (bminy px) d - 4096)
                  (Z.shiftl (bmaxx px) d + 4096) (Z.shiftl (bmaxy px) d + 4096) in
  Ok (TSpec px ins drw).

(** include/tiles/db/tile_index.h:63-73 make_tile_range(box, z): inclusive tile
    corner indices (x1, y1, x2, y2).  shift() is an arithmetic right shift by
    20-z (shift.h:12-21); '/' truncates; the cast to uint32_t wraps. *)
Definition make_tile_range (b : fbox) (z : N) : N * N * N * N :=
  let d := Z.of_N (20 - z) in
  let f c := Z.to_N (Z.quot (Z.shiftr c d) 4096 mod 2 ^ 32) in
  (f (bminx b), f (bminy b), f (bmaxx b), f (bmaxy b)).
