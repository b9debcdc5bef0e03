(** Reading coastline shapefiles: src/osm/load_shapefile.cc.
    The zip archive (load_buffer, miniz) is third party: the model starts with
    the extracted .shp bytes. *)
From Verif Require Import Base ModelTile ModelCodec ModelGeom.
Open Scope N_scope.

(** two's complement int32_t *)
Definition i32 (v : N) : Z := if v <? 2 ^ 31 then Z.of_N v else (Z.of_N v - 2 ^ 32)%Z.
Definition int_ok (z : Z) : bool := ((- 2 ^ 31 <=? z) && (z <? 2 ^ 31))%Z.
(** signed int arithmetic: overflow is undefined *)
Definition int_arith (z : Z) : res Z := if int_ok z then Ok z else UB.

(** load_shapefile.cc:20-31 read_int_big, read_int_little; bytes outside the
    buffer are undefined behaviour *)
Definition read_int_big (buf : bytes) (pos : N) : res Z :=
  if pos + 4 <=? blen buf then Ok (i32 (le_val (rev (slice buf pos 4)))) else UB.
Definition read_int_little (buf : bytes) (pos : N) : res Z :=
  if pos + 4 <=? blen buf then Ok (i32 (le_val (slice buf pos 4))) else UB.
(** load_shapefile.cc:33-37 read_double_little: the eight bytes of the double *)
Definition read_double_little (buf : bytes) (pos : N) : res bytes :=
  if pos + 8 <=? blen buf then Ok (slice buf pos 8) else UB.

Section Read.
  (** latlng_to_fixed (fixed/convert.h:10-18) of latitude and longitude: floating
      point, a parameter *)
  Context (to_fixed : bytes -> bytes -> pt).

  (** load_shapefile.cc:66-73: [n] points from [off] on *)
  Fixpoint read_points (buf : bytes) (n : nat) (off : N) : res line :=
    match n with
    | O => Ok []
    | S n' =>
        do lng <- read_double_little buf off;
        do lat <- read_double_little buf (off + 8);
        do ps <- read_points buf n' (off + 16);
        Ok (to_fixed lat lng :: ps)
    end.
  (** load_shapefile.cc:58-74 read_ring: a negative count makes reserve throw;
      16 * i overflows int from i = 2^27 on *)
  Definition read_ring (buf : bytes) (pts_offset : N) (lb ub : Z) (p : poly) : res poly :=
    do count <- int_arith (ub - lb)%Z;
    do _ <- verify (0 <=? count)%Z;
    do r <- (if (2 ^ 27 <? count)%Z then UB else read_points buf (Z.to_nat count) pts_offset);
    Ok (match fst p with
        | [] => (r, snd p)
        | _ => (fst p, snd p ++ [r])
        end).
  (** load_shapefile.cc:86-96: rings [i] .. [np - 1] *)
  Fixpoint read_rings (buf : bytes) (parts_offset pts_offset : N) (num_points : Z) (left : nat) (i : N) (p : poly) : res poly :=
    match left with
    | O => Ok p
    | S left' =>
        do lb <- read_int_little buf (parts_offset + 4 * i);
        do ub <- match left' with
                 | O => Ok num_points
                 | _ => read_int_little buf (parts_offset + 4 * i + 4)
                 end;
        do p <- read_ring buf pts_offset lb ub p;
        read_rings buf parts_offset pts_offset num_points left' (i + 1) p
    end.
  (** load_shapefile.cc:76-98: the polygon of the record content at [rc_offset] *)
  Definition read_polygon (buf : bytes) (rc_offset : N) : res poly :=
    do ty <- read_int_little buf rc_offset;
    do _ <- verify (5 =? ty)%Z;
    do num_parts <- read_int_little buf (rc_offset + 36);
    do num_points <- read_int_little buf (rc_offset + 40);
    do _ <- verify (0 <? num_parts)%Z;
    do _ <- verify (0 <? num_points)%Z;
    let parts_offset := rc_offset + 44 in
    do np4 <- int_arith (4 * num_parts)%Z;
    let pts_offset := parts_offset + Z.to_N np4 in
    do p <- read_rings buf parts_offset pts_offset num_points (Z.to_nat num_parts) 0 ([], []);
    do _ <- verify (match fst p with [] => false | _ => true end);
    Ok p.
  (** load_shapefile.cc:52-103: the records from [rh_offset] on, [index] of them
      read before; the polygons in the order they reach the consumer.  (An
      exception after some polygons were consumed is an exception of the whole.)
      size_t arithmetic is modulo 2^64. *)
  Fixpoint read_records (fuel : nat) (buf : bytes) (index : Z) (rh_offset : N) : res (list poly) :=
    match fuel with
    | O => Fuel
    | S fuel' =>
        if blen buf <=? rh_offset then Ok []
        else
          do index <- int_arith (index + 1)%Z;
          do idx <- read_int_big buf rh_offset;
          do _ <- verify (index =? idx)%Z;
          do p <- read_polygon buf (rh_offset + 8);
          do len <- read_int_big buf (rh_offset + 4);
          do len2 <- int_arith (len * 2)%Z;
          do step <- int_arith (8 + len2)%Z;
          let rh_offset := Z.to_N ((Z.of_N rh_offset + step) mod 2 ^ 64)%Z in
          do _ <- verify (rh_offset <=? blen buf);
          do ps <- read_records fuel' buf index rh_offset;
          Ok (p :: ps)
    end.
  (** load_shapefile.cc:45-104 read_shapefile *)
  Definition read_shapefile (buf : bytes) : res (list poly) :=
    do magic <- read_int_big buf 0;
    do _ <- verify (9994 =? magic)%Z;
    do version <- read_int_little buf 28;
    do _ <- verify (1000 =? version)%Z;
    do ty <- read_int_little buf 32;
    do _ <- verify (5 =? ty)%Z;
    read_records (S (length buf)) buf 0 100.
End Read.
