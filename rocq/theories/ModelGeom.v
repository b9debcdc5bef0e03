(** Fixed geometries: types, delta coding, serialization, bounding box, shift. *)
From Verif Require Import Base ModelTile ModelCodec.
Open Scope Z_scope.

(** include/tiles/fixed/fixed_geometry.h:19-47: int64_t coordinates; rings of a
    simple polygon are an outer ring and a list of inner rings. *)
Definition pt := (Z * Z)%type.
Definition line := list pt.
Definition poly := (line * list line)%type.
Inductive geom :=
| GNull
| GPoint (ps : list pt)
| GLine (ls : list line)
| GPoly (ps : list poly).

(** fixed_geometry.h:32-33: kFixedCoordMax = 2^32-1, halved by integer division *)
Definition kMagicOffset : Z := 2147483647.

(** include/tiles/fixed/algo/delta.h:14-20 delta_encoder::encode on both axes;
    signed overflow is UB *)
Fixpoint enc_points (cx cy : Z) (ps : list pt) : res (list Z * (Z * Z)) :=
  match ps with
  | [] => Ok ([], (cx, cy))
  | (x, y) :: ps' =>
      do dx <- sub64 x cx;
      do dy <- sub64 y cy;
      do (ds, c) <- enc_points x y ps';
      Ok (dx :: dy :: ds, c)
  end.

(** src/fixed/io/serialize.cc:24-32 serialize_points *)
Definition serialize_points (c : Z * Z) (ps : list pt) : res (list Z * (Z * Z)) :=
  do (ds, c') <- enc_points (fst c) (snd c) ps;
  Ok (Z.of_nat (length ps) :: ds, c').

(** several point lists one after the other (serialize.cc:73-75, 102-104) *)
Fixpoint serialize_lines (c : Z * Z) (ls : list line) : res (list Z * (Z * Z)) :=
  match ls with
  | [] => Ok ([], c)
  | l :: ls' =>
      do (d1, c1) <- serialize_points c l;
      do (d2, c2) <- serialize_lines c1 ls';
      Ok (d1 ++ d2, c2)
  end.

(** serialize.cc:97-105: outer ring, number of inner rings, inner rings *)
Fixpoint serialize_polys (c : Z * Z) (ps : list poly) : res (list Z * (Z * Z)) :=
  match ps with
  | [] => Ok ([], c)
  | (o, is) :: ps' =>
      do (d1, c1) <- serialize_points c o;
      do (d2, c2) <- serialize_lines c1 is;
      do (d3, c3) <- serialize_polys c2 ps';
      Ok (d1 ++ Z.of_nat (length is) :: d2 ++ d3, c3)
  end.

(** src/fixed/io/tags.h:7-17 *)
Definition TAG_TYPE : N := 1.
Definition TAG_GEOMETRY : N := 2.

(** src/fixed/io/serialize.cc:20-22, 34-53, 55-78, 80-108, 110-112 *)
Definition serialize_geom (g : geom) : res bytes :=
  let c0 := (kMagicOffset, kMagicOffset) in
  match g with
  | GNull => Throw
  | GPoint ps =>
      do _ <- verify (negb (match ps with [] => true | _ => false end));
      do (ds, _) <- serialize_points c0 ps;
      Ok (field_varint TAG_TYPE 1 ++ field_packed_sint64 TAG_GEOMETRY ds)
  | GLine ls =>
      do _ <- verify (negb (match ls with [] => true | _ => false end));
      do (ds, _) <- serialize_lines c0 ls;
      Ok (field_varint TAG_TYPE 2 ++
          field_packed_sint64 TAG_GEOMETRY (Z.of_nat (length ls) :: ds))
  | GPoly ps =>
      do _ <- verify (negb (match ps with [] => true | _ => false end));
      do (ds, _) <- serialize_polys c0 ps;
      Ok (field_varint TAG_TYPE 3 ++
          field_packed_sint64 TAG_GEOMETRY (Z.of_nat (length ps) :: ds))
  end.

(** ** Deserialization (src/fixed/io/deserialize.cc) *)

(** default_decoder: remaining packed bytes and the two delta decoders (:18-47) *)
Record decoder := Dec { d_range : bytes; d_x : Z; d_y : Z }.

(** deserialize.cc:36-41 get_next *)
Definition get_next (d : decoder) : res (Z * decoder) :=
  do _ <- verify (negb (match d_range d with [] => true | _ => false end));
  do (v, r) <- next_sint (d_range d);
  Ok (v, Dec r (d_x d) (d_y d)).

(** one point: decode x then y (deserialize.cc:29-32; delta.h:29-32) *)
Definition read_point (d : decoder) : res (pt * decoder) :=
  do (dx, d1) <- get_next d;
  do x <- add64 (d_x d1) dx;
  do (dy, d2) <- get_next (Dec (d_range d1) x (d_y d1));
  do y <- add64 (d_y d2) dy;
  Ok ((x, y), Dec (d_range d2) (d_x d2) y).

(** [keep i] tells whether point i is emitted: always for default_decoder
    (:28-33), the mask bit for simplifying_decoder (:73-83); masked-out points
    are decoded all the same. *)
Fixpoint read_points (keep : Z -> bool) (i : Z) (n : nat) (d : decoder) : res (list pt * decoder) :=
  match n with
  | O => Ok ([], d)
  | S n' =>
      do (p, d1) <- read_point d;
      do (ps, d2) <- read_points keep (i + 1) n' d1;
      Ok (if keep i then p :: ps else ps, d2)
  end.

(** A simplification mask reader (third party geo::simplify_mask_reader): size
    and bit i for a given mask string and zoom level.  The functions below work
    for any reader. *)
Definition mask_reader := bytes -> N -> Z * (Z -> bool).

(** how point lists are decoded: plainly, or with the remaining masks *)
Inductive masks :=
| NoMasks
| Masks (rd : mask_reader) (z : N) (ms : list bytes).

(** deserialize.cc:23-34 and :63-86 deserialize_points.  reserve() of a negative
    size throws std::length_error. *)
Definition deserialize_points (m : masks) (d : decoder) : res (list pt * masks * decoder) :=
  match m with
  | NoMasks =>
      do (size, d1) <- get_next d;
      do _ <- verify (0 <=? size);
      do (ps, d2) <- read_points (fun _ => true) 0 (Z.to_nat size) d1;
      Ok (ps, NoMasks, d2)
  | Masks rd z [] => Throw
  | Masks rd z (m0 :: ms) =>
      do (size, d1) <- get_next d;
      do _ <- verify (size =? fst (rd m0 z));
      do _ <- verify (0 <=? size);
      do (ps, d2) <- read_points (snd (rd m0 z)) 0 (Z.to_nat size) d1;
      Ok (ps, Masks rd z ms, d2)
  end.

Fixpoint deserialize_lines (n : nat) (m : masks) (d : decoder) : res (list line * masks * decoder) :=
  match n with
  | O => Ok ([], m, d)
  | S n' =>
      do (l, m1, d1) <- deserialize_points m d;
      do (ls, m2, d2) <- deserialize_lines n' m1 d1;
      Ok (l :: ls, m2, d2)
  end.

Fixpoint deserialize_polys (n : nat) (m : masks) (d : decoder) : res (list poly * masks * decoder) :=
  match n with
  | O => Ok ([], m, d)
  | S n' =>
      do (o, m1, d1) <- deserialize_points m d;
      do (ic, d2) <- get_next d1;
      do _ <- verify (0 <=? ic);
      do (is, m3, d3) <- deserialize_lines (Z.to_nat ic) m1 d2;
      do (ps, m4, d4) <- deserialize_polys n' m3 d3;
      Ok ((o, is) :: ps, m4, d4)
  end.

(** deserialize.cc:137-146: rings with fewer than 4 points vanish *)
Definition drop_small (ps : list poly) : list poly :=
  filter (fun p => negb (length (fst p) <? 4)%nat)
    (map (fun p => (fst p, filter (fun r => negb (length r <? 4)%nat) (snd p))) ps).

(** deserialize.cc:49-54, 93-100 make_*_decoder *)
Definition make_decoder (bs : bytes) : res decoder :=
  do f <- next_field bs;
  match f with
  | None => Throw
  | Some (tag, wt, r) =>
      do _ <- verify (tag =? TAG_GEOMETRY)%N;
      do (range, _) <- get_len wt r;
      Ok (Dec range kMagicOffset kMagicOffset)
  end.

(** deserialize.cc:149-164, 166-185 deserialize (m = NoMasks resp. Masks); points
    always use the default decoder.  resize() of a negative count throws. *)
Definition deserialize_geom (m : masks) (bs : bytes) : res geom :=
  do f <- next_field bs;
  match f with
  | None => Throw
  | Some (tag, wt, r) =>
      do _ <- verify (tag =? TAG_TYPE)%N;
      do (ty, r1) <- get_varint wt r;
      if (ty =? 1)%N then
        do d <- make_decoder r1;
        do (ps, _, _) <- deserialize_points NoMasks d;
        Ok (GPoint ps)
      else if (ty =? 2)%N then
        do d <- make_decoder r1;
        do (c, d1) <- get_next d;
        do _ <- verify (0 <=? c);
        do (ls, _, _) <- deserialize_lines (Z.to_nat c) m d1;
        Ok (GLine ls)
      else if (ty =? 3)%N then
        do d <- make_decoder r1;
        do (c, d1) <- get_next d;
        do _ <- verify (0 <=? c);
        do (ps, _, _) <- deserialize_polys (Z.to_nat c) m d1;
        match drop_small ps with
        | [] => Ok GNull
        | ps' => Ok (GPoly ps')
        end
      else Throw
  end.

(** ** Bounding box (src/fixed/algo/bounding_box.cc; boost::geometry::envelope,
    third party: min/max over all points, of a polygon over its outer ring or,
    if that is empty, over its inner rings; no points give the inverse box) *)
Definition box_add (b : fbox) (p : pt) : fbox :=
  FBox (Z.min (bminx b) (fst p)) (Z.min (bminy b) (snd p))
       (Z.max (bmaxx b) (fst p)) (Z.max (bmaxy b) (snd p)).
Definition inverse_box : fbox := FBox max64 max64 min64 min64.
Definition envelope (ps : list pt) : fbox := fold_left box_add ps inverse_box.
Definition poly_points (p : poly) : list pt :=
  match fst p with [] => concat (snd p) | o => o end.
Definition bounding_box (g : geom) : fbox :=
  match g with
  | GNull => FBox 0 0 0 0
  | GPoint ps => envelope ps
  | GLine ls => envelope (concat ls)
  | GPoly ps => envelope (flat_map poly_points ps)
  end.

(** ** Shift (include/tiles/fixed/algo/shift.h) *)

(** shift.h:12-16; z > 20 would make the unsigned difference wrap to a shift
    count above 63: undefined behaviour *)
Definition shift_pt (z : N) (p : pt) : pt :=
  (Z.shiftr (fst p) (20 - Z.of_N z), Z.shiftr (snd p) (20 - Z.of_N z)).

Definition pt_eqb (a b : pt) : bool := (fst a =? fst b) && (snd a =? snd b).

(** include/tiles/util.h transform_erase: apply and drop elements equal to the
    previously kept one *)
Fixpoint dedup_from (last : pt) (ps : list pt) : list pt :=
  match ps with
  | [] => []
  | p :: ps' => if pt_eqb last p then dedup_from last ps' else p :: dedup_from p ps'
  end.
Definition dedup (ps : list pt) : list pt :=
  match ps with [] => [] | p :: ps' => p :: dedup_from p ps' end.
Definition transform_erase (f : pt -> pt) (ps : list pt) : list pt := dedup (map f ps).

(** shift.h:10, 28-35, 37-49, 51-69, 71-74 *)
Definition shift_geom (z : N) (g : geom) : geom :=
  match g with
  | GNull => GNull
  | GPoint ps =>
      match transform_erase (shift_pt z) ps with [] => GNull | ps' => GPoint ps' end
  | GLine ls =>
      match filter (fun l => negb (length l <? 2)%nat) (map (transform_erase (shift_pt z)) ls) with
      | [] => GNull
      | ls' => GLine ls'
      end
  | GPoly ps =>
      match filter (fun p => negb (length (fst p) <? 3)%nat)
              (map (fun p => (transform_erase (shift_pt z) (fst p),
                              filter (fun r => negb (length r <? 3)%nat)
                                (map (transform_erase (shift_pt z)) (snd p)))) ps) with
      | [] => GNull
      | ps' => GPoly ps'
      end
  end.
