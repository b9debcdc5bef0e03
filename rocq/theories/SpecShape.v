(** Specification vocabulary for shapefiles: the ESRI format of a polygon file. *)
From Verif Require Import Base ModelTile ModelCodec ModelGeom ModelShape.
Open Scope N_scope.

Definition le32 (v : N) : bytes := le_bytes 4 v.
Definition be32 (v : N) : bytes := rev (le_bytes 4 v).

(** a point: longitude and latitude, eight bytes each *)
Definition shp_point := (bytes * bytes)%type.
Definition point_ok (p : shp_point) : Prop := length (fst p) = 8%nat /\ length (snd p) = 8%nat.
Definition point_bytes (p : shp_point) : bytes := fst p ++ snd p.

(** index of the first point of each part *)
Fixpoint part_starts (n : N) (parts : list (list shp_point)) : list N :=
  match parts with
  | [] => []
  | p :: r => n :: part_starts (n + N.of_nat (length p)) r
  end.

(** content of a polygon record: type, bounding box, counts, part starts, points *)
Definition shp_content (bbox : bytes) (parts : list (list shp_point)) : bytes :=
  le32 5 ++ bbox ++ le32 (N.of_nat (length parts)) ++ le32 (N.of_nat (length (concat parts))) ++
  flat_map le32 (part_starts 0 parts) ++ flat_map point_bytes (concat parts).
(** a record: number, length of the content in 16-bit words, content *)
Definition shp_record (idx : N) (bbox : bytes) (parts : list (list shp_point)) : bytes :=
  be32 idx ++ be32 (blen (shp_content bbox parts) / 2) ++ shp_content bbox parts.
Fixpoint shp_records (idx : N) (rs : list (bytes * list (list shp_point))) : bytes :=
  match rs with
  | [] => []
  | (b, ps) :: r => shp_record idx b ps ++ shp_records (idx + 1) r
  end.
(** the file header: magic number, unused and length, version, type, bounding box *)
Definition shp_file (unused rest : bytes) (rs : list (bytes * list (list shp_point))) : bytes :=
  be32 9994 ++ unused ++ le32 1000 ++ le32 5 ++ rest ++ shp_records 1 rs.

Definition record_ok (r : bytes * list (list shp_point)) : Prop :=
  length (fst r) = 32%nat /\ snd r <> [] /\ Forall (fun part => part <> []) (snd r) /\
  Forall (Forall point_ok) (snd r) /\ blen (shp_content (fst r) (snd r)) < 2 ^ 31 - 8.
Definition file_ok (unused rest : bytes) (rs : list (bytes * list (list shp_point))) : Prop :=
  length unused = 24%nat /\ length rest = 64%nat /\ Forall record_ok rs /\ N.of_nat (length rs) < 2 ^ 31 - 1 /\
  blen (shp_file unused rest rs) < 2 ^ 64.

(** a ring of a polygon from its points *)
Definition ring_points (to_fixed : bytes -> bytes -> pt) (ps : list shp_point) : line :=
  map (fun p => to_fixed (snd p) (fst p)) ps.
(** the polygon the format describes: the first part is the outer ring, the
    others are inner rings *)
Definition polygon_of (to_fixed : bytes -> bytes -> pt) (parts : list (list shp_point)) : poly :=
  match map (ring_points to_fixed) parts with
  | [] => ([], [])
  | r :: rs => (r, rs)
  end.
