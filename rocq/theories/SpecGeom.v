(** Specification vocabulary for geometries. *)
From Verif Require Import Base ModelTile ModelCodec ModelGeom.
Open Scope Z_scope.

(** all points occurring in a geometry *)
Definition geom_points (g : geom) : list pt :=
  match g with
  | GNull => []
  | GPoint ps => ps
  | GLine ls => concat ls
  | GPoly ps => flat_map (fun p => fst p ++ concat (snd p)) ps
  end.

(** coordinates are int64_t values *)
Definition coords64 (g : geom) : Prop :=
  Forall (fun p => int64_ok (fst p) = true /\ int64_ok (snd p) = true) (geom_points g).

(** coordinates for which no difference can overflow (covers the map's
    [0, 2^32) and everything clipping to draw bounds can produce) *)
Definition coord_small (c : Z) : Prop := - 2 ^ 62 <= c < 2 ^ 62.
Definition coords_small (g : geom) : Prop :=
  Forall (fun p => coord_small (fst p) /\ coord_small (snd p)) (geom_points g).

(** what the reader makes of a geometry: rings with fewer than four points are
    not a ring and vanish, together with the holes of a vanished outer ring *)
Definition ring_ok (r : line) : bool := (4 <=? length r)%nat.
Definition normal_polys (ps : list poly) : list poly :=
  map (fun p => (fst p, filter ring_ok (snd p))) (filter (fun p => ring_ok (fst p)) ps).
Definition normal (g : geom) : geom :=
  match g with
  | GPoly ps => match normal_polys ps with [] => GNull | ps' => GPoly ps' end
  | _ => g
  end.

(** a geometry that is read back unchanged *)
Definition proper (g : geom) : Prop :=
  match g with
  | GNull => False
  | GPoint ps => ps <> []
  | GLine ls => ls <> []
  | GPoly ps => ps <> [] /\
      Forall (fun p => (4 <= length (fst p))%nat /\ Forall (fun r => (4 <= length r)%nat) (snd p)) ps
  end.

(** the points of a line whose mask bit is set *)
Fixpoint select (keep : Z -> bool) (i : Z) (ps : list pt) : list pt :=
  match ps with
  | [] => []
  | p :: ps' => if keep i then p :: select keep (i + 1) ps' else select keep (i + 1) ps'
  end.

(** masks line up with lines: sizes agree; result keeps the selected points *)
Fixpoint select_lines (rd : mask_reader) (z : N) (ms : list bytes) (ls : list line) : list line :=
  match ls, ms with
  | l :: ls', m :: ms' => select (snd (rd m z)) 0 l :: select_lines rd z ms' ls'
  | _, _ => []
  end.
Definition masks_fit (rd : mask_reader) (z : N) (ms : list bytes) (ls : list line) : Prop :=
  Forall2 (fun m l => fst (rd m z) = Z.of_nat (length l)) ms ls.

(** all rings of a polygon list in storage order, and putting selected rings
    back into polygons *)
Definition poly_rings (ps : list poly) : list line := flat_map (fun p => fst p :: snd p) ps.
Fixpoint rebuild_polys (ps : list poly) (rs : list line) : list poly :=
  match ps with
  | [] => []
  | p :: ps' =>
      match rs with
      | [] => []
      | o :: rs' => (o, firstn (length (snd p)) rs') :: rebuild_polys ps' (skipn (length (snd p)) rs')
      end
  end.

Definition select_geom (rd : mask_reader) (z : N) (ms : list bytes) (g : geom) : geom :=
  match g with
  | GLine ls => GLine (select_lines rd z ms ls)
  | GPoly ps => normal (GPoly (rebuild_polys ps (select_lines rd z ms (poly_rings ps))))
  | _ => g
  end.
Definition geom_masks_fit (rd : mask_reader) (z : N) (ms : list bytes) (g : geom) : Prop :=
  match g with
  | GLine ls => masks_fit rd z ms ls
  | GPoly ps => masks_fit rd z ms (poly_rings ps)
  | _ => True
  end.

(** ** Shift: specification *)
(** [short] is [long] with every run of equal adjacent points shrunk to one
    point: [long] repeats each point of [short] at least once, and no two
    neighbours in [short] are equal. *)
Fixpoint repeat_each (short : list pt) (times : list nat) : list pt :=
  match short, times with
  | p :: ps, n :: ns => repeat p n ++ repeat_each ps ns
  | _, _ => []
  end.
Fixpoint no_equal_neighbours (ps : list pt) : Prop :=
  match ps with
  | a :: (b :: _) as t => a <> b /\ no_equal_neighbours t
  | _ => True
  end.
Definition squeezed (long short : list pt) : Prop :=
  no_equal_neighbours short /\
  exists ns, length ns = length short /\ Forall (fun n => (1 <= n)%nat) ns /\ repeat_each short ns = long.

(** the exact tile coordinate: floor division by 2^(20-z) *)
Definition scaled (z : N) (p : pt) : pt := (fst p / 2 ^ (20 - Z.of_N z), snd p / 2 ^ (20 - Z.of_N z)).

Definition long_enough (n : nat) (l : line) : bool := (n <=? length l)%nat.
Definition points_or_null (ps : list pt) : geom := match ps with [] => GNull | _ => GPoint ps end.
Definition lines_or_null (ls : list line) : geom := match ls with [] => GNull | _ => GLine ls end.
Definition polys_or_null (ps : list poly) : geom := match ps with [] => GNull | _ => GPoly ps end.

(** what shifting must produce *)
Definition shifted (z : N) (g g' : geom) : Prop :=
  match g with
  | GNull => g' = GNull
  | GPoint ps => exists s, squeezed (map (scaled z) ps) s /\ g' = points_or_null s
  | GLine ls => exists ss, Forall2 (fun l s => squeezed (map (scaled z) l) s) ls ss /\
      g' = lines_or_null (filter (long_enough 2) ss)
  | GPoly ps => exists ss : list poly,
      Forall2 (fun (p s : poly) => squeezed (map (scaled z) (fst p)) (fst s) /\
                 Forall2 (fun l s => squeezed (map (scaled z) l) s) (snd p) (snd s)) ps ss /\
      g' = polys_or_null (map (fun s => (fst s, filter (long_enough 3) (snd s)))
                              (filter (fun s => long_enough 3 (fst s)) ss))
  end.
