(** Specification vocabulary for vector tiles: an independent reader for the
    protobuf wire format and for the Mapbox Vector Tile format 2.1, and what a
    rendered tile is supposed to contain. *)
From Coq Require Import Sorting.Sorted.
From Verif Require Import Base ModelTile ModelCodec ModelGeom SpecGeom ModelFeature ModelMvt.
From Verif Require Export SpecLines.
Open Scope N_scope.

(** ** Protobuf messages: the sequence of (field number, payload) *)
Inductive wire := WInt (n : N) | WLen (b : bytes) | WFix64 (b : bytes) | WFix32 (b : bytes).

Fixpoint parse_fields (fuel : nat) (bs : bytes) : res (list (N * wire)) :=
  match fuel with
  | O => Fuel
  | S f =>
      do h <- next_field bs;
      match h with
      | None => Ok []
      | Some (tag, wt, r) =>
          do (w, r') <-
            (if wt =? WT_VARINT then do (v, r') <- varint_dec r; Ok (WInt v, r')
             else if wt =? WT_LEN then do (d, r') <- get_len wt r; Ok (WLen d, r')
             else if wt =? WT_I64 then do _ <- verify (8 <=? blen r); Ok (WFix64 (firstn 8 r), skipn 8 r)
             else do _ <- verify (4 <=? blen r); Ok (WFix32 (firstn 4 r), skipn 4 r));
          do rest <- parse_fields f r';
          Ok ((tag, w) :: rest)
      end
  end.
Definition parse_msg (bs : bytes) : option (list (N * wire)) :=
  match parse_fields (S (length bs)) bs with Ok l => Some l | _ => None end.

(** all payloads of field [tag], in order *)
Definition field_all (tag : N) (m : list (N * wire)) : list wire :=
  map snd (filter (fun f => fst f =? tag) m).

Fixpoint all_some {A} (l : list (option A)) : option (list A) :=
  match l with
  | [] => Some []
  | Some a :: l' => match all_some l' with Some r => Some (a :: r) | None => None end
  | None :: _ => None
  end.
Definition field_one {A} (l : list A) : option A := match l with [a] => Some a | _ => None end.
Definition as_int (w : wire) : option N := match w with WInt n => Some n | _ => None end.
Definition as_len (w : wire) : option bytes := match w with WLen b => Some b | _ => None end.
Definition obind {A B} (o : option A) (f : A -> option B) : option B :=
  match o with Some a => f a | None => None end.

(** packed uint32 payload *)
Fixpoint unpack_f (fuel : nat) (bs : bytes) : option (list N) :=
  match bs with
  | [] => Some []
  | _ => match fuel with
         | O => None
         | S f => match varint_dec bs with
                  | Ok (v, r) => option_map (cons (v mod 2 ^ 32)) (unpack_f f r)
                  | _ => None
                  end
         end
  end.
Definition unpack_u32 (bs : bytes) : option (list N) := unpack_f (length bs) bs.

(** ** Geometry (vector tile specification, section 4.3) *)

(** command integer: id in the low three bits, count above; MoveTo 1, LineTo 2,
    ClosePath 7 (count 1); parameters are zigzag coded and relative to the cursor *)
Inductive pcmd := PMove (p : pt) | PLine (p : pt) | PClose.
Fixpoint run_commands (cmd n : N) (c : pt) (l : list N) {struct l} : option (list pcmd) :=
  match l with
  | [] => if n =? 0 then Some [] else None
  | v :: l1 =>
      if n =? 0 then
        let id := v mod 8 in
        let k := v / 8 in
        if (id =? 7) && (k =? 1) then option_map (cons PClose) (run_commands 0 0 c l1)
        else if ((id =? 1) || (id =? 2)) && negb (k =? 0) then run_commands id k c l1
        else None
      else
        match l1 with
        | [] => None
        | w :: l2 =>
            let p := ((fst c + unzigzag v)%Z, (snd c + unzigzag w)%Z) in
            option_map (cons (if cmd =? 1 then PMove p else PLine p)) (run_commands cmd (n - 1) p l2)
        end
  end.

(** point features: MoveTo only *)
Definition group_points (l : list pcmd) : option (list pt) :=
  all_some (map (fun c => match c with PMove p => Some p | _ => None end) l).

(** line features: a MoveTo followed by at least one LineTo, repeatedly; the
    pair is (points not yet preceded by their MoveTo, finished lines) *)
Fixpoint group_lines_from (l : list pcmd) : option (list pt * list line) :=
  match l with
  | [] => Some ([], [])
  | PLine p :: l' => obind (group_lines_from l') (fun '(q, d) => Some (p :: q, d))
  | PMove p :: l' => obind (group_lines_from l') (fun '(q, d) =>
      match q with [] => None | _ => Some ([], (p :: q) :: d) end)
  | PClose :: _ => None
  end.
Definition group_lines (l : list pcmd) : option (list line) :=
  obind (group_lines_from l) (fun '(q, d) => match q with [] => Some d | _ => None end).

(** polygon features: MoveTo, at least [least] LineTo, ClosePath, repeatedly; a
    ring is returned with its first point repeated at the end.  The standard
    wants [least] = 2; most readers accept 1. *)
Fixpoint group_rings_from (least : nat) (l : list pcmd) : option (option (list pt) * list line) :=
  match l with
  | [] => Some (None, [])
  | PClose :: l' => obind (group_rings_from least l') (fun '(q, d) =>
      match q with None => Some (Some [], d) | Some _ => None end)
  | PLine p :: l' => obind (group_rings_from least l') (fun '(q, d) =>
      match q with Some q => Some (Some (p :: q), d) | None => None end)
  | PMove p :: l' => obind (group_rings_from least l') (fun '(q, d) =>
      match q with
      | Some q => if (least <=? length q)%nat then Some (None, (p :: q ++ [p]) :: d) else None
      | None => None
      end)
  end.
Definition group_rings (least : nat) (l : list pcmd) : option (list line) :=
  obind (group_rings_from least l) (fun '(q, d) => match q with None => Some d | _ => None end).

(** decoded geometry: points, lines, or closed rings (outer and inner) *)
Inductive vgeom := VPoints (ps : list pt) | VLines (ls : list line) | VRings (ls : list line).
Definition decode_geometry (least : nat) (type : N) (cmds : list N) : option vgeom :=
  obind (run_commands 0 0 (0, 0)%Z cmds) (fun l =>
    if type =? 1 then option_map VPoints (group_points l)
    else if type =? 2 then option_map VLines (group_lines l)
    else if type =? 3 then option_map VRings (group_rings least l)
    else None).

(** the geometry fields of a feature message: type (3) and commands (4) *)
Definition decode_geometry_fields (least : nat) (bs : bytes) : option vgeom :=
  obind (parse_msg bs) (fun m =>
  obind (obind (field_one (field_all 3 m)) as_int) (fun ty =>
  obind (obind (obind (field_one (field_all 4 m)) as_len) unpack_u32) (fun cmds =>
  decode_geometry least ty cmds))).

(** all points of a decoded geometry *)
Definition vpoints (v : vgeom) : list pt :=
  match v with VPoints ps => ps | VLines ls | VRings ls => concat ls end.

(** paths a vector tile can hold: at least two points per line, at least three
    per closed ring; no geometry is empty; no point repeated *)
Definition drawable (g : geom) : Prop :=
  match g with
  | GNull => False
  | GPoint ps => ps <> []
  | GLine ls => ls <> [] /\ Forall (fun l => (2 <= length l)%nat /\ no_equal_neighbours l) ls
  | GPoly ps => ps <> [] /\
      Forall (fun r => (3 <= length r)%nat /\ no_equal_neighbours r) (poly_rings ps)
  end.

(** every point is within 2^30 of the origin on both axes *)
Definition close_to (o : pt) (g : geom) : Prop :=
  Forall (fun p => Z.abs (fst p - fst o) < 2 ^ 30 /\ Z.abs (snd p - snd o) < 2 ^ 30)%Z (geom_points g).

(** what a geometry looks like relative to a tile origin *)
Definition rel (o : pt) (p : pt) : pt := ((fst p - fst o)%Z, (snd p - snd o)%Z).
Definition relative_geom (o : pt) (g : geom) : option vgeom :=
  match g with
  | GNull => None
  | GPoint ps => Some (VPoints (map (rel o) ps))
  | GLine ls => Some (VLines (map (map (rel o)) ls))
  | GPoly ps => Some (VRings (map (map (rel o)) (poly_rings ps)))
  end.

(** geometry lies in a box / rings are closed *)
Definition geom_in (b : fbox) (g : geom) : Prop :=
  Forall (fun p => bminx b <= fst p <= bmaxx b /\ bminy b <= snd p <= bmaxy b)%Z (geom_points g).
Definition closed_ring (r : line) : Prop := exists p q, r = p :: q ++ [p].
Definition rings_closed (g : geom) : Prop :=
  match g with
  | GPoly ps => Forall closed_ring (poly_rings ps)
  | _ => True
  end.

(** ** Features, layers, tiles *)
Inductive mvalue := MString (s : bytes) | MDouble (d : bytes) | MInt (z : Z) | MBool (b : bool).
Record vfeature := VFeature { v_id : N; v_geom : vgeom; v_tags : list (bytes * mvalue) }.
Record vlayer := VLayer {
  vl_version : N; vl_name : bytes; vl_extent : N;
  vl_keys : list bytes; vl_values : list mvalue; vl_features : list vfeature }.

Definition decode_value (m : bytes) : option mvalue :=
  obind (parse_msg m) (fun l =>
    match l with
    | [(1, WLen s)] => Some (MString s)
    | [(3, WFix64 d)] => Some (MDouble d)
    | [(6, WInt n)] => Some (MInt (unzigzag n))
    | [(7, WInt n)] => Some (MBool (negb (n =? 0)))
    | _ => None
    end).

(** tags are (key index, value index) pairs into the layer's tables; an index
    outside a table makes the feature undecodable *)
Fixpoint resolve_tags {V} (ks : list bytes) (vs : list V) (t : list N) : option (list (bytes * V)) :=
  match t with
  | [] => Some []
  | i :: j :: t' =>
      match nth_error ks (N.to_nat i), nth_error vs (N.to_nat j), resolve_tags ks vs t' with
      | Some k, Some v, Some r => Some ((k, v) :: r)
      | _, _, _ => None
      end
  | _ => None
  end.

Definition decode_feature (ks : list bytes) (vs : list mvalue) (b : bytes) : option vfeature :=
  obind (parse_msg b) (fun m =>
  obind (obind (field_one (field_all 1 m)) as_int) (fun id =>
  obind (obind (field_one (field_all 3 m)) as_int) (fun ty =>
  obind (obind (obind (field_one (field_all 4 m)) as_len) unpack_u32) (fun cmds =>
  obind (match field_all 2 m with [] => Some [] | [WLen t] => unpack_u32 t | _ => None end) (fun t =>
  obind (decode_geometry 1 ty cmds) (fun g =>
  obind (resolve_tags ks vs t) (fun tags => Some (VFeature id g tags)))))))).

Definition decode_layer (b : bytes) : option vlayer :=
  obind (parse_msg b) (fun m =>
  obind (obind (field_one (field_all 15 m)) as_int) (fun version =>
  obind (obind (field_one (field_all 1 m)) as_len) (fun name =>
  obind (obind (field_one (field_all 5 m)) as_int) (fun extent =>
  obind (all_some (map as_len (field_all 3 m))) (fun ks =>
  obind (all_some (map (fun w => obind (as_len w) decode_value) (field_all 4 m))) (fun vs =>
  obind (all_some (map (fun w => obind (as_len w) (decode_feature ks vs)) (field_all 2 m))) (fun fs =>
  Some (VLayer version name extent ks vs fs)))))))).

Definition decode_tile (b : bytes) : option (list vlayer) :=
  obind (parse_msg b) (fun m =>
    all_some (map (fun f => if fst f =? 3 then obind (as_len (snd f)) decode_layer else None) m)).

(** ** What the tile must contain *)

(** meaning of a stored metadata value (metadata.h:10-16): type byte, payload *)
Definition meta_value (v : bytes) : option mvalue :=
  match v with
  | 0 :: _ => Some (MBool false)
  | 1 :: _ => Some (MBool true)
  | 2 :: s => Some (MString s)
  | 3 :: d => if (length d =? 8)%nat then Some (MDouble d) else None
  | 4 :: d => if (length d =? 8)%nat then Some (MInt (to_i64 (le_val d))) else None
  | _ => None
  end.

(** "layer" and everything starting with two underscores stays internal *)
Definition internal_key (k : bytes) : Prop := k = [108; 97; 121; 101; 114] \/ exists s, k = 95 :: 95 :: s.

(** the decoded tags of a feature with metadata [ms] *)
Inductive tags_of : list meta -> list (bytes * mvalue) -> Prop :=
| tags_nil : tags_of [] []
| tags_skip k v ms t : internal_key k -> tags_of ms t -> tags_of ((k, v) :: ms) t
| tags_cons k v ms t x : ~ internal_key k -> meta_value v = Some x -> tags_of ms t ->
    tags_of ((k, v) :: ms) ((k, x) :: t).

(** first of every (id, geometry kind); geometries of kind null never appear *)
Definition kind (g : geom) : N := match g with GNull => 0 | GPoint _ => 1 | GLine _ => 2 | GPoly _ => 3 end.
Fixpoint first_of_kind (seen : list (N * N)) (fs : list feature) : list feature :=
  match fs with
  | [] => []
  | f :: fs' =>
      if kind (f_geom f) =? 0 then first_of_kind seen fs'
      else if existsb (fun s => (fst s =? f_id f) && (snd s =? kind (f_geom f))) seen
      then first_of_kind seen fs'
      else f :: first_of_kind ((f_id f, kind (f_geom f)) :: seen) fs'
  end.

Definition not_null (f : feature) : bool := negb (kind (f_geom f) =? 0).
(** buffered until the end of the layer? *)
Definition buffered (c : tctx) (f : feature) : bool :=
  (c_agg_lines c && (kind (f_geom f) =? 2)) || (c_agg_polys c && (kind (f_geom f) =? 3)).
Definition of_kind (k : N) (f : feature) : bool := kind (f_geom f) =? k.

(** the polygon survives the sub-pixel filter (never applied to coastlines) *)
Definition big_enough (c : tctx) (f : feature) : bool :=
  (f_layer f =? 0) || negb (c_drop_subpixel c) || (256 <=? c_area c (f_geom f))%Z.

(** the features drawn for layer [i], clipped and shifted, in output order: the
    unbuffered ones, then polygons, then joined lines *)
Definition layer_content (c : tctx) (i : N) (fs : list feature) : res (list feature) :=
  let l := first_of_kind [] (filter (fun f => f_layer f =? i) fs) in
  do direct <- map_res (clip_shift c) (filter (fun f => negb (buffered c f)) l);
  do polys <- map_res (clip_shift c) (filter (fun f => c_agg_polys c && of_kind 3 f) l);
  do joined <- match filter (fun f => c_agg_lines c && of_kind 2 f) l with
               | [] => Ok []
               | ls => c_aggregate c ls (c_z c)
               end;
  do lines <- map_res (clip_shift c) joined;
  Ok (filter not_null (direct ++ filter (big_enough c) polys ++ lines)).

Definition shows (o : pt) (f : feature) (v : vfeature) : Prop :=
  v_id v = f_id f /\ relative_geom o (f_geom f) = Some (v_geom v) /\ tags_of (f_meta f) (v_tags v).

(** a value written the way the import writes it: real bytes, and no payload
    after a boolean *)
Definition canonical (v : bytes) : Prop :=
  bytes_ok v /\ (forall d, v = 0 :: d \/ v = 1 :: d -> d = []).

(** [v] is the rendering of layer [fst il] with features [snd il]: name, version,
    extent, tables without duplicates, and exactly these features in order *)
Definition shows_layer (c : tctx) (il : N * list feature) (v : vlayer) : Prop :=
  vl_version v = 2 /\ vl_extent v = 4096 /\
  nth_error (c_names c) (N.to_nat (fst il)) = Some (vl_name v) /\
  NoDup (vl_keys v) /\
  (Forall (fun f => Forall (fun m => canonical (snd m)) (f_meta f)) (snd il) -> NoDup (vl_values v)) /\
  Forall2 (shows (bminx (px_bounds (c_spec c)), bminy (px_bounds (c_spec c)))) (snd il) (vl_features v).

(** 62 bit coordinates, the range of the clipping library *)
Definition in_range (p : pt) : Prop := (- 2 ^ 62 < fst p < 2 ^ 62 /\ - 2 ^ 62 < snd p < 2 ^ 62)%Z.
Definition range_box (b : fbox) : Prop :=
  (- 2 ^ 62 < bminx b < bmaxx b /\ bmaxx b < 2 ^ 62 /\ - 2 ^ 62 < bminy b < bmaxy b /\ bmaxy b < 2 ^ 62)%Z.

(** the third party clipping returns geometry inside the box with closed rings
    and does not change the kind (or returns nothing) *)
Definition cut_ok (cut : fbox -> geom -> res geom) : Prop :=
  forall b g g', range_box b -> cut b g = Ok g' ->
    geom_in b g' /\ rings_closed g' /\ (g' = GNull \/ kind g' = kind g).

(** the builder is set up for tile [t] *)
Definition ctx_for (c : tctx) (t : tile) : Prop :=
  make_tile_spec t = Ok (c_spec c) /\ c_z c = tz t /\ cut_ok (c_cut c).

(** every value of a feature is well-formed *)
Definition meta_ok (f : feature) : Prop :=
  Forall (fun m => internal_key (fst m) \/ meta_value (snd m) <> None) (f_meta f).

(** joined lines: only (poly)lines come out, with ids and well-formed
    metadata of the lines that went in, and no id twice *)
Definition aggregate_ok (agg : list feature -> N -> res (list feature)) : Prop :=
  forall ls z r, agg ls z = Ok r ->
    (forall f, In f r -> kind (f_geom f) = 2 /\ exists f0, In f0 ls /\ f_id f0 = f_id f /\ f_meta f0 = f_meta f) /\
    (NoDup (map f_id ls) -> NoDup (map f_id r)).

(** twice the area of a closed ring by the surveyor's formula, as the vector tile specification uses it:
    positive if the ring runs clockwise on a screen (y grows downwards) *)
Fixpoint surveyor (r : line) : Z :=
  match r with
  | p :: (q :: _) as r' => (fst p * snd q - fst q * snd p + surveyor r')%Z
  | _ => 0%Z
  end.
(** a polygon of which at least one ring encloses an area *)
Definition areal (g : geom) : Prop :=
  match g with
  | GPoly ps => Forall in_range (geom_points g) /\ Forall (fun r => r <> []) (poly_rings ps) /\
      Exists (fun r => closed_ring r /\ surveyor r <> 0%Z) (poly_rings ps)
  | _ => True
  end.
(** clipping does not fail, except for polygons without any area (all points on a line) *)
Definition cuts_areas (cut : fbox -> geom -> res geom) : Prop :=
  forall b g, range_box b -> areal g -> exists g', cut b g = Ok g'.

Definition vkind (v : vgeom) : N := match v with VPoints _ => 1 | VLines _ => 2 | VRings _ => 3 end.
