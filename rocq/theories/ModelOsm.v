(** From OSM objects to features: include/tiles/osm/pending_feature.h,
    src/osm/feature_handler.cc, src/osm/read_osm_geometry.cc and the value
    encodings of include/tiles/feature/metadata.h. *)
From Coq Require Import Permutation.
From Verif Require Import Base ModelTile ModelCodec ModelGeom ModelFeature ModelDict.
Open Scope N_scope.

(** ** metadata.h:18-54 *)
Definition encode_bool (v : bool) : bytes := [if v then 1 else 0].
Definition encode_string (v : bytes) : bytes := 2 :: v.
(** a double is given by its eight bytes *)
Definition encode_numeric (v : bytes) : bytes := 3 :: v.
Definition encode_integer (v : Z) : bytes := 4 :: le_bytes 8 (to_u64 v).

(** ** pending_feature.h *)

(** The OSM object as pending_feature uses it: id, tags (osmium keeps them as C
    strings, the first entry with a key wins) *)
Record osm_obj := OsmObj { o_id : Z; o_tags : list (bytes * bytes) }.
(** osmium OSMObject::get_value_by_key (third party) *)
Fixpoint tag_value (tags : list (bytes * bytes)) (k : bytes) : option bytes :=
  match tags with
  | [] => None
  | (k', v) :: r => if bytes_eqb k' k then Some v else tag_value r k
  end.

(** pending_feature.h:26-45 has_tag, get_tag, has_any_tag *)
Definition get_tag (o : osm_obj) (k : bytes) : bytes :=
  match tag_value (o_tags o) k with Some v => v | None => [] end.
Definition has_tag (o : osm_obj) (k v : bytes) : bool := bytes_eqb v (get_tag o k).
Definition has_any_tag (o : osm_obj) (k : bytes) (vs : list bytes) : bool :=
  match vs with
  | [] => match tag_value (o_tags o) k with Some _ => true | None => false end
  | _ => existsb (fun v => bytes_eqb (get_tag o k) v) vs
  end.

(** What a profile script may call on a pending feature (pending_feature.h:47-132). *)
Inductive call :=
| CApproveMin (min : N)
| CApproveMinByArea (args : list Z)
| CApproveFull
| CLayer (name : bytes)
| CAddBool (k : bytes) (v : bool)
| CAddString (k v : bytes)
| CAddNumeric (k d : bytes)
| CAddInteger (k : bytes) (v : Z)
| CTagBool (k : bytes)
| CTagString (k : bytes)
| CTagNumeric (k : bytes)
| CTagInteger (k : bytes).

(** pending_feature.h:142-151, the mutable members.  zoom_levels_ is
    value-initialised. *)
Record pending := Pending { p_approved : bool; p_zoom : N * N; p_layer : bytes; p_meta : list meta }.
Definition pending0 : pending := Pending false (0, 0) [] [].

(** constants.h:9 *)
Definition kMaxZoom : N := 20.

Definition TRUE : bytes := [116; 114; 117; 101].

(** std::from_chars<int64_t> (library): optional minus sign, the longest run of
    digits; no digits or a value outside the type is an error; what follows is
    ignored *)
Definition is_digit (c : N) : bool := (48 <=? c) && (c <=? 57).
Fixpoint digits_value (acc : Z) (s : bytes) : Z :=
  match s with
  | c :: s' => if is_digit c then digits_value (acc * 10 + (Z.of_N c - 48))%Z s' else acc
  | [] => acc
  end.
Definition from_chars64 (s : bytes) : option Z :=
  let '(neg, d) := match s with 45 :: r => (true, r) | _ => (false, s) end in
  match d with
  | c :: _ =>
      if is_digit c then
        let v := digits_value 0 d in
        let v := if neg then (- v)%Z else v in
        if int64_ok v then Some v else None
      else None
  | [] => None
  end.

Section Script.
  (** std::stod (None: exception), int64_t to double conversion (as bytes) and
      tiles::area of the object's geometry: library functions *)
  Context (stod : bytes -> option bytes) (dbl : Z -> bytes) (area : Z).

  Definition set_approved (p : pending) (mn : N) : pending :=
    Pending true (mn, kMaxZoom + 1) (p_layer p) (p_meta p).
  Definition add_meta (p : pending) (k v : bytes) : pending :=
    Pending (p_approved p) (p_zoom p) (p_layer p) (p_meta p ++ [(k, v)]).

  (** pending_feature.h:59-74: (zoom level, area limit) pairs, the first fitting one *)
  Fixpoint approve_by_area (p : pending) (args : list Z) : pending :=
    match args with
    | mn :: limit :: r =>
        if ((limit =? -1) || (area <? limit))%Z then set_approved p (to_u32 mn) else approve_by_area p r
    | _ => p
    end.

  (** pending_feature.h:47-132, one call.  An exception becomes a Lua error (sol). *)
  Definition run_call (o : osm_obj) (p : pending) (c : call) : res pending :=
    match c with
    | CApproveMin mn => Ok (set_approved p mn)
    | CApproveFull => Ok (set_approved p 0)
    | CApproveMinByArea args =>
        do _ <- verify (Nat.even (length args));
        Ok (approve_by_area p args)
    | CLayer n => Ok (Pending (p_approved p) (p_zoom p) n (p_meta p))
    | CAddBool k v => Ok (add_meta p k (encode_bool v))
    | CAddString k v => Ok (add_meta p k (encode_string v))
    | CAddNumeric k d => Ok (add_meta p k (encode_numeric d))
    | CAddInteger k v => Ok (add_meta p k (encode_integer v))
    | CTagBool k =>                                           (* 101-105 *)
        match tag_value (o_tags o) k with
        | Some v => Ok (add_meta p k (encode_bool (negb (bytes_eqb TRUE v))))
        | None => Ok p
        end
    | CTagString k =>
        match tag_value (o_tags o) k with
        | Some v => Ok (add_meta p k (encode_string v))
        | None => Ok p
        end
    | CTagNumeric k =>
        match tag_value (o_tags o) k with
        | Some v => match stod v with Some d => Ok (add_meta p k (encode_numeric d)) | None => Ok p end
        | None => Ok p
        end
    | CTagInteger k =>                                        (* 123-131 *)
        match tag_value (o_tags o) k with
        | Some v => match from_chars64 v with Some z => Ok (add_meta p k (encode_numeric (dbl z))) | None => Ok p end
        | None => Ok p
        end
    end.

  (** feature_handler.cc:80-85: the script's calls; an error ends the script, it is
      logged and what was set so far stays *)
  Fixpoint run_script (o : osm_obj) (p : pending) (cs : list call) : pending :=
    match cs with
    | [] => p
    | c :: cs' => match run_call o p c with Ok p' => run_script o p' cs' | _ => p end
    end.
End Script.

(** pending_feature.h:134-138 finish_metadata: utl::erase_duplicates sorts with
    operator< and keeps the first of each run of equal keys *)
Fixpoint unique_keys (l : list meta) : list meta :=
  match l with
  | [] => []
  | m :: l' =>
      m :: (fix skip (r : list meta) : list meta :=
              match r with
              | [] => []
              | x :: r' => if bytes_eqb (fst m) (fst x) then skip r' else unique_keys r
              end) l'
  end.
Definition finish_metadata (srt : list meta -> list meta) (ms : list meta) : list meta := unique_keys (srt ms).

(** feature_handler.cc:72-107 handle_feature.  Result: the feature to insert, if
    any, and the layer name map.  [shared_metadata_builder.update] is called with
    exactly the metadata of the inserted feature. *)
Definition handle_feature (srt : list meta -> list meta) stod dbl (area : geom -> Z)
    (o : osm_obj) (g : geom) (cs : list call) (names : names_map) : res (option feature * names_map) :=
  let p := run_script stod dbl (area g) o pending0 cs in
  if negb (p_approved p) then Ok (None, names) else
  do _ <- verify (negb (match p_layer p with [] => true | _ => false end));
  match g with
  | GNull => Ok (None, names)
  | _ =>
      let ms := finish_metadata srt (p_meta p) in
      let '(layer, names') := get_layer_idx names (p_layer p) in
      Ok (Some (Feature (to_u64 (o_id o)) layer (fst (p_zoom p)) (snd (p_zoom p)) ms g), names')
  end.

(** ** read_osm_geometry.cc *)

(** a node reference: None if its location is invalid, else the projected point
    (latlng_to_fixed, third party) *)
Definition loc := option pt.

(** read_osm_geometry.cc:24-34 nodes_to_fixed *)
Fixpoint nodes_to_fixed (ns : list loc) : line :=
  match ns with
  | [] => []
  | Some p :: ns' => p :: nodes_to_fixed ns'
  | None :: ns' => nodes_to_fixed ns'
  end.

(** read_osm_geometry.cc:13-21 *)
Definition read_node (n : loc) : geom := match n with Some p => GPoint [p] | None => GNull end.
(** read_osm_geometry.cc:36-46 *)
Definition read_way (ns : list loc) : geom :=
  let l := nodes_to_fixed ns in if (length l <? 2)%nat then GNull else GLine [l].

Definition pt_eqb (a b : pt) : bool := ((fst a =? fst b) && (snd a =? snd b))%Z.
(** read_osm_geometry.cc:59-61, 77-79 *)
Definition close_ring (r : line) : line :=
  match r with
  | [] => []
  | p :: _ => if pt_eqb p (last r p) then r else r ++ [p]
  end.

Inductive area_item := AOuter (ns : list loc) | AInner (ns : list loc) | AOther.

(** read_osm_geometry.cc:48-95; [acc] holds the polygons read so far, latest first.
    Line 82 pops a point of the last inner ring (not the ring); popping from an
    empty vector is undefined behaviour. *)
Fixpoint read_area_items (acc : list poly) (items : list area_item) : res geom :=
  match items with
  | [] => match acc with [] => Ok GNull | _ => Ok (GPoly (rev acc)) end
  | AOther :: r => read_area_items acc r
  | AOuter ns :: r =>
      let ring := close_ring (nodes_to_fixed ns) in
      if (length ring <? 3)%nat then Ok GNull else read_area_items ((ring, []) :: acc) r
  | AInner ns :: r =>
      match acc with
      | [] => Throw
      | (o, is) :: acc' =>
          let ring := close_ring (nodes_to_fixed ns) in
          if (length ring <? 3)%nat then
            match ring with
            | [] => UB
            | _ => read_area_items ((o, is ++ [removelast ring]) :: acc') r
            end
          else read_area_items ((o, is ++ [ring]) :: acc') r
      end
  end.
Definition read_area (items : list area_item) : res geom := read_area_items [] items.
