(** Specification vocabulary for importing OSM objects. *)
From Coq Require Import Permutation Sorting.Sorted.
From Verif Require Import Base ModelTile ModelCodec ModelGeom ModelFeature ModelDict ModelOsm SpecDict SpecMvt.
Open Scope N_scope.

(** decimal numerals: the value of an optional minus sign and digits *)
Inductive numeral : bytes -> Z -> Prop :=
| num_digit c : 48 <= c <= 57 -> numeral [c] (Z.of_N c - 48)
| num_more s c v : numeral s v -> 48 <= c <= 57 -> numeral (s ++ [c]) (v * 10 + (Z.of_N c - 48)).
Inductive integer_text : bytes -> Z -> Prop :=
| int_pos s v : numeral s v -> integer_text s v
| int_neg s v : numeral s v -> integer_text (45 :: s) (- v).

(** a valid closed ring of the points [ps]: the points, with the first one
    repeated at the end unless it is there already *)
Definition closes (ps r : line) : Prop :=
  exists p tl, ps = p :: tl /\ ((last ps p = p /\ r = ps) \/ (last ps p <> p /\ r = ps ++ [p])).

(** the points of the nodes whose location is known, in order *)
Definition known (ns : list loc) : line := flat_map (fun n => match n with Some p => [p] | None => [] end) ns.

(** an area as OSM describes it: outer rings, each followed by its inner rings *)
Definition area_items (parts : list (list loc * list (list loc))) : list area_item :=
  flat_map (fun p => AOuter (fst p) :: map AInner (snd p)) parts.

(** the items that are rings *)
Definition is_ring (i : area_item) : bool := match i with AOther => false | _ => true end.

(** the last approval call: zoom range given to the feature *)
Definition approval (area : Z) (c : call) : option N :=
  match c with
  | CApproveMin mn => Some mn
  | CApproveFull => Some 0
  | CApproveMinByArea args =>
      (fix go (l : list Z) := match l with
        | mn :: limit :: r => if ((limit =? -1) || (area <? limit))%Z then Some (to_u32 mn) else go r
        | _ => None end) args
  | _ => None
  end.
Fixpoint last_some {A B} (f : A -> option B) (l : list A) : option B :=
  match l with [] => None | x :: r => match last_some f r with Some b => Some b | None => f x end end.
Definition layer_of (c : call) : option bytes := match c with CLayer n => Some n | _ => None end.
(** no call of the script fails *)
Definition script_ok (cs : list call) : Prop :=
  Forall (fun c => match c with CApproveMinByArea args => Nat.even (length args) = true | _ => True end) cs.
(** the text true *)
Definition text_true : bytes := [116; 114; 117; 101].
(** the metadata entries a call adds *)
Definition added stod dbl (o : osm_obj) (c : call) : list meta :=
  match c with
  | CAddBool k v => [(k, encode_bool v)]
  | CAddString k v => [(k, encode_string v)]
  | CAddNumeric k d => [(k, encode_numeric d)]
  | CAddInteger k z => [(k, encode_integer z)]
  | CTagBool k => match tag_value (o_tags o) k with Some v => [(k, encode_bool (negb (bytes_eqb text_true v)))] | None => [] end
  | CTagString k => match tag_value (o_tags o) k with Some v => [(k, encode_string v)] | None => [] end
  | CTagNumeric k => match tag_value (o_tags o) k with
                     | Some v => match stod v with Some d => [(k, encode_numeric d)] | None => [] end
                     | None => [] end
  | CTagInteger k => match tag_value (o_tags o) k with
                     | Some v => match from_chars64 v with Some z => [(k, encode_numeric (dbl z))] | None => [] end
                     | None => [] end
  | _ => []
  end.
(** one value per key: the smallest one (as a byte string) *)
Definition one_per_key (ms r : list meta) : Prop :=
  StronglySorted (fun a b => bytes_ltb (fst a) (fst b) = true) r /\
  forall k v, In (k, v) r <-> In (k, v) ms /\ forall v', In (k, v') ms -> bytes_ltb v' v = false.
