(** Specification vocabulary for the feature inserter. *)
From Coq Require Import Permutation.
From Verif Require Import Base ModelTile SpecTile ModelPackFile SpecPackFile ModelGeom ModelFeature ModelPack ModelRender ModelInserter.
Open Scope N_scope.

(** [t] is a tile of the index zoom level *)
Definition index_tile (z : N) (t : tile) : Prop := tz t = z /\ tx t < 2 ^ z /\ ty t < 2 ^ z.

(** the entry of tile [t]: its packs, read from the pack file, have correct checksums and contain,
    one after the other, the features [vs] *)
Definition stored (T : table) (s : pfile) (t : tile) (vs : list bytes) : Prop :=
  exists k, tile_to_key t 0 = Ok k /\
  match table_get T k with
  | None => vs = []
  | Some v => exists rs ps fss, pack_records_deserialize v = Ok rs /\
      Forall2 (fun r p => pf_get s r = Ok p) rs ps /\
      Forall2 (fun p fs => feature_pack_valid p = true /\ exists rest, unpack_features p = Ok (fs, rest)) ps fss /\
      vs = concat fss
  end.

(** the square of tile [t] (zoom level [z]) and the box have a common point *)
Definition side (z : N) : Z := 2 ^ (32 - Z.of_N z).
Definition meets (z : N) (t : tile) (b : fbox) : bool :=
  (Z.of_N (tx t) * side z <=? bmaxx b)%Z && (bminx b <? (Z.of_N (tx t) + 1) * side z)%Z &&
  (Z.of_N (ty t) * side z <=? bmaxy b)%Z && (bminy b <? (Z.of_N (ty t) + 1) * side z)%Z.

(** the box lies in the world *)
Definition in_world (b : fbox) : Prop :=
  (0 <= bminx b <= bmaxx b)%Z /\ (bmaxx b < 2 ^ 32)%Z /\ (0 <= bminy b <= bmaxy b)%Z /\ (bmaxy b < 2 ^ 32)%Z.

(** the serialized features of the calls [cs] that belong to tile [t], in call order: those of
    the features that meet the tile and those inserted for this tile *)
Definition values_for (z : N) (t : tile) (cs : list icall) : list bytes :=
  flat_map (fun c => match c with
    | CFeature f => match ser f with
                    | Ok v => if meets z t (bounding_box (f_geom f)) then [v] else []
                    | _ => [] end
    | CValue t' v => if tile_eqb t t' then [v] else []
    end) cs.
(** a call with a feature in the world or with a value that is not empty *)
Definition proper (c : icall) : Prop :=
  match c with CFeature f => in_world (bounding_box (f_geom f)) | CValue _ v => v <> [] end.

(** a call the inserter is made for: the feature lies in the world and its serialization has at least
    32 bytes, or the tile is one of the index zoom level and the value has at least 32 bytes;
    the call adds at most [M] bytes to the cache *)
Definition insertable (z M : N) (c : icall) : Prop :=
  match c with
  | CFeature f => in_world (bounding_box (f_geom f)) /\
      exists v, ser f = Ok v /\ 32 <= blen v /\
        forall ts, NoDup ts -> Forall (fun t => index_tile z t /\ meets z t (bounding_box (f_geom f)) = true) ts ->
          N.of_nat (length ts) * blen v <= M
  | CValue t v => index_tile z t /\ 32 <= blen v <= M
  end.

(** the features held by a tile's cache bucket in bytes, and by all buckets *)
Definition mem_bytes (b : bucket) : N := fold_right (fun v n => blen v + n) 0 (b_mem b).
Definition cached_bytes (s : ist) : N := fold_right (fun b n => mem_bytes b + n) 0 (i_buckets s).
(** bytes of calls in progress *)
Definition counted_bytes (s : ist) : N := fold_right (fun t n => th_counted t + n) 0 (i_threads s).

Definition failed (t : ithread) : Prop := match th_pc t with IFailed _ => True | _ => False end.
Definition idle (t : ithread) : Prop := th_pc t = IIdle.
(** the destructor has returned *)
Definition destroyed (s : ist) : Prop := exists t, In t (i_threads s) /\ th_pc t = IDone.
(** features dropped for tile [t] by calls that ended with an exception *)
Definition lost_values (t : tile) (s : ist) : list bytes :=
  flat_map (fun th => match th_pc th with
    | IFailed l => flat_map (fun e => if tile_eqb t (fst e) then snd e else []) l
    | _ => [] end) (i_threads s).

(** a database and a pack file that belong together; tile [t] has the features [old t] *)
Definition fitting (z : N) (T : table) (s : pfile) (old : tile -> list bytes) : Prop :=
  table_sorted T /\ pf_inv s /\ forall t, index_tile z t -> stored T s t (old t).

(** one step of the program other than a new call *)
Definition proceeds (z upper lower : N) (srt : list (N * nat) -> list (N * nat)) (a b : ist) : Prop :=
  istep z upper lower srt a b /\ i_calls b = i_calls a /\ i_final b = i_final a.

(** bytes a thread has counted (feature_inserter_mt.h:71) but not put into the bucket yet *)
Definition underway (s : ist) : N :=
  fold_right (fun t k => match th_pc t with IPut j _ => blen (snd j) | _ => 0 end + k) 0 (i_threads s).
