(** Specification vocabulary for features. *)
From Coq Require Import Permutation.
From Verif Require Import Base ModelTile ModelCodec ModelGeom SpecGeom ModelFeature.
Open Scope N_scope.

(** C++ value ranges of a feature's members *)
Definition feature_ok (f : feature) : Prop :=
  f_id f < 2 ^ 64 /\ f_layer f < kInvalidLayer /\ f_minz f < 2 ^ 32 /\ f_maxz f < 2 ^ 32 /\
  coords64 (f_geom f).

(** the decoder knows every id the encoder hands out *)
Definition coder_ok (enc : meta -> option N) (dec : N -> res meta) : Prop :=
  forall m i, enc m = Some i -> i < 2 ^ 64 /\ dec i = Ok m.

(** metadata after a round trip: unchanged in fast mode, otherwise dictionary
    entries first *)
Definition coded (enc : meta -> option N) (m : meta) : bool :=
  match enc m with Some _ => true | None => false end.
Definition meta_after (enc : meta -> option N) (fast : bool) (ms : list meta) : list meta :=
  if fast then ms else filter (coded enc) ms ++ filter (fun m => negb (coded enc m)) ms.

(** zoom level inside the inclusive range; closed boxes intersect *)
Definition zoom_visible (z : N) (f : feature) : Prop :=
  z = kInvalidZoomLevel \/ f_minz f <= z <= f_maxz f.
Definition axis_visible (qlo qhi lo hi : Z) : Prop :=
  qlo = max64 \/ qhi = max64 \/ (lo <= qhi /\ qlo <= hi)%Z.
Definition box_visible (q b : fbox) : Prop :=
  axis_visible (bminx q) (bmaxx q) (bminx b) (bmaxx b) /\
  axis_visible (bminy q) (bmaxy q) (bminy b) (bmaxy b).

(** the geometry a reader with hints [h] gets *)
Definition read_geom (rd : mask_reader) (h : hints) (masks : list bytes) (g : geom) : geom :=
  if negb (h_zoom h =? kInvalidZoomLevel) && negb (match masks with [] => true | _ => false end)
  then select_geom rd (h_zoom h) masks g else normal g.

Definition feature_masks (mk : line -> bytes) (fast : bool) (g : geom) : list bytes :=
  if fast then [] else make_masks mk g.

(** [mk] produces masks the reader accepts at the given zoom level *)
Definition mask_ok (mk : line -> bytes) (rd : mask_reader) (z : N) : Prop :=
  forall l, fst (rd (mk l) z) = Z.of_nat (length l).

Definition opt_feature (f : feature) (ms : list meta) (g : geom) : option feature :=
  Some (Feature (f_id f) (f_layer f) (f_minz f) (f_maxz f) ms g).

(** the points a bounding box is taken over *)
Definition box_points (g : geom) : list pt :=
  match g with GPoly ps => flat_map poly_points ps | _ => geom_points g end.


(** the feature with metadata permuted and another geometry *)
Definition same_but (f f' : feature) (g : geom) : Prop :=
  f_id f' = f_id f /\ f_layer f' = f_layer f /\ f_minz f' = f_minz f /\ f_maxz f' = f_maxz f /\
  Permutation (f_meta f') (f_meta f) /\ f_geom f' = g.

(** the point at fraction k/n of the segment from a to b lies in the closed box q *)
Definition segment_in_box (a b : pt) (q : fbox) (k n : Z) : Prop :=
  (0 <= k <= n /\ 0 < n /\
   n * bminx q <= (n - k) * fst a + k * fst b <= n * bmaxx q /\
   n * bminy q <= (n - k) * snd a + k * snd b <= n * bmaxy q)%Z.
