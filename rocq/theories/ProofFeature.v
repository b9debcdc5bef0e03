From Coq Require Import Permutation.
From Verif Require Import Base BaseProof ModelTile ModelCodec ProofCodec ModelGeom SpecGeom ProofGeom
  ModelFeature SpecFeature.
Open Scope N_scope.
Arguments field_bytes : simpl never.
Arguments field_varint : simpl never.
Arguments get_len : simpl never.
Arguments get_varint : simpl never.

(** ** Bounding box bounds *)
Lemma box_fold_bounds ps : forall b,
  Forall pt64 ps ->
  int64_ok (bminx b) = true -> int64_ok (bminy b) = true ->
  int64_ok (bmaxx b) = true -> int64_ok (bmaxy b) = true ->
  let b' := fold_left box_add ps b in
  int64_ok (bminx b') = true /\ int64_ok (bminy b') = true /\
  int64_ok (bmaxx b') = true /\ int64_ok (bmaxy b') = true.
Proof.
  induction ps as [|p ps IH]; intros b HF H1 H2 H3 H4; [cbn; auto|].
  inversion HF as [|? ? [P1 P2] HF']; subst. cbn [fold_left].
  apply IH; [assumption|..]; unfold box_add; cbn [bminx bminy bmaxx bmaxy];
    unfold int64_ok in *; lia.
Qed.

Lemma poly_points_64 ps : Forall poly64 ps -> Forall pt64 (flat_map poly_points ps).
Proof.
  induction 1 as [|[o is] ps [H1 H2] HF IH]; [constructor|].
  cbn [flat_map]. apply Forall_app. split; [|exact IH].
  unfold poly_points. cbn [fst snd] in *. destruct o; [|assumption].
  clear -H2. induction H2; cbn; [constructor|]. apply Forall_app. auto.
Qed.

Lemma bounding_box_64 g : coords64 g ->
  let b := bounding_box g in
  int64_ok (bminx b) = true /\ int64_ok (bminy b) = true /\
  int64_ok (bmaxx b) = true /\ int64_ok (bmaxy b) = true.
Proof.
  intros HC. unfold coords64 in HC. fold pt64 in HC.
  destruct g as [|ps|ls|ps]; cbn [bounding_box geom_points] in *.
  - repeat split; reflexivity.
  - apply box_fold_bounds; try assumption; reflexivity.
  - apply box_fold_bounds; try assumption; reflexivity.
  - apply box_fold_bounds; try reflexivity. now apply poly_points_64, coords64_polys.
Qed.

(** ** Header *)
Lemma hdr_next_enc z r : int64_ok z = true ->
  hdr_next (packed_sint (z :: r)) = Ok (z, packed_sint r).
Proof.
  intros H. unfold hdr_next, packed_sint. cbn [flat_map].
  destruct (varint_nonempty (zigzag z)) as (b & l & E). rewrite E at 1. cbn [app negb verify bind].
  now apply next_sint_enc.
Qed.

Definition zoom_hidden (z : N) (f : feature) : bool :=
  negb (z =? kInvalidZoomLevel) && ((z <? f_minz f) || (f_maxz f <? z)).
Definition axis_hidden (qlo qhi lo hi : Z) : bool :=
  (negb (qlo =? max64) && negb (qhi =? max64) && ((hi <? qlo) || (qhi <? lo)))%Z.
Definition box_hidden (q b : fbox) : bool :=
  axis_hidden (bminx q) (bmaxx q) (bminx b) (bmaxx b) ||
  axis_hidden (bminy q) (bmaxy q) (bminy b) (bmaxy b).
Definition hidden (h : hints) (f : feature) : bool :=
  zoom_hidden (h_zoom h) f || box_hidden (h_box h) (bounding_box (f_geom f)).

Lemma zoom_hidden_spec z f : zoom_hidden z f = false <-> zoom_visible z f.
Proof. unfold zoom_hidden, zoom_visible. lia. Qed.
Lemma box_hidden_spec q b : box_hidden q b = false <-> box_visible q b.
Proof. unfold box_hidden, box_visible, axis_hidden, axis_visible. lia. Qed.

Lemma to_i64_u64 l : l < 2 ^ 64 -> to_u64 (to_i64 l) = l /\ int64_ok (to_i64 l) = true.
Proof.
  intros H. unfold to_u64, to_i64, int64_ok, min64, max64. rewrite N.mod_small by assumption.
  destruct (Z.ltb_spec (Z.of_N l) (2 ^ 63)); lia.
Qed.

Lemma to_u32_of v : v < 2 ^ 32 -> to_u32 (Z.of_N v) = v.
Proof. intros H. unfold to_u32. lia. Qed.

Lemma read_header_enc h f hd :
  feature_ok f -> feature_header f = Ok hd ->
  read_header h (packed_sint hd) =
  Ok (if hidden h f then None else Some (f_minz f, f_maxz f, f_layer f)).
Proof.
  intros (Hid & Hl & Hm1 & Hm2 & HC) H. unfold feature_header in H.
  destruct (bounding_box_64 _ HC) as (B1 & B2 & B3 & B4).
  set (b := bounding_box (f_geom f)) in *.
  apply bind_ok in H. destruct H as (x1 & E1 & H).
  apply bind_ok in H. destruct H as (x2 & E2 & H).
  apply bind_ok in H. destruct H as (y1 & E3 & H).
  apply bind_ok in H. destruct H as (y2 & E4 & H). apply Ok_inj in H. subst hd.
  apply sub64_ok in E1, E2, E3, E4.
  destruct E1 as [-> I1], E2 as [-> I2], E3 as [-> I3], E4 as [-> I4].
  assert (Hl' : f_layer f < 2 ^ 64) by (unfold kInvalidLayer in Hl; lia).
  destruct (to_i64_u64 _ Hl') as [L1 L2].
  assert (Z1 : int64_ok (Z.of_N (f_minz f)) = true) by (unfold int64_ok, min64, max64; lia).
  assert (Z2 : int64_ok (Z.of_N (f_maxz f)) = true) by (unfold int64_ok, min64, max64; lia).
  unfold read_header.
  rewrite hdr_next_enc by assumption. cbn [bind]. rewrite to_u32_of by assumption.
  unfold hidden, zoom_hidden, box_hidden, axis_hidden.
  change (bounding_box (f_geom f)) with b.
  set (zh := h_zoom h). set (q := h_box h).
  destruct (negb (zh =? kInvalidZoomLevel)) eqn:EZ; cbn [andb].
  - destruct (zh <? f_minz f) eqn:EA; cbn [orb]; [reflexivity|].
    rewrite hdr_next_enc by assumption. cbn [bind]. rewrite to_u32_of by assumption.
    destruct (f_maxz f <? zh) eqn:EB; cbn [orb]; [reflexivity|].
    rewrite hdr_next_enc by assumption. cbn [bind].
    unfold add64. replace (kMagicOffset + (bminx b - kMagicOffset))%Z with (bminx b) by lia.
    rewrite B1. cbn [bind]. rewrite hdr_next_enc by assumption. cbn [bind].
    replace (bminx b + (bmaxx b - bminx b))%Z with (bmaxx b) by lia. rewrite B3. cbn [bind].
    destruct (negb (bminx q =? max64)%Z && negb (bmaxx q =? max64)%Z && ((bmaxx b <? bminx q)%Z || (bmaxx q <? bminx b)%Z));
      cbn [orb]; [reflexivity|].
    rewrite hdr_next_enc by assumption. cbn [bind].
    replace (kMagicOffset + (bminy b - kMagicOffset))%Z with (bminy b) by lia.
    rewrite B2. cbn [bind]. rewrite hdr_next_enc by assumption. cbn [bind].
    replace (bminy b + (bmaxy b - bminy b))%Z with (bmaxy b) by lia. rewrite B4. cbn [bind].
    destruct (negb (bminy q =? max64)%Z && negb (bmaxy q =? max64)%Z && ((bmaxy b <? bminy q)%Z || (bmaxy q <? bminy b)%Z));
      cbn [orb]; [reflexivity|].
    rewrite hdr_next_enc by assumption. cbn [bind packed_sint flat_map verify]. now rewrite L1.
  - cbn [orb].
    rewrite hdr_next_enc by assumption. cbn [bind]. rewrite to_u32_of by assumption.
    rewrite hdr_next_enc by assumption. cbn [bind].
    unfold add64. replace (kMagicOffset + (bminx b - kMagicOffset))%Z with (bminx b) by lia.
    rewrite B1. cbn [bind]. rewrite hdr_next_enc by assumption. cbn [bind].
    replace (bminx b + (bmaxx b - bminx b))%Z with (bmaxx b) by lia. rewrite B3. cbn [bind].
    destruct (negb (bminx q =? max64)%Z && negb (bmaxx q =? max64)%Z && ((bmaxx b <? bminx q)%Z || (bmaxx q <? bminx b)%Z));
      cbn [orb]; [reflexivity|].
    rewrite hdr_next_enc by assumption. cbn [bind].
    replace (kMagicOffset + (bminy b - kMagicOffset))%Z with (bminy b) by lia.
    rewrite B2. cbn [bind]. rewrite hdr_next_enc by assumption. cbn [bind].
    replace (bminy b + (bmaxy b - bminy b))%Z with (bmaxy b) by lia. rewrite B4. cbn [bind].
    destruct (negb (bminy q =? max64)%Z && negb (bmaxy q =? max64)%Z && ((bmaxy b <? bminy q)%Z || (bmaxy q <? bminy b)%Z));
      cbn [orb]; [reflexivity|].
    rewrite hdr_next_enc by assumption. cbn [bind packed_sint flat_map verify]. now rewrite L1.
Qed.

(** ** Loop steps *)
Lemma loop_fuel dec rd h n : forall s bs r k,
  feature_loop dec rd h n s bs = r -> r <> Fuel -> feature_loop dec rd h (n + k) s bs = r.
Proof.
  induction n as [|n IH]; intros s bs r k H Hr; cbn [feature_loop Nat.add] in *; [congruence|].
  destruct (next_field bs) as [[[[tag wt] rr]|]| | |]; cbn [bind] in *; try assumption.
  destruct (feature_field dec rd h s tag wt rr) as [[[s' r']|]| | |]; cbn [bind] in *; try assumption.
  now apply IH.
Qed.

Section Steps.
Context (dec : N -> res meta) (rd : mask_reader) (h : hints).
Notation loop := (feature_loop dec rd h).

Lemma loop_end n s : loop (S n) s [] = Ok (Some s).
Proof. reflexivity. Qed.

Lemma loop_bytes n s tag d rest : tag_ok tag = true ->
  loop (S n) s (field_bytes tag d ++ rest) =
  bind (feature_field dec rd h s tag WT_LEN (varint_enc (blen d) ++ d ++ rest))
    (fun o2 => match o2 with None => Ok None | Some (s', r') => loop n s' r' end).
Proof. intros H. cbn [feature_loop]. rewrite next_field_bytes by assumption. reflexivity. Qed.

Lemma loop_keys ks : forall n id z1 z2 ly fill ms masks g rest,
  Forall (fun k => blen k < 2 ^ 32) ks ->
  loop (length ks + n) (FState id z1 z2 ly fill ms masks g) (flat_map (field_bytes F_KEYS) ks ++ rest)
  = loop n (FState id z1 z2 ly fill (ms ++ map (fun k => (k, [])) ks) masks g) rest.
Proof.
  induction ks as [|k ks IH]; intros n id z1 z2 ly fill ms masks g rest HF.
  - cbn. now rewrite app_nil_r.
  - inversion HF; subst. cbn [length Nat.add flat_map map]. rewrite <- app_assoc.
    rewrite loop_bytes by reflexivity. unfold feature_field. cbn [F_HEADER F_ID F_META_PAIRS F_KEYS N.eqb Pos.eqb].
    rewrite get_len_enc by assumption. cbn [bind s_id s_minz s_maxz s_layer s_fill s_meta s_masks s_geom].
    rewrite IH by assumption. rewrite <- app_assoc. reflexivity.
Qed.

Lemma set_value_app pre k v rest :
  set_value (length pre) v (pre ++ (k, []) :: rest) = pre ++ (k, v) :: rest.
Proof. induction pre as [|[a b] pre IH]; cbn [length app set_value]; [reflexivity|]. now rewrite IH. Qed.

Lemma loop_values ms : forall n id z1 z2 ly pre masks g rest,
  Forall (fun m : meta => blen (snd m) < 2 ^ 32) ms ->
  loop (length ms + n) (FState id z1 z2 ly (length pre) (pre ++ map (fun m => (fst m, [])) ms) masks g)
       (flat_map (fun m => field_bytes F_VALUES (snd m)) ms ++ rest)
  = loop n (FState id z1 z2 ly (length (pre ++ ms)) (pre ++ ms) masks g) rest.
Proof.
  induction ms as [|[k v] ms IH]; intros n id z1 z2 ly pre masks g rest HF.
  - cbn [length map flat_map app Nat.add]. now rewrite !app_nil_r.
  - inversion HF; subst. cbn [length Nat.add flat_map map fst snd]. rewrite <- app_assoc.
    rewrite loop_bytes by reflexivity. unfold feature_field.
    cbn [F_HEADER F_ID F_META_PAIRS F_KEYS F_VALUES N.eqb Pos.eqb s_fill s_meta].
    match goal with |- context [verify ?c] => replace c with true end.
    2:{ symmetry. apply Nat.ltb_lt. rewrite app_length. cbn [length]. lia. }
    cbn [verify bind]. rewrite get_len_enc by assumption.
    cbn [bind s_id s_minz s_maxz s_layer s_fill s_meta s_masks s_geom].
    rewrite set_value_app.
    specialize (IH n id z1 z2 ly (pre ++ [(k, v)]) masks g rest).
    rewrite <- !app_assoc in IH. cbn [app] in IH.
    rewrite (app_length pre [(k, v)]) in IH. cbn [length] in IH. rewrite Nat.add_1_r in IH.
    apply IH. assumption.
Qed.

Lemma loop_masks mks : forall n id z1 z2 ly fill ms masks g rest,
  Forall (fun k => blen k < 2 ^ 32) mks ->
  loop (length mks + n) (FState id z1 z2 ly fill ms masks g) (flat_map (field_bytes F_MASKS) mks ++ rest)
  = loop n (FState id z1 z2 ly fill ms (masks ++ mks) g) rest.
Proof.
  induction mks as [|k ks IH]; intros n id z1 z2 ly fill ms masks g rest HF.
  - cbn. now rewrite app_nil_r.
  - inversion HF; subst. cbn [length Nat.add flat_map map]. rewrite <- app_assoc.
    rewrite loop_bytes by reflexivity. unfold feature_field.
    cbn [F_HEADER F_ID F_META_PAIRS F_KEYS F_VALUES F_MASKS N.eqb Pos.eqb].
    rewrite get_len_enc by assumption. cbn [bind s_id s_minz s_maxz s_layer s_fill s_meta s_masks s_geom].
    rewrite IH by assumption. rewrite <- app_assoc. reflexivity.
Qed.
End Steps.

Lemma read_ids_enc dec ids : forall ms fuel,
  Forall2 (fun i m => i < 2 ^ 64 /\ dec i = Ok m) ids ms ->
  (length ids <= fuel)%nat ->
  read_ids dec fuel (flat_map varint_enc ids) = Ok ms.
Proof.
  induction ids as [|i ids IH]; intros ms fuel HF HL.
  - inversion HF; subst. destruct fuel; reflexivity.
  - inversion HF as [|? m ? ms' [H1 H2] HF']; subst. cbn [length] in HL.
    destruct fuel as [|fuel]; [lia|]. cbn [flat_map].
    destruct (varint_nonempty i) as (b & l & E).
    assert (HN : exists b' l', varint_enc i ++ flat_map varint_enc ids = b' :: l')
      by (rewrite E; cbn [app]; eauto).
    destruct HN as (b' & l' & EN). cbn [read_ids]. rewrite EN, <- EN.
    rewrite varint_roundtrip by assumption. cbn [bind]. rewrite H2. cbn [bind].
    rewrite (IH ms' fuel HF') by lia. reflexivity.
Qed.

Lemma flat_varint_len ids : (length ids <= length (flat_map varint_enc ids))%nat.
Proof.
  induction ids as [|i ids IH]; [cbn; lia|]. cbn [flat_map length]. rewrite app_length.
  pose proof (varint_len_pos i). lia.
Qed.

Lemma split_meta_spec enc dec ms ids rest : coder_ok enc dec ->
  split_meta enc ms = (ids, rest) ->
  Forall2 (fun i m => i < 2 ^ 64 /\ dec i = Ok m) ids (filter (coded enc) ms) /\
  rest = filter (fun m => negb (coded enc m)) ms.
Proof.
  intros HC. revert ids rest. induction ms as [|m ms IH]; intros ids rest H; cbn [split_meta] in H.
  - injection H as <- <-. split; [constructor | reflexivity].
  - destruct (split_meta enc ms) as [ids' rest'] eqn:E. destruct (IH _ _ eq_refl) as [H1 H2].
    assert (EC : coded enc m = match enc m with Some _ => true | None => false end) by reflexivity.
    cbn [filter]. rewrite EC. destruct (enc m) as [i|] eqn:EM; injection H as <- <-; cbn [negb].
    + split; [|exact H2]. constructor; [|exact H1]. now apply HC.
    + split; [exact H1 |]. now rewrite H2.
Qed.

(** sizes: the pieces of a message are not longer than the message *)
Lemma fields_small {A} (g : A -> bytes) tag (l : list A) (n : N) :
  blen (flat_map (fun a => field_bytes tag (g a)) l) < n -> Forall (fun a => blen (g a) < n) l.
Proof.
  induction l as [|a l IH]; intros H; [constructor|].
  cbn [flat_map] in H. rewrite blen_app in H.
  pose proof (field_bytes_len tag (g a)).
  constructor; [lia|]. apply IH. lia.
Qed.

Lemma fields_count {A} (g : A -> bytes) tag (l : list A) :
  (length l <= length (flat_map (fun a => field_bytes tag (g a)) l))%nat.
Proof.
  induction l as [|a l IH]; [cbn; lia|]. cbn [flat_map length]. rewrite app_length.
  pose proof (field_bytes_pos tag (g a)). lia.
Qed.

Lemma make_masks_fit mk rd z g : mask_ok mk rd z -> geom_masks_fit rd z (make_masks mk g) g.
Proof.
  intros H. destruct g as [|ps|ls|ps]; cbn; try exact I.
  - unfold masks_fit. induction ls; cbn; constructor; auto.
  - unfold masks_fit, poly_rings. induction ps as [|[o is] ps IH]; cbn [flat_map fst snd]; [constructor|].
    cbn [app]. constructor; [apply H|]. apply Forall2_app; [|exact IH].
    clear IH. induction is; cbn; constructor; auto.
Qed.

Lemma deserialize_serialize_feature enc dec mk rd h fast f bs :
  feature_ok f -> coder_ok enc dec -> (h_zoom h <> kInvalidZoomLevel -> mask_ok mk rd (h_zoom h)) ->
  serialize_feature enc mk fast f = Ok bs -> blen bs < 2 ^ 32 ->
  deserialize_feature dec rd h bs =
  Ok (if hidden h f then None
      else match read_geom rd h (feature_masks mk fast (f_geom f)) (f_geom f) with
           | GNull => if negb (h_zoom h =? kInvalidZoomLevel)
                         && negb (match feature_masks mk fast (f_geom f) with [] => true | _ => false end)
                      then None else opt_feature f (meta_after enc fast (f_meta f)) GNull
           | g => opt_feature f (meta_after enc fast (f_meta f)) g
           end).
Proof.
  intros Hf Hc Hmk H Hb.
  pose proof Hf as (Hid & Hl & _ & _ & HC).
  unfold serialize_feature in H.
  apply bind_ok in H. destruct H as (hd & EH & H).
  apply bind_ok in H. destruct H as (gb & EG & H). apply Ok_inj in H.
  set (masks := feature_masks mk fast (f_geom f)).
  assert (EM : (if fast then [] else flat_map (field_bytes F_MASKS) (make_masks mk (f_geom f)))
               = flat_map (field_bytes F_MASKS) masks)
    by (unfold masks, feature_masks; destruct fast; reflexivity).
  rewrite EM in H. clear EM.
  assert (EMeta : exists ids ms1 rest,
    meta_fields enc fast (f_meta f) = field_packed_u64 F_META_PAIRS ids
      ++ flat_map (fun m => field_bytes F_KEYS (fst m)) rest
      ++ flat_map (fun m => field_bytes F_VALUES (snd m)) rest /\
    Forall2 (fun i m => i < 2 ^ 64 /\ dec i = Ok m) ids ms1 /\
    meta_after enc fast (f_meta f) = ms1 ++ rest).
  { unfold meta_fields, meta_after. destruct fast.
    - exists [], [], (f_meta f). repeat split; constructor.
    - destruct (split_meta enc (f_meta f)) as [ids rest] eqn:E.
      destruct (split_meta_spec enc dec _ _ _ Hc E) as [H1 H2].
      exists ids, (filter (coded enc) (f_meta f)), rest. repeat split; try assumption. now rewrite H2. }
  destruct EMeta as (ids & ms1 & rest & EMF & HIds & EMA). rewrite EMF in H. rewrite EMA.
  assert (HN : hd <> []).
  { unfold feature_header in EH.
    repeat (apply bind_ok in EH; destruct EH as (? & _ & EH)). injection EH as <-. discriminate. }
  assert (EHP : field_packed_sint64 F_HEADER hd = field_bytes F_HEADER (packed_sint hd))
    by (destruct hd; [congruence | reflexivity]).
  rewrite EHP in H. clear EHP.
  (* sizes *)
  assert (Hb' := Hb). rewrite <- H in Hb'. rewrite !blen_app in Hb'.
  pose proof (field_bytes_len F_HEADER (packed_sint hd)) as S1.
  pose proof (field_bytes_len F_GEOMETRY gb) as S2.
  assert (SK : Forall (fun k => blen k < 2 ^ 32) (map fst rest)).
  { apply Forall_map. apply (fields_small (@fst bytes bytes) F_KEYS). lia. }
  assert (SV : Forall (fun m : meta => blen (snd m) < 2 ^ 32) rest).
  { apply (fields_small (@snd bytes bytes) F_VALUES). lia. }
  assert (SM : Forall (fun k => blen k < 2 ^ 32) masks).
  { apply (fields_small (fun m => m) F_MASKS). change (fun a : bytes => field_bytes F_MASKS a) with (field_bytes F_MASKS). lia. }
  set (out := if hidden h f then None
      else match read_geom rd h masks (f_geom f) with
           | GNull => if negb (h_zoom h =? kInvalidZoomLevel)
                         && negb (match masks with [] => true | _ => false end)
                      then None
                      else Some (FState (f_id f) (f_minz f) (f_maxz f) (f_layer f) (length (ms1 ++ rest)) (ms1 ++ rest) [] GNull)
           | g => Some (FState (f_id f) (f_minz f) (f_maxz f) (f_layer f) (length (ms1 ++ rest)) (ms1 ++ rest) [] g)
           end).
  set (npairs := match ids with [] => 0%nat | _ => 1%nat end).
  assert (HLoop : feature_loop dec rd h
     (S (S (npairs + (length (map fst rest) + (length rest + (length masks + 2)))))) fstate0 bs = Ok out).
  { rewrite <- H. rewrite loop_bytes by reflexivity.
    unfold feature_field. cbn [F_HEADER N.eqb Pos.eqb].
    rewrite get_len_enc by lia. cbn [bind].
    rewrite (read_header_enc h f hd Hf EH). cbn [bind].
    subst out. destruct (hidden h f); [reflexivity|].
    cbn [fstate0 s_id s_minz s_maxz s_layer s_fill s_meta s_masks s_geom].
    (* id *)
    rewrite <- !app_assoc. cbn [bind feature_loop]. rewrite next_field_varint by reflexivity. cbn [bind].
    unfold feature_field at 1. cbn [F_HEADER F_ID N.eqb Pos.eqb].
    rewrite get_varint_enc by assumption. cbn [bind s_id s_minz s_maxz s_layer s_fill s_meta s_masks s_geom].
    (* pairs *)
    assert (EP : forall n tail,
      feature_loop dec rd h (npairs + n)
        (FState (f_id f) (f_minz f) (f_maxz f) (f_layer f) 0 [] [] GNull)
        (field_packed_u64 F_META_PAIRS ids ++ tail)
      = feature_loop dec rd h n
        (FState (f_id f) (f_minz f) (f_maxz f) (f_layer f) (length ms1) ms1 [] GNull) tail).
    { intros n tail. subst npairs. destruct ids as [|i0 ids0].
      - inversion HIds; subst. reflexivity.
      - unfold field_packed_u64 in Hb' |- *. set (ids := i0 :: ids0) in *.
        cbn [Nat.add]. rewrite loop_bytes by reflexivity. unfold feature_field.
        cbn [F_HEADER F_ID F_META_PAIRS N.eqb Pos.eqb s_meta verify bind].
        pose proof (field_bytes_len F_META_PAIRS (flat_map varint_enc ids)) as S3.
        rewrite get_len_enc by lia. cbn [bind].
        rewrite (read_ids_enc dec ids ms1) by (try assumption; apply flat_varint_len).
        reflexivity. }
    rewrite EP.
    (* keys *)
    match goal with |- context [flat_map ?F rest ++ flat_map _ rest ++ _] =>
      replace (flat_map F rest) with (flat_map (field_bytes F_KEYS) (map fst rest))
        by (rewrite flat_map_concat_map, map_map, <- flat_map_concat_map; reflexivity) end.
    rewrite loop_keys by assumption.
    rewrite map_map. rewrite loop_values by assumption.
    rewrite loop_masks by assumption. cbn [app].
    (* geometry *)
    rewrite <- (app_nil_r (field_bytes F_GEOMETRY gb)).
    rewrite loop_bytes by reflexivity. unfold feature_field.
    cbn [F_HEADER F_ID F_META_PAIRS F_KEYS F_VALUES F_MASKS F_GEOMETRY N.eqb Pos.eqb].
    rewrite get_len_enc by lia. cbn [bind s_id s_minz s_maxz s_layer s_fill s_meta s_masks s_geom].
    unfold read_geom.
    destruct (negb (h_zoom h =? kInvalidZoomLevel) && negb match masks with [] => true | _ :: _ => false end) eqn:EC.
    - assert (fast = false).
      { destruct fast; [|reflexivity]. cbn in EC. rewrite andb_false_r in EC. discriminate. }
      rewrite (geom_masked rd (h_zoom h) masks (f_geom f) gb HC EG ltac:(lia)).
      2:{ subst masks. unfold feature_masks. subst fast. apply make_masks_fit, Hmk. lia. }
      cbn [bind]. destruct (select_geom rd (h_zoom h) masks (f_geom f)); reflexivity.
    - rewrite (geom_roundtrip (f_geom f) gb HC EG ltac:(lia)). cbn [bind feature_loop next_field].
      destruct (normal (f_geom f)); reflexivity. }
  unfold deserialize_feature.
  assert (HFuel : exists k, S (length bs) =
     (S (S (npairs + (length (map fst rest) + (length rest + (length masks + 2))))) + k)%nat).
  { assert (HL : (S (S (npairs + (length (map fst rest) + (length rest + (length masks + 2))))) <= S (length bs))%nat).
    { rewrite <- H. rewrite !app_length, map_length.
      pose proof (field_bytes_pos F_HEADER (packed_sint hd)).
      pose proof (field_bytes_pos F_GEOMETRY gb).
      pose proof (fields_count (@fst bytes bytes) F_KEYS rest).
      pose proof (fields_count (@snd bytes bytes) F_VALUES rest).
      assert (length masks <= length (flat_map (field_bytes F_MASKS) masks))%nat by exact (fields_count (fun m : bytes => m) F_MASKS masks).
      assert (1 <= length (field_varint F_ID (f_id f)))%nat.
      { unfold field_varint. rewrite app_length. pose proof (varint_len_pos (f_id f)). lia. }
      assert (npairs <= length (field_packed_u64 F_META_PAIRS ids))%nat.
      { subst npairs. unfold field_packed_u64. destruct ids; [cbn; lia|]. apply field_bytes_pos. }
      cbn beta in *.
      lia. }
    exists (S (length bs) - S (S (npairs + (length (map fst rest) + (length rest + (length masks + 2))))))%nat.
    lia. }
  destruct HFuel as (k & ->).
  rewrite (loop_fuel _ _ _ _ _ _ _ k HLoop) by discriminate.
  cbn [bind]. subst out. destruct (hidden h f); [reflexivity|].
  assert (HLay : negb (f_layer f =? kInvalidLayer) = true) by lia.
  destruct (read_geom rd h masks (f_geom f)) eqn:EGm;
    [destruct (negb (h_zoom h =? kInvalidZoomLevel) && negb match masks with [] => true | _ :: _ => false end);
       [reflexivity|] | | |];
    cbn [s_id s_minz s_maxz s_layer s_fill s_meta s_masks s_geom];
    rewrite Nat.eqb_refl; cbn [verify bind]; rewrite HLay; reflexivity.
Qed.

(** permutation of the metadata *)
Lemma filter_partition_perm {A} (p : A -> bool) l :
  Permutation (filter p l ++ filter (fun x => negb (p x)) l) l.
Proof.
  induction l as [|a l IH]; [constructor|]. cbn [filter]. destruct (p a); cbn [negb app].
  - constructor. exact IH.
  - etransitivity; [symmetry; apply Permutation_middle|]. constructor. exact IH.
Qed.

Lemma meta_after_perm enc fast ms : Permutation (meta_after enc fast ms) ms.
Proof.
  unfold meta_after. destruct fast; [reflexivity|]. apply filter_partition_perm.
Qed.

(** ** Totality *)
Lemma box_fold_small ps : forall b,
  coord_small (bminx b) -> coord_small (bminy b) -> coord_small (bmaxx b) -> coord_small (bmaxy b) ->
  Forall (fun p => coord_small (fst p) /\ coord_small (snd p)) ps ->
  let b' := fold_left box_add ps b in
  coord_small (bminx b') /\ coord_small (bminy b') /\ coord_small (bmaxx b') /\ coord_small (bmaxy b').
Proof.
  induction ps as [|p ps IH]; intros b H1 H2 H3 H4 HF; [cbn; auto|].
  inversion HF as [|? ? [P1 P2] HF']; subst. cbn [fold_left].
  apply IH; try assumption; unfold box_add; cbn [bminx bminy bmaxx bmaxy]; unfold coord_small in *; lia.
Qed.

Lemma envelope_small ps : ps <> [] ->
  Forall (fun p => coord_small (fst p) /\ coord_small (snd p)) ps ->
  let b := envelope ps in
  coord_small (bminx b) /\ coord_small (bminy b) /\ coord_small (bmaxx b) /\ coord_small (bmaxy b).
Proof.
  intros Hn HF. destruct ps as [|p ps]; [congruence|]. inversion HF as [|? ? [P1 P2] HF']; subst.
  unfold envelope. cbn [fold_left].
  apply box_fold_small; try assumption; unfold box_add, inverse_box; cbn [bminx bminy bmaxx bmaxy];
    unfold coord_small, max64, min64 in *; lia.
Qed.

Lemma serialize_feature_total enc mk fast f :
  coords_small (f_geom f) -> box_points (f_geom f) <> [] ->
  exists bs, serialize_feature enc mk fast f = Ok bs.
Proof.
  intros HC Hn. unfold serialize_feature, feature_header.
  assert (HB : let b := bounding_box (f_geom f) in
    coord_small (bminx b) /\ coord_small (bminy b) /\ coord_small (bmaxx b) /\ coord_small (bmaxy b)).
  { destruct (f_geom f) as [|ps|ls|ps]; cbn [box_points geom_points bounding_box] in *.
    - congruence.
    - now apply envelope_small.
    - now apply envelope_small.
    - apply envelope_small; [assumption|].
      unfold coords_small in HC. cbn [geom_points] in HC. clear Hn.
      induction ps as [|[o is] ps IH]; [constructor|]. cbn [flat_map fst snd] in *.
      apply Forall_app in HC. destruct HC as [HC1 HC2]. apply Forall_app in HC1. destruct HC1 as [H1 H2].
      apply Forall_app. split; [|auto]. unfold poly_points. cbn [fst snd]. destruct o; assumption. }
  cbv zeta in HB. destruct HB as (B1 & B2 & B3 & B4).
  assert (BM : coord_small kMagicOffset) by (unfold coord_small, kMagicOffset; lia).
  rewrite !sub64_small by assumption. cbn [bind].
  pose proof (serialize_geom_total _ HC) as HG.
  destruct (f_geom f) as [|[|p ps]|[|l ls]|[|p ps]]; cbn [box_points geom_points concat flat_map] in Hn;
    try congruence; destruct HG as (bs & ->); cbn [bind]; eauto.
Qed.

(** the meaning of [hidden] *)
Lemma hidden_spec h f : hidden h f = false <->
  zoom_visible (h_zoom h) f /\ box_visible (h_box h) (bounding_box (f_geom f)).
Proof. unfold hidden. rewrite orb_false_iff, zoom_hidden_spec, box_hidden_spec. reflexivity. Qed.

(** closed boxes: the bounding box holds every point *)
Lemma fold_box_grow ps : forall b,
  let b' := fold_left box_add ps b in
  (bminx b' <= bminx b /\ bminy b' <= bminy b /\ bmaxx b <= bmaxx b' /\ bmaxy b <= bmaxy b')%Z.
Proof.
  induction ps as [|p ps IH]; intros b; cbn [fold_left]; [cbv zeta; lia|].
  specialize (IH (box_add b p)). cbv zeta in *.
  assert (H : (bminx (box_add b p) <= bminx b /\ bminy (box_add b p) <= bminy b /\
               bmaxx b <= bmaxx (box_add b p) /\ bmaxy b <= bmaxy (box_add b p))%Z)
    by (unfold box_add; cbn [bminx bminy bmaxx bmaxy]; lia).
  lia.
Qed.

Lemma envelope_holds ps p : In p ps ->
  let b := envelope ps in
  (bminx b <= fst p <= bmaxx b /\ bminy b <= snd p <= bmaxy b)%Z.
Proof.
  unfold envelope. generalize inverse_box. induction ps as [|q ps IH]; intros b0 HI; [contradiction|].
  cbn [fold_left]. destruct HI as [->|HI]; [|now apply IH].
  pose proof (fold_box_grow ps (box_add b0 p)) as H. cbv zeta in *.
  assert (H2 : (bminx (box_add b0 p) <= fst p <= bmaxx (box_add b0 p) /\
               bminy (box_add b0 p) <= snd p <= bmaxy (box_add b0 p))%Z)
    by (unfold box_add; cbn [bminx bminy bmaxx bmaxy]; lia).
  lia.
Qed.

Lemma feature_roundtrip enc dec mk rd fast f bs :
  feature_ok f -> coder_ok enc dec -> proper (f_geom f) ->
  serialize_feature enc mk fast f = Ok bs -> blen bs < 2 ^ 32 ->
  exists f', deserialize_feature dec rd no_hints bs = Ok (Some f') /\ same_but f f' (f_geom f) /\
             (fast = true -> f' = f).
Proof.
  intros H1 H2 H3 H4 H5.
  assert (HM : h_zoom no_hints <> kInvalidZoomLevel -> mask_ok mk rd (h_zoom no_hints)) by (cbn; congruence).
  rewrite (deserialize_serialize_feature enc dec mk rd no_hints fast f bs H1 H2 HM H4 H5).
  assert (EH : hidden no_hints f = false).
  { apply hidden_spec. split; [now left|]. split; left; reflexivity. }
  rewrite EH. unfold read_geom. cbn [no_hints h_zoom N.eqb Pos.eqb kInvalidZoomLevel negb andb].
  rewrite (normal_proper _ H3).
  assert (HP : same_but f (Feature (f_id f) (f_layer f) (f_minz f) (f_maxz f)
     (meta_after enc fast (f_meta f)) (f_geom f)) (f_geom f)).
  { repeat split. apply meta_after_perm. }
  assert (HQ : fast = true -> Feature (f_id f) (f_layer f) (f_minz f) (f_maxz f)
     (meta_after enc fast (f_meta f)) (f_geom f) = f).
  { intros ->. destruct f; reflexivity. }
  destruct (f_geom f) eqn:EG; eexists; (split; [reflexivity|]); auto.
Qed.

Lemma feature_filtered enc dec mk rd h fast f bs :
  feature_ok f -> coder_ok enc dec -> mask_ok mk rd (h_zoom h) -> proper (f_geom f) ->
  h_zoom h <> kInvalidZoomLevel ->
  serialize_feature enc mk fast f = Ok bs -> blen bs < 2 ^ 32 ->
  let g := if fast then f_geom f else select_geom rd (h_zoom h) (make_masks mk (f_geom f)) (f_geom f) in
  (deserialize_feature dec rd h bs = Ok None /\
     (~ (zoom_visible (h_zoom h) f /\ box_visible (h_box h) (bounding_box (f_geom f))) \/ g = GNull)) \/
  (exists f', deserialize_feature dec rd h bs = Ok (Some f') /\ same_but f f' g /\ g <> GNull /\
     zoom_visible (h_zoom h) f /\ box_visible (h_box h) (bounding_box (f_geom f))).
Proof.
  intros H1 H2 HM H3 HZ H4 H5.
  rewrite (deserialize_serialize_feature enc dec mk rd h fast f bs H1 H2 (fun _ => HM) H4 H5).
  destruct (hidden h f) eqn:EH.
  { left. split; [reflexivity|]. left. intros C. apply hidden_spec in C. congruence. }
  apply hidden_spec in EH. unfold read_geom. replace (h_zoom h =? kInvalidZoomLevel) with false by lia.
  cbn [negb andb]. unfold feature_masks.
  set (g := if fast then f_geom f else select_geom rd (h_zoom h) (make_masks mk (f_geom f)) (f_geom f)).
  assert (EG : (if negb match (if fast then [] else make_masks mk (f_geom f)) with [] => true | _ :: _ => false end
            then select_geom rd (h_zoom h) (if fast then [] else make_masks mk (f_geom f)) (f_geom f)
            else normal (f_geom f)) = g).
  { subst g. rewrite (normal_proper _ H3). destruct fast; [reflexivity|].
    destruct (make_masks mk (f_geom f)) eqn:E; cbn [negb]; [|reflexivity].
    destruct (f_geom f) as [|ps|ls|ps]; cbn [select_geom]; try reflexivity.
    - cbn [make_masks proper] in *. destruct ls; [congruence | discriminate].
    - cbn [make_masks proper] in *. destruct ps; [destruct H3; congruence | discriminate]. }
  rewrite EG.
  assert (HG0 : fast = true -> g = f_geom f) by (intros ->; reflexivity).
  assert (HPR : f_geom f <> GNull) by (destruct (f_geom f); [contradiction|discriminate..]).
  destruct g as [|ps|ls|ps] eqn:Eg.
  - left. destruct fast; [specialize (HG0 eq_refl); congruence|].
    destruct (make_masks mk (f_geom f)) eqn:E; cbn [negb].
    + exfalso. subst g. destruct (f_geom f) as [|ps|ls|ps]; cbn [select_geom make_masks proper] in *; try congruence.
      * destruct ps; [destruct H3; congruence | discriminate].
    + split; [reflexivity | now right].
  - right. eexists. split; [reflexivity|]. split; [repeat split; apply meta_after_perm|]. split; [discriminate | exact EH].
  - right. eexists. split; [reflexivity|]. split; [repeat split; apply meta_after_perm|]. split; [discriminate | exact EH].
  - right. eexists. split; [reflexivity|]. split; [repeat split; apply meta_after_perm|]. split; [discriminate | exact EH].
Qed.

Lemma segment_visible g a b q k n :
  In a (box_points g) -> In b (box_points g) -> segment_in_box a b q k n ->
  box_visible q (bounding_box g).
Proof.
  intros HA HB (Hk & Hn & Hx & Hy).
  assert (HE : bounding_box g = envelope (box_points g)).
  { destruct g; cbn [bounding_box box_points geom_points]; try reflexivity. contradiction. }
  rewrite HE. pose proof (envelope_holds _ _ HA) as H1. pose proof (envelope_holds _ _ HB) as H2.
  cbv zeta in *. set (e := envelope (box_points g)) in *.
  split; right; right; nia.
Qed.
