From Verif Require Import Base BaseProof ModelTile ModelCodec ProofCodec ModelGeom SpecGeom.
Open Scope Z_scope.

Definition pt64 (p : pt) : Prop := int64_ok (fst p) = true /\ int64_ok (snd p) = true.

Lemma packed_sint_app a b : packed_sint (a ++ b) = packed_sint a ++ packed_sint b.
Proof. apply flat_map_app. Qed.

Lemma packed_sint_len ds : (length ds <= length (packed_sint ds))%nat.
Proof.
  unfold packed_sint. induction ds as [|d ds IH]; [cbn; lia|].
  cbn [flat_map length]. rewrite app_length. pose proof (varint_len_pos (zigzag d)). lia.
Qed.

Lemma get_next_enc z ds rest x y : int64_ok z = true ->
  get_next (Dec (packed_sint (z :: ds) ++ rest) x y) = Ok (z, Dec (packed_sint ds ++ rest) x y).
Proof.
  intros H. unfold get_next, packed_sint. cbn [flat_map d_range].
  destruct (varint_nonempty (zigzag z)) as (b & l & E).
  replace (match (varint_enc (zigzag z) ++ flat_map (fun z0 => varint_enc (zigzag z0)) ds) ++ rest with
           | [] => true | _ => false end) with false by (now rewrite E).
  cbn [negb verify bind]. rewrite <- app_assoc, next_sint_enc by assumption.
  reflexivity.
Qed.

Lemma sub64_ok a b d : sub64 a b = Ok d -> d = a - b /\ int64_ok d = true.
Proof.
  unfold sub64. destruct (int64_ok (a - b)) eqn:E; [|discriminate]. intros [= <-]. auto.
Qed.

Lemma enc_points_len ps : forall cx cy ds c, enc_points cx cy ps = Ok (ds, c) ->
  length ds = (2 * length ps)%nat.
Proof.
  induction ps as [|[x y] ps IH]; intros cx cy ds c H; cbn [enc_points] in H.
  - injection H as <- _. reflexivity.
  - apply bind_ok in H. destruct H as (dx & _ & H).
    apply bind_ok in H. destruct H as (dy & _ & H).
    apply bind_ok in H. destruct H as ([ds' c'] & E & H).
    injection H as <- _. cbn [length]. rewrite (IH _ _ _ _ E). lia.
Qed.

Lemma read_points_enc keep ps : forall i cx cy ds c rest,
  Forall pt64 ps -> enc_points cx cy ps = Ok (ds, c) ->
  read_points keep i (length ps) (Dec (packed_sint ds ++ rest) cx cy)
  = Ok (select keep i ps, Dec rest (fst c) (snd c)).
Proof.
  induction ps as [|[x y] ps IH]; intros i cx cy ds c rest HF H; cbn [enc_points] in H.
  - injection H as <- <-. reflexivity.
  - apply bind_ok in H. destruct H as (dx & E1 & H).
    apply bind_ok in H. destruct H as (dy & E2 & H).
    apply bind_ok in H. destruct H as ([ds' c'] & E & H).
    injection H as <- <-.
    apply sub64_ok in E1, E2. destruct E1 as [-> I1], E2 as [-> I2].
    inversion HF as [|? ? [P1 P2] HF']; subst. cbn [fst snd] in *.
    cbn [length read_points]. unfold read_point.
    rewrite get_next_enc by assumption. cbn [bind d_x d_y d_range].
    unfold add64. replace (cx + (x - cx)) with x by lia. rewrite P1. cbn [bind].
    rewrite get_next_enc by assumption. cbn [bind d_x d_y d_range].
    replace (cy + (y - cy)) with y by lia. rewrite P2. cbn [bind].
    rewrite (IH (i + 1) _ _ _ _ rest HF' E). cbn [bind select].
    destruct (keep i); reflexivity.
Qed.

(** masks consumed by one point list *)
Definition mask1 (m : masks) (ps : list pt) (m' : masks) (out : list pt) : Prop :=
  match m with
  | NoMasks => m' = NoMasks /\ out = ps
  | Masks rd z [] => False
  | Masks rd z (m0 :: ms) =>
      fst (rd m0 z) = Z.of_nat (length ps) /\ m' = Masks rd z ms /\ out = select (snd (rd m0 z)) 0 ps
  end.

Lemma select_all ps : forall i, select (fun _ => true) i ps = ps.
Proof. induction ps as [|p ps IH]; intros i; cbn [select]; [reflexivity|]. now rewrite IH. Qed.

Definition short (n : nat) : Prop := Z.of_nat n < 2 ^ 62.

Lemma short_int64 n : short n -> int64_ok (Z.of_nat n) = true.
Proof. unfold short, int64_ok, min64, max64. lia. Qed.

Lemma deserialize_points_enc m m' out c ps ds c' rest :
  Forall pt64 ps -> serialize_points c ps = Ok (ds, c') -> short (length ds) ->
  mask1 m ps m' out ->
  deserialize_points m (Dec (packed_sint ds ++ rest) (fst c) (snd c))
  = Ok (out, m', Dec rest (fst c') (snd c')).
Proof.
  intros HF H Hs Hm. unfold serialize_points in H.
  apply bind_ok in H. destruct H as ([ds1 c1] & E & H). injection H as <- <-.
  pose proof (enc_points_len _ _ _ _ _ E) as L.
  assert (I : int64_ok (Z.of_nat (length ps)) = true).
  { apply short_int64. unfold short in *. cbn [length] in Hs. lia. }
  destruct m as [|rd z [|m0 ms]]; cbn [mask1] in Hm; [| contradiction |]; cbn [deserialize_points].
  - destruct Hm as [-> ->]. rewrite get_next_enc by assumption. cbn [bind].
    replace (0 <=? Z.of_nat (length ps)) with true by lia. cbn [verify bind].
    rewrite Nat2Z.id, (read_points_enc _ _ _ _ _ _ _ rest HF E), select_all. reflexivity.
  - destruct Hm as (Hsz & -> & ->). rewrite get_next_enc by assumption. cbn [bind].
    rewrite Hsz, Z.eqb_refl. cbn [verify bind].
    replace (0 <=? Z.of_nat (length ps)) with true by lia. cbn [verify bind].
    rewrite Nat2Z.id, (read_points_enc _ _ _ _ _ _ _ rest HF E). reflexivity.
Qed.

Inductive maskn : masks -> list line -> masks -> list line -> Prop :=
| maskn_nil m : maskn m [] m []
| maskn_cons m l m1 o ls m2 os :
    mask1 m l m1 o -> maskn m1 ls m2 os -> maskn m (l :: ls) m2 (o :: os).

Lemma deserialize_lines_enc ls : forall m m' out c ds c' rest,
  Forall (Forall pt64) ls -> serialize_lines c ls = Ok (ds, c') -> short (length ds) ->
  maskn m ls m' out ->
  deserialize_lines (length ls) m (Dec (packed_sint ds ++ rest) (fst c) (snd c))
  = Ok (out, m', Dec rest (fst c') (snd c')).
Proof.
  induction ls as [|l ls IH]; intros m m' out c ds c' rest HF H Hs Hm; cbn [serialize_lines] in H.
  - injection H as <- <-. inversion Hm; subst. reflexivity.
  - apply bind_ok in H. destruct H as ([d1 c1] & E1 & H).
    apply bind_ok in H. destruct H as ([d2 c2] & E2 & H). injection H as <- <-.
    inversion HF as [|? ? HFl HFs]; subst. inversion Hm as [|? ? m1 o ? m2 os M1 M2]; subst.
    rewrite app_length in Hs. unfold short in Hs.
    cbn [length deserialize_lines]. rewrite packed_sint_app, <- app_assoc.
    rewrite (deserialize_points_enc m m1 o c l d1 c1 _ HFl E1) by (try assumption; unfold short; lia).
    cbn [bind].
    rewrite (IH m1 m' os c1 d2 c2 rest HFs E2) by (try assumption; unfold short; lia). reflexivity.
Qed.

Lemma serialize_lines_len ls : forall c ds c', serialize_lines c ls = Ok (ds, c') ->
  (length ls <= length ds)%nat.
Proof.
  induction ls as [|l ls IH]; intros c ds c' H; cbn [serialize_lines] in H; [cbn; lia|].
  apply bind_ok in H. destruct H as ([d1 c1] & E1 & H).
  apply bind_ok in H. destruct H as ([d2 c2] & E2 & H). injection H as <- _.
  specialize (IH _ _ _ E2). unfold serialize_points in E1.
  apply bind_ok in E1. destruct E1 as ([? ?] & _ & E1). injection E1 as <- _.
  cbn [app length]. rewrite app_length. lia.
Qed.

Inductive maskp : masks -> list poly -> masks -> list poly -> Prop :=
| maskp_nil m : maskp m [] m []
| maskp_cons m o is m1 o' m2 is' ps m3 ps' :
    mask1 m o m1 o' -> maskn m1 is m2 is' -> maskp m2 ps m3 ps' ->
    maskp m ((o, is) :: ps) m3 ((o', is') :: ps').

Definition poly64 (p : poly) : Prop := Forall pt64 (fst p) /\ Forall (Forall pt64) (snd p).

Lemma deserialize_polys_enc ps : forall m m' out c ds c' rest,
  Forall poly64 ps -> serialize_polys c ps = Ok (ds, c') -> short (length ds) ->
  maskp m ps m' out ->
  deserialize_polys (length ps) m (Dec (packed_sint ds ++ rest) (fst c) (snd c))
  = Ok (out, m', Dec rest (fst c') (snd c')).
Proof.
  induction ps as [|[o is] ps IH]; intros m m' out c ds c' rest HF H Hs Hm; cbn [serialize_polys] in H.
  - injection H as <- <-. inversion Hm; subst. reflexivity.
  - apply bind_ok in H. destruct H as ([d1 c1] & E1 & H).
    apply bind_ok in H. destruct H as ([d2 c2] & E2 & H).
    apply bind_ok in H. destruct H as ([d3 c3] & E3 & H). injection H as <- <-.
    inversion HF as [|? ? [HFo HFi] HFs]; subst. cbn [fst snd] in *.
    inversion Hm as [|? ? ? m1 o' m2 is' ? m3 ps' M1 M2 M3]; subst.
    rewrite !app_length in Hs. cbn [length] in Hs. rewrite app_length in Hs.
    pose proof (serialize_lines_len _ _ _ _ E2) as L2. unfold short in Hs.
    cbn [length deserialize_polys]. rewrite packed_sint_app, <- app_assoc.
    rewrite (deserialize_points_enc m m1 o' c o d1 c1 _ HFo E1) by (try assumption; unfold short; lia).
    cbn [bind].
    change (Z.of_nat (length is) :: d2 ++ d3) with ((Z.of_nat (length is) :: d2) ++ d3).
    rewrite packed_sint_app, <- app_assoc.
    rewrite get_next_enc by (apply short_int64; unfold short; lia). cbn [bind].
    replace (0 <=? Z.of_nat (length is)) with true by lia. cbn [verify bind].
    rewrite Nat2Z.id.
    rewrite (deserialize_lines_enc is m1 m2 is' c1 d2 c2 _ HFi E2) by (try assumption; unfold short; lia).
    cbn [bind].
    rewrite (IH m2 m' ps' c2 d3 c3 rest HFs E3) by (try assumption; unfold short; lia).
    reflexivity.
Qed.

Lemma serialize_polys_len ps : forall c ds c', serialize_polys c ps = Ok (ds, c') ->
  (length ps <= length ds)%nat.
Proof.
  induction ps as [|[o is] ps IH]; intros c ds c' H; cbn [serialize_polys] in H; [cbn; lia|].
  apply bind_ok in H. destruct H as ([d1 c1] & E1 & H).
  apply bind_ok in H. destruct H as ([d2 c2] & E2 & H).
  apply bind_ok in H. destruct H as ([d3 c3] & E3 & H). injection H as <- _.
  specialize (IH _ _ _ E3). rewrite app_length. cbn [length]. rewrite app_length. lia.
Qed.

Lemma drop_small_normal ps : drop_small ps = normal_polys ps.
Proof.
  unfold drop_small, normal_polys. induction ps as [|[o is] ps IH]; [reflexivity|].
  cbn [map filter fst snd].
  assert (R : forall r : line, negb (length r <? 4)%nat = ring_ok r).
  { intros r. unfold ring_ok. destruct (Nat.ltb_spec (length r) 4), (Nat.leb_spec 4 (length r)); lia. }
  rewrite R. destruct (ring_ok o); cbn [map fst snd]; [|exact IH].
  f_equal; [|exact IH]. f_equal. apply filter_ext. exact R.
Qed.

(** ** Message level *)
Lemma make_decoder_enc ds : ds <> [] -> (blen (packed_sint ds) < 2 ^ 32)%N ->
  make_decoder (field_packed_sint64 TAG_GEOMETRY ds) = Ok (Dec (packed_sint ds) kMagicOffset kMagicOffset).
Proof.
  intros Hn Hb. unfold field_packed_sint64, make_decoder.
  destruct ds as [|d0 ds0]; [congruence|].
  rewrite <- (app_nil_r (field_bytes TAG_GEOMETRY _)).
  rewrite next_field_bytes by reflexivity. cbn [bind].
  change (TAG_GEOMETRY =? TAG_GEOMETRY)%N with true. cbn [verify bind].
  rewrite get_len_enc by assumption. reflexivity.
Qed.

Lemma field_bytes_len tag d : (blen d <= blen (field_bytes tag d))%N.
Proof. unfold field_bytes. rewrite !blen_app. lia. Qed.

Lemma packed_short ds : (blen (packed_sint ds) < 2 ^ 32)%N -> short (length ds).
Proof. intros H. pose proof (packed_sint_len ds). unfold short, blen in *. lia. Qed.

Lemma blen_field_packed pre ds : ds <> [] ->
  (blen (packed_sint ds) <= blen (pre ++ field_packed_sint64 TAG_GEOMETRY ds))%N.
Proof.
  intros H. unfold field_packed_sint64. destruct ds; [congruence|].
  rewrite blen_app. pose proof (field_bytes_len TAG_GEOMETRY (packed_sint (z :: ds))). lia.
Qed.

Lemma Forall_concat_in {A} (P : A -> Prop) ls : Forall P (concat ls) -> Forall (Forall P) ls.
Proof.
  induction ls as [|l ls IH]; intros H; [constructor|].
  cbn in H. apply Forall_app in H. constructor; tauto.
Qed.

Lemma coords64_polys ps : Forall pt64 (flat_map (fun p : poly => fst p ++ concat (snd p)) ps) -> Forall poly64 ps.
Proof.
  induction ps as [|[o is] ps IH]; intros H; [constructor|].
  cbn [flat_map fst snd] in H. apply Forall_app in H. destruct H as [H1 H2].
  apply Forall_app in H1. destruct H1 as [H3 H4].
  constructor; [split; cbn; [assumption | now apply Forall_concat_in] | auto].
Qed.

Definition gmask (m : masks) (g g' : geom) : Prop :=
  match g with
  | GNull => False
  | GPoint ps => g' = GPoint ps
  | GLine ls => exists m' out, maskn m ls m' out /\ g' = GLine out
  | GPoly ps => exists m' out, maskp m ps m' out /\
      g' = match normal_polys out with [] => GNull | ps' => GPoly ps' end
  end.

Lemma deserialize_serialize_geom m g g' bs :
  coords64 g -> serialize_geom g = Ok bs -> (blen bs < 2 ^ 32)%N -> gmask m g g' ->
  deserialize_geom m bs = Ok g'.
Proof.
  intros HC H Hb Hm. unfold coords64 in HC. fold pt64 in HC.
  destruct g as [|ps|ls|ps]; cbn [serialize_geom geom_points gmask] in *.
  - discriminate.
  - destruct ps as [|p ps0]; [discriminate|]. cbn [negb verify bind] in H.
    set (ps := p :: ps0) in *.
    apply bind_ok in H. destruct H as ([ds c] & E & H). apply Ok_inj in H; subst bs.
    assert (Hn : ds <> []).
    { unfold serialize_points in E. apply bind_ok in E. destruct E as ([? ?] & _ & E).
      injection E as <- _. discriminate. }
    pose proof (blen_field_packed (field_varint TAG_TYPE 1) ds Hn) as Hl.
    unfold deserialize_geom. rewrite next_field_varint by reflexivity. cbn [bind].
    change (TAG_TYPE =? TAG_TYPE)%N with true. cbn [verify bind].
    rewrite get_varint_enc by reflexivity. cbn [bind N.eqb Pos.eqb].
    rewrite make_decoder_enc by (try assumption; lia). cbn [bind].
    rewrite <- (app_nil_r (packed_sint ds)).
    pose proof (fun rest => deserialize_points_enc NoMasks NoMasks ps (kMagicOffset, kMagicOffset) ps ds c rest) as HD.
    cbn [fst snd] in HD. rewrite HD; try assumption.
    + cbn [bind]. now subst.
    + apply packed_short. lia.
    + split; reflexivity.
  - destruct ls as [|p ps0]; [discriminate|]. cbn [negb verify bind] in H.
    set (ls := p :: ps0) in *.
    apply bind_ok in H. destruct H as ([ds c] & E & H). apply Ok_inj in H; subst bs.
    destruct Hm as (m' & out & Hm & ->).
    set (ds1 := Z.of_nat (length ls) :: ds) in *.
    pose proof (blen_field_packed (field_varint TAG_TYPE 2) ds1 ltac:(discriminate)) as Hl.
    unfold deserialize_geom. rewrite next_field_varint by reflexivity. cbn [bind].
    change (TAG_TYPE =? TAG_TYPE)%N with true. cbn [verify bind].
    rewrite get_varint_enc by reflexivity. cbn [bind N.eqb Pos.eqb].
    rewrite make_decoder_enc by (try discriminate; lia). cbn [bind].
    rewrite <- (app_nil_r (packed_sint ds1)).
    assert (Hs : short (length ds1)) by (apply packed_short; lia).
    pose proof (serialize_lines_len _ _ _ _ E) as HL.
    unfold ds1. rewrite get_next_enc
      by (apply short_int64; unfold short, ds1 in *; cbn [length] in *; lia).
    cbn [bind]. replace (0 <=? Z.of_nat (length ls)) with true by lia. cbn [verify bind].
    rewrite Nat2Z.id.
    pose proof (fun rest => deserialize_lines_enc ls m m' out (kMagicOffset, kMagicOffset) ds c rest) as HD.
    cbn [fst snd] in HD. rewrite HD; try assumption.
    + reflexivity.
    + now apply Forall_concat_in.
    + unfold short, ds1 in *. cbn [length] in *. lia.
  - destruct ps as [|p ps0]; [discriminate|]. cbn [negb verify bind] in H.
    set (ps := p :: ps0) in *.
    apply bind_ok in H. destruct H as ([ds c] & E & H). apply Ok_inj in H; subst bs.
    destruct Hm as (m' & out & Hm & ->).
    set (ds1 := Z.of_nat (length ps) :: ds) in *.
    pose proof (blen_field_packed (field_varint TAG_TYPE 3) ds1 ltac:(discriminate)) as Hl.
    unfold deserialize_geom. rewrite next_field_varint by reflexivity. cbn [bind].
    change (TAG_TYPE =? TAG_TYPE)%N with true. cbn [verify bind].
    rewrite get_varint_enc by reflexivity. cbn [bind N.eqb Pos.eqb].
    rewrite make_decoder_enc by (try discriminate; lia). cbn [bind].
    rewrite <- (app_nil_r (packed_sint ds1)).
    assert (Hs : short (length ds1)) by (apply packed_short; lia).
    pose proof (serialize_polys_len _ _ _ _ E) as HL.
    unfold ds1. rewrite get_next_enc
      by (apply short_int64; unfold short, ds1 in *; cbn [length] in *; lia).
    cbn [bind]. replace (0 <=? Z.of_nat (length ps)) with true by lia. cbn [verify bind].
    rewrite Nat2Z.id.
    pose proof (fun rest => deserialize_polys_enc ps m m' out (kMagicOffset, kMagicOffset) ds c rest) as HD.
    cbn [fst snd] in HD. rewrite HD; try assumption.
    + cbn [bind]. rewrite drop_small_normal. destruct (normal_polys out); reflexivity.
    + now apply coords64_polys.
    + unfold short, ds1 in *. cbn [length] in *. lia.
Qed.

(** ** Instances: no masks, masks *)
Lemma maskn_none ls : maskn NoMasks ls NoMasks ls.
Proof. induction ls; econstructor; [split; reflexivity | assumption]. Qed.

Lemma maskp_none ps : maskp NoMasks ps NoMasks ps.
Proof.
  induction ps as [|[o is] ps IH]; econstructor; [split; reflexivity | apply maskn_none | exact IH].
Qed.

Lemma geom_roundtrip g bs :
  coords64 g -> serialize_geom g = Ok bs -> (blen bs < 2 ^ 32)%N ->
  deserialize_geom NoMasks bs = Ok (normal g).
Proof.
  intros HC H Hb. eapply deserialize_serialize_geom; eauto.
  destruct g as [|ps|ls|ps]; cbn [gmask normal].
  - discriminate.
  - reflexivity.
  - exists NoMasks, ls. split; [apply maskn_none | reflexivity].
  - exists NoMasks, ps. split; [apply maskp_none | reflexivity].
Qed.

Lemma maskn_app_inv rd z ls : forall ms, masks_fit rd z (firstn (length ls) ms) ls ->
  (length ls <= length ms)%nat ->
  maskn (Masks rd z ms) ls (Masks rd z (skipn (length ls) ms)) (select_lines rd z ms ls).
Proof.
  induction ls as [|l ls IH]; intros ms HF HL.
  - cbn. destruct ms; constructor.
  - destruct ms as [|m ms]; [cbn in HL; lia|]. cbn [length firstn skipn] in *.
    inversion HF as [|? ? ? ? H1 H2]; subst. cbn [select_lines].
    econstructor; [cbn [mask1]; eauto|]. apply IH; [exact H2 | cbn [length] in HL; lia].
Qed.

Lemma masks_fit_len rd z ms ls : masks_fit rd z ms ls -> length ms = length ls.
Proof. apply Forall2_len. Qed.

Lemma masks_fit_split rd z ms a b : masks_fit rd z ms (a ++ b) ->
  masks_fit rd z (firstn (length a) ms) a /\ masks_fit rd z (skipn (length a) ms) b.
Proof.
  revert ms. induction a as [|x a IH]; intros ms H.
  - cbn. split; [constructor | exact H].
  - cbn [app] in H. destruct ms as [|m ms]; [inversion H|].
    inversion H as [|? ? ? ? H1 H2]; subst. cbn [length firstn skipn].
    destruct (IH _ H2). split; [constructor; assumption | assumption].
Qed.

Lemma select_lines_app rd z a : forall ms b, (length a <= length ms)%nat ->
  select_lines rd z ms (a ++ b) = select_lines rd z ms a ++ select_lines rd z (skipn (length a) ms) b.
Proof.
  induction a as [|x a IH]; intros ms b H; [cbn; destruct b, ms; reflexivity|].
  destruct ms as [|m ms]; [cbn in H; lia|]. cbn [app select_lines length skipn].
  cbn [length] in H. now rewrite IH by lia.
Qed.

Lemma select_lines_len rd z ls : forall ms, (length ls <= length ms)%nat ->
  length (select_lines rd z ms ls) = length ls.
Proof.
  induction ls as [|l ls IH]; intros ms H; [destruct ms; reflexivity|].
  destruct ms as [|m ms]; [cbn in H; lia|]. cbn [select_lines length] in *. now rewrite IH by lia.
Qed.

Lemma maskp_masks rd z ps : forall ms, masks_fit rd z ms (poly_rings ps) ->
  maskp (Masks rd z ms) ps (Masks rd z []) (rebuild_polys ps (select_lines rd z ms (poly_rings ps))).
Proof.
  induction ps as [|[o is] ps IH]; intros ms HF.
  - cbn in HF. inversion HF; subst. cbn. constructor.
  - unfold poly_rings in HF. cbn [flat_map fst snd] in HF. fold (poly_rings ps) in HF.
    cbn [app] in HF. destruct ms as [|m ms]; [inversion HF|].
    inversion HF as [|? ? ? ? H1 H2]; subst.
    pose proof (masks_fit_len _ _ _ _ H2) as L. rewrite app_length in L.
    apply masks_fit_split in H2. destruct H2 as [H2 H3].
    unfold poly_rings. cbn [flat_map fst snd app]. fold (poly_rings ps).
    cbn [select_lines rebuild_polys fst snd].
    assert (LE : (length is <= length ms)%nat) by lia.
    rewrite select_lines_app by assumption.
    rewrite firstn_app_exact' by (now rewrite select_lines_len).
    rewrite skipn_app_exact' by (now rewrite select_lines_len).
    econstructor.
    + cbn [mask1]. eauto.
    + now apply maskn_app_inv.
    + now apply IH.
Qed.

Lemma geom_masked rd z ms g bs :
  coords64 g -> serialize_geom g = Ok bs -> (blen bs < 2 ^ 32)%N -> geom_masks_fit rd z ms g ->
  deserialize_geom (Masks rd z ms) bs = Ok (select_geom rd z ms g).
Proof.
  intros HC H Hb HM. eapply deserialize_serialize_geom; eauto.
  destruct g as [|ps|ls|ps]; cbn [gmask select_geom geom_masks_fit] in *.
  - discriminate.
  - reflexivity.
  - exists (Masks rd z (skipn (length ls) ms)), (select_lines rd z ms ls). split; [|reflexivity].
    pose proof (masks_fit_len _ _ _ _ HM).
    apply maskn_app_inv; [|lia]. rewrite firstn_all2 by lia. exact HM.
  - eexists _, _. split; [now apply maskp_masks | reflexivity].
Qed.

(** ** Serialization succeeds on usable geometries *)
Lemma sub64_small a b : coord_small a -> coord_small b -> sub64 a b = Ok (a - b).
Proof.
  unfold coord_small, sub64. intros Ha Hb.
  replace (int64_ok (a - b)) with true; [reflexivity|].
  unfold int64_ok, min64, max64. lia.
Qed.

Definition pt_small (p : pt) : Prop := coord_small (fst p) /\ coord_small (snd p).

Lemma enc_points_small ps : forall cx cy, coord_small cx -> coord_small cy -> Forall pt_small ps ->
  exists ds c, enc_points cx cy ps = Ok (ds, c) /\ coord_small (fst c) /\ coord_small (snd c).
Proof.
  induction ps as [|[x y] ps IH]; intros cx cy Hx Hy HF; cbn [enc_points].
  - exists [], (cx, cy). auto.
  - inversion HF as [|? ? [H1 H2] HF']; subst. cbn [fst snd] in *.
    rewrite !sub64_small by assumption. cbn [bind].
    destruct (IH x y H1 H2 HF') as (ds & c & -> & Hc). cbn [bind]. eauto.
Qed.

Lemma serialize_points_small c ps : pt_small c -> Forall pt_small ps ->
  exists ds c', serialize_points c ps = Ok (ds, c') /\ pt_small c'.
Proof.
  intros [H1 H2] HF. unfold serialize_points.
  destruct (enc_points_small ps _ _ H1 H2 HF) as (ds & c' & -> & Hc). cbn [bind].
  exists (Z.of_nat (length ps) :: ds), c'. split; [reflexivity | exact Hc].
Qed.

Lemma serialize_lines_small ls : forall c, pt_small c -> Forall (Forall pt_small) ls ->
  exists ds c', serialize_lines c ls = Ok (ds, c') /\ pt_small c'.
Proof.
  induction ls as [|l ls IH]; intros c Hc HF; cbn [serialize_lines].
  - exists [], c. auto.
  - inversion HF; subst.
    destruct (serialize_points_small c l Hc) as (d1 & c1 & -> & Hc1); [assumption|]. cbn [bind].
    destruct (IH c1 Hc1) as (d2 & c2 & -> & Hc2); [assumption|]. cbn [bind]. eauto.
Qed.

Lemma serialize_polys_small ps : forall c, pt_small c ->
  Forall (fun p : poly => Forall pt_small (fst p) /\ Forall (Forall pt_small) (snd p)) ps ->
  exists ds c', serialize_polys c ps = Ok (ds, c') /\ pt_small c'.
Proof.
  induction ps as [|[o is] ps IH]; intros c Hc HF; cbn [serialize_polys].
  - exists [], c. auto.
  - inversion HF as [|? ? [Ho Hi] HF']; subst. cbn [fst snd] in *.
    destruct (serialize_points_small c o Hc Ho) as (d1 & c1 & -> & H1). cbn [bind].
    destruct (serialize_lines_small is c1 H1 Hi) as (d2 & c2 & -> & H2). cbn [bind].
    destruct (IH c2 H2 HF') as (d3 & c3 & -> & H3). cbn [bind]. eauto.
Qed.

Lemma magic_small : pt_small (kMagicOffset, kMagicOffset).
Proof. unfold pt_small, coord_small, kMagicOffset. cbn. lia. Qed.

Lemma Forall_flat_polys (P : pt -> Prop) ps :
  Forall P (flat_map (fun p : poly => fst p ++ concat (snd p)) ps) ->
  Forall (fun p : poly => Forall P (fst p) /\ Forall (Forall P) (snd p)) ps.
Proof.
  induction ps as [|[o is] ps IH]; intros H; [constructor|].
  cbn [flat_map fst snd] in H. apply Forall_app in H. destruct H as [H1 H2].
  apply Forall_app in H1. destruct H1 as [H3 H4].
  constructor; [split; cbn; [assumption | now apply Forall_concat_in] | auto].
Qed.

Lemma serialize_geom_total g : coords_small g ->
  match g with
  | GNull | GPoint [] | GLine [] | GPoly [] => serialize_geom g = Throw
  | _ => exists bs, serialize_geom g = Ok bs
  end.
Proof.
  intros HC. unfold coords_small in HC. fold pt_small in HC.
  destruct g as [|ps|ls|ps]; cbn [serialize_geom geom_points] in *.
  - reflexivity.
  - destruct ps as [|p ps]; [reflexivity|]. cbn [negb verify bind].
    destruct (serialize_points_small _ _ magic_small HC) as (ds & c & -> & _). cbn [bind]. eauto.
  - destruct ls as [|p ls]; [reflexivity|]. cbn [negb verify bind].
    destruct (serialize_lines_small (p :: ls) _ magic_small) as (ds & c & -> & _);
      [now apply Forall_concat_in|]. cbn [bind]. eauto.
  - destruct ps as [|p ps]; [reflexivity|]. cbn [negb verify bind].
    destruct (serialize_polys_small (p :: ps) _ magic_small) as (ds & c & -> & _);
      [now apply Forall_flat_polys|]. cbn [bind]. eauto.
Qed.

Lemma normal_proper g : proper g -> normal g = g.
Proof.
  destruct g as [|ps|ls|ps]; cbn; try reflexivity. intros [Hn HF].
  assert (E : normal_polys ps = ps).
  { clear Hn. unfold normal_polys. induction HF as [|[o is] ps [H1 H2] HF IH]; [reflexivity|].
    assert (R : forall r : line, (4 <= length r)%nat -> ring_ok r = true)
      by (intros r Hr; unfold ring_ok; now apply Nat.leb_le).
    cbn [filter fst snd map] in *. rewrite (R o H1).
    cbn [map fst snd]. rewrite IH. f_equal. f_equal.
    clear -H2 R. induction H2 as [|r is Hr H2 IH]; [reflexivity|]. cbn [filter].
    rewrite (R r Hr). now rewrite IH. }
  rewrite E. destruct ps; [congruence | reflexivity].
Qed.

Lemma geom_roundtrip_proper g bs : proper g -> coords64 g ->
  serialize_geom g = Ok bs -> (blen bs < 2 ^ 32)%N -> deserialize_geom NoMasks bs = Ok g.
Proof. intros H1 H2 H3 H4. rewrite (geom_roundtrip g bs H2 H3 H4). now rewrite normal_proper. Qed.

Lemma select_combine_from keep ps : forall s,
  select keep (Z.of_nat s) ps =
  map snd (filter (fun ip => keep (Z.of_nat (fst ip))) (combine (seq s (length ps)) ps)).
Proof.
  induction ps as [|p ps IH]; intros s; [reflexivity|].
  cbn [select length seq combine filter fst]. replace (Z.of_nat s + 1) with (Z.of_nat (S s)) by lia.
  rewrite IH. destruct (keep (Z.of_nat s)); reflexivity.
Qed.
Lemma select_combine keep ps :
  select keep 0 ps =
  map snd (filter (fun ip => keep (Z.of_nat (fst ip))) (combine (seq 0 (length ps)) ps)).
Proof. apply (select_combine_from keep ps 0). Qed.

Lemma select_true keep ps : forall i, (forall j, keep j = true) -> select keep i ps = ps.
Proof.
  induction ps as [|p ps IH]; intros i H; cbn [select]; [reflexivity|]. rewrite H. now rewrite IH.
Qed.

Lemma select_lines_all rd z ls : forall ms, masks_fit rd z ms ls ->
  (forall m i, In m ms -> snd (rd m z) i = true) -> select_lines rd z ms ls = ls.
Proof.
  induction ls as [|l ls IH]; intros ms HF H; [destruct ms; reflexivity|].
  inversion HF as [|m ? ms' ? H1 H2]; subst. cbn [select_lines].
  rewrite select_true by (intros j; apply H; now left). f_equal. apply IH; [assumption|].
  intros m' i HI. apply H. now right.
Qed.

Lemma rebuild_polys_id ps : rebuild_polys ps (poly_rings ps) = ps.
Proof.
  unfold poly_rings. induction ps as [|[o is] ps IH]; [reflexivity|]. cbn [flat_map rebuild_polys fst snd app].
  rewrite firstn_app, Nat.sub_diag, firstn_all, skipn_app, Nat.sub_diag, skipn_all. cbn [firstn skipn app].
  now rewrite app_nil_r, IH.
Qed.

Lemma all_bits_set rd z ms g bs : coords64 g ->
  serialize_geom g = Ok bs -> (blen bs < 2 ^ 32)%N -> geom_masks_fit rd z ms g ->
  (forall m i, In m ms -> snd (rd m z) i = true) ->
  deserialize_geom (Masks rd z ms) bs = deserialize_geom NoMasks bs.
Proof.
  intros HC HS HB HM H. rewrite (geom_masked rd z ms g bs HC HS HB HM), (geom_roundtrip g bs HC HS HB).
  f_equal. destruct g as [|ps|ls|ps]; cbn [select_geom geom_masks_fit] in *; try reflexivity.
  - cbn [normal]. now rewrite select_lines_all.
  - rewrite select_lines_all by assumption. now rewrite rebuild_polys_id.
Qed.
