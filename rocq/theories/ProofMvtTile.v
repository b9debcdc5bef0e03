From Coq Require Import Sorting.Sorted.
From Verif Require Import Base BaseProof ModelTile ModelCodec ProofCodec ModelGeom SpecGeom ProofGeom ProofShift
  ModelFeature ModelMvt SpecMvt ProofMvtGeom ProofMvt.
Open Scope N_scope.

Lemma blen_in m t b : In (t, WLen b) m -> blen b <= blen (enc_msg m).
Proof.
  induction m as [|f m IH]; [intros []|]. unfold enc_msg. cbn [flat_map]. rewrite blen_app. fold (enc_msg m).
  intros [->|H]; [|specialize (IH H); lia]. unfold enc_field. cbn [fst snd].
  pose proof (field_bytes_len t b). lia.
Qed.

Lemma field_all_app tag a b : field_all tag (a ++ b) = field_all tag a ++ field_all tag b.
Proof. unfold field_all. now rewrite filter_app, map_app. Qed.
Lemma field_all_same {A} tag (f : A -> wire) l : field_all tag (map (fun x => (tag, f x)) l) = map f l.
Proof.
  unfold field_all. induction l as [|a l IH]; [reflexivity|]. cbn [map filter fst]. rewrite N.eqb_refl. cbn [map snd]. now rewrite IH.
Qed.
Lemma field_all_other {A} tag tag' (f : A -> wire) l : tag' <> tag -> field_all tag (map (fun x => (tag', f x)) l) = [].
Proof.
  intros H. unfold field_all. induction l as [|a l IH]; [reflexivity|]. cbn [map filter fst].
  replace (tag' =? tag) with false by lia. exact IH.
Qed.

Lemma all_some_map {A B} (f : A -> option B) l r : Forall2 (fun a b => f a = Some b) l r -> all_some (map f l) = Some r.
Proof. induction 1 as [|a b l r H _ IH]; [reflexivity|]. cbn [map all_some]. now rewrite H, IH. Qed.

Lemma all_some_map_some {A} (l : list A) : all_some (map Some l) = Some l.
Proof. induction l as [|a l IH]; [reflexivity|]. cbn [map all_some]. now rewrite IH. Qed.

(** values *)
Lemma encode_value_dec v m : encode_value v = Ok m -> blen m < 2 ^ 32 ->
  exists x, meta_value v = Some x /\ decode_value m = Some x.
Proof.
  unfold encode_value. destruct v as [|ty d]; [discriminate|].
  assert (P : forall f, wire_ok f -> parse_msg (enc_field f) = Some [f]).
  { intros f Hf. replace (enc_field f) with (enc_msg [f]) by (unfold enc_msg; cbn [flat_map]; apply app_nil_r).
    apply parse_msg_enc. constructor; [assumption | constructor]. }
  destruct (N.eqb_spec ty 0) as [->|H0]; [intros H _; apply Ok_inj in H; subst m; exists (MBool false); split; reflexivity|].
  destruct (N.eqb_spec ty 1) as [->|H1]; [intros H _; apply Ok_inj in H; subst m; exists (MBool true); split; reflexivity|].
  destruct (N.eqb_spec ty 2) as [->|H2].
  { intros H Hb. apply Ok_inj in H. subst m. exists (MString d). split; [reflexivity|].
    unfold decode_value. change (field_bytes MV_STRING d) with (enc_field (1, WLen d)). rewrite P; [reflexivity|].
    split; [reflexivity|]. cbn [snd]. pose proof (field_bytes_len MV_STRING d). lia. }
  destruct (N.eqb_spec ty 3) as [->|H3].
  { intros H _. apply bind_ok in H as ([] & Hv & H). apply verify_ok in Hv. apply Ok_inj in H. subst m.
    assert (Hd : length d = 8%nat) by (unfold blen in Hv; cbn [length] in Hv; lia).
    exists (MDouble d). split; [cbn [meta_value]; rewrite Hd; reflexivity|].
    unfold decode_value. change (field_double MV_DOUBLE d) with (enc_field (3, WFix64 d)). rewrite P; [reflexivity|].
    split; [reflexivity|exact Hd]. }
  destruct (N.eqb_spec ty 4) as [->|H4].
  { intros H _. apply bind_ok in H as ([] & Hv & H). apply verify_ok in Hv. apply Ok_inj in H. subst m.
    assert (Hd : length d = 8%nat) by (unfold blen in Hv; cbn [length] in Hv; lia).
    exists (MInt (to_i64 (le_val d))). split; [cbn [meta_value]; rewrite Hd; reflexivity|].
    unfold decode_value. change (field_varint MV_SINT (zigzag (to_i64 (le_val d)))) with (enc_field (6, WInt (zigzag (to_i64 (le_val d))))).
    rewrite P; [cbn [obind]; now rewrite zigzag_roundtrip|].
    split; [reflexivity|]. cbn [snd]. apply zigzag_bound. unfold to_i64, int64_ok, min64, max64.
    destruct (Z.ltb_spec (Z.of_N (le_val d mod 2 ^ 64)) (2 ^ 63)); lia. }
  discriminate.
Qed.

Lemma encode_values_fields vs : forall r, encode_values vs = Ok r ->
  exists ms, r = enc_msg (map (fun m => (4, WLen m)) ms) /\ Forall2 (fun v m => encode_value v = Ok m) vs ms.
Proof.
  induction vs as [|v vs IH]; intros r H; cbn [encode_values] in H.
  - apply Ok_inj in H. subst. exists []. split; [reflexivity | constructor].
  - apply bind_ok in H as (m & E1 & H). apply bind_ok in H as (r' & E2 & H). apply Ok_inj in H. subst r.
    destruct (IH _ E2) as (ms & -> & F). exists (m :: ms). split; [reflexivity|]. constructor; assumption.
Qed.

Lemma keys_fields ks : flat_map (field_bytes ML_KEYS) ks = enc_msg (map (fun k => (3, WLen k)) ks).
Proof. induction ks as [|k ks IH]; [reflexivity|]. cbn [flat_map map]. rewrite IH. reflexivity. Qed.

(** tags *)
Lemma resolve_raw {V} ks (vs : list V) t r : N.of_nat (length ks) < 2 ^ 32 -> N.of_nat (length vs) < 2 ^ 32 ->
  resolve_tags ks vs t = Some r -> raw_tags t = t.
Proof.
  intros Hk Hv. revert r. enough (H : forall n t r, (length t <= n)%nat -> resolve_tags ks vs t = Some r -> raw_tags t = t)
    by (intros r; eapply H; eauto).
  clear t. induction n as [|n IH]; intros t r Hn H.
  - destruct t; [reflexivity | cbn in Hn; lia].
  - destruct t as [|i [|j t]]; [reflexivity | discriminate |]. cbn [resolve_tags length] in *.
    destruct (nth_error ks (N.to_nat i)) as [k|] eqn:E1; [|discriminate].
    destruct (nth_error vs (N.to_nat j)) as [v|] eqn:E2; [|discriminate].
    destruct (resolve_tags ks vs t) as [r'|] eqn:E3; [|discriminate].
    assert (N.to_nat i < length ks)%nat by (apply nth_error_Some; congruence).
    assert (N.to_nat j < length vs)%nat by (apply nth_error_Some; congruence).
    unfold raw_tags. cbn [map]. rewrite !N.mod_small by lia. do 2 f_equal. eapply IH; [|exact E3]. lia.
Qed.

Lemma resolve_map {V} ks (vs : list bytes) (xs : list V) (f : bytes -> option V) t r :
  Forall2 (fun v x => f v = Some x) vs xs ->
  resolve_tags ks vs t = Some r ->
  exists r', resolve_tags ks xs t = Some r' /\ Forall2 (fun m q => fst m = fst q /\ f (snd m) = Some (snd q)) r r'.
Proof.
  intros F. revert r. enough (H : forall n t r, (length t <= n)%nat -> resolve_tags ks vs t = Some r ->
    exists r', resolve_tags ks xs t = Some r' /\ Forall2 (fun m q => fst m = fst q /\ f (snd m) = Some (snd q)) r r')
    by (intros r; eapply H; eauto).
  clear t. induction n as [|n IH]; intros t r Hn H.
  - destruct t; [|cbn in Hn; lia]. injection H as <-. exists []. split; [reflexivity|constructor].
  - destruct t as [|i [|j t]]; [injection H as <-; exists []; split; [reflexivity|constructor] | discriminate |].
    cbn [resolve_tags length] in *.
    destruct (nth_error ks (N.to_nat i)) as [k|] eqn:E1; [|discriminate].
    destruct (nth_error vs (N.to_nat j)) as [v|] eqn:E2; [|discriminate].
    destruct (resolve_tags ks vs t) as [r0|] eqn:E3; [|discriminate]. injection H as <-.
    destruct (IH t r0 ltac:(lia) E3) as (r' & -> & F').
    assert (exists x, nth_error xs (N.to_nat j) = Some x /\ f v = Some x) as (x & -> & Ex).
    { clear - F E2. revert E2. generalize (N.to_nat j). intros m. revert m.
      induction F as [|a b l l' Hab F IH]; intros m Hm; [destruct m; discriminate|].
      destruct m as [|m]; cbn [nth_error] in *; [injection Hm as <-; eauto | now apply IH]. }
    eexists. split; [reflexivity|]. constructor; [cbn [fst snd]; auto | assumption].
Qed.

Lemma skip_key_internal k : skip_key k = true <-> internal_key k.
Proof.
  unfold skip_key, internal_key. rewrite orb_true_iff, bytes_eqb_eq. change str_layer with [108; 97; 121; 101; 114].
  split; (intros [H|H]; [now left | right]).
  - destruct k as [|a [|b k]]; [discriminate| destruct a as [|[[[[[[[]|[]|]|[]|]|[]|]|[]|]|[]|]|[]|]]; discriminate|].
    assert (a = 95 /\ b = 95) as [-> ->]; [|eauto].
    destruct (N.eq_dec a 95) as [->|Ha]; [destruct (N.eq_dec b 95) as [->|Hb]; [auto|]|];
      exfalso; revert H;
      repeat match goal with |- context [match ?x with _ => _ end] => destruct x; try discriminate; try congruence end.
  - destruct H as (s & ->). reflexivity.
Qed.

Lemma tags_of_visible ms : forall r, Forall2 (fun (m : meta) q => fst m = fst q /\ meta_value (snd m) = Some (snd q)) (visible_meta ms) r ->
  tags_of ms r.
Proof.
  induction ms as [|[k v] ms IH]; intros r H; unfold visible_meta in H; cbn [filter fst] in H.
  - inversion H. constructor.
  - destruct (skip_key k) eqn:E; cbn [negb] in H; fold (visible_meta ms) in H.
    + apply tags_skip; [now apply skip_key_internal | now apply IH].
    + inversion H as [|? [k' x] ? ? [E1 E2] H']; subst. cbn [fst snd] in *. subst k'.
      apply tags_cons; [|assumption | now apply IH]. rewrite <- skip_key_internal. congruence.
Qed.

(** features *)
Definition presentable (c : tctx) (f : feature) : Prop :=
  f_id f < 2 ^ 64 /\ drawable (f_geom f) /\ rings_closed (f_geom f) /\
  close_to (bminx (px_bounds (c_spec c)), bminy (px_bounds (c_spec c))) (f_geom f).

Definition tag_fields (t : list N) : list (N * wire) :=
  match t with [] => [] | _ => [(2, WLen (flat_map varint_enc t))] end.

Lemma packed_fields tag t : field_packed_u64 tag t =
  enc_msg (match t with [] => [] | _ => [(tag, WLen (flat_map varint_enc t))] end).
Proof. destruct t; [reflexivity|]. unfold enc_msg. cbn [flat_map]. now rewrite app_nil_r. Qed.

Lemma Forall_raw t : Forall (fun v => v < 2 ^ 32) (raw_tags t).
Proof. apply Forall_map, Forall_forall. intros x _. apply N.mod_lt. discriminate. Qed.

Lemma feature_decodes c ks vs xs f b :
  written c ks vs f b -> presentable c f -> blen b < 2 ^ 29 ->
  N.of_nat (length ks) < 2 ^ 32 -> N.of_nat (length vs) < 2 ^ 32 ->
  Forall2 (fun v x => meta_value v = Some x) vs xs ->
  exists v, decode_feature ks xs b = Some v /\
    shows (bminx (px_bounds (c_spec c)), bminy (px_bounds (c_spec c))) f v.
Proof.
  intros (Hne & g & t & Eg & -> & Et) (P1 & P2 & P3 & P4) Hb Hk Hv HF.
  set (o := (bminx (px_bounds (c_spec c)), bminy (px_bounds (c_spec c)))) in *.
  assert (Hbg : blen g < 2 ^ 29) by (rewrite blen_app in Hb; lia).
  destruct (encode_geometry_fields (c_spec c) (f_geom f) g 1 Eg Hbg (drawable_mvt _ P2) P4 P3 (drawable_rings3 _ P2))
    as (cmds & v & -> & Hc & Hr & Hd). fold o in Hr.
  pose proof (resolve_raw ks vs t _ Hk Hv Et) as Ert.
  destruct (resolve_map ks vs xs meta_value t _ HF Et) as (r & Er & Hr2).
  rewrite packed_fields in *. change (field_varint MF_ID (f_id f)) with (enc_field (1, WInt (f_id f))) in *.
  set (m := [(3, WInt (geom_type (f_geom f))); (4, WLen (flat_map varint_enc cmds))] ++ [(1, WInt (f_id f))] ++ tag_fields (raw_tags t)).
  replace (enc_msg _ ++ enc_field _ ++ enc_msg _) with (enc_msg m) in *.
  2:{ unfold m. rewrite !enc_msg_app. f_equal. f_equal. unfold enc_msg. cbn [flat_map]. now rewrite app_nil_r. }
  assert (Hw : Forall wire_ok m).
  { apply Forall_forall. intros [tag w] Hin. pose proof (blen_in m tag) as Hbl.
    split; [|destruct w as [n|d|d|d]; cbn [snd]].
    - unfold m, tag_fields in Hin. cbn [fst]. repeat (destruct Hin as [Hin|Hin]; [injection Hin as <- _; reflexivity|]).
      destruct (raw_tags t); [destruct Hin|]. destruct Hin as [Hin|[]]. injection Hin as <- _. reflexivity.
    - unfold m, tag_fields in Hin. destruct Hin as [Hin|[Hin|[Hin|Hin]]].
      + injection Hin as _ <-. destruct (f_geom f); reflexivity.
      + discriminate.
      + injection Hin as _ <-. assumption.
      + destruct (raw_tags t); [destruct Hin|]. destruct Hin as [Hin|[]]. discriminate.
    - specialize (Hbl d Hin). lia.
    - exfalso. unfold m, tag_fields in Hin. repeat (destruct Hin as [Hin|Hin]; [discriminate|]).
      destruct (raw_tags t); [destruct Hin|]. destruct Hin as [Hin|[]]. discriminate.
    - exfalso. unfold m, tag_fields in Hin. repeat (destruct Hin as [Hin|Hin]; [discriminate|]).
      destruct (raw_tags t); [destruct Hin|]. destruct Hin as [Hin|[]]. discriminate. }
  exists (VFeature (f_id f) v r). split.
  - unfold decode_feature. rewrite parse_msg_enc by assumption. cbn [obind].
    assert (F1 : field_all 1 m = [WInt (f_id f)]) by (unfold m, tag_fields; destruct (raw_tags t); reflexivity).
    assert (F3 : field_all 3 m = [WInt (geom_type (f_geom f))]) by (unfold m, tag_fields; destruct (raw_tags t); reflexivity).
    assert (F4 : field_all 4 m = [WLen (flat_map varint_enc cmds)]) by (unfold m, tag_fields; destruct (raw_tags t); reflexivity).
    rewrite F1, F3, F4. cbn [field_one obind as_int as_len]. rewrite (unpack_ok cmds Hc). cbn [obind].
    assert (F2 : match field_all 2 m with [] => Some [] | [WLen t] => unpack_u32 t | _ => None end = Some t).
    { assert (F2 : field_all 2 m = match raw_tags t with [] => [] | _ => [WLen (flat_map varint_enc (raw_tags t))] end).
      { unfold m, tag_fields. destruct (raw_tags t); reflexivity. }
      assert (Hu : unpack_u32 (flat_map varint_enc (raw_tags t)) = Some (raw_tags t)) by apply unpack_ok, Forall_raw.
      rewrite F2. transitivity (Some (raw_tags t)); [|now rewrite Ert].
      destruct (raw_tags t); [reflexivity|exact Hu]. }
    rewrite F2. cbn [obind]. rewrite Hd. cbn [obind]. rewrite Er. reflexivity.
  - split; [reflexivity|]. split; [exact Hr|]. cbn [v_tags]. now apply tags_of_visible.
Qed.

(** injectivity of canonical values *)
Lemma meta_value_inj a b x : canonical a -> canonical b -> meta_value a = Some x -> meta_value b = Some x -> a = b.
Proof.
  assert (V : forall v x, canonical v -> meta_value v = Some x ->
    match x with
    | MBool false => v = [0] | MBool true => v = [1] | MString s => v = 2 :: s
    | MDouble d => v = 3 :: d
    | MInt z => exists d, v = 4 :: d /\ length d = 8%nat /\ bytes_ok d /\ z = to_i64 (le_val d)
    end).
  { intros v y [Hb Hc] E. destruct v as [|ty d]; [discriminate|]. inversion Hb as [|? ? _ Hd]; subst.
    destruct (N.eq_dec ty 0) as [->|]. { injection E as <-. rewrite (Hc d); auto. }
    destruct (N.eq_dec ty 1) as [->|]. { injection E as <-. rewrite (Hc d); auto. }
    destruct (N.eq_dec ty 2) as [->|]. { injection E as <-. reflexivity. }
    destruct (N.eq_dec ty 3) as [->|]. { cbn [meta_value] in E. destruct (length d =? 8)%nat; [|discriminate]. injection E as <-. reflexivity. }
    destruct (N.eq_dec ty 4) as [->|]. { cbn [meta_value] in E. destruct (Nat.eqb_spec (length d) 8); [|discriminate]. injection E as <-. eauto. }
    exfalso. unfold meta_value in E.
    repeat match type of E with context [match ?x with _ => _ end] => destruct x; try discriminate; try congruence end. }
  intros Ha Hb E1 E2. apply V in E1; [|assumption]. apply V in E2; [|assumption].
  destruct x as [s|d|z|[]]; try congruence.
  destruct E1 as (d1 & -> & L1 & O1 & Z1), E2 as (d2 & -> & L2 & O2 & Z2). f_equal.
  rewrite <- (le_bytes_val d1 O1), <- (le_bytes_val d2 O2), L1, L2. f_equal.
  pose proof (le_val_lt d1 O1) as B1. pose proof (le_val_lt d2 O2) as B2. unfold blen in B1, B2. rewrite L1 in B1. rewrite L2 in B2.
  change (256 ^ N.of_nat 8) with (2 ^ 64) in *. rewrite Z1 in Z2. unfold to_i64 in Z2.
  rewrite !N.mod_small in Z2 by assumption.
  destruct (Z.ltb_spec (Z.of_N (le_val d1)) (2 ^ 63)), (Z.ltb_spec (Z.of_N (le_val d2)) (2 ^ 63)); lia.
Qed.

Lemma NoDup_values vs xs : Forall2 (fun v x => meta_value v = Some x) vs xs -> Forall canonical vs -> NoDup vs -> NoDup xs.
Proof.
  induction 1 as [|v x vs xs H F IH]; intros Hc Hn; [constructor|].
  inversion Hc; inversion Hn; subst. constructor; [|now apply IH].
  intros Hi. apply H6. clear - F Hi H H2 H3. induction F as [|v' x' vs xs H' F IH]; [destruct Hi|].
  inversion H3; subst. destruct Hi as [->|Hi]; [left; eapply meta_value_inj; eauto | right; auto].
Qed.

(** a finished layer *)
Lemma layer_decodes c name i lb ws b :
  lb_inv c name lb ws -> lb_finish lb = Ok b -> blen b < 2 ^ 29 ->
  nth_error (c_names c) (N.to_nat i) = Some name ->
  Forall (presentable c) ws ->
  exists v, decode_layer b = Some v /\ shows_layer c (i, ws) v.
Proof.
  intros (fbs & I1 & I2 & I3 & I4 & I5 & I6) H Hb Hname Hp.
  unfold lb_finish in H. apply bind_ok in H as (vb & Ev & H). apply Ok_inj in H. subst b.
  destruct (encode_values_fields _ _ Ev) as (ms & -> & Fm).
  rewrite I1, keys_fields, <- !enc_msg_app in *.
  set (m := ((header_fields name ++ map (fun b => (2, WLen b)) fbs) ++
     map (fun k => (3, WLen k)) (lb_keys lb) ++ map (fun m => (4, WLen m)) ms)) in *.
  assert (Hl : forall t d, In (t, WLen d) m -> blen d < 2 ^ 29) by (intros t d Hi; pose proof (blen_in m t d Hi); lia).
  assert (Hmlen : N.of_nat (length m) < 2 ^ 29).
  { pose proof (enc_msg_len m). unfold blen in Hb. lia. }
  assert (Hw : Forall wire_ok m).
  { apply Forall_forall. intros [t w] Hi. assert (Hi' := Hi). unfold m in Hi. rewrite !in_app_iff in Hi.
    assert (Q : tag_ok t = true /\ (match w with WInt n => n < 2 ^ 64 | WLen _ => True | _ => False end)).
    { destruct Hi as [[Hi|Hi]|[Hi|Hi]].
      - destruct Hi as [Hi|[Hi|[Hi|[]]]]; injection Hi as <- <-; split; (reflexivity || exact I).
      - apply in_map_iff in Hi as (? & Hi & _). injection Hi as <- <-. split; (reflexivity || exact I).
      - apply in_map_iff in Hi as (? & Hi & _). injection Hi as <- <-. split; (reflexivity || exact I).
      - apply in_map_iff in Hi as (? & Hi & _). injection Hi as <- <-. split; (reflexivity || exact I). }
    destruct Q as [Q1 Q2]. split; [exact Q1|]. destruct w; cbn [snd] in *; try contradiction; [exact Q2|].
    specialize (Hl t b Hi'). lia. }
  (* values *)
  assert (exists xs, Forall2 (fun v x => meta_value v = Some x) (lb_vals lb) xs /\
    Forall2 (fun mm x => decode_value mm = Some x) ms xs) as (xs & X1 & X2).
  { assert (Hms : forall d, In d ms -> blen d < 2 ^ 32).
    { intros d Hd. assert (Hin : In (4, WLen d) m).
      { unfold m. rewrite !in_app_iff. right. right. now apply in_map with (f := fun m => (4, WLen m)). }
      specialize (Hl 4 d Hin). lia. }
    clear - Fm Hms. induction Fm as [|v mm vs ms H F IH]; [exists []; split; constructor|].
    destruct IH as (xs & A & B); [intros d Hd; apply Hms; now right|].
    destruct (encode_value_dec v mm H) as (x & C & D); [apply Hms; now left|].
    exists (x :: xs). split; constructor; assumption. }
  assert (Hkl : N.of_nat (length (lb_keys lb)) < 2 ^ 32).
  { unfold m in Hmlen. rewrite !app_length, !map_length in Hmlen. lia. }
  assert (Hvl : N.of_nat (length (lb_vals lb)) < 2 ^ 32).
  { unfold m in Hmlen. rewrite !app_length, !map_length in Hmlen. apply Forall2_len in Fm. lia. }
  (* features *)
  assert (exists vfs, Forall2 (fun b v => decode_feature (lb_keys lb) xs b = Some v) fbs vfs /\
    Forall2 (shows (bminx (px_bounds (c_spec c)), bminy (px_bounds (c_spec c)))) ws vfs) as (vfs & Y1 & Y2).
  { assert (Hfb : forall d, In d fbs -> blen d < 2 ^ 29).
    { intros d Hd. apply (Hl 2). unfold m. rewrite !in_app_iff. left. right. now apply in_map with (f := fun m => (2, WLen m)). }
    clear - I2 Hfb Hp Hkl Hvl X1. induction I2 as [|f b ws fbs H F IH]; [exists []; split; constructor|].
    inversion Hp; subst. destruct IH as (vfs & A & B); [assumption| intros d Hd; apply Hfb; now right|].
    destruct (feature_decodes c _ _ xs f b H) as (v & C & D); try assumption; [apply Hfb; now left|].
    exists (v :: vfs). split; constructor; assumption. }
  exists (VLayer 2 name 4096 (lb_keys lb) xs vfs). split.
  - unfold decode_layer. rewrite parse_msg_enc by assumption. cbn [obind].
    assert (F1 : forall tag, tag <> 2 -> tag <> 3 -> tag <> 4 -> field_all tag m = field_all tag (header_fields name)).
    { intros tag N2 N3 N4. unfold m. rewrite !field_all_app, !field_all_other by congruence. now rewrite !app_nil_r. }
    rewrite !F1 by discriminate.
    change (field_all 15 (header_fields name)) with [WInt 2].
    change (field_all 1 (header_fields name)) with [WLen name].
    change (field_all 5 (header_fields name)) with [WInt 4096].
    assert (F2 : field_all 2 m = map WLen fbs).
    { unfold m. rewrite !field_all_app, field_all_same, !field_all_other by congruence. now rewrite !app_nil_r. }
    assert (F3 : field_all 3 m = map WLen (lb_keys lb)).
    { unfold m. rewrite !field_all_app, field_all_same, !field_all_other by congruence. now rewrite !app_nil_r. }
    assert (F4 : field_all 4 m = map WLen ms).
    { unfold m. rewrite !field_all_app, field_all_same, !field_all_other by congruence. reflexivity. }
    rewrite F2, F3, F4, !map_map. cbn [field_one obind as_int as_len].
    rewrite all_some_map_some. cbn [obind]. rewrite (all_some_map (fun x => decode_value x) _ _ X2). cbn [obind].
    rewrite map_map. cbn [as_len obind]. rewrite (all_some_map (fun x => decode_feature (lb_keys lb) xs x) _ _ Y1). reflexivity.
  - unfold shows_layer. cbn [vl_version vl_extent vl_name vl_keys vl_values vl_features fst snd].
    repeat split; try assumption. intros Hcan. eapply NoDup_values; [exact X1| |assumption].
    eapply Forall_impl; [|exact I6]. intros v (f & Hf & Hv).
    rewrite Forall_forall in Hcan. specialize (Hcan f Hf). rewrite Forall_forall in Hcan.
    apply in_map_iff in Hv as (mm & <- & Hmm). apply filter_In in Hmm as [Hmm _]. now apply Hcan.
Qed.

(** ** the whole tile *)
Definition entry_content (c : tctx) (fs : list feature) (il : N * list feature) : Prop :=
  layer_content c (fst il) fs = Ok (snd il) /\ snd il <> [].

Lemma lookup_cons_tail i j lb tb : j <> i -> lookup j ((i, lb) :: tb) = lookup j tb.
Proof. intros H. cbn [lookup]. now replace (j =? i) with false by lia. Qed.

Lemma tb_finish_spec c fs tb : forall buf,
  sorted_tb tb ->
  (forall i lb, In (i, lb) tb -> exists name, nth_error (c_names c) (N.to_nat i) = Some name /\
     lb_adds c (layer_builder_init name) (part i fs) = Ok lb) ->
  (forall i ws, layer_content c i fs = Ok ws -> Forall (presentable c) ws) ->
  tb_finish c tb = Ok buf -> blen buf < 2 ^ 29 ->
  exists ls vls bs, buf = enc_msg (map (fun b => (3, WLen b)) bs) /\
    Forall2 (fun b v => decode_layer b = Some v) bs vls /\
    Forall2 (shows_layer c) ls vls /\
    StronglySorted N.lt (map fst ls) /\
    (forall il, In il ls <-> In (fst il) (keys tb) /\ entry_content c fs il).
Proof.
  induction tb as [|[i lb] tb IH]; intros buf Hs Hl Hp H Hb; cbn [tb_finish] in H.
  - apply Ok_inj in H. subst. exists [], [], []. split; [reflexivity|]. split; [constructor|]. split; [constructor|]. split; [constructor|].
    intros il. cbn. tauto.
  - apply bind_ok in H as (lb1 & E1 & H). apply bind_ok in H as (l & E2 & H). apply bind_ok in H as (r & E3 & H).
    apply Ok_inj in H. subst buf. rewrite blen_app in Hb.
    unfold sorted_tb, keys in Hs. cbn [map fst] in Hs. apply StronglySorted_inv in Hs as [Hs1 Hs2]. rewrite Forall_forall in Hs2.
    destruct (IH r) as (ls & vls & bs & A1 & A2 & A3 & A4 & A5); try assumption; [|lia|].
    { intros j lbj Hj. apply Hl. now right. }
    destruct (Hl i lb) as (name & Hname & Hadds); [now left|].
    destruct (layer_spec c name i fs lb lb1 Hadds E1) as (ws & Hc & Hinv).
    assert (Hout : forall il, In il ls -> In (fst il) (map fst tb)) by (intros il Hil; now apply A5 in Hil as [Hil _]).
    assert (Hhas : lb_has lb1 = negb (match ws with [] => true | _ => false end)).
    { destruct Hinv as (? & _ & _ & Hh & _). exact Hh. }
    destruct (lb_has lb1) eqn:Eh.
    + apply bind_ok in E2 as (b & Ef & E2). apply Ok_inj in E2. subst l.
      assert (Hne : ws <> []) by (intros ->; discriminate).
      assert (Hbb : blen b < 2 ^ 29) by (pose proof (field_bytes_len MT_LAYERS b); lia).
      destruct (layer_decodes c name i lb1 ws b Hinv Ef Hbb Hname (Hp _ _ Hc)) as (v & Hv1 & Hv2).
      exists ((i, ws) :: ls), (v :: vls), (b :: bs). split; [|split; [|split; [|split]]].
      * rewrite A1. reflexivity.
      * constructor; assumption.
      * constructor; assumption.
      * cbn [map fst]. constructor; [assumption|]. apply Forall_forall. intros j Hj.
        apply in_map_iff in Hj as (il & <- & Hil). apply Hs2. now apply Hout.
      * intros [j ws']. cbn [In keys map fst snd]. fold (keys tb). rewrite (A5 (j, ws')). cbn [fst snd]. unfold entry_content. cbn [fst snd].
        split.
        -- intros [E|[E E']]; [injection E as <- <-; auto | auto].
        -- intros [[<-|E] [E' E'']]; [left; congruence | right; auto].
    + apply Ok_inj in E2. subst l. assert (ws = []) as -> by (destruct ws; [reflexivity|discriminate]).
      exists ls, vls, bs. cbn [app]. split; [assumption|]. split; [assumption|]. split; [assumption|]. split; [assumption|].
      intros [k w]. split.
      * intros Hil. split; [cbn [keys map fst]; right; now apply (Hout (k, w)) | now apply A5].
      * intros [Hk He]. apply A5. split; [|assumption]. cbn [keys map fst] in Hk. destruct Hk as [Hk|Hk]; [|assumption].
        destruct He as [He1 He2]. cbn [fst snd] in *. subst k. rewrite Hc in He1. apply Ok_inj in He1. congruence.
Qed.

Lemma spec_range t spec : make_tile_spec t = Ok spec -> range_box (draw_bounds spec).
Proof.
  unfold make_tile_spec. intros H. apply bind_ok in H as ([] & H1 & H). apply verify_ok in H1. apply N.leb_le in H1.
  apply bind_ok in H as ([] & H2 & H). apply verify_ok in H2. apply Ok_inj in H. subst spec. unfold kMaxZoomLevel in *.
  apply andb_prop in H2 as [X Y]. apply N.ltb_lt in X, Y. rewrite N.shiftl_1_l in X, Y. unfold range_box. cbn [draw_bounds bminx bminy bmaxx bmaxy].
  rewrite !Z.shiftl_mul_pow2 by lia. set (P := (2 ^ Z.of_N (20 - tz t))%Z). assert (HP : (0 < P)%Z) by (apply Z.pow_pos_nonneg; lia).
  assert (HT : (Z.of_N (2 ^ tz t) * P = 1048576)%Z).
  { unfold P. rewrite N2Z.inj_pow, <- Z.pow_add_r by lia. change 1048576%Z with (2 ^ 20)%Z. f_equal. lia. }
  assert (G : forall a, a < 2 ^ tz t -> ((Z.of_N a + 1) * P <= 1048576)%Z) by (intros a Ha; rewrite <- HT; apply Z.mul_le_mono_nonneg_r; lia).
  pose proof (G _ X) as GX. pose proof (G _ Y) as GY. clear G HT. clearbody P. change (2 ^ 62)%Z with 4611686018427387904%Z.
  assert (X0 : (0 <= Z.of_N (tx t) * P)%Z) by (apply Z.mul_nonneg_nonneg; lia). assert (Y0 : (0 <= Z.of_N (ty t) * P)%Z) by (apply Z.mul_nonneg_nonneg; lia).
  lia.
Qed.
Lemma clip_ok c t g g' : ctx_for c t -> clip (c_cut c) (draw_bounds (c_spec c)) g = Ok g' ->
  geom_in (draw_bounds (c_spec c)) g' /\ rings_closed g' /\ (g' = GNull \/ kind g' = kind g).
Proof.
  intros (Hs & Hz & Hc) H. destruct g as [|ps|ls|ps]; cbn [clip] in H.
  - apply Ok_inj in H. subst. repeat split; auto. constructor.
  - apply Ok_inj in H. subst. destruct (filter _ ps) as [|a l] eqn:E; [repeat split; auto; constructor|].
    split; [|split; [exact I | now right]]. unfold geom_in. cbn [geom_points]. rewrite <- E. apply Forall_forall.
    intros p Hp. apply filter_In in Hp as [_ Hp]. unfold within in Hp. lia.
  - exact (Hc _ _ _ (spec_range _ _ Hs) H).
  - exact (Hc _ _ _ (spec_range _ _ Hs) H).
Qed.

Lemma clip_shift_present c t f f' : ctx_for c t -> f_id f < 2 ^ 64 -> clip_shift c f = Ok f' -> not_null f' = true ->
  presentable c f' /\ f_id f' = f_id f /\ f_layer f' = f_layer f /\ f_meta f' = f_meta f /\ kind (f_geom f') = kind (f_geom f).
Proof.
  intros Hc Hid H Hn. unfold clip_shift in H. apply bind_ok in H as (g & E & H). apply Ok_inj in H. subst f'.
  destruct (clip_ok c t _ _ Hc E) as (C1 & C2 & C3). destruct Hc as (Hs & Hz & _).
  unfold presentable, not_null in *. cbn [set_geom f_id f_geom f_layer f_meta] in *.
  destruct (shift_drawable (c_z c) g) as [Eg|(D1 & D2 & D3)].
  { rewrite Eg in Hn. discriminate. }
  split; [|repeat split; auto].
  - repeat split; try assumption; [now apply D2|]. rewrite Hz. now apply shifted_near.
  - rewrite D3. destruct C3 as [->|C3]; [cbn [shift_geom kind] in *; discriminate | assumption].
Qed.

Lemma map_res_in {A B} (f : A -> res B) l r b : map_res f l = Ok r -> In b r -> exists a, In a l /\ f a = Ok b.
Proof.
  revert r. induction l as [|a l IH]; intros r H Hb; cbn [map_res] in H.
  - apply Ok_inj in H. subst. destruct Hb.
  - apply bind_ok in H as (b0 & E & H). apply bind_ok in H as (bs & E2 & H). apply Ok_inj in H. subst.
    destruct Hb as [->|Hb]; [exists a; split; [now left|assumption]|].
    destruct (IH _ E2 Hb) as (a' & H1 & H2). exists a'. split; [now right | assumption].
Qed.

Lemma first_of_kind_in fs f : forall seen, In f (first_of_kind seen fs) -> In f fs /\ not_null f = true.
Proof.
  induction fs as [|g fs IH]; intros seen H; cbn [first_of_kind] in H; [destruct H|].
  destruct (kind (f_geom g) =? 0) eqn:E; [apply IH in H as [H1 H2]; split; [now right | assumption]|].
  destruct (existsb _ seen); [apply IH in H as [H1 H2]; split; [now right | assumption]|].
  destruct H as [->|H]; [split; [now left | unfold not_null; now rewrite E]|].
  apply IH in H as [H1 H2]. split; [now right | assumption].
Qed.

Lemma content_cases c i fs ws f : layer_content c i fs = Ok ws -> In f ws ->
  not_null f = true /\ exists f0, clip_shift c f0 = Ok f /\
   ((In f0 fs /\ f_layer f0 = i) \/
    (exists ls r, c_aggregate c ls (c_z c) = Ok r /\ In f0 r /\ (forall x, In x ls -> In x fs /\ f_layer x = i /\ c_agg_lines c = true /\ kind (f_geom x) = 2))).
Proof.
  intros H Hf. unfold layer_content in H.
  apply bind_ok in H as (direct & E1 & H). apply bind_ok in H as (polys & E2 & H).
  apply bind_ok in H as (joined & E3 & H). apply bind_ok in H as (lines & E4 & H). apply Ok_inj in H. subst ws.
  apply filter_In in Hf as [Hf Hn]. split; [assumption|].
  assert (Hin : forall x, In x (first_of_kind [] (filter (fun f => f_layer f =? i) fs)) -> In x fs /\ f_layer x = i).
  { intros x Hx. apply first_of_kind_in in Hx as [Hx _]. apply filter_In in Hx as [Hx1 Hx2]. split; [assumption | lia]. }
  rewrite !in_app_iff in Hf. destruct Hf as [Hf|[Hf|Hf]].
  - destruct (map_res_in _ _ _ _ E1 Hf) as (f0 & Hf0 & E). apply filter_In in Hf0 as [Hf0 _].
    exists f0. split; [assumption|]. left. now apply Hin.
  - apply filter_In in Hf as [Hf _]. destruct (map_res_in _ _ _ _ E2 Hf) as (f0 & Hf0 & E). apply filter_In in Hf0 as [Hf0 _].
    exists f0. split; [assumption|]. left. now apply Hin.
  - destruct (map_res_in _ _ _ _ E4 Hf) as (f0 & Hf0 & E). exists f0. split; [assumption|]. right.
    destruct (filter (fun f => c_agg_lines c && of_kind 2 f) _) as [|x xs] eqn:El.
    + apply Ok_inj in E3. subst. destruct Hf0.
    + exists (x :: xs), joined. split; [assumption|]. split; [assumption|]. intros y Hy. rewrite <- El in Hy.
      apply filter_In in Hy as [Hy Hk]. apply andb_prop in Hk as [Hk1 Hk2]. unfold of_kind in Hk2. destruct (Hin y Hy). repeat split; auto; lia.
Qed.

Lemma content_presentable c t fs i ws : ctx_for c t -> Forall (fun f => f_id f < 2 ^ 64) fs -> aggregate_ok (c_aggregate c) ->
  layer_content c i fs = Ok ws -> Forall (presentable c) ws.
Proof.
  intros Hc Hid Ha H. apply Forall_forall. intros f Hf. destruct (content_cases c i fs ws f H Hf) as (Hn & f0 & E & D).
  rewrite Forall_forall in Hid.
  refine (proj1 (clip_shift_present c t f0 f Hc _ E Hn)).
  destruct D as [[D _]|(ls & r & D1 & D2 & D3)]; [now apply Hid|].
  destruct (Ha _ _ _ D1) as [Ha1 _]. destruct (Ha1 _ D2) as (_ & f1 & F1 & <- & _). apply Hid. now apply D3.
Qed.

Lemma tile_decodes c t fs buf :
  ctx_for c t -> Forall (fun f => f_id f < 2 ^ 64) fs -> aggregate_ok (c_aggregate c) ->
  build_tile c fs = Ok buf -> blen buf < 2 ^ 29 ->
  exists ls vls, decode_tile buf = Some vls /\ Forall2 (shows_layer c) ls vls /\
    StronglySorted N.lt (map fst ls) /\
    (forall i ws, In (i, ws) ls <-> layer_content c i fs = Ok ws /\ ws <> []).
Proof.
  intros Hc Hid Ha H Hb. unfold build_tile in H. apply bind_ok in H as (tb & E & H).
  destruct (tb_add_features_spec c fs [] [] tb (tb_inv_init c) E) as (I1 & I2 & I3). cbn [app] in *.
  assert (Hl : forall i lb, In (i, lb) tb -> lookup i tb = Some lb).
  { clear - I1. unfold sorted_tb, keys in I1. induction tb as [|[j lb0] tb IH]; intros i lb Hin; [destruct Hin|].
    cbn [map fst] in I1. apply StronglySorted_inv in I1 as [S1 S2]. rewrite Forall_forall in S2. cbn [lookup].
    destruct Hin as [Hin|Hin].
    - injection Hin as -> ->. now rewrite N.eqb_refl.
    - assert (In i (map fst tb)) by (apply in_map_iff; exists (i, lb); auto).
      specialize (S2 _ H). replace (i =? j) with false by lia. now apply IH. }
  destruct (tb_finish_spec c fs tb buf I1) as (ls & vls & bs & A1 & A2 & A3 & A4 & A5); try assumption.
  { intros i lb Hin. apply I3. now apply Hl. }
  { intros i ws. now apply content_presentable with (t := t). }
  exists ls, vls. split; [|split; [assumption|split; [assumption|]]].
  - unfold decode_tile. rewrite A1, parse_msg_enc.
    + cbn [obind]. rewrite map_map. cbn [fst snd N.eqb Pos.eqb as_len obind].
      apply (all_some_map (fun x => decode_layer x)). exact A2.
    + apply Forall_map, Forall_forall. intros b Hbn. split; [reflexivity|]. cbn [snd].
      assert (In (3, WLen b) (map (fun b => (3, WLen b)) bs)) by (apply in_map_iff; eauto).
      apply blen_in in H0. rewrite <- A1 in H0. lia.
  - intros i ws. rewrite A5. unfold entry_content. cbn [fst snd]. split; [tauto|]. intros [E1 E2]. split; [|auto].
    apply I2. intros Z. apply E2. unfold layer_content in E1. unfold part in Z. rewrite Z in E1.
    cbn in E1. apply Ok_inj in E1. congruence.
Qed.

(** ** one feature per id and kind *)
Lemma first_of_kind_seen fs f : forall seen, In f (first_of_kind seen fs) ->
  existsb (fun s => (fst s =? f_id f) && (snd s =? kind (f_geom f))) seen = false.
Proof.
  induction fs as [|g fs IH]; intros seen H; cbn [first_of_kind] in H; [destruct H|].
  destruct (kind (f_geom g) =? 0); [now apply IH|].
  destruct (existsb (fun s => (fst s =? f_id g) && (snd s =? kind (f_geom g))) seen) eqn:E; [now apply IH|].
  destruct H as [->|H]; [assumption|]. apply IH in H. cbn [existsb fst snd] in H. now apply orb_false_iff in H as [_ H].
Qed.

Definition id_kind (f : feature) : N * N := (f_id f, kind (f_geom f)).

Lemma first_of_kind_nodup fs : forall seen, NoDup (map id_kind (first_of_kind seen fs)).
Proof.
  induction fs as [|g fs IH]; intros seen; cbn [first_of_kind]; [constructor|].
  destruct (kind (f_geom g) =? 0); [apply IH|]. destruct (existsb _ seen); [apply IH|].
  cbn [map]. constructor; [|apply IH]. intros H. apply in_map_iff in H as (f & E & H).
  apply first_of_kind_seen in H. cbn [existsb fst snd] in H. apply orb_false_iff in H as [H _].
  unfold id_kind in E. injection E as E1 E2. rewrite E1, E2, !N.eqb_refl in H. discriminate.
Qed.

Lemma NoDup_map_filter {A B} (f : A -> B) p l : NoDup (map f l) -> NoDup (map f (filter p l)).
Proof.
  induction l as [|a l IH]; cbn [map filter]; intros H; [constructor|]. inversion H; subst.
  destruct (p a); cbn [map]; [|now apply IH]. constructor; [|now apply IH].
  intros Hi. apply H2. apply in_map_iff in Hi as (x & <- & Hx). apply filter_In in Hx as [Hx _]. now apply in_map.
Qed.

Lemma NoDup_map_res c t l r : ctx_for c t -> Forall (fun f => f_id f < 2 ^ 64) l -> map_res (clip_shift c) l = Ok r ->
  NoDup (map id_kind l) -> NoDup (map id_kind (filter not_null r)).
Proof.
  intros Hc Hid. revert r. induction l as [|a l IH]; intros r H Hn; cbn [map_res] in H.
  - apply Ok_inj in H. subst. constructor.
  - apply bind_ok in H as (b & E & H). apply bind_ok in H as (bs & E2 & H). apply Ok_inj in H. subst.
    inversion Hid; inversion Hn; subst. cbn [filter]. destruct (not_null b) eqn:Eb; [|now apply IH].
    cbn [map]. constructor; [|now apply IH]. intros Hi. apply H5.
    destruct (clip_shift_present c t a b Hc H1 E Eb) as (_ & P1 & _ & _ & P2).
    apply in_map_iff in Hi as (x & Ex & Hx). apply filter_In in Hx as [Hx Hxn].
    destruct (map_res_in _ _ _ _ E2 Hx) as (y & Hy & Ey). rewrite Forall_forall in H2.
    destruct (clip_shift_present c t y x Hc (H2 _ Hy) Ey Hxn) as (_ & Q1 & _ & _ & Q2).
    apply in_map_iff. exists y. split; [|assumption]. unfold id_kind in *. congruence.
Qed.

Lemma NoDup_app3 {A} (a b : list A) : NoDup a -> NoDup b -> (forall x, In x a -> ~ In x b) -> NoDup (a ++ b).
Proof.
  induction a as [|x a IH]; cbn [app]; intros Ha Hb Hd; [assumption|]. inversion Ha; subst.
  constructor; [|apply IH; auto; intros y Hy; apply Hd; now right].
  rewrite in_app_iff. intros [Hi|Hi]; [auto|]. eapply Hd; [now left | eassumption].
Qed.

Lemma kind_of_part c t l r (k : N -> Prop) x : ctx_for c t -> Forall (fun f => f_id f < 2 ^ 64) l -> map_res (clip_shift c) l = Ok r ->
  (forall f, In f l -> k (kind (f_geom f))) -> In x (map id_kind (filter not_null r)) -> k (snd x).
Proof.
  intros Hc Hid H Hk Hx. apply in_map_iff in Hx as (f & <- & Hf). apply filter_In in Hf as [Hf Hn].
  destruct (map_res_in _ _ _ _ H Hf) as (y & Hy & Ey). rewrite Forall_forall in Hid.
  destruct (clip_shift_present c t y f Hc (Hid _ Hy) Ey Hn) as (_ & _ & _ & _ & Q2).
  unfold id_kind. cbn [snd]. rewrite Q2. now apply Hk.
Qed.

Lemma filter_comm {A} (p q : A -> bool) l : filter p (filter q l) = filter q (filter p l).
Proof.
  induction l as [|a l IH]; [reflexivity|]. cbn [filter]. destruct (p a) eqn:Ep, (q a) eqn:Eq; cbn [filter]; rewrite ?Ep, ?Eq, ?IH; reflexivity.
Qed.

Lemma content_nodup c t fs i ws : ctx_for c t -> Forall (fun f => f_id f < 2 ^ 64) fs -> aggregate_ok (c_aggregate c) ->
  layer_content c i fs = Ok ws -> NoDup (map id_kind ws).
Proof.
  intros Hc Hid Ha H. unfold layer_content in H. set (l := first_of_kind _ _) in *.
  assert (Hl : Forall (fun f => f_id f < 2 ^ 64) l).
  { apply Forall_forall. intros f Hf. unfold l in Hf. apply first_of_kind_in in Hf as [Hf _]. apply filter_In in Hf as [Hf _].
    rewrite Forall_forall in Hid. now apply Hid. }
  assert (Hsub : forall p, Forall (fun f => f_id f < 2 ^ 64) (filter p l)).
  { intros p. apply Forall_forall. intros f Hf. apply filter_In in Hf as [Hf _]. rewrite Forall_forall in Hl. now apply Hl. }
  assert (Hnd : NoDup (map id_kind l)) by apply first_of_kind_nodup.
  apply bind_ok in H as (direct & E1 & H). apply bind_ok in H as (polys & E2 & H).
  apply bind_ok in H as (joined & E3 & H). apply bind_ok in H as (lines & E4 & H). apply Ok_inj in H. subst ws.
  assert (J : (forall f, In f joined -> f_id f < 2 ^ 64 /\ kind (f_geom f) = 2 /\ c_agg_lines c = true) /\ NoDup (map f_id joined)).
  { destruct (filter (fun f => c_agg_lines c && of_kind 2 f) l) as [|x xs] eqn:El.
    - apply Ok_inj in E3. subst. split; [intros f [] | constructor].
    - destruct (Ha _ _ _ E3) as [A1 A2]. rewrite <- El in *. split.
      + intros f Hf. destruct (A1 f Hf) as (K & f0 & F1 & F2 & _). split; [|split; [assumption|]].
        * rewrite <- F2. specialize (Hsub (fun f => c_agg_lines c && of_kind 2 f)). rewrite Forall_forall in Hsub. now apply Hsub.
        * apply filter_In in F1 as [_ F1]. now apply andb_true_iff in F1 as [F1 _].
      + apply A2. assert (forall f, In f (filter (fun f => c_agg_lines c && of_kind 2 f) l) -> kind (f_geom f) = 2).
        { intros f Hf. apply filter_In in Hf as [_ Hf]. unfold of_kind in Hf. lia. }
        pose proof (NoDup_map_filter id_kind (fun f => c_agg_lines c && of_kind 2 f) l Hnd) as N.
        revert H N. generalize (filter (fun f => c_agg_lines c && of_kind 2 f) l). clear.
        induction l as [|f l IH]; cbn [map]; intros K N; [constructor|]. inversion N; subst. constructor; [|apply IH; auto; intros; apply K; now right].
        intros Hi. apply H1. apply in_map_iff in Hi as (g & E & Hg). apply in_map_iff. exists g. split; [|assumption].
        unfold id_kind. rewrite E, (K g), (K f); auto; [now left | now right]. }
  destruct J as [J1 J2].
  assert (Jf : Forall (fun f => f_id f < 2 ^ 64) joined) by (apply Forall_forall; intros f Hf; now apply J1).
  assert (N1 : NoDup (map id_kind (filter not_null direct))) by exact (NoDup_map_res c t _ _ Hc (Hsub _) E1 (NoDup_map_filter _ _ _ Hnd)).
  assert (N2 : NoDup (map id_kind (filter not_null polys))) by exact (NoDup_map_res c t _ _ Hc (Hsub _) E2 (NoDup_map_filter _ _ _ Hnd)).
  assert (N3 : NoDup (map id_kind (filter not_null lines))).
  { apply (NoDup_map_res c t _ _ Hc Jf E4). clear - J2. induction joined as [|f l IH]; cbn [map] in *; [constructor|]. inversion J2; subst.
    constructor; [|now apply IH]. intros Hi. apply H1. apply in_map_iff in Hi as (g & E & Hg). unfold id_kind in E. injection E as E _.
    apply in_map_iff. eauto. }
  rewrite !filter_app, !map_app. rewrite filter_comm.
  assert (K1 : forall x, In x (map id_kind (filter not_null direct)) -> (snd x = 3 -> c_agg_polys c = false) /\ (snd x = 2 -> c_agg_lines c = false)).
  { intros x Hx. refine (kind_of_part c t _ _ (fun k => (k = 3 -> c_agg_polys c = false) /\ (k = 2 -> c_agg_lines c = false)) x Hc (Hsub _) E1 _ Hx).
    intros f Hf. apply filter_In in Hf as [_ Hf]. unfold buffered in Hf. split; intros Ek; rewrite Ek in Hf; cbn in Hf.
    - destruct (c_agg_polys c); [|reflexivity]. rewrite andb_false_r in Hf. discriminate.
    - destruct (c_agg_lines c); [discriminate|reflexivity]. }
  assert (K2 : forall x, In x (map id_kind (filter not_null polys)) -> snd x = 3 /\ c_agg_polys c = true).
  { intros x Hx. refine (kind_of_part c t _ _ (fun k => k = 3 /\ c_agg_polys c = true) x Hc (Hsub _) E2 _ Hx).
    intros f Hf. apply filter_In in Hf as [_ Hf]. apply andb_true_iff in Hf as [Hf1 Hf2]. unfold of_kind in Hf2. split; [lia|assumption]. }
  assert (K3 : forall x, In x (map id_kind (filter not_null lines)) -> snd x = 2 /\ c_agg_lines c = true).
  { intros x Hx. refine (kind_of_part c t _ _ (fun k => k = 2 /\ c_agg_lines c = true) x Hc Jf E4 _ Hx).
    intros f Hf. destruct (J1 f Hf) as (_ & ? & ?). auto. }
  assert (K2' : forall x, In x (map id_kind (filter (big_enough c) (filter not_null polys))) -> snd x = 3 /\ c_agg_polys c = true).
  { intros x Hx. apply K2. apply in_map_iff in Hx as (f & <- & Hf). apply filter_In in Hf as [Hf _]. now apply in_map. }
  apply NoDup_app3; [assumption| |].
  - apply NoDup_app3; [now apply NoDup_map_filter | assumption|].
    intros x H1 H2. apply K2' in H1 as [H1 _]. apply K3 in H2 as [H2 _]. congruence.
  - intros x H1 H2. apply K1 in H1 as [H1a H1b]. apply in_app_iff in H2 as [H2|H2].
    + apply K2' in H2 as [H2 H2']. specialize (H1a H2). congruence.
    + apply K3 in H2 as [H2 H2']. specialize (H1b H2). congruence.
Qed.

Lemma shows_id_kind o ws vs : Forall2 (shows o) ws vs -> map id_kind ws = map (fun v => (v_id v, vkind (v_geom v))) vs.
Proof.
  induction 1 as [|f v ws vs (H1 & H2 & _) F IH]; [reflexivity|]. cbn [map]. rewrite IH. f_equal.
  unfold id_kind. rewrite H1. f_equal. destruct (f_geom f); cbn [relative_geom] in H2; [discriminate|injection H2 as <-; reflexivity..].
Qed.

Lemma tile_ids_unique c t fs buf vls :
  ctx_for c t -> Forall (fun f => f_id f < 2 ^ 64) fs -> aggregate_ok (c_aggregate c) ->
  build_tile c fs = Ok buf -> blen buf < 2 ^ 29 -> decode_tile buf = Some vls ->
  Forall (fun l => vl_features l <> [] /\ NoDup (map (fun v => (v_id v, vkind (v_geom v))) (vl_features l))) vls.
Proof.
  intros Hc Hid Ha H Hb Hd.
  destruct (tile_decodes c t fs buf Hc Hid Ha H Hb) as (ls & vls' & E & F & _ & L). rewrite Hd in E. injection E as <-.
  assert (G : forall il, In il ls -> layer_content c (fst il) fs = Ok (snd il) /\ snd il <> []).
  { intros [i ws] Hi. now apply L. }
  clear L Hd. induction F as [|[i ws] v ls vls' S F IH]; [constructor|]. constructor; [|apply IH; intros; apply G; now right].
  destruct (G (i, ws) (or_introl eq_refl)) as [G1 G2]. cbn [fst snd] in *.
  destruct S as (_ & _ & _ & _ & _ & S). cbn [snd] in S. split.
  - intros Z. rewrite Z in S. inversion S. congruence.
  - rewrite <- (shows_id_kind _ _ _ S). exact (content_nodup c t fs i ws Hc Hid Ha G1).
Qed.

(** ** totality *)
Lemma clip_shift_total c t f : ctx_for c t -> cuts_areas (c_cut c) -> areal (f_geom f) -> exists f', clip_shift c f = Ok f'.
Proof.
  intros [Hs _] Ht HA. unfold clip_shift. assert (exists g, clip (c_cut c) (draw_bounds (c_spec c)) (f_geom f) = Ok g) as (g & ->).
  { pose proof (Ht _ _ (spec_range _ _ Hs) HA) as H. destruct (f_geom f); cbn [clip]; eauto. }
  cbn [bind]. eauto.
Qed.

Lemma write_feature_total c t lb f f' : ctx_for c t -> f_id f < 2 ^ 64 -> clip_shift c f = Ok f' ->
  exists lb', write_feature c lb f' = Ok lb'.
Proof.
  intros Hc Hid E. unfold write_feature. destruct (not_null f') eqn:En.
  - destruct (clip_shift_present c t f f' Hc Hid E En) as ((P1 & P2 & P3 & P4) & _).
    destruct (encode_geometry_total (c_spec c) (f_geom f') P4 P2) as (bs & Eb). rewrite Eb. cbn [bind].
    destruct (collect_tags (lb_keys lb) (lb_vals lb) (f_meta f')) as [[ks vs] tt].
    destruct (f_geom f'); eauto.
  - unfold not_null in En. destruct (f_geom f'); [eauto|discriminate..].
Qed.

Section Total.
  Context (c : tctx) (t : tile) (Hc : ctx_for c t) (Ht : cuts_areas (c_cut c)).

  Lemma lb_add_total lb f : f_id f < 2 ^ 64 -> areal (f_geom f) -> exists lb', lb_add_feature c lb f = Ok lb'.
  Proof.
    intros Hid HA. unfold lb_add_feature. destruct (clip_shift_total c t f Hc Ht HA) as (f' & E).
    assert (W : forall lb, exists lb', (do f' <- clip_shift c f; write_feature c lb f') = Ok lb').
    { intros lb0. rewrite E. cbn [bind]. eapply write_feature_total; eauto. }
    destruct (f_geom f).
    - eauto.
    - destruct (mem _ _); eauto.
    - destruct (mem _ _); [eauto|]. destruct (c_agg_lines c); eauto.
    - destruct (mem _ _); [eauto|]. destruct (c_agg_polys c); eauto.
  Qed.

  Lemma map_update_total i init upd tb : (forall lb, exists lb', upd lb = Ok lb') -> exists tb', map_update i init upd tb = Ok tb'.
  Proof.
    intros Hu. induction tb as [|[j lb] tb IH]; cbn [map_update].
    - destruct (Hu init) as (lb & ->). cbn [bind]. eauto.
    - destruct (i <? j); [destruct (Hu init) as (lb' & ->); cbn [bind]; eauto|].
      destruct (i =? j); [destruct (Hu lb) as (lb' & ->); cbn [bind]; eauto|].
      destruct IH as (r & ->). cbn [bind]. eauto.
  Qed.

  Lemma tb_adds_total fs : forall tb, Forall (fun f => f_id f < 2 ^ 64 /\ f_layer f < N.of_nat (length (c_names c)) /\ areal (f_geom f)) fs ->
    exists tb', tb_add_features c tb fs = Ok tb'.
  Proof.
    induction fs as [|f fs IH]; intros tb H; cbn [tb_add_features]; [eauto|]. inversion H as [|? ? (H1 & H2 & HA) H3]; subst.
    unfold tb_add_feature. destruct (nth_error (c_names c) (N.to_nat (f_layer f))) as [name|] eqn:En.
    - destruct (map_update_total (f_layer f) (layer_builder_init name) (fun lb => lb_add_feature c lb f) tb) as (tb1 & ->).
      { intros lb. now apply lb_add_total. } cbn [bind]. now apply IH.
    - apply nth_error_None in En. lia.
  Qed.

  Lemma write_polys_total fs : forall lb, Forall (fun f => f_id f < 2 ^ 64 /\ areal (f_geom f)) fs -> exists lb', write_polys c lb fs = Ok lb'.
  Proof.
    induction fs as [|f fs IH]; intros lb H; cbn [write_polys]; [eauto|]. inversion H; subst.
    destruct H2 as [H2 HA]. destruct (clip_shift_total c t f Hc Ht HA) as (f' & E). rewrite E. cbn [bind].
    destruct (_ && _ && _); [now apply IH|]. destruct (write_feature_total c t lb f f' Hc H2 E) as (lb1 & ->). cbn [bind]. now apply IH.
  Qed.

  Lemma write_lines_total fs : forall lb, Forall (fun f => f_id f < 2 ^ 64 /\ areal (f_geom f)) fs -> exists lb', write_lines c lb fs = Ok lb'.
  Proof.
    induction fs as [|f fs IH]; intros lb H; cbn [write_lines]; [eauto|]. inversion H; subst.
    destruct H2 as [H2 HA]. destruct (clip_shift_total c t f Hc Ht HA) as (f' & E). rewrite E. cbn [bind].
    destruct (write_feature_total c t lb f f' Hc H2 E) as (lb1 & ->). cbn [bind]. now apply IH.
  Qed.

  Context (Ha : aggregate_ok (c_aggregate c)) (Hat : joins_lines (c_aggregate c)).

  Lemma encode_values_total vs : Forall (fun v => meta_value v <> None) vs -> exists r, encode_values vs = Ok r.
  Proof.
    induction vs as [|v vs IH]; intros H; cbn [encode_values]; [eauto|]. inversion H; subst.
    destruct (IH H3) as (r & ->).
    assert (exists m, encode_value v = Ok m) as (m & ->); [|cbn [bind]; eauto].
    clear - H2. unfold meta_value in H2. unfold encode_value. destruct v as [|ty d]; [congruence|].
    destruct (N.eqb_spec ty 0); [eauto|]. destruct (N.eqb_spec ty 1); [eauto|]. destruct (N.eqb_spec ty 2); [eauto|].
    destruct (N.eqb_spec ty 3) as [->|].
    { destruct (Nat.eqb_spec (length d) 8) as [E|]; [|congruence]. unfold blen. cbn [length]. rewrite E. change (N.of_nat 9 =? 9) with true. cbn [verify bind]. eauto. }
    destruct (N.eqb_spec ty 4) as [->|].
    { destruct (Nat.eqb_spec (length d) 8) as [E|]; [|congruence]. unfold blen. cbn [length]. rewrite E. change (N.of_nat 9 =? 9) with true. cbn [verify bind]. eauto. }
    exfalso. repeat match type of H2 with context [match ?x with _ => _ end] => destruct x; try congruence end.
  Qed.

  Lemma content_meta fs i ws f : layer_content c i fs = Ok ws -> Forall (fun f => f_id f < 2 ^ 64 /\ meta_ok f) fs -> In f ws -> meta_ok f.
  Proof.
    intros H Hok Hf. rewrite Forall_forall in Hok.
    destruct (content_cases c i fs ws f H Hf) as (Hn & f0 & E & D).
    assert (exists f1, In f1 fs /\ f_id f1 = f_id f0 /\ f_meta f1 = f_meta f0) as (f1 & F1 & F2 & F3).
    { destruct D as [[D _]|(ls & r & D1 & D2 & D3)]; [eauto|].
      destruct (Ha _ _ _ D1) as [Ha1 _]. destruct (Ha1 _ D2) as (_ & f1 & G1 & G2 & G3). exists f1. split; [now apply D3|]. auto. }
    destruct (Hok f1 F1) as [O1 O2]. rewrite F2 in O1.
    destruct (clip_shift_present c t f0 f Hc O1 E Hn) as (_ & _ & _ & Em & _).
    unfold meta_ok in *. now rewrite Em, <- F3.
  Qed.

  Lemma tb_finish_total fs tb : 
    Forall (fun f => f_id f < 2 ^ 64 /\ meta_ok f) fs ->
    Forall (fun f => areal (f_geom f)) fs ->
    Forall (fun f => c_agg_lines c = true -> joinable (f_geom f)) fs ->
    (forall i lb, In (i, lb) tb -> exists name, nth_error (c_names c) (N.to_nat i) = Some name /\
       lb_adds c (layer_builder_init name) (part i fs) = Ok lb) ->
    exists buf, tb_finish c tb = Ok buf.
  Proof.
    intros Hok Har Hj. assert (Hid : Forall (fun f => f_id f < 2 ^ 64) fs) by (eapply Forall_impl; [|exact Hok]; cbn beta; tauto).
    induction tb as [|[i lb] tb IH]; intros Hl; cbn [tb_finish]; [eauto|].
    destruct (Hl i lb) as (name & Hname & Hadds); [now left|].
    set (l0 := part i fs) in *.
    destruct (lb_adds_spec c name l0 _ _ _ _ (lb_inv_init c name) (seen_ok_init name) Hadds) as (direct & E1 & E2 & E3 & E4).
    cbn [layer_builder_init lb_line_buf lb_poly_buf app] in E3, E4.
    assert (Hin : forall p f, In f (filter p (first_of_kind [] l0)) -> f_id f < 2 ^ 64 /\ areal (f_geom f)).
    { intros p f Hf. apply filter_In in Hf as [Hf _]. apply first_of_kind_in in Hf as [Hf _]. apply filter_In in Hf as [Hf _].
      split; [exact (proj1 (Forall_forall _ _) Hid _ Hf) | exact (proj1 (Forall_forall _ _) Har _ Hf)]. }
    assert (exists lb1, aggregate_geometry c lb = Ok lb1) as (lb1 & Eagg).
    { unfold aggregate_geometry.
      assert (exists lb2, (if c_agg_polys c then write_polys c lb (lb_poly_buf lb) else Ok lb) = Ok lb2 /\ lb_line_buf lb2 = lb_line_buf lb)
        as (lb2 & -> & Elb).
      { destruct (c_agg_polys c); [|eauto]. destruct (write_polys_total (lb_poly_buf lb) lb) as (lb2 & E).
        { apply Forall_forall. intros f Hf. rewrite E4 in Hf. eapply Hin; eauto. }
        exists lb2. split; [assumption|]. destruct (write_polys_spec c name _ _ _ _ E2 E) as (? & _ & _ & ?). assumption. }
      cbn [bind]. destruct (c_agg_lines c && _) eqn:Eal; [|eauto]. apply andb_prop in Eal as [Eal _].
      destruct (Hat (lb_line_buf lb2) (c_z c)) as (r & Er).
      { rewrite Elb, E3. apply Forall_forall. intros f Hf. apply filter_In in Hf as [Hf Hk].
        apply first_of_kind_in in Hf as [Hf _]. apply filter_In in Hf as [Hf _].
        pose proof (proj1 (Forall_forall _ _) Hj f Hf Eal) as Jf. unfold joinable in Jf. unfold line_feature.
        apply andb_prop in Hk as [_ Hk]. unfold of_kind in Hk. destruct (f_geom f) as [|?|ls|?]; try discriminate. exists ls. split; [reflexivity|exact Jf]. }
      rewrite Er. cbn [bind]. apply write_lines_total.
      apply Forall_forall. intros f Hf. destruct (Ha _ _ _ Er) as [Ha1 _]. destruct (Ha1 _ Hf) as (Fk & f0 & F1 & <- & _).
      rewrite Elb, E3 in F1. split; [eapply Hin; eauto|]. destruct (f_geom f); try exact I. discriminate Fk. }
    rewrite Eagg. cbn [bind].
    destruct (layer_spec c name i fs lb lb1 Hadds Eagg) as (ws & Hws & (fbs & _ & _ & _ & _ & _ & I6)).
    assert (exists b, lb_finish lb1 = Ok b) as (b & Eb).
    { unfold lb_finish. destruct (encode_values_total (lb_vals lb1)) as (r & ->); [|cbn [bind]; eauto].
      eapply Forall_impl; [|exact I6]. intros v (f & Hf & Hv). pose proof (content_meta _ _ _ _ Hws Hok Hf) as Hm.
      apply in_map_iff in Hv as (m & <- & Hmm). apply filter_In in Hmm as [Hm1 Hm2]. unfold meta_ok in Hm. rewrite Forall_forall in Hm.
      destruct (Hm m Hm1) as [Hi|Hi]; [|assumption]. apply skip_key_internal in Hi. rewrite Hi in Hm2. discriminate. }
    destruct IH as (r & Er). { intros j lbj Hjb. apply Hl. now right. }
    destruct (lb_has lb1); [rewrite Eb|]; cbn [bind]; rewrite Er; cbn [bind]; eauto.
  Qed.

  Lemma build_tile_total fs :
    Forall (fun f => f_id f < 2 ^ 64 /\ f_layer f < N.of_nat (length (c_names c)) /\ meta_ok f /\ areal (f_geom f) /\ (c_agg_lines c = true -> joinable (f_geom f))) fs ->
    exists buf, build_tile c fs = Ok buf.
  Proof.
    intros H. unfold build_tile. destruct (tb_adds_total fs []) as (tb & E).
    { eapply Forall_impl; [|exact H]. cbn beta. tauto. }
    rewrite E. cbn [bind].
    destruct (tb_add_features_spec c fs [] [] tb (tb_inv_init c) E) as (I1 & I2 & I3). cbn [app] in *.
    apply tb_finish_total with (fs := fs). { eapply Forall_impl; [|exact H]. cbn beta. tauto. }
    { eapply Forall_impl; [|exact H]. cbn beta. tauto. }
    { eapply Forall_impl; [|exact H]. cbn beta. tauto. }
    intros i lb Hin. apply I3.
    clear - I1 Hin. unfold sorted_tb, keys in I1. revert i lb Hin. induction tb as [|[j lb0] tb IH]; intros i lb Hin; [destruct Hin|].
    cbn [map fst] in I1. apply StronglySorted_inv in I1 as [S1 S2]. rewrite Forall_forall in S2. cbn [lookup].
    destruct Hin as [Hin|Hin].
    - injection Hin as -> ->. now rewrite N.eqb_refl.
    - assert (In i (map fst tb)) by (apply in_map_iff; exists (i, lb); auto).
      specialize (S2 _ H). replace (i =? j) with false by lia. now apply IH.
  Qed.
End Total.

(** ** presence *)
Lemma first_of_kind_mem f b a : forall seen, not_null f = true ->
  existsb (fun s => (fst s =? f_id f) && (snd s =? kind (f_geom f))) seen = false ->
  (forall g, In g a -> id_kind g <> id_kind f) -> In f (first_of_kind seen (a ++ f :: b)).
Proof.
  induction a as [|g a IH]; intros seen Hn Hs Ha; cbn [app first_of_kind].
  - unfold not_null in Hn. apply negb_true_iff in Hn. rewrite Hn, Hs. now left.
  - assert (Ha' : forall g0, In g0 a -> id_kind g0 <> id_kind f) by (intros; apply Ha; now right).
    destruct (kind (f_geom g) =? 0); [now apply IH|]. destruct (existsb (fun s => (fst s =? f_id g) && (snd s =? kind (f_geom g))) seen) eqn:E; [now apply IH|].
    right. apply IH; try assumption. cbn [existsb fst snd]. rewrite Hs, orb_false_r.
    specialize (Ha g (or_introl eq_refl)). unfold id_kind in Ha.
    destruct (N.eqb_spec (f_id g) (f_id f)) as [E1|]; [|reflexivity].
    destruct (N.eqb_spec (kind (f_geom g)) (kind (f_geom f))) as [E2|]; [|reflexivity]. congruence.
Qed.

Lemma map_res_mem {A B} (f : A -> res B) l r a b : map_res f l = Ok r -> In a l -> f a = Ok b -> In b r.
Proof.
  revert r. induction l as [|x l IH]; intros r H Ha E; [destruct Ha|]. cbn [map_res] in H.
  apply bind_ok in H as (b0 & E0 & H). apply bind_ok in H as (bs & E2 & H). apply Ok_inj in H. subst.
  destruct Ha as [->|Ha]; [left; congruence | right; eauto].
Qed.

Lemma tile_present_big c t a f b buf f' :
  let fs := a ++ f :: b in
  ctx_for c t -> Forall (fun f => f_id f < 2 ^ 64) fs -> aggregate_ok (c_aggregate c) ->
  build_tile c fs = Ok buf -> blen buf < 2 ^ 29 ->
  (forall g, In g a -> ~ (f_layer g = f_layer f /\ f_id g = f_id f /\ kind (f_geom g) = kind (f_geom f))) ->
  not_null f = true -> ~ (c_agg_lines c = true /\ kind (f_geom f) = 2) ->
  (c_agg_polys c = true -> kind (f_geom f) = 3 -> big_enough c f' = true) -> clip_shift c f = Ok f' -> not_null f' = true ->
  exists vls l v, decode_tile buf = Some vls /\ In l vls /\ In v (vl_features l) /\
    nth_error (c_names c) (N.to_nat (f_layer f)) = Some (vl_name l) /\
    shows (bminx (px_bounds (c_spec c)), bminy (px_bounds (c_spec c))) f' v.
Proof.
  intros fs Hc Hid Ha H Hb Hfirst Hn Hli Hpo E Hn'.
  assert (Hlc : exists ws, layer_content c (f_layer f) fs = Ok ws).
  { unfold build_tile in H. apply bind_ok in H as (tb & E0 & H).
    destruct (tb_add_features_spec c fs [] [] tb (tb_inv_init c) E0) as (I1 & I2 & I3). cbn [app] in *.
    assert (Hin : In (f_layer f) (keys tb)).
    { apply I2. unfold part, fs. rewrite filter_app. cbn [filter]. rewrite N.eqb_refl. destruct (filter _ a); discriminate. }
    destruct (lookup_in _ _ Hin) as (lb & El). destruct (I3 _ _ El) as (name & _ & Hadds).
    apply lookup_some_in in El as [_ El].
    clear - H Hadds El. revert buf H. induction tb as [|[j lb0] tb IH]; intros buf H; [destruct El|]. cbn [tb_finish] in H.
    apply bind_ok in H as (lb1 & E1 & H). apply bind_ok in H as (l & _ & H). apply bind_ok in H as (r & E3 & _).
    destruct El as [El|El]; [|now apply IH with (buf := r)]. injection El as -> ->.
    destruct (layer_spec c name _ fs lb lb1 Hadds E1) as (ws & Hws & _). eauto. }
  destruct Hlc as (ws & Hws).
  assert (Hin : In f' ws).
  { assert (Hws' := Hws). unfold layer_content in Hws'.
    apply bind_ok in Hws' as (direct & E1 & H1). apply bind_ok in H1 as (polys & E2 & H1).
    apply bind_ok in H1 as (joined & E3 & H1). apply bind_ok in H1 as (lines & E4 & H1). apply Ok_inj in H1. subst ws.
    apply filter_In. split; [|assumption].
    assert (Hl : In f (first_of_kind [] (filter (fun g => f_layer g =? f_layer f) fs))).
    { unfold fs. rewrite filter_app. cbn [filter]. rewrite N.eqb_refl. apply first_of_kind_mem; [assumption|reflexivity|].
      intros g Hg. apply filter_In in Hg as [Hg1 Hg2]. unfold id_kind. intros Eg. injection Eg as Eg1 Eg2.
      apply (Hfirst g Hg1). split; [lia|]. auto. }
    apply in_app_iff. destruct (buffered c f) eqn:Hbuf.
    - right. apply in_app_iff. left. unfold buffered in Hbuf. apply orb_prop in Hbuf as [Hbuf|Hbuf]; apply andb_prop in Hbuf as [Hb1 Hb2]; [exfalso; apply Hli; split; [assumption|lia]|].
      apply filter_In. split; [|apply Hpo; [assumption|lia]].
      apply (map_res_mem _ _ _ f f' E2); [|assumption]. apply filter_In. split; [assumption|]. unfold of_kind. now rewrite Hb1, Hb2.
    - left. apply (map_res_mem _ _ _ f f' E1); [|assumption]. apply filter_In. split; [assumption|]. now rewrite Hbuf. }
  destruct (tile_decodes c t fs buf Hc Hid Ha H Hb) as (ls & vls & D1 & D2 & _ & D4).
  assert (Hil : In (f_layer f, ws) ls) by (apply D4; split; [assumption|]; intros ->; destruct Hin).
  exists vls. clear - D1 D2 Hil Hin.
  enough (exists l v, In l vls /\ In v (vl_features l) /\ nth_error (c_names c) (N.to_nat (f_layer f)) = Some (vl_name l) /\
    shows (bminx (px_bounds (c_spec c)), bminy (px_bounds (c_spec c))) f' v) as (l & v & Q) by eauto.
  clear D1. induction D2 as [|il l ls vls S F IH]; [destruct Hil|].
  destruct Hil as [->|Hil].
  - destruct S as (_ & _ & Sn & _ & _ & S). cbn [fst snd] in *.
    assert (exists v, In v (vl_features l) /\ shows (bminx (px_bounds (c_spec c)), bminy (px_bounds (c_spec c))) f' v) as (v & Hv1 & Hv2).
    { clear - S Hin. induction S as [|x v ws vs H S IH]; [destruct Hin|]. destruct Hin as [->|Hin]; [exists v; split; [now left|assumption]|].
      destruct (IH Hin) as (v' & ? & ?). exists v'. split; [now right|assumption]. }
    exists l, v. split; [now left|]. auto.
  - destruct (IH Hil) as (l' & v & Q1 & Q2). exists l', v. split; [now right|assumption].
Qed.
Lemma tile_present c t a f b buf f' :
  let fs := a ++ f :: b in
  ctx_for c t -> Forall (fun f => f_id f < 2 ^ 64) fs -> aggregate_ok (c_aggregate c) ->
  build_tile c fs = Ok buf -> blen buf < 2 ^ 29 ->
  (forall g, In g a -> ~ (f_layer g = f_layer f /\ f_id g = f_id f /\ kind (f_geom g) = kind (f_geom f))) ->
  not_null f = true -> buffered c f = false -> clip_shift c f = Ok f' -> not_null f' = true ->
  exists vls l v, decode_tile buf = Some vls /\ In l vls /\ In v (vl_features l) /\
    nth_error (c_names c) (N.to_nat (f_layer f)) = Some (vl_name l) /\
    shows (bminx (px_bounds (c_spec c)), bminy (px_bounds (c_spec c))) f' v.
Proof.
  intros fs Hc Hid Ha H Hb Hfirst Hn Hbuf E Hn'. apply (tile_present_big c t a f b buf f'); auto; unfold buffered in Hbuf; apply orb_false_iff in Hbuf as [B1 B2].
  - intros [Q K]. rewrite Q, K in B1. discriminate.
  - intros Q K. rewrite Q, K in B2. discriminate.
Qed.
