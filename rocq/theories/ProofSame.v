(** The map does not depend on how it was imported. *)
From Coq Require Import List Permutation Sorted.
From Verif Require Import Base BaseProof ModelTile SpecTile ModelCodec ModelGeom SpecGeom ModelFeature SpecFeature ModelMvt SpecMvt ModelRender SpecRender ModelClip SpecClip SpecCoast ModelDict ModelOsm SpecOsm ModelServer ModelImport SpecImport SpecSeam SpecSame ProofSeam SpecInserter.
From Verif Require PropImport ProofDict.
Import ListNotations.
Open Scope N_scope.

Lemma tags_same ms t1 : tags_of ms t1 -> forall t2, tags_of ms t2 -> t1 = t2.
Proof.
  induction 1 as [|k v ms t Hk H IH|k v ms t x Hk Hv H IH]; intros t2 H2; inversion H2; subst; try contradiction.
  - reflexivity.
  - now apply IH.
  - f_equal; [congruence | now apply IH].
Qed.
Lemma tags_perm ms ms' : Permutation ms ms' -> forall t, tags_of ms t -> exists t', tags_of ms' t' /\ Permutation t t'.
Proof.
  induction 1 as [|m ms ms' HP IH|a b ms|ms1 ms2 ms3 H1 IH1 H2 IH2]; intros t H.
  - exists t. split; [exact H | apply Permutation_refl].
  - inversion H as [|k v ms0 t0 Hk H0|k v ms0 t0 x Hk Hv H0]; subst; destruct (IH _ H0) as (t' & A & B).
    + exists t'. split; [now constructor | exact B].
    + exists ((k, x) :: t'). split; [now constructor | now constructor].
  - inversion H as [|k v ms0 t0 Hk H0|k v ms0 t0 x Hk Hv H0]; subst; inversion H0 as [|k2 v2 ms2 t2 Hk2 H2|k2 v2 ms2 t2 x2 Hk2 Hv2 H2]; subst.
    + eexists. split; [apply tags_skip; [exact Hk2 | apply tags_skip; [exact Hk | exact H2]] | apply Permutation_refl].
    + eexists. split; [apply tags_cons; [exact Hk2 | exact Hv2 | apply tags_skip; [exact Hk | exact H2]] | apply Permutation_refl].
    + eexists. split; [apply tags_skip; [exact Hk2 | apply tags_cons; [exact Hk | exact Hv | exact H2]] | apply Permutation_refl].
    + eexists. split; [apply tags_cons; [exact Hk2 | exact Hv2 | apply tags_cons; [exact Hk | exact Hv | exact H2]] | apply perm_swap].
  - destruct (IH1 t H) as (t2 & A & B). destruct (IH2 t2 A) as (t3 & C & D). exists t3. split; [exact C | exact (perm_trans B D)].
Qed.
Lemma sorted_nodup (r : list meta) : StronglySorted (fun a b => bytes_ltb (fst a) (fst b) = true) r -> NoDup r.
Proof.
  induction 1 as [|a r H IH F]; constructor; [|exact IH]. intros Hi. apply (proj1 (Forall_forall _ _) F) in Hi. rewrite ProofDict.bytes_ltb_irrefl in Hi. discriminate.
Qed.
Lemma one_per_key_same ms r1 r2 : one_per_key ms r1 -> one_per_key ms r2 -> Permutation r1 r2.
Proof. intros [S1 I1] [S2 I2]. apply NoDup_Permutation; [now apply sorted_nodup | now apply sorted_nodup|]. intros [k v]. rewrite I1, I2. reflexivity. Qed.
Lemma same_metadata L1 L2 i : same_results L1 L2 -> metadata L1 i = metadata L2 i.
Proof. intros [E1 E2 _ _ _ _ _]. destruct i as [[o g] cs]. unfold metadata. now rewrite E1, E2. Qed.
Lemma same_outline L1 L2 raw z g : same_results L1 L2 -> outline L1 raw z g = outline L2 raw z g.
Proof. intros [_ _ _ E1 E2 _ _]. unfold outline. now rewrite E1, E2. Qed.
Lemma same_imported L1 L2 i layer mn : same_results L1 L2 -> imported L1 i layer mn -> imported L2 i layer mn.
Proof. intros [_ _ E _ _ _ _]. destruct i as [[o g] cs]. unfold imported. now rewrite E. Qed.
Lemma same_tags L1 L2 i v1 v2 : same_results L1 L2 -> shows_tags L1 i v1 -> shows_tags L2 i v2 -> Permutation (v_tags v1) (v_tags v2).
Proof.
  intros HS (m1 & n1 & O1 & P1 & T1) (m2 & n2 & O2 & P2 & T2). rewrite (same_metadata _ _ i HS) in O1. pose proof (one_per_key_same _ _ _ O1 O2) as HP.
  destruct (tags_perm n1 n2 (perm_trans P1 (perm_trans HP (Permutation_sym P2))) _ T1) as (t' & A & B). rewrite (tags_same _ _ T2 _ A). exact B.
Qed.
Lemma same_object L1 L2 t i g' v1 v2 : same_results L1 L2 -> shows_object L1 t i g' v1 -> shows_object L2 t i g' v2 -> same_feature v1 v2.
Proof. intros HS (A1 & A2 & A3) (B1 & B2 & B3). split; [congruence|]. split; [congruence|]. exact (same_tags _ _ _ _ _ HS A2 B2). Qed.

Theorem imports_same L1 L2 j1 j2 co1 co2 raw prep1 prep2 st1 st2 : same_results L1 L2 -> libs_ok L1 -> libs_ok L2 -> job_ok L1 j1 -> job_ok L2 j2 ->
  history L1 j1 co1 true raw prep1 st1 -> history L2 j2 co2 true raw prep2 st2 ->
  forall t o g cs layer mn, tz t <= 20 -> valid_tile t -> In (o, g, cs) (j_objs j1) -> In (o, g, cs) (j_objs j2) -> imported L1 (o, g, cs) layer mn -> layer <> coastline ->
  only_one L1 j1 layer o g cs -> only_one L2 j2 layer o g cs -> (prep1 || prep2 = true -> kind g = 2 -> 10 < tz t) ->
  forall z1 z2, serve_tile L1 st1 t = Ok (Some z1) -> serve_tile L2 st2 t = Ok (Some z2) ->
  exists buf1 buf2, l_deflate L1 buf1 = Ok z1 /\ l_deflate L2 buf2 = Ok z2 /\ (blen buf1 < 2 ^ 29 -> blen buf2 < 2 ^ 29 -> exists vls1 vls2, decode_tile buf1 = Some vls1 /\ decode_tile buf2 = Some vls2 /\
    forall v1 v2, drawn_in vls1 layer (to_u64 (o_id o)) (kind g) v1 -> drawn_in vls2 layer (to_u64 (o_id o)) (kind g) v2 -> same_feature v1 v2).
Proof.
  intros HS HL1 HL2 HJ1 HJ2 HH1 HH2 t o g cs layer mn Hz Hv Hi1 Hi2 Him Hc Ho1 Ho2 Hp z1 z2 S1 S2.
  assert (ONE : forall L j co prep st, libs_ok L -> job_ok L j -> history L j co true raw prep st -> only_one L j layer o g cs -> (prep = true -> kind g = 2 -> 10 < tz t) -> forall z, serve_tile L st t = Ok (Some z) ->
    exists buf, l_deflate L buf = Ok z /\ (blen buf < 2 ^ 29 -> exists vls, decode_tile buf = Some vls /\ forall v, drawn_in vls layer (to_u64 (o_id o)) (kind g) v ->
      exists g', clip (l_cut L) (draw_area t) (outline L raw (tz t) g) = Ok g' /\ shows_object L t (o, g, cs) g' v)).
  { intros L j co prep st HL HJ HH Ho Hp' z Hs. destruct (PropImport.c64_nothing_else L j co true raw prep st HL HJ HH) as (s & _ & HN). destruct (HN t z Hz Hv Hs) as (buf & D & HB). exists buf. split; [exact D|]. intros Hb.
    destruct (HB Hb) as (vls & V & HV). exists vls. split; [exact V|]. intros v (vl & Hvl & Hvv & Hn & Hid & Hk). destruct (HV vl v Hvl Hvv) as [(_ & N1 & _)|[(_ & e & f & g' & _ & _ & _ & N1 & _)|(_ & o' & g' & cs' & mn' & A1 & A2 & A3 & A4 & A5)]].
    - congruence.
    - congruence.
    - rewrite Hn in A2. destruct A5 as [(h & B1 & B2)|(P1 & P2 & P3 & P4 & P5 & P6)].
      + assert (K : kind g' = kind g) by (rewrite <- Hk; symmetry; exact (drawn_kind L raw t g' h _ (ok_cut L HL) (ProofRender.area_range t Hz Hv) B1 (proj2 (proj2 B2)))).
        pose proof (proj1 B2) as B3. cbn [fst] in B3. assert (E : (o', g', cs') = (o, g, cs)) by (apply (Ho o' g' cs' mn' A1 A2); [congruence | exact K]). injection E as -> -> ->. exists h. split; assumption.
      + exfalso. assert (K : kind g = 2) by congruence. specialize (Hp' P1 K). lia. }
  destruct (ONE L1 j1 co1 prep1 st1 HL1 HJ1 HH1 Ho1) with (z := z1) as (b1 & D1 & B1); [intros E; apply Hp; now rewrite E | exact S1|].
  destruct (ONE L2 j2 co2 prep2 st2 HL2 HJ2 HH2 Ho2) with (z := z2) as (b2 & D2 & B2); [intros E; apply Hp; rewrite E; apply Bool.orb_true_r | exact S2|].
  exists b1, b2. split; [exact D1|]. split; [exact D2|]. intros Q1 Q2. destruct (B1 Q1) as (vls1 & V1 & HV1). destruct (B2 Q2) as (vls2 & V2 & HV2). exists vls1, vls2. split; [exact V1|]. split; [exact V2|].
  intros v1 v2 W1 W2. destruct (HV1 v1 W1) as (g1 & C1 & O1). destruct (HV2 v2 W2) as (g2 & C2 & O2). rewrite (same_outline _ _ _ _ _ HS), (same_cut _ _ HS) in C1. rewrite C1 in C2. injection C2 as <-. exact (same_object _ _ _ _ _ _ _ HS O1 O2).
Qed.
Theorem imports_show L1 L2 j1 j2 co1 co2 raw prep1 prep2 st1 st2 : same_results L1 L2 -> libs_ok L1 -> libs_ok L2 -> job_ok L1 j1 -> job_ok L2 j2 ->
  history L1 j1 co1 true raw prep1 st1 -> history L2 j2 co2 true raw prep2 st2 ->
  forall t o g cs layer mn g', tz t <= 20 -> valid_tile t -> In (o, g, cs) (j_objs j1) -> In (o, g, cs) (j_objs j2) -> imported L1 (o, g, cs) layer mn -> (layer = coastline -> kind g <> 3) ->
  only_one L1 j1 layer o g cs -> only_one L2 j2 layer o g cs -> mn <= tz t -> meets (tz t) t (bounding_box g) = true ->
  clip (l_cut L1) (draw_area t) (outline L1 raw (tz t) g) = Ok g' -> shift_geom (tz t) g' <> GNull ->
  (prep1 || prep2 = true -> tz t <= 10 -> kind g <> 2 /\ (layer <> coastline -> kind g = 3 -> (256 <= l_area L1 (shift_geom (tz t) g'))%Z)) ->
  both_answer L1 L2 st1 st2 t (fun vls1 vls2 => exists v1 v2, drawn_in vls1 layer (to_u64 (o_id o)) (kind g) v1 /\ drawn_in vls2 layer (to_u64 (o_id o)) (kind g) v2 /\ same_feature v1 v2).
Proof.
  intros HS HL1 HL2 HJ1 HJ2 HH1 HH2 t o g cs layer mn g' Hz Hv Hi1 Hi2 Him Hc Ho1 Ho2 Hmn HM HC HN Hp.
  assert (HC2 := HC). rewrite (same_outline _ _ _ _ _ HS), (same_cut _ _ HS) in HC2.
  destruct (PropImport.c62_object_shown L1 j1 co1 raw prep1 st1 HL1 HJ1 HH1 t o g cs layer mn g' Hz Hv Hi1 Him Hc Ho1 Hmn HM HC HN) as (b1 & z1 & S1 & D1 & B1); [intros E; apply Hp; now rewrite E|].
  destruct (PropImport.c62_object_shown L2 j2 co2 raw prep2 st2 HL2 HJ2 HH2 t o g cs layer mn g' Hz Hv Hi2 (same_imported _ _ _ _ _ HS Him) Hc Ho2 Hmn HM HC2 HN) as (b2 & z2 & S2 & D2 & B2); [rewrite <- (same_area _ _ HS); intros E; apply Hp; rewrite E; apply Bool.orb_true_r|].
  exists b1, z1, b2, z2. split; [exact S1|]. split; [exact D1|]. split; [exact S2|]. split; [exact D2|]. intros Q1 Q2.
  destruct (B1 Q1) as (vls1 & V1 & vl1 & v1 & A1 & A2 & A3 & A4). destruct (B2 Q2) as (vls2 & V2 & vl2 & v2 & E1 & E2 & E3 & E4). exists vls1, vls2. split; [exact V1|]. split; [exact V2|]. exists v1, v2.
  assert (K : forall L v, libs_ok L -> clip (l_cut L) (draw_area t) (outline L raw (tz t) g) = Ok g' -> shows_object L t (o, g, cs) g' v -> v_id v = to_u64 (o_id o) /\ vkind (v_geom v) = kind g).
  { intros L v HL C (I1 & _ & I3). split; [exact I1|]. exact (drawn_kind L raw t g g' _ (ok_cut L HL) (ProofRender.area_range t Hz Hv) C I3). }
  destruct (K L1 v1 HL1 HC A4) as [I1 K1]. destruct (K L2 v2 HL2 HC2 E4) as [I2 K2].
  split; [exists vl1; auto|]. split; [exists vl2; auto|]. exact (same_object _ _ _ _ _ _ _ HS A4 E4).
Qed.
