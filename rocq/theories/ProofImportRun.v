(** Whole imports: a run that loads. *)
From Coq Require Import Permutation String Ascii Sorting.Sorted.
From Coq Require Import List.
From Verif Require Import Base BaseProof ModelTile SpecTile ProofTile ModelPackFile SpecPackFile ProofPackFile ModelTable ProofTable ModelCodec ModelGeom SpecGeom ModelFeature SpecFeature ProofFeature
  ModelPack ModelPacker SpecPacker ModelBqTree SpecBqTree ModelMvt SpecMvt ModelRender SpecRender ProofRender ModelInserter SpecInserter ProofInserter ProofInserterTop ModelDict SpecDict ProofDict
  ModelOsm SpecOsm ProofOsm ModelDrain ProofDrain ModelCoast SpecCoast ProofCoast ProofCoastRun ProofCoastEx SpecLines SpecLayout ProofLayout ModelRepack SpecRepack ModelServer ModelImport SpecImport ProofImportObjects ProofImportLoad.
Import ListNotations.
Open Scope N_scope.

(** what the tables are made of *)
Record content (L : libs) (j : job) (co fe : bool) (D : list (tile * feature)) (ks : list kept) (fs : list feature) (names : list bytes) (d : list meta) (sea : list tile) : Prop := {
  n_coast : if co then exists s, coast_result L (j_polys j) s /\ D = c_inserted s /\ sea = c_sea s else D = [] /\ sea = [];
  n_sea : Forall (fun t => tz t <= 10 /\ valid_tile t) sea;
  n_D : Forall (fun e => tz (fst e) = 10 /\ valid_tile (fst e) /\ sea_feature (fst e) (snd e)) D;
  n_objs : if fe then forall i l mn, In (i, l, mn) ks <-> In i (j_objs j) /\ imported L i l mn else ks = [];
  n_made : Forall2 (made L) ks fs;
  n_layer : Forall2 (fun k f => nth_error names (N.to_nat (f_layer f)) = Some (snd (fst k))) ks fs;
  n_first : nth_error names 0 = Some coastline;
  n_names : NoDup names;
  n_fine : Forall fine (map snd D ++ fs);
  n_meta : Forall (fun f => f_layer f < N.of_nat (length names) /\ meta_ok f /\ joinable (f_geom f) /\ has_area L (f_geom f)) (map snd D ++ fs);
  n_usable : Forall (fun f => usable L (f_geom f)) fs;
  n_dict : N.of_nat (length d) < 2 ^ 64 }.

(** what the table meta says *)
Record meta_says (m : list (bytes * bytes)) (names : list bytes) (d : list meta) (sea : list tile) (prep : bool) : Prop := {
  m_names : get_layer_names (meta_get m kLayerNames) = Ok names;
  m_dict : load_dict (meta_get m kMetaCoding) = Ok d;
  m_sea : exists v, match meta_get m kSeasideTree with Some s => bq_of_string s | None => Ok [kEmptyRoot] end = Ok v /\ make_bq_tree sea = Ok v;
  m_max : meta_get m kMaxPrepared = if prep then Some (lit "10") else None }.

(** ** Coastlines *)
Lemma coast_part L polys cc e : libs_ok L -> load_coastlines L polys cc e ->
  exists s v, coast_result L polys s /\ Forall2 (fun d c => exists v, ser (snd d) = Ok v /\ c = CValue (fst d) v) (c_inserted s) cc /\
    bq_of_string e = Ok v /\ make_bq_tree (c_sea s) = Ok v /\ Forall (fun t => tz t <= 10 /\ valid_tile t) (c_sea s) /\
    Forall (fun e => tz (fst e) = 10 /\ valid_tile (fst e) /\ sea_feature (fst e) (snd e)) (c_inserted s) /\
    Forall (fun f => fine f /\ has_area L (f_geom f)) (map snd (c_inserted s)).
Proof.
  intros HL (s & R & E & NE & HC & HS). exists s.
  destruct (coast_drained _ _ _ _ R E) as (_ & _ & _ & O). destruct (outcome_good _ _ _ _ _ NE O) as [_ H2].
  apply Forall_app in H2 as [H2 H3]. rewrite Forall_map in H2, H3.
  assert (F' : Forall (fun t => tz t <= 10 /\ valid_tile t) (c_sea s)). { eapply Forall_impl; [|exact H3]. intros t (V & Z). cbn [etile] in *. split; [lia | exact V]. }
  destruct (sea_entry _ F') as (bytes & v & S1 & S2 & S3 & _). rewrite S1 in HS. apply Ok_inj in HS. subst bytes.
  exists v. split; [split; [exact R|split; [exact E | exact NE]]|]. split; [assumption|]. split; [exact S2|]. split; [exact S3|]. split; [exact F'|]. split.
  - eapply Forall_impl; [|exact H2]. intros [t f] (V & Z & SF & _). cbn [etile fst snd] in *. auto.
  - apply Forall_forall. intros f Hf. apply in_map_iff in Hf as ([t f'] & <- & Hd). cbn [snd]. destruct (proj1 (Forall_forall _ _) H2 _ Hd) as (V & Z & SF & b & s' & ps & E1 & E2 & E3). cbn [etile] in *.
    destruct (ok_draw _ HL b s' ps E1 E2) as (D1 & D2 & DA & D3). rewrite <- E3 in D1, D2, DA. split; [|exact DA]. destruct SF as (K & F1 & F2 & F3 & F4 & _). destruct (tile_to_key_ok _ _ _ K) as [_ Hid].
    split; [split; [|assumption]|].
    + unfold feature_ok. rewrite F1, F2, F3. repeat split; try reflexivity; assumption.
    + destruct (Forall2_in_l _ _ _ _ HC Hd) as (c & _ & v0 & E0 & _). cbn [snd] in E0. exists v0. split; [assumption|].
      apply (D3 (f_id f') v0 Hid). rewrite <- E0. f_equal. destruct f' as [i l mn mx ms g]. cbn [f_id f_layer f_minz f_maxz f_meta f_geom] in *. subst. reflexivity.
Qed.

(** ** Objects *)
Lemma in_meta_of L i ms m : one_per_key (metadata L i) ms -> In m ms -> In m (metadata L i).
Proof. intros H Hm. now apply (one_per_key_incl _ _ H). Qed.

Lemma usable_coords L g : usable L g -> coords64 g /\ coords_small g.
Proof.
  intros (_ & _ & H & _). split; (eapply Forall_impl; [|exact H]); intros p [H1 H2].
  - unfold int64_ok, min64, max64. lia.
  - unfold coord_small. lia.
Qed.
Lemma usable_points L g : usable L g -> box_points g <> [].
Proof.
  intros (HP & HL & _). destruct g as [|ps|ls|ps]; cbn [SpecGeom.proper box_points geom_points] in *.
  - destruct HP.
  - exact HP.
  - destruct ls as [|l ls]; [congruence|]. destruct HL as [HL _]. inversion HL as [|? ? Hl _]; subst. destruct l; [congruence | discriminate].
  - destruct HP as [Hn HF]. destruct ps as [|[o hs] ps]; [congruence|]. inversion HF as [|? ? [Ho _] _]; subst. cbn [fst] in Ho. unfold poly_points. cbn [flat_map fst]. destruct o; [cbn in Ho; lia | discriminate].
Qed.
Lemma envelope_world ps : ps <> [] -> Forall (fun p : pt => (0 <= fst p < 2 ^ 32)%Z /\ (0 <= snd p < 2 ^ 32)%Z) ps -> in_world (envelope ps).
Proof.
  intros Hn HF. assert (G : forall ps b, in_world b -> Forall (fun p : pt => (0 <= fst p < 2 ^ 32)%Z /\ (0 <= snd p < 2 ^ 32)%Z) ps -> in_world (fold_left box_add ps b)).
  { clear. induction ps as [|p ps IH]; intros b Hb HF; [assumption|]. inversion HF as [|? ? [P1 P2] HF']; subst. cbn [fold_left]. apply IH; [|assumption].
    unfold in_world, box_add in *. cbn [bminx bminy bmaxx bmaxy] in *. lia. }
  destruct ps as [|p ps]; [congruence|]. inversion HF as [|? ? [P1 P2] HF']; subst. unfold envelope. cbn [fold_left]. apply G; [|assumption].
  unfold in_world, box_add, inverse_box. cbn [bminx bminy bmaxx bmaxy]. unfold max64, min64. lia.
Qed.
Lemma usable_world L g : usable L g -> in_world (bounding_box g).
Proof.
  intros H. pose proof (usable_points L g H) as Hn. destruct H as (HP & _ & HF & _).
  destruct g as [|ps|ls|ps]; cbn [box_points geom_points bounding_box SpecGeom.proper] in *; [destruct HP | now apply envelope_world | now apply envelope_world | apply envelope_world; [assumption|]].
  apply Forall_forall. intros p Hp. apply (proj1 (Forall_forall _ _) HF). apply in_flat_map in Hp as (q & Hq & Hp). apply in_flat_map. exists q. split; [assumption|].
  unfold poly_points in Hp. destruct (fst q) as [|a l] eqn:Eq; cbn beta; apply in_or_app; [now right|]. left. destruct q as [q1 q2]; cbn [fst] in *; subst q1; exact Hp.
Qed.
Lemma usable_joinable L g : usable L g -> joinable g.
Proof.
  intros (_ & HL & HF & _). destruct g as [|ps|ls|ps]; try exact I. destruct HL as [H1 H2]. split; [|assumption]. cbn [geom_points] in HF.
  apply Forall_forall. intros l Hl. pose proof (proj1 (Forall_forall _ _) H1 _ Hl) as Hn. cbn beta in Hn.
  assert (HF' : Forall (fun p : pt => (0 <= fst p < 2 ^ 32)%Z /\ (0 <= snd p < 2 ^ 32)%Z) l). { apply Forall_forall. intros p Hp. apply (proj1 (Forall_forall _ _) HF). apply in_concat. eauto. }
  clear -Hn HF'. destruct l as [|p l]; [congruence|]. split; [discriminate|]. rewrite Forall_forall in HF'. split.
  - unfold first_pt. cbn [hd]. intros E. specialize (HF' p (or_introl eq_refl)). rewrite E in HF'. cbn [fst] in HF'. unfold max64 in HF'. lia.
  - unfold last_pt. intros E. assert (Hin : In (last (p :: l) (0, 0)%Z) (p :: l)). { destruct (exists_last (l := p :: l)) as (l' & q & Eq); [discriminate|]. rewrite Eq, last_last. apply in_or_app. right. now left. }
    specialize (HF' _ Hin). rewrite E in HF'. cbn [fst] in HF'. unfold max64 in HF'. lia.
Qed.

Lemma object_fine L k f : object_ok L (fst (fst k)) -> imported L (fst (fst k)) (snd (fst k)) (snd k) -> made L k f -> f_layer f < kInvalidLayer ->
  fine f /\ usable L (f_geom f) /\ meta_ok f.
Proof.
  destruct k as [[[[o g] cs] layer] mn]. cbn [fst snd]. intros [_ HO] HI (ms & Ef & Hms) HL. cbn [fst snd] in *. destruct (HO _ _ HI) as (_ & Hmn & HU & HM & HS).
  rewrite Ef in *. cbn [f_layer f_geom f_meta] in *. destruct (usable_coords _ _ HU) as [C1 C2]. pose proof (usable_points _ _ HU) as HP. split; [|split; [assumption|]].
  - split; [split; [|exact (proj1 HU)]|].
    + repeat split; cbn [f_id f_layer f_minz f_maxz f_geom]; try assumption. apply to_u64_lt.
    + destruct (serialize_feature_total (fun _ => None) (fun _ => []) true (Feature (to_u64 (o_id o)) (f_layer f) mn 21 ms g) C2 HP) as (v & E). exists v. split; [exact E|].
      apply (HS (f_layer f) ms v); [unfold kInvalidLayer in HL; lia | assumption | exact E].
  - unfold meta_ok. cbn [f_meta]. apply Forall_forall. intros m Hm. right. apply (proj1 (Forall_forall _ _) HM). now apply (in_meta_of L (o, g, cs) ms).
Qed.

Lemma Forall2_nth {A B} (R : A -> B -> Prop) l m : Forall2 R l m -> forall b, In b m -> exists a, In a l /\ R a b.
Proof. intros H b Hb. destruct (Forall2_in_r _ _ _ _ H Hb) as (a & ? & ?). eauto. Qed.

Lemma objects_part L objs oc names dict : libs_ok L -> Forall (object_ok L) objs -> N.of_nat (length objs) < 2 ^ 64 - 2 ->
  N.of_nat (length (flat_map (metadata L) objs)) < 2 ^ 64 -> load_osm L objs oc names dict ->
  exists ks fs fs' ns d, (forall i l mn, In (i, l, mn) ks <-> In i objs /\ imported L i l mn) /\ oc = map CFeature fs' /\ Permutation fs' fs /\
    Forall2 (made L) ks fs /\ Forall2 (fun k f => nth_error ns (N.to_nat (f_layer f)) = Some (snd (fst k))) ks fs /\
    nth_error ns 0 = Some coastline /\ NoDup ns /\ Forall (fun f => fine f /\ usable L (f_geom f) /\ meta_ok f) fs /\
    get_layer_names (Some names) = Ok ns /\ load_dict (Some dict) = Ok d /\ N.of_nat (length d) < 2 ^ 64 /\ (length ks <= length objs)%nat.
Proof.
  intros HL HO Hlen HMl (objs' & fs & m & seen & b & HP & HA & HC & HR & HB & HSE & HN & HD).
  assert (HO' : Forall (object_ok L) objs') by (apply Forall_forall; intros i Hi; apply (proj1 (Forall_forall _ _) HO); now apply (Permutation_in _ HP)).
  destruct (handle_all_spec L (ok_msort _ HL) objs' nm_init fs m HO' HA) as (ks & K1 & K2 & K3 & K4 & K5).
  assert (Hks : forall i l mn, In (i, l, mn) ks <-> In i objs /\ imported L i l mn).
  { intros i l mn. rewrite K1. split; intros [H1 H2]; split; auto; [now apply (Permutation_in _ HP) | now apply (Permutation_in _ (Permutation_sym HP))]. }
  destruct (layer_names_spec _ _ _ K3) as (ns & buf & N1 & N2 & N3 & N4 & N5 & N6).
  { apply Forall_forall. intros l Hl. apply in_map_iff in Hl as ([[i l'] mn] & <- & Hk). cbn [fst snd]. apply Hks in Hk as [Hi Hk]. pose proof (proj1 (Forall_forall _ _) HO _ Hi) as HOi.
    destruct i as [[o g] cs]. now apply HOi in Hk. }
  rewrite N1 in HN. apply Ok_inj in HN. subst buf.
  apply Permutation_map_inv in HC as HC2. destruct HC2 as (fs' & Hoc & HP').
  assert (Hlay : Forall2 (fun k f => nth_error ns (N.to_nat (f_layer f)) = Some (snd (fst k))) ks fs).
  { clear -N6. revert fs N6. induction ks as [|k ks IH]; intros [|f fs] H; cbn [map] in H; inversion H; subst; constructor; auto. }
  assert (Hns : N.of_nat (length ns) < 2 ^ 64 - 1).
  { assert (incl ns (coastline :: map (fun k => snd (fst k)) ks)) as HI. { intros n Hn. apply N5 in Hn as [->|Hn]; [now left | now right]. }
    apply NoDup_incl_length in HI; [|assumption]. cbn [length] in HI. rewrite map_length in HI. pose proof (Permutation_length HP). lia. }
  assert (Hfine : Forall (fun f => fine f /\ usable L (f_geom f) /\ meta_ok f) fs).
  { apply Forall_forall. intros f Hf. assert (Hk : exists k, In k ks /\ made L k f /\ nth_error ns (N.to_nat (f_layer f)) = Some (snd (fst k))).
    { clear -K4 Hlay Hf. revert Hlay. induction K4 as [|k f' ks fs HM K4 IH]; intros Hlay; [destruct Hf|]. inversion Hlay; subst. destruct Hf as [->|Hf]; [exists k; split; [now left | auto]|].
      destruct (IH Hf H4) as (k' & ? & ?). exists k'. split; [now right | assumption]. }
    destruct Hk as (k & Hk & Hm & Hn). apply (object_fine L k f); [| |assumption|].
    - destruct k as [[i l] mn]. apply Hks in Hk as [Hi _]. exact (proj1 (Forall_forall _ _) HO _ Hi).
    - destruct k as [[i l] mn]. now apply Hks in Hk as [_ Hi].
    - assert (N.to_nat (f_layer f) < length ns)%nat by (apply nth_error_Some; congruence). unfold kInvalidLayer. lia. }
  assert (Hmet : forall x, In x (flat_map f_meta fs) -> meta_short x).
  { intros x Hx. apply in_flat_map in Hx as (f & Hf & Hx). destruct (Forall2_in_r _ _ _ _ K4 Hf) as (k & Hk & (ms & Ef & Hms)). rewrite Ef in Hx. cbn [f_meta] in Hx.
    destruct k as [[i l] mn]. apply Hks in Hk as [Hi Hk]. pose proof (proj1 (Forall_forall _ _) HO _ Hi) as HOi. cbn [fst snd] in *. apply (in_meta_of L i) in Hx; [|assumption].
    destruct i as [[o g] cs]. apply HOi in Hk as (_ & _ & _ & HM & _). now apply (proj1 (Forall_forall _ _) HM _ Hx). }
  assert (Hseen : N.of_nat (length seen) < 2 ^ 64).
  { rewrite (Permutation_length HSE). assert (length (flat_map (metadata L) objs') = length (flat_map (metadata L) objs))%nat by (apply Permutation_length, Permutation_flat_map, HP). lia. }
  destruct (store_load_spec _ _ _ (ok_msort _ HL) (ok_dsort _ HL) (ok_take _ HL) _ _ HR Hseen) as (buf & d & D1 & D2 & D3 & D4 & _); [|assumption|].
  { apply Forall_forall. intros x Hx. apply Hmet. now apply (Permutation_in _ HSE). }
  rewrite D1 in HD. apply Ok_inj in HD. subst buf.
  exists ks, fs, fs', ns, d. split; [assumption|]. split; [assumption|]. split; [now apply Permutation_sym|]. repeat (split; [assumption|]).
  assert (HI : incl d seen). { intros x Hx. apply D4 in Hx. unfold times in Hx. apply (count_occ_In meta_dec). lia. }
  apply NoDup_incl_length in HI; [|assumption]. split; [lia|]. now rewrite <- (Permutation_length HP).
Qed.

(** ** Loading *)
Lemma key_neq a b : bytes_eqb a b = false -> a <> b.
Proof. intros H E. subst b. rewrite bytes_eqb_refl in H. discriminate. Qed.

Lemma loads_any tasks : loads tasks = has_any_task tasks [lit "coastlines"] || has_any_task tasks [lit "features"].
Proof. unfold loads, has_any_task. cbn [existsb]. rewrite !orb_false_r. destruct (existsb (bytes_eqb (lit "all")) tasks), (existsb (bytes_eqb (lit "coastlines")) tasks), (existsb (bytes_eqb (lit "features")) tasks); reflexivity. Qed.

Lemma layer_lt {A} (names : list A) (n : N) x : nth_error names (N.to_nat n) = Some x -> n < N.of_nat (length names).
Proof. intros H. assert (N.to_nat n < length names)%nat by (apply nth_error_Some; congruence). lia. Qed.

Lemma values_count z i cs : (length (values_for z i cs) <= length cs)%nat.
Proof.
  unfold values_for. induction cs as [|c cs IH]; [cbn; lia|]. cbn [flat_map length]. rewrite app_length.
  match goal with |- (length ?x + _ <= _)%nat => assert (length x <= 1)%nat end; [|lia].
  destruct c as [f|t v]; [destruct (ser f); try (cbn; lia); destruct (meets z i _); cbn; lia|destruct (tile_eqb i t); cbn; lia].
Qed.
Lemma row_of_count db i : length (tile_features (map row_of db) i) = length (entry_values db i).
Proof.
  unfold tile_features, entry_values. induction db as [|e db IH]; [reflexivity|]. cbn [map filter flat_map row_of row_tile]. destruct (tile_eqb (fst e) i); cbn [flat_map]; [|exact IH].
  rewrite !app_length, IH. f_equal. unfold row_features. cbn [row_of row_packs]. rewrite map_entry. clear. induction (snd e) as [|p l IH]; [reflexivity|]. cbn [flat_map map concat]. rewrite !app_length, map_length, IH. reflexivity.
Qed.

(** what is loaded *)
Lemma load_content L tasks j cc m1 oc m2 : libs_ok L -> job_ok L j ->
  (if has_any_task tasks [lit "coastlines"] then exists e, load_coastlines L (j_polys j) cc e /\ m1 = meta_put [] kSeasideTree e else cc = [] /\ m1 = []) ->
  (if has_any_task tasks [lit "features"]
   then exists names dict, load_osm L (j_objs j) oc names dict /\ m2 = meta_put (meta_put m1 kLayerNames names) kMetaCoding dict else oc = [] /\ m2 = m1) ->
  exists D ks fs fs' names d sea, content L j (has_any_task tasks [lit "coastlines"]) (has_any_task tasks [lit "features"]) D ks fs names d sea /\
    meta_says m2 names d sea false /\ oc = map CFeature fs' /\ Permutation fs' fs /\
    Forall2 (fun d c => exists v, ser (snd d) = Ok v /\ c = CValue (fst d) v) D cc /\ (length ks <= length (j_objs j))%nat.
Proof.
  intros HL (HJ1 & HJ2 & HJ3) Hco Hfe.
  assert (HcoP : exists D sea v, (if has_any_task tasks [lit "coastlines"] then exists s, coast_result L (j_polys j) s /\ D = c_inserted s /\ sea = c_sea s else D = [] /\ sea = []) /\
    Forall2 (fun d c => exists v, ser (snd d) = Ok v /\ c = CValue (fst d) v) D cc /\
    Forall (fun t => tz t <= 10 /\ valid_tile t) sea /\ Forall (fun e => tz (fst e) = 10 /\ valid_tile (fst e) /\ sea_feature (fst e) (snd e)) D /\ Forall (fun f => fine f /\ has_area L (f_geom f)) (map snd D) /\
    match meta_get m1 kSeasideTree with Some s => bq_of_string s | None => Ok [kEmptyRoot] end = Ok v /\ make_bq_tree sea = Ok v /\
    meta_get m1 kLayerNames = None /\ meta_get m1 kMetaCoding = None /\ meta_get m1 kMaxPrepared = None).
  { destruct (has_any_task tasks [lit "coastlines"]).
    - destruct Hco as (e & He & ->). destruct (coast_part L _ _ _ HL He) as (s' & v & C1 & C2 & C3 & C4 & C5 & C6 & C7). exists (c_inserted s'), (c_sea s'), v.
      split; [eauto|]. repeat (split; [assumption|]). repeat split; reflexivity.
    - destruct Hco as [-> ->]. exists [], [], [kEmptyRoot]. split; [auto|]. repeat (split; [constructor|]). repeat split; reflexivity. }
  destruct HcoP as (D & sea & v & P1 & P2 & P3 & P4 & P5 & P6 & P7 & P8 & P9 & P10).
  assert (HfeP : exists ks fs fs' ns d, (if has_any_task tasks [lit "features"] then forall i l mn, In (i, l, mn) ks <-> In i (j_objs j) /\ imported L i l mn else ks = []) /\
    oc = map CFeature fs' /\ Permutation fs' fs /\
    Forall2 (made L) ks fs /\ Forall2 (fun k f => nth_error ns (N.to_nat (f_layer f)) = Some (snd (fst k))) ks fs /\
    nth_error ns 0 = Some coastline /\ NoDup ns /\ Forall (fun f => fine f /\ usable L (f_geom f) /\ meta_ok f) fs /\
    get_layer_names (meta_get m2 kLayerNames) = Ok ns /\ load_dict (meta_get m2 kMetaCoding) = Ok d /\ N.of_nat (length d) < 2 ^ 64 /\ (length ks <= length (j_objs j))%nat /\
    meta_get m2 kSeasideTree = meta_get m1 kSeasideTree /\ meta_get m2 kMaxPrepared = None).
  { destruct (has_any_task tasks [lit "features"]).
    - destruct Hfe as (names & dict & He & ->). destruct (objects_part L _ _ _ _ HL HJ1 HJ2 HJ3 He) as (ks & fs & fs' & ns & d & F1 & F2 & F3 & F4 & F5 & F6 & F7 & F8 & F9 & F10 & F11 & F11a).
      exists ks, fs, fs', ns, d. repeat (split; [assumption|]).
      rewrite !(meta_get_put_other _ kMetaCoding), !(meta_get_put_other _ kLayerNames) by (apply key_neq; reflexivity). split; [reflexivity | assumption].
    - destruct Hfe as [-> ->]. exists [], [], [], [coastline], []. rewrite P8, P9. repeat split; try constructor; try assumption; try (intros []). { constructor. } cbn; lia. }
  destruct HfeP as (ks & fs & fs' & ns & d & F1 & F2 & F3 & F4 & F5 & F6 & F7 & F8 & F9 & F10 & F11 & F11' & F12 & F13).
  exists D, ks, fs, fs', ns, d, sea. split; [|split; [|split; [assumption|split; [assumption|split; assumption]]]].
  - constructor; try assumption.
    + apply Forall_app. split; [eapply Forall_impl; [|exact P5]; intros f [Hf _]; exact Hf|]. eapply Forall_impl; [|exact F8]. intros f (Hf & _). exact Hf.
    + apply Forall_app. split.
      * apply Forall_forall. intros f Hf. apply in_map_iff in Hf as (e & <- & He). destruct (proj1 (Forall_forall _ _) P4 _ He) as (_ & _ & _ & E1 & _ & _ & E2 & ps & E3).
        split; [|split; [|split]].
        -- rewrite E1. destruct ns; [discriminate F6 | cbn [length]; lia].
        -- unfold meta_ok. rewrite E2. constructor.
        -- rewrite E3. exact I.
        -- exact (proj2 (proj1 (Forall_forall _ _) P5 _ (in_map snd _ _ He))).
      * apply Forall_forall. intros f Hf. destruct (Forall2_in_r _ _ _ _ F5 Hf) as (k & _ & Hn). destruct (proj1 (Forall_forall _ _) F8 _ Hf) as (_ & U & M).
        split; [eapply layer_lt; exact Hn|]. split; [assumption|]. split; [exact (usable_joinable L _ U) | exact (proj2 (proj2 (proj2 U)))].
    + eapply Forall_impl; [|exact F8]. intros f (_ & Hf & _). exact Hf.
  - constructor; try assumption. exists v. split; [now rewrite F12 | assumption].
Qed.

Lemma load_full L tasks j b : libs_ok L -> job_ok L j -> load_phase L tasks j (open_store empty_store) b ->
  exists D ks fs names d sea rows, content L j (has_any_task tasks [lit "coastlines"]) (has_any_task tasks [lit "features"]) D ks fs names d sea /\
    meta_says (ss_meta b) names d sea false /\ binv L true d D fs (ss_features b) (ss_file b) rows /\ whole_db D fs (ss_features b) /\ ss_tiles b = [] /\
    (forall i, index_tile 10 i -> (length (tile_features rows i) <= length D + length fs)%nat) /\
    exists cc fs' n s, Permutation fs' fs /\ Forall2 (fun d c => exists v, ser (snd d) = Ok v /\ c = CValue (fst d) v) D cc /\
      ireach 10 (2 ^ 30) (2 ^ 30 / 4 * 3) (l_isort L) [] (pf_open []) n s /\ i_calls s = cc ++ map CFeature fs' /\ ss_file b = i_file s /\ (length ks <= length (j_objs j))%nat.
Proof.
  intros HL HJ (cc & m1 & oc & m2 & n & s & Hco & Hfe & HR & HD & HF & HC & HS & ->). cbn [open_store empty_store ss_meta ss_features ss_tiles ss_file st_meta st_features st_tiles st_pack] in *.
  destruct (load_content L tasks j cc m1 oc m2 HL HJ Hco Hfe) as (D & ks & fs & fs' & ns & d & sea & C1 & C2 & F2 & F3 & P2 & F11').
  assert (Hfine : Forall fine (map snd D ++ fs')).
  { pose proof (n_fine _ _ _ _ _ _ _ _ _ _ C1) as H. apply Forall_app in H as [H1 H2]. apply Forall_app. split; [assumption|]. apply Forall_forall. intros f Hf. apply (proj1 (Forall_forall _ _) H2). now apply (Permutation_in _ F3). }
  destruct (laid_complete 10 (2 ^ 30) (2 ^ 30 / 4 * 3) (l_isort L) [] (pf_open []) [] n s (ok_isort _ HL)) as (db & HLD & HV); try assumption.
  { unfold pf_inv. vm_compute. discriminate. }
  { split; [constructor|]. split; [constructor|]. split; [constructor|]. split; constructor. }
  { vm_compute. discriminate. }
  { discriminate. }
  { rewrite HC. apply Forall_app. split.
    - apply Forall_forall. intros c Hc. destruct (Forall2_in_r _ _ _ _ P2 Hc) as (dd & _ & v0 & Ev & ->). cbn [SpecInserter.proper]. apply (ser_nonempty 0 0 0 (N.le_refl 0) (N.le_0_l _)) in Ev. intros ->. unfold blen in Ev; cbn in Ev; discriminate Ev.
    - rewrite F2. apply Forall_map, Forall_forall. intros f Hf. cbn [SpecInserter.proper]. apply (usable_world L). apply (proj1 (Forall_forall _ _) (n_usable _ _ _ _ _ _ _ _ _ _ C1)). now apply (Permutation_in _ F3). }
  pose proof (reach_grows 10 (2 ^ 30) (2 ^ 30 / 4 * 3) (l_isort L) (ok_isort _ HL) [] (pf_open []) n s) as G.
  assert (HG : ProofInserter.grows (pf_open []) (i_file s)). { apply G; [constructor | unfold pf_inv; vm_compute; discriminate | assumption]. } clear G.
  assert (HI' : pf_inv (i_file s)) by (destruct HG as (_ & G & _); exact G).
  assert (HB : binv L true d D fs' (i_table s) (i_file s) (map row_of db) /\ whole_db D fs' (i_table s)).
  { apply (loaded L d D fs' cc); try assumption; [unfold pf_inv in HI'; lia|]. intros i w Hi. destruct (HV i Hi) as (new & E1 & E2). cbn [entry_values flat_map app] in E1. rewrite E1, <- F2, <- HC.
    split; intros H; [now apply (Permutation_in _ (Permutation_sym E2)) | now apply (Permutation_in _ E2)]. }
  exists D, ks, fs, ns, d, sea, (map row_of db). cbn [ss_meta ss_features ss_tiles ss_file]. assert (Hcf : forall i f, cont D fs' i f <-> cont D fs i f).
  { intros i f. unfold cont. assert (In f fs' <-> In f fs) as <-; [|reflexivity]. split; intros H; [now apply (Permutation_in _ F3) | now apply (Permutation_in _ (Permutation_sym F3))]. }
  destruct HB as [HB HW]. split; [assumption|split; [assumption|split; [|split; [|split; [reflexivity|split]]]]].
  - destruct HB as [B1 B2 B3 B3' B4 B5 B6]. constructor; try assumption; [intros i f Hi Hx; apply Hcf; now apply B3 | intros i f Hi Hx He; apply B3'; [assumption | now apply Hcf | assumption]].
  - intros i f Hi Hx. apply (HW i f Hi). now apply Hcf.
  - intros i Hi. rewrite row_of_count. destruct (HV i Hi) as (new & E1 & E2). cbn [entry_values flat_map app] in E1. rewrite E1, <- (Permutation_length E2), HC.
    pose proof (values_count 10 i (cc ++ oc)) as H. rewrite app_length, F2, map_length in H. rewrite <- F2 in H. rewrite <- (Permutation_length F3), (Forall2_len _ _ _ P2). exact H.
  - exists cc, fs', n, s. rewrite <- F2. repeat (split; [assumption|]). split; [reflexivity | assumption].
Qed.
Lemma load_spec L tasks j b : libs_ok L -> job_ok L j -> load_phase L tasks j (open_store empty_store) b ->
  exists D ks fs names d sea rows, content L j (has_any_task tasks [lit "coastlines"]) (has_any_task tasks [lit "features"]) D ks fs names d sea /\
    meta_says (ss_meta b) names d sea false /\ binv L true d D fs (ss_features b) (ss_file b) rows /\ whole_db D fs (ss_features b) /\ ss_tiles b = [].
Proof.
  intros HL HJ HP. destruct (load_full L tasks j b HL HJ HP) as (D & ks & fs & names & d & sea & rows & H1 & H2 & H3 & H4 & H5 & _). exists D, ks, fs, names, d, sea, rows. repeat (split; [assumption|]). assumption.
Qed.
