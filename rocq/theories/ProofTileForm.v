(** Every tile the server sends is well-formed. *)
From Coq Require Import Permutation String Ascii Sorting.Sorted.
From Coq Require Import List.
From Verif Require Import Base BaseProof ModelTile SpecTile ProofTile ModelPackFile SpecPackFile ModelTable ModelCodec ModelGeom SpecGeom ModelFeature SpecFeature
  ModelPack ModelPacker SpecPacker ModelBqTree SpecBqTree ProofBqQuery ModelMvt SpecMvt SpecLines ProofMvtGeom ProofMvtTile ModelRender SpecRender ProofRender ModelPrepare SpecPrepare
  ModelInserter SpecInserter ProofInserter ModelDict SpecDict ProofDict
  ModelOsm SpecOsm ModelDrain ModelCoast SpecCoast SpecLayout ModelRepack SpecRepack ModelServer ModelImport SpecImport
  ProofImportObjects ProofImportLoad ProofImportRun ProofImportPack ProofImportServe ProofImportTop SpecTileForm.
Import ListNotations.
Open Scope N_scope.

(** where a point of the draw area ends up *)
Lemma shift_in_box (z X q : Z) : (0 <= z <= 20)%Z ->
  (X * (4096 * 2 ^ (20 - z)) - 4096 <= q <= (X + 1) * (4096 * 2 ^ (20 - z)) + 4096)%Z ->
  ((-4096) / 2 ^ (20 - z) <= Z.shiftr q (20 - z) - X * 4096 <= 4096 + 4096 / 2 ^ (20 - z))%Z.
Proof.
  intros Hz Hq. rewrite Z.shiftr_div_pow2 by lia. set (s := (2 ^ (20 - z))%Z) in *. assert (Hs : (0 < s)%Z) by (apply Z.pow_pos_nonneg; lia).
  replace (q / s - X * 4096)%Z with ((q + (- (X * 4096)) * s) / s)%Z by (rewrite Z.div_add by lia; lia).
  replace (4096 + 4096 / s)%Z with ((4096 + 4096 * s) / s)%Z by (rewrite Z.div_add by lia; lia).
  split; apply Z.div_le_mono; lia.
Qed.

Lemma no_neighbours_rel o l : no_equal_neighbours l -> no_equal_neighbours (map (rel o) l).
Proof.
  induction l as [|a [|b l] IH]; intros H; try exact I. cbn [map no_equal_neighbours] in *. destruct H as [H1 H2]. split; [|exact (IH H2)].
  intros E. apply H1. unfold rel in E. injection E as E1 E2. destruct a, b; cbn [fst snd] in *. f_equal; lia.
Qed.
Lemma closed_rel o r : closed_ring r -> closed_ring (map (rel o) r).
Proof. intros (p & q & ->). exists (rel o p), (map (rel o) q). cbn [map]. now rewrite map_app. Qed.

Lemma shown_fine t g v : tz t <= 20 -> geom_in (draw_area t) g -> rings_closed g -> shift_geom (tz t) g <> GNull ->
  relative_geom (tile_corner t) (shift_geom (tz t) g) = Some v -> geometry_fine (tz t) v.
Proof.
  intros Hz Hg Hc Hn Hv. destruct (shift_drawable (tz t) g) as [E|(D1 & D2 & _)]; [contradiction|]. specialize (D2 Hc).
  assert (HP : Forall (fun p => bminx (sea_box (tz t)) <= fst p <= bmaxx (sea_box (tz t)) /\ bminy (sea_box (tz t)) <= snd p <= bmaxy (sea_box (tz t)))%Z
    (map (rel (tile_corner t)) (geom_points (shift_geom (tz t) g)))).
  { apply Forall_map. apply Forall_forall. intros p Hp. apply shift_points in Hp as (q & Hq & ->). destruct (proj1 (Forall_forall _ _) Hg _ Hq) as [H1 H2].
    unfold draw_area, tile_area, sea_box, rel, tile_corner, shift_pt in *. cbn [fst snd bminx bminy bmaxx bmaxy] in *.
    split; apply shift_in_box; lia. }
  remember (shift_geom (tz t) g) as g' eqn:E. clear E. unfold geometry_fine.
  destruct g' as [|ps|ls|ps]; cbn [relative_geom] in Hv; [discriminate| | |]; injection Hv as <-; cbn [vpoints geom_points drawable rings_closed] in *.
  - split; [|split; [assumption|exact I]]. destruct ps; [congruence|discriminate].
  - destruct D1 as [N1 D1]. split; [|split].
    + destruct ls as [|l ls]; [congruence|]. inversion D1 as [|? ? [L1 _] _]; subst. destruct l; [cbn in L1; lia|]. discriminate.
    + rewrite <- concat_map. assumption.
    + apply Forall_map. eapply Forall_impl; [|exact D1]. intros l [A B]. split; [now rewrite map_length|now apply no_neighbours_rel].
  - destruct D1 as [N1 D1]. split; [|split].
    + destruct ps as [|[o hs] ps]; [congruence|]. cbn [poly_rings flat_map fst snd] in D1 |- *. inversion D1 as [|? ? [L1 _] _]; subst. destruct o; [cbn in L1; lia|]. discriminate.
    + rewrite <- concat_map. rewrite concat_rings. assumption.
    + apply Forall_map. rewrite Forall_forall in *. intros r Hr. destruct (D1 _ Hr) as [A B]. split; [now rewrite map_length|]. split; [now apply no_neighbours_rel | apply closed_rel; now apply D2].
Qed.

Lemma names_nodup {A} (names : list bytes) (R : A -> vlayer -> Prop) (idx : A -> N) ls vls : NoDup names ->
  (forall a v, R a v -> nth_error names (N.to_nat (idx a)) = Some (vl_name v)) -> StronglySorted N.lt (map idx ls) -> Forall2 R ls vls -> NoDup (map vl_name vls).
Proof.
  intros HN HR HS HF. revert HS. induction HF as [|a v ls vls H HF IH]; intros HS; cbn [map]; [constructor|]. cbn [map] in HS. inversion HS as [|? ? S1 S2]; subst. constructor; [|auto].
  intros Hin. apply in_map_iff in Hin as (v' & E & Hv'). destruct (Forall2_in_r _ _ _ _ HF Hv') as (a' & Ha' & H').
  apply HR in H, H'. rewrite E, <- H in H'. assert (N.to_nat (idx a') = N.to_nat (idx a)).
  { apply (proj1 (NoDup_nth_error names) HN); [|assumption]. apply nth_error_Some. rewrite H', H. discriminate. }
  assert (idx a < idx a'); [|lia]. apply (proj1 (Forall_forall _ _) S2). apply in_map_iff. eauto.
Qed.

(** tags *)
Lemma tags_keys ms tg : tags_of ms tg -> NoDup (map fst ms) -> NoDup (map fst tg) /\ incl (map fst tg) (map fst ms).
Proof.
  induction 1 as [|k v ms t HI HT IH|k v ms t x HI HM HT IH]; intros HN; cbn [map fst] in *.
  - split; [constructor | intros a []].
  - inversion HN; subst. destruct IH as [A B]; [assumption|]. split; [assumption|]. intros a Ha. right. auto.
  - inversion HN; subst. destruct IH as [A B]; [assumption|]. split; [constructor; auto|]. intros a [->|Ha]; [now left | right; auto].
Qed.
Lemma one_per_key_nodup ms r : one_per_key ms r -> NoDup (map fst r).
Proof.
  intros [HS _]. induction HS as [|a r HS IH HF]; cbn [map]; constructor; [|assumption]. intros Hin. apply in_map_iff in Hin as (b & E & Hb).
  pose proof (proj1 (Forall_forall _ _) HF _ Hb) as H. cbn beta in H. rewrite E in H. clear -H. induction (fst a) as [|c l IHl]; cbn [bytes_ltb] in H; [discriminate|].
  rewrite N.ltb_irrefl in H. rewrite ?N.eqb_refl in H. cbn in H. auto.
Qed.
Lemma tags_nodup L i v : shows_tags L i v -> NoDup (map fst (v_tags v)).
Proof.
  intros (ms & ms' & H1 & H2 & H3). apply (tags_keys _ _ H3). eapply Permutation_NoDup; [apply Permutation_map, Permutation_sym; exact H2|]. now apply (one_per_key_nodup (metadata L i)).
Qed.

Section T.
Context (raw : bool) (enc : meta -> option N) (mk : line -> bytes) (srt : list qfeature -> list qfeature) (x : rctx) (t : tile)
  (tiles features : table) (s : pfile) (rows : list row) (sea : list tile).
Hypothesis Hsrt : sorts_by_key srt.
Hypothesis Hz : tz t <= 20.
Hypothesis Hv : valid_tile t.
Hypothesis Hr : renderer_ok enc mk x (tz t).
Hypothesis Hsea : seaside_is x sea.
Hypothesis Hdb : database_ok raw enc (x_dec x) mk (x_rd x) srt s features rows.
Hypothesis Hprep : ~ prepared x t.
Hypothesis Hnames : x_names x <> [].
Hypothesis Hf : Forall (fun f => f_layer f < N.of_nat (length (x_names x)) /\ meta_ok f /\
    areal (simplified raw mk (x_rd x) (tz t) f) /\ (x_agg_lines x = true -> joinable (simplified raw mk (x_rd x) (tz t) f))) (near_features rows t).
Hypothesis Hnd : NoDup (x_names x).

Lemma rendered_fine b (Q : list meta -> Prop) : get_tile tiles features s x t = Ok (Some b) ->
  (forall ms ms', Permutation ms' ms -> Q ms -> Q ms') -> Q [(str_layer, str_coastline)] -> Forall (fun f => Q (f_meta f)) (near_features rows t) ->
  (forall ms, Q ms -> NoDup (map fst ms)) ->
  exists buf, buf <> [] /\ sent x buf (Some b) /\ (blen buf < 2 ^ 29 -> exists vls, decode_tile buf = Some vls /\ tile_fine (tz t) vls /\
    ((forall ms, Q ms -> Forall (fun m => canonical (snd m)) ms) -> Forall (fun vl => NoDup (vl_values vl)) vls)).
Proof.
  intros Hget HQP HQS HQ HQN.
  destruct (rendered raw enc mk srt x t tiles features s rows sea Hsrt Hz Hv Hr Hsea Hdb Hprep Hnames Hf) as (c & ss & gs & buf & EB & HX & N1 & N2 & N3 & N4 & N5 & N6 & N7 & N8 & EBT & HID & [HSS HES] & (shown & hidden & P & G1 & G2 & G3) & HGT).
  destruct HGT as [(HGT & _)|HGT]; rewrite HGT in Hget; [discriminate|].
  assert (buf <> [] /\ sent x buf (Some b)) as [Hne Hsent].
  { clear - Hget. destruct buf as [|b0 bf]; [discriminate|]. split; [discriminate|]. unfold sent. cbn [length Nat.eqb]. destruct (x_compress x).
    - apply bind_ok in Hget as (z & Ez & HR). apply Ok_inj in HR. eauto.
    - apply Ok_inj in Hget. now symmetry. }
  exists buf. split; [assumption|]. split; [assumption|]. intros Hb. clear Hget HGT.
  assert (HAG : aggregate_ok (c_aggregate c)) by (rewrite N3; apply Hr).
  destruct (tile_decodes c t (ss ++ gs) buf HX HID HAG EBT Hb) as (ls & vls & D1 & D2 & D3 & D4).
  pose proof (tile_ids_unique c t (ss ++ gs) buf vls HX HID HAG EBT Hb D1) as HU.
  assert (HQ0 : Forall (fun f => Q (f_meta f)) (ss ++ gs)).
  { apply Forall_app. split.
    - eapply Forall_impl; [|exact HSS]. cbv beta. intros f (_ & e & _ & _ & _ & E). rewrite E. exact HQS.
    - apply Forall_forall. intros g Hg. destruct (Forall2_in_r _ _ _ _ G1 Hg) as (f & Hfs & (Q1 & Q2 & Q3 & Q4 & Q5 & Q6)).
      apply (HQP (f_meta f)); [assumption|]. apply (proj1 (Forall_forall _ _) HQ). apply (Permutation_in _ P). apply in_or_app. now left. }
  assert (HW : forall i ws w, In (i, ws) ls -> In w ws -> f_id w < 2 ^ 64 /\ Q (f_meta w) /\ exists g, geom_in (draw_area t) g /\ rings_closed g /\ f_geom w = shift_geom (tz t) g /\ f_geom w <> GNull).
  { intros i ws w Hiw Hw. apply D4 in Hiw as [Hiw _]. destruct (content_cases c i _ ws w Hiw Hw) as (Hn & w0 & EC & HCase).
    assert (H0 : f_id w0 < 2 ^ 64 /\ Q (f_meta w0)).
    { destruct HCase as [[Hi _]|(ls' & r & A1 & A2 & A3)].
      - split; [exact (proj1 (Forall_forall _ _) HID _ Hi) | exact (proj1 (Forall_forall _ _) HQ0 _ Hi)].
      - destruct (HAG _ _ _ A1) as [HA _]. destruct (HA _ A2) as (K2 & w1 & I1 & I2 & I3). destruct (A3 _ I1) as (J1 & _). rewrite <- I2, <- I3.
        split; [exact (proj1 (Forall_forall _ _) HID _ J1) | exact (proj1 (Forall_forall _ _) HQ0 _ J1)]. }
    destruct H0 as [H0 H0']. destruct (clip_shift_present c t w0 w HX H0 EC Hn) as (_ & W1 & W2 & W3 & W4). rewrite W1, W3. split; [assumption|]. split; [assumption|].
    unfold clip_shift in EC. apply bind_ok in EC as (g & Eg & EC). apply Ok_inj in EC. subst w. cbn [set_geom f_geom] in *. destruct (clip_ok c t _ _ HX Eg) as (C1 & C2 & _). rewrite N7 in C1. rewrite N6 in *.
    exists g. split; [assumption|]. split; [assumption|]. split; [reflexivity|]. intros E. unfold not_null in Hn. cbn [f_geom] in Hn. rewrite E in Hn. discriminate. }
  exists vls. split; [assumption|]. split; [split|].
  - eapply (names_nodup (x_names x) (shows_layer c) fst ls vls Hnd); [|assumption|assumption]. intros a v (_ & _ & H & _). now rewrite N1 in H.
  - apply Forall_forall. intros vl Hvl. destruct (proj1 (Forall_forall _ _) HU _ Hvl) as [U1 U2]. destruct (Forall2_in_r _ _ _ _ D2 Hvl) as ([i ws] & Hiw & (S1 & S2 & S3 & S4 & S5 & S6)). cbn [fst snd] in *.
    unfold layer_fine. repeat (split; [assumption|]). apply Forall_forall. intros v Hvv. destruct (Forall2_in_r _ _ _ _ S6 Hvv) as (w & Hw & V1 & V2 & V3).
    destruct (HW _ _ _ Hiw Hw) as (W1 & W2 & g & W3 & W4 & W5 & W6). rewrite V1. split; [assumption|]. rewrite N8, W5 in V2. rewrite W5 in W6. split.
    + exact (shown_fine t g _ Hz W3 W4 W6 V2).
    + exact (proj1 (tags_keys _ _ V3 (HQN _ W2))).
  - intros HQC. apply Forall_forall. intros vl Hvl. destruct (Forall2_in_r _ _ _ _ D2 Hvl) as ([i ws] & Hiw & (_ & _ & _ & _ & S5 & _)). cbn [fst snd] in *.
    apply S5. apply Forall_forall. intros w Hw. apply HQC. exact (proj1 (proj2 (HW _ _ _ Hiw Hw))).
Qed.
End T.

Lemma added_canonical stod dbl o c : Forall (fun m => bytes_ok (snd m) -> canonical (snd m)) (added stod dbl o c).
Proof.
  assert (B : forall k b, Forall (fun m : meta => bytes_ok (snd m) -> canonical (snd m)) [(k, encode_bool b)]).
  { intros k b. constructor; [|constructor]. cbn [snd]. intros H. split; [assumption|]. intros d E. unfold encode_bool in E. destruct b; destruct E as [E|E]; injection E; auto; discriminate. }
  assert (O : forall k (v : bytes) n, n <> 0 -> n <> 1 -> Forall (fun m : meta => bytes_ok (snd m) -> canonical (snd m)) [(k, n :: v)]).
  { intros k v n H0 H1. constructor; [|constructor]. cbn [snd]. intros H. split; [assumption|]. intros d [E|E]; injection E; intros; congruence. }
  destruct c; cbn [added]; try apply Forall_nil; try apply B; try (apply O; discriminate).
  all: repeat match goal with |- Forall _ (match ?q with _ => _ end) => destruct q end; try apply Forall_nil; try apply B; try (apply O; discriminate).
Qed.

Lemma served_fine L j co fe raw prep whole st : libs_ok L -> sinv L j co fe raw prep whole (open_store st) -> forall t z, tz t <= 20 -> valid_tile t ->
  serve_tile L st t = Ok (Some z) ->
  exists buf, buf <> [] /\ l_deflate L buf = Ok z /\ (blen buf < 2 ^ 29 -> exists vls, decode_tile buf = Some vls /\ tile_fine (tz t) vls /\
    ((fe = true -> Forall (says_bytes L) (j_objs j)) -> Forall (fun vl => NoDup (vl_values vl)) vls)).
Proof.
  intros HL H t z Hz Hv E. destruct (serve_sinv L j co fe raw prep whole st HL H) as (D & ks & fs & names & d & sea & HC & _ & HS).
  destruct (HS t Hz Hv) as [(x & tiles & pf & rows & HV & HB & E')|(_ & _ & E' & _)]; [|congruence]. rewrite E' in E.
  set (Q := fun ms : list meta => NoDup (map fst ms) /\ ((fe = true -> Forall (says_bytes L) (j_objs j)) -> Forall (fun m => canonical (snd m)) ms)).
  destruct (rendered_fine raw _ (l_mk L) (l_qsort L) x t tiles (st_features st) pf rows sea (ok_qsort _ HL) Hz Hv
    (v_renderer L j co fe prep HL D ks fs names d sea HC t Hz x HV) (v_sea _ _ _ _ _ _ _ HV) (v_database L raw prep D fs names d sea t x (st_features st) pf rows HV (binv_shown _ _ _ _ _ _ _ _ HB)) (v_not _ _ _ _ _ _ _ HV)
    (v_named L j co fe prep D ks fs names d sea HC t x HV) (v_features L j co fe raw prep HL D ks fs names d sea HC t Hz x (st_features st) pf rows HV (binv_shown _ _ _ _ _ _ _ _ HB))) with (b := z) (Q := Q)
    as (buf & B1 & B2 & B3).
  - rewrite (v_names _ _ _ _ _ _ _ HV). exact (n_names _ _ _ _ _ _ _ _ _ _ HC).
  - assumption.
  - intros ms ms' HP [Q1 Q2]. split; [eapply Permutation_NoDup; [apply Permutation_map, Permutation_sym; exact HP | assumption]|].
    intros HA. eapply Permutation_Forall; [apply Permutation_sym; exact HP | auto].
  - split; [repeat constructor; auto|]. intros _. constructor; [|constructor]. split; [cbn [snd]; repeat constructor|]. intros dd [Ed|Ed]; discriminate Ed.
  - apply Forall_forall. intros f Hf. apply (near_in L raw D fs d t (st_features st) pf rows (binv_shown _ _ _ _ _ _ _ _ HB)) in Hf. apply in_app_or in Hf as [Hf|Hf].
    + apply in_map_iff in Hf as (e & <- & He). destruct (proj1 (Forall_forall _ _) (n_D _ _ _ _ _ _ _ _ _ _ HC) _ He) as (_ & _ & _ & _ & _ & _ & F4 & _). rewrite F4. split; [constructor | intros _; constructor].
    + destruct (Forall2_in_r _ _ _ _ (pairs L j co fe D ks fs names d sea HC) Hf) as ([[i layer] mn] & Hk & (ms & Ef & Hms) & _). rewrite Ef. cbn [f_meta fst snd] in *.
      split; [now apply (one_per_key_nodup _ _ Hms)|]. intros HA. pose proof (n_objs _ _ _ _ _ _ _ _ _ _ HC) as Hks. destruct fe; [|rewrite Hks in Hk; destruct Hk]. apply Hks in Hk as [Hi _].
      pose proof (proj1 (Forall_forall _ _) (HA eq_refl) _ Hi) as HY. apply Forall_forall. intros [k v] Hm. destruct Hms as [_ Hms]. apply Hms in Hm as [Hm _].
      pose proof (proj1 (Forall_forall _ _) HY _ Hm) as HYv. cbn [snd] in *. destruct i as [[o g] cs]. cbn [metadata] in Hm. apply in_flat_map in Hm as (cl & _ & Hm).
      exact (proj1 (Forall_forall _ _) (added_canonical _ _ _ _) _ Hm HYv).
  - intros ms [Q1 _]. exact Q1.
  - unfold sent in B2. rewrite (v_compress _ _ _ _ _ _ _ HV), (v_deflate _ _ _ _ _ _ _ HV) in B2. destruct buf as [|b0 buf]; [congruence|]. cbn [length Nat.eqb] in B2. destruct B2 as (z' & Ez & B2). injection B2 as <-.
    exists (b0 :: buf). split; [assumption|]. split; [assumption|]. intros Hb. destruct (B3 Hb) as (vls & V1 & V2 & V3). exists vls. split; [assumption|]. split; [assumption|]. intros HA. apply V3. intros ms [_ Q2]. auto.
Qed.
