(** Whole imports: the lines of prepared tiles. *)
From Coq Require Import Permutation String Ascii Sorting.Sorted.
From Coq Require Import List.
From Verif Require Import Base BaseProof ModelTile SpecTile ModelPackFile ModelTable ModelCodec ModelGeom SpecGeom ModelFeature SpecFeature
  ModelPacker SpecPacker ModelBqTree SpecBqTree ModelMvt SpecMvt SpecLines ModelRender SpecRender ProofRender
  ModelInserter SpecInserter ModelDict SpecDict ModelOsm SpecOsm ModelServer ModelImport SpecImport
  ProofImportObjects ProofImportLoad ProofImportRun ProofImportPack ProofImportServe ProofImportTop ProofJoined SpecJoined.
From Verif Require SpecAggregate ProofAggregateOut.
Import ListNotations.
Open Scope N_scope.

Lemma Forall_choice {A B} (R : A -> B -> Prop) l : (forall a, In a l -> exists b, R a b) -> exists bs, Forall2 R l bs.
Proof.
  induction l as [|a l IH]; intros H; [exists []; constructor|]. destruct (H a (or_introl eq_refl)) as (b & Hb). destruct IH as (bs & Hbs); [intros; apply H; now right|]. exists (b :: bs). now constructor.
Qed.

Section S.
Context (L : libs) (j : job) (co raw prep : bool) (simp : line -> N -> line).
Hypothesis HL : libs_ok L.
Hypothesis HS : joins_by simp (l_aggregate L).
Context (D : list (tile * feature)) (ks : list kept) (fs : list feature) (names : list bytes) (d : list meta) (sea : list tile).
Hypothesis HC : content L j co true D ks fs names d sea.
Context (t : tile).
Hypothesis Hz : tz t <= 20.
Hypothesis Hv : valid_tile t.
Context (x : rctx) (tiles F : table) (pf : pfile) (rows : list row).
Hypothesis HV : view L names d sea (true && (tz t <=? 10)) t x.
Hypothesis Hz10 : tz t <= 10.
Hypothesis HD : shown_db L raw d D fs F pf rows.

(** the object of a line *)
Definition line_of (layer : bytes) (h : feature) (i : osm_input) : Prop :=
  In i (j_objs j) /\ kind (snd (fst i)) = 2 /\ touches (bounding_box (snd (fst i))) (draw_area t) /\ (exists mn, imported L i layer mn /\ mn <= tz t) /\
  f_id h = to_u64 (o_id (fst (fst i))) /\ f_geom h = outline L raw (tz t) (snd (fst i)) /\ exists ms, one_per_key (metadata L i) ms /\ Permutation (f_meta h) ms.

Lemma near_line layer n f h : nth_error names (N.to_nat n) = Some layer -> In f (near_features rows t) -> may_draw raw (l_mk L) (x_rd x) t f -> drawn_as raw (l_mk L) x t f h -> f_layer f = n -> kind (f_geom f) = 2 ->
  exists i, line_of layer h i.
Proof.
  intros Hn Hin (M1 & M2 & _) (E1 & _ & _ & _ & E5 & E6) El Ek. apply (h_near _ _ _ _ _ _ _ _ HD t) in Hin as (i0 & _ & _ & [Hd|[Hf _]]).
  - exfalso. destruct (proj1 (Forall_forall _ _) (n_D _ _ _ _ _ _ _ _ _ _ HC) _ Hd) as (_ & _ & _ & _ & _ & _ & _ & ps & Eg). cbn [snd] in *. rewrite Eg in Ek. discriminate.
  - destruct (Forall2_in_r _ _ _ _ (pairs L j co true D ks fs names d sea HC) Hf) as ([[i layer'] mn] & Hk & (ms & Ef & Hms) & Hn'). cbn [fst snd] in *. rewrite El, Hn in Hn'. injection Hn' as <-.
    pose proof (n_objs _ _ _ _ _ _ _ _ _ _ HC) as Hks. cbn beta iota in Hks. apply Hks in Hk as [Hi Him]. exists i. unfold line_of.
    assert (Egm : f_geom f = snd (fst i)) by (rewrite Ef; reflexivity). rewrite Egm in *. split; [assumption|]. split; [assumption|]. split; [assumption|].
    split; [exists mn; split; [assumption|]; unfold in_zoom_range in M1; rewrite Ef in M1; cbn [f_minz] in M1; lia|].
    split; [rewrite E1, Ef; reflexivity|]. split; [rewrite E6; unfold simplified, outline; now rewrite (v_rd _ _ _ _ _ _ _ HV), Egm|]. exists ms. split; [assumption|]. rewrite Ef in E5. exact E5.
Qed.

(** from joined features to objects *)
Lemma group_objects layer ls r q : (forall h, In h ls -> exists i, line_of layer h i) -> NoDup (map f_id ls) -> SpecAggregate.aggregated simp (tz t) ls r -> In q r ->
  exists os sl, strip L j simp raw t layer os sl /\ f_geom q = GLine sl /\
    (forall h, In h ls -> f_meta h = f_meta q -> exists i, In i os /\ line_of layer h i) /\
    (forall g v, shows_joined t q g v -> shows_strip L t os g v).
Proof.
  intros Hob Hid (A1 & A2 & A3) Hq. destruct (proj1 (Forall_forall _ _) A3 _ Hq) as (g & js & P & (f0 & F1 & F2) & F3 & J1 & J2 & Eg).
  assert (Hg : forall h, In h g <-> In h ls /\ f_meta h = f_meta q).
  { intros h. split.
    - intros H. apply (Permutation_in _ P) in H. unfold SpecAggregate.group_of in H. apply filter_In in H as [H1 H2]. split; [assumption|]. destruct (list_eq_dec _ _ _) as [E|]; [exact E | discriminate H2].
    - intros [H1 H2]. apply (Permutation_in _ (Permutation_sym P)). unfold SpecAggregate.group_of. apply filter_In. split; [assumption|]. destruct (list_eq_dec _ _ _) as [|E]; [reflexivity | contradiction]. }
  destruct (Forall_choice (line_of layer) g) as (os & Hos); [intros h Hh; apply Hob; now apply Hg|].
  assert (Eids : map (fun i => to_u64 (o_id (fst (fst i)))) os = map f_id g).
  { clear -Hos. induction Hos as [|h i g os (_ & _ & _ & _ & E & _) Hos IH]; [reflexivity|]. cbn [map]. now rewrite IH, E. }
  assert (Elines : all_lines L raw t os = flat_map SpecAggregate.lines_of g).
  { clear -Hos. unfold all_lines. induction Hos as [|h i g os (_ & _ & _ & _ & _ & E & _) Hos IH]; [reflexivity|]. cbn [flat_map]. rewrite IH. unfold SpecAggregate.lines_of at 2. rewrite E. reflexivity. }
  assert (Hio : forall i, In i os -> exists h, In h g /\ line_of layer h i) by (intros i Hi; exact (Forall2_in_r _ _ _ _ Hos Hi)).
  assert (Hnd : NoDup (map f_id g)).
  { apply (Permutation_NoDup (l := map f_id (SpecAggregate.group_of (f_meta q) ls))); [apply Permutation_map; now symmetry|]. clear -Hid. unfold SpecAggregate.group_of. induction ls as [|h ls IH]; [constructor|].
    cbn [map] in Hid. apply NoDup_cons_iff in Hid as [H1 H2]. cbn [filter]. destruct (list_eq_dec _ _ _); [|auto]. cbn [map]. constructor; [|auto]. intros H. apply H1. apply in_map_iff in H as (k & E & Hk). apply filter_In in Hk as [Hk _]. apply in_map_iff. eauto. }
  exists os, (SpecAggregate.simplified simp (tz t) js). split; [|split; [exact Eg|split]].
  - constructor.
    + apply Forall_forall. intros i Hi. destruct (Hio i Hi) as (h & _ & (O1 & O2 & O3 & O4 & _)). auto.
    + exists (f_meta q). apply Forall_forall. intros i Hi. destruct (Hio i Hi) as (h & Hh & (_ & _ & _ & _ & _ & _ & ms & M1 & M2)). exists ms. split; [assumption|]. apply Hg in Hh as [_ <-]. exact M2.
    + now rewrite Eids.
    + exists js. rewrite Elines. auto.
  - intros h Hh Em. assert (Hi : In h g) by now apply Hg. destruct (Forall2_in_l _ _ _ _ Hos Hi) as (i & I1 & I2). eauto.
  - intros g' v (S1 & S2 & S3). unfold shows_strip. rewrite Eids, S1. split; [apply in_map_iff; eauto|]. split; [|split; [|assumption]].
    + apply Forall_forall. intros i Hi. destruct (Hio i Hi) as (h & Hh & (_ & _ & _ & _ & E & _)). rewrite <- E. exact (proj1 (Forall_forall _ _) F3 _ Hh).
    + apply Forall_forall. intros i Hi. destruct (Hio i Hi) as (h & Hh & (_ & _ & _ & _ & _ & _ & ms & M1 & M2)). exists ms, (f_meta q). split; [assumption|]. split; [|assumption]. apply Hg in Hh as [_ <-]. exact M2.
Qed.

Lemma v_tile_lines : exists buf,
  (forall b, get_tile tiles F pf x t = Ok (Some b) -> buf <> [] /\ sent x buf (Some b)) /\
  (forall r, buf <> [] -> get_tile tiles F pf x t = Ok r -> sent x buf r) /\
  (blen buf < 2 ^ 29 -> exists vls, decode_tile buf = Some vls /\ forall l, In l vls -> In (vl_name l) names) /\
  forall layer, In layer names ->
    (forall f, In f (near_features rows t) -> must_draw raw (l_mk L) (x_rd x) t f -> nth_error names (N.to_nat (f_layer f)) = Some layer -> kind (f_geom f) = 2 ->
      exists os sl g' i, strip L j simp raw t layer os sl /\ In i os /\ to_u64 (o_id (fst (fst i))) = f_id f /\ clip (l_cut L) (draw_area t) (GLine sl) = Ok g' /\
        (shift_geom (tz t) g' <> GNull -> buf <> [] /\ (forall vls, blen buf < 2 ^ 29 -> decode_tile buf = Some vls ->
           exists l v, In l vls /\ In v (vl_features l) /\ vl_name l = layer /\ shows_strip L t os g' v))) /\
    (forall vls l v, blen buf < 2 ^ 29 -> decode_tile buf = Some vls -> In l vls -> In v (vl_features l) -> vl_name l = layer -> vkind (v_geom v) = 2 ->
       exists os sl g', strip L j simp raw t layer os sl /\ clip (l_cut L) (draw_area t) (GLine sl) = Ok g' /\ shows_strip L t os g' v).
Proof.
  pose proof (n_names _ _ _ _ _ _ _ _ _ _ HC) as HN.
  assert (Hag : x_agg_lines x = true) by (rewrite (v_lines _ _ _ _ _ _ _ HV); cbn [andb]; lia).
  assert (Hxn : NoDup (x_names x)) by (rewrite (v_names _ _ _ _ _ _ _ HV); assumption).
  destruct (tile_lines raw _ (l_mk L) (l_qsort L) x t tiles F pf rows sea (ok_qsort _ HL) Hz Hv (v_renderer L j co true true HL D ks fs names d sea HC t Hz x HV) (v_sea _ _ _ _ _ _ _ HV)
    (v_database L raw true D fs names d sea t x F pf rows HV HD) (v_not _ _ _ _ _ _ _ HV) (v_named L j co true true D ks fs names d sea HC t x HV)
    (v_features L j co true raw true HL D ks fs names d sea HC t Hz x F pf rows HV HD) Hag (v_ignore _ _ _ _ _ _ _ HV) Hxn) as (buf & B1 & B2 & B3 & B4).
  exists buf. split; [exact B1|]. split; [exact B2|]. split; [now rewrite (v_names _ _ _ _ _ _ _ HV) in B3|]. intros layer Hl. apply In_nth_error in Hl as (n & Hn).
  destruct (B4 (N.of_nat n)) as (ls & r & C1 & C2 & C3 & C4 & C5 & C6 & C7). rewrite Nat2N.id, (v_names _ _ _ _ _ _ _ HV) in *. rewrite (v_cut _ _ _ _ _ _ _ HV) in *. rewrite (v_aggregate _ _ _ _ _ _ _ HV) in C5.
  assert (Hob : forall h, In h ls -> exists i, line_of layer h i).
  { intros h Hh. destruct (C3 h Hh) as (f & F1 & F2 & F3 & F4 & F5). apply (near_line layer (N.of_nat n) f h); auto. now rewrite Nat2N.id. }
  split.
  - intros f Hf Hm Hnf Hk. assert (f_layer f = N.of_nat n).
    { enough (N.to_nat (f_layer f) = n) by lia. apply (proj1 (NoDup_nth_error names) HN); [apply nth_error_Some; congruence | congruence]. }
    destruct (C4 f Hf Hm H Hk) as (h & Hh & Eh). destruct C5 as [[-> _]|C5]; [destruct Hh|]. pose proof (HS _ _ _ C2 C5) as HAg.
    assert (Hq : exists q, In q r /\ f_meta q = f_meta h). { destruct HAg as (_ & A2 & _). assert (Hm' : In (f_meta h) (map f_meta r)) by (apply A2; now apply in_map). apply in_map_iff in Hm' as (q & E & Hq). eauto. }
    destruct Hq as (q & Q1 & Q2). destruct (group_objects layer ls r q Hob C1 HAg Q1) as (os & sl & O1 & O2 & O3 & O4).
    destruct (O3 h Hh (eq_sym Q2)) as (i & I1 & I2). destruct (C6 q Q1) as (g & G1 & G2). exists os, sl, g, i. rewrite <- O2.
    split; [assumption|]. split; [assumption|]. split; [destruct I2 as (_ & _ & _ & _ & E & _); congruence|]. split; [assumption|]. intros Hg. destruct (G2 Hg) as [G3 G4]. split; [assumption|].
    intros vls Hb Hdec. destruct (G4 vls Hb Hdec) as (l & v & V1 & V2 & V3 & V4). exists l, v. split; [assumption|]. split; [assumption|]. split; [congruence|]. now apply O4.
  - intros vls l v Hb Hdec Hl Hvl En Hk. destruct (C7 vls l v Hb Hdec Hl Hvl) as (q & g & Q1 & Q2 & Q3); [congruence | assumption|].
    destruct C5 as [[_ ->]|C5]; [destruct Q1|]. destruct (group_objects layer ls r q Hob C1 (HS _ _ _ C2 C5) Q1) as (os & sl & O1 & O2 & O3 & O4).
    exists os, sl, g. rewrite <- O2. split; [assumption|]. split; [assumption|]. now apply O4.
Qed.
End S.

(** on every database of which the invariant holds *)
Lemma strip_shown : forall L j co raw whole st simp, libs_ok L -> joins_by simp (l_aggregate L) -> sinv L j co true raw true whole (open_store st) ->
  forall t i layer mn, tz t <= 10 -> valid_tile t -> In i (j_objs j) -> imported L i layer mn -> kind (snd (fst i)) = 2 ->
  (forall i' mn', In i' (j_objs j) -> imported L i' layer mn' -> to_u64 (o_id (fst (fst i'))) = to_u64 (o_id (fst (fst i))) -> kind (snd (fst i')) = 2 -> i' = i) ->
  mn <= tz t -> meets (tz t) t (bounding_box (snd (fst i))) = true ->
  (whole = true \/ exists ix, index_tile 10 ix /\ related ix t /\ meets 10 ix (bounding_box (snd (fst i))) = true /\ has_entry (st_features st) ix) ->
  exists os ls g', In i os /\ strip L j simp raw t layer os ls /\ clip (l_cut L) (draw_area t) (GLine ls) = Ok g' /\
    (shift_geom (tz t) g' <> GNull -> answers_with L st t (fun vls => exists vl v, In vl vls /\ In v (vl_features vl) /\ vl_name vl = layer /\ shows_strip L t os g' v)).
Proof.
  intros L j co raw whole st simp HL HS H t i layer mn Hz Hv Hi Him Hk Hun Hmn HM Hen. assert (Hz20 : tz t <= 20) by lia.
  destruct (serve_sinv L j co true raw true whole st HL H) as (D & ks & fs & names & d & sea & HC & HW & HSV).
  pose proof (n_objs _ _ _ _ _ _ _ _ _ _ HC) as Hks. cbn beta iota in Hks. assert (Hkk : In (i, layer, mn) ks) by (apply Hks; auto).
  destruct (Forall2_in_l _ _ _ _ (pairs L j co true D ks fs names d sea HC) Hkk) as (f & Hf & (ms & Ef & Hms) & Hn). cbn [fst snd] in *.
  assert (Eid : f_id f = to_u64 (o_id (fst (fst i)))) by (rewrite Ef; reflexivity). assert (Egm : f_geom f = snd (fst i)) by (rewrite Ef; reflexivity).
  assert (Emn : f_minz f = mn) by (rewrite Ef; reflexivity). assert (Emx : f_maxz f = 21) by (rewrite Ef; reflexivity).
  pose proof (proj1 (Forall_forall _ _) (n_usable _ _ _ _ _ _ _ _ _ _ HC) _ Hf) as HU. cbn beta in HU. rewrite Egm in HU.
  assert (HX : exists ix, index_tile 10 ix /\ related ix t /\ cont D fs ix f /\ has_entry (st_features st) ix).
  { destruct Hen as [Hw|(ix & I1 & I2 & I3 & I4)].
    - destruct (index_of t (bounding_box (snd (fst i))) Hz20 Hv (usable_world L _ HU) HM) as (ix & Ix & Rx & Mx). assert (HK : cont D fs ix f) by (right; split; [assumption|]; now rewrite Egm).
      exists ix. split; [assumption|]. split; [assumption|]. split; [assumption|]. exact (HW Hw ix f Ix HK).
    - exists ix. split; [assumption|]. split; [assumption|]. split; [|assumption]. right. split; [assumption|]. now rewrite Egm. }
  destruct HX as (ix & I1 & I2 & I3 & I4).
  destruct (HSV t Hz20 Hv) as [(x & tiles & pf & rows & HV & HB & E)|(_ & _ & E & Hno & _)]; [|exfalso; exact (Hno ix I1 I2 I4)].
  pose proof (binv_shown _ _ _ _ _ _ _ _ HB) as HD.
  destruct (v_tile_lines L j co raw simp HL HS D ks fs names d sea HC t Hz20 Hv x tiles (st_features st) pf rows HV Hz HD) as (buf & B1 & B2 & B3 & B4).
  destruct (B4 layer (nth_error_In _ _ Hn)) as [B5 _].
  destruct (B5 f) as (os & sl & g' & i' & O1 & O2 & O3 & O4 & O5); [eapply near_all; eauto | | assumption | now rewrite Egm|].
  { split; [|split].
    - unfold in_zoom_range. rewrite Emn, Emx. lia.
    - rewrite Egm. now apply meets_touches.
    - intros EN. pose proof EN as EN'. unfold simplified in EN'. rewrite Egm in EN'. destruct (snd (fst i)); try discriminate Hk. destruct raw; cbn [make_masks select_geom] in EN'; discriminate EN'. }
  exists os, sl, g'. pose proof (sp_objects _ _ _ _ _ _ _ _ O1) as HO. destruct (proj1 (Forall_forall _ _) HO _ O2) as (P1 & P2 & _ & (mn' & P3 & _)).
  assert (i' = i) by (apply (Hun i' mn'); auto; congruence). subst i'. split; [assumption|]. split; [assumption|]. split; [assumption|]. intros Hg. destruct (O5 Hg) as [O6 O7].
  apply (v_answer L j co true raw true st HL D ks fs names d sea HC t Hz20 Hv x tiles (st_features st) pf rows HV HD _ E). exists buf. split; [assumption|]. split; [intros r Hr; exact (B2 r O6 Hr)|].
  intros Hb. destruct (B3 Hb) as (vls & Hd & _). exists vls. split; [assumption|]. exact (O7 vls Hb Hd).
Qed.

Lemma strip_only : forall L j co raw whole st simp, libs_ok L -> joins_by simp (l_aggregate L) -> sinv L j co true raw true whole (open_store st) ->
  forall t z, tz t <= 10 -> valid_tile t -> serve_tile L st t = Ok (Some z) ->
  exists buf, l_deflate L buf = Ok z /\ (blen buf < 2 ^ 29 -> exists vls, decode_tile buf = Some vls /\ forall vl v, In vl vls -> In v (vl_features vl) -> vkind (v_geom v) = 2 ->
    exists os ls g', strip L j simp raw t (vl_name vl) os ls /\ clip (l_cut L) (draw_area t) (GLine ls) = Ok g' /\ shows_strip L t os g' v).
Proof.
  intros L j co raw whole st simp HL HS H t z Hz Hv E. assert (Hz20 : tz t <= 20) by lia.
  destruct (serve_sinv L j co true raw true whole st HL H) as (D & ks & fs & names & d & sea & HC & HW & HSV).
  destruct (HSV t Hz20 Hv) as [(x & tiles & pf & rows & HV & HB & E')|(_ & _ & E' & _)]; [|congruence]. rewrite E' in E.
  pose proof (binv_shown _ _ _ _ _ _ _ _ HB) as HD.
  destruct (v_tile_lines L j co raw simp HL HS D ks fs names d sea HC t Hz20 Hv x tiles (st_features st) pf rows HV Hz HD) as (buf & B1 & B2 & B3 & B4).
  destruct (B1 z E) as [Hne Hs]. unfold sent in Hs. rewrite (v_compress _ _ _ _ _ _ _ HV), (v_deflate _ _ _ _ _ _ _ HV) in Hs.
  destruct buf as [|b0 buf]; [congruence|]. cbn [length Nat.eqb] in Hs. destruct Hs as (z' & Ez & Ez'). injection Ez' as <-. exists (b0 :: buf). split; [assumption|]. intros Hb. destruct (B3 Hb) as (vls & Hd & HNs). exists vls. split; [assumption|].
  intros vl v V1 V2 Hk. destruct (B4 (vl_name vl)) as [_ B6]; [now apply HNs|exact (B6 vls vl v Hb Hd V1 V2 eq_refl Hk)].
Qed.

(** the segments of joined lines *)
Lemma strip_segments L j raw t layer os ls : libs_ok L -> tz t <= 20 -> Forall (fun i => usable L (snd (fst i))) os -> strip L j (fun l _ => l) raw t layer os ls ->
  Permutation (segments_of ls) (segments_of (all_lines L raw t os)).
Proof.
  intros HL Hz HU HS. destruct (sp_lines _ _ _ _ _ _ _ _ HS) as (js & J1 & _ & ->). unfold segments_of.
  assert (ES : SpecAggregate.simplified (fun l _ => l) (tz t) js = js) by (unfold SpecAggregate.simplified; destruct (tz t <=? 20)%N; [apply map_id|reflexivity]). rewrite ES.
  apply ProofAggregateOut.segments_preserved; [|assumption]. unfold all_lines. clear -HU HL Hz. induction HU as [|i os H HU IH]; [constructor|]. cbn [flat_map]. apply Forall_app. split; [|assumption].
  pose proof (outline_joinable L raw (tz t) _ HL Hz H) as HJ. unfold its_lines. destruct (outline L raw (tz t) (snd (fst i))); try constructor. apply HJ.
Qed.

(** one line alone *)
Lemma joined_single l js : SpecAggregate.joined_from [l] js -> js = [l] \/ js = [rev l].
Proof.
  intros (routes & P & F). cbn [length seq] in P. apply Permutation_sym, Permutation_length_1_inv in P.
  destruct F as [|r o routes js (Hr & _ & Eo) F]; [discriminate P|]. destruct r as [|a r]; [congruence|]. cbn [concat map app] in P. injection P as Ea P. rewrite map_app in P. apply app_eq_nil in P as [P1 P2].
  destruct r; [|discriminate P1]. destruct F as [|r' o' routes js (Hr' & _) F]; [|destruct r'; [congruence | discriminate P2]].
  cbn [map SpecAggregate.glue concat tl] in Eo. rewrite app_nil_r in Eo. destruct a as [n b]. cbn [fst] in Ea. subst n. unfold SpecAggregate.oriented in Eo. cbn [fst snd nth] in Eo. destruct b; subst o; auto.
Qed.
