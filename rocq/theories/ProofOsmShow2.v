(** Areas, rails and waterways of an OSM file are shown. *)
From Coq Require Import String Ascii Sorted Permutation.
From Coq Require Import List.
From Verif Require Import Base BaseProof ModelTile SpecTile ModelCodec ModelGeom SpecGeom ModelFeature SpecFeature ModelInserter SpecInserter ModelDict SpecDict ModelOsm SpecOsm ModelMvt SpecMvt ModelRender SpecRender ModelNodeIdx SpecNodeIdx
  ModelServer ModelImport SpecImport ModelProfile SpecProfile ModelLoadOsm SpecLoadOsm ProofProfile ProofProfile2 ProofProfile3 ProofLoadOsm ProofLoadOsm2 ProofOsmSize ProofDict ProofRender ProofPackerProps ProofOsmShow.
From Verif Require SpecPacker PropImport PropProfile.
Import ListNotations.
Open Scope N_scope.

(** ** Values that are added once *)
Definition sets (k : bytes) (c : call) : bool :=
  match c with
  | CAddBool k' _ | CAddString k' _ | CAddNumeric k' _ | CAddInteger k' _ | CTagBool k' | CTagString k' | CTagNumeric k' | CTagInteger k' => bytes_eqb k' k
  | _ => false
  end.
Definition once (k : string) (cs : list call) : bool := (length (filter (sets (lit k)) cs) <=? 1)%nat.
Lemma added_sets stod dbl o c k v : In (k, v) (added stod dbl o c) -> sets k c = true /\ added stod dbl o c = [(k, v)].
Proof.
  intros H. assert (R : bytes_eqb k k = true) by now apply bytes_eqb_eq. destruct c as [z|l| |n|k0 b|k0 s|k0 d|k0 z|k0|k0|k0|k0]; cbn [added sets] in *; try (destruct H; fail).
  all: try (destruct H as [H|H]; [injection H as -> ->; split; [exact R | reflexivity] | destruct H]; fail).
  all: destruct (tag_value (o_tags o) k0) as [w|]; cbn [In] in H; try (destruct H; fail).
  all: try (destruct H as [H|H]; [injection H as -> ->; split; [exact R | reflexivity] | destruct H]; fail).
  - destruct (stod w); cbn [In] in H; [|destruct H]. destruct H as [H|H]; [injection H as -> ->; split; [exact R | reflexivity] | destruct H].
  - destruct (from_chars64 w); cbn [In] in H; [|destruct H]. destruct H as [H|H]; [injection H as -> ->; split; [exact R | reflexivity] | destruct H].
Qed.
Lemma once_value stod dbl o cs k v v' : once k cs = true -> In (lit k, v) (flat_map (added stod dbl o) cs) -> In (lit k, v') (flat_map (added stod dbl o) cs) -> v = v'.
Proof.
  intros H1 H2 H3. apply in_flat_map in H2. destruct H2 as (c & Hc & H2). apply in_flat_map in H3. destruct H3 as (c' & Hc' & H3).
  destruct (added_sets _ _ _ _ _ _ H2) as [S2 E2]. destruct (added_sets _ _ _ _ _ _ H3) as [S3 E3].
  assert (F2 : In c (filter (sets (lit k)) cs)) by (apply filter_In; split; assumption). assert (F3 : In c' (filter (sets (lit k)) cs)) by (apply filter_In; split; assumption).
  unfold once in H1. destruct (filter (sets (lit k)) cs) as [|x [|y l]]; [destruct F2 | | discriminate H1]. destruct F2 as [<-|[]]. destruct F3 as [<-|[]]. rewrite E2 in E3. now injection E3.
Qed.
Lemma string_shown L o g cs v k s : shows_tags L (o, g, cs) v -> once k cs = true -> ~ internal_key (lit k) -> adds_string o cs k s -> In (lit k, MString (lit s)) (v_tags v).
Proof.
  intros (ms & ms' & [_ HO] & HP & HT) Hp Hk Ha. apply (tags_in ms' _ _ (encode_string (lit s))); [exact HT| |exact Hk|reflexivity].
  apply (Permutation_in _ (Permutation_sym HP)). apply HO. split; [apply (Ha (l_stod L) (l_dbl L))|].
  intros v' Hv'. rewrite (once_value (l_stod L) (l_dbl L) o cs k v' (encode_string (lit s)) Hp Hv' (Ha (l_stod L) (l_dbl L))). apply bytes_ltb_irrefl.
Qed.
Lemma landuse_once num o : once "landuse" (full_area o) = true /\ once "landuse" (bg_area o) = true /\ once "rail" (full_way num o) = true /\ once "rail" (bg_way o) = true.
Proof.
  split; [|split; [|split]].
  - unfold full_area, landuse. splits; reflexivity.
  - unfold bg_area, landuse. splits; reflexivity.
  - unfold full_way. destruct (has_key o "highway").
    + assert (A : forall pre, filter (sets (lit "rail")) pre = [] -> once "rail" (pre ++ add_levels num o) = true).
      { intros pre Hp. unfold once. rewrite filter_app, Hp. unfold add_levels. destruct (has_any_tag o (lit "level") []); [|reflexivity]. destruct (split_level _) as [[f t]|]; [|reflexivity].
        destruct (num f); [|reflexivity]. destruct (num t); reflexivity. }
      destruct (is1 o "highway" "elevator"); [apply A; reflexivity|]. unfold full_road. rewrite app_assoc. destruct (is1 o "highway" "steps"); [apply A; splits; reflexivity|]. splits; reflexivity.
    + destruct (has_value o "railway" _); [unfold full_rail; splits; reflexivity|]. destruct (has_key o "waterway"); [unfold waterway; splits; reflexivity | reflexivity].
  - unfold bg_way, bg_road, bg_rail, waterway. splits; reflexivity.
Qed.
Lemma not_internal : ~ internal_key (lit "landuse") /\ ~ internal_key (lit "rail").
Proof. split; intros [E|(s & E)]; vm_compute in E; discriminate. Qed.

(** ** Which row *)
Lemma first_row o (l1 l1' l2 l2' : list arow) r r' : l1 ++ r :: l2 = l1' ++ r' :: l2' -> Forall (fun x => ~ row_fits o x) l1 -> Forall (fun x => ~ row_fits o x) l1' -> row_fits o r -> row_fits o r' -> r = r'.
Proof.
  revert l1'. induction l1 as [|x l1 IH]; intros [|x' l1'] E F F' H H'; cbn [app] in E; injection E as E1 E2.
  - exact E1.
  - subst. inversion F' as [|? ? A B]. contradiction.
  - subst. inversion F as [|? ? A B]. contradiction.
  - inversion F as [|? ? A B]. inversion F' as [|? ? A' B']. exact (IH l1' E2 B B' H H').
Qed.
Lemma row_of p rows o area l1 r l2 : area_table p rows -> rows = l1 ++ r :: l2 -> Forall (fun x => ~ row_fits o x) l1 -> row_fits o r ->
  selects area (pr_area p o) (a_layer r) (row_zoom area r) /\ (forall kind, a_kind r = Some kind -> adds_string o (pr_area p o) "landuse" kind) /\ once "landuse" (pr_area p o) = true.
Proof.
  intros HT E F H. assert (HR : area_rule o area (pr_area p o) rows /\ once "landuse" (pr_area p o) = true).
  { destruct HT as [[-> ->]|[(num & ->) ->]]; [split; [apply bg_area_rule | apply (landuse_once (fun _ => None) o)] | split; [apply full_area_rule | apply (landuse_once num o)]]. }
  destruct HR as [[[_ N]|(m1 & r' & m2 & E' & F' & H' & Hs & Ha)] Ho].
  - rewrite E in N. apply Forall_app in N. destruct N as [_ N]. inversion N. contradiction.
  - rewrite E in E'. rewrite <- (first_row o l1 m1 l2 m2 r r' E' F F' H H') in *. split; [exact Hs|]. split; [|exact Ho]. intros kind Hk. now rewrite Hk in Ha.
Qed.

Theorem areas_shown : forall L O p all bufs co raw prep st, imported_file L O p all bufs co raw prep st ->
  forall rows a ps l1 r l2 t g', area_table p rows -> In a (file_areas O bufs) -> area_shape O a ps ->
  rows = l1 ++ r :: l2 -> Forall (fun x => ~ row_fits (fst a) x) l1 -> row_fits (fst a) r ->
  row_zoom (l_oarea L (GPoly ps)) r <= tz t <= 20 -> valid_tile t -> meets (tz t) t (bounding_box (GPoly ps)) = true ->
  clip (l_cut L) (draw_area t) (outline L raw (tz t) (GPoly ps)) = Ok g' -> shift_geom (tz t) g' <> GNull ->
  (prep = true -> tz t <= 10 -> (256 <= l_area L (shift_geom (tz t) g'))%Z) ->
  shows_in L st t (a_layer r) (fun f => v_id f = to_u64 (o_id (fst a)) /\ relative_geom (tile_corner t) (shift_geom (tz t) g') = Some (v_geom f) /\
    forall kind, a_kind r = Some kind -> In (lit "landuse", MString (lit kind)) (v_tags f)).
Proof.
  intros L O p all bufs co raw prep st [HL HD HP HF HC (j & HJ & HH)] rows a ps l1 r l2 t g' HT Ha Hs E F H [Hz1 Hz2] Hvt HM Hc Hg Hpr.
  destruct (row_of p rows (fst a) (l_oarea L (GPoly ps)) l1 r l2 HT E F H) as ([S1 S2] & K & Ho).
  pose proof (area_handled all O p bufs (j_objs j) a ps (ct_sort _ _ _ HC) HF HJ Ha Hs) as Hi.
  unfold shows_in. eapply answers_mono; [|apply (object_shown L O p bufs all HD HP HF HC (j_objs j) HJ j eq_refl HL co raw prep st HH t (fst a) (GPoly ps) (pr_area p (fst a)) (lit (a_layer r)) (row_zoom (l_oarea L (GPoly ps)) r) g' Hz2 Hvt Hi)].
  - intros vls (vl & f & A & B & C & D1 & D2 & D3). exists vl, f. split; [exact A|]. split; [exact B|]. split; [exact C|]. split; [exact D1|]. split; [exact D3|].
    intros kind Hk. exact (string_shown L (fst a) _ _ f "landuse" kind D2 Ho (proj1 not_internal) (K kind Hk)).
  - split; [exact S1|]. split; [exact S2 | discriminate].
  - exact Hz1.
  - exact HM.
  - exact Hc.
  - exact Hg.
  - intros P1 P2. split; [discriminate|]. intros _. exact (Hpr P1 P2).
Qed.

(** ** Ways *)
Lemma ways_shown L O p all bufs co raw prep st : imported_file L O p all bufs co raw prep st ->
  forall o refs layer z t g', In (o, refs) (file_ways bufs) -> selects (l_oarea L (GLine [way_points O bufs refs])) (pr_way p o) layer z ->
  z <= tz t <= 20 -> valid_tile t -> (prep = true -> 10 < tz t) -> (2 <= length (way_points O bufs refs))%nat ->
  meets (tz t) t (bounding_box (GLine [way_points O bufs refs])) = true ->
  clip (l_cut L) (draw_area t) (outline L raw (tz t) (GLine [way_points O bufs refs])) = Ok g' -> shift_geom (tz t) g' <> GNull ->
  shows_in L st t layer (fun f => v_id f = to_u64 (o_id o) /\ relative_geom (tile_corner t) (shift_geom (tz t) g') = Some (v_geom f) /\
    shows_tags L (o, GLine [way_points O bufs refs], pr_way p o) f).
Proof.
  intros [HL HD HP HF HC (j & HJ & HH)] o refs layer z t g' Hw [S1 S2] [Hz1 Hz2] Hvt Hpr Hn HM Hc Hg.
  set (g := GLine [way_points O bufs refs]) in *.
  pose proof (loaded_way L all O p bufs _ _ HC HF HJ Hw) as Hi. assert (Eo : way_object O p bufs (o, refs) = (o, g, pr_way p o)).
  { unfold way_object. cbn [fst snd]. subst g. destruct (way_points O bufs refs) as [|a [|b l]]; cbn [length] in Hn; [lia | lia | reflexivity]. }
  rewrite Eo in Hi. unfold shows_in. eapply answers_mono; [|apply (object_shown L O p bufs all HD HP HF HC (j_objs j) HJ j eq_refl HL co raw prep st HH t o g (pr_way p o) (lit layer) z g' Hz2 Hvt Hi)].
  - intros vls (vl & f & A & B & C & D1 & D2 & D3). exists vl, f. split; [exact A|]. split; [exact B|]. split; [exact C|]. split; [exact D1|]. split; [exact D3 | exact D2].
  - split; [exact S1|]. split; [exact S2 | discriminate].
  - exact Hz1.
  - exact HM.
  - exact Hc.
  - exact Hg.
  - intros P1 P2. apply Hpr in P1. lia.
Qed.
Theorem waterways_shown : forall L O p all bufs co raw prep st, imported_file L O p all bufs co raw prep st ->
  forall o refs v z t g', In (o, refs) (file_ways bufs) -> untagged o "highway" -> (forall x, In x ["rail"; "light_rail"; "subway"; "tram"; "narrow_gauge"]%string -> ~ tagged o "railway" x) ->
  tagged o "waterway" v -> In (v, z) waterways ->
  z <= tz t <= 20 -> valid_tile t -> (prep = true -> 10 < tz t) -> (2 <= length (way_points O bufs refs))%nat ->
  meets (tz t) t (bounding_box (GLine [way_points O bufs refs])) = true ->
  clip (l_cut L) (draw_area t) (outline L raw (tz t) (GLine [way_points O bufs refs])) = Ok g' -> shift_geom (tz t) g' <> GNull ->
  shows_in L st t "waterway" (fun f => v_id f = to_u64 (o_id o) /\ relative_geom (tile_corner t) (shift_geom (tz t) g') = Some (v_geom f)).
Proof.
  intros L O p all bufs co raw prep st HI o refs v z t g' Hw H1 H2 Hv Hz Hz1 Hvt Hpr Hn HM Hc Hg.
  assert (HS : selects (l_oarea L (GLine [way_points O bufs refs])) (pr_way p o) "waterway" z).
  { assert (W : In (v, "waterway"%string, z) waterway_layers) by (apply in_map_iff; exists (v, z); split; [reflexivity | exact Hz]).
    destruct (if_profile _ _ _ _ _ _ _ _ _ HI) as [->|(num & ->)]; cbn [background full pr_way].
    - rewrite (bg_way_other o H1 H2), (key_tagged _ _ _ Hv). exact (proj1 (waterway_rule o _ v Hv) _ _ W).
    - rewrite (full_way_other num o H1) by (intros x Hi; apply H2; cbn [In] in *; tauto). rewrite (key_tagged _ _ _ Hv). exact (proj1 (waterway_rule o _ v Hv) _ _ W). }
  eapply answers_mono; [|exact (ways_shown L O p all bufs co raw prep st HI o refs "waterway" z t g' Hw HS Hz1 Hvt Hpr Hn HM Hc Hg)].
  intros vls (vl & f & A & B & C & D1 & D2 & _). exists vl, f. auto.
Qed.
Lemma two_profiles num : background <> full num.
Proof. intros H. apply (f_equal (fun p => pr_area p (OsmObj 1 [(lit "landuse", lit "forest")]))) in H. vm_compute in H. discriminate H. Qed.
Theorem rails_shown : forall L O p all bufs co raw prep st, imported_file L O p all bufs co raw prep st ->
  forall o refs v kind z t g', In (o, refs) (file_ways bufs) -> untagged o "highway" -> tagged o "railway" v -> rail_kind p o v kind z ->
  z <= tz t <= 20 -> valid_tile t -> (prep = true -> 10 < tz t) -> (2 <= length (way_points O bufs refs))%nat ->
  meets (tz t) t (bounding_box (GLine [way_points O bufs refs])) = true ->
  clip (l_cut L) (draw_area t) (outline L raw (tz t) (GLine [way_points O bufs refs])) = Ok g' -> shift_geom (tz t) g' <> GNull ->
  shows_in L st t "rail" (fun f => v_id f = to_u64 (o_id o) /\ relative_geom (tile_corner t) (shift_geom (tz t) g') = Some (v_geom f) /\ In (lit "rail", MString (lit kind)) (v_tags f)).
Proof.
  intros L O p all bufs co raw prep st HI o refs v kind z t g' Hw H1 Hv HK Hz1 Hvt Hpr Hn HM Hc Hg.
  set (area := l_oarea L (GLine [way_points O bufs refs])).
  assert (HS : selects area (pr_way p o) "rail" z /\ adds_string o (pr_way p o) "rail" kind /\ once "rail" (pr_way p o) = true).
  { destruct HK as [HT HK]. assert (HR : exists sec, (rail_table p v -> rails (pr_way p) sec o area v) /\ (secondary_rails p v -> In v sec) /\ once "rail" (pr_way p o) = true).
    { destruct (if_profile _ _ _ _ _ _ _ _ _ HI) as [->|(num & ->)].
      - exists ["subway"; "tram"; "light_rail"; "narrow_gauge"]%string. split; [intros [[_ X]|[(n & Y) _]]; [apply bg_rails_rule; assumption | destruct (two_profiles n Y)]|]. split; [|apply (landuse_once (fun _ => None) o)].
        intros [[_ X]|[(n & Y) _]]; [exact X | destruct (two_profiles n Y)].
      - exists ["subway"; "tram"]%string. split; [intros [[Y _]|[_ X]]; [destruct (two_profiles num (eq_sym Y)) | apply full_rails_rule; assumption]|]. split; [|apply (landuse_once num o)].
        intros [[Y _]|[_ X]]; [destruct (two_profiles num (eq_sym Y)) | exact X]. }
    destruct HR as (sec & HR & HC2 & Ho). specialize (HR HT). destruct HR as (R1 & R2 & R3). destruct HK as [(B & -> & ->)|[(B & Ev & -> & ->)|(B & Hs & -> & ->)]].
    - destruct (R1 B) as [X Y]. auto.
    - destruct (R2 B Ev) as [X Y]. auto.
    - destruct (R3 B (HC2 Hs)) as [X Y]. auto. }
  destruct HS as (HS & HA & Ho).
  eapply answers_mono; [|exact (ways_shown L O p all bufs co raw prep st HI o refs "rail" z t g' Hw HS Hz1 Hvt Hpr Hn HM Hc Hg)].
  intros vls (vl & f & A & B & C & D1 & D2 & D3). exists vl, f. split; [exact A|]. split; [exact B|]. split; [exact C|]. split; [exact D1|]. split; [exact D2|].
  exact (string_shown L o _ _ f "rail" kind D3 Ho (proj2 not_internal) HA).
Qed.
