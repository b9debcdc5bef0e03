(** What is shown of an OSM file. *)
From Coq Require Import String Ascii Sorted Permutation.
From Coq Require Import List.
From Verif Require Import Base BaseProof ModelTile SpecTile ModelCodec ModelGeom SpecGeom ModelFeature SpecFeature ModelInserter SpecInserter ModelDict SpecDict ModelOsm SpecOsm ModelMvt SpecMvt ModelRender SpecRender ModelNodeIdx SpecNodeIdx
  ModelServer ModelImport SpecImport ModelProfile SpecProfile ModelLoadOsm SpecLoadOsm ProofProfile ProofProfile2 ProofProfile3 ProofLoadOsm ProofOsmSize ProofDict ProofRender ProofPackerProps.
From Verif Require SpecPacker PropImport PropProfile.
Import ListNotations.
Open Scope N_scope.

(** ** Tags *)
(** metadata with this key is the value of the tag *)
Definition as_is (k : bytes) (c : call) : bool :=
  match c with
  | CAddBool k' _ | CAddString k' _ | CAddNumeric k' _ | CAddInteger k' _ | CTagBool k' | CTagNumeric k' | CTagInteger k' => negb (bytes_eqb k' k)
  | _ => true
  end.
Definition texts : list string := ["highway"; "name"; "place"; "ref"]%string.
Definition plain_calls (cs : list call) : bool := forallb (fun k => forallb (as_is (lit k)) cs) texts.
Lemma plain_levels num o pre : plain_calls pre = true -> plain_calls (pre ++ add_levels num o) = true.
Proof.
  intros H. assert (HL : plain_calls (add_levels num o) = true).
  { unfold add_levels. destruct (has_any_tag _ _ _); [|reflexivity]. destruct (split_level _) as [[f t]|]; [|reflexivity]. destruct (num f); [|reflexivity]. destruct (num t); reflexivity. }
  unfold plain_calls, texts in *. cbn [forallb] in *. rewrite !forallb_app. rewrite !andb_true_iff in *. tauto.
Qed.
Lemma full_plain num o : plain_calls (full_node num o) = true /\ plain_calls (full_way num o) = true.
Proof.
  split.
  - unfold full_node. destruct (has_key o "place"); [splits; reflexivity|]. destruct (is1 o "highway" "elevator"); [|reflexivity]. apply plain_levels. reflexivity.
  - unfold full_way. destruct (has_key o "highway").
    + destruct (is1 o "highway" "elevator"); [apply plain_levels; reflexivity|]. unfold full_road. rewrite app_assoc.
      destruct (is1 o "highway" "steps"); [apply plain_levels; splits; reflexivity|]. splits; reflexivity.
    + destruct (has_value o "railway" _); [unfold full_rail; splits; reflexivity|]. destruct (has_key o "waterway"); [unfold waterway; splits; reflexivity | reflexivity].
Qed.
Lemma bg_plain o : plain_calls (bg_node o) = true /\ plain_calls (bg_way o) = true.
Proof.
  split.
  - unfold bg_node. splits; reflexivity.
  - unfold bg_way, bg_road, bg_rail, waterway. splits; reflexivity.
Qed.
Lemma plain_value stod dbl o cs k v w : plain_calls cs = true -> In k texts -> tag_value (o_tags o) (lit k) = Some w -> In (lit k, v) (flat_map (added stod dbl o) cs) -> v = encode_string w.
Proof.
  intros Hp Hk Hw Hi. apply (proj1 (forallb_forall _ _) Hp) in Hk. apply in_flat_map in Hi. destruct Hi as (c & Hc & Hi). apply (proj1 (forallb_forall _ _) Hk) in Hc.
  assert (X : forall k', negb (bytes_eqb k' (lit k)) = true -> k' <> lit k) by (intros k' E ->; rewrite (proj2 (bytes_eqb_eq _ _) eq_refl) in E; discriminate).
  destruct c; try destruct Hi; cbn [as_is] in Hc; try (cbn [added] in Hi).
  all: try (apply (f_equal fst) in H; cbn [fst] in H; now apply X in Hc).
  all: try (destruct H).
  - destruct (tag_value (o_tags o) k0) as [u|] eqn:E; cbn [In] in Hi; [|destruct Hi]. destruct Hi as [Hi|[]]. apply (f_equal fst) in Hi; cbn [fst] in Hi; now apply X in Hc.
  - destruct (tag_value (o_tags o) k0) as [u|] eqn:E; cbn [In] in Hi; [|destruct Hi]. destruct Hi as [Hi|[]]. injection Hi as E1 E2. subst k0. congruence.
  - destruct (tag_value (o_tags o) k0) as [u|] eqn:E; cbn [In] in Hi; [|destruct Hi]. destruct (stod u); [|destruct Hi]. destruct Hi as [Hi|[]]. apply (f_equal fst) in Hi; cbn [fst] in Hi; now apply X in Hc.
  - destruct (tag_value (o_tags o) k0) as [u|] eqn:E; cbn [In] in Hi; [|destruct Hi]. destruct (from_chars64 u); [|destruct Hi]. destruct Hi as [Hi|[]]. apply (f_equal fst) in Hi; cbn [fst] in Hi; now apply X in Hc.
Qed.
Lemma tags_in ms ts k v x : tags_of ms ts -> In (k, v) ms -> ~ internal_key k -> meta_value v = Some x -> In (k, x) ts.
Proof.
  intros H Hi Hk Hv. induction H as [|k' v' ms t Hk' H IH|k' v' ms t x' Hk' Hv' H IH]; [destruct Hi| |].
  - destruct Hi as [Hi|Hi]; [injection Hi as -> ->; contradiction | now apply IH].
  - destruct Hi as [Hi|Hi]; [injection Hi as -> ->; left; congruence | right; now apply IH].
Qed.
Lemma public_text k : In k texts -> ~ internal_key (lit k).
Proof. unfold texts. cbn [In]. intros Hk [E|(s & E)]; repeat (destruct Hk as [<-|Hk]; [vm_compute in E; discriminate|]); destruct Hk. Qed.
Lemma text_shown L o g cs v k w : shows_tags L (o, g, cs) v -> plain_calls cs = true -> In k texts -> keeps_tag o cs k -> tag_value (o_tags o) (lit k) = Some w -> In (lit k, MString w) (v_tags v).
Proof.
  intros (ms & ms' & [_ HO] & HP & HT) Hp Hk Ht Hw. apply (tags_in ms' _ _ (encode_string w)); [exact HT| |now apply public_text|reflexivity].
  apply (Permutation_in _ (Permutation_sym HP)). apply HO. split; [apply (Ht (l_stod L) (l_dbl L) w Hw)|].
  intros v' Hv'. apply (plain_value (l_stod L) (l_dbl L) o cs k v' w Hp Hk Hw) in Hv'. subst v'. apply bytes_ltb_irrefl.
Qed.

(** ** Kinds and ids *)
Lemma read_kind items : forall acc g, read_area_items acc items = Ok g -> kind g = 0 \/ kind g = 3.
Proof.
  induction items as [|i items IH]; intros acc g H; cbn [read_area_items] in H.
  - destruct acc; apply Ok_inj in H; subst g; [left | right]; reflexivity.
  - destruct i.
    + cbv zeta in H. destruct (_ <? 3)%nat; [apply Ok_inj in H; subst g; left; reflexivity | now apply IH in H].
    + destruct acc as [|[o is] acc]; [discriminate|]. cbv zeta in H. destruct (_ <? 3)%nat; [|now apply IH in H]. destruct (close_ring _); [discriminate | now apply IH in H].
    + now apply IH in H.
Qed.
Lemma to_u64_inj a b : int64_ok a = true -> int64_ok b = true -> to_u64 a = to_u64 b -> a = b.
Proof. unfold int64_ok, min64, max64, to_u64. intros Ha Hb E. lia. Qed.
Lemma nodup_key {A B} (f : A -> B) l a b : NoDup (map f l) -> In a l -> In b l -> f a = f b -> a = b.
Proof.
  intros HN. induction l as [|x l IH]; [intros []|]. cbn [map] in HN. inversion HN as [|? ? Hx HN']; subst. intros [<-|Ha] [<-|Hb] E; try reflexivity.
  - exfalso. apply Hx. rewrite E. now apply in_map.
  - exfalso. apply Hx. rewrite <- E. now apply in_map.
  - now apply IH.
Qed.
Lemma forall2_nodup {A B C D} (R : A -> B -> Prop) (f : A -> C) (g : B -> D) (h : C -> D) l1 l2 : Forall2 R l1 l2 -> (forall a b, R a b -> g b = h (f a)) -> map g l2 = map h (map f l1).
Proof. intros H Hr. induction H as [|a b l1 l2 H _ IH]; [reflexivity|]. cbn [map]. now rewrite IH, (Hr _ _ H). Qed.
Lemma sorted_nodup {A} (f : A -> Z) l : StronglySorted (fun a b => (Z.abs (f a) < Z.abs (f b))%Z) l -> NoDup (map f l).
Proof.
  induction 1 as [|a l H IH HF]; cbn [map]; constructor; [|exact IH]. intros Hi. apply in_map_iff in Hi. destruct Hi as (b & E & Hb). apply (proj1 (Forall_forall _ _) HF) in Hb. cbn beta in Hb. rewrite E in Hb. lia.
Qed.

Section Shown.
Context (L : libs) (O : osm_libs) (p : profile) (bufs : list buffer) (all : bool).
Context (HD : forall z, int64_ok z = true -> length (l_dbl L z) = 8%nat) (HP : shipped p) (HF : file_ok all bufs) (HC : contents_ok L O bufs).
Context (objs : list osm_input) (HL : load_objects (arithmetic all) O p bufs = Ok objs).
Lemma unique_object o g cs o' h cs' : In (o, g, cs) objs -> In (o', h, cs') objs -> g <> GNull -> kind h = kind g -> to_u64 (o_id o') = to_u64 (o_id o) -> (o', h, cs') = (o, g, cs).
Proof.
  destruct (loaded_objects all O p bufs (ct_sort _ _ _ HC) HF objs HL) as (areas & HA & HPm). intros H1 H2 Hg Hk Hid.
  apply (Permutation_in _ HPm) in H1. apply (Permutation_in _ HPm) in H2. rewrite !in_app_iff in H1, H2.
  assert (KN : forall x, In x (map (node_object O p) (file_nodes bufs)) -> kind (snd (fst x)) = 1) by (intros x Hx; apply in_map_iff in Hx; destruct Hx as (n & <- & _); reflexivity).
  assert (KW : forall x, In x (map (way_object O p bufs) (file_ways bufs)) -> kind (snd (fst x)) = 0 \/ kind (snd (fst x)) = 2).
  { intros x Hx. apply in_map_iff in Hx. destruct Hx as (n & <- & _). unfold way_object. cbn [fst snd]. destruct (way_points _ _ _) as [|a [|b l]]; [left | left | right]; reflexivity. }
  assert (KA : forall x, In x areas -> kind (snd (fst x)) = 0 \/ kind (snd (fst x)) = 3).
  { intros x Hx. destruct (Forall2_in_r _ _ _ _ HA Hx) as (a & _ & g0 & E & ->). cbn [fst snd]. unfold read_area in E. now apply read_kind in E. }
  assert (K0 : kind g <> 0) by (destruct g; [congruence | discriminate..]).
  destruct H1 as [H1|[H1|H1]]; [pose proof (KN _ H1) as K1 | pose proof (KW _ H1) as K1 | pose proof (KA _ H1) as K1]; cbn [fst snd] in K1;
  (destruct H2 as [H2|[H2|H2]]; [pose proof (KN _ H2) as K2 | pose proof (KW _ H2) as K2 | pose proof (KA _ H2) as K2]; cbn [fst snd] in K2); try (exfalso; lia).
  - apply in_map_iff in H1. destruct H1 as (n1 & E1 & N1). apply in_map_iff in H2. destruct H2 as (n2 & E2 & N2). rewrite <- E1, <- E2. f_equal.
    apply (nodup_key (fun n => o_id (fst n)) (file_nodes bufs)); [apply sorted_nodup, (fo_sorted _ _ HF) | assumption | assumption|].
    pose proof (proj1 (Forall_forall _ _) (fo_nodes _ _ HF) _ N1) as (B1 & _). pose proof (proj1 (Forall_forall _ _) (fo_nodes _ _ HF) _ N2) as (B2 & _). cbn beta in B1, B2.
    apply (f_equal (fun i => o_id (fst (fst i)))) in E1. apply (f_equal (fun i => o_id (fst (fst i)))) in E2. cbn [fst node_object] in E1, E2. rewrite <- E1, <- E2 in Hid.
    apply to_u64_inj; [unfold int64_ok, min64, max64; lia | unfold int64_ok, min64, max64; lia | exact Hid].
  - apply in_map_iff in H1. destruct H1 as (n1 & E1 & N1). apply in_map_iff in H2. destruct H2 as (n2 & E2 & N2). rewrite <- E1, <- E2. f_equal.
    apply (nodup_key (fun n => o_id (fst n)) (file_ways bufs)); [apply (proj1 (ct_ways _ _ _ HC)) | assumption | assumption|].
    assert (B : forall n, In n (file_ways bufs) -> int64_ok (o_id (fst n)) = true). { intros n Hn. apply (proj1 (Forall_forall _ _) (ct_ids _ _ _ HC) (fst n)). apply in_or_app. left. now apply in_map. }
    apply (f_equal (fun i => o_id (fst (fst i)))) in E1. apply (f_equal (fun i => o_id (fst (fst i)))) in E2. cbn [fst way_object] in E1, E2. rewrite <- E1, <- E2 in Hid.
    apply to_u64_inj; [now apply B | now apply B | exact Hid].
  - assert (HN : NoDup (map (fun i : osm_input => o_id (fst (fst i))) areas)).
    { rewrite (forall2_nodup _ (fun a : oarea => o_id (fst a)) _ (fun z => z) _ _ HA); [rewrite map_id; apply (proj1 (ct_areas _ _ _ HC))|]. intros a b (g0 & _ & ->). reflexivity. }
    symmetry. apply (nodup_key (fun i : osm_input => o_id (fst (fst i))) areas); [exact HN | exact H1 | exact H2|]. cbn [fst].
    assert (B : forall x, In x areas -> int64_ok (o_id (fst (fst x))) = true).
    { intros x Hx. destruct (Forall2_in_r _ _ _ _ HA Hx) as (a & Ha & g0 & _ & ->). cbn [fst]. apply (proj1 (Forall_forall _ _) (ct_ids _ _ _ HC) (fst a)). apply in_or_app. right. now apply in_map. }
    apply to_u64_inj; [exact (B _ H1) | exact (B _ H2) | now symmetry].
Qed.
Lemma never_coast o g cs layer mn : In (o, g, cs) objs -> imported L (o, g, cs) layer mn -> layer <> coastline /\ mn <= 18.
Proof.
  destruct (loaded_objects all O p bufs (ct_sort _ _ _ HC) HF objs HL) as (areas & HA & HPm). intros H1 (A1 & A2 & _). apply (Permutation_in _ HPm) in H1. rewrite !in_app_iff in H1.
  assert (Hf : fine cs = true).
  { destruct H1 as [H1|[H1|H1]].
    - apply in_map_iff in H1. destruct H1 as (n & E & _). injection E as <- <- <-. apply (shipped_fine p _ HP).
    - apply in_map_iff in H1. destruct H1 as (n & E & _). unfold way_object in E. injection E as <- <- <-. apply (shipped_fine p _ HP).
    - destruct (Forall2_in_r _ _ _ _ HA H1) as (a & _ & g0 & _ & E). injection E as -> -> ->. apply (shipped_fine p _ HP). }
  destruct (fine_chosen _ _ _ Hf A1) as (Hz & l & Hl & El). split; [|exact Hz]. rewrite A2 in El. injection El as ->. cbn [layers_of In] in Hl. repeat (destruct Hl as [<-|Hl]; [intros X; vm_compute in X; discriminate|]). destruct Hl.
Qed.
Context (j : job) (Hj : j_objs j = objs) (OK : libs_ok L) (co raw prep : bool) (st : store) (HH : history L j co true raw prep st).
Lemma object_shown t o g cs layer mn g' : tz t <= 20 -> valid_tile t -> In (o, g, cs) objs -> imported L (o, g, cs) layer mn -> mn <= tz t -> meets (tz t) t (bounding_box g) = true ->
  clip (l_cut L) (draw_area t) (outline L raw (tz t) g) = Ok g' -> shift_geom (tz t) g' <> GNull ->
  (prep = true -> tz t <= 10 -> kind g <> 2 /\ (kind g = 3 -> (256 <= l_area L (shift_geom (tz t) g'))%Z)) ->
  answers_with L st t (fun vls => exists vl v, In vl vls /\ In v (vl_features vl) /\ vl_name vl = layer /\ shows_object L t (o, g, cs) g' v).
Proof.
  intros Hz Hv Hi Him Hmn HM Hg Hgn Hag. pose proof (never_coast _ _ _ _ _ Hi Him) as [Hc _].
  eapply (PropImport.c62_object_shown L j co raw prep st OK (osm_job_ok L O p bufs all HD HP HF HC objs j HL Hj) HH t o g cs layer mn g' Hz Hv).
  - now rewrite Hj.
  - exact Him.
  - intros E. contradiction.
  - intros o' h cs' mn' Hi' Him' Eo Ek. rewrite Hj in Hi'. apply unique_object; try assumption. apply Him.
  - exact Hmn.
  - exact HM.
  - exact Hg.
  - exact Hgn.
  - intros P1 P2. destruct (Hag P1 P2) as [A1 A2]. split; [exact A1|]. intros _. exact A2.
Qed.
End Shown.

(** ** Points *)
Lemma pixel_rel t q : tz t <= 20 -> rel (tile_corner t) (shift_pt (tz t) q) = pixel t q.
Proof.
  intros Hz. unfold rel, tile_corner, shift_pt, pixel. cbn [fst snd]. rewrite !Z.shiftr_div_pow2 by lia. assert (HP : (0 < 2 ^ (20 - Z.of_N (tz t)))%Z) by (apply Z.pow_pos_nonneg; lia).
  replace (2 ^ (32 - Z.of_N (tz t)))%Z with (4096 * 2 ^ (20 - Z.of_N (tz t)))%Z by (change 4096%Z with (2 ^ 12)%Z; rewrite <- Z.pow_add_r by lia; f_equal; lia).
  rewrite !Z.mul_assoc. assert (D : forall a k, ((a - k * 2 ^ (20 - Z.of_N (tz t))) / 2 ^ (20 - Z.of_N (tz t)) = a / 2 ^ (20 - Z.of_N (tz t)) - k)%Z); [|now rewrite !D].
  intros a k. replace (a - k * 2 ^ (20 - Z.of_N (tz t)))%Z with (a + (- k) * 2 ^ (20 - Z.of_N (tz t)))%Z by lia. rewrite Z.div_add by lia. lia.
Qed.
Lemma pixel_range t q : tz t <= 20 -> in_tile t q -> (0 <= fst (pixel t q) < 4096 /\ 0 <= snd (pixel t q) < 4096)%Z.
Proof.
  intros Hz [H1 H2]. unfold pixel. cbn [fst snd]. assert (HP : (0 < 2 ^ (20 - Z.of_N (tz t)))%Z) by (apply Z.pow_pos_nonneg; lia).
  replace (2 ^ (32 - Z.of_N (tz t)))%Z with (4096 * 2 ^ (20 - Z.of_N (tz t)))%Z in * by (change 4096%Z with (2 ^ 12)%Z; rewrite <- Z.pow_add_r by lia; f_equal; lia).
  split; (split; [apply Z.div_pos; nia | apply Z.div_lt_upper_bound; nia]).
Qed.
Lemma point_meets t q : in_tile t q -> meets (tz t) t (bounding_box (GPoint [q])) = true.
Proof.
  intros [H1 H2]. unfold meets, side. destruct q as [x y]. cbn [fst snd] in *. unfold bounding_box, envelope. cbn [fold_left]. unfold box_add, inverse_box. cbn [bminx bminy bmaxx bmaxy fst snd].
  set (s := (2 ^ (32 - Z.of_N (tz t)))%Z) in *. clearbody s. lia.
Qed.
Lemma point_drawn L raw t q : tz t <= 20 -> in_tile t q -> clip (l_cut L) (draw_area t) (outline L raw (tz t) (GPoint [q])) = Ok (GPoint [q]).
Proof.
  intros Hz [H1 H2]. assert (E : outline L raw (tz t) (GPoint [q]) = GPoint [q]) by (unfold outline; destruct raw; reflexivity). rewrite E. cbn [clip filter].
  assert (W : within (draw_area t) q = true); [|now rewrite W].
  unfold within, draw_area, SpecPacker.tile_area. cbn [bminx bminy bmaxx bmaxy].
  replace (2 ^ (32 - Z.of_N (tz t)))%Z with (4096 * 2 ^ (20 - Z.of_N (tz t)))%Z in * by (change 4096%Z with (2 ^ 12)%Z; rewrite <- Z.pow_add_r by lia; f_equal; lia). lia.
Qed.

(** ** Roads and places *)
Lemma loaded_way L all O p bufs objs w : contents_ok L O bufs -> file_ok all bufs -> load_objects (arithmetic all) O p bufs = Ok objs -> In w (file_ways bufs) -> In (way_object O p bufs w) objs.
Proof.
  intros HC HF HL Hw. destruct (loaded_objects all O p bufs (ct_sort _ _ _ HC) HF objs HL) as (areas & _ & HPm). apply (Permutation_in _ (Permutation_sym HPm)). apply in_or_app. right. apply in_or_app. left. now apply in_map.
Qed.
Lemma loaded_node L all O p bufs objs n : contents_ok L O bufs -> file_ok all bufs -> load_objects (arithmetic all) O p bufs = Ok objs -> In n (file_nodes bufs) -> In (node_object O p n) objs.
Proof.
  intros HC HF HL Hw. destruct (loaded_objects all O p bufs (ct_sort _ _ _ HC) HF objs HL) as (areas & _ & HPm). apply (Permutation_in _ (Permutation_sym HPm)). apply in_or_app. left. now apply in_map.
Qed.
Lemma answers_mono L st t (P Q : list vlayer -> Prop) : (forall vls, P vls -> Q vls) -> answers_with L st t P -> answers_with L st t Q.
Proof. intros H (buf & z & A & B & C). exists buf, z. split; [exact A|]. split; [exact B|]. intros Hb. destruct (C Hb) as (vls & D & E). exists vls. split; [exact D | now apply H]. Qed.
Lemma roads_plain p tb o v z area : road_table p tb -> tagged o "highway" v -> In (v, z) tb ->
  selects area (pr_way p o) "road" z /\ keeps_tag o (pr_way p o) "highway" /\ keeps_tag o (pr_way p o) "name" /\ plain_calls (pr_way p o) = true /\ shipped p.
Proof.
  intros HT Hv Hz. destruct HT as [[-> ->]|[(num & ->) ->]].
  - destruct (bg_roads_rule o area v Hv) as (A & _ & B & C & _). split; [exact (A z Hz)|]. split; [exact B|]. split; [exact C|]. split; [apply bg_plain | left; reflexivity].
  - destruct (full_roads_rule num o area v Hv) as (A & _ & B & C & _).
    { intros ->. unfold full_roads, main_roads, paths in Hz. cbn [app In] in Hz. repeat (destruct Hz as [Hz|Hz]; [discriminate|]). destruct Hz. }
    split; [exact (A z Hz)|]. split; [exact B|]. split; [exact C|]. split; [apply full_plain | right; exists num; reflexivity].
Qed.
Lemma places_plain p tb o v layer z area : place_table p tb -> tagged o "place" v -> In (v, layer, z) tb ->
  selects area (pr_node p o) layer z /\ keeps_tag o (pr_node p o) "place" /\ keeps_tag o (pr_node p o) "name" /\ plain_calls (pr_node p o) = true.
Proof.
  intros HT Hv Hz. destruct HT as [[-> ->]|[(num & ->) ->]].
  - destruct (bg_place_rule o area v Hv) as ([A _] & B & C). split; [exact (A layer z Hz)|]. split; [exact B|]. split; [exact C | apply bg_plain].
  - destruct (full_place_rule num o area v Hv) as ([A _] & B & C). split; [exact (A layer z Hz)|]. split; [exact B|]. split; [exact C | apply full_plain].
Qed.
Theorem roads_shown : forall L O p all bufs co raw prep st, imported_file L O p all bufs co raw prep st ->
  forall tb o refs v z t g', road_table p tb -> In (o, refs) (file_ways bufs) -> tagged o "highway" v -> In (v, z) tb ->
  z <= tz t <= 20 -> valid_tile t -> (prep = true -> 10 < tz t) -> (2 <= length (way_points O bufs refs))%nat ->
  meets (tz t) t (bounding_box (GLine [way_points O bufs refs])) = true ->
  clip (l_cut L) (draw_area t) (outline L raw (tz t) (GLine [way_points O bufs refs])) = Ok g' -> shift_geom (tz t) g' <> GNull ->
  shows_in L st t "road" (fun f => v_id f = to_u64 (o_id o) /\ relative_geom (tile_corner t) (shift_geom (tz t) g') = Some (v_geom f) /\ has_text o "highway" f /\ has_text o "name" f).
Proof.
  intros L O p all bufs co raw prep st [HL HD HP HF HC (j & HJ & HH)] tb o refs v z t g' HT Hw Hv Hz [Hz1 Hz2] Hvt Hpr Hn HM Hc Hg.
  set (g := GLine [way_points O bufs refs]) in *.
  destruct (roads_plain p tb o v z (l_oarea L g) HT Hv Hz) as ([S1 S2] & K1 & K2 & PL & _).
  pose proof (loaded_way L all O p bufs _ _ HC HF HJ Hw) as Hi. assert (Eo : way_object O p bufs (o, refs) = (o, g, pr_way p o)).
  { unfold way_object. cbn [fst snd]. subst g. destruct (way_points O bufs refs) as [|a [|b l]]; cbn [length] in Hn; [lia | lia | reflexivity]. }
  rewrite Eo in Hi. unfold shows_in. eapply answers_mono; [|apply (object_shown L O p bufs all HD HP HF HC (j_objs j) HJ j eq_refl HL co raw prep st HH t o g (pr_way p o) (lit "road") z g' Hz2 Hvt Hi)].
  - intros vls (vl & f & A & B & C & D1 & D2 & D3). exists vl, f. split; [exact A|]. split; [exact B|]. split; [exact C|]. split; [exact D1|]. split; [exact D3|].
    split; intros w Hw'; (eapply text_shown; [exact D2 | exact PL | cbn; tauto | assumption | exact Hw']).
  - split; [exact S1|]. split; [exact S2 | discriminate].
  - exact Hz1.
  - exact HM.
  - exact Hc.
  - exact Hg.
  - intros P1 P2. apply Hpr in P1. lia.
Qed.
Lemma in_tile_valid t q : in_tile t q -> on_map q -> tz t <= 20 -> valid_tile t.
Proof.
  intros [H1 H2] [M1 M2] Hz. assert (HP : (0 < 2 ^ (32 - Z.of_N (tz t)))%Z) by (apply Z.pow_pos_nonneg; lia).
  assert (HE : (2 ^ 32 = 2 ^ (Z.of_N (tz t)) * 2 ^ (32 - Z.of_N (tz t)))%Z) by (rewrite <- Z.pow_add_r by lia; f_equal; lia). rewrite HE in M1, M2.
  set (s := (2 ^ (32 - Z.of_N (tz t)))%Z) in *. clearbody s. assert (T : forall a, (Z.of_N a < 2 ^ Z.of_N (tz t))%Z -> a < 2 ^ tz t) by (intros a Ha; rewrite <- (N2Z.id a), <- (N2Z.id (2 ^ tz t)); apply Z2N.inj_lt; [lia | lia|]; now rewrite N2Z.inj_pow).
  split; apply T; nia.
Qed.
Theorem places_shown : forall L O p all bufs co raw prep st, imported_file L O p all bufs co raw prep st ->
  forall tb o l v layer z t, place_table p tb -> In (o, l) (file_nodes bufs) -> tagged o "place" v -> In (v, layer, z) tb ->
  z <= tz t <= 20 -> in_tile t (ol_merc O l) ->
  shows_in L st t layer (fun f => v_id f = to_u64 (o_id o) /\ v_geom f = VPoints [pixel t (ol_merc O l)] /\ has_text o "place" f /\ has_text o "name" f) /\
  (0 <= fst (pixel t (ol_merc O l)) < 4096 /\ 0 <= snd (pixel t (ol_merc O l)) < 4096)%Z.
Proof.
  intros L O p all bufs co raw prep st [HL HD HP HF HC (j & HJ & HH)] tb o l v layer z t HT Hw Hv Hz [Hz1 Hz2] Hin. split; [|now apply pixel_range].
  set (g := GPoint [ol_merc O l]) in *. destruct (places_plain p tb o v layer z (l_oarea L g) HT Hv Hz) as ([S1 S2] & K1 & K2 & PL).
  pose proof (loaded_node L all O p bufs _ _ HC HF HJ Hw) as Hi. change (node_object O p (o, l)) with (o, g, pr_node p o) in Hi.
  assert (Hvt : valid_tile t). { eapply in_tile_valid; [exact Hin | | exact Hz2]. apply (ct_merc _ _ _ HC). apply (proj1 (Forall_forall _ _) (fo_nodes _ _ HF)) in Hw. apply Hw. }
  unfold shows_in. eapply answers_mono; [|apply (object_shown L O p bufs all HD HP HF HC (j_objs j) HJ j eq_refl HL co raw prep st HH t o g (pr_node p o) (lit layer) z g Hz2 Hvt Hi)].
  - intros vls (vl & f & A & B & C & D1 & D2 & D3). exists vl, f. split; [exact A|]. split; [exact B|]. split; [exact C|]. split; [exact D1|]. split.
    + subst g. cbn in D3. injection D3 as D3. rewrite <- D3. f_equal. f_equal. now apply pixel_rel.
    + split; intros w Hw'; (eapply text_shown; [exact D2 | exact PL | cbn; tauto | assumption | exact Hw']).
  - split; [exact S1|]. split; [exact S2 | discriminate].
  - exact Hz1.
  - now apply point_meets.
  - now apply point_drawn.
  - discriminate.
  - intros _ _. split; discriminate.
Qed.
