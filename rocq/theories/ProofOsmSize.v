(** What objects of an OSM file take, and that they meet the expectations of an import. *)
From Coq Require Import String Ascii Sorted Permutation.
From Coq Require Import List.
From Verif Require Import Base BaseProof ModelTile ModelCodec ModelGeom SpecGeom ModelFeature SpecFeature ModelInserter ModelDict SpecDict ModelOsm SpecOsm SpecMvt ModelNodeIdx SpecNodeIdx ModelServer ModelImport SpecImport
  ModelProfile SpecProfile ModelLoadOsm SpecLoadOsm ProofFeatureSize ProofImportEx ProofProfile3 ProofLoadOsm ProofDict ProofRender ProofPackerProps.
From Verif Require PropProfile.
Import ListNotations.
Open Scope N_scope.

(** ** Geometry *)
Lemma enc_points_length ps : forall cx cy ds c, enc_points cx cy ps = Ok (ds, c) -> length ds = (2 * length ps)%nat.
Proof.
  induction ps as [|[x y] ps IH]; intros cx cy ds c H; cbn [enc_points] in H; [apply Ok_inj in H; injection H as <- <-; reflexivity|].
  apply bind_ok in H as (dx & _ & H). apply bind_ok in H as (dy & _ & H). apply bind_ok in H as ([ds' c'] & E & H). apply Ok_inj in H. injection H as <- <-. apply IH in E. cbn [length]. lia.
Qed.
Lemma points_length c ps ds c' : serialize_points c ps = Ok (ds, c') -> length ds = (1 + 2 * length ps)%nat.
Proof. unfold serialize_points. intros H. apply bind_ok in H as ([d e] & E & H). apply Ok_inj in H. injection H as <- <-. apply enc_points_length in E. cbn [length]. lia. Qed.
Lemma lines_length ls : forall c ds c', serialize_lines c ls = Ok (ds, c') -> length ds = (length ls + 2 * length (concat ls))%nat.
Proof.
  induction ls as [|l ls IH]; intros c ds c' H; cbn [serialize_lines] in H; [apply Ok_inj in H; injection H as <- <-; reflexivity|].
  apply bind_ok in H as ([d1 c1] & E1 & H). apply bind_ok in H as ([d2 c2] & E2 & H). apply Ok_inj in H. injection H as <- <-. apply points_length in E1. apply IH in E2. rewrite app_length. cbn [length concat]. rewrite app_length. lia.
Qed.
Lemma polys_length ps : forall c ds c', serialize_polys c ps = Ok (ds, c') -> (length ds <= 2 * length (poly_rings ps) + 2 * length (geom_points (GPoly ps)))%nat.
Proof.
  induction ps as [|[o is] ps IH]; intros c ds c' H; cbn [serialize_polys] in H; [apply Ok_inj in H; injection H as <- <-; cbn; lia|].
  apply bind_ok in H as ([d1 c1] & E1 & H). apply bind_ok in H as ([d2 c2] & E2 & H). apply bind_ok in H as ([d3 c3] & E3 & H). apply Ok_inj in H. injection H as <- <-.
  apply points_length in E1. apply lines_length in E2. apply IH in E3. unfold poly_rings in *. cbn [geom_points flat_map fst snd app length] in *. rewrite !app_length. cbn [length]. rewrite !app_length. lia.
Qed.
Lemma geom_size g b : serialize_geom g = Ok b -> blen b <= 60 + 20 * weight g.
Proof.
  unfold serialize_geom, weight. destruct g as [|ps|ls|ps]; [discriminate| | |]; intros H; apply bind_ok in H as ([] & Hv & H); apply bind_ok in H as ([ds c] & E & H); apply Ok_inj in H; subst b; rewrite blen_app.
  - pose proof (varint_field_size TAG_TYPE 1). apply points_length in E. pose proof (header_size TAG_GEOMETRY ds ltac:(intros ->; discriminate)). cbn [geom_points]. lia.
  - pose proof (varint_field_size TAG_TYPE 2). apply lines_length in E. pose proof (header_size TAG_GEOMETRY (Z.of_nat (length ls) :: ds) ltac:(discriminate)). cbn [geom_points length] in *. lia.
  - pose proof (varint_field_size TAG_TYPE 3). apply polys_length in E. pose proof (header_size TAG_GEOMETRY (Z.of_nat (length ps) :: ds) ltac:(discriminate)). cbn [length] in *. lia.
Qed.
Lemma no_masks_cost ls : masks_cost (map (fun _ : line => [] : bytes) ls) = 20 * N.of_nat (length ls).
Proof. induction ls as [|l ls IH]; [reflexivity|]. cbn [map masks_cost fold_right length]. fold (masks_cost (map (fun _ : line => [] : bytes) ls)). rewrite IH. change (blen []) with 0. lia. Qed.
Lemma unmasked_cost g : masks_cost (make_masks (fun _ => []) g) <= 20 * weight g.
Proof.
  unfold weight. destruct g as [|ps|ls|ps]; cbn [make_masks]; try (cbn; lia).
  - rewrite no_masks_cost. lia.
  - assert (E : forall qs, flat_map (fun p : poly => ([] : bytes) :: map (fun _ : line => [] : bytes) (snd p)) qs = map (fun _ : line => [] : bytes) (poly_rings qs)).
    { unfold poly_rings. induction qs as [|p qs IH]; [reflexivity|]. cbn [flat_map]. rewrite map_app, IH. reflexivity. }
    etransitivity; [apply N.eq_le_incl; exact (f_equal masks_cost (E ps))|]. rewrite no_masks_cost. lia.
Qed.

(** ** Metadata *)
Lemma tame_cost stod dbl o c m : tame c = true -> small_tags o -> (forall z, int64_ok z = true -> length (dbl z) = 8%nat) -> In m (added stod dbl o c) -> 50 + blen (fst m) + blen (snd m) <= 300 + 2 ^ 24.
Proof.
  intros Ht Hs Hd. assert (HT : forall k w, tag_value (o_tags o) k = Some w -> blen w < 2 ^ 24).
  { intros k w. unfold small_tags in Hs. induction Hs as [|[k' v] l Hx _ IH]; cbn [tag_value]; [discriminate|]. destruct (bytes_eqb k' k); [intros E; injection E as <-; exact Hx | exact IH]. }
  destruct c; try (now intros []); try discriminate Ht; cbn [tame] in Ht; cbn [added].
  - apply andb_true_iff in Ht. intros [<-|[]]. cbn [fst snd]. unfold encode_string. rewrite blen_cons. lia.
  - intros [<-|[]]. cbn [fst snd]. unfold encode_integer. rewrite blen_cons. unfold blen at 2. rewrite le_bytes_length. lia.
  - destruct (tag_value (o_tags o) k) as [w|] eqn:E; [|intros []]. intros [<-|[]]. cbn [fst snd]. unfold encode_string. rewrite blen_cons. apply HT in E. lia.
  - destruct (tag_value (o_tags o) k) as [w|] eqn:E; [|intros []]. destruct (from_chars64 w) as [z|] eqn:Ez; [|intros []]. intros [<-|[]]. cbn [fst snd]. unfold encode_numeric. rewrite blen_cons.
    assert (L : length (dbl z) = 8%nat).
    { apply Hd. unfold from_chars64 in Ez. destruct (match w with 45 :: r => (true, r) | _ => (false, w) end) as [neg d]. destruct d as [|c d]; [discriminate|]. destruct (is_digit c); [|discriminate].
      cbv zeta in Ez. match type of Ez with (if ?b then _ else _) = _ => destruct b eqn:X; [|discriminate] end. injection Ez as <-. exact X. }
    unfold blen at 2. rewrite L. lia.
Qed.
Lemma cost_bound ms B : Forall (fun m => 50 + blen (fst m) + blen (snd m) <= B) ms -> meta_cost ms <= 20 + N.of_nat (length ms) * B.
Proof. induction 1 as [|m ms H _ IH]; [cbn; lia|]. rewrite meta_cost_cons. cbn [length]. lia. Qed.
Lemma fine_cost stod dbl o cs : fine cs = true -> small_tags o -> (forall z, int64_ok z = true -> length (dbl z) = 8%nat) -> meta_cost (flat_map (added stod dbl o) cs) <= 20 + 8 * (300 + 2 ^ 24).
Proof.
  intros HF Hs Hd. assert (HL : (length (flat_map (added stod dbl o) cs) <= 8)%nat).
  { apply (fine_added stod dbl o cs HF); [|exact Hd]. eapply Forall_impl; [|exact Hs]. cbn beta. intros; lia. }
  assert (HB : meta_cost (flat_map (added stod dbl o) cs) <= 20 + N.of_nat (length (flat_map (added stod dbl o) cs)) * (300 + 2 ^ 24)); [|nia].
  apply cost_bound. apply Forall_forall. intros m Hm. apply in_flat_map in Hm. destruct Hm as (c & Hc & Hm). eapply tame_cost; [|exact Hs|exact Hd|exact Hm].
  unfold fine in HF. rewrite !andb_true_iff in HF. destruct HF as [[HF _] _]. now apply (proj1 (forallb_forall _ _) HF).
Qed.
Lemma one_per_key_nodup all ms : one_per_key all ms -> NoDup ms /\ incl ms all.
Proof.
  intros [H1 H2]. split.
  - clear H2. induction H1 as [|m ms H1 IH HF]; constructor; [|exact IH]. intros Hi. apply (proj1 (Forall_forall _ _) HF) in Hi. rewrite bytes_ltb_irrefl in Hi. discriminate.
  - intros [k v] Hm. now apply H2.
Qed.
Lemma inserted_size id idx mn ms all g v : one_per_key all ms -> meta_cost all <= 20 + 8 * (300 + 2 ^ 24) -> weight g < 2 ^ 24 + 2 -> ser (Feature id idx mn 21 ms g) = Ok v -> blen v < 2 ^ 32.
Proof.
  intros HO HC HW E. destruct (one_per_key_nodup _ _ HO) as [N1 N2]. pose proof (meta_cost_incl ms all N1 N2). unfold ser in E. apply feature_size in E. cbn [f_geom f_meta] in E. destruct E as (b & E1 & _ & E2).
  apply geom_size in E1. pose proof (unmasked_cost g). lia.
Qed.

(** ** Objects *)
Lemma shipped_fine p o : shipped p -> fine (pr_node p o) = true /\ fine (pr_way p o) = true /\ fine (pr_area p o) = true.
Proof. intros [->|(num & ->)]; [apply bg_fine | apply full_fine]. Qed.
Lemma fine_object L o g cs : fine cs = true -> small_tags o -> (forall z, int64_ok z = true -> length (l_dbl L z) = 8%nat) -> g = GNull \/ usable L g -> weight g < 2 ^ 24 + 2 -> object_ok L (o, g, cs).
Proof.
  intros HF Hs Hd Hg Hw. assert (Hs' : short_tags o) by (eapply Forall_impl; [|exact Hs]; cbn beta; intros; lia).
  split; [now apply fine_script|]. intros layer mn (H1 & H2 & H3). destruct Hg as [->|Hg]; [congruence|]. destruct (fine_chosen _ _ _ HF H1) as (Hz & l & Hl & El). rewrite H2 in El. injection El as ->.
  split; [|split; [lia | split; [exact Hg | split]]].
  - unfold short. cbn [layers_of In] in Hl. repeat (destruct Hl as [<-|Hl]; [reflexivity|]). destruct Hl.
  - apply (fine_added _ _ _ _ HF Hs' Hd).
  - intros idx ms v _ HO E. eapply inserted_size; [exact HO| |exact Hw|exact E]. now apply fine_cost.
Qed.
Section Objects.
Context (L : libs) (O : osm_libs) (p : profile) (bufs : list buffer) (all : bool).
Context (HD : forall z, int64_ok z = true -> length (l_dbl L z) = 8%nat) (HP : shipped p) (HF : file_ok all bufs) (HC : contents_ok L O bufs).
Lemma node_ok n : In n (file_nodes bufs) -> object_ok L (node_object O p n).
Proof.
  intros Hn. apply fine_object; [apply (shipped_fine p _ HP)| |exact HD| |].
  - apply (proj1 (Forall_forall _ _) (ct_tags _ _ _ HC)). apply in_or_app. left. now apply in_map.
  - right. split; [discriminate|]. split; [exact I|]. split; [|intros raw z _; destruct raw; exact I]. constructor; [|constructor]. apply (ct_merc _ _ _ HC). apply (proj1 (Forall_forall _ _) (fo_nodes _ _ HF)) in Hn. apply Hn.
  - unfold weight. cbn [geom_points length]. lia.
Qed.
Lemma way_points_map refs : Forall on_map (way_points O bufs refs) /\ (length (way_points O bufs refs) <= length refs)%nat.
Proof.
  unfold way_points. induction refs as [|id refs [I1 I2]]; [split; [constructor | apply le_n]|]. cbn [flat_map length]. destruct (position bufs id) as [l|] eqn:E; cbn [app length]; [|split; [exact I1 | lia]].
  split; [|lia]. constructor; [|exact I1]. destruct (position_in _ _ _ E) as (o & Hi). apply (ct_merc _ _ _ HC). apply (proj1 (Forall_forall _ _) (fo_nodes _ _ HF)) in Hi. apply Hi.
Qed.
Lemma way_ok w : In w (file_ways bufs) -> object_ok L (way_object O p bufs w).
Proof.
  intros Hw. destruct (way_points_map (snd w)) as [M1 M2]. apply fine_object; [apply (shipped_fine p _ HP)| |exact HD| |].
  - apply (proj1 (Forall_forall _ _) (ct_tags _ _ _ HC)). apply in_or_app. right. apply in_or_app. left. now apply in_map.
  - destruct (way_points O bufs (snd w)) as [|a [|b l]]; [left; reflexivity | left; reflexivity | right]. split; [discriminate|]. split; [split; [repeat constructor; discriminate | cbn; lia]|]. split; [|intros raw z _; destruct raw; exact I]. change (geom_points (GLine [a :: b :: l])) with ((a :: b :: l) ++ []). rewrite app_nil_r. exact M1.
  - assert (HW : N.of_nat (length (snd w)) < 2 ^ 24 - 1) by (apply (proj1 (Forall_forall _ _) (proj2 (ct_ways _ _ _ HC)) _ Hw)). destruct (way_points O bufs (snd w)) as [|a [|b l]]; [reflexivity | reflexivity|]. unfold weight. change (geom_points (GLine [a :: b :: l])) with ((a :: b :: l) ++ []). rewrite app_nil_r. cbn [length] in *. lia.
Qed.
Lemma file_area_ok a i : In a (file_areas O bufs) -> area_object O p a i -> object_ok L i.
Proof.
  intros Ha (g & Hg & ->). pose proof (proj1 (Forall_forall _ _) (proj2 (ct_areas _ _ _ HC)) _ Ha) as (g' & Hg' & Hu & Hw). rewrite Hg in Hg'. apply Ok_inj in Hg'. subst g'.
  apply fine_object; [apply (shipped_fine p _ HP)| |exact HD|exact Hu|lia].
  apply (proj1 (Forall_forall _ _) (ct_tags _ _ _ HC)). apply in_or_app. right. apply in_or_app. right. now apply in_map.
Qed.
Lemma fine_count o g cs : fine cs = true -> small_tags o -> (length (metadata L (o, g, cs)) <= 8)%nat.
Proof. intros H1 H2. apply (fine_added _ _ _ _ H1); [|exact HD]. eapply Forall_impl; [|exact H2]. cbn beta. intros; lia. Qed.
Lemma osm_job_ok objs j : load_objects (arithmetic all) O p bufs = Ok objs -> j_objs j = objs -> job_ok L j.
Proof.
  intros HL Hj. destruct (loaded_objects all O p bufs (ct_sort _ _ _ HC) HF objs HL) as (areas & HA & HPm). unfold job_ok. rewrite Hj.
  assert (Hlen : N.of_nat (length objs) < 2 ^ 60). { rewrite (Permutation_length HPm), !app_length, !map_length. apply Forall2_len in HA. rewrite <- HA. pose proof (ct_many _ _ _ HC). lia. }
  assert (HM : forall i, In i objs -> object_ok L i /\ (length (metadata L i) <= 8)%nat).
  { intros i Hi. apply (Permutation_in _ HPm) in Hi. rewrite !in_app_iff in Hi. destruct Hi as [Hi|[Hi|Hi]].
    - apply in_map_iff in Hi. destruct Hi as (n & <- & Hn). split; [now apply node_ok|]. apply fine_count; [apply (shipped_fine p _ HP)|]. apply (proj1 (Forall_forall _ _) (ct_tags _ _ _ HC)). apply in_or_app. left. now apply in_map.
    - apply in_map_iff in Hi. destruct Hi as (n & <- & Hn). split; [now apply way_ok|]. apply fine_count; [apply (shipped_fine p _ HP)|]. apply (proj1 (Forall_forall _ _) (ct_tags _ _ _ HC)). apply in_or_app. right. apply in_or_app. left. now apply in_map.
    - destruct (Forall2_in_r _ _ _ _ HA Hi) as (a & Ha & Hx). split; [now apply (file_area_ok a)|]. destruct Hx as (g & _ & ->). apply fine_count; [apply (shipped_fine p _ HP)|]. apply (proj1 (Forall_forall _ _) (ct_tags _ _ _ HC)). apply in_or_app. right. apply in_or_app. right. now apply in_map. }
  split; [apply Forall_forall; intros i Hi; now apply HM|]. split; [lia|]. assert (HN : (length (flat_map (metadata L) objs) <= 8 * length objs)%nat); [|lia].
  clear -HM. induction objs as [|i objs IH]; [apply le_n|]. cbn [flat_map length]. rewrite app_length. pose proof (proj2 (HM i (or_introl eq_refl))). assert (length (flat_map (metadata L) objs) <= 8 * length objs)%nat by (apply IH; intros x Hx; apply HM; right; exact Hx). lia.
Qed.
End Objects.
