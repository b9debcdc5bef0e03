(** C67, C68: the profiles that come with the program. *)
From Coq Require Import String Ascii.
From Coq Require Import List.
From Verif Require Import Base BaseProof ModelTile ModelCodec ModelGeom SpecGeom ModelFeature SpecFeature ModelInserter ModelDict ModelOsm SpecOsm SpecDict SpecMvt ModelServer ModelImport SpecImport SpecFinish ModelProfile SpecProfile ProofProfile ProofProfile2 ProofProfile3.
Import ListNotations.
Open Scope N_scope.

(** C67: with the profiles that come with the program no script call fails, whatever the tags of the object are;
    what is approved has one of twelve layers and a zoom level up to 18, and at most eight well-formed metadata entries. *)
Theorem c67_profiles_safe num fn o stod dbl : In fn (functions (full num) ++ functions background) ->
  script_ok (fn o) /\
  (forall area mn, last_some (approval area) (fn o) = Some mn -> mn <= 18 /\ exists layer, In layer layers_of /\ last_some layer_of (fn o) = Some (lit layer)) /\
  (short_tags o -> (forall z, int64_ok z = true -> length (dbl z) = 8%nat) ->
    Forall (fun m => meta_short m /\ meta_value (snd m) <> None) (flat_map (added stod dbl o) (fn o)) /\ (length (flat_map (added stod dbl o) (fn o)) <= 8)%nat).
Proof.
  intros Hi. assert (HF : fine (fn o) = true). { destruct (full_fine num o) as (F1 & F2 & F3), (bg_fine o) as (B1 & B2 & B3). cbn in Hi. intuition (subst; assumption). }
  split; [now apply fine_script|]. split; [intros area mn; now apply fine_chosen | intros; now apply fine_added].
Qed.
(** so imports with these profiles meet the expectations of C61 to C66 about objects, as far as they are about the script *)
Theorem c67_profiles_usable L num fn o g : In fn (functions (full num) ++ functions background) -> short_tags o -> (forall z, int64_ok z = true -> length (l_dbl L z) = 8%nat) ->
  usable L g -> (forall layer idx mn ms v, idx < 2 ^ 64 -> imported L (o, g, fn o) layer mn -> one_per_key (metadata L (o, g, fn o)) ms -> ser (Feature (to_u64 (o_id o)) idx mn 21 ms g) = Ok v -> blen v < 2 ^ 32) ->
  object_ok L (o, g, fn o) /\
  (forall mn, last_some (approval (l_oarea L g)) (fn o) = Some mn -> exists c n, last_some layer_of (fn o) = Some (c :: n)) /\
  (forall layer mn, imported L (o, g, fn o) layer mn -> mn <= 20).
Proof.
  intros Hi Hs Hd Hg Hz. destruct (c67_profiles_safe num fn o (l_stod L) (l_dbl L) Hi) as (H1 & H2 & H3). destruct (H3 Hs Hd) as [H4 _].
  split; [split; [exact H1|]; intros layer mn Him; pose proof Him as (A1 & A2 & _); destruct (H2 _ _ A1) as (B1 & l & B2 & B3); rewrite A2 in B3; injection B3 as ->; split; [|split; [lia | split; [exact Hg | split; [exact H4|]]]]|split].
  - unfold short. cbn [layers_of In] in B2. repeat (destruct B2 as [<-|B2]; [reflexivity|]). destruct B2.
  - intros idx ms v Hx. now apply (Hz (lit l)).
  - intros mn Ha. destruct (H2 _ _ Ha) as (_ & l & B2 & B3). rewrite B3. cbn [layers_of In] in B2. repeat (destruct B2 as [<-|B2]; [eexists; eexists; reflexivity|]). destruct B2.
  - intros layer mn (A1 & _). destruct (H2 _ _ A1). lia.
Qed.
Print Assumptions c67_profiles_safe.
Print Assumptions c67_profiles_usable.

(** C68: what the profiles select.
    Roads: the zoom level of the table, "highway" and "name" kept, "ref" only for roads shown from zoom level 9 or earlier. *)
Theorem c68_roads num o area v : tagged o "highway" v ->
  (v <> "elevator"%string -> roads (pr_way (full num)) full_roads o area v) /\ roads (pr_way background) bg_roads o area v.
Proof. intros H. split; [intros Hn; now apply full_roads_rule | now apply bg_roads_rule]. Qed.
Theorem c68_lifts num o area : tagged o "highway" "elevator" ->
  selects area (pr_way (full num) o) "indoor" 18 /\ adds_string o (pr_way (full num) o) "indoor" "elevator" /\
  (untagged o "place" -> selects area (pr_node (full num) o) "indoor" 18 /\ adds_string o (pr_node (full num) o) "indoor" "elevator").
Proof. exact (full_lift num o area). Qed.
(** Rails, unless they are roads, too *)
Theorem c68_rails num o area v : untagged o "highway" -> tagged o "railway" v ->
  (In v ["rail"; "subway"; "tram"]%string -> rails (pr_way (full num)) ["subway"; "tram"]%string o area v) /\
  (In v ["rail"; "light_rail"; "subway"; "tram"; "narrow_gauge"]%string -> rails (pr_way background) ["subway"; "tram"; "light_rail"; "narrow_gauge"]%string o area v).
Proof. intros H1 H2. split; intros H3; [now apply full_rails_rule | now apply bg_rails_rule]. Qed.
(** Waterways, unless they are roads or rails, too; no other way *)
Theorem c68_other_ways num o area : untagged o "highway" -> (forall x, In x ["rail"; "light_rail"; "subway"; "tram"; "narrow_gauge"]%string -> ~ tagged o "railway" x) ->
  (forall v, tagged o "waterway" v -> chooses (pr_way (full num) o) waterway_layers area v /\ chooses (pr_way background o) waterway_layers area v) /\
  (untagged o "waterway" -> rejects area (pr_way (full num) o) /\ rejects area (pr_way background o)).
Proof.
  intros H1 H2. unfold full, background. cbn [pr_way]. rewrite (full_way_other num o H1) by (intros x Hi; apply H2; cbn [In] in *; tauto). rewrite (bg_way_other o H1 H2). split.
  - intros v Hv. rewrite (key_tagged _ _ _ Hv). split; now apply waterway_rule.
  - intros Hu. rewrite (key_untagged _ _ Hu). split; reflexivity.
Qed.
(** Places; no other nodes but lifts *)
Theorem c68_places num o area :
  (forall v, tagged o "place" v -> chooses (pr_node (full num) o) full_places area v /\ keeps_tag o (pr_node (full num) o) "place" /\ keeps_tag o (pr_node (full num) o) "name" /\
     chooses (pr_node background o) bg_places area v /\ keeps_tag o (pr_node background o) "place" /\ keeps_tag o (pr_node background o) "name") /\
  (untagged o "place" -> rejects area (pr_node background o) /\ (~ tagged o "highway" "elevator" -> rejects area (pr_node (full num) o))).
Proof.
  split.
  - intros v Hv. destruct (full_place_rule num o area v Hv) as (A & B & C). destruct (bg_place_rule o area v Hv) as (D & E & F). exact (conj A (conj B (conj C (conj D (conj E F))))).
  - intros H. destruct (node_other num o H) as [A B]. split; [unfold background; cbn [pr_node]; rewrite A; reflexivity|]. intros Hn. unfold full. cbn [pr_node]. rewrite (B Hn). reflexivity.
Qed.
(** Areas: the first row with one of the tags of the area gives the layer, the zoom level, by the size of the area, and the kind of land use *)
Theorem c68_areas num o area : area_rule o area (pr_area (full num) o) full_rows /\ area_rule o area (pr_area background o) bg_rows.
Proof. split; [apply full_area_rule | apply bg_area_rule]. Qed.
(** Levels of stairs and lifts: "2" and "-1;3" *)
Theorem c68_levels num o a x b y : reads_integers num -> integer_text a x -> integer_text b y -> int64_ok x = true -> int64_ok y = true ->
  let right p q := (tagged o "highway" "steps" -> between_levels o (pr_way (full num) o) p q) /\
    (tagged o "highway" "elevator" -> between_levels o (pr_way (full num) o) p q /\ (untagged o "place" -> between_levels o (pr_node (full num) o) p q)) in
  (tag_value (o_tags o) (lit "level") = Some (a ++ lit ";" ++ b) -> right x y) /\ (tag_value (o_tags o) (lit "level") = Some a -> right x x).
Proof.
  intros Hn Ha Hb Hx Hy right. split; intros Ht.
  - apply (level_rule num o (a ++ 59 :: b) a b x y); try assumption. now apply (split_two a x b y).
  - apply (level_rule num o a a a x x); try assumption. now apply (split_one a x).
Qed.
(** and what one might expect but does not happen: disused and abandoned rails are not shown, although both profiles have a rule for them *)
Theorem c68_old_rails_refuted num o area z v : In v ["disused"; "abandoned"]%string -> tagged o "railway" v -> untagged o "highway" ->
  ~ selects area (pr_way (full num) o) "rail" z /\ ~ selects area (pr_way background o) "rail" z.
Proof. exact (old_rails num o area z v). Qed.
(** no water appears at zoom level 10: the second limit is below the first one *)
Theorem c68_water_refuted num o area z : (selects area (pr_area (full num) o) "water" z -> z = 12 \/ z = 0) /\ (selects area (pr_area background o) "water" z -> z = 12 \/ z = 0).
Proof. exact (water_zooms o area z). Qed.
(** "0.5;1" is read as levels 5 to 1, and "1-3" as level 1 alone *)
Definition stairs (text : string) : osm_obj := OsmObj 1 [(lit "highway", lit "steps"); (lit "level", lit text)].
Theorem c68_half_levels_refuted num : reads_integers num ->
  between_levels (stairs "0.5;1") (pr_way (full num) (stairs "0.5;1")) 5 1 /\ between_levels (stairs "1-3") (pr_way (full num) (stairs "1-3")) 1 1.
Proof.
  intros Hn. assert (D : forall c, 48 <= c <= 57 -> integer_text [c] (Z.of_N c - 48)) by (intros c Hc; apply int_pos, num_digit, Hc).
  split.
  - exact (proj1 (level_rule num (stairs "0.5;1") (lit "0.5;1") [53] [49] 5 1 Hn eq_refl eq_refl (D 53 ltac:(lia)) (D 49 ltac:(lia)) eq_refl eq_refl) eq_refl).
  - exact (proj1 (level_rule num (stairs "1-3") (lit "1-3") [49] [49] 1 1 Hn eq_refl eq_refl (D 49 ltac:(lia)) (D 49 ltac:(lia)) eq_refl eq_refl) eq_refl).
Qed.
Print Assumptions c68_roads.
Print Assumptions c68_lifts.
Print Assumptions c68_rails.
Print Assumptions c68_other_ways.
Print Assumptions c68_places.
Print Assumptions c68_areas.
Print Assumptions c68_levels.
Print Assumptions c68_old_rails_refuted.
Print Assumptions c68_water_refuted.
Print Assumptions c68_half_levels_refuted.

(** a motorway, a branch line, a lake, a lift between two levels *)
Example c68_ex_road : let o := OsmObj 7 [(lit "highway", lit "motorway"); (lit "ref", lit "A 5")] in
  tagged o "highway" "motorway" /\ selects 0 (pr_way background o) "road" 5.
Proof. split; [reflexivity | split; reflexivity]. Qed.
Example c68_ex_rail : let o := OsmObj 7 [(lit "railway", lit "rail"); (lit "service", lit "yard")] in
  untagged o "highway" /\ tagged o "railway" "rail" /\ branch_line o /\ selects 0 (pr_way background o) "rail" 14.
Proof. split; [reflexivity|]. split; [reflexivity|]. split; [exists "service"%string, "yard"%string; split; [cbn; tauto | reflexivity] | split; reflexivity]. Qed.
Example c68_ex_area : let o := OsmObj 7 [(lit "natural", lit "water")] in selects (10 ^ 7) (pr_area background o) "water" 0 /\ selects (10 ^ 5) (pr_area background o) "water" 12.
Proof. split; split; reflexivity. Qed.
(** tonumber as far as the scripts need it exists *)
Example c68_ex_numbers : reads_integers from_chars64.
Proof. intros s z H1 H2. now apply ProofOsm.from_chars_text. Qed.
Example c68_ex_lift : let o := OsmObj 7 [(lit "highway", lit "elevator"); (lit "level", lit "-1;3")] in
  tagged o "highway" "elevator" /\ tag_value (o_tags o) (lit "level") = Some ([45; 49] ++ lit ";" ++ [51]) /\ integer_text [45; 49] (-1) /\ integer_text [51] 3 /\
  between_levels o (pr_way (full from_chars64) o) (-1) 3.
Proof.
  intros o. assert (H1 : integer_text [45; 49] (-1)) by (apply (int_neg [49] 1); apply (num_digit 49); lia). assert (H2 : integer_text [51] 3) by (apply int_pos; apply (num_digit 51); lia).
  split; [reflexivity|]. split; [reflexivity|]. split; [exact H1|]. split; [exact H2|].
  destruct (c68_levels from_chars64 o _ _ _ _ c68_ex_numbers H1 H2 eq_refl eq_refl) as [H _]. now apply (H eq_refl).
Qed.
Example c67_ex : In (pr_way background) (functions (full from_chars64) ++ functions background) /\ short_tags (stairs "2").
Proof. split; [cbn; tauto|]. unfold short_tags. repeat constructor. Qed.
