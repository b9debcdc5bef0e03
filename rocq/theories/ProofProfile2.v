(** What the profiles select: roads, rails, waterways, places, levels; nothing goes wrong. *)
From Coq Require Import String Ascii.
From Coq Require Import List.
From Verif Require Import Base BaseProof ModelTile ModelCodec ModelGeom ModelFeature ModelDict ModelOsm SpecOsm SpecDict SpecMvt ModelServer ModelProfile SpecProfile ProofOsm ProofProfile.
Import ListNotations.
Open Scope N_scope.

Lemma last_some_app {A B} (f : A -> option B) a b : last_some f (a ++ b) = match last_some f b with Some x => Some x | None => last_some f a end.
Proof. induction a as [|x a IH]; cbn [app last_some]; [now destruct (last_some f b)|]. rewrite IH. now destruct (last_some f b). Qed.
Lemma is1_tagged o k v x : tagged o k v -> is1 o k x = String.eqb x v.
Proof.
  intros H. unfold is1, has_tag, get_tag. unfold tagged in H. rewrite H. apply eq_true_iff_eq. rewrite bytes_eqb_eq, String.eqb_eq. split; [apply lit_inj | now intros ->].
Qed.
Lemma is1_untagged o k c x : untagged o k -> is1 o k (String c x) = false.
Proof. intros H. unfold is1, has_tag, get_tag. unfold untagged in H. rewrite H. unfold lit. cbn [list_ascii_of_string map]. reflexivity. Qed.
Lemma key_tagged o k v : tagged o k v -> has_key o k = true.
Proof. intros H. unfold has_key, has_any_tag. unfold tagged in H. now rewrite H. Qed.
Lemma key_untagged o k : untagged o k -> has_key o k = false.
Proof. intros H. unfold has_key, has_any_tag. unfold untagged in H. now rewrite H. Qed.

(** a table: the first entry with the value, or none *)
Lemma in_table (v : string) (t : list (string * N)) : (exists z, In (v, z) t) \/ (forall z, ~ In (v, z) t).
Proof.
  induction t as [|[w z] t IH]; [right; intros z []|]. destruct (string_dec v w) as [->|Hn]; [left; exists z; left; reflexivity|].
  destruct IH as [(z' & H)|H]; [left; exists z'; right; exact H|]. right. intros z' [E|E]; [congruence | now apply (H z')].
Qed.
Lemma not_in_table (v w : string) (z : N) t : (forall z, ~ In (v, z) t) -> In (w, z) t -> String.eqb w v = false.
Proof. intros H Hi. apply String.eqb_neq. intros ->. now apply (H z). Qed.

(** ** Levels carry no approval *)
Section Levels.
Variable num : bytes -> option Z.
Lemma levels_quiet o area : last_some (approval area) (add_levels num o) = None /\ last_some layer_of (add_levels num o) = None.
Proof.
  unfold add_levels. destruct (has_any_tag o (lit "level") []); [|split; reflexivity]. destruct (split_level _) as [[f t]|]; [|split; reflexivity].
  destruct (num f); [|split; reflexivity]. destruct (num t); split; reflexivity.
Qed.
Lemma levels_keys o stod dbl k v : In (lit k, v) (flat_map (added stod dbl o) (add_levels num o)) -> k = "from_level"%string \/ k = "to_level"%string.
Proof.
  unfold add_levels. destruct (has_any_tag o (lit "level") []); [|intros []]. destruct (split_level _) as [[f t]|]; [|intros []].
  destruct (num f); [|intros []]. destruct (num t); cbn [flat_map added app]; [intros [H|[H|[]]] | intros [H|[]]]; injection H as H; apply lit_inj in H; subst; auto.
Qed.
End Levels.

(** ** Roads *)
Definition road_calls (t : list (string * N)) v : list call := [CLayer (lit "road"); CTagString (lit "highway"); CTagString (lit "name")] ++
  match find (fun e => String.eqb (fst e) v) t with
  | Some (_, z) => CApproveMin z :: (if z <=? 9 then [CTagString (lit "ref")] else [])
  | None => []
  end.
Ltac all_false H := repeat match goal with |- context [String.eqb ?w ?v] => replace (String.eqb w v) with false by (symmetry; eapply (not_in_table v w _ _ H); cbn; tauto) end.
Lemma find_nothing (v : string) (t : list (string * N)) : (forall z, ~ In (v, z) t) -> find (fun e => String.eqb (fst e) v) t = None.
Proof.
  intros H. destruct (find _ t) as [[w z]|] eqn:E; [|reflexivity]. apply find_some in E. destruct E as [E1 E2]. cbn [fst] in E2. apply String.eqb_eq in E2. subst w. destruct (H z E1).
Qed.
Definition level_calls num o (v : string) : list call := if String.eqb "steps" v then add_levels num o else if String.eqb "footway" v then [CTagInteger (lit "level")] else [].
Lemma full_road_calls num o v : tagged o "highway" v -> full_road num o = road_calls full_roads v ++ level_calls num o v.
Proof.
  intros H. unfold full_road, is_any. cbn [existsb]. rewrite !(is1_tagged o "highway" v _ H). unfold road_calls. rewrite <- app_assoc. f_equal.
  unfold level_calls. f_equal. destruct (in_table v full_roads) as [(z & Hi)|Hn].
  - unfold full_roads, main_roads, paths in Hi. cbn [app In] in Hi. repeat (destruct Hi as [Hi|Hi]; [injection Hi as <- <-; reflexivity|]). destruct Hi.
  - rewrite find_nothing by assumption. all_false Hn. reflexivity.
Qed.

Lemma bg_road_calls o v : tagged o "highway" v -> bg_road o = road_calls bg_roads v.
Proof.
  intros H. unfold bg_road, is_any. cbn [existsb]. rewrite !(is1_tagged o "highway" v _ H). unfold road_calls. f_equal.
  destruct (in_table v bg_roads) as [(z & Hi)|Hn].
  - unfold bg_roads, main_roads, paths in Hi. cbn [app In] in Hi. repeat (destruct Hi as [Hi|Hi]; [injection Hi as <- <-; reflexivity|]). destruct Hi.
  - rewrite find_nothing by assumption. all_false Hn. reflexivity.
Qed.
(** no value twice *)
Definition one_zoom (t : list (string * N)) : Prop := forall v z z', In (v, z) t -> In (v, z') t -> z = z'.
Lemma nodup_one_zoom t : NoDup (map fst t) -> one_zoom t.
Proof.
  intros H v z z' H1 H2. induction t as [|[w y] t IH]; [destruct H1|]. cbn [map fst] in H. inversion H as [|? ? Hn Hd]; subst.
  destruct H1 as [H1|H1], H2 as [H2|H2].
  - congruence.
  - injection H1 as -> ->. destruct Hn. now apply (in_map fst) in H2.
  - injection H2 as -> ->. destruct Hn. now apply (in_map fst) in H1.
  - now apply IH.
Qed.
Lemma find_some_in t v z : one_zoom t -> In (v, z) t -> find (fun e => String.eqb (fst e) v) t = Some (v, z).
Proof.
  intros H1 Hi. destruct (find _ t) as [[w y]|] eqn:E.
  - apply find_some in E. destruct E as [E1 E2]. cbn [fst] in E2. apply String.eqb_eq in E2. subst w. now rewrite (H1 v z y Hi E1).
  - pose proof (List.find_none _ _ E (v, z) Hi) as X. cbn [fst] in X. rewrite String.eqb_refl in X. discriminate.
Qed.

Lemma roads_one_zoom : one_zoom full_roads /\ one_zoom bg_roads.
Proof. split; apply nodup_one_zoom; cbn; repeat (constructor; [cbn; intuition discriminate|]); constructor. Qed.
(** what the calls of a road do, followed by calls that neither approve nor name a layer *)
Lemma road_rule o area t v more : one_zoom t -> last_some (approval area) more = None -> last_some layer_of more = None ->
  (forall stod dbl k w, In (lit k, w) (flat_map (added stod dbl o) more) -> k <> "ref"%string) ->
  (forall z, In (v, z) t -> selects area (road_calls t v ++ more) "road" z) /\ ((forall z, ~ In (v, z) t) -> rejects area (road_calls t v ++ more)) /\
  keeps_tag o (road_calls t v ++ more) "highway" /\ keeps_tag o (road_calls t v ++ more) "name" /\
  (forall z, In (v, z) t -> if z <=? 9 then keeps_tag o (road_calls t v ++ more) "ref" else drops_tag o (road_calls t v ++ more) "ref").
Proof.
  intros Ht Ha Hl Hm. split; [|split; [|split; [|split]]].
  - intros z Hi. unfold selects. rewrite !last_some_app, Ha, Hl. unfold road_calls. rewrite (find_some_in t v z Ht Hi). rewrite !last_some_app. cbn [last_some approval layer_of]. destruct (z <=? 9); split; reflexivity.
  - intros Hn. unfold rejects. rewrite last_some_app, Ha. unfold road_calls. rewrite (find_nothing v t Hn). reflexivity.
  - intros stod dbl w Hw. rewrite flat_map_app. apply in_or_app. left. unfold road_calls. cbn [app flat_map added]. rewrite Hw. left. reflexivity.
  - intros stod dbl w Hw. rewrite flat_map_app. apply in_or_app. left. unfold road_calls. rewrite flat_map_app. apply in_or_app. left. cbn [flat_map added app]. apply in_or_app. right. rewrite Hw. left. reflexivity.
  - intros z Hi. destruct (z <=? 9) eqn:E.
    + intros stod dbl w Hw. rewrite flat_map_app. apply in_or_app. left. unfold road_calls. rewrite (find_some_in t v z Ht Hi), E. rewrite flat_map_app. apply in_or_app. right. cbn [flat_map added app]. rewrite Hw. left. reflexivity.
    + intros stod dbl w Hw. rewrite flat_map_app in Hw. apply in_app_or in Hw. destruct Hw as [Hw|Hw]; [|now apply (Hm _ _ _ _ Hw)]. unfold road_calls in Hw. rewrite (find_some_in t v z Ht Hi), E in Hw.
      cbn [app flat_map added] in Hw. rewrite ?app_nil_r in Hw. apply in_app_or in Hw. destruct Hw as [Hw|Hw].
      * destruct (tag_value _ _); [|destruct Hw]. destruct Hw as [Hw|[]]. apply (f_equal fst) in Hw. apply lit_inj in Hw. discriminate.
      * destruct (tag_value _ _); [|destruct Hw]. destruct Hw as [Hw|[]]. apply (f_equal fst) in Hw. apply lit_inj in Hw. discriminate.
Qed.

Lemma level_calls_quiet num o area v : last_some (approval area) (level_calls num o v) = None /\ last_some layer_of (level_calls num o v) = None.
Proof. unfold level_calls. destruct (String.eqb "steps" v); [apply levels_quiet|]. destruct (String.eqb "footway" v); split; reflexivity. Qed.
Lemma level_calls_keys num o stod dbl v k w : In (lit k, w) (flat_map (added stod dbl o) (level_calls num o v)) -> k <> "ref"%string.
Proof.
  unfold level_calls. destruct (String.eqb "steps" v). { intros H. apply levels_keys in H. destruct H; subst; discriminate. }
  destruct (String.eqb "footway" v); [|intros []]. cbn [flat_map added]. rewrite app_nil_r. destruct (tag_value _ _); [|intros []]. destruct (from_chars64 _); [|intros []]. intros [H|[]].
  apply (f_equal fst) in H. apply lit_inj in H. subst. discriminate.
Qed.
Lemma full_roads_rule num o area v : tagged o "highway" v -> v <> "elevator"%string -> roads (full_way num) full_roads o area v.
Proof.
  intros H Hn. assert (E : full_way num o = road_calls full_roads v ++ level_calls num o v).
  { unfold full_way. rewrite (key_tagged _ _ _ H), (is1_tagged _ _ _ _ H). replace (String.eqb "elevator" v) with false by (symmetry; apply String.eqb_neq; congruence). now apply full_road_calls. }
  unfold roads. rewrite E. apply road_rule; [apply roads_one_zoom | apply level_calls_quiet | apply (level_calls_quiet num o area v) | intros stod dbl k w; apply level_calls_keys].
Qed.
Lemma bg_roads_rule o area v : tagged o "highway" v -> roads bg_way bg_roads o area v.
Proof.
  intros H. assert (E : bg_way o = road_calls bg_roads v ++ []) by (rewrite app_nil_r; unfold bg_way; rewrite (key_tagged _ _ _ H); now apply bg_road_calls).
  unfold roads. rewrite E. apply road_rule; [apply roads_one_zoom | reflexivity | reflexivity | intros stod dbl k w []].
Qed.

(** ** Lifts *)
Lemma full_lift num o area : tagged o "highway" "elevator" -> selects area (full_way num o) "indoor" 18 /\ adds_string o (full_way num o) "indoor" "elevator" /\
  (untagged o "place" -> selects area (full_node num o) "indoor" 18 /\ adds_string o (full_node num o) "indoor" "elevator").
Proof.
  intros H. assert (S1 : forall cs, last_some (approval area) cs = None -> last_some layer_of cs = None -> selects area ([CApproveMin 18; CLayer (lit "indoor"); CAddString (lit "indoor") (lit "elevator")] ++ cs) "indoor" 18).
  { intros cs H1 H2. unfold selects. rewrite !last_some_app, H1, H2. split; reflexivity. }
  assert (S2 : forall cs, adds_string o ([CApproveMin 18; CLayer (lit "indoor"); CAddString (lit "indoor") (lit "elevator")] ++ cs) "indoor" "elevator") by (intros cs stod dbl; left; reflexivity).
  pose proof (levels_quiet num o area) as [Q1 Q2]. split; [|split].
  - unfold full_way. rewrite (key_tagged _ _ _ H), (is1_tagged _ _ _ _ H). now apply S1.
  - unfold full_way. rewrite (key_tagged _ _ _ H), (is1_tagged _ _ _ _ H). apply S2.
  - intros Hp. unfold full_node. rewrite (key_untagged _ _ Hp), (is1_tagged _ _ _ _ H). split; [now apply S1 | apply S2].
Qed.

(** ** Rails *)
Lemma rail_details_spec o v : tagged o "railway" v -> v <> "miniature"%string -> rail_details o = true <-> branch_line o.
Proof.
  intros H Hn. unfold rail_details, is_any. cbn [existsb]. rewrite (is1_tagged _ _ _ _ H). replace (String.eqb "miniature" v) with false by (symmetry; apply String.eqb_neq; congruence).
  rewrite !orb_false_r, !orb_true_iff, !is1_spec. unfold branch_line. split.
  - intros X. repeat match goal with X : _ \/ _ |- _ => destruct X as [X|X] end; try (eexists; eexists; split; [|exact X]; cbn; tauto); destruct X.
  - intros (k & w & Hi & X). cbn [In] in Hi. repeat (destruct Hi as [Hi|Hi]; [injection Hi as <- <-; tauto|]). destruct Hi.
Qed.
Lemma rails_rule fn secondary o area v pre1 pre2 : tagged o "railway" v -> v <> "miniature"%string -> ~ In "rail"%string secondary ->
  Forall (fun c => c = CTagInteger (lit "level")) pre1 -> Forall (fun c => c = CTagInteger (lit "level")) pre2 ->
  fn o = pre1 ++ (if rail_details o then pre2 ++ [CLayer (lit "rail"); CApproveMin 14; CAddString (lit "rail") (lit "detail")]
    else if existsb (fun x => String.eqb x v) secondary then [CLayer (lit "rail"); CApproveMin 10; CAddString (lit "rail") (lit "secondary")]
    else [CLayer (lit "rail"); CApproveMin 5; CAddString (lit "rail") (lit "primary")]) -> rails fn secondary o area v.
Proof.
  intros Ht Hm Hr F1 F2 E. unfold rails. rewrite E.
  assert (S1 : forall pre z kind, selects area (pre ++ [CLayer (lit "rail"); CApproveMin z; CAddString (lit "rail") kind]) "rail" z) by (intros; unfold selects; rewrite !last_some_app; split; reflexivity).
  assert (S2 : forall pre z kind, adds_string o (pre ++ [CLayer (lit "rail"); CApproveMin z; CAddString (lit "rail") (lit kind)]) "rail" kind).
  { intros pre z kind stod dbl. rewrite flat_map_app. apply in_or_app. right. left. reflexivity. }
  pose proof (rail_details_spec o v Ht Hm) as Hd. destruct (rail_details o).
  - split; [|split]; intros Hb; [|destruct Hb; now apply Hd | destruct Hb; now apply Hd]. rewrite app_assoc. split; [apply S1 | apply S2].
  - split; [intros Hb; apply Hd in Hb; discriminate|]. split; intros _ Hv.
    + replace (existsb _ _) with false; [split; [apply S1 | apply S2]|]. symmetry. apply not_true_iff_false. rewrite existsb_exists. intros (x & Hi & He). apply String.eqb_eq in He. subst. contradiction.
    + replace (existsb _ _) with true; [split; [apply S1 | apply S2]|]. symmetry. apply existsb_exists. exists v. split; [assumption | apply String.eqb_refl].
Qed.
Lemma value_tagged o k v vs : vs <> [] -> tagged o k v -> has_value o k vs = existsb (fun x => String.eqb x v) vs.
Proof.
  intros Hv H. destruct vs as [|a vs]; [congruence|]. rewrite has_value_any. unfold is_any. generalize (a :: vs). intros l. induction l as [|b l IH]; [reflexivity|].
  cbn [existsb]. now rewrite (is1_tagged _ _ _ _ H), IH.
Qed.
Lemma full_rails_rule num o area v : untagged o "highway" -> tagged o "railway" v -> In v ["rail"; "subway"; "tram"]%string -> rails (full_way num) ["subway"; "tram"]%string o area v.
Proof.
  intros Hh Ht Hv. assert (HN : v <> "miniature"%string /\ String.eqb "disused" v = false /\ String.eqb "abandoned" v = false).
  { cbn [In] in Hv. repeat (destruct Hv as [<-|Hv]; [repeat split; discriminate|]). destruct Hv. }
  destruct HN as (N1 & N2 & N3). apply (rails_rule _ _ _ _ _ [CTagInteger (lit "level")] [CTagInteger (lit "level")]); [assumption|assumption|cbn; intuition discriminate|repeat constructor|repeat constructor|].
  unfold full_way. rewrite (key_untagged _ _ Hh), (value_tagged _ _ v) by (discriminate || assumption).
  replace (existsb (fun x => String.eqb x v) ["rail"; "subway"; "tram"]%string) with true by (symmetry; apply existsb_exists; exists v; split; [assumption | apply String.eqb_refl]).
  unfold full_rail. rewrite !(is1_tagged _ _ _ _ Ht), N2, N3. cbn [orb app existsb]. rewrite orb_false_r. reflexivity.
Qed.
Lemma bg_rails_rule o area v : untagged o "highway" -> tagged o "railway" v -> In v ["rail"; "light_rail"; "subway"; "tram"; "narrow_gauge"]%string -> rails bg_way ["subway"; "tram"; "light_rail"; "narrow_gauge"]%string o area v.
Proof.
  intros Hh Ht Hv. assert (HN : v <> "miniature"%string /\ String.eqb "disused" v = false /\ String.eqb "abandoned" v = false).
  { cbn [In] in Hv. repeat (destruct Hv as [<-|Hv]; [repeat split; discriminate|]). destruct Hv. }
  destruct HN as (N1 & N2 & N3). apply (rails_rule _ _ _ _ _ [] []); [assumption|assumption|cbn; intuition discriminate|repeat constructor|repeat constructor|].
  unfold bg_way. rewrite (key_untagged _ _ Hh), (value_tagged _ _ v) by (discriminate || assumption).
  replace (existsb (fun x => String.eqb x v) ["rail"; "light_rail"; "subway"; "tram"; "narrow_gauge"]%string) with true by (symmetry; apply existsb_exists; exists v; split; [assumption | apply String.eqb_refl]).
  unfold bg_rail, is_any. cbn [existsb]. rewrite !(is1_tagged _ _ _ _ Ht), N2, N3. cbn [orb app]. reflexivity.
Qed.

(** ** Tables with layers *)
Lemma in_table3 (v : string) (t : list (string * string * N)) : (exists l z, In (v, l, z) t) \/ (forall l z, ~ In (v, l, z) t).
Proof.
  induction t as [|[[w l] z] t IH]; [right; intros l z []|]. destruct (string_dec v w) as [->|Hn]; [left; exists l, z; left; reflexivity|].
  destruct IH as [(l' & z' & H)|H]; [left; exists l', z'; right; exact H|]. right. intros l' z' [E|E]; [congruence | now apply (H l' z')].
Qed.
Lemma not_in_table3 (v w l : string) (z : N) t : (forall l z, ~ In (v, l, z) t) -> In (w, l, z) t -> String.eqb w v = false.
Proof. intros H Hi. apply String.eqb_neq. intros ->. now apply (H l z). Qed.
Ltac all_false3 H := repeat match goal with |- context [String.eqb ?w ?v] => replace (String.eqb w v) with false by (symmetry; eapply (not_in_table3 v w _ _ _ H); cbn; tauto) end.
Lemma waterway_rule o area v : tagged o "waterway" v -> chooses (waterway o) waterway_layers area v.
Proof.
  intros H. split.
  - intros l z Hi. unfold waterway. rewrite !(is1_tagged _ _ _ _ H). cbn in Hi. repeat (destruct Hi as [Hi|Hi]; [injection Hi as <- <- <-; split; reflexivity|]). destruct Hi.
  - intros Hn. unfold waterway. rewrite !(is1_tagged _ _ _ _ H). unfold waterway_layers, waterways in Hn. all_false3 Hn. reflexivity.
Qed.
Definition tram_free (o : osm_obj) (l : list string) : Prop := forall v, In v l -> ~ tagged o "railway" v.
Lemma no_value o k v vs : Forall (fun x => x <> EmptyString) (v :: vs) -> (forall x, In x (v :: vs) -> ~ tagged o k x) -> has_value o k (v :: vs) = false.
Proof.
  intros Hf H. rewrite has_value_any. unfold is_any. apply not_true_iff_false. rewrite existsb_exists. intros (x & Hi & E). destruct x as [|c x]; [now apply (proj1 (Forall_forall _ _) Hf) in Hi|].
  apply is1_spec in E. now apply (H _ Hi).
Qed.
Lemma full_way_other num o : untagged o "highway" -> (forall x, In x ["rail"; "subway"; "tram"]%string -> ~ tagged o "railway" x) -> full_way num o = if has_key o "waterway" then waterway o else [].
Proof. intros H1 H2. unfold full_way. rewrite (key_untagged _ _ H1), no_value; [reflexivity | repeat constructor; discriminate | exact H2]. Qed.
Lemma bg_way_other o : untagged o "highway" -> (forall x, In x ["rail"; "light_rail"; "subway"; "tram"; "narrow_gauge"]%string -> ~ tagged o "railway" x) -> bg_way o = if has_key o "waterway" then waterway o else [].
Proof. intros H1 H2. unfold bg_way. rewrite (key_untagged _ _ H1), no_value; [reflexivity | repeat constructor; discriminate | exact H2]. Qed.

(** ** Places *)
Lemma full_place_rule num o area v : tagged o "place" v -> chooses (full_node num o) full_places area v /\ keeps_tag o (full_node num o) "place" /\ keeps_tag o (full_node num o) "name".
Proof.
  intros H. unfold full_node. rewrite (key_tagged _ _ _ H), !(is1_tagged _ _ _ _ H). split; [split|split].
  - intros l z Hi. cbn in Hi. repeat (destruct Hi as [Hi|Hi]; [injection Hi as <- <- <-; split; reflexivity|]). destruct Hi.
  - intros Hn. unfold full_places in Hn. all_false3 Hn. reflexivity.
  - intros stod dbl w Hw. rewrite flat_map_app. apply in_or_app. right. cbn [flat_map added app]. rewrite Hw. left. reflexivity.
  - intros stod dbl w Hw. rewrite flat_map_app. apply in_or_app. right. cbn [flat_map added app]. apply in_or_app. right. rewrite Hw. left. reflexivity.
Qed.
Lemma bg_place_rule o area v : tagged o "place" v -> chooses (bg_node o) bg_places area v /\ keeps_tag o (bg_node o) "place" /\ keeps_tag o (bg_node o) "name".
Proof.
  intros H. unfold bg_node. rewrite (key_tagged _ _ _ H), (value_tagged o "place" v ["state"; "region"; "province"]%string) by (discriminate || assumption). rewrite !(is1_tagged _ _ _ _ H). cbn [existsb]. split; [split|split].
  - intros l z Hi. cbn in Hi. repeat (destruct Hi as [Hi|Hi]; [injection Hi as <- <- <-; split; reflexivity|]). destruct Hi.
  - intros Hn. unfold bg_places in Hn. all_false3 Hn. reflexivity.
  - intros stod dbl w Hw. rewrite flat_map_app. apply in_or_app. right. cbn [flat_map added app]. rewrite Hw. left. reflexivity.
  - intros stod dbl w Hw. rewrite flat_map_app. apply in_or_app. right. cbn [flat_map added app]. apply in_or_app. right. rewrite Hw. left. reflexivity.
Qed.
Lemma node_other num o : untagged o "place" -> bg_node o = [] /\ (~ tagged o "highway" "elevator" -> full_node num o = []).
Proof.
  intros H. split; [unfold bg_node; now rewrite (key_untagged _ _ H)|]. intros Hn. unfold full_node. rewrite (key_untagged _ _ H). destruct (is1 o "highway" "elevator") eqn:E; [|reflexivity]. apply is1_spec in E. contradiction.
Qed.

(** ** Levels *)
Lemma digits_taken s r : (forall d, In d s -> is_digit d = true) -> match r with c :: _ => is_digit c = false | [] => True end -> take_digits (s ++ r) = (s, r).
Proof.
  intros H Hr. induction s as [|c s IH]; cbn [app].
  - destruct r as [|c r]; [reflexivity|]. cbn [take_digits]. now rewrite Hr.
  - cbn [take_digits]. rewrite (H c) by (left; reflexivity). rewrite IH; [reflexivity|]. intros d Hd. apply H. right. exact Hd.
Qed.
Lemma sign_free c t : c <> 45 -> number_at (c :: t) = match take_digits (c :: t) with ([], _) => None | (d, r) => Some (d, r) end.
Proof. intros H. unfold number_at. destruct c as [|c]; [reflexivity|]. do 6 (destruct c as [c|c|]; try reflexivity). now destruct H. Qed.
Lemma signed t : number_at (45 :: t) = match take_digits t with ([], _) => None | (d, r) => Some (45 :: d, r) end.
Proof. reflexivity. Qed.
Lemma number_found s z r : integer_text s z -> match r with c :: _ => is_digit c = false | [] => True end -> number_at (s ++ r) = Some (s, r).
Proof.
  intros H Hr. destruct H as [s v H|s v H]; apply numeral_digits in H as (H1 & H2 & _); (destruct s as [|c s]; [congruence|]).
  - assert (Hc : is_digit c = true) by (apply H1; left; reflexivity). assert (Hne : c <> 45) by (unfold is_digit in Hc; lia).
    change ((c :: s) ++ r) with (c :: (s ++ r)). rewrite sign_free by assumption. change (c :: s ++ r) with ((c :: s) ++ r). now rewrite digits_taken by assumption.
  - change ((45 :: c :: s) ++ r) with (45 :: ((c :: s) ++ r)). rewrite signed. now rewrite digits_taken by assumption.
Qed.
Lemma first_here {A} (m : bytes -> option A) s a : m s = Some a -> first_match m s = Some a.
Proof. intros H. destruct s; cbn [first_match]; now rewrite H. Qed.
Lemma split_two a x b y : integer_text a x -> integer_text b y -> split_level (a ++ 59 :: b) = Some (a, b).
Proof.
  intros Ha Hb. unfold split_level. erewrite first_here; [reflexivity|]. unfold range_at. rewrite (number_found a x (59 :: b)) by (assumption || reflexivity).
  rewrite <- (app_nil_r b) at 1. now rewrite (number_found b y []) by (assumption || exact I).
Qed.
Lemma no_range s : ~ In 59 s -> first_match range_at s = None.
Proof.
  assert (Hr : forall s, ~ In 59 s -> range_at s = None).
  { intros l Hl. unfold range_at. destruct (number_at l) as [[a r]|] eqn:E; [|reflexivity]. assert (Hs : l = a ++ r).
    { assert (HT : forall t d q, take_digits t = (d, q) -> t = d ++ q).
      { clear. intros t. induction t as [|c t IH]; intros d q H; cbn [take_digits] in H; [injection H as <- <-; reflexivity|]. destruct (is_digit c); [|injection H as <- <-; reflexivity].
        destruct (take_digits t) as [d' q'] eqn:E. injection H as <- <-. cbn [app]. f_equal. now apply IH. }
      destruct l as [|c l]; [discriminate|]. destruct (N.eq_dec c 45) as [->|Hc].
      - rewrite signed in E. destruct (take_digits l) as [d q] eqn:E2. apply HT in E2. destruct d as [|x d]; [discriminate|]. injection E as <- <-. subst l. reflexivity.
      - rewrite sign_free in E by assumption. destruct (take_digits (c :: l)) as [d q] eqn:E2. apply HT in E2. destruct d as [|x d]; [discriminate|]. injection E as <- <-. exact E2. }
    destruct r as [|c r]; [reflexivity|]. destruct (N.eq_dec c 59) as [->|Hc]. { destruct Hl. rewrite Hs. apply in_or_app. right. left. reflexivity. }
    destruct c as [|c]; [reflexivity|]. do 6 (destruct c as [c|c|]; try reflexivity). now destruct Hc. }
  induction s as [|c s IH]; intros Hn; cbn [first_match]; rewrite Hr by assumption; [reflexivity|]. apply IH. intros Hi. apply Hn. right. exact Hi.
Qed.
Lemma split_one a x : integer_text a x -> split_level a = Some (a, a).
Proof.
  intros H. unfold split_level. rewrite no_range.
  - erewrite first_here; [|rewrite <- (app_nil_r a) at 1; apply (number_found a x []); [assumption | exact I]]. reflexivity.
  - destruct H as [s v H|s v H]; apply numeral_digits in H as (H1 & _ & _); intros Hi; cbn [In] in Hi.
    + apply H1 in Hi. discriminate.
    + destruct Hi as [E|Hi]; [discriminate E|]. apply H1 in Hi. discriminate.
Qed.
Lemma levels_added num o s f t x y : reads_integers num -> tag_value (o_tags o) (lit "level") = Some s -> split_level s = Some (f, t) ->
  integer_text f x -> integer_text t y -> int64_ok x = true -> int64_ok y = true ->
  add_levels num o = [CAddInteger (lit "from_level") x; CAddInteger (lit "to_level") y].
Proof.
  intros Hn Ht Hs Hf Hg Hx Hy. unfold add_levels, has_any_tag, get_tag. rewrite Ht, Hs. now rewrite (Hn _ _ Hf Hx), (Hn _ _ Hg Hy).
Qed.
Lemma between_app o pre x y : (forall stod dbl k w, In (lit k, w) (flat_map (added stod dbl o) pre) -> k <> "from_level"%string /\ k <> "to_level"%string) ->
  between_levels o (pre ++ [CAddInteger (lit "from_level") x; CAddInteger (lit "to_level") y]) x y.
Proof.
  intros Hp stod dbl v. rewrite flat_map_app, !in_app_iff. cbn [flat_map added app]. split; split.
  - intros [H|[H|[H|[]]]]; [now apply Hp in H | congruence | apply (f_equal fst) in H; apply lit_inj in H; discriminate].
  - intros ->. right. left. reflexivity.
  - intros [H|[H|[H|[]]]]; [now apply Hp in H | apply (f_equal fst) in H; apply lit_inj in H; discriminate | congruence].
  - intros ->. right. right. left. reflexivity.
Qed.
