(** What the profiles select. *)
From Coq Require Import String Ascii.
From Coq Require Import List.
From Verif Require Import Base BaseProof ModelTile ModelCodec ModelGeom ModelFeature ModelDict ModelOsm SpecOsm SpecDict SpecMvt ModelServer ModelProfile SpecProfile.
Import ListNotations.
Open Scope N_scope.

(** ** Conditions *)
Lemma lit_inj a b : lit a = lit b -> a = b.
Proof.
  unfold lit. revert b. induction a as [|x a IH]; intros [|y b]; cbn [list_ascii_of_string map]; intros H; try discriminate; [reflexivity|]. injection H as H1 H2. f_equal; [|now apply IH].
  rewrite <- (ascii_N_embedding x), <- (ascii_N_embedding y). now rewrite H1.
Qed.
Lemma is1_spec o k c v : is1 o k (String c v) = true <-> tagged o k (String c v).
Proof.
  unfold is1, has_tag, get_tag, tagged. rewrite bytes_eqb_eq. destruct (tag_value (o_tags o) (lit k)) as [w|]; [|split; [intros H; cbn in H; discriminate | discriminate]]. split; [intros ->; reflexivity | intros H; congruence].
Qed.
Lemma has_key_spec o k : has_key o k = true <-> ~ untagged o k.
Proof. unfold has_key, has_any_tag, untagged. destruct (tag_value (o_tags o) (lit k)); split; intros H; try discriminate; try reflexivity; try congruence; now destruct H. Qed.
Lemma has_value_any o k v vs : has_value o k (v :: vs) = is_any o k (v :: vs).
Proof.
  unfold has_value, has_any_tag. cbn [map]. unfold is_any, is1, has_tag. set (g := get_tag o (lit k)). clearbody g. change (lit v :: map lit vs) with (map lit (v :: vs)). generalize (v :: vs). clear.
  intros l. induction l as [|a l IH]; [reflexivity|]. cbn [map existsb]. rewrite IH. f_equal. apply eq_true_iff_eq. rewrite !bytes_eqb_eq. split; congruence.
Qed.
Definition fitsb (o : osm_obj) (kv : string * string) : bool := match snd kv with EmptyString => has_key o (fst kv) | v => is1 o (fst kv) v end.
Lemma fitsb_spec o kv : fitsb o kv = true <-> fits_tag o kv.
Proof. destruct kv as [k [|c v]]; unfold fitsb, fits_tag; cbn [fst snd]; [apply has_key_spec | apply is1_spec]. Qed.
Lemma row_fits_spec o r : existsb (fitsb o) (a_tags r) = true <-> row_fits o r.
Proof. rewrite existsb_exists. unfold row_fits. split; intros (kv & H1 & H2); exists kv; split; try assumption; now apply fitsb_spec. Qed.

(** ** Areas *)
Lemma rule_end o area : area_rule o area [] [].
Proof. left. split; [reflexivity | constructor]. Qed.
Lemma rule_step o area (b : bool) cs1 cs2 r rows : b = existsb (fitsb o) (a_tags r) ->
  selects area cs1 (a_layer r) (row_zoom area r) -> (b = true -> match a_kind r with Some kind => adds_string o cs1 "landuse" kind | None => True end) ->
  area_rule o area cs2 rows -> area_rule o area (if b then cs1 else cs2) (r :: rows).
Proof.
  intros Hb Hs Hk Hr. destruct b.
  - right. exists [], r, rows. split; [reflexivity|]. split; [constructor|]. split; [now apply row_fits_spec|]. split; [assumption | now apply Hk].
  - assert (Hn : ~ row_fits o r) by (rewrite <- row_fits_spec, <- Hb; discriminate). destruct Hr as [[H1 H2]|(l1 & r' & l2 & -> & H1 & H2 & H3 & H4)].
    + left. split; [assumption | now constructor].
    + right. exists (r :: l1), r', l2. split; [reflexivity|]. split; [now constructor|]. split; [assumption|]. split; assumption.
Qed.
Lemma by_area_spec area a la b lb c : la <> (-1)%Z -> lb <> (-1)%Z ->
  approval area (by_area a la b lb c) = Some (if (area <? la)%Z then to_u32 a else if (area <? lb)%Z then to_u32 b else to_u32 c).
Proof.
  intros H1 H2. unfold by_area, approval. replace (la =? -1)%Z with false by lia. replace (lb =? -1)%Z with false by lia. cbn [orb]. destruct (area <? la)%Z; [reflexivity|]. now destruct (area <? lb)%Z.
Qed.
Lemma two_calls area layer a la b lb c ap mid : la <> (-1)%Z -> lb <> (-1)%Z -> Forall (fun x => approval area x = None /\ layer_of x = None) mid ->
  ap = (if (area <? la)%Z then to_u32 a else if (area <? lb)%Z then to_u32 b else to_u32 c) ->
  selects area (CLayer (lit layer) :: mid ++ [by_area a la b lb c]) layer ap.
Proof.
  intros H1 H2 Hm ->. assert (HM : forall tl, last_some (approval area) (mid ++ [tl]) = approval area tl /\ last_some layer_of (mid ++ [tl]) = layer_of tl).
  { intros tl. induction Hm as [|x m [X1 X2] _ [IH1 IH2]]; cbn [app last_some]; [split; [now destruct (approval area tl) | now destruct (layer_of tl)]|]. rewrite IH1, IH2, X1, X2. split; [now destruct (approval area tl) | now destruct (layer_of tl)]. }
  split; cbn [last_some].
  - rewrite (proj1 (HM _)), by_area_spec by assumption. reflexivity.
  - rewrite (proj2 (HM _)). reflexivity.
Qed.
Ltac cond := unfold is_complex, is_water; rewrite ?has_value_any; unfold is_any, complex_tags, tags_of_key; cbn [a_tags existsb map app fitsb fst snd landuse_row building_row]; unfold fitsb; cbn [fst snd]; rewrite ?orb_false_r, ?orb_assoc; reflexivity.
Lemma if_orb {A} (a b : bool) (x y : A) : (if a || b then x else y) = if a then x else if b then x else y.
Proof. now destruct a. Qed.
Lemma kind_row o area cs kind ts (b : bool) rest rows : b = existsb (fitsb o) ts -> cs = landuse kind -> area_rule o area rest rows ->
  area_rule o area (if b then cs else rest) (landuse_row kind ts :: rows).
Proof.
  intros Hb -> Hr. apply rule_step; [exact Hb | | | assumption].
  - apply (two_calls _ "landuse" 14 (10 ^ 8) 10 (10 ^ 10) 8 _ [CAddString (lit "landuse") (lit kind)]); [discriminate|discriminate|repeat constructor|reflexivity].
  - intros _ stod dbl. left. reflexivity.
Qed.
Lemma value_row o area v c w rest rows : v = String c w -> area_rule o area rest rows ->
  area_rule o area (if is1 o "landuse" v then [CLayer (lit "landuse"); CTagString (lit "landuse"); by_area 14 (10 ^ 8) 10 (10 ^ 10) 8] else rest) (landuse_row v [("landuse"%string, v)] :: rows).
Proof.
  intros -> Hr. apply rule_step; [cbn; unfold fitsb; cbn [fst snd]; now rewrite orb_false_r | | | assumption].
  - apply (two_calls _ "landuse" 14 (10 ^ 8) 10 (10 ^ 10) 8 _ [CTagString (lit "landuse")]); [discriminate|discriminate|repeat constructor|reflexivity].
  - intros H stod dbl. apply is1_spec in H. cbn [flat_map added app]. unfold tagged in H. rewrite H. left. reflexivity.
Qed.
Lemma plain_row o area layer ts a la b lb c (cond : bool) rest rows : cond = existsb (fitsb o) ts -> la <> (-1)%Z -> lb <> (-1)%Z -> area_rule o area rest rows ->
  area_rule o area (if cond then [CLayer (lit layer); by_area a la b lb c] else rest) (ARow ts layer (to_u32 a) la (to_u32 b) lb (to_u32 c) None :: rows).
Proof.
  intros Hb H1 H2 Hr. apply rule_step; [exact Hb | apply (two_calls _ layer a la b lb c _ []); auto | intros _; exact I | assumption].
Qed.
Lemma common_rule o area rest rows : area_rule o area rest rows ->
  area_rule o area (if is1 o "landuse" "cemetery" then landuse "cemetery"
  else if is_any o "landuse" ["brownfield"; "greenfield"; "construction"]%string then [CLayer (lit "construction"); by_area 14 (10 ^ 8) 10 (10 ^ 10) 8]
  else if is_water o then [CLayer (lit "water"); by_area 12 (10 ^ 6) 10 (10 ^ 4) 0]
  else if is1 o "natural" "beach" then landuse "beach"
  else if is_any o "highway" ["pedestrian"; "service"]%string || is1 o "amenity" "parking" then [CLayer (lit "pedestrian"); by_area 12 (10 ^ 8) 10 (10 ^ 10) 8]
  else if is1 o "leisure" "pitch" then [CLayer (lit "sport"); by_area 14 (10 ^ 8) 12 (10 ^ 10) 8] else rest) (common_rows ++ rows).
Proof.
  intros H. unfold common_rows. cbn [app]. apply kind_row; [cond|reflexivity|].
  apply (plain_row _ _ "construction" _ 14 _ 10 _ 8); [cond|discriminate|discriminate|]. apply (plain_row _ _ "water" _ 12 _ 10 _ 0); [cond|discriminate|discriminate|].
  apply kind_row; [cond|reflexivity|]. apply (plain_row _ _ "pedestrian" _ 12 _ 10 _ 8); [cond|discriminate|discriminate|].
  apply (plain_row _ _ "sport" _ 14 _ 12 _ 8); [cond|discriminate|discriminate|]. exact H.
Qed.
Lemma bg_area_rule o area : area_rule o area (bg_area o) bg_rows.
Proof.
  unfold bg_area, bg_rows. cbn [app]. apply (plain_row _ _ "building" _ 14 _ 12 _ 10); [cond|discriminate|discriminate|]. apply kind_row; [cond|reflexivity|].
  rewrite <- (app_nil_r common_rows). apply common_rule. apply rule_end.
Qed.
Lemma full_area_rule o area : area_rule o area (full_area o) full_rows.
Proof.
  unfold full_area, full_rows. cbn [app]. apply (plain_row _ _ "building" _ 14 _ 12 _ 10); [cond|discriminate|discriminate|].
  match goal with |- area_rule _ _ (if _ then _ else ?r) _ => set (R := r) end.
  rewrite has_value_any. unfold is_any at 1. cbn [existsb]. rewrite orb_false_r, !if_orb. do 4 (eapply value_row; [reflexivity|]). unfold R. clear R.
  do 5 (apply kind_row; [cond|reflexivity|]). apply common_rule.
  apply rule_step; [cond | | |].
  - apply (two_calls _ "landuse" 12 (10 ^ 8) 10 (10 ^ 10) 8 _ [CAddString (lit "landuse") (lit "public_transport"); CTagInteger (lit "level")]); [discriminate|discriminate|repeat constructor|reflexivity].
  - intros _ stod dbl. left. reflexivity.
  - apply rule_step; [cond | | intros _; exact I | apply rule_end]. split; [|reflexivity]. cbn [last_some approval]. unfold row_zoom. cbn [a_limit1 a_limit2 a_small a_medium a_large]. now destruct (area <? 0)%Z.
Qed.
