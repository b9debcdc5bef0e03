(** The calls of the profiles never fail, and what they add is well-formed. *)
From Coq Require Import String Ascii.
From Coq Require Import List.
From Verif Require Import Base BaseProof ModelTile ModelCodec ModelGeom ModelFeature ModelDict ModelOsm SpecOsm SpecDict SpecMvt ModelServer ModelProfile SpecProfile ProofOsm ProofProfile ProofProfile2.
Import ListNotations.
Open Scope N_scope.

Definition tame (c : call) : bool :=
  match c with
  | CApproveMin z => z <=? 18
  | CApproveMinByArea [a; la; b; lb; d; ld] => ((0 <=? a) && (a <=? 18) && (0 <=? b) && (b <=? 18) && (0 <=? d) && (d <=? 18))%Z
  | CLayer n => existsb (fun l => bytes_eqb n (lit l)) layers_of
  | CAddString k v => (blen k <? 100) && (blen v <? 100)
  | CAddInteger k z => (blen k <? 100)
  | CTagString k | CTagInteger k => blen k <? 100
  | _ => false
  end.
Definition approves (c : call) : bool := match c with CApproveMin _ | CApproveMinByArea _ => true | _ => false end.
Definition names (c : call) : bool := match c with CLayer _ => true | _ => false end.
(** all calls are tame, at most eight of them, and if one approves, one names a layer *)
Definition fine (cs : list call) : bool := forallb tame cs && (length cs <=? 8)%nat && (negb (existsb approves cs) || existsb names cs).
Lemma fine_levels num o pre : fine pre = true -> (length pre <= 6)%nat -> fine (pre ++ add_levels num o) = true.
Proof.
  unfold fine. rewrite !andb_true_iff. intros [[H1 _] H3] Hl. unfold add_levels.
  assert (K : forall more, forallb tame more = true -> (length more <= 2)%nat -> existsb approves more = false -> (forallb tame (pre ++ more) = true /\ (length (pre ++ more) <=? 8)%nat = true) /\ negb (existsb approves (pre ++ more)) || existsb names (pre ++ more) = true).
  { intros more M1 M2 M3. rewrite forallb_app, app_length, !existsb_app, M3, H1, M1, orb_false_r. split; [split; [reflexivity | apply Nat.leb_le; lia]|]. destruct (existsb approves pre); [|reflexivity]. cbn [negb orb] in *. now rewrite H3. }
  destruct (has_any_tag o (lit "level") []); [|now apply K; cbn; lia || reflexivity]. destruct (split_level _) as [[f t]|]; [|now apply K; cbn; lia || reflexivity].
  destruct (num f); [|now apply K; cbn; lia || reflexivity]. destruct (num t); apply K; try reflexivity; cbn; lia.
Qed.
Ltac splits := repeat match goal with |- context [if ?b then _ else _] => destruct b end.
Lemma full_fine num o : fine (full_node num o) = true /\ fine (full_way num o) = true /\ fine (full_area o) = true.
Proof.
  split; [|split].
  - unfold full_node. destruct (has_key o "place"); [splits; reflexivity|]. destruct (is1 o "highway" "elevator"); [|reflexivity]. apply fine_levels; [reflexivity | cbn; lia].
  - unfold full_way. destruct (has_key o "highway").
    + destruct (is1 o "highway" "elevator"); [apply fine_levels; [reflexivity | cbn; lia]|]. unfold full_road. rewrite app_assoc. match goal with |- context [_ ++ (if _ then _ else _)] => idtac end.
      destruct (is1 o "highway" "steps"); [apply fine_levels; splits; (reflexivity || (cbn; lia))|]. splits; reflexivity.
    + destruct (has_value o "railway" _); [unfold full_rail; splits; reflexivity|]. destruct (has_key o "waterway"); [unfold waterway; splits; reflexivity | reflexivity].
  - unfold full_area, landuse, by_area. splits; reflexivity.
Qed.
Lemma bg_fine o : fine (bg_node o) = true /\ fine (bg_way o) = true /\ fine (bg_area o) = true.
Proof.
  split; [|split].
  - unfold bg_node. splits; reflexivity.
  - unfold bg_way, bg_road, bg_rail, waterway. splits; reflexivity.
  - unfold bg_area, landuse, by_area. splits; reflexivity.
Qed.

Lemma tame_zoom area c mn : tame c = true -> approval area c = Some mn -> mn <= 18 /\ approves c = true.
Proof.
  destruct c; cbn [tame approval approves]; try discriminate.
  - intros H E. injection E as <-. split; [lia | reflexivity].
  - destruct args as [|a [|la [|b [|lb [|d [|ld [|? ?]]]]]]]; try discriminate. rewrite !andb_true_iff. intros H E.
    assert (HU : forall x, (0 <= x <= 18)%Z -> to_u32 x <= 18) by (intros x Hx; unfold to_u32; lia).
    split; [|reflexivity]. destruct ((la =? -1) || (area <? la))%Z; [injection E as <-; apply HU; lia|]. destruct ((lb =? -1) || (area <? lb))%Z; [injection E as <-; apply HU; lia|].
    destruct ((ld =? -1) || (area <? ld))%Z; [injection E as <-; apply HU; lia | discriminate].
Qed.
Lemma last_some_in {A B} (f : A -> option B) l b : last_some f l = Some b -> exists a, In a l /\ f a = Some b.
Proof.
  induction l as [|x l IH]; cbn [last_some]; [discriminate|]. destruct (last_some f l) as [b'|]; [|intros H; exists x; split; [left; reflexivity | exact H]].
  intros H. injection H as ->. destruct (IH eq_refl) as (a & Ha & E). exists a. split; [right; exact Ha | exact E].
Qed.
Lemma last_some_none {A B} (f : A -> option B) l : last_some f l = None -> forall a, In a l -> f a = None.
Proof. induction l as [|x l IH]; cbn [last_some]; [intros _ a []|]. destruct (last_some f l); [discriminate|]. intros H a [<-|Hi]; [exact H | now apply IH]. Qed.
Lemma fine_script cs : fine cs = true -> script_ok cs.
Proof.
  unfold fine. rewrite !andb_true_iff. intros [[H _] _]. unfold script_ok. apply Forall_forall. intros c Hc. apply (proj1 (forallb_forall _ _) H) in Hc. destruct c; try exact I.
  destruct args as [|a [|la [|b [|lb [|d [|ld [|? ?]]]]]]]; try discriminate. reflexivity.
Qed.
Lemma fine_chosen cs area mn : fine cs = true -> last_some (approval area) cs = Some mn ->
  mn <= 18 /\ exists layer, In layer layers_of /\ last_some layer_of cs = Some (lit layer).
Proof.
  unfold fine. rewrite !andb_true_iff. intros [[H _] Hl] E. apply last_some_in in E. destruct E as (c & Hc & E). pose proof (proj1 (forallb_forall _ _) H c Hc) as Ht. destruct (tame_zoom _ _ _ Ht E) as [H1 H2]. split; [exact H1|].
  assert (Ha : existsb approves cs = true) by (apply existsb_exists; exists c; split; assumption). rewrite Ha in Hl. cbn [negb orb] in Hl. apply existsb_exists in Hl. destruct Hl as (d & Hd & En).
  destruct (last_some layer_of cs) as [n|] eqn:El.
  - apply last_some_in in El. destruct El as (e & He & Ee). pose proof (proj1 (forallb_forall _ _) H e He) as Hte. destruct e; try discriminate. cbn [layer_of] in Ee. injection Ee as ->. cbn [tame] in Hte. apply existsb_exists in Hte.
    destruct Hte as (l & Hi & X). apply bytes_eqb_eq in X. exists l. split; [exact Hi | now rewrite X].
  - apply (last_some_none _ _ El) in Hd. destruct d; discriminate.
Qed.
Lemma added_fine stod dbl o c m : tame c = true -> short_tags o -> (forall z, int64_ok z = true -> length (dbl z) = 8%nat) -> In m (added stod dbl o c) -> meta_short m /\ meta_value (snd m) <> None.
Proof.
  intros Ht Hs Hd. assert (HT : forall k w, tag_value (o_tags o) k = Some w -> blen w < 2 ^ 32 - 1).
  { intros k w. unfold short_tags in Hs. induction Hs as [|[k' v] l Hx _ IH]; cbn [tag_value]; [discriminate|]. destruct (bytes_eqb k' k); [intros E; injection E as <-; exact Hx | exact IH]. }
  assert (HK : forall k : bytes, blen k < 100 -> short k) by (intros k Hk; unfold short; lia).
  assert (HV : forall b (v : bytes), blen v < 2 ^ 32 - 1 -> short (b :: v)) by (intros b v Hv; unfold short; rewrite blen_cons; lia).
  destruct c; try (now intros []); try discriminate Ht; cbn [tame] in Ht; cbn [added].
  - apply andb_true_iff in Ht. intros [<-|[]]. split; [|discriminate]. split; cbn [fst snd]; [apply HK; lia | apply HV; lia].
  - intros [<-|[]]. split.
    + split; cbn [fst snd]; [apply HK; lia|]. apply HV. unfold blen. rewrite le_bytes_length. reflexivity.
    + cbn [snd encode_integer meta_value]. rewrite le_bytes_length. discriminate.
  - destruct (tag_value (o_tags o) k) as [w|] eqn:E; [|intros []]. intros [<-|[]]. split; [|discriminate]. split; cbn [fst snd]; [apply HK; lia | apply HV; now apply (HT k)].
  - destruct (tag_value (o_tags o) k) as [w|] eqn:E; [|intros []]. destruct (from_chars64 w) as [z|] eqn:Ez; [|intros []]. intros [<-|[]].
    assert (L : length (dbl z) = 8%nat).
    { apply Hd. unfold from_chars64 in Ez. destruct (match w with 45 :: r => (true, r) | _ => (false, w) end) as [neg d]. destruct d as [|c d]; [discriminate|]. destruct (is_digit c); [|discriminate].
      cbv zeta in Ez. match type of Ez with (if ?b then _ else _) = _ => destruct b eqn:X; [|discriminate] end. injection Ez as <-. exact X. }
    split; [split; cbn [fst snd]; [apply HK; lia | apply HV; unfold blen; rewrite L; reflexivity]|]. cbn [snd encode_numeric meta_value]. rewrite L. discriminate.
Qed.
Lemma fine_added stod dbl o cs : fine cs = true -> short_tags o -> (forall z, int64_ok z = true -> length (dbl z) = 8%nat) ->
  Forall (fun m => meta_short m /\ meta_value (snd m) <> None) (flat_map (added stod dbl o) cs) /\ (length (flat_map (added stod dbl o) cs) <= 8)%nat.
Proof.
  unfold fine. rewrite !andb_true_iff. intros [[H Hl] _] Hs Hd. split.
  - apply Forall_forall. intros m Hm. apply in_flat_map in Hm. destruct Hm as (c & Hc & Hm). eapply added_fine; [|exact Hs|exact Hd|exact Hm]. now apply (proj1 (forallb_forall _ _) H).
  - apply Nat.leb_le in Hl. assert (HA : (length (flat_map (added stod dbl o) cs) <= length cs)%nat); [|lia]. clear. induction cs as [|c cs IH]; [apply le_n|]. cbn [flat_map length]. rewrite app_length.
    assert ((length (added stod dbl o c) <= 1)%nat); [|lia]. destruct c; cbn [added length]; try lia; destruct (tag_value _ _); cbn [length]; try lia; [destruct (stod _) | destruct (from_chars64 _)]; cbn [length]; lia.
Qed.

(** ** Levels of lifts and stairs *)
Definition elevator_calls : list call := [CApproveMin 18; CLayer (lit "indoor"); CAddString (lit "indoor") (lit "elevator")].
Lemma road_calls_keys o t v stod dbl k w : In (lit k, w) (flat_map (added stod dbl o) (road_calls t v)) -> In k ["highway"; "name"; "ref"]%string.
Proof.
  intros H. apply in_flat_map in H. destruct H as (c & Hc & H). unfold road_calls in Hc. apply in_app_or in Hc. assert (Hx : c = CLayer (lit "road") \/ c = CTagString (lit "highway") \/ c = CTagString (lit "name") \/ c = CTagString (lit "ref") \/ exists z, c = CApproveMin z).
  { destruct Hc as [Hc|Hc]; [cbn [In] in Hc; intuition congruence|]. destruct (find _ t) as [[x z]|]; [|destruct Hc]. destruct Hc as [Hc|Hc]; [right; right; right; right; exists z; congruence|]. destruct (z <=? 9); cbn [In] in Hc; intuition congruence. }
  assert (HT : forall k', c = CTagString (lit k') -> k = k').
  { intros k' ->. cbn [added] in H. destruct (tag_value _ _); [|destruct H]. destruct H as [H|[]]. apply (f_equal fst) in H. symmetry. now apply lit_inj. }
  destruct Hx as [->|[Hx|[Hx|[Hx|(z & ->)]]]]; [destruct H | | | | destruct H]; apply HT in Hx; subst; cbn; tauto.
Qed.
Lemma level_rule num o s f t x y : reads_integers num -> tag_value (o_tags o) (lit "level") = Some s -> split_level s = Some (f, t) -> integer_text f x -> integer_text t y -> int64_ok x = true -> int64_ok y = true ->
  (tagged o "highway" "steps" -> between_levels o (full_way num o) x y) /\
  (tagged o "highway" "elevator" -> between_levels o (full_way num o) x y /\ (untagged o "place" -> between_levels o (full_node num o) x y)).
Proof.
  intros Hn Ht Hs Hf Hg Hx Hy. pose proof (levels_added num o s f t x y Hn Ht Hs Hf Hg Hx Hy) as HL. split; [intros Hw | intros Hw; split; [|intros Hp]].
  - unfold full_way. rewrite (key_tagged _ _ _ Hw), (is1_tagged _ _ _ _ Hw). cbn [String.eqb Ascii.eqb Bool.eqb]. rewrite (full_road_calls num o "steps" Hw). unfold level_calls. cbn [String.eqb Ascii.eqb Bool.eqb]. rewrite HL.
    apply between_app. intros stod dbl k w H. apply road_calls_keys in H. cbn [In] in H. intuition (subst; discriminate).
  - unfold full_way. rewrite (key_tagged _ _ _ Hw), (is1_tagged _ _ _ _ Hw). cbn [String.eqb Ascii.eqb Bool.eqb]. rewrite HL. apply (between_app o elevator_calls). intros stod dbl k w [H|[]]. apply (f_equal fst) in H. apply lit_inj in H. subst. split; discriminate.
  - unfold full_node. rewrite (key_untagged _ _ Hp), (is1_tagged _ _ _ _ Hw). cbn [String.eqb Ascii.eqb Bool.eqb]. rewrite HL. apply (between_app o elevator_calls). intros stod dbl k w [H|[]]. apply (f_equal fst) in H. apply lit_inj in H. subst. split; discriminate.
Qed.

(** ** What never happens *)
Lemma old_rails num o area z v : In v ["disused"; "abandoned"]%string -> tagged o "railway" v -> untagged o "highway" -> ~ selects area (full_way num o) "rail" z /\ ~ selects area (bg_way o) "rail" z.
Proof.
  intros Hv Ht Hh. assert (Hx : forall x, In x ["rail"; "light_rail"; "subway"; "tram"; "narrow_gauge"]%string -> ~ tagged o "railway" x).
  { intros x Hi E. unfold tagged in Ht, E. rewrite Ht in E. assert (E2 : lit v = lit x) by congruence. apply lit_inj in E2. subst. cbn [In] in *. intuition (subst; discriminate). }
  assert (HW : forall z, ~ selects area (if has_key o "waterway" then waterway o else []) "rail" z).
  { intros z' [_ H]. destruct (has_key o "waterway"); [|discriminate]. unfold waterway in H. assert (lit "waterway" = lit "rail") as X by (revert H; splits; cbn [last_some layer_of]; congruence). apply lit_inj in X. discriminate. }
  split.
  - rewrite full_way_other; [apply HW | exact Hh|]. intros x Hi. apply Hx. cbn [In] in *. tauto.
  - rewrite bg_way_other; [apply HW | exact Hh | exact Hx].
Qed.
Lemma water_zooms o area z : (selects area (full_area o) "water" z -> z = 12 \/ z = 0) /\ (selects area (bg_area o) "water" z -> z = 12 \/ z = 0).
Proof.
  assert (HR : forall cs rows, area_rule o area cs rows -> (forall r, In r rows -> a_layer r = "water"%string -> a_small r = 12 /\ a_limit1 r = (10 ^ 6)%Z /\ a_limit2 r = (10 ^ 4)%Z /\ a_large r = 0) -> selects area cs "water" z -> z = 12 \/ z = 0).
  { intros cs rows HA Hw [S1 S2]. destruct HA as [[H _]|(l1 & r & l2 & -> & _ & _ & [R1 R2] & _)]; [unfold rejects in H; congruence|]. rewrite R2 in S2. rewrite R1 in S1. assert (E : lit (a_layer r) = lit "water") by congruence. apply lit_inj in E.
    destruct (Hw r) as (W1 & W2 & W3 & W4); [apply in_or_app; right; left; reflexivity | exact E|]. assert (Ez : row_zoom area r = z) by congruence. unfold row_zoom in Ez. rewrite W1, W2, W3, W4 in Ez.
    destruct (area <? 10 ^ 6)%Z eqn:E1; [left; congruence|]. destruct (area <? 10 ^ 4)%Z eqn:E2; [lia | right; congruence]. }
  split; [apply (HR _ full_rows (full_area_rule o area)) | apply (HR _ bg_rows (bg_area_rule o area))]; intros r Hi E; cbn [full_rows bg_rows common_rows app In] in Hi; repeat (destruct Hi as [<-|Hi]; [try discriminate E; repeat split; reflexivity|]); destruct Hi.
Qed.
