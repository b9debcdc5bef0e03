(** Neighbouring tiles fit together. *)
From Coq Require Import List.
From Verif Require Import Base BaseProof ModelTile SpecTile ModelCodec ModelGeom SpecGeom ModelFeature SpecFeature ModelMvt SpecMvt ModelRender SpecRender ModelClip SpecClip SpecCoast ModelDict ModelOsm SpecOsm ModelImport SpecImport SpecSeam ProofRender.
From Verif Require PropImport ProofClip.
Import ListNotations.
Open Scope N_scope.

Lemma rel_kind o g v : relative_geom o g = Some v -> vkind v = kind g.
Proof. destruct g; cbn; intros [= <-]; reflexivity. Qed.
Lemma shift_kind z g : shift_geom z g = GNull \/ kind (shift_geom z g) = kind g.
Proof.
  destruct g as [|ps|ls|ps]; cbn [shift_geom].
  - left. reflexivity.
  - destruct (transform_erase _ ps); [left | right]; reflexivity.
  - destruct (filter _ _); [left | right]; reflexivity.
  - match goal with |- context [match ?x with _ => _ end] => destruct x end; [left | right]; reflexivity.
Qed.
Lemma clip_kind cut b g g' : cut_ok cut -> range_box b -> clip cut b g = Ok g' -> g' = GNull \/ kind g' = kind g.
Proof.
  intros HC Hb H. destruct g as [|ps|ls|ps]; cbn [clip] in H.
  - apply Ok_inj in H. now left.
  - apply Ok_inj in H. destruct (filter (within b) ps); subst g'; [left | right]; reflexivity.
  - exact (proj2 (proj2 (HC b _ g' Hb H))).
  - exact (proj2 (proj2 (HC b _ g' Hb H))).
Qed.
Lemma outline_kind L raw z g : outline L raw z g = GNull \/ kind (outline L raw z g) = kind g.
Proof.
  pose proof (simplified_kind raw (l_mk L) (l_rd L) z (Feature 0 0 0 0 [] g)) as H. unfold simplified, outline in *. cbn [f_geom] in H. exact H.
Qed.
Lemma drawn_kind L raw t g g' v : cut_ok (l_cut L) -> range_box (draw_area t) -> clip (l_cut L) (draw_area t) (outline L raw (tz t) g) = Ok g' ->
  relative_geom (tile_corner t) (shift_geom (tz t) g') = Some v -> vkind v = kind g.
Proof.
  intros HC Hb Hc Hr. rewrite (rel_kind _ _ _ Hr). destruct (shift_kind (tz t) g') as [E|E]; [rewrite E in Hr; discriminate|]. rewrite E.
  destruct (clip_kind _ _ _ _ HC Hb Hc) as [->|E2]; [discriminate Hr|]. rewrite E2. destruct (outline_kind L raw (tz t) g) as [E3|E3]; [|exact E3].
  rewrite E3 in Hc. cbn [clip] in Hc. apply Ok_inj in Hc. subst g'. discriminate Hr.
Qed.
Lemma filter_all {A} (f : A -> bool) l : (forall a, In a l -> f a = true) -> filter f l = l.
Proof. induction l as [|a l IH]; intros H; [reflexivity|]. cbn [filter]. rewrite (H a (or_introl eq_refl)), IH; [reflexivity|]. intros b Hb. apply H. now right. Qed.
Lemma clip_whole cut b g g' : keeps_lines cut -> range_box b -> kind g <> 3 -> Forall (strictly_inside b) (geom_points g) -> clip cut b g = Ok g' -> g' = match g with GPoint [] => GNull | _ => g end.
Proof.
  intros HK Hb Hk Hi H. destruct g as [|ps|ls|ps]; cbn [clip] in H.
  - apply Ok_inj in H. now subst.
  - rewrite filter_all in H.
    + apply Ok_inj in H. now destruct ps.
    + intros q Hq. apply (proj1 (Forall_forall _ _) Hi) in Hq. unfold strictly_inside in Hq. unfold within. lia.
  - rewrite (HK b ls Hb Hi) in H. apply Ok_inj in H. now subst.
  - now destruct Hk.
Qed.
Lemma map_rel t q : map_pixel t (rel (tile_corner t) q) = rel (0, 0)%Z q.
Proof. unfold map_pixel, rel, tile_corner. cbn [fst snd]. f_equal; lia. Qed.
Lemma on_map_rel t g v : relative_geom (tile_corner t) g = Some v -> relative_geom (0, 0)%Z g = Some (on_the_map t v).
Proof.
  assert (M : forall l, map (map_pixel t) (map (rel (tile_corner t)) l) = map (rel (0, 0)%Z) l) by (intros l; rewrite map_map; apply map_ext; apply map_rel).
  assert (MM : forall ls, map (map (map_pixel t)) (map (map (rel (tile_corner t))) ls) = map (map (rel (0, 0)%Z)) ls) by (intros ls; rewrite map_map; apply map_ext; exact M).
  destruct g; cbn [relative_geom]; intros H; [discriminate|..]; injection H as <-; cbn [on_the_map]; rewrite ?M, ?MM; reflexivity.
Qed.

Lemma rel_zero q : rel (0, 0)%Z q = q.
Proof. destruct q. unfold rel. cbn [fst snd]. f_equal; lia. Qed.
Lemma map_rel_zero l : map (rel (0, 0)%Z) l = l.
Proof. induction l as [|q l IH]; cbn [map]; [reflexivity|]. now rewrite rel_zero, IH. Qed.
Lemma dedup_from_adjacent p q b : p <> q -> forall a last, adjacent p q (last :: dedup_from last (a ++ p :: q :: b)).
Proof.
  intros Hpq. assert (HQ : forall l, exists x r, l :: dedup_from l (p :: q :: b) = x ++ p :: q :: r).
  { intros l. cbn [dedup_from]. destruct (ProofShift.pt_eqb_spec l p) as [->|Hn].
    - destruct (ProofShift.pt_eqb_spec p q); [contradiction|]. eexists [], _. reflexivity.
    - destruct (ProofShift.pt_eqb_spec p q); [contradiction|]. eexists [l], _. reflexivity. }
  induction a as [|c a IH]; intros last.
  - cbn [app]. destruct (HQ last) as (x & r & E). exists x, r. exact E.
  - cbn [app dedup_from]. destruct (ProofShift.pt_eqb_spec last c) as [->|Hn]; [apply IH|]. destruct (IH c) as (x & y & E). exists (last :: x), y. cbn [app]. now rewrite <- E.
Qed.
Lemma transform_adjacent z p q l : (z <= 20)%N -> adjacent p q l -> scaled z p <> scaled z q -> adjacent (scaled z p) (scaled z q) (transform_erase (shift_pt z) l).
Proof.
  intros Hz (a & b & ->) Hn. unfold transform_erase. rewrite (map_ext (shift_pt z) (scaled z)) by (intros x; now apply ProofShift.shift_pt_scaled). rewrite map_app. cbn [map].
  destruct (map (scaled z) a) as [|c a']; cbn [app dedup].
  - cbn [dedup_from]. destruct (ProofShift.pt_eqb_spec (scaled z p) (scaled z q)); [contradiction|]. eexists [], _. reflexivity.
  - apply dedup_from_adjacent. exact Hn.
Qed.
Lemma adjacent_long p q l : adjacent p q l -> (length l <? 2)%nat = false.
Proof. intros (a & b & ->). rewrite app_length. cbn [length]. apply Nat.ltb_ge. lia. Qed.
Lemma shift_adjacent z p q l ls : (z <= 20)%N -> In l ls -> adjacent p q l -> scaled z p <> scaled z q -> exists ls' l', shift_geom z (GLine ls) = GLine ls' /\ In l' ls' /\ adjacent (scaled z p) (scaled z q) l'.
Proof.
  intros Hz Hl Ha Hn. pose proof (transform_adjacent z p q l Hz Ha Hn) as HT. cbn [shift_geom].
  assert (HI : In (transform_erase (shift_pt z) l) (filter (fun l => negb (length l <? 2)%nat) (map (transform_erase (shift_pt z)) ls))).
  { apply filter_In. split; [now apply in_map|]. now rewrite (adjacent_long _ _ _ HT). }
  destruct (filter _ _) as [|x r]; [destruct HI|]. eexists _, _. split; [reflexivity|]. split; [exact HI | exact HT].
Qed.
Lemma dedup_from_in p : forall l last, In p l -> In p (last :: dedup_from last l).
Proof.
  induction l as [|c l IH]; intros last H; [destruct H|]. cbn [dedup_from]. destruct (ProofShift.pt_eqb_spec last c) as [->|Hn].
  - destruct H as [->|H]; [now left | now apply IH].
  - right. destruct H as [->|H]; [now left | now apply IH].
Qed.
Lemma transform_in z p l : (z <= 20)%N -> In p l -> In (scaled z p) (transform_erase (shift_pt z) l).
Proof.
  intros Hz H. unfold transform_erase. rewrite (map_ext (shift_pt z) (scaled z)) by (intros x; now apply ProofShift.shift_pt_scaled). apply (in_map (scaled z)) in H.
  destruct (map (scaled z) l) as [|c l']; [destruct H|]. cbn [dedup]. destruct H as [->|H]; [now left | now apply dedup_from_in].
Qed.

Section Seam.
Context (L : libs) (j : job) (co fe raw prep : bool) (st : store) (HL : libs_ok L) (HJ : job_ok L j) (HH : history L j co fe raw prep st).
Context (o : osm_obj) (g : geom) (cs : list call) (layer : bytes) (mn : N) (Hi : In (o, g, cs) (j_objs j)) (Him : imported L (o, g, cs) layer mn) (Hc : layer <> coastline) (Ho : only_one L j layer o g cs).
Lemma drawn_as t : tz t <= 20 -> valid_tile t -> (prep = true -> kind g = 2 -> 10 < tz t) ->
  always_drawn L st t layer (to_u64 (o_id o)) (kind g) (fun vg => exists g', clip (l_cut L) (draw_area t) (outline L raw (tz t) g) = Ok g' /\ relative_geom (tile_corner t) (shift_geom (tz t) g') = Some vg).
Proof.
  intros Hz Hv Hp z Hs. destruct (PropImport.c64_nothing_else L j co fe raw prep st HL HJ HH) as (s & _ & HN). destruct (HN t z Hz Hv Hs) as (buf & D & HB). exists buf. split; [exact D|]. intros Hb.
  destruct (HB Hb) as (vls & V & HV). exists vls. split; [exact V|]. intros vl v Hvl Hvv Hn Hid Hk. destruct (HV vl v Hvl Hvv) as [(_ & N1 & _)|[(_ & e & f & g' & _ & _ & _ & N1 & _)|(_ & o' & g' & cs' & mn' & A1 & A2 & A3 & A4 & A5)]].
  - congruence.
  - congruence.
  - rewrite Hn in A2. destruct A5 as [(h & B1 & B2 & B3 & B4)|(P1 & P2 & P3 & P4 & P5 & P6)].
    + assert (K : kind g' = kind g) by (rewrite <- Hk; symmetry; exact (drawn_kind L raw t g' h _ (ok_cut L HL) (area_range t Hz Hv) B1 B4)).
      cbn [fst] in B2. assert (E : (o', g', cs') = (o, g, cs)) by (apply (Ho o' g' cs' mn' A1 A2); [congruence | exact K]). injection E as -> -> ->. exists h. split; assumption.
    + exfalso. assert (K : kind g = 2) by congruence. specialize (Hp P1 K). lia.
Qed.
Lemma seam_whole t : tz t <= 20 -> valid_tile t -> (prep = true -> kind g = 2 -> 10 < tz t) -> keeps_lines (l_cut L) -> kind g <> 3 ->
  Forall (strictly_inside (draw_area t)) (geom_points (outline L raw (tz t) g)) ->
  always_drawn L st t layer (to_u64 (o_id o)) (kind g) (fun vg => relative_geom (0, 0)%Z (shift_geom (tz t) (outline L raw (tz t) g)) = Some (on_the_map t vg)).
Proof.
  intros Hz Hv Hp HK H3 HI z Hs. destruct (drawn_as t Hz Hv Hp z Hs) as (buf & D & HB). exists buf. split; [exact D|]. intros Hb. destruct (HB Hb) as (vls & V & HV). exists vls. split; [exact V|].
  intros vl v Hvl Hvv Hn Hid Hk. destruct (HV vl v Hvl Hvv Hn Hid Hk) as (g' & C & R). 
  assert (K3 : kind (outline L raw (tz t) g) <> 3) by (destruct (outline_kind L raw (tz t) g) as [E|E]; rewrite E; [discriminate | exact H3]).
  apply (clip_whole _ _ _ _ HK (area_range t Hz Hv) K3 HI) in C.
  assert (E : g' = outline L raw (tz t) g). { rewrite C. destruct (outline L raw (tz t) g) as [|[|p l]|ls|ps]; try reflexivity. rewrite C in R. discriminate R. }
  rewrite E in R. exact (on_map_rel t _ _ R).
Qed.
Lemma seam_segments t : tz t <= 20 -> valid_tile t -> (prep = true -> kind g = 2 -> 10 < tz t) -> keeps_segments (l_cut L) -> kind g = 2 ->
  forall l p q, In l (lines_of (outline L raw (tz t) g)) -> adjacent p q l -> strictly_inside (draw_area t) p -> strictly_inside (draw_area t) q -> scaled (tz t) p <> scaled (tz t) q ->
  always_drawn L st t layer (to_u64 (o_id o)) 2 (fun vg => exists l', In l' (drawn_lines (on_the_map t vg)) /\ adjacent (scaled (tz t) p) (scaled (tz t) q) l').
Proof.
  intros Hz Hv Hp HK H2 l p q Hl Ha Ip Iq Hn z Hs. destruct (drawn_as t Hz Hv Hp z Hs) as (buf & D & HB). exists buf. split; [exact D|]. intros Hb. destruct (HB Hb) as (vls & V & HV). exists vls. split; [exact V|].
  intros vl v Hvl Hvv Hnm Hid Hk. rewrite <- H2 in Hk. destruct (HV vl v Hvl Hvv Hnm Hid Hk) as (g' & C & R). apply on_map_rel in R.
  destruct (outline L raw (tz t) g) as [|ps|ls|ps]; cbn [lines_of] in Hl; try destruct Hl.
  destruct (HK (draw_area t) ls g' l p q (area_range t Hz Hv) C Hl Ha) as (ls' & l' & -> & Hl' & Ha'); [congruence | exact Ip | exact Iq|].
  destruct (shift_adjacent (tz t) p q l' ls' Hz Hl' Ha' Hn) as (ls2 & l2 & E & Hl2 & Ha2). rewrite E in R. cbn [relative_geom] in R. injection R as <-. cbn [drawn_lines].
  exists l2. split; [|exact Ha2]. apply (in_map (map (rel (0, 0)%Z))) in Hl2. now rewrite map_rel_zero in Hl2.
Qed.
Lemma seam_points t : tz t <= 20 -> valid_tile t -> kind g = 1 ->
  forall p, In p (geom_points (outline L raw (tz t) g)) -> strictly_inside (draw_area t) p ->
  always_drawn L st t layer (to_u64 (o_id o)) 1 (fun vg => In (scaled (tz t) p) (drawn_points (on_the_map t vg))).
Proof.
  intros Hz Hv K1 p Hl Ip z Hs. assert (Hp : prep = true -> kind g = 2 -> 10 < tz t) by (intros _ E; rewrite E in K1; discriminate).
  destruct (drawn_as t Hz Hv Hp z Hs) as (buf & D & HB). exists buf. split; [exact D|]. intros Hb. destruct (HB Hb) as (vls & V & HV). exists vls. split; [exact V|].
  intros vl v Hvl Hvv Hnm Hid Hk. rewrite <- K1 in Hk. destruct (HV vl v Hvl Hvv Hnm Hid Hk) as (g' & C & R). apply on_map_rel in R.
  destruct (outline_kind L raw (tz t) g) as [E|E]; [rewrite E in Hl; destruct Hl|]. rewrite K1 in E.
  destruct (outline L raw (tz t) g) as [|ps|ls|ps]; try discriminate E. cbn [clip] in C. apply Ok_inj in C. cbn [geom_points] in Hl.
  assert (HI : In p (filter (within (draw_area t)) ps)) by (apply filter_In; split; [exact Hl|]; unfold strictly_inside in Ip; unfold within; lia).
  destruct (filter (within (draw_area t)) ps) as [|c r]; [destruct HI|]. subst g'. apply (transform_in (tz t) _ _ Hz) in HI. cbn [shift_geom] in R.
  destruct (transform_erase (shift_pt (tz t)) (c :: r)) as [|c2 r2]; [destruct HI|]. cbn [relative_geom] in R. injection R as <-. cbn [drawn_points]. now rewrite rel_zero, map_rel_zero.
Qed.
Lemma seam_areas t k : tz t <= 20 -> valid_tile t -> l_cut L = cut_of k -> clipper_ok k -> clips_near k -> kind g = 3 -> rings_closed (outline L raw (tz t) g) ->
  always_drawn L st t layer (to_u64 (o_id o)) 3 (fun vg => exists g', relative_geom (0, 0)%Z (shift_geom (tz t) g') = Some (on_the_map t vg) /\
    forall n c, (0 <= n)%Z -> (deep_in (n + 1) (rings_in (outline L raw (tz t) g)) c -> cell_in (n + 1) (draw_area t) c -> deep_in n (rings_in g') c) /\
      (deep_out (n + 1) (rings_in (outline L raw (tz t) g)) c -> deep_out n (rings_in g') c)).
Proof.
  intros Hz Hv HC HO HN K3 HR z Hs. assert (Hp : prep = true -> kind g = 2 -> 10 < tz t) by (intros _ E; rewrite E in K3; discriminate). destruct (drawn_as t Hz Hv Hp z Hs) as (buf & D & HB). exists buf. split; [exact D|].
  intros Hb. destruct (HB Hb) as (vls & V & HV). exists vls. split; [exact V|]. intros vl v Hvl Hvv Hn Hid Hk. rewrite <- K3 in Hk. destruct (HV vl v Hvl Hvv Hn Hid Hk) as (g' & C & R). exists g'. split; [exact (on_map_rel t _ _ R)|].
  intros n c Hn0. destruct (outline_kind L raw (tz t) g) as [E|E].
  - rewrite E in C. cbn [clip] in C. apply Ok_inj in C. subst g'. discriminate R.
  - rewrite K3 in E. destruct (outline L raw (tz t) g) as [| | |ps]; try discriminate E. cbn [clip] in C. rewrite HC in C.
    destruct (ProofClip.cut_of_region k (draw_area t) ps g' n c HO HN (area_range t Hz Hv) HR C Hn0) as (A & B & _). split; [exact A | exact B].
Qed.
End Seam.
Lemma answers_mono L st t (P Q : list vlayer -> Prop) : (forall vls, P vls -> Q vls) -> answers_with L st t P -> answers_with L st t Q.
Proof. intros H (buf & z & A & B & C). exists buf, z. split; [exact A|]. split; [exact B|]. intros Hb. destruct (C Hb) as (vls & D & E). exists vls. split; [exact D | now apply H]. Qed.
Theorem seam_same L j co fe raw prep st : libs_ok L -> job_ok L j -> history L j co fe raw prep st -> keeps_lines (l_cut L) ->
  forall o g cs layer mn, In (o, g, cs) (j_objs j) -> imported L (o, g, cs) layer mn -> layer <> coastline -> only_one L j layer o g cs -> kind g <> 3 ->
  forall z, z <= 20 -> (prep = true -> kind g = 2 -> 10 < z) ->
  exists drawing, forall t, tz t = z -> valid_tile t -> Forall (strictly_inside (draw_area t)) (geom_points (outline L raw z g)) ->
    always_drawn L st t layer (to_u64 (o_id o)) (kind g) (fun vg => on_the_map t vg = drawing).
Proof.
  intros HL HJ HH HK o g cs layer mn Hi Him Hc Ho H3 z Hz Hp. exists (match relative_geom (0, 0)%Z (shift_geom z (outline L raw z g)) with Some d => d | None => VPoints [] end).
  intros t <- Hv HI y Hs. destruct (seam_whole L j co fe raw prep st HL HJ HH o g cs layer Hc Ho t Hz Hv Hp HK H3 HI y Hs) as (buf & D & HB). exists buf. split; [exact D|]. intros Hb.
  destruct (HB Hb) as (vls & V & HV). exists vls. split; [exact V|]. intros vl v A B C E F. rewrite (HV vl v A B C E F). reflexivity.
Qed.
