(** What is within the square of a tile is drawn. *)
From Coq Require Import List.
From Verif Require Import Base BaseProof ModelTile SpecTile ModelCodec ModelGeom SpecGeom ModelFeature SpecFeature ModelMvt SpecMvt ModelRender SpecRender ModelClip SpecClip SpecCoast ModelDict ModelOsm SpecOsm SpecInserter ModelServer ModelImport SpecImport SpecSeam ProofSeam ProofRender.
From Verif Require PropImport.
Import ListNotations.
Open Scope N_scope.

Lemma filter_some {A} (f : A -> bool) l x : In x l -> f x = true -> filter f l <> [].
Proof. intros H1 H2 E. assert (H : In x (filter f l)) by now apply filter_In. rewrite E in H. destruct H. Qed.
Theorem segments_shown L j co raw prep st : libs_ok L -> job_ok L j -> history L j co true raw prep st -> keeps_segments (l_cut L) ->
  forall o g cs layer mn, In (o, g, cs) (j_objs j) -> imported L (o, g, cs) layer mn -> only_one L j layer o g cs -> kind g = 2 ->
  forall t, mn <= tz t -> tz t <= 20 -> valid_tile t -> (prep = true -> 10 < tz t) -> meets (tz t) t (bounding_box g) = true ->
  forall l p q, In l (lines_of (outline L raw (tz t) g)) -> adjacent p q l -> strictly_inside (draw_area t) p -> strictly_inside (draw_area t) q -> scaled (tz t) p <> scaled (tz t) q ->
    answers_with L st t (fun vls => exists vl v, In vl vls /\ In v (vl_features vl) /\ vl_name vl = layer /\ v_id v = to_u64 (o_id o) /\ shows_tags L (o, g, cs) v /\
      exists l', In l' (drawn_lines (on_the_map t (v_geom v))) /\ adjacent (scaled (tz t) p) (scaled (tz t) q) l').
Proof.
  intros HL HJ HH HK o g cs layer mn Hi Him Ho H2 t Hmn Hz Hv Hp HM l p q Hl Ha Ip Iq Hn.
  destruct (outline L raw (tz t) g) as [|ps|ls|ps] eqn:EO; cbn [lines_of] in Hl; try destruct Hl.
  destruct (ok_cut_areas L HL (draw_area t) (GLine ls) (area_range t Hz Hv) I) as [g' C].
  destruct (HK (draw_area t) ls g' l p q (area_range t Hz Hv) C Hl Ha) as (ls' & l' & -> & Hl' & Ha'); [congruence | exact Ip | exact Iq|].
  destruct (shift_adjacent (tz t) p q l' ls' Hz Hl' Ha' Hn) as (ls2 & l2 & E & Hl2 & Ha2).
  assert (A : answers_with L st t (fun vls => exists vl v, In vl vls /\ In v (vl_features vl) /\ vl_name vl = layer /\ shows_object L t (o, g, cs) (GLine ls') v)).
  { apply (PropImport.c62_object_shown L j co raw prep st HL HJ HH t o g cs layer mn (GLine ls') Hz Hv Hi Him); [intros _; rewrite H2; discriminate | exact Ho | exact Hmn | exact HM | | rewrite E; discriminate |].
    - rewrite EO. exact C.
    - intros E1 Hz1. specialize (Hp E1). lia. }
  eapply answers_mono; [|exact A]. intros vls (vl & v & A1 & A2 & A3 & A4 & A5 & A6). exists vl, v. split; [exact A1|]. split; [exact A2|]. split; [exact A3|]. split; [exact A4|]. split; [exact A5|].
  apply on_map_rel in A6. rewrite E in A6. cbn [relative_geom] in A6. injection A6 as <-. cbn [drawn_lines]. exists l2. split; [|exact Ha2]. apply (in_map (map (rel (0, 0)%Z))) in Hl2. now rewrite map_rel_zero in Hl2.
Qed.
Theorem points_shown L j co raw prep st : libs_ok L -> job_ok L j -> history L j co true raw prep st ->
  forall o g cs layer mn, In (o, g, cs) (j_objs j) -> imported L (o, g, cs) layer mn -> only_one L j layer o g cs -> kind g = 1 ->
  forall t, mn <= tz t -> tz t <= 20 -> valid_tile t -> meets (tz t) t (bounding_box g) = true ->
  forall p, In p (geom_points g) -> strictly_inside (draw_area t) p ->
    answers_with L st t (fun vls => exists vl v, In vl vls /\ In v (vl_features vl) /\ vl_name vl = layer /\ v_id v = to_u64 (o_id o) /\ shows_tags L (o, g, cs) v /\
      In (scaled (tz t) p) (drawn_points (on_the_map t (v_geom v)))).
Proof.
  intros HL HJ HH o g cs layer mn Hi Him Ho H1 t Hmn Hz Hv HM p Hl Ip.
  destruct g as [|ps|ls|ps]; try discriminate H1. cbn [geom_points] in Hl.
  assert (EO : outline L raw (tz t) (GPoint ps) = GPoint ps) by (unfold outline; destruct raw; reflexivity).
  assert (HI : In p (filter (within (draw_area t)) ps)) by (apply filter_In; split; [exact Hl|]; unfold strictly_inside in Ip; unfold within; lia).
  assert (C : exists ps', clip (l_cut L) (draw_area t) (outline L raw (tz t) (GPoint ps)) = Ok (GPoint ps') /\ In p ps').
  { rewrite EO. cbn [clip]. destruct (filter (within (draw_area t)) ps) as [|c r]; [destruct HI|]. eexists. split; [reflexivity | exact HI]. }
  destruct C as (ps' & C & HI'). apply (transform_in (tz t) _ _ Hz) in HI'.
  assert (E : exists ps2, shift_geom (tz t) (GPoint ps') = GPoint ps2 /\ In (scaled (tz t) p) ps2).
  { cbn [shift_geom]. destruct (transform_erase (shift_pt (tz t)) ps') as [|c2 r2]; [destruct HI'|]. eexists. split; [reflexivity | exact HI']. }
  destruct E as (ps2 & E & HI2).
  assert (A : answers_with L st t (fun vls => exists vl v, In vl vls /\ In v (vl_features vl) /\ vl_name vl = layer /\ shows_object L t (o, GPoint ps, cs) (GPoint ps') v)).
  { apply (PropImport.c62_object_shown L j co raw prep st HL HJ HH t o (GPoint ps) cs layer mn (GPoint ps') Hz Hv Hi Him); [discriminate | exact Ho | exact Hmn | exact HM | exact C | rewrite E; discriminate |].
    intros _ _. split; discriminate. }
  eapply answers_mono; [|exact A]. intros vls (vl & v & A1 & A2 & A3 & A4 & A5 & A6). exists vl, v. split; [exact A1|]. split; [exact A2|]. split; [exact A3|]. split; [exact A4|]. split; [exact A5|].
  apply on_map_rel in A6. rewrite E in A6. cbn [relative_geom] in A6. injection A6 as <-. cbn [drawn_points]. now rewrite map_rel_zero.
Qed.
