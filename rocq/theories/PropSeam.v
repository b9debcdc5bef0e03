(** C88: neighbouring tiles fit together. *)
From Coq Require Import String Ascii.
From Coq Require Import List.
From Verif Require Import Base BaseProof ModelTile SpecTile ModelCodec ModelGeom SpecGeom ModelFeature ModelMvt SpecMvt ModelRender SpecRender ModelClip SpecClip SpecCoast ModelOsm SpecOsm ModelDict
  ModelServer SpecInserter ModelImport SpecImport SpecSeam ProofSeam ProofSeamShow ProofImportEx PropFinish.
From Verif Require PropRender PropImport.
Import ListNotations.
Open Scope N_scope.

(** C88: points and lines that are within the drawn areas of several tiles of a zoom level are drawn by all of them that draw them in the same place of the map *)
Theorem c88_same : forall L j co fe raw prep st, libs_ok L -> job_ok L j -> history L j co fe raw prep st -> keeps_lines (l_cut L) ->
  forall o g cs layer mn, In (o, g, cs) (j_objs j) -> imported L (o, g, cs) layer mn -> layer <> coastline -> only_one L j layer o g cs -> kind g <> 3 ->
  forall z, z <= 20 -> (prep = true -> kind g = 2 -> 10 < z) ->
  exists drawing, forall t, tz t = z -> valid_tile t -> Forall (strictly_inside (draw_area t)) (geom_points (outline L raw z g)) ->
    always_drawn L st t layer (to_u64 (o_id o)) (kind g) (fun vg => on_the_map t vg = drawing).
Proof. exact seam_same. Qed.
(** which is where they are, rounded to the pixels of the zoom level; *)
Theorem c88_place : forall L j co fe raw prep st, libs_ok L -> job_ok L j -> history L j co fe raw prep st -> keeps_lines (l_cut L) ->
  forall o g cs layer mn, In (o, g, cs) (j_objs j) -> imported L (o, g, cs) layer mn -> layer <> coastline -> only_one L j layer o g cs -> kind g <> 3 ->
  forall t, tz t <= 20 -> valid_tile t -> (prep = true -> kind g = 2 -> 10 < tz t) -> Forall (strictly_inside (draw_area t)) (geom_points (outline L raw (tz t) g)) ->
    always_drawn L st t layer (to_u64 (o_id o)) (kind g) (fun vg => relative_geom (0, 0)%Z (shift_geom (tz t) (outline L raw (tz t) g)) = Some (on_the_map t vg)).
Proof. intros L j co fe raw prep st HL HJ HH HK o g cs layer mn Hi Him Hc Ho H3 t Hz Hv Hp HI. exact (seam_whole L j co fe raw prep st HL HJ HH o g cs layer Hc Ho t Hz Hv Hp HK H3 HI). Qed.
(** of a line of any length, every segment with both ends inside the square that a tile draws is drawn by it, from pixel to pixel of the map; *)
Theorem c88_segments : forall L j co fe raw prep st, libs_ok L -> job_ok L j -> history L j co fe raw prep st -> keeps_segments (l_cut L) ->
  forall o g cs layer mn, In (o, g, cs) (j_objs j) -> imported L (o, g, cs) layer mn -> layer <> coastline -> only_one L j layer o g cs -> kind g = 2 ->
  forall t, tz t <= 20 -> valid_tile t -> (prep = true -> kind g = 2 -> 10 < tz t) ->
  forall l p q, In l (lines_of (outline L raw (tz t) g)) -> adjacent p q l -> strictly_inside (draw_area t) p -> strictly_inside (draw_area t) q -> scaled (tz t) p <> scaled (tz t) q ->
    always_drawn L st t layer (to_u64 (o_id o)) 2 (fun vg => exists l', In l' (drawn_lines (on_the_map t vg)) /\ adjacent (scaled (tz t) p) (scaled (tz t) q) l').
Proof. intros L j co fe raw prep st HL HJ HH HK o g cs layer mn Hi Him Hc Ho H2 t Hz Hv Hp. exact (seam_segments L j co fe raw prep st HL HJ HH o g cs layer Hc Ho t Hz Hv Hp HK H2). Qed.
(** and it is there, on every tile that the line's bounding box meets, from the approved zoom level on (on prepared tiles, lines are joined: C78); *)
Theorem c88_segments_shown : forall L j co raw prep st, libs_ok L -> job_ok L j -> history L j co true raw prep st -> keeps_segments (l_cut L) ->
  forall o g cs layer mn, In (o, g, cs) (j_objs j) -> imported L (o, g, cs) layer mn -> only_one L j layer o g cs -> kind g = 2 ->
  forall t, mn <= tz t -> tz t <= 20 -> valid_tile t -> (prep = true -> 10 < tz t) -> meets (tz t) t (bounding_box g) = true ->
  forall l p q, In l (lines_of (outline L raw (tz t) g)) -> adjacent p q l -> strictly_inside (draw_area t) p -> strictly_inside (draw_area t) q -> scaled (tz t) p <> scaled (tz t) q ->
    answers_with L st t (fun vls => exists vl v, In vl vls /\ In v (vl_features vl) /\ vl_name vl = layer /\ v_id v = to_u64 (o_id o) /\ shows_tags L (o, g, cs) v /\
      exists l', In l' (drawn_lines (on_the_map t (v_geom v))) /\ adjacent (scaled (tz t) p) (scaled (tz t) q) l').
Proof. exact segments_shown. Qed.
Theorem c88_points_shown : forall L j co raw prep st, libs_ok L -> job_ok L j -> history L j co true raw prep st ->
  forall o g cs layer mn, In (o, g, cs) (j_objs j) -> imported L (o, g, cs) layer mn -> only_one L j layer o g cs -> kind g = 1 ->
  forall t, mn <= tz t -> tz t <= 20 -> valid_tile t -> meets (tz t) t (bounding_box g) = true ->
  forall p, In p (geom_points g) -> strictly_inside (draw_area t) p ->
    answers_with L st t (fun vls => exists vl v, In vl vls /\ In v (vl_features vl) /\ vl_name vl = layer /\ v_id v = to_u64 (o_id o) /\ shows_tags L (o, g, cs) v /\
      In (scaled (tz t) p) (drawn_points (on_the_map t (v_geom v)))).
Proof. exact points_shown. Qed.
(** of several points, each one inside the square; *)
Theorem c88_points : forall L j co fe raw prep st, libs_ok L -> job_ok L j -> history L j co fe raw prep st ->
  forall o g cs layer mn, In (o, g, cs) (j_objs j) -> imported L (o, g, cs) layer mn -> layer <> coastline -> only_one L j layer o g cs -> kind g = 1 ->
  forall t, tz t <= 20 -> valid_tile t -> forall p, In p (geom_points (outline L raw (tz t) g)) -> strictly_inside (draw_area t) p ->
    always_drawn L st t layer (to_u64 (o_id o)) 1 (fun vg => In (scaled (tz t) p) (drawn_points (on_the_map t vg))).
Proof. intros L j co fe raw prep st HL HJ HH o g cs layer mn Hi Him Hc Ho H1 t Hz Hv. exact (seam_points L j co fe raw prep st HL HJ HH o g cs layer Hc Ho t Hz Hv H1). Qed.
(** areas, of any size: each tile rounds the same area to its pixels, inside the square it draws, up to one level 20 pixel at the border of the area or the square. *)
Theorem c88_areas : forall L j co fe raw prep st k, libs_ok L -> job_ok L j -> history L j co fe raw prep st -> l_cut L = cut_of k -> clipper_ok k -> clips_near k ->
  forall o g cs layer mn, In (o, g, cs) (j_objs j) -> imported L (o, g, cs) layer mn -> layer <> coastline -> only_one L j layer o g cs -> kind g = 3 ->
  forall t, tz t <= 20 -> valid_tile t -> rings_closed (outline L raw (tz t) g) ->
    always_drawn L st t layer (to_u64 (o_id o)) 3 (fun vg => exists g', relative_geom (0, 0)%Z (shift_geom (tz t) g') = Some (on_the_map t vg) /\
      forall n c, (0 <= n)%Z -> (deep_in (n + 1) (rings_in (outline L raw (tz t) g)) c -> cell_in (n + 1) (draw_area t) c -> deep_in n (rings_in g') c) /\
        (deep_out (n + 1) (rings_in (outline L raw (tz t) g)) c -> deep_out n (rings_in g') c)).
Proof.
  intros L j co fe raw prep st k HL HJ HH HC HO HN o g cs layer mn Hi Him Hc Ho H3 t Hz Hv HR. exact (seam_areas L j co fe raw prep st HL HJ HH o g cs layer Hc Ho t k Hz Hv HC HO HN H3 HR).
Qed.
Print Assumptions c88_same.
Print Assumptions c88_place.
Print Assumptions c88_segments.
Print Assumptions c88_points.
Print Assumptions c88_segments_shown.
Print Assumptions c88_points_shown.
Print Assumptions c88_areas.

(** the road of the example import crosses the border of two tiles of zoom level 19 *)
Example c88_ex_keeps : keeps_lines (l_cut ex_libs).
Proof.
  intros b ls _ H. cbn [ex_libs l_cut]. unfold PropRender.c52_cut. replace (PropRender.c52_inside b (GLine ls) && true) with true; [reflexivity|]. symmetry. rewrite Bool.andb_true_r.
  unfold PropRender.c52_inside. apply forallb_forall. intros p Hp. apply (proj1 (Forall_forall _ _) H) in Hp. unfold strictly_inside in Hp. lia.
Qed.
Definition c88_drawing : vgeom := VLines [[(1075850000, 1075850000); (1075850050, 1075850450); (1075850550, 1075851450); (1075852050, 1075851000); (1075852550, 1075853950)]]%Z.
Example c88_ex : forall st, history ex_libs c61_job true true false true st ->
  answers_with ex_libs st (Tile 262658 262659 19) (fun vls => exists vl v, In vl vls /\ In v (vl_features vl) /\ vl_name vl = lit "road" /\ v_id v = 7 /\ vkind (v_geom v) = 2) /\
  answers_with ex_libs st (Tile 262659 262659 19) (fun vls => exists vl v, In vl vls /\ In v (vl_features vl) /\ vl_name vl = lit "road" /\ v_id v = 7 /\ vkind (v_geom v) = 2) /\
  always_drawn ex_libs st (Tile 262658 262659 19) (lit "road") 7 2 (fun vg => on_the_map (Tile 262658 262659 19) vg = c88_drawing) /\
  always_drawn ex_libs st (Tile 262659 262659 19) (lit "road") 7 2 (fun vg => on_the_map (Tile 262659 262659 19) vg = c88_drawing).
Proof.
  intros st H. assert (HO : only_one ex_libs c61_job (lit "road") (fst (fst c61_road)) (snd (fst c61_road)) (snd c61_road)).
  { intros o' h cs' mn' [Hi|[Hi|[Hi|[]]]] Him Eo Ek; [now symmetry | injection Hi as <- <- <-; discriminate Eo | injection Hi as <- <- <-; discriminate Eo]. }
  assert (HA : forall t, t = Tile 262658 262659 19 \/ t = Tile 262659 262659 19 ->
    answers_with ex_libs st t (fun vls => exists vl v, In vl vls /\ In v (vl_features vl) /\ vl_name vl = lit "road" /\ v_id v = 7 /\ vkind (v_geom v) = 2) /\
    always_drawn ex_libs st t (lit "road") 7 2 (fun vg => on_the_map t vg = c88_drawing)).
  { intros t Ht. assert (HT : tz t <= 20 /\ valid_tile t) by (destruct Ht as [-> | ->]; (split; [discriminate | split; vm_compute; reflexivity])). destruct HT as [Hz Hv]. split.
    - eapply answers_mono; [|apply (PropImport.c62_object_shown ex_libs c61_job true false true st ex_libs_ok c61_ex_job H t (fst (fst c61_road)) (snd (fst c61_road)) (snd c61_road) (lit "road") 6 (snd (fst c61_road)) Hz Hv)].
      + intros vls (vl & v & A & B & C & D1 & _ & D3). exists vl, v. split; [exact A|]. split; [exact B|]. split; [exact C|]. split; [exact D1|]. rewrite (rel_kind _ _ _ D3). destruct Ht as [-> | ->]; vm_compute; reflexivity.
      + left; reflexivity.
      + apply c61_road_ok.
      + discriminate.
      + exact HO.
      + destruct Ht as [-> | ->]; discriminate.
      + destruct Ht as [-> | ->]; vm_compute; reflexivity.
      + destruct Ht as [-> | ->]; vm_compute; reflexivity.
      + destruct Ht as [-> | ->]; vm_compute; discriminate.
      + intros _ Hz'. destruct Ht as [-> | ->]; vm_compute in Hz'; now destruct Hz'.
    - intros y Hs. destruct (c88_place ex_libs c61_job true true false true st ex_libs_ok c61_ex_job H c88_ex_keeps (fst (fst c61_road)) (snd (fst c61_road)) (snd c61_road) (lit "road") 6) with (t := t) (z := y) as (buf & D & HB).
      + left; reflexivity.
      + apply c61_road_ok.
      + discriminate.
      + exact HO.
      + discriminate.
      + exact Hz.
      + exact Hv.
      + intros _ _. destruct Ht as [-> | ->]; reflexivity.
      + destruct Ht as [-> | ->]; repeat apply Forall_cons; try apply Forall_nil; split; split; vm_compute; reflexivity.
      + exact Hs.
      + exists buf. split; [exact D|]. intros Hb. destruct (HB Hb) as (vls & V & HV). exists vls. split; [exact V|]. intros vl v A B C E F.
        specialize (HV vl v A B C E F). assert (EZ : tz t = 19) by (destruct Ht as [-> | ->]; reflexivity). rewrite EZ in HV. vm_compute in HV. injection HV as HV. symmetry. exact HV. }
  destruct (HA _ (or_introl eq_refl)) as [A1 A2]. destruct (HA _ (or_intror eq_refl)) as [B1 B2]. auto.
Qed.

(** a cut that keeps the parts of lines that are inside *)
Fixpoint inside_runs (b : fbox) (cur l : line) : list line :=
  match l with [] => [cur] | p :: l' => if PropRender.c52_inside b (GPoint [p]) then inside_runs b (cur ++ [p]) l' else cur :: inside_runs b [] l' end.
Definition run_cut (b : fbox) (g : geom) : res geom :=
  match g with
  | GLine ls => Ok (match filter (fun l => (2 <=? length l)%nat) (flat_map (inside_runs b []) ls) with [] => GNull | ls' => GLine ls' end)
  | _ => PropRender.c52_cut b g
  end.
Lemma runs_first b : forall l cur, exists e rest, inside_runs b cur l = (cur ++ e) :: rest.
Proof.
  induction l as [|p l IH]; intros cur; cbn [inside_runs].
  - exists [], []. now rewrite app_nil_r.
  - destruct (PropRender.c52_inside b (GPoint [p])).
    + destruct (IH (cur ++ [p])) as (e & r & E). exists (p :: e), r. rewrite E. now rewrite <- app_assoc.
    + exists [], (inside_runs b [] l). now rewrite app_nil_r.
Qed.
Lemma runs_adjacent b p q y : PropRender.c52_inside b (GPoint [p]) = true -> PropRender.c52_inside b (GPoint [q]) = true ->
  forall a cur, exists r, In r (inside_runs b cur (a ++ p :: q :: y)) /\ adjacent p q r.
Proof.
  intros Hp Hq. induction a as [|c a IH]; intros cur; cbn [app inside_runs].
  - rewrite Hp, Hq. destruct (runs_first b y ((cur ++ [p]) ++ [q])) as (e & r & E). rewrite E. eexists. split; [now left|]. exists cur, e. rewrite <- !app_assoc. reflexivity.
  - destruct (PropRender.c52_inside b (GPoint [c])); [apply IH|]. destruct (IH []) as (r & A & B). exists r. split; [now right | exact B].
Qed.
Lemma runs_in b p : forall l cur r, (forall x, In x cur -> PropRender.c52_inside b (GPoint [x]) = true) -> In r (inside_runs b cur l) -> In p r -> PropRender.c52_inside b (GPoint [p]) = true.
Proof.
  induction l as [|c l IH]; intros cur r H Hr Hp; cbn [inside_runs] in Hr.
  - destruct Hr as [<-|[]]. now apply H.
  - destruct (PropRender.c52_inside b (GPoint [c])) eqn:E.
    + refine (IH (cur ++ [c]) r _ Hr Hp). intros x Hx. apply in_app_or in Hx as [Hx|[<-|[]]]; auto.
    + destruct Hr as [<-|Hr]; [now apply H|]. refine (IH [] r _ Hr Hp). intros x [].
Qed.
Lemma inside_one b p : PropRender.c52_inside b (GPoint [p]) = true <-> (bminx b <= fst p <= bmaxx b /\ bminy b <= snd p <= bmaxy b)%Z.
Proof. unfold PropRender.c52_inside. cbn [geom_points forallb]. rewrite Bool.andb_true_r, !Bool.andb_true_iff, !Z.leb_le. tauto. Qed.
Example c88_ex_segments : keeps_segments run_cut.
Proof.
  intros b ls g' l p q _ H Hl (x & y & ->) _ Ip Iq. unfold strictly_inside in *. cbn [run_cut] in H. apply Ok_inj in H.
  destruct (runs_adjacent b p q y) with (a := x) (cur := @nil pt) as (r & Hr & Ha); [apply inside_one; lia | apply inside_one; lia|].
  assert (HI : In r (filter (fun l => (2 <=? length l)%nat) (flat_map (inside_runs b []) ls))).
  { apply filter_In. split; [apply in_flat_map; eauto|]. destruct Ha as (a & c & ->). rewrite app_length. cbn [length]. apply Nat.leb_le. lia. }
  destruct (filter _ _) as [|f fs]; [destruct HI|]. eexists _, _. split; [symmetry; exact H|]. split; [exact HI | exact Ha].
Qed.
Example c88_ex_cut : cut_ok run_cut /\ cuts_areas run_cut /\ keeps_square run_cut.
Proof.
  destruct PropRender.c52_ex_cut as (A & B & C). split; [|split; [|exact C]].
  - intros b g g' Hb H. destruct g as [|ps|ls|ps]; [exact (A b GNull g' Hb H) | exact (A b (GPoint ps) g' Hb H) | | exact (A b (GPoly ps) g' Hb H)]. cbn [run_cut] in H. apply Ok_inj in H.
    destruct (filter _ _) as [|f fs] eqn:E; subst g'; [split; [constructor|]; split; [exact I | now left]|]. split; [|split; [exact I | now right]].
    unfold geom_in. apply Forall_forall. intros p Hp. cbn [geom_points] in Hp. apply in_concat in Hp as (l & Hl & Hp). rewrite <- E in Hl. apply filter_In in Hl as [Hl _]. apply in_flat_map in Hl as (l0 & _ & Hl).
    apply (runs_in b p l0 [] l) in Hl; [|intros x [] | exact Hp]. apply inside_one in Hl. lia.
  - intros b g Hb Hg. destruct g as [|ps|ls|ps]; [exact (B b GNull Hb Hg) | exact (B b (GPoint ps) Hb Hg) | | exact (B b (GPoly ps) Hb Hg)]. cbn [run_cut]. eauto.
Qed.
Definition ex_libs2 : libs := {|
  l_ccut := l_ccut ex_libs; l_cdiff := l_cdiff ex_libs; l_fix_rings := l_fix_rings ex_libs; l_stod := l_stod ex_libs; l_dbl := l_dbl ex_libs; l_oarea := l_oarea ex_libs;
  l_msort := l_msort ex_libs; l_dsort := l_dsort ex_libs; l_take := l_take ex_libs; l_psort := l_psort ex_libs; l_isort := l_isort ex_libs; l_qsort := l_qsort ex_libs;
  l_possort := l_possort ex_libs; l_recsort := l_recsort ex_libs; l_tasksort := l_tasksort ex_libs; l_mk := l_mk ex_libs; l_rd := l_rd ex_libs;
  l_deflate := l_deflate ex_libs; l_cut := run_cut; l_area := l_area ex_libs; l_aggregate := l_aggregate ex_libs; l_threads := l_threads ex_libs |}.
Example c88_ex_libs : libs_ok ex_libs2.
Proof. destruct ex_libs_ok, c88_ex_cut as (A & B & C). constructor; assumption. Qed.
(** the road of the example import at zoom level 20: a tile draws the one segment it contains, though the road goes on *)
Example c88_ex_part : forall st, history ex_libs2 c61_job true true false true st ->
  ~ Forall (strictly_inside (draw_area (Tile 525317 525317 20))) (geom_points (snd (fst c61_road))) /\
  always_drawn ex_libs2 st (Tile 525317 525317 20) (lit "road") 7 2 (fun vg => exists l', In l' (drawn_lines (on_the_map (Tile 525317 525317 20) vg)) /\ adjacent (2151701100, 2151702900)%Z (2151704100, 2151702000)%Z l').
Proof.
  intros st H. split.
  { intros HF. apply (proj1 (Forall_forall _ _)) with (x := (2151705100, 2151707900)%Z) in HF; [|vm_compute; tauto]. destruct HF as [_ [_ HF]]. vm_compute in HF. discriminate HF. }
  assert (HJ : job_ok ex_libs2 c61_job) by exact c61_ex_job.
  exact (c88_segments ex_libs2 c61_job true true false true st c88_ex_libs HJ H c88_ex_segments (fst (fst c61_road)) (snd (fst c61_road)) (snd c61_road) (lit "road") 6
    (or_introl eq_refl) ltac:(apply c61_road_ok) ltac:(discriminate)
    ltac:(intros o' h cs' mn' [Hi|[Hi|[Hi|[]]]] Him Eo Ek; [now symmetry | injection Hi as <- <- <-; discriminate Eo | injection Hi as <- <- <-; discriminate Eo])
    eq_refl (Tile 525317 525317 20) ltac:(discriminate) ltac:(split; vm_compute; reflexivity) ltac:(intros _ _; reflexivity)
    [(2151700000, 2151700000); (2151700100, 2151700900); (2151701100, 2151702900); (2151704100, 2151702000); (2151705100, 2151707900)]%Z (2151701100, 2151702900)%Z (2151704100, 2151702000)%Z
    ltac:(vm_compute; tauto) (ex_intro _ [(2151700000, 2151700000); (2151700100, 2151700900)]%Z (ex_intro _ [(2151705100, 2151707900)]%Z eq_refl))
    ltac:(repeat split; vm_compute; reflexivity) ltac:(repeat split; vm_compute; reflexivity) ltac:(vm_compute; discriminate)).
Qed.
Example c88_ex_part_shown : forall st, history ex_libs2 c61_job true true false true st ->
  answers_with ex_libs2 st (Tile 525317 525317 20) (fun vls => exists vl v, In vl vls /\ In v (vl_features vl) /\ vl_name vl = lit "road" /\ v_id v = 7 /\ shows_tags ex_libs2 c61_road v /\
    exists l', In l' (drawn_lines (on_the_map (Tile 525317 525317 20) (v_geom v))) /\ adjacent (2151701100, 2151702900)%Z (2151704100, 2151702000)%Z l').
Proof.
  intros st H. assert (HJ : job_ok ex_libs2 c61_job) by exact c61_ex_job.
  exact (c88_segments_shown ex_libs2 c61_job true false true st c88_ex_libs HJ H c88_ex_segments (fst (fst c61_road)) (snd (fst c61_road)) (snd c61_road) (lit "road") 6
    (or_introl eq_refl) ltac:(apply c61_road_ok)
    ltac:(intros o' h cs' mn' [Hi|[Hi|[Hi|[]]]] Him Eo Ek; [now symmetry | injection Hi as <- <- <-; discriminate Eo | injection Hi as <- <- <-; discriminate Eo])
    eq_refl (Tile 525317 525317 20) ltac:(discriminate) ltac:(discriminate) ltac:(split; vm_compute; reflexivity) ltac:(intros _; reflexivity) ltac:(vm_compute; reflexivity)
    [(2151700000, 2151700000); (2151700100, 2151700900); (2151701100, 2151702900); (2151704100, 2151702000); (2151705100, 2151707900)]%Z (2151701100, 2151702900)%Z (2151704100, 2151702000)%Z
    ltac:(vm_compute; tauto) (ex_intro _ [(2151700000, 2151700000); (2151700100, 2151700900)]%Z (ex_intro _ [(2151705100, 2151707900)]%Z eq_refl))
    ltac:(repeat split; vm_compute; reflexivity) ltac:(repeat split; vm_compute; reflexivity) ltac:(vm_compute; discriminate)).
Qed.
