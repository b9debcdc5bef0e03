(** Proofs about the coastline import: what is drawn. *)
From Coq Require Import Permutation.
From Verif Require Import Base BaseProof ModelTile SpecTile ProofTile ModelCodec ModelGeom SpecGeom ModelFeature ModelMvt ModelRender
  ModelQuadTree SpecQuadTree ProofQuadTree ModelPacker SpecPacker ProofBestTile SpecBqTree SpecRender ProofRender ModelDrain SpecDrain
  ModelCoast SpecCoast ProofCoast ProofCoastRun.
Open Scope Z_scope.

Section Fill.
Variable cut : list line -> line -> res (list line).
Variable diff : line -> list line -> list pnode.
Variable fix_rings : list poly -> list poly.
Hypothesis W : clips_well cut diff fix_rings.
Notation proc := (coast_proc cut diff fix_rings).
Notation entry := ((tile * feature) + tile)%type.

Lemma outs_out n cs c : Forall (fun co => deep_out n (co_geo co) c) cs -> deep_out n (flat_map co_geo cs) c.
Proof.
  intros F d Hd. induction F as [|co cs H F IH]; cbn [flat_map]; [reflexivity|]. rewrite inside_app, IH, (H d Hd). reflexivity.
Qed.
Lemma area_wf t : (tz t <= 20)%N -> bminx (draw_area t) < bmaxx (draw_area t) /\ bminy (draw_area t) < bmaxy (draw_area t).
Proof.
  intros Hz. unfold draw_area, tile_area. cbn [bminx bminy bmaxx bmaxy]. assert (HP : (0 < 2 ^ (20 - Z.of_N (tz t)))%Z) by (apply Z.pow_pos_nonneg; lia).
  generalize dependent (2 ^ (20 - Z.of_N (tz t))). intros; nia.
Qed.

Lemma kept_out n ins drw cs os c : 0 <= n -> Forall2 (kept_as cut ins drw) cs os -> Forall (fun co => deep_out (n + 1) (co_geo co) c) cs ->
  Forall (fun co => deep_out n (co_geo co) c) (flat_map opt_list os).
Proof.
  intros Hn. induction 1 as [|co o cs os K F IH]; intros D; cbn [flat_map]; [apply Forall_nil|]. inversion D as [|? ? D1 D2]; subst.
  apply Forall_app. split; [|apply IH, D2]. inversion K as [|? ?|E|geo E Hg]; subst; cbn [opt_list]; [apply Forall_nil| |apply Forall_nil|].
  - apply Forall_cons; [|apply Forall_nil]. eapply deep_out_less; [|exact D1]. lia.
  - apply Forall_cons; [|apply Forall_nil]. cbn [co_geo]. exact (cut_out _ _ _ W _ _ _ _ _ E Hn D1).
Qed.

(** ** sea *)
Definition shows (v : tile) (c : cell) (e : entry) : Prop :=
  match e with inr z => covers z v | inl (w, f) => w = v /\ inside (rings_of f) c = true end.
Definition sea_shown (t : tile) (cs : list coast) (l : list entry) : Prop :=
  forall v c, tz v = 10%N -> covers t v -> cell_in 1 (tile_area v) c -> Forall (fun co => deep_out (12 - Z.of_N (tz t)) (co_geo co) c) cs ->
  exists e, In e l /\ shows v c e.

Lemma rings_same id p sol c : to_fixed_polygons [] sol = Ok p ->
  inside (rings_of (Feature id kLayerCoastlineIdx 0 (kMaxZoomLevel + 1) [] (GPoly (fix_rings p)))) c = inside (flat_map node_paths sol) c.
Proof. intros H. unfold rings_of. cbn [f_geom]. rewrite (fix_same _ _ _ W). now apply polygons_inside. Qed.

Lemma task_sea gs : no_exception cut diff fix_rings gs -> forall t cs l, (4 <= tz t <= 9)%N -> valid_tile t ->
  task_reached cut diff fix_rings gs (t, cs) -> gives proc (OTask (t, cs)) l -> sea_shown t cs l.
Proof.
  intros NE t cs l. apply (task_induction cut diff fix_rings gs NE sea_shown). clear -W. intros t cs lss Hz Hv F v c Hv10 HC Hc D.
  destruct (below_child t v HC ltac:(intros ->; lia)) as (i & Hi & Hci).
  assert (In (child t i) (direct_children t)) as Hin by (apply in_children; eauto).
  destruct (Forall2_in_l _ _ _ _ F Hin) as (l & Hl & R). clear F.
  assert (HH : exists e, In e l /\ shows v c e).
  2: { destruct HH as (e & He & Se). exists e. split; [|exact Se]. apply in_concat. exists l. split; assumption. }
  assert (Hzc : tz (child t i) = (tz t + 1)%N) by reflexivity.
  assert (Hvc : valid_tile (child t i)) by (now apply valid_child). set (ch := child t i) in *. clearbody ch. clear Hin Hl lss i Hi.
  assert (Hcc : cell_in 0 (tile_area ch) c) by (eapply cell_weaken; [|apply (cell_covers 1 c ch v); [lia|exact Hci|lia|exact Hc]]; lia).
  replace (12 - Z.of_N (tz t)) with ((11 - Z.of_N (tz t)) + 1) in D by lia.
  inversion R as [Em|Em|ms ? Em Hm Hz1 HP|ms id Em Hm Hz1 Hid Hf|ms id f Em Hm Hz1 Hid Hf]; subst.
  - exfalso. destruct (match_none _ _ _ _ Em) as (co & geo & Ico & Eg & Ef). pose proof (proj1 (Forall_forall _ _) D _ Ico) as Dc. cbn beta in Dc.
    pose proof (cut_out _ _ _ W _ _ _ (11 - Z.of_N (tz t)) _ Eg ltac:(lia) Dc) as Dg. apply deep_out_here in Dg; [|lia].
    pose proof (cut_clean _ _ _ W _ _ _ Eg) as Cl. destruct (fully_spec _ _ Ef) as (q & -> & Hq & Hin). inversion Cl as [|? ? Cq _]; subst.
    destruct (area_wf ch ltac:(lia)) as [A1 A2]. rewrite (corner_path _ q c A1 A2 Cq Hq Hin) in Dg.
    rewrite (proj2 (cell_inb_spec _ _)) in Dg; [discriminate Dg|]. apply cell_draw; [lia|exact Hcc].
  - exists (inr ch). split; [left; reflexivity|exact Hci].
  - destruct (match_some _ _ _ _ _ Em) as (os & F & ->). apply (HP v c Hv10 Hci Hc). rewrite Hzc. replace (12 - Z.of_N (tz t + 1)) with (11 - Z.of_N (tz t)) by lia.
    eapply kept_out; [|exact F|exact D]. lia.
  - exfalso. destruct (match_some _ _ _ _ _ Em) as (os & F & Ems). pose proof (kept_out (11 - Z.of_N (tz t)) _ _ _ _ c ltac:(lia) F D) as Dm. rewrite <- Ems in Dm. replace (11 - Z.of_N (tz t)) with (1 + 1) in Dm by lia.
    destruct (finalize_cases _ _ _ _ _ _ _ _ Hf) as (_ & r & Er & [[-> _]|(_ & p & _ & E)]); [|discriminate E].
    pose proof (diff_in _ _ _ W (draw_area ch) _ 1 c ltac:(lia) ltac:(apply cell_draw; [lia|exact Hcc]) (outs_out _ _ _ Dm)) as Di.
    assert (E : ch = v) by (apply covers_same_z; [exact Hci|lia]). subst ch.
    pose proof (cut_in _ _ _ W _ _ _ 0 c Er ltac:(lia) Di Hc) as Dr. apply deep_in_here in Dr; [|lia]. discriminate Dr.
  - exists (inl (ch, f)). split; [left; reflexivity|]. destruct (match_some _ _ _ _ _ Em) as (os & F & Ems). pose proof (kept_out (11 - Z.of_N (tz t)) _ _ _ _ c ltac:(lia) F D) as Dm. rewrite <- Ems in Dm. replace (11 - Z.of_N (tz t)) with (1 + 1) in Dm by lia.
    destruct (finalize_cases _ _ _ _ _ _ _ _ Hf) as (_ & r & Er & [[-> E]|(_ & p & Ep & E)]); [discriminate E|]. injection E as ->.
    pose proof (diff_in _ _ _ W (draw_area ch) _ 1 c ltac:(lia) ltac:(apply cell_draw; [lia|exact Hcc]) (outs_out _ _ _ Dm)) as Di.
    split; [apply covers_same_z; [exact Hci|lia]|]. rewrite (rings_same _ _ _ _ Ep). exact (deep_in_here 1 _ _ ltac:(lia) Di).
Qed.

(** ** land *)
Definition one_in (n : Z) (cs : list coast) (c : cell) : Prop :=
  exists c1 p c2, cs = c1 ++ p :: c2 /\ deep_in n (co_geo p) c /\ (inside (co_geo p) c = true -> cell_in 0 (co_box p) c) /\
    Forall (fun co => deep_out n (co_geo co) c) (c1 ++ c2).
Lemma kept_in n t cs os c : 0 <= n <= 4095 -> cell_in 0 (tile_area t) c -> Forall2 (kept_as cut (tile_area t) (draw_area t)) cs os -> one_in (n + 1) cs c ->
  one_in n (flat_map opt_list os) c.
Proof.
  intros Hn Hc F (c1 & p & c2 & -> & Di & Hb & Do). apply Forall2_app_inv_l in F as (o1 & o & F1 & F2 & ->). inversion F2 as [|? oc ? o2 K F2']; subst.
  apply Forall_app in Do as [Do1 Do2].
  assert (H : exists q, oc = Some q /\ deep_in n (co_geo q) c /\ (inside (co_geo q) c = true -> cell_in 0 (co_box q) c)).
  { inversion K as [Ef|? ?|E|geo E Hg]; subst.
    - exfalso. specialize (Hb (deep_in_here (n + 1) _ _ ltac:(lia) Di)). unfold coast_touches, cell_in in *. lia.
    - exists p. split; [reflexivity|]. split; [eapply deep_in_less; [|exact Di]; lia|exact Hb].
    - exfalso. pose proof (cut_in _ _ _ W _ _ _ n c E ltac:(lia) Di ltac:(apply cell_draw; [lia|exact Hc])) as Dr. apply deep_in_here in Dr; [discriminate Dr|lia].
    - eexists. split; [reflexivity|]. cbn [co_geo co_box]. split; [|apply inside_box].
      exact (cut_in _ _ _ W _ _ _ n c E ltac:(lia) Di ltac:(apply cell_draw; [lia|exact Hc])). }
  destruct H as (q & -> & Hq1 & Hq2). exists (flat_map opt_list o1), q, (flat_map opt_list o2). split; [rewrite flat_map_app; reflexivity|]. split; [exact Hq1|]. split; [exact Hq2|].
  apply Forall_app. split; [apply (kept_out n _ _ _ _ c ltac:(lia) F1 Do1)|apply (kept_out n _ _ _ _ c ltac:(lia) F2' Do2)].
Qed.
Lemma one_deep n cs c : one_in n cs c -> deep_in n (flat_map co_geo cs) c.
Proof.
  intros (c1 & p & c2 & -> & Di & _ & Do) d Hd. apply Forall_app in Do as [Do1 Do2]. rewrite flat_map_app. cbn [flat_map]. rewrite !inside_app, (Di d Hd), (outs_out _ _ _ Do1 d Hd), (outs_out _ _ _ Do2 d Hd). reflexivity.
Qed.

Definition hides (v : tile) (c : cell) (e : entry) : Prop :=
  match e with inr z => ~ covers z v | inl (w, f) => w = v -> inside (rings_of f) c = false end.
Definition land_hidden (t : tile) (cs : list coast) (l : list entry) : Prop :=
  Forall (fun e => covers t (etile e)) l /\
  forall v c, tz v = 10%N -> covers t v -> cell_in 0 (tile_area v) c -> one_in (12 - Z.of_N (tz t)) cs c -> Forall (hides v c) l.
Lemma hides_other t v c e : ~ covers t v -> covers t (etile e) -> hides v c e.
Proof.
  intros N C. destruct e as [[w f]|z]; cbn [hides etile fst] in *; [intros ->; contradiction|]. intros H. apply N. eapply covers_trans; eassumption.
Qed.
Lemma task_land gs : no_exception cut diff fix_rings gs -> forall t cs l, (4 <= tz t <= 9)%N -> valid_tile t ->
  task_reached cut diff fix_rings gs (t, cs) -> gives proc (OTask (t, cs)) l -> land_hidden t cs l.
Proof.
  intros NE t cs l. apply (task_induction cut diff fix_rings gs NE land_hidden). clear -W. intros t cs lss Hz Hv F.
  assert (HC : forall ch l, In ch (direct_children t) -> In l lss -> child_result cut diff fix_rings land_hidden cs ch l ->
    Forall (fun e => covers ch (etile e)) l /\ forall v c, tz v = 10%N -> covers ch v -> cell_in 0 (tile_area v) c -> one_in (12 - Z.of_N (tz t)) cs c -> Forall (hides v c) l).
  { clear F. intros ch l Hin _ R. apply in_children in Hin as (i & Hi & Ei). assert (Hzc : tz ch = (tz t + 1)%N) by (rewrite Ei; reflexivity).
    clear Ei Hi i. inversion R as [Em|Em|ms ? Em Hm Hz1 HP|ms id Em Hm Hz1 Hid Hf|ms id f Em Hm Hz1 Hid Hf]; subst.
    - split; [apply Forall_nil|intros; apply Forall_nil].
    - split; [apply Forall_cons; [apply covers_refl|apply Forall_nil]|]. intros v c Hv10 Hci Hc O. exfalso. replace (12 - Z.of_N (tz t)) with ((11 - Z.of_N (tz t)) + 1) in O by lia.
      destruct (match_some _ _ _ _ _ Em) as (os & F & Ems). destruct (kept_in (11 - Z.of_N (tz t)) ch _ _ c ltac:(lia) (cell_covers 0 c ch v ltac:(lia) Hci ltac:(lia) Hc) F O) as (c1 & p & c2 & E & _).
      rewrite <- Ems in E. destruct c1; discriminate E.
    - destruct HP as [HP1 HP2]. split; [exact HP1|]. intros v c Hv10 Hci Hc O. apply (HP2 v c Hv10 Hci Hc). rewrite Hzc. replace (12 - Z.of_N (tz t + 1)) with (11 - Z.of_N (tz t)) by lia.
      replace (12 - Z.of_N (tz t)) with ((11 - Z.of_N (tz t)) + 1) in O by lia. destruct (match_some _ _ _ _ _ Em) as (os & F & ->).
      exact (kept_in (11 - Z.of_N (tz t)) ch _ _ c ltac:(lia) (cell_covers 0 c ch v ltac:(lia) Hci ltac:(lia) Hc) F O).
    - split; [apply Forall_nil|intros; apply Forall_nil].
    - split; [apply Forall_cons; [apply covers_refl|apply Forall_nil]|]. intros v c Hv10 Hci Hc O. replace (12 - Z.of_N (tz t)) with ((11 - Z.of_N (tz t)) + 1) in O by lia.
      destruct (match_some _ _ _ _ _ Em) as (os & F & Ems). pose proof (kept_in (11 - Z.of_N (tz t)) ch _ _ c ltac:(lia) (cell_covers 0 c ch v ltac:(lia) Hci ltac:(lia) Hc) F O) as Om. rewrite <- Ems in Om.
      replace (11 - Z.of_N (tz t)) with (1 + 1) in Om by lia. apply Forall_cons; [|apply Forall_nil]. cbn [hides]. intros _.
      destruct (finalize_cases _ _ _ _ _ _ _ _ Hf) as (_ & r & Er & [[-> E]|(_ & p & Ep & E)]); [discriminate E|]. injection E as ->. rewrite (rings_same _ _ _ _ Ep).
      apply (deep_out_here 1); [lia|]. apply (diff_out _ _ _ W); [lia|]. now apply one_deep. }
  split.
  - apply Forall_concat, Forall_forall. intros l Hl. destruct (Forall2_in_r _ _ _ _ F Hl) as (ch & Hin & R). destruct (HC ch l Hin Hl R) as [H1 _].
    eapply Forall_impl; [|exact H1]. intros e He. cbn beta in *. eapply covers_trans; [|exact He]. apply in_children in Hin as (i & Hi & ->). now apply covers_child_parent.
  - intros v c Hv10 Hcv Hc O. apply Forall_concat, Forall_forall. intros l Hl. destruct (Forall2_in_r _ _ _ _ F Hl) as (ch & Hin & R). destruct (HC ch l Hin Hl R) as [H1 H2].
    destruct (coversb ch v) eqn:E.
    + apply (H2 v c); auto. apply coversb_spec. exact E.
    + assert (~ covers ch v) as Nc by (rewrite <- coversb_spec, E; discriminate). eapply Forall_impl; [|exact H1]. intros e He. now apply (hides_other ch).
Qed.

(** ** all tasks *)
Lemma inside_make p c : land_ok p -> inside (land_paths p) c = true -> cell_in 0 (co_box (make_coast p)) c.
Proof.
  intros [Hn H] Hi. unfold make_coast, poly_points. cbn [co_box]. destruct p as [o hs]. cbn [fst snd] in *. destruct o as [|q o]; [congruence|].
  assert (F : Forall (fun r => bminx (envelope (q :: o)) <= fst r <= bmaxx (envelope (q :: o)) /\ bminy (envelope (q :: o)) <= snd r <= bmaxy (envelope (q :: o))) (concat (land_paths (q :: o, hs)))).
  { unfold land_paths. cbn [fst snd concat]. apply Forall_app. split; [apply envelope_bounds|exact H]. }
  destruct (inside_bounds _ _ _ _ _ _ F Hi) as [H1 H2]. unfold cell_in. lia.
Qed.
Lemma gives_of polys ls t : Forall2 (gives proc) (map OTask (coast_tasks polys)) ls -> In (t, map make_coast polys) (coast_tasks polys) ->
  exists l, In l ls /\ gives proc (OTask (t, map make_coast polys)) l.
Proof. intros F H. apply (Forall2_in_l _ _ _ (OTask (t, map make_coast polys)) F). now apply in_map. Qed.

Lemma outcome_sea polys l v c : no_exception cut diff fix_rings (coast_tasks polys) -> outcome proc (map OTask (coast_tasks polys)) l ->
  valid_tile v -> tz v = 10%N -> cell_in 1 (tile_area v) c -> Forall (fun p => deep_out 8 (land_paths p) c) polys -> exists e, In e l /\ shows v c e.
Proof.
  intros NE (ls & F & HP) Hv Hz Hc D. destruct (tasks_cover polys v Hv Hz) as (t & Ht & Ct). destruct (tasks_of _ _ Ht) as (Hvt & Hzt & _). cbn [fst] in *.
  destruct (gives_of _ _ _ F Ht) as (l0 & Hl & G). destruct (task_sea _ NE t _ l0 ltac:(lia) Hvt (tr_first _ _ _ _ _ Ht) G v c Hz Ct Hc) as (e & He & Se).
  - rewrite Hzt. change (12 - Z.of_N 4) with 8. clear -D. induction D; constructor; assumption.
  - exists e. split; [|exact Se]. apply (Permutation_in _ (Permutation_sym HP)). apply in_concat. exists l0. split; assumption.
Qed.
Lemma outcome_land polys l v c p1 p p2 : no_exception cut diff fix_rings (coast_tasks polys) -> outcome proc (map OTask (coast_tasks polys)) l ->
  valid_tile v -> tz v = 10%N -> cell_in 0 (tile_area v) c -> polys = p1 ++ p :: p2 -> land_ok p -> deep_in 8 (land_paths p) c ->
  Forall (fun q => deep_out 8 (land_paths q) c) (p1 ++ p2) -> Forall (hides v c) l.
Proof.
  intros NE (ls & F & HP) Hv Hz Hc Ep Hok Di Do. rewrite HP. clear HP l.
  apply Forall_concat, Forall_forall. intros l Hl. destruct (Forall2_in_r _ _ _ _ F Hl) as (o & Ho & G). apply in_map_iff in Ho as ([t cs] & <- & Ht).
  destruct (tasks_of _ _ Ht) as (Hvt & Hzt & Ecs). cbn [fst snd] in *. subst cs.
  destruct (task_land _ NE t _ l ltac:(lia) Hvt (tr_first _ _ _ _ _ Ht) G) as [L1 L2]. destruct (coversb t v) eqn:E.
  - apply (L2 v c); auto; [apply coversb_spec; exact E|]. rewrite Hzt. change (12 - Z.of_N 4) with 8. subst polys.
    exists (map make_coast p1), (make_coast p), (map make_coast p2). split; [rewrite map_app; reflexivity|]. split; [exact Di|]. split; [apply (inside_make p c Hok)|].
    rewrite <- map_app. clear -Do. induction Do; constructor; assumption.
  - assert (~ covers t v) as Nc by (rewrite <- coversb_spec, E; discriminate). eapply Forall_impl; [|exact L1]. intros e He. now apply (hides_other t).
Qed.
End Fill.
