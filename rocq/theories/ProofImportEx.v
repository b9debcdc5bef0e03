(** A concrete import: stand-ins for the libraries that do what is expected of them, and checks that decide what is
    asked of the input. *)
From Coq Require Import Permutation String Ascii.
From Coq Require Import List.
From Verif Require Import Base BaseProof ModelTile SpecTile ModelPackFile ModelTable ModelCodec ModelGeom SpecGeom ModelFeature SpecFeature ModelPacker SpecPacker
  ModelInserter SpecInserter ModelDict SpecDict ModelOsm SpecOsm ModelAggregate SpecAggregate ModelMvt SpecMvt ModelRender SpecRender ModelDrain ModelCoast SpecCoast ModelServer ModelImport SpecImport SpecFinish
  ProofFeatureSize ProofInserter ProofDrain ProofCoastEx ProofCoastClip ProofImportObjects ProofImportLoad ProofImportFinish ProofBestTile.
From Verif Require PropPacker PropDict ProofDict PropRender PropRepack PropAggregate.
Import ListNotations.
Open Scope N_scope.

(** ** Checks *)
Definition smallb (c : Z) : bool := ((- 2 ^ 62 <=? c) && (c <? 2 ^ 62))%Z.
Definition coords_smallb (g : geom) : bool := forallb (fun p => smallb (fst p) && smallb (snd p)) (geom_points g).
Lemma coords_smallb_ok g : coords_smallb g = true -> coords_small g.
Proof.
  intros H. apply Forall_forall. intros p Hp. unfold coords_smallb in H. rewrite forallb_forall in H. specialize (H p Hp). apply andb_prop in H as [H1 H2].
  unfold smallb in *. apply andb_prop in H1 as [A1 A2], H2 as [B1 B2]. unfold coord_small. split; lia.
Qed.
Definition properb (g : geom) : bool :=
  match g with
  | GNull => false
  | GPoint ps => negb (match ps with [] => true | _ => false end)
  | GLine ls => negb (match ls with [] => true | _ => false end)
  | GPoly ps => negb (match ps with [] => true | _ => false end) &&
      forallb (fun p : poly => (4 <=? length (fst p))%nat && forallb (fun r : line => (4 <=? length r)%nat) (snd p)) ps
  end.
Lemma properb_ok g : properb g = true -> SpecGeom.proper g.
Proof.
  destruct g as [|ps|ls|ps]; cbn [properb SpecGeom.proper]; intros H; [discriminate | now destruct ps | now destruct ls |].
  apply andb_prop in H as [H1 H2]. split; [now destruct ps|]. apply Forall_forall. intros p Hp. rewrite forallb_forall in H2. specialize (H2 p Hp). apply andb_prop in H2 as [A B].
  split; [now apply Nat.leb_le|]. apply Forall_forall. intros r Hr. rewrite forallb_forall in B. now apply Nat.leb_le, B.
Qed.
Definition bytesb (g : geom) (lo hi : N) : bool := match serialize_geom g with Ok b => (lo <=? blen b) && (blen b <=? hi) | _ => true end.
Lemma bytesb_ok g lo hi b : bytesb g lo hi = true -> serialize_geom g = Ok b -> lo <= blen b <= hi.
Proof. unfold bytesb. intros H E. rewrite E in H. lia. Qed.

(** all a stored feature can take *)
Definition size_check (L : libs) (B : N) (ms : list meta) (g : geom) : bool :=
  match serialize_geom g with
  | Ok b => (19 <=? blen b) && (130 + meta_cost ms + masks_cost (make_masks (l_mk L) g) + blen b <=? B)
  | _ => true
  end.
Lemma meta_cost_incl : forall ms all, NoDup ms -> incl ms all -> meta_cost ms <= meta_cost all.
Proof.
  induction ms as [|m ms IH]; intros all HN HI.
  - induction all as [|a all IHa]; [reflexivity|]. rewrite meta_cost_cons. enough (meta_cost [] <= meta_cost all) by lia. apply IHa. intros x [].
  - inversion HN as [|? ? H1 H2]; subst. destruct (in_split m all) as (l1 & l2 & ->); [apply HI; left; reflexivity|].
    rewrite (meta_cost_perm (l1 ++ m :: l2) (m :: l1 ++ l2)) by (symmetry; apply Permutation_middle). rewrite !meta_cost_cons.
    enough (meta_cost ms <= meta_cost (l1 ++ l2)) by lia. apply IH; [assumption|]. intros x Hx. assert (Hx' : In x (l1 ++ m :: l2)) by (apply HI; right; assumption).
    apply in_app_or in Hx' as [H|[H|H]]; [apply in_or_app; left; assumption | subst; contradiction | apply in_or_app; right; assumption].
Qed.
Lemma size_check_ok L B all f : size_check L B all (f_geom f) = true -> NoDup (f_meta f) -> incl (f_meta f) all -> stored_size L B f.
Proof.
  intros H HN HI d fast f' v _ HS E. destruct (feature_size _ _ _ _ _ E) as (g & E1 & E2 & E3). destruct HS as (_ & _ & _ & _ & HP & Eg). rewrite Eg in *.
  unfold size_check in H. rewrite E1 in H. rewrite (meta_cost_perm _ _ HP) in E3. pose proof (meta_cost_incl _ _ HN HI). lia.
Qed.

Definition in_worldb (b : fbox) : bool :=
  ((0 <=? bminx b) && (bminx b <=? bmaxx b) && (bmaxx b <? 2 ^ 32) && (0 <=? bminy b) && (bminy b <=? bmaxy b) && (bmaxy b <? 2 ^ 32))%Z.
Lemma few_check W g : in_worldb (bounding_box g) = true -> N.of_nat (length (job_range 10 (Feature 0 0 0 0 [] g))) <= W -> meets_few W (bounding_box g).
Proof.
  intros H1 H2 ts HN HF. assert (IW : in_world (bounding_box (f_geom (Feature 0 0 0 0 [] g)))).
  { cbn [f_geom]. unfold in_worldb in H1. repeat (apply andb_prop in H1 as [H1 ?H]). unfold in_world. lia. }
  enough (N.of_nat (length ts) <= N.of_nat (length (job_range 10 (Feature 0 0 0 0 [] g)))) by lia.
  enough (length ts <= length (job_range 10 (Feature 0 0 0 0 [] g)))%nat by lia. apply NoDup_incl_length; [assumption|]. intros t Ht.
  destruct (proj1 (Forall_forall _ _) HF _ Ht) as [I1 I2]. apply (range_in 10 _ t ltac:(discriminate) IW I1). exact I2.
Qed.

(** ** Libraries *)
(** points with an even number stay; at zoom levels from 10 on, all points stay *)
Definition ex_mk (l : line) : bytes := map (fun _ => 0) l.
Definition ex_rd : mask_reader := fun m z => (Z.of_nat (length m), fun i => Z.even i || (10 <=? z)).
Lemma ex_mask z : mask_ok ex_mk ex_rd z /\ keeps_some ex_mk ex_rd z.
Proof.
  split; [intros l; cbn [ex_rd fst]; unfold ex_mk; now rewrite map_length|]. intros [|p l] H; [contradiction|]. cbn [ex_rd snd select]. discriminate.
Qed.

(** polygons that enclose an area *)
Definition rangeb (p : pt) : bool := ((- 2 ^ 62 <? fst p) && (fst p <? 2 ^ 62) && (- 2 ^ 62 <? snd p) && (snd p <? 2 ^ 62))%Z.
Definition pt_eqb (a b : pt) : bool := ((fst a =? fst b) && (snd a =? snd b))%Z.
Definition closedb (r : line) : bool := match r with p :: q => match q with [] => false | _ => pt_eqb (last q p) p end | [] => false end.
Lemma closedb_ok r : closedb r = true -> closed_ring r.
Proof.
  destruct r as [|p q]; [discriminate|]. cbn [closedb]. destruct q as [|q0 q]; [discriminate|]. intros H. destruct (exists_last (l := q0 :: q) ltac:(discriminate)) as (q' & x & E).
  rewrite E in *. rewrite last_last in H. unfold pt_eqb in H. apply andb_prop in H as [H1 H2]. apply Z.eqb_eq in H1, H2. exists p, q'. rewrite (surjective_pairing x), (surjective_pairing p), H1, H2. reflexivity.
Qed.
Definition arealb (g : geom) : bool :=
  match g with
  | GPoly ps => forallb rangeb (geom_points g) && forallb (fun r : line => match r with [] => false | _ => true end) (poly_rings ps) &&
      existsb (fun r => closedb r && negb (surveyor r =? 0)%Z) (poly_rings ps)
  | _ => true
  end.
Lemma arealb_ok g : arealb g = true -> areal g.
Proof.
  destruct g as [|ps|ls|ps]; try exact (fun _ => I). cbn [arealb areal]. intros H. apply andb_prop in H as [H H3]. apply andb_prop in H as [H1 H2]. split; [|split].
  - apply Forall_forall. intros p Hp. rewrite forallb_forall in H1. specialize (H1 p Hp). unfold rangeb in H1. unfold in_range. lia.
  - apply Forall_forall. intros r Hr. rewrite forallb_forall in H2. specialize (H2 r Hr). now destruct r.
  - apply existsb_exists in H3 as (r & Hr & H3). apply Exists_exists. exists r. split; [assumption|]. apply andb_prop in H3 as [H3 H4]. split; [now apply closedb_ok|]. intros E. rewrite E in H4. discriminate.
Qed.
Definition area_check (g : geom) : bool :=
  arealb g && arealb (select_geom ex_rd 0 (make_masks ex_mk g) g) && arealb (select_geom ex_rd 10 (make_masks ex_mk g) g).
Lemma select_lines_same (rd : mask_reader) z z' : (forall m, rd m z = rd m z') -> forall ls ms, select_lines rd z ms ls = select_lines rd z' ms ls.
Proof. intros H. induction ls as [|l ls IH]; intros [|m ms]; cbn [select_lines]; try reflexivity; rewrite ?H, ?IH; reflexivity. Qed.
Lemma select_geom_same (rd : mask_reader) z z' ms g : (forall m, rd m z = rd m z') -> select_geom rd z ms g = select_geom rd z' ms g.
Proof. intros H. destruct g; cbn [select_geom]; try reflexivity; now rewrite (select_lines_same rd z z' H). Qed.
Lemma area_check_ok L g : l_mk L = ex_mk -> l_rd L = ex_rd -> area_check g = true -> has_area L g.
Proof.
  intros E1 E2 H raw z _. unfold outline. rewrite E1, E2. unfold area_check in H. apply andb_prop in H as [H H3]. apply andb_prop in H as [H1 H2]. destruct raw; [now apply arealb_ok|].
  assert (E : (10 <=? z) = (10 <=? if 10 <=? z then 10 else 0)) by (destruct (10 <=? z); reflexivity).
  rewrite (select_geom_same ex_rd z (if 10 <=? z then 10 else 0)); [|intros m; revert E; generalize (if 10 <=? z then 10 else 0); intros y E; unfold ex_rd; rewrite E; reflexivity]. destruct (10 <=? z); now apply arealb_ok.
Qed.

Definition drawn_check (ps : list poly) : bool :=
  properb (GPoly ps) && coords_smallb (GPoly ps) && bytesb (GPoly ps) 0 10000 && (masks_cost (make_masks (fun _ => []) (GPoly ps)) <=? 10000) && area_check (GPoly ps).
Definition ex_diff (b : line) (s : list line) : list pnode :=
  let ns := grid_diff b s in
  match to_fixed_polygons [] ns with
  | Ok ps => if drawn_check ps then ns else []
  | _ => []
  end.
Definition ex_libs : libs := {|
  l_ccut := grid_cut; l_cdiff := ex_diff; l_fix_rings := fun ps => ps;
  l_stod := fun _ => None; l_dbl := fun _ => [0; 0; 0; 0; 0; 0; 0; 0]; l_oarea := fun _ => 0%Z;
  l_msort := ProofDict.isort meta_ltb; l_dsort := ProofDict.isort count_gtb; l_take := PropDict.ex_take; l_psort := ProofDict.isort pair_ltb;
  l_isort := fun l => l; l_qsort := PropPacker.isort;
  l_possort := PropRepack.ex_q; l_recsort := PropRepack.ex_r; l_tasksort := PropRepack.ex_t;
  l_mk := ex_mk; l_rd := ex_rd;
  l_deflate := fun b => Ok (120 :: b); l_cut := PropRender.c52_cut; l_area := fun _ => 1000%Z;
  l_aggregate := aggregate_line_features (ProofDict.isort feature_ltb) (ProofDict.isort lentry_ltb) (fun l _ => l);
  l_threads := 4 |}.
Lemma ex_draws : draws_well ex_libs.
Proof.
  intros b s ps H E. cbn [ex_libs l_cdiff l_fix_rings] in *. unfold ex_diff in *. destruct (to_fixed_polygons [] (grid_diff b s)) as [ps'| | |] eqn:E'; try (destruct H; reflexivity).
  destruct (drawn_check ps') eqn:C; [|destruct H; reflexivity]. unfold drawn_check in C.
  rewrite E' in E. apply Ok_inj in E. subst ps'. apply andb_prop in C as [C C5]. apply andb_prop in C as [C C4]. apply andb_prop in C as [C C3]. apply andb_prop in C as [C1 C2].
  cbv zeta. split; [now apply properb_ok|]. split; [|split].
  - pose proof (coords_smallb_ok _ C2) as HS. eapply Forall_impl; [|exact HS]. cbn beta. intros p [H1 H2]. unfold coord_small in H1, H2. unfold int64_ok, min64, max64. lia.
  - now apply area_check_ok.
  - intros id v _ Ev. destruct (feature_size (fun _ => None) (fun _ => []) true _ _ Ev) as (g & G1 & G2 & G3). cbn [f_geom f_meta] in *. pose proof (bytesb_ok _ _ _ _ C3 G1) as HG. change (meta_cost []) with 20 in G3. change (2 ^ 32) with 4294967296. lia.
Qed.
Lemma ex_libs_ok : libs_ok ex_libs.
Proof.
  destruct PropRender.c52_ex_cut as (C1 & C2 & C3). destruct (PropAggregate.c41_fits_builder _ _ (fun l _ => l) PropAggregate.c41_ex_sort_f PropAggregate.c41_ex_sort_e) as [A1 A2].
  constructor; cbn [ex_libs l_cdiff l_fix_rings l_msort l_dsort l_take l_psort l_isort l_qsort l_possort l_recsort l_tasksort l_mk l_rd l_deflate l_cut l_aggregate l_threads].
  - exact ex_draws.
  - exact ProofDict.isort_meta.
  - exact ProofDict.isort_count.
  - exact PropDict.ex_takes.
  - exact ProofDict.isort_pair.
  - reflexivity.
  - exact PropPacker.c12_ex_sort.
  - exact PropRepack.ex_q_sorts.
  - exact PropRepack.ex_r_sorts.
  - intros l. apply PropRepack.ex_t_sorts.
  - intros z _. apply ex_mask.
  - intros b. eauto.
  - exact C1.
  - exact C2.
  - exact C3.
  - exact A1.
  - exact A2.
  - lia.
Qed.

(** ** A map object *)
Lemma ex_object B W o g cs layer mn :
  last_some (approval 0) cs = Some mn -> last_some layer_of cs = Some layer -> layer <> [] -> g <> GNull -> script_ok cs -> short layer -> mn <= 20 -> usable ex_libs g ->
  Forall (fun m => meta_short m /\ meta_value (snd m) <> None) (metadata ex_libs (o, g, cs)) ->
  size_check ex_libs B (metadata ex_libs (o, g, cs)) g = true -> B < 2 ^ 32 ->
  in_worldb (bounding_box g) = true -> N.of_nat (length (job_range 10 (Feature 0 0 0 0 [] g))) <= W ->
  object_ok ex_libs (o, g, cs) /\ object_moderate ex_libs B W (o, g, cs) /\ imported ex_libs (o, g, cs) layer mn.
Proof.
  intros A1 A2 A3 A4 A5 A6 A7 A8 A9 A10 A11 A12 A13.
  assert (HS : forall idx ms, one_per_key (metadata ex_libs (o, g, cs)) ms -> stored_size ex_libs B (Feature (to_u64 (o_id o)) idx mn 21 ms g)).
  { intros idx ms Hms. destruct (one_per_key_incl _ _ Hms) as [HI HN]. eapply size_check_ok; [exact A10 | exact HN | exact HI]. }
  assert (HI : forall l m, imported ex_libs (o, g, cs) l m -> l = layer /\ m = mn).
  { intros l m (H1 & H2 & _). cbn [ex_libs l_oarea] in H1. split; congruence. }
  split; [|split; [|split; [exact A1 | split; assumption]]].
  - split; [assumption|]. intros l m H. destruct (HI l m H) as [-> ->]. split; [assumption|]. split; [change (2 ^ 32) with 4294967296; lia|]. split; [assumption|]. split; [assumption|].
    intros idx ms v _ Hms Ev. pose proof (ProofImportFinish.ser_size ex_libs B _ _ (HS idx ms Hms) Ev). lia.
  - split.
    + intros m H. destruct layer as [|c n]; [contradiction|]. eauto.
    + intros l m H. destruct (HI l m H) as [-> ->]. split; [assumption|]. split; [now apply few_check|]. intros idx ms _ Hms. now apply HS.
Qed.
(** an object that is not approved *)
Lemma ex_rejected B W o g cs : last_some (approval 0) cs = None -> script_ok cs -> object_ok ex_libs (o, g, cs) /\ object_moderate ex_libs B W (o, g, cs).
Proof.
  intros H1 H2. split; split; try assumption.
  - intros l m (H & _). cbn [ex_libs l_oarea] in H. congruence.
  - intros m H. cbn [ex_libs l_oarea] in H. congruence.
  - intros l m (H & _). cbn [ex_libs l_oarea] in H. congruence.
Qed.

(** ** Coastlines *)
Definition coast_check (B : N) (e : (tile * feature) + tile) : bool :=
  match e with
  | inl (t, f) => coords_smallb (f_geom f) && boxes_touch (bounding_box (f_geom f)) (tile_area t) && match f_meta f with [] => true | _ => false end && size_check ex_libs B [] (f_geom f)
  | inr _ => true
  end.
Definition is_inl {A B} (e : A + B) : bool := match e with inl _ => true | inr _ => false end.
Lemma ex_coast polys B l : give_all (coast_proc grid_cut ex_diff (fun ps => ps)) 6 (map OTask (coast_tasks polys)) = Some l -> forallb (coast_check B) l = true ->
  forall s, coast_result ex_libs polys s ->
  length (c_inserted s) = length (filter is_inl l) /\
  Forall (fun e => coords_small (f_geom (snd e)) /\ SpecPacker.touches (bounding_box (f_geom (snd e))) (tile_area (fst e)) /\ stored_size ex_libs B (snd e)) (c_inserted s).
Proof.
  intros EG HC s (R & E & _). destruct (coast_drained _ _ _ _ R E) as (_ & _ & _ & O). pose proof (give_all_outcome _ _ _ _ _ EG O) as HP. split.
  - assert (HQ : Permutation (filter is_inl (map inl (c_inserted s) ++ map inr (c_sea s))) (filter is_inl l)).
    { revert HP. generalize (map inl (c_inserted s) ++ map inr (c_sea s)). intros m HP. clear -HP. induction HP as [|x a b _ IH|x y a|a b c _ IH1 _ IH2]; cbn [filter].
      - constructor.
      - destruct (is_inl x); [now constructor|assumption].
      - destruct (is_inl x), (is_inl y); try reflexivity. apply perm_swap.
      - etransitivity; eassumption. }
    apply Permutation_length in HQ. rewrite <- HQ, filter_app, app_length.
    assert (F1 : forall a : list (tile * feature), length (filter is_inl (map (@inl (tile * feature) tile) a)) = length a) by (induction a; cbn [map filter is_inl length]; auto).
    assert (F2 : forall a : list tile, length (filter is_inl (map (@inr (tile * feature) tile) a)) = 0%nat) by (induction a; cbn [map filter is_inl length]; auto).
    rewrite F1, F2. lia.
  - apply Forall_forall. intros [t f] H. assert (H' : In (inl (t, f)) l). { apply (Permutation_in _ HP), in_or_app. left. now apply (in_map inl). }
    rewrite forallb_forall in HC. specialize (HC _ H'). cbn [coast_check] in HC. apply andb_prop in HC as [HC C4]. apply andb_prop in HC as [HC C3]. apply andb_prop in HC as [C1 C2]. cbn [fst snd].
    split; [now apply coords_smallb_ok|]. split; [now apply ProofBestTile.boxes_touch_spec|]. destruct (f_meta f) as [|] eqn:Em; [|discriminate]. apply (size_check_ok _ _ []); [assumption|rewrite Em; constructor|rewrite Em; intros x []].
Qed.
Lemma ex_sea polys l : give_all (coast_proc grid_cut ex_diff (fun ps => ps)) 6 (map OTask (coast_tasks polys)) = Some l ->
  forall s, coast_result ex_libs polys s -> forall t, In (inr t) l -> In t (c_sea s).
Proof.
  intros EG s (R & E & _) t H. destruct (coast_drained _ _ _ _ R E) as (_ & _ & _ & O). apply (Permutation_in _ (Permutation_sym (give_all_outcome _ _ _ _ _ EG O))) in H.
  apply in_app_or in H as [H|H]; apply in_map_iff in H as (x & Ex & Hx); [discriminate Ex|]. injection Ex as ->. exact Hx.
Qed.
