(** C65, C66: imports can be completed, and their statistics do not fail. *)
From Coq Require Import Permutation String Ascii.
From Coq Require Import List.
From Verif Require Import Base BaseProof ModelTile ModelGeom ModelFeature ModelCodec ModelDict SpecDict ModelOsm SpecOsm ModelPacker SpecPacker ModelInserter SpecInserter ModelMvt SpecMvt ModelRender SpecRender SpecGeom SpecTile ModelDrain ModelCoast SpecCoast ModelServer ModelImport SpecImport SpecFinish
  ProofImportRun ProofImportServe ProofImportTop ProofImportStats ProofImportFinish2 ProofCoastEx ProofCoastClip PropCoast ProofImportEx ProofQuadTree PropImport.
Import ListNotations.
Open Scope N_scope.

(** C65: whatever was in the database, a run that loads coastlines or features of a moderate size
    can be completed, with all it is asked to do besides; *)
Theorem c65_import_completes : forall L tasks j K B W st, libs_ok L -> job_ok L j -> loads tasks = true -> moderate L tasks j K B W ->
  exists st', import_run L tasks j st st' /\ small_packs st'.
Proof. exact run_completes. Qed.
Print Assumptions c65_import_completes.

(** and a later run that prepares tiles or computes statistics, if there is something to prepare. *)
Theorem c65_prepare_completes : forall L tasks j j' co fe raw prep st, libs_ok L -> job_ok L j -> history L j co fe raw prep st ->
  loads tasks = false -> has_any_task tasks [lit "pack"] = false -> (has_any_task tasks [lit "tiles"] = true -> st_features st <> []) -> blen (st_pack st) + 2 < 2 ^ 64 ->
  exists st', import_run L tasks j' st st' /\ small_packs st'.
Proof. exact later_completes. Qed.
Print Assumptions c65_prepare_completes.

(** A phase is part of a run if it or all phases are asked for. *)
Theorem c65_tasks : forall tasks q, has_any_task tasks [q] = true <-> In (lit "all") tasks \/ In q tasks.
Proof.
  assert (E : forall (q : bytes) l, existsb (bytes_eqb q) l = true <-> In q l).
  { intros q l. rewrite existsb_exists. split; [intros (x & Hx & Ex); apply bytes_eqb_eq in Ex; now subst | intros H; exists q; split; [assumption|now apply bytes_eqb_eq]]. }
  intros tasks q. unfold has_any_task. cbn [existsb]. rewrite orb_false_r, orb_true_iff, !E. reflexivity.
Qed.
Print Assumptions c65_tasks.

(** C66: the statistics of a database do not fail, after every history of runs *)
Theorem c66_stats : forall L j co fe raw prep st, libs_ok L -> job_ok L j -> history L j co fe raw prep st ->
  database_stats (open_store st) = Ok tt.
Proof. intros L j co fe raw prep st HL HJ H. exact (stats_ok L j co fe raw prep true _ HL (history_sinv _ _ _ _ _ _ _ HL HJ H)). Qed.
Print Assumptions c66_stats.

(** ** A concrete case for C61-C66 *)
(** an island over nine tiles; a road, a lake and an object the profile does not approve *)
Definition c61_road : osm_input :=
  (OsmObj 7 [(lit "highway", lit "primary"); (lit "name", lit "High Street")],
   GLine [[(2151700000, 2151700000); (2151700100, 2151700900); (2151701100, 2151702900); (2151704100, 2151702000); (2151705100, 2151707900)]]%Z,
   [CApproveMin 6; CLayer (lit "road"); CTagString (lit "name"); CTagString (lit "highway"); CAddInteger (lit "lanes") 2]).
Definition c61_lake : osm_input :=
  (OsmObj 8 [], GPoly [([(2153800000, 2153800000); (2153810000, 2153800000); (2153810000, 2153810000); (2153800000, 2153810000); (2153800000, 2153800000)], [])]%Z,
   [CApproveFull; CLayer (lit "water"); CAddBool (lit "salty") false]).
Definition c61_bench : osm_input := (OsmObj 9 [], GPoint [(2153800000, 2153800000)]%Z, [CLayer (lit "road")]).
Definition c61_job : job := Job c57_isle [c61_road; c61_lake; c61_bench].

Lemma c61_usable_line l : l <> [] -> forallb (fun p => (0 <=? fst p) && (fst p <? 2 ^ 32) && (0 <=? snd p) && (snd p <? 2 ^ 32))%Z l = true -> usable ex_libs (GLine [l]).
Proof.
  intros H1 H2. split; [discriminate|]. split; [split; [repeat constructor; assumption | vm_compute; reflexivity]|]. split; [|intros raw z _; destruct raw; exact I]. cbn [geom_points concat]. rewrite app_nil_r.
  apply Forall_forall. intros p Hp. rewrite forallb_forall in H2. specialize (H2 p Hp). lia.
Qed.
Lemma c61_usable_ring r : area_check (GPoly [(r, [])]) = true -> (4 <= length r)%nat -> forallb (fun p => (0 <=? fst p) && (fst p <? 2 ^ 32) && (0 <=? snd p) && (snd p <? 2 ^ 32))%Z r = true -> usable ex_libs (GPoly [(r, [])]).
Proof.
  intros H0 H1 H2. split; [split; [discriminate | repeat constructor; assumption]|]. split; [exact I|]. split; [|exact (area_check_ok ex_libs _ eq_refl eq_refl H0)]. cbn [geom_points flat_map poly_points fst snd concat]. rewrite ?app_nil_r.
  apply Forall_forall. intros p Hp. rewrite forallb_forall in H2. specialize (H2 p Hp). lia.
Qed.
Lemma c61_meta ms : forallb (fun m => (blen (fst m) <? 2 ^ 32) && (blen (snd m) <? 2 ^ 32) && match meta_value (snd m) with Some _ => true | None => false end) ms = true ->
  Forall (fun m => meta_short m /\ meta_value (snd m) <> None) ms.
Proof.
  intros H. apply Forall_forall. intros m Hm. rewrite forallb_forall in H. specialize (H m Hm). apply andb_prop in H as [H H3]. apply andb_prop in H as [H1 H2].
  split; [split; unfold short; lia|]. now destruct (meta_value (snd m)).
Qed.
Lemma c61_road_ok : object_ok ex_libs c61_road /\ object_moderate ex_libs 1000 4 c61_road /\ imported ex_libs c61_road (lit "road") 6.
Proof.
  apply ex_object.
  - reflexivity.
  - reflexivity.
  - discriminate.
  - discriminate.
  - repeat constructor.
  - reflexivity.
  - discriminate.
  - apply c61_usable_line; [discriminate | vm_compute; reflexivity].
  - apply c61_meta. vm_compute. reflexivity.
  - vm_compute. reflexivity.
  - reflexivity.
  - vm_compute. reflexivity.
  - vm_compute. discriminate.
Qed.
Lemma c61_lake_ok : object_ok ex_libs c61_lake /\ object_moderate ex_libs 1000 4 c61_lake /\ imported ex_libs c61_lake (lit "water") 0.
Proof.
  apply ex_object.
  - reflexivity.
  - reflexivity.
  - discriminate.
  - discriminate.
  - repeat constructor.
  - reflexivity.
  - discriminate.
  - apply c61_usable_ring; [vm_compute; reflexivity | cbn; lia | vm_compute; reflexivity].
  - apply c61_meta. vm_compute. reflexivity.
  - vm_compute. reflexivity.
  - reflexivity.
  - vm_compute. reflexivity.
  - vm_compute. discriminate.
Qed.
Lemma c61_bench_ok : object_ok ex_libs c61_bench /\ object_moderate ex_libs 1000 4 c61_bench.
Proof. apply ex_rejected; [reflexivity | repeat constructor]. Qed.

Example c61_ex_libs : libs_ok ex_libs.
Proof. exact ex_libs_ok. Qed.
Example c61_ex_job : job_ok ex_libs c61_job.
Proof.
  split; [|split; vm_compute; reflexivity]. repeat apply Forall_cons; [apply c61_road_ok | apply c61_lake_ok | apply c61_bench_ok | apply Forall_nil].
Qed.
Example c65_ex_moderate : moderate ex_libs [lit "all"] c61_job 8 1000 4.
Proof.
  destruct (give_all (coast_proc grid_cut ex_diff (fun ps => ps)) 6 (map OTask (coast_tasks c57_isle))) as [l|] eqn:EG; [|vm_compute in EG; discriminate EG].
  assert (HL : forallb (coast_check 1000) l = true /\ length (filter is_inl l) = 8%nat) by (vm_compute in EG; injection EG as <-; split; vm_compute; reflexivity).
  destruct HL as [HL1 HL2]. constructor.
  - intros _. split; [apply (calm_no_exception _ _ _ 6); vm_compute; reflexivity|]. intros s Hs. destruct (ex_coast _ _ _ EG HL1 s Hs) as [H1 H2]. rewrite HL2 in H1. split; [rewrite H1; discriminate | exact H2].
  - intros _. split; [discriminate|]. repeat apply Forall_cons; [apply c61_road_ok | apply c61_lake_ok | apply c61_bench_ok | apply Forall_nil].
  - intros _. left. split; [reflexivity|]. exists c61_road, (lit "road"), 6. split; [left; reflexivity | apply c61_road_ok].
  - split; [discriminate|]. split; vm_compute; reflexivity.
Qed.
(** a database with all of it, packed and with prepared tiles, whatever was there before *)
Example c61_ex_history : forall st, exists st', import_run ex_libs [lit "all"] c61_job st st' /\ history ex_libs c61_job true true false true st'.
Proof.
  intros st. destruct (c65_import_completes ex_libs [lit "all"] c61_job 8 1000 4 st ex_libs_ok c61_ex_job eq_refl c65_ex_moderate) as (st' & H1 & H2).
  exists st'. split; [assumption|]. exact (h_load ex_libs c61_job [lit "all"] st st' eq_refl H1 H2).
Qed.
(** the road on a tile of zoom level 12: all its points *)
Example c62_ex : forall st, history ex_libs c61_job true true false true st ->
  answers_with ex_libs st (Tile 2052 2052 12) (fun vls => exists vl v, In vl vls /\ In v (vl_features vl) /\ vl_name vl = lit "road" /\
    shows_object ex_libs (Tile 2052 2052 12) c61_road (snd (fst c61_road)) v).
Proof.
  intros st H. apply (c62_object_shown ex_libs c61_job true false true st ex_libs_ok c61_ex_job H (Tile 2052 2052 12) (fst (fst c61_road)) (snd (fst c61_road)) (snd c61_road) (lit "road") 6).
  - discriminate.
  - split; vm_compute; reflexivity.
  - left; reflexivity.
  - apply c61_road_ok.
  - discriminate.
  - intros o' h cs' mn' [Hi|[Hi|[Hi|[]]]] Him Eo Ek; [now symmetry | injection Hi as <- <- <-; discriminate Eo | injection Hi as <- <- <-; discriminate Eo].
  - discriminate.
  - vm_compute. reflexivity.
  - vm_compute. reflexivity.
  - vm_compute. discriminate.
  - intros _ Hz. vm_compute in Hz. now destruct Hz.
Qed.
(** the sea off the island, on a tile of zoom level 14 *)
Example c63_ex : forall st, history ex_libs c61_job true true false true st ->
  exists k, tile_to_key (Tile 100 200 14) 0 = Ok k /\
  answers_with ex_libs st (Tile 100 200 14) (fun vls => exists vl v, In vl vls /\ In v (vl_features vl) /\ vl_name vl = coastline /\ is_sea k 14 v).
Proof.
  intros st H. destruct (c63_sea_shown ex_libs c61_job true false true st ex_libs_ok c61_ex_job H) as (s & Hs & H1 & _).
  eexists. split; [vm_compute; reflexivity|].
  apply (H1 (Tile 100 200 14)); [discriminate | split; vm_compute; reflexivity | | vm_compute; reflexivity].
  destruct (give_all (coast_proc grid_cut ex_diff (fun ps => ps)) 6 (map OTask (coast_tasks c57_isle))) as [l|] eqn:EG; [|vm_compute in EG; discriminate EG].
  pose proof (ex_sea _ _ EG s Hs) as HS. exists (Tile 0 0 5). split; [|repeat split; vm_compute; congruence]. apply HS.
  assert (HE : existsb (fun e => match e with inr t => tile_eqb t (Tile 0 0 5) | inl _ => false end) l = true) by (vm_compute in EG; injection EG as <-; vm_compute; reflexivity).
  apply existsb_exists in HE as ([e|t] & He & Et); [discriminate Et|]. apply ProofQuadTree.tile_eqb_eq in Et. now subst t.
Qed.
