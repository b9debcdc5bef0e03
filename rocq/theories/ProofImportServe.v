(** Whole imports: the database after any history, and the answers of the server. *)
From Coq Require Import Permutation String Ascii Sorting.Sorted.
From Coq Require Import List.
From Verif Require Import Base BaseProof ModelTile SpecTile ProofTile ModelPackFile SpecPackFile ProofPackFile ModelTable ProofTable ModelCodec ModelGeom SpecGeom ModelFeature SpecFeature ProofFeature
  ModelPack ModelPacker SpecPacker ModelBqTree SpecBqTree ProofBqQuery ModelMvt SpecMvt ModelRender SpecRender ProofRender ModelPrepare SpecPrepare ProofPrepare ProofServe
  ModelInserter SpecInserter ProofInserter ProofInserterTop ModelDict SpecDict ProofDict
  ModelOsm SpecOsm ModelDrain ModelCoast SpecCoast ProofCoastEx SpecLayout ProofLayout ModelRepack SpecRepack ModelServer ModelImport SpecImport
  ProofImportObjects ProofImportLoad ProofImportRun ProofImportPack.
Import ListNotations.
Open Scope N_scope.

(** ** Closing and opening *)
Lemma reopen_binv L raw d D fs T s rows : binv L raw d D fs T s rows -> blen (pf_close s) + 1 < 2 ^ 64 ->
  binv L raw d D fs T (pf_open (pf_close s)) rows.
Proof.
  intros [[B1 [B2 B3]] B4 B5 B5' B6 B7 B8] Hsz. destruct (reopen_spec s B6) as (R1 & R2 & R3).
  assert (Hn : pf_size (pf_open (pf_close s)) <= blen (pf_close s)) by exact R1.
  assert (HG : forall r x, In x (flat_map (fun r => map fst (row_packs r)) rows) -> pf_get s x = Ok r -> pf_get (pf_open (pf_close s)) x = Ok r).
  { intros r x Hx Hg. destruct B8 as [B8 _]. pose proof (proj1 (Forall_forall _ _) B8 _ Hx) as Q. cbn beta in Q.
    destruct (reopen_get s x r B6) as [_ Q2]; try assumption; try lia. apply Q2. lia. }
  constructor; try assumption; try lia.
  - split; [assumption|]. split; [assumption|]. apply Forall_forall. intros r Hr. destruct (proj1 (Forall_forall _ _) B3 _ Hr) as (Z1 & Z2 & Z3). split; [assumption|]. split; [assumption|].
    apply Forall_forall. intros rf Hrf. destruct (proj1 (Forall_forall _ _) Z3 _ Hrf) as [P1 P2]. split; [assumption|].
    assert (Hin : In (fst rf) (flat_map (fun r => map fst (row_packs r)) rows)) by (apply in_flat_map; exists r; split; [assumption | now apply in_map]).
    destruct raw.
    + destruct P2 as (strs & B & Q1 & Q2 & Q3). exists strs, B. split; [assumption|]. split; [assumption|]. now apply HG.
    + destruct P2 as (packs & fss & B & Q1 & Q2 & Q3 & Q4 & Q5). exists packs, fss, B. repeat (split; [assumption|]). now apply HG.
  - destruct B8 as [B8 B9]. split; [|assumption]. eapply Forall_impl; [|exact B8]. intros r H. cbn beta in *. lia.
Qed.

(** ** The context of the server *)
Definition base_ctx (L : libs) (v : list N) (names : list bytes) (d : list meta) : rctx :=
  RCtx (-1) v names (dict_decode d) true false false false false true (l_deflate L) (l_cut L) (l_area L) (l_aggregate L) (l_rd L).
Definition server_ctx (L : libs) (v : list N) (names : list bytes) (d : list meta) (prep : bool) : rctx :=
  if prep then serving (base_ctx L v names d) 10 else base_ctx L v names d.
Lemma ctx_of L m names d sea prep v : meta_says m names d sea prep -> make_bq_tree sea = Ok v ->
  make_render_ctx L m = Ok (server_ctx L v names d prep).
Proof.
  intros [M1 M2 (v' & M3 & M3') M4] Hv. rewrite M3' in Hv. apply Ok_inj in Hv. subst v'. unfold make_render_ctx. rewrite M4.
  assert (E10 : stoi (lit "10") = Ok 10%Z) by (vm_compute; reflexivity).
  destruct prep; [rewrite E10|]; cbn [bind]; rewrite M3; cbn [bind]; rewrite M1; cbn [bind]; rewrite M2; reflexivity.
Qed.

Lemma sea_of_tree x sea : Forall (fun t => tz t <= 10 /\ valid_tile t) sea -> make_bq_tree sea = Ok (x_seaside x) -> seaside_is x sea.
Proof.
  intros F E. split; [|split; [now apply sea_fits | assumption]]. eapply Forall_impl; [|exact F]. intros t [H1 H2]. split; [lia | assumption].
Qed.

(** the server renders the tile like this *)
Record view (L : libs) (names : list bytes) (d : list meta) (sea : list tile) (agg : bool) (t : tile) (x : rctx) : Prop := {
  v_names : x_names x = names; v_dec : x_dec x = dict_decode d; v_rd : x_rd x = l_rd L; v_cut : x_cut x = l_cut L; v_area : x_area x = l_area L;
  v_aggregate : x_aggregate x = l_aggregate L; v_deflate : x_deflate x = l_deflate L; v_compress : x_compress x = true;
  v_ignore : x_ignore_seaside x = false; v_drop : x_drop_subpixel x = true; v_sea : seaside_is x sea; v_not : ~ prepared x t;
  v_lines : x_agg_lines x = agg; v_polys : x_agg_polys x = agg }.

(** ** Prepared tiles *)
Definition tiles_say (L : libs) (raw prep : bool) (d : list meta) (D : list (tile * feature)) (fs : list feature) (names : list bytes) (v : list N)
    (F tiles : table) : Prop :=
  (table_sorted tiles /\ Forall (fun e => tz (key_to_tile (fst e)) <= 10) tiles) /\
  forall t k, tz t <= 10 -> valid_tile t -> tile_to_key t 0 = Ok k ->
    (exists pf rows, binv L raw d D fs F pf rows /\ prepare_tile F pf (base_ctx L v names d) t = Ok (table_get tiles k)) \/
    table_get tiles k = None /\ (prep = true -> ~ in_bounds F t).
Lemma no_tiles_say L raw d D fs names v F : tiles_say L raw false d D fs names v F [].
Proof. split; [split; constructor|]. intros t k _ _ _. right. split; [reflexivity | discriminate]. Qed.

(** what holds of a database in use after any history *)
Definition sinv (L : libs) (j : job) (co fe raw prep whole : bool) (ss : session) : Prop :=
  exists D ks fs names d sea v rows, content L j co fe D ks fs names d sea /\ meta_says (ss_meta ss) names d sea prep /\ make_bq_tree sea = Ok v /\
    binv L raw d D fs (ss_features ss) (ss_file ss) rows /\ (whole = true -> whole_db D fs (ss_features ss)) /\
    tiles_say L raw prep d D fs names v (ss_features ss) (ss_tiles ss).

Lemma entry_in_table T i : index_tile 10 i -> has_entry T i -> in_rectangle T i.
Proof.
  intros Hi (k & v & Hk & He). apply tile_to_key_ok in Hk as [Ek _]. split; [apply Hi|]. rewrite <- Ek. repeat split; exists (k, v); (split; [assumption|]); cbn [fst]; lia.
Qed.

(** ** The phases *)
Lemma load_nothing L tasks j a b : loads tasks = false -> load_phase L tasks j a b -> b = a.
Proof.
  intros Hl (cc & m1 & oc & m2 & n & s & Hco & Hfe & HR & HD & HF & HC & HS & ->). rewrite loads_any in Hl. apply orb_false_iff in Hl as [H1 H2]. rewrite H1 in Hco. rewrite H2 in Hfe.
  destruct Hco as [-> ->]. destruct Hfe as [-> ->]. destruct (no_calls _ _ _ _ _ _ _ _ HR HC) as (_ & -> & -> & _). destruct a; reflexivity.
Qed.

Lemma prepare_any L v names d F pf t prep : prepare_tile F pf (server_ctx L v names d prep) t = prepare_tile F pf (base_ctx L v names d) t.
Proof. destruct prep; reflexivity. Qed.

Lemma tiles_step L j co fe raw prep whole a b : libs_ok L -> sinv L j co fe raw prep whole a -> tiles_phase L a b -> sinv L j co fe raw true whole b.
Proof.
  intros HL (D & ks & fs & names & d & sea & v & rows & HC & HM & Hv & HB & HW & HT1 & HT2) (m & x & s & Em & Ex & HR & HX & ->).
  rewrite (ctx_of L _ names d sea prep v HM Hv) in Ex. apply Ok_inj in Ex. subst x.
  destruct (prepare_done _ _ _ _ _ _ _ Em HR HX (ok_threads _ HL) (proj1 HT1)) as (_ & D2 & D3 & D4 & D5).
  exists D, ks, fs, names, d, sea, v, rows. cbn [ss_meta ss_features ss_tiles ss_file]. split; [assumption|]. split; [|split; [assumption|split; [assumption|split; [assumption|split; [split; [assumption|]|]]]]].
  - destruct HM as [M1 M2 M3 M4]. constructor; rewrite ?meta_get_put_other by (apply key_neq; reflexivity); try assumption. apply meta_get_put.
  - apply Forall_forall. intros [k b0] He. cbn [fst]. apply (table_get_in _ _ _ D3) in He.
    destruct (find (fun t => match tile_to_key t 0 with Ok k' => k' =? k | _ => false end) (p_rendered s)) as [t|] eqn:EF.
    + apply find_some in EF as [Ht Hk]. destruct (tile_to_key t 0) as [k'| | |] eqn:Ek; try discriminate Hk. apply N.eqb_eq in Hk. subst k'. apply tile_to_key_ok in Ek as [Ek _]. rewrite Ek. now apply D2 in Ht.
    + rewrite D5 in He; [|intros t Ht Hk; apply (find_none _ _ EF) in Ht; rewrite Hk, N.eqb_refl in Ht; discriminate Ht].
      apply table_get_In in He. exact (proj1 (Forall_forall _ _) (proj2 HT1) _ He).
  - intros t k Hz Ht Hk. destruct (in_dec tile_dec t (p_rendered s)) as [Hin|Hni].
    + destruct (D4 t Hin) as (r & Er & Hr). rewrite prepare_any in Er. rewrite (Hr k Hk). destruct r as [b0|]; [left; eauto|].
      destruct (HT2 t k Hz Ht Hk) as [Q|[Q _]]; [left; exact Q|]. left. exists (ss_file a), rows. split; [assumption|]. now rewrite Q.
    + rewrite D5.
      * destruct (HT2 t k Hz Ht Hk) as [Q|[Q _]]; [left; exact Q|]. right. split; [assumption|]. intros _ Hb. apply Hni, D2; auto.
      * intros t' Ht' Hk'. destruct (tile_key_injective _ _ _ _ _ Hk Hk') as [-> _]. contradiction.
Qed.

Lemma reopen_step L j co fe raw prep whole a : sinv L j co fe raw prep whole a -> blen (st_pack (close_session a)) + 1 < 2 ^ 64 ->
  sinv L j co fe raw prep whole (open_store (close_session a)).
Proof.
  intros (D & ks & fs & names & d & sea & v & rows & HC & HM & Hv & HB & HT) Hs. exists D, ks, fs, names, d, sea, v, rows.
  cbn [open_store close_session ss_meta ss_features ss_tiles ss_file st_meta st_features st_tiles st_pack] in *. repeat (split; [assumption|]). split; [|assumption]. now apply reopen_binv.
Qed.

Lemma pack_step L j co fe raw whole a b : libs_ok L -> sinv L j co fe raw false whole a -> ss_tiles a = [] -> pack_phase L a b -> pf_size (ss_file b) < 2 ^ 64 ->
  (forall k v rs, In (k, v) (ss_features b) -> pack_records_deserialize v = Ok rs -> Forall (fun r => r_size r < 2 ^ 30) rs) -> sinv L j co fe false false whole b.
Proof.
  intros HL (D & ks & fs & names & d & sea & v & rows & HC & HM & Hv & HB & HW & _) HT HP Hs Hp.
  destruct (pack_spec L raw d D fs a b rows HL (n_dict _ _ _ _ _ _ _ _ _ _ HC) (m_dict _ _ _ _ _ HM) HB HP Hs Hp) as (rows' & HB' & HW' & Em & Et).
  exists D, ks, fs, names, d, sea, v, rows'. rewrite Em, Et, HT. split; [assumption|]. split; [assumption|]. split; [assumption|]. split; [assumption|]. split; [auto | apply no_tiles_say].
Qed.

Lemma tiles_keep L a b : tiles_phase L a b -> ss_features b = ss_features a /\ ss_file b = ss_file a.
Proof. intros (m & x & s & _ & _ & _ & _ & ->). split; reflexivity. Qed.

Lemma close_size s : pf_inv s -> pf_size s <= blen (pf_close s).
Proof. intros H. destruct (reopen_spec s H) as (R1 & R2 & _). unfold pf_inv, pf_open in *. cbn [pf_mem pf_size] in *. lia. Qed.

Lemma pack_inv L j co fe raw prep whole a b : libs_ok L -> sinv L j co fe raw prep whole a -> pack_phase L a b -> pf_inv (ss_file b).
Proof.
  intros HL (D & ks & fs & names & d & sea & v & rows & HC & HM & Hv & HB & HT1) (d' & tasks' & s & T & Ed & ER & HR & HPc & HN & ET & ->). cbn [ss_file] in *.
  destruct (rows_stores _ _ _ _ _ _ _ _ HB) as [B1 B2].
  apply (ProofPackDb.done_layout _ _ _ _ _ _ (ok_possort _ HL) (ok_recsort _ HL) (ok_tasksort _ HL) (packs_with_nonempty L d') _ (map row_index rows) (ss_features a) B1 B2 (rows_filled _ _ _ _ _ _ _ _ HB) (b_inv _ _ _ _ _ _ _ _ HB) (b_size _ _ _ _ _ _ _ _ HB) (rows_layout _ _ _ _ _ _ _ _ HB) tasks' ER s HR HPc).
Qed.
(** from the state after loading to the end of a run *)
Lemma run_rest L j co fe raw prep whole tasks s1 s2 s3 st' : libs_ok L -> sinv L j co fe raw prep whole s1 ->
  (if has_any_task tasks [lit "pack"] then pack_phase L s1 s2 else s2 = s1) ->
  (if has_any_task tasks [lit "tiles"] then tiles_phase L s2 s3 else s3 = s2) ->
  st' = close_session s3 -> blen (st_pack st') + 1 < 2 ^ 64 -> small_packs st' ->
  (has_any_task tasks [lit "pack"] = true -> prep = false /\ ss_tiles s1 = []) ->
  sinv L j co fe (raw && negb (has_any_task tasks [lit "pack"])) (prep || has_any_task tasks [lit "tiles"]) whole (open_store st').
Proof.
  intros HL H1 HP HT -> Hs Hsm Hra.
  assert (HK : ss_features s3 = ss_features s2 /\ ss_file s3 = ss_file s2) by (destruct (has_any_task tasks [lit "tiles"]); [now apply tiles_keep in HT | now subst]).
  destruct HK as [HK1 HK2].
  assert (H2 : sinv L j co fe (raw && negb (has_any_task tasks [lit "pack"])) prep whole s2).
  { destruct (has_any_task tasks [lit "pack"]); cbn [negb]; [|rewrite andb_true_r; now subst].
    destruct (Hra eq_refl) as [-> Ht]. rewrite andb_false_r. apply (pack_step L j co fe raw whole s1 s2); try assumption.
    - cbn [close_session st_pack] in Hs. rewrite HK2 in Hs. pose proof (close_size _ (pack_inv _ _ _ _ _ _ _ _ _ HL H1 HP)). lia.
    - intros k v rs Hk. apply (Hsm k v rs). cbn [close_session st_features]. now rewrite HK1. }
  assert (H3 : sinv L j co fe (raw && negb (has_any_task tasks [lit "pack"])) (prep || has_any_task tasks [lit "tiles"]) whole s3).
  { destruct (has_any_task tasks [lit "tiles"]); [rewrite orb_true_r; eapply tiles_step; eauto | rewrite orb_false_r; now subst]. }
  apply reopen_step; assumption.
Qed.

Lemma loaded_sinv L tasks j s1 : libs_ok L -> job_ok L j -> load_phase L tasks j (open_store empty_store) s1 ->
  sinv L j (has_any_task tasks [lit "coastlines"]) (has_any_task tasks [lit "features"]) true false true s1 /\ ss_tiles s1 = [].
Proof.
  intros HL HJ R1. destruct (load_spec L tasks j s1 HL HJ R1) as (D & ks & fs & names & d & sea & rows & C1 & C2 & C3 & C3' & C4).
  destruct (m_sea _ _ _ _ _ C2) as (v & _ & Hv). split; [|assumption]. exists D, ks, fs, names, d, sea, v, rows. repeat (split; [assumption|]). split; [auto|]. rewrite C4. apply no_tiles_say.
Qed.
(** without tiles, unless they were prepared *)
Lemma history_tiles L j co fe raw prep st : libs_ok L -> job_ok L j -> history L j co fe raw prep st -> prep = false -> st_tiles st = [].
Proof.
  assert (HP : forall L tasks s1 s2, (if has_any_task tasks [lit "pack"] then pack_phase L s1 s2 else s2 = s1) -> ss_tiles s2 = ss_tiles s1).
  { intros L0 tasks s1 s2 H. destruct (has_any_task tasks [lit "pack"]); [|now subst]. destruct H as (d' & tasks' & s & T & _ & _ & _ & _ & _ & _ & ->). reflexivity. }
  intros HL HJ H. induction H as [tasks st st' Hl HR Hsm | tasks j' co fe raw prep st st' H IH Hl HR Hsm Hra]; intros E; destruct HR as (s1 & s2 & s3 & R1 & R2 & R3 & R4 & R5 & R6); rewrite Hl in R1.
  - rewrite E in R4. subst s3 st'. destruct (loaded_sinv L tasks j s1 HL HJ R1) as [_ E1]. cbn [close_session st_tiles]. now rewrite (HP _ _ _ _ R3).
  - apply orb_false_iff in E as [E1 E2]. rewrite E2 in R4. subst s3 st'. apply load_nothing in R1; [|assumption]. subst s1. cbn [close_session st_tiles]. rewrite (HP _ _ _ _ R3). cbn [open_store ss_tiles]. auto.
Qed.
Lemma history_sinv L j co fe raw prep st : libs_ok L -> job_ok L j -> history L j co fe raw prep st -> sinv L j co fe raw prep true (open_store st).
Proof.
  intros HL HJ H. induction H as [tasks st st' Hl HR Hsm | tasks j' co fe raw prep st st' H IH Hl HR Hsm Hra]; destruct HR as (s1 & s2 & s3 & R1 & R2 & R3 & R4 & R5 & R6); rewrite Hl in R1.
  - destruct (loaded_sinv L tasks j s1 HL HJ R1) as [S1 S2]. apply (run_rest L j _ _ true false true tasks s1 s2 s3 st'); auto.
  - apply load_nothing in R1; [|assumption]. subst s1. eapply run_rest; eauto. intros E. specialize (Hra E). split; [assumption|]. exact (history_tiles _ _ _ _ _ _ _ HL HJ H Hra).
Qed.

(** ** Serving *)
Lemma near_only L raw d D fs T s rows t f : binv L raw d D fs T s rows -> In f (near_features rows t) -> exists i, index_tile 10 i /\ related i t /\ cont D fs i f /\ has_entry T i.
Proof.
  intros [[B1 [_ B3]] B4 B5 _ _ _ _]. unfold near_features. rewrite in_flat_map.
  intros (r & Hr & Hf). apply filter_In in Hr as [Hr Hrel]. destruct (proj1 (Forall_forall _ _) B3 _ Hr) as (Z1 & Z2 & _).
  assert (Hi : index_tile 10 (row_tile r)). { split; [assumption|]. unfold valid_tile in Z2. rewrite Z1 in Z2. exact Z2. }
  exists (row_tile r). split; [assumption|]. split; [now apply relatedb_spec|]. split.
  - apply B5; [assumption|]. unfold tile_features. apply in_flat_map. exists r. split; [|assumption]. apply filter_In. split; [assumption | now apply tile_eqb_eq].
  - apply (row_entry rows); try assumption. apply (proj1 (Forall_forall _ _) B4 _ Hr).
Qed.
Lemma near_all L raw d D fs T s rows t f i : binv L raw d D fs T s rows -> index_tile 10 i -> related i t -> cont D fs i f -> has_entry T i -> In f (near_features rows t).
Proof.
  intros [_ _ _ B5 _ _ _] Hi Hrel Hc He. unfold near_features. rewrite in_flat_map. apply B5 in Hc; [|assumption|assumption].
  unfold tile_features in Hc. apply in_flat_map in Hc as (r & Hr & Hf). apply filter_In in Hr as [Hr Ht]. apply tile_eqb_eq in Ht.
  exists r. split; [|assumption]. apply filter_In. split; [assumption|]. apply relatedb_spec. now rewrite Ht.
Qed.

Lemma no_packs L raw d D fs T s rows t : binv L raw d D fs T s rows -> tz t <= 20 -> valid_tile t -> ~ in_bounds T t -> foreach_pack T s t = Ok [].
Proof.
  intros HB Hz Hv Hb. pose proof HB as [[B1 [B2 B3]] B4 _ _ _ _ _]. unfold foreach_pack. rewrite (foreach_exact_db _ _ t B1 B2 Hz Hv).
  assert (E : filter (fun d0 : tile * N * list pack_record => (tz (fst (fst d0)) =? 10) && relatedb (fst (fst d0)) t) (map row_index rows) = []); [|now rewrite E].
  apply Permutation_nil. apply Permutation_sym. destruct (filter _ _) as [|a l] eqn:E; [constructor|]. exfalso.
  assert (Ha : In a (filter (fun d0 : tile * N * list pack_record => (tz (fst (fst d0)) =? 10) && relatedb (fst (fst d0)) t) (map row_index rows))) by (rewrite E; now left).
  apply filter_In in Ha as [Ha Hr]. apply andb_prop in Hr as [_ Hr]. apply relatedb_spec in Hr.
  destruct (Forall2_in_l _ _ _ _ B1 Ha) as (e & He & (K & _)). apply tile_to_key_ok in K as [K _]. apply in_map_iff in Ha as (r & <- & Hin). cbn [row_index fst] in *. destruct (proj1 (Forall_forall _ _) B3 _ Hin) as (Z1 & _).
  apply Hb. exists (row_tile r). split; [|assumption]. split; [assumption|]. rewrite <- K. repeat split; exists e; (split; [assumption|]); lia.
Qed.

Lemma serve_sinv L j co fe raw prep whole st : libs_ok L -> sinv L j co fe raw prep whole (open_store st) ->
  exists D ks fs names d sea, content L j co fe D ks fs names d sea /\ (whole = true -> whole_db D fs (st_features st)) /\ forall t, tz t <= 20 -> valid_tile t ->
    ((exists x tiles pf rows, view L names d sea (prep && (tz t <=? 10)) t x /\ binv L raw d D fs (st_features st) pf rows /\ serve_tile L st t = get_tile tiles (st_features st) pf x t) \/
     (prep = true /\ tz t <= 10 /\ serve_tile L st t = Ok None /\ (forall i, index_tile 10 i -> related i t -> ~ has_entry (st_features st) i) /\ ~ covered sea t)).
Proof.
  intros HL (D & ks & fs & names & d & sea & v & rows & HC & HM & Hsv & HB & HW & HT1 & HT2).
  cbn [open_store ss_meta ss_features ss_tiles ss_file] in *. exists D, ks, fs, names, d, sea. split; [assumption|]. split; [assumption|]. intros t Hz Hv.
  unfold serve_tile. rewrite (ctx_of L _ names d sea prep v HM Hsv). cbn [bind].
  assert (Hsb : seaside_is (base_ctx L v names d) sea) by (apply sea_of_tree; [exact (n_sea _ _ _ _ _ _ _ _ _ _ HC) | assumption]).
  destruct prep; cbn [andb]; [destruct (N.leb_spec (tz t) 10) as [Hl|Hl]|].
  - assert (exists k, tile_to_key t 0 = Ok k) as (k & Hk).
    { apply index_key with (z := tz t); [lia|]. split; [reflexivity | exact Hv]. }
    assert (Hcore : forall pf rows', binv L raw d D fs (st_features st) pf rows' -> prepare_tile (st_features st) pf (base_ctx L v names d) t = Ok (table_get (st_tiles st) k) ->
      exists x tiles pf rows, view L names d sea true t x /\ binv L raw d D fs (st_features st) pf rows /\
       get_tile (st_tiles st) (st_features st) (pf_open (st_pack st)) (server_ctx L v names d true) t = get_tile tiles (st_features st) pf x t).
    { intros pf rows' HB' EP. exists (on_demand (base_ctx L v names d)), [], pf, rows'. split; [|split; [assumption|]].
      - constructor; try reflexivity; [exact Hsb|]. intros [Hp _]. discriminate Hp.
      - unfold server_ctx. apply (serve_core (st_features st) 10 (st_tiles st) (base_ctx L v names d) pf t k sea _ _ _ EP eq_refl); try assumption; try lia. exact (ok_square _ HL). }
    destruct (HT2 t k Hl Hv Hk) as [(pf & rows' & HB' & EP)|[T2 Hb]].
    + left. eapply Hcore; eauto.
    + specialize (Hb eq_refl). destruct (sea_contains _ sea t Hsb Hz Hv) as (b & Eb & Hcov). destruct b.
      * left. apply (Hcore (pf_open (st_pack st)) rows HB). rewrite T2. unfold prepare_tile. rewrite (no_packs _ _ _ _ _ _ _ _ t HB Hz Hv Hb). cbn [bind].
        unfold render_tile, make_builder. destruct (square_ctx t Hz Hv) as (sp & Esp & _). rewrite Esp. cbn [bind].
        destruct (sea_total (prepare_ctx (base_ctx L v names d)) t sea Hsb Hz Hv) as (ss & Es & _). rewrite Es. cbn [bind].
        unfold render_features. rewrite Esp. cbn [bind map_res concat prepare_ctx base_ctx x_ignore_seaside x_seaside].
        cbn [base_ctx x_seaside] in Eb. rewrite Eb. reflexivity.
      * right. split; [reflexivity|]. split; [assumption|]. split; [|split].
        -- unfold get_tile, kMaxZoomLevel. replace (tz t <=? 20) with true by lia. cbn [verify bind server_ctx serving base_ctx x_ignore_prepared x_max_prepared x_seaside negb andb].
           replace (Z.of_N (tz t) <=? Z.of_N 10)%Z with true by lia. rewrite Hk. cbn [bind]. rewrite T2. cbn [base_ctx x_seaside] in Eb. rewrite Eb. reflexivity.
        -- intros i Hi Hr Hc. apply Hb. exists i. split; [|assumption]. eapply entry_in_table; eauto.
        -- intros Hc. apply Hcov in Hc. discriminate.
  - left. exists (server_ctx L v names d true), (st_tiles st), (pf_open (st_pack st)), rows. split; [|split; [assumption | reflexivity]].
    constructor; try reflexivity; [exact Hsb|]. intros [_ Hp]. cbn [server_ctx serving x_max_prepared] in Hp. lia.
  - left. exists (server_ctx L v names d false), (st_tiles st), (pf_open (st_pack st)), rows. split; [|split; [assumption | reflexivity]].
    constructor; try reflexivity; [exact Hsb|]. intros [_ Hp]. cbn [server_ctx base_ctx x_max_prepared] in Hp. lia.
Qed.
