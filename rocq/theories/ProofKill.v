(** Imports that are killed while loading. *)
From Coq Require Import Permutation String Ascii Sorting.Sorted.
From Coq Require Import List.
From Verif Require Import Base BaseProof ModelTile SpecTile ProofTile ModelPackFile SpecPackFile ProofPackFile ModelTable ModelCodec ModelGeom SpecGeom ModelFeature SpecFeature ModelPack
  ModelPacker SpecPacker ModelBqTree SpecBqTree ModelMvt SpecMvt SpecLines ModelRender SpecRender ProofRender ModelPrepare SpecPrepare
  ModelInserter SpecInserter ProofInserter ProofInserterTop SpecLayout ProofLayout ModelDict SpecDict ProofDict ModelOsm SpecOsm ModelDrain SpecDrain ProofDrain ModelCoast SpecCoast ProofCoastRun ProofCoastEx ModelServer ModelImport SpecImport
  ProofImportObjects ProofImportLoad ProofImportRun ProofImportPack ProofImportServe ProofImportTop SpecRepack ModelCrash SpecCrash ProofCrash SpecFinish ProofImportFinish ProofImportFinish2 ModelAbort ProofAbort.
Import ListNotations.
Open Scope N_scope.

(** ** Coastlines that are being loaded *)
Section Can.
Context {G D Z : Type} (proc : G -> list (out G D Z)).
Definition can (o : out G D Z) : Prop := exists l, gives proc o l.
Lemma can_outcome os : Forall can os -> exists l, outcome proc os l.
Proof.
  intros H. assert (E : exists ls, Forall2 (gives proc) os ls).
  { induction H as [|o os (l & Ho) H (ls & IH)]; [exists []; constructor|]. exists (l :: ls). now constructor. }
  destruct E as (ls & E). exists (concat ls), ls. split; [assumption | reflexivity].
Qed.
Lemma outcome_can os l : outcome proc os l -> Forall can os.
Proof. intros (ls & F & _). clear -F. induction F as [|o l os ls H F IH]; constructor; [exists l; assumption | assumption]. Qed.
Lemma can_task g : can (OTask g) -> Forall can (proc g).
Proof. intros (l & H). inversion H as [| |g' ls F]; subst. clear -F. induction F as [|o l os ls H F IH]; constructor; [exists l; assumption | assumption]. Qed.
Lemma pend_can tasks n s : Forall can (map OTask tasks) -> creach proc tasks n s -> Forall can (pend s).
Proof.
  intros HT R. induction R as [|s s' R IH St].
  - unfold pend. cbn [cst_init c_geo c_db c_main c_workers map mpend app]. rewrite Forall_app. split; [exact HT|]. assert (E : flat_map wpend (repeat (@WTop G D Z) n) = []) by (clear; induction n; auto). rewrite E. constructor.
  - unfold pend in *. assert (HR : forall d, can (OResult d)) by (intros d; eexists; constructor). assert (HTg : forall g, can (OTask g) -> Forall can (proc g)) by apply can_task.
    destruct St; cbn [c_geo c_db c_main c_workers mpend] in *; rewrite ?map_app, ?flat_map_app in *; cbn [map flat_map wpend mpend] in *; rewrite ?Forall_app in *; cbn [app] in *; rewrite ?Forall_cons_iff, ?Forall_app in *; intuition auto.
Qed.
End Can.

Lemma coast_any L polys s cc : libs_ok L -> creach (coast_proc (l_ccut L) (l_cdiff L) (l_fix_rings L)) (coast_tasks polys) (l_threads L) s ->
  no_exception (l_ccut L) (l_cdiff L) (l_fix_rings L) (coast_tasks polys) ->
  Forall2 (fun d c => exists v, ser (snd d) = Ok v /\ c = CValue (fst d) v) (c_inserted s) cc ->
  Forall (fun e => tz (fst e) = 10 /\ valid_tile (fst e) /\ sea_feature (fst e) (snd e)) (c_inserted s) /\
  Forall (fun f => fine f /\ has_area L (f_geom f)) (map snd (c_inserted s)).
Proof.
  intros HL R NE HC. destruct (outcome_exists (l_ccut L) (l_cdiff L) (l_fix_rings L) polys) as (l0 & O0).
  destruct (can_outcome _ _ (pend_can _ _ _ _ (outcome_can _ _ _ O0) R)) as (l & Ol). pose proof (ci_out _ _ _ (creach_inv _ _ _ _ R) l Ol) as O.
  destruct (outcome_good _ _ _ _ _ NE O) as [_ H2]. apply Forall_app in H2 as [H2 _]. unfold emit in H2. apply Forall_app in H2 as [H2 _]. rewrite Forall_map in H2. split.
  - eapply Forall_impl; [|exact H2]. intros [t f] (V & Z & SF & _). cbn [etile fst snd] in *. auto.
  - apply Forall_forall. intros f Hf. apply in_map_iff in Hf as ([t f'] & <- & Hd). cbn [snd]. destruct (proj1 (Forall_forall _ _) H2 _ Hd) as (V & Z & SF & b & s' & ps & E1 & E2 & E3). cbn [etile] in *.
    destruct (ok_draw _ HL b s' ps E1 E2) as (D1 & D2 & DA & D3). rewrite <- E3 in D1, D2, DA. split; [|exact DA]. destruct SF as (K & F1 & F2 & F3 & F4 & _). destruct (tile_to_key_ok _ _ _ K) as [_ Hid].
    split; [split; [|assumption]|].
    + unfold feature_ok. rewrite F1, F2, F3. repeat split; try reflexivity; assumption.
    + destruct (Forall2_in_l _ _ _ _ HC Hd) as (c & _ & v0 & E0 & _). cbn [snd] in E0. exists v0. split; [assumption|].
      apply (D3 (f_id f') v0 Hid). rewrite <- E0. f_equal. destruct f' as [i ly mn mx ms g]. cbn [f_id f_layer f_minz f_maxz f_meta f_geom] in *. subst. reflexivity.
Qed.

(** ** What can be read *)
Lemma killed_laid T s k m db : laid 10 T s db -> pf_inv s -> torn (pf_mem s) (pf_size s) k m -> blen m + 1 < 2 ^ 64 -> (forall m1 tiles, tail_kept (Store m1 T tiles m)) -> laid 10 T (pf_open m) db.
Proof.
  intros (L1 & L2 & L3 & L4 & L5) HI HT Hm HK.
  assert (HR : forall r, In r (flat_map (fun d => snd (entry_row d)) db) -> r_off r + r_size r <= pf_size (pf_open m)).
  { intros r Hr. apply in_flat_map in Hr as (e & He & Hr). apply tail_open. destruct (Forall2_in_l _ _ _ _ L1 (in_map entry_row _ _ He)) as ([tk tv] & Ht & (_ & HR & HV)). cbn [snd fst] in *.
    apply (HK [] [] tk tv (snd (entry_row e)) r Ht); [|assumption]. rewrite HV. now apply deserialize_serialize. }
  split; [exact L1|]. split; [exact L2|]. split; [|split; [|exact L5]].
  - apply Forall_forall. intros e He. destruct (proj1 (Forall_forall _ _) L3 _ He) as (H1 & H2 & H3). split; [exact H1|]. split; [exact H2|].
    apply Forall_forall. intros p Hp. destruct (proj1 (Forall_forall _ _) H3 _ Hp) as (B & P1 & P2). exists B. split; [exact P1|].
    assert (Hr : In (fst p) (flat_map (fun d => snd (entry_row d)) db)). { apply in_flat_map. exists e. split; [assumption|]. unfold entry_row. cbn [snd]. now apply in_map. }
    destruct (proj1 (Forall_forall _ _) L4 _ Hr) as [Q1 Q2]. apply (open_get s m (fst p) B); try assumption; [|now apply HR]. unfold holds, bytes_of. pose proof (torn_len _ _ _ _ HT) as HL. unfold pf_inv in HI.
    split; [lia|]. apply (torn_slice _ _ _ _ _ _ HT); [lia | left; lia].
  - apply Forall_forall. intros r Hr. split; [apply (proj1 (Forall_forall _ _) L4 _ Hr) | now apply HR].
Qed.
Lemma loaded_part L d D fs cc T s db : Forall fine (map snd D ++ fs) ->
  Forall2 (fun d c => exists v, ser (snd d) = Ok v /\ c = CValue (fst d) v) D cc -> laid 10 T s db ->
  (forall i v, index_tile 10 i -> In v (entry_values db i) -> In v (values_for 10 i (cc ++ map CFeature fs))) ->
  shown_db L true d D fs T s (map row_of db).
Proof.
  intros HF H2 HL HV. destruct HL as (L1 & L2 & L3 & L4).
  assert (Hfine : forall i f, cont D fs i f -> fine f).
  { intros i f Hc. apply (proj1 (Forall_forall _ _) HF). apply in_or_app. destruct Hc as [Hc|[Hc _]]; [left; apply in_map_iff; exists (i, f); auto | now right]. }
  assert (Hstr : forall e, In e db -> index_tile 10 (fst e) -> forall p, In p (snd e) -> forall v, In v (snd p) -> exists f, cont D fs (fst e) f /\ ser f = Ok v).
  { intros e He Hi p Hp v Hv. apply (values_cont D fs cc (fst e) v HF H2). apply HV; [assumption|]. apply in_flat_map. exists e. split; [assumption|].
    assert (X : tile_eqb (fst e) (fst e) = true) by now apply tile_eqb_eq. rewrite X. apply in_concat. exists (snd p). split; [now apply in_map | assumption]. }
  constructor.
  - split; [|split; [assumption|]].
    { rewrite map_map. replace (map (fun x => row_index (row_of x)) db) with (map entry_row db); [assumption|].
      apply map_ext. intros [t ps]. unfold row_index, row_of, entry_row. cbn [fst snd row_tile row_n row_packs]. rewrite map_map. reflexivity. }
    apply Forall_forall. intros r Hr. apply in_map_iff in Hr as (e & <- & He). destruct (proj1 (Forall_forall _ _) L3 _ He) as (I1 & I2 & I3).
    cbn [row_of row_tile row_packs]. split; [apply I1|]. split; [unfold valid_tile; destruct I1 as (-> & ?); tauto|].
    apply Forall_forall. intros rf Hrf. apply in_map_iff in Hrf as (p & <- & Hp). cbn [fst snd]. destruct (proj1 (Forall_forall _ _) I3 _ Hp) as (B & B1 & B2).
    assert (HA : Forall (fun v => exists f, cont D fs (fst e) f /\ ser f = Ok v) (snd p)) by (apply Forall_forall; intros v Hv; eapply Hstr; eauto).
    split; cbn [fst snd].
    + apply Forall_forall. intros f Hf. apply in_map_iff in Hf as (v & <- & Hv). destruct (proj1 (Forall_forall _ _) HA _ Hv) as (f & Hc & Ev).
      rewrite (unser_ser f v (Hfine _ _ Hc) Ev). apply (Hfine _ _ Hc).
    + exists (snd p), B. split; [|auto]. clear - HA Hfine. induction HA as [|v vs (f & Hc & Ev) HA IH]; [constructor|]. cbn [map]. constructor; [|assumption].
      rewrite (unser_ser f v (Hfine _ _ Hc) Ev). split; [assumption|]. destruct (Hfine _ _ Hc) as [_ (v' & E & Hb)]. rewrite Ev in E. apply Ok_inj in E. now subst v'.
  - intros t f Hf. unfold near_features in Hf. apply in_flat_map in Hf as (r & Hr & Hf). apply filter_In in Hr as [Hr Hrel]. apply in_map_iff in Hr as (e & <- & He). cbn [row_of row_tile] in Hrel.
    destruct (proj1 (Forall_forall _ _) L3 _ He) as (I1 & _). exists (fst e). split; [assumption|]. split; [now apply relatedb_spec|].
    unfold row_features in Hf. cbn [row_of row_packs] in Hf. rewrite map_entry in Hf. apply in_flat_map in Hf as (p & Hp & Hf). apply in_map_iff in Hf as (v & <- & Hv).
    destruct (Hstr e He I1 p Hp v Hv) as (f & Hc & Ev). now rewrite (unser_ser f v (Hfine _ _ Hc) Ev).
Qed.
Lemma shown_more L d D fs fs' T s rows : (forall f, In f fs -> In f fs') -> shown_db L true d D fs T s rows -> shown_db L true d D fs' T s rows.
Proof.
  intros HI [H1 H2]. constructor; [assumption|]. intros t f Hf. destruct (H2 t f Hf) as (i & I1 & I2 & [Hc|[Hc Hm]]); exists i; (split; [assumption|]); (split; [assumption|]); [left; assumption | right; auto].
Qed.
Lemma killed_shown L d D fs cc T m : libs_ok L -> Forall fine (map snd D ++ fs) -> Forall (fun f => usable L (f_geom f)) fs ->
  Forall2 (fun d c => exists v, ser (snd d) = Ok v /\ c = CValue (fst d) v) D cc -> inserting L (cc ++ map CFeature fs) T m ->
  blen m + 1 < 2 ^ 64 -> (forall m1 tiles, tail_kept (Store m1 T tiles m)) -> exists rows, shown_db L true d D fs T (pf_open m) rows.
Proof.
  intros HL HF HU H2 (n & s & k & HR & HC & -> & HS & HT) Hm HK. cbn [empty_store st_features st_pack] in HR. change kTileDefaultIndexZoomLvl with 10 in HR.
  destruct (laid_contents 10 (2 ^ 30) (2 ^ 30 / 4 * 3) (l_isort L) [] (pf_open []) [] n s (ok_isort _ HL)) as (db & HLD & HV); try assumption.
  { unfold pf_inv. vm_compute. discriminate. }
  { split; [constructor|]. split; [constructor|]. split; [constructor|]. split; constructor. }
  { vm_compute. discriminate. }
  { rewrite HC. apply Forall_app. split.
    - apply Forall_forall. intros c Hc. destruct (Forall2_in_r _ _ _ _ H2 Hc) as (dd & _ & v0 & Ev & ->). cbn [SpecInserter.proper]. apply (ser_nonempty 0 0 0 (N.le_refl 0) (N.le_0_l _)) in Ev. intros ->. unfold blen in Ev; cbn in Ev; discriminate Ev.
    - apply Forall_map, Forall_forall. intros f Hf. cbn [SpecInserter.proper]. apply (usable_world L). exact (proj1 (Forall_forall _ _) HU _ Hf). }
  pose proof (reach_grows 10 (2 ^ 30) (2 ^ 30 / 4 * 3) (l_isort L) (ok_isort _ HL) [] (pf_open []) n s) as G.
  assert (HG : ProofInserter.grows (pf_open []) (i_file s)). { apply G; [constructor | unfold pf_inv; vm_compute; discriminate | assumption]. } clear G.
  assert (HI' : pf_inv (i_file s)) by (destruct HG as (_ & G & _); exact G).
  exists (map row_of db). apply (loaded_part L d D fs cc); try assumption; [now apply (killed_laid _ (i_file s) k)|].
  intros i v Hi Hv. destruct (HV i Hi) as (new & others & E1 & E2). cbn [entry_values flat_map app] in E1. rewrite E1 in Hv. rewrite <- HC. apply (Permutation_in _ (Permutation_sym E2)), in_or_app. left. exact Hv.
Qed.

(** ** Each stage *)
Lemma tail_any st T : tail_kept st -> st_features st = T -> forall m2 tiles', tail_kept (Store m2 T tiles' (st_pack st)).
Proof. intros H <- m2 tiles' k v rs r. cbn [st_features st_pack]. apply H. Qed.

Lemma killed_end L tasks j st : libs_ok L -> job_ok L j -> killed_load L tasks j LEnd st -> tail_kept st -> blen (st_pack st) + 1 < 2 ^ 64 ->
  exists D ks fs names d sea rows, content L j (has_any_task tasks [lit "coastlines"]) (has_any_task tasks [lit "features"]) D ks fs names d sea /\
    meta_says (st_meta st) names d sea false /\ shown_db L true d D fs (st_features st) (pf_open (st_pack st)) rows.
Proof.
  intros HL HJ H HK Hm. inversion H as [|?|cc m1 oc m2 T m Hco Hfe HI]; subst. cbn [st_pack st_features st_meta] in *.
  destruct (load_content L tasks j cc m1 oc m2 HL HJ Hco Hfe) as (D & ks & fs & fs' & ns & d & sea & C1 & C2 & F2 & F3 & P2 & _). rewrite F2 in HI.
  destruct (killed_shown L d D fs' cc T m HL) as (rows & HD); try assumption.
  - pose proof (n_fine _ _ _ _ _ _ _ _ _ _ C1) as HF. apply Forall_app in HF as [H1 H2]. apply Forall_app. split; [assumption|]. apply Forall_forall. intros f Hf. apply (proj1 (Forall_forall _ _) H2). now apply (Permutation_in _ F3).
  - apply Forall_forall. intros f Hf. apply (proj1 (Forall_forall _ _) (n_usable _ _ _ _ _ _ _ _ _ _ C1)). now apply (Permutation_in _ F3).
  - exact (tail_any _ T HK eq_refl).
  - exists D, ks, fs, ns, d, sea, rows. split; [assumption|]. split; [assumption|]. apply (shown_more L d D fs'); [intros f Hf; now apply (Permutation_in _ F3) | assumption].
Qed.
Lemma killed_osm L tasks j done st : libs_ok L -> job_ok L j -> killed_load L tasks j (LOsm done) st -> tail_kept st -> blen (st_pack st) + 1 < 2 ^ 64 ->
  exists D ks fs names d sea rows, content L (Job (j_polys j) done) (has_any_task tasks [lit "coastlines"]) true D ks fs names d sea /\
    meta_says (st_meta st) [coastline] [] sea false /\ shown_db L true [] D fs (st_features st) (pf_open (st_pack st)) rows.
Proof.
  intros HL HJ H HK Hm. inversion H as [|cc m1 objs fs0 nm oc others done' rest T m Hco Hf HP Hob HA Hoc HI|]; subst. cbn [st_pack st_features st_meta] in *.
  pose proof (job_part L (j_polys j) (j_objs j) done rest ltac:(destruct j; exact HJ) HP) as HJ'.
  assert (Ho1 : exists fs1 fs2, oc = map CFeature fs1 /\ Permutation (fs1 ++ fs2) fs0).
  { clear -Hoc. apply Permutation_map_inv in Hoc as (l & E & HP). symmetry in E. apply map_eq_app in E as (l1 & l2 & -> & E1 & E2). exists l1, l2. split; [now symmetry|]. now symmetry. }
  destruct Ho1 as (fs1 & fs2 & -> & Hfs).
  destruct (osm_finish L done objs fs0 nm (map CFeature fs0) HL (proj1 HJ') (proj2 (proj2 HJ')) Hob HA (Permutation_refl _)) as (ns & dict & HLo).
  destruct (load_content L tasks (Job (j_polys j) done) cc m1 (map CFeature fs0) (meta_put (meta_put m1 kLayerNames ns) kMetaCoding dict) HL HJ') as (D & ks & fs & fs' & names & d & sea & C1 & C2 & F2 & F3 & P2 & _);
    [exact Hco | rewrite Hf; cbn [j_objs]; eauto|]. rewrite Hf in C1.
  assert (E : fs' = fs0). { clear -F2. revert fs' F2. induction fs0 as [|f l IH]; intros [|g l'] E; cbn [map] in E; try discriminate E; [reflexivity|]. injection E as -> E. f_equal. now apply IH. } subst fs'.
  assert (Hin : forall f, In f fs1 -> In f fs) by (intros f Hff; apply (Permutation_in _ F3), (Permutation_in _ Hfs), in_or_app; now left).
  destruct (killed_shown L [] D fs1 cc T m HL) as (rows & HD); try assumption.
  - pose proof (n_fine _ _ _ _ _ _ _ _ _ _ C1) as HF. apply Forall_app in HF as [H1 H2]. apply Forall_app. split; [assumption|]. apply Forall_forall. intros f Hff. apply (proj1 (Forall_forall _ _) H2). auto.
  - apply Forall_forall. intros f Hff. apply (proj1 (Forall_forall _ _) (n_usable _ _ _ _ _ _ _ _ _ _ C1)). auto.
  - exact (tail_any _ T HK eq_refl).
  - exists D, ks, fs, names, d, sea, rows. split; [assumption|]. split; [|apply (shown_more L [] D fs1); assumption].
    assert (HM : meta_get m1 kLayerNames = None /\ meta_get m1 kMetaCoding = None /\ meta_get m1 kMaxPrepared = None).
    { unfold coast_done in Hco. destruct (has_any_task tasks [lit "coastlines"]); [destruct Hco as (e & _ & ->) | destruct Hco as [_ ->]]; repeat split; reflexivity. }
    destruct HM as (M1 & M2 & M3). constructor; rewrite ?M1, ?M2, ?M3; try reflexivity. destruct (m_sea _ _ _ _ _ C2) as (v' & V1 & V2). exists v'. split; [|assumption].
    rewrite !(meta_get_put_other _ kMetaCoding), !(meta_get_put_other _ kLayerNames) in V1 by (apply key_neq; reflexivity). exact V1.
Qed.
Lemma killed_coast L tasks j D st : libs_ok L -> killed_load L tasks j (LCoast D) st -> tail_kept st -> blen (st_pack st) + 1 < 2 ^ 64 ->
  exists rows, meta_says (st_meta st) [coastline] [] [] false /\ shown_db L true [] D [] (st_features st) (pf_open (st_pack st)) rows /\
    Forall (fun e => tz (fst e) = 10 /\ valid_tile (fst e) /\ sea_feature (fst e) (snd e)) D /\ Forall (fun f => fine f /\ has_area L (f_geom f)) (map snd D).
Proof.
  intros HL H HK Hm. inversion H as [s cc T m Hco HR NE H2 HI| |]; subst. cbn [st_pack st_features st_meta] in *.
  destruct (coast_any L (j_polys j) s cc HL HR NE H2) as [C1 C2]. rewrite <- (app_nil_r cc) in HI.
  destruct (killed_shown L [] (c_inserted s) [] cc T m HL) as (rows & HD); try assumption.
  - rewrite app_nil_r. eapply Forall_impl; [|exact C2]. intros f [Hf _]. exact Hf.
  - constructor.
  - exact (tail_any _ T HK eq_refl).
  - exists rows. split; [|auto]. constructor; try reflexivity. exists [kEmptyRoot]. split; reflexivity.
Qed.

(** ** The server *)
Lemma says_view L m names d sea t : meta_says m names d sea false -> Forall (fun t => tz t <= 10 /\ valid_tile t) sea ->
  exists x, make_render_ctx L m = Ok x /\ view L names d sea false t x.
Proof.
  intros HM HS. destruct (m_sea _ _ _ _ _ HM) as (v & _ & Hsv). exists (server_ctx L v names d false). split; [exact (ctx_of L _ names d sea false v HM Hsv)|].
  constructor; try reflexivity; [apply sea_of_tree; assumption|]. intros [_ Hp]. cbn [server_ctx base_ctx x_max_prepared] in Hp. lia.
Qed.
Lemma sea_features D fs L T pf rows t : shown_db L true [] D fs T pf rows -> fs = [] ->
  Forall (fun e => tz (fst e) = 10 /\ valid_tile (fst e) /\ sea_feature (fst e) (snd e)) D -> Forall (fun f => fine f /\ has_area L (f_geom f)) (map snd D) ->
  Forall (fun f => f_layer f = 0 /\ meta_ok f /\ joinable (f_geom f) /\ has_area L (f_geom f)) (near_features rows t).
Proof.
  intros HD -> H1 H2. apply Forall_forall. intros f Hf. destruct (h_near _ _ _ _ _ _ _ _ HD t f Hf) as (e & _ & _ & [He|[[] _]]).
  destruct (proj1 (Forall_forall _ _) H1 _ He) as (_ & _ & _ & F1 & _ & _ & F4 & ps & F5). cbn [fst snd] in *.
  destruct (proj1 (Forall_forall _ _) H2 f) as [_ HA]; [apply in_map_iff; exists (e, f); auto|].
  split; [assumption|]. split; [unfold meta_ok; rewrite F4; constructor|]. split; [rewrite F5; exact I | exact HA].
Qed.

Lemma killed_total : forall L tasks j g st, libs_ok L -> job_ok L j -> killed_load L tasks j g st -> tail_kept st -> blen (st_pack st) + 1 < 2 ^ 64 ->
  forall t, tz t <= 20 -> valid_tile t ->
  (forall done, g = LOsm done -> forall e i layer mn, index_tile 10 e -> related e t -> In i done -> imported L i layer mn -> layer <> coastline -> meets 10 e (bounding_box (snd (fst i))) = false) ->
  exists r, serve_tile L st t = Ok r.
Proof.
  intros L tasks j g st HL HJ H HK Hm t Hz Hv Hno. destruct g as [D|done|].
  - destruct (killed_coast L tasks j D st HL H HK Hm) as (rows & HM & HD & H1 & H2). destruct (says_view L _ _ _ _ t HM (Forall_nil _)) as (x & Ex & HV).
    unfold serve_tile. rewrite Ex. cbn [bind]. apply (bare_total L [] t x _ _ _ rows); try assumption; [apply (h_db _ _ _ _ _ _ _ _ HD)|]. now apply (sea_features D [] L (st_features st) (pf_open (st_pack st))).
  - destruct (killed_osm L tasks j done st HL HJ H HK Hm) as (D & ks & fs & names & d & sea & rows & HC & HM & HD). destruct (says_view L _ _ _ _ t HM (n_sea _ _ _ _ _ _ _ _ _ _ HC)) as (x & Ex & HV).
    unfold serve_tile. rewrite Ex. cbn [bind]. apply (bare_total L sea t x _ _ _ rows); try assumption; [apply (h_db _ _ _ _ _ _ _ _ HD)|].
    exact (bare_features L _ _ D ks fs names d sea _ _ rows t HC HD (Hno done eq_refl)).
  - destruct (killed_end L tasks j st HL HJ H HK Hm) as (D & ks & fs & names & d & sea & rows & HC & HM & HD). destruct (says_view L _ _ _ _ t HM (n_sea _ _ _ _ _ _ _ _ _ _ HC)) as (x & Ex & HV).
    unfold serve_tile. rewrite Ex. cbn [bind]. exact (v_total L j _ _ true false HL D ks fs names d sea HC t Hz Hv x _ _ _ rows HV HD).
Qed.

(** what is shown *)
Lemma killed_end_only : forall L tasks j st, libs_ok L -> job_ok L j -> killed_load L tasks j LEnd st -> tail_kept st -> blen (st_pack st) + 1 < 2 ^ 64 ->
  let co := has_any_task tasks [lit "coastlines"] in
  exists s, (co = true -> coast_result L (j_polys j) s) /\
  forall t z, tz t <= 20 -> valid_tile t -> serve_tile L st t = Ok (Some z) ->
  exists buf, l_deflate L buf = Ok z /\ (blen buf < 2 ^ 29 -> exists vls, decode_tile buf = Some vls /\ forall vl v, In vl vls -> In v (vl_features vl) ->
    (co = true /\ vl_name vl = coastline /\ v_tags v = [] /\ vkind (v_geom v) = 3 /\ exists e, covers t e /\ covered (c_sea s) e /\ tile_to_key e 0 = Ok (v_id v)) \/
    (co = true /\ exists e f g', In (e, f) (c_inserted s) /\ related e t /\ touches (bounding_box (f_geom f)) (draw_area t) /\
       vl_name vl = coastline /\ tile_to_key e 0 = Ok (v_id v) /\ v_tags v = [] /\
       clip (l_cut L) (draw_area t) (f_geom f) = Ok g' /\ relative_geom (tile_corner t) (shift_geom (tz t) g') = Some (v_geom v)) \/
    (exists o g cs mn, In (o, g, cs) (j_objs j) /\ imported L (o, g, cs) (vl_name vl) mn /\ mn <= tz t /\ touches (bounding_box g) (draw_area t) /\
       exists g', clip (l_cut L) (draw_area t) g = Ok g' /\ shows_object L t (o, g, cs) g' v)).
Proof.
  intros L tasks j st HL HJ H HK Hm co. destruct (killed_end L tasks j st HL HJ H HK Hm) as (D & ks & fs & names & d & sea & rows & HC & HM & HD).
  fold co in HC. clearbody co. pose proof (n_coast _ _ _ _ _ _ _ _ _ _ HC) as HR.
  assert (HX : exists s, (co = true -> coast_result L (j_polys j) s) /\ (co = true -> D = c_inserted s /\ sea = c_sea s) /\ (co = false -> D = [] /\ sea = [])).
  { destruct co; [destruct HR as (s & ? & ? & ?); exists s | exists (Cst 0 [] 0 [] [] MExit [] [])]; (split; [intros HH; auto; discriminate HH|split; intros HH; auto; discriminate HH]). }
  destruct HX as (s & X1 & X2 & X3). exists s. split; [assumption|]. intros t z Hz Hv E.
  destruct (says_view L _ _ _ _ t HM (n_sea _ _ _ _ _ _ _ _ _ _ HC)) as (x & Ex & HV). unfold serve_tile in E. rewrite Ex in E. cbn [bind] in E.
  destruct (v_only L j co _ true false HL D ks fs names d sea HC t Hz Hv x _ _ _ rows HV HD z E) as (buf & B1 & B2). exists buf. split; [assumption|]. intros Hb. destruct (B2 Hb) as (vls & D1 & D2). exists vls. split; [assumption|].
  intros vl v H1 H2. destruct (D2 vl v H1 H2) as [(A1 & A2 & A3 & e & A4 & A5 & A6)|[(e & f & g' & A1 & A2)|([[o g] cs] & mn & A1 & A2 & A3 & A4 & A5 & A6)]].
  - left. destruct co; [|destruct (X3 eq_refl) as [_ ->]; destruct A5 as (q & [] & _)]. destruct (X2 eq_refl) as [_ <-]. split; [reflexivity|]. repeat (split; [assumption|]). exists e. auto.
  - right; left. destruct co; [|destruct (X3 eq_refl) as [-> _]; destruct A1]. destruct (X2 eq_refl) as [<- _]. split; [reflexivity|]. exists e, f, g'. split; assumption.
  - right; right. destruct A6 as [A6|(A6 & _)]; [|discriminate A6]. exists o, g, cs, mn. repeat (split; [assumption|]). exact A6.
Qed.

Lemma killed_coast_only : forall L tasks j D st, libs_ok L -> killed_load L tasks j (LCoast D) st -> tail_kept st -> blen (st_pack st) + 1 < 2 ^ 64 ->
  forall t z, tz t <= 20 -> valid_tile t -> serve_tile L st t = Ok (Some z) ->
  exists buf, l_deflate L buf = Ok z /\ (blen buf < 2 ^ 29 -> exists vls, decode_tile buf = Some vls /\ forall vl v, In vl vls -> In v (vl_features vl) ->
    exists e f g', In (e, f) D /\ related e t /\ touches (bounding_box (f_geom f)) (draw_area t) /\ vl_name vl = coastline /\ tile_to_key e 0 = Ok (v_id v) /\ v_tags v = [] /\
      clip (l_cut L) (draw_area t) (f_geom f) = Ok g' /\ relative_geom (tile_corner t) (shift_geom (tz t) g') = Some (v_geom v)).
Proof.
  intros L tasks j D st HL H HK Hm t z Hz Hv E. destruct (killed_coast L tasks j D st HL H HK Hm) as (rows & HM & HD & H1 & H2). destruct (says_view L _ _ _ _ t HM (Forall_nil _)) as (x & Ex & HV).
  unfold serve_tile in E. rewrite Ex in E. cbn [bind] in E. pose proof (sea_features D [] L _ _ rows t HD eq_refl H1 H2) as HF.
  destruct (only_stored true (dict_encode (coder_make (l_psort L) [])) (l_mk L) (l_qsort L) x t (st_tiles st) (st_features st) (pf_open (st_pack st)) rows []) with (b := z) as (buf & B1 & B2 & B3); try assumption.
  - apply (ok_qsort _ HL).
  - unfold renderer_ok. rewrite (v_dec _ _ _ _ _ _ _ HV), (v_rd _ _ _ _ _ _ _ HV), (v_cut _ _ _ _ _ _ _ HV), (v_aggregate _ _ _ _ _ _ _ HV). split; [apply coder_good; [assumption | reflexivity]|].
    split; [apply (ok_mask _ HL); assumption|]. split; [apply (ok_cut _ HL)|]. split; [apply (ok_cut_areas _ HL)|]. split; [apply (ok_aggregate _ HL) | apply (ok_joins _ HL)].
  - apply (v_sea _ _ _ _ _ _ _ HV).
  - exact (h_db _ _ _ _ _ _ _ _ HD).
  - apply (v_not _ _ _ _ _ _ _ HV).
  - rewrite (v_names _ _ _ _ _ _ _ HV). discriminate.
  - rewrite (v_names _ _ _ _ _ _ _ HV), (v_rd _ _ _ _ _ _ _ HV). eapply Forall_impl; [|exact HF]. cbv beta. intros f (Q1 & Q2 & Q3 & HA). rewrite Q1. split; [reflexivity|]. split; [assumption|]. split; [exact (HA true (tz t) Hz) | intros _; exact Q3].
  - unfold sent in B2. rewrite (v_compress _ _ _ _ _ _ _ HV), (v_deflate _ _ _ _ _ _ _ HV) in B2. destruct buf as [|b0 buf]; [congruence|]. cbn [length Nat.eqb] in B2. destruct B2 as (z' & Ez & B2). injection B2 as <-.
    exists (b0 :: buf). split; [assumption|]. intros Hb. destruct (B3 Hb) as (vls & D1 & D2). exists vls. split; [assumption|]. intros vl v Hvl Hvv.
    rewrite (v_names _ _ _ _ _ _ _ HV) in D2. destruct (D2 vl v Hvl Hvv) as [(_ & _ & _ & e & _ & (q & [] & _) & _)|(f & A1 & (M1 & M2 & M3) & A3 & A4 & A5)].
    apply (h_near _ _ _ _ _ _ _ _ HD t) in A1 as (i0 & _ & Hrel & [Hd|[[] _]]).
    destruct (proj1 (Forall_forall _ _) H1 _ Hd) as (Z1 & Z2 & K & F1 & F2 & F3 & F4 & ps & F5). cbn [fst snd] in *.
    destruct A5 as [(S1 & (ms & S2 & S3) & g & S4 & S5)|(_ & A5 & _)]; [|rewrite F5 in A5; discriminate A5]. exists i0, f, g.
    rewrite F1 in A3. change (N.to_nat 0) with O in A3. cbn [nth_error] in A3. rewrite F4 in S2. apply Permutation_sym, Permutation_nil in S2. subst ms.
    split; [assumption|]. split; [assumption|]. split; [assumption|]. split; [congruence|]. split; [now rewrite S1|]. split; [now inversion S3|].
    unfold simplified in S4. rewrite (v_cut _ _ _ _ _ _ _ HV) in S4. split; [exact S4 | exact S5].
Qed.

(** ** Such kills happen *)
Lemma torn_more m k : k <= blen m -> torn m k (blen m + 1 - k) (m ++ [7]).
Proof.
  intros H. unfold blen in H. split; [rewrite app_length; lia|]. intros i Hi. destruct (Nat.lt_ge_cases i (length m)) as [Hl|Hl].
  - now rewrite app_nth1.
  - rewrite !nth_overflow; [reflexivity| |]; rewrite ?app_length; cbn [length]; unfold blen in Hi; lia.
Qed.
Lemma kept_more L raw d D fs T s rows m1 tiles : binv L raw d D fs T s rows -> tail_kept (Store m1 T tiles (pf_mem s ++ [7])).
Proof.
  intros HB k v rs r Hin Hrs Hr. cbn [st_features st_pack] in *. destruct (b_db _ _ _ _ _ _ _ _ HB) as (H1 & _).
  destruct (Forall2_in_r _ _ _ _ H1 Hin) as (q & Hq & (_ & HR & HV)). apply in_map_iff in Hq as (row & <- & Hrow). unfold row_index in HR, HV. cbn [fst snd] in *.
  rewrite HV, deserialize_serialize in Hrs by assumption. apply Ok_inj in Hrs. subst rs.
  destruct (b_lay _ _ _ _ _ _ _ _ HB) as [LV _]. destruct (proj1 (Forall_forall _ _) LV r) as [_ L2]; [apply in_flat_map; eauto|].
  pose proof (b_inv _ _ _ _ _ _ _ _ HB) as HI. unfold pf_inv, blen in HI. exists (length (pf_mem s)), 7. split; [lia|]. split; [|discriminate].
  rewrite nth_error_app2 by lia. now rewrite Nat.sub_diag.
Qed.
Lemma killed_end_exists : forall L tasks j K B W, libs_ok L -> job_ok L j -> moderate L tasks j K B W ->
  exists st, killed_load L tasks j LEnd st /\ tail_kept st /\ blen (st_pack st) + 1 < 2 ^ 64.
Proof.
  intros L tasks j K B W HL HJ HM. destruct (load_exists L tasks j K B W HL HJ HM) as (b & Hb).
  destruct (load_facts L tasks j K B W HL HJ HM b Hb) as (D & ks & fs & names & d & sea & rows & _ & _ & HB & _ & _ & _ & _ & _ & Hsz).
  destruct Hb as (cc & m1 & oc & m2 & n & s & Hco & HF & HR & HD & HNF & HC & HS & Eb). rewrite Eb in HB, Hsz. cbn [ss_file ss_features] in *.
  exists (Store m2 (i_table s) [] (pf_mem (i_file s) ++ [7])). split; [|split].
  - apply (kl_end L tasks j cc m1 oc m2); [exact Hco | exact HF|]. exists n, s, (blen (pf_mem (i_file s)) + 1 - pf_size (i_file s)). split; [exact HR|]. split; [exact HC|]. split; [reflexivity|]. split; [exact HS|].
    apply torn_more. exact (b_inv _ _ _ _ _ _ _ _ HB).
  - exact (kept_more L true d D fs _ (i_file s) rows m2 [] HB).
  - cbn [st_pack]. unfold blen in *. rewrite app_length. cbn [length]. destruct (mo_size _ _ _ _ _ _ HM) as (M1 & M2 & M3). assert (2 * K * (W * (B + 20)) <= 2 * (K + 1) * W * (B + 20)) by nia.
    set (c := length (pf_mem _)) in *. clearbody c. change (2 ^ 64) with 18446744073709551616. change (2 ^ 30) with 1073741824 in *. lia.
Qed.
Lemma killed_osm_exists : forall L tasks polys objs done rest K B W, libs_ok L -> job_ok L (Job polys objs) -> has_any_task tasks [lit "features"] = true ->
  Permutation (done ++ rest) objs -> moderate L tasks (Job polys done) K B W ->
  exists st, killed_load L tasks (Job polys objs) (LOsm done) st /\ tail_kept st /\ blen (st_pack st) + 1 < 2 ^ 64.
Proof.
  intros L tasks polys objs done rest K B W HL HJ Hf HP HM. pose proof (job_part _ _ _ _ _ HJ HP) as HJ'.
  destruct (load_exists L tasks (Job polys done) K B W HL HJ' HM) as (b & Hb).
  destruct (load_facts L tasks (Job polys done) K B W HL HJ' HM b Hb) as (D & ks & fs & names & d & sea & rows & _ & _ & HB & _ & _ & _ & _ & _ & Hsz).
  destruct Hb as (cc & m1 & oc & m2 & n & s & Hco & HF & HR & HD & HNF & HC & HS & Eb). rewrite Hf in HF. destruct HF as (ns & dict & (objs' & fs0 & nm & seen & sb & Q1 & Q2 & Q3 & _) & _).
  rewrite Eb in HB, Hsz. cbn [ss_file ss_features] in *.
  exists (Store m1 (i_table s) [] (pf_mem (i_file s) ++ [7])). split; [|split].
  - apply (kl_osm L tasks (Job polys objs) cc m1 objs' fs0 nm oc [] done rest); [exact Hco | exact Hf | exact HP | exact Q1 | exact Q2 | now rewrite app_nil_r|].
    exists n, s, (blen (pf_mem (i_file s)) + 1 - pf_size (i_file s)). split; [exact HR|]. split; [exact HC|]. split; [reflexivity|]. split; [exact HS|]. apply torn_more. exact (b_inv _ _ _ _ _ _ _ _ HB).
  - exact (kept_more L true d D fs _ (i_file s) rows m1 [] HB).
  - cbn [st_pack]. unfold blen in *. rewrite app_length. cbn [length]. destruct (mo_size _ _ _ _ _ _ HM) as (M1 & M2 & M3). assert (2 * K * (W * (B + 20)) <= 2 * (K + 1) * W * (B + 20)) by nia.
    set (c := length (pf_mem _)) in *. clearbody c. change (2 ^ 64) with 18446744073709551616. change (2 ^ 30) with 1073741824 in *. lia.
Qed.
Lemma killed_coast_exists : forall L tasks j K B W, libs_ok L -> job_ok L j -> has_any_task tasks [lit "coastlines"] = true -> has_any_task tasks [lit "features"] = false -> moderate L tasks j K B W ->
  exists s st, coast_result L (j_polys j) s /\ killed_load L tasks j (LCoast (c_inserted s)) st /\ tail_kept st /\ blen (st_pack st) + 1 < 2 ^ 64.
Proof.
  intros L tasks j K B W HL HJ Hc Hf HM. destruct (load_exists L tasks j K B W HL HJ HM) as (b & Hb).
  destruct (load_facts L tasks j K B W HL HJ HM b Hb) as (D & ks & fs & names & d & sea & rows & _ & _ & HB & _ & _ & _ & _ & _ & Hsz).
  destruct Hb as (cc & m1 & oc & m2 & n & s & Hco & HF & HR & HD & HNF & HC & HS & Eb). rewrite Eb in HB, Hsz. cbn [ss_file ss_features] in *.
  rewrite Hc in Hco. rewrite Hf in HF. destruct HF as [-> ->]. rewrite app_nil_r in HC. destruct Hco as (e & (s0 & Q1 & Q2 & Q3 & Q4 & Q5) & _).
  exists s0, (Store (st_meta empty_store) (i_table s) [] (pf_mem (i_file s) ++ [7])). split; [split; auto|]. split; [|split].
  - apply (kl_coast L tasks j s0 cc); try assumption. exists n, s, (blen (pf_mem (i_file s)) + 1 - pf_size (i_file s)). split; [exact HR|]. split; [exact HC|]. split; [reflexivity|]. split; [exact HS|].
    apply torn_more. exact (b_inv _ _ _ _ _ _ _ _ HB).
  - exact (kept_more L true d D fs _ (i_file s) rows _ [] HB).
  - cbn [st_pack]. unfold blen in *. rewrite app_length. cbn [length]. destruct (mo_size _ _ _ _ _ _ HM) as (M1 & M2 & M3). assert (2 * K * (W * (B + 20)) <= 2 * (K + 1) * W * (B + 20)) by nia.
    set (c := length (pf_mem _)) in *. clearbody c. change (2 ^ 64) with 18446744073709551616. change (2 ^ 30) with 1073741824 in *. lia.
Qed.
