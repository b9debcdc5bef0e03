(** Whole imports: packing and preparing can be completed. *)
From Coq Require Import Permutation String Ascii Sorting.Sorted.
From Coq Require Import List.
From Verif Require Import Base BaseProof ModelTile SpecTile ProofTile ModelPackFile SpecPackFile ProofPackFile ModelTable ProofTable ModelCodec ModelGeom SpecGeom ModelFeature SpecFeature ProofFeature
  ModelPack ProofPack ModelPacker SpecPacker ProofPackerProps ProofPackSize ModelBqTree SpecBqTree ModelMvt SpecMvt ModelRender SpecRender ProofRender ModelInserter SpecInserter ProofInserter ModelDict SpecDict ProofDict
  ModelOsm SpecOsm ModelDrain ModelCoast SpecCoast SpecLayout ProofLayout ModelRepack SpecRepack ProofRepackRun ProofRepackEnd ProofRepackSize ProofPackDb ModelServer ModelPrepare SpecPrepare ProofPrepare ProofPrepareEnd ProofServe ModelImport SpecImport SpecFinish
  ProofImportObjects ProofImportLoad ProofImportRun ProofImportPack ProofImportServe ProofImportTop ProofImportStats ProofImportFinish.
Import ListNotations.
Open Scope N_scope.

(** ** The bytes in use *)
Definition places (r : pack_record) : list nat := seq (N.to_nat (r_off r)) (N.to_nat (r_size r)).
Lemma places_nodup rs : ForallOrdPairs apart rs -> NoDup (flat_map places rs).
Proof.
  induction 1 as [|r rs H _ IH]; [constructor|]. cbn [flat_map]. assert (Q : forall l l' : list nat, NoDup l -> NoDup l' -> (forall x, In x l -> ~ In x l') -> NoDup (l ++ l')).
  { clear. induction l as [|a l IH]; intros l' H1 H2 H3; [assumption|]. inversion H1; subst. cbn [app]. constructor; [|apply IH; auto; intros x Hx; apply H3; now right].
    rewrite in_app_iff. intros [X|X]; [contradiction|]. apply (H3 a); [now left | assumption]. }
  apply Q; [apply seq_NoDup | assumption|]. intros x Hx Hx'. apply in_flat_map in Hx' as (r' & Hr' & Hx'). pose proof (proj1 (Forall_forall _ _) H _ Hr') as HA. unfold places, apart in *. apply in_seq in Hx, Hx'. lia.
Qed.
Lemma places_length rs : length (flat_map places rs) = N.to_nat (total_size rs).
Proof. induction rs as [|r rs IH]; [reflexivity|]. cbn [flat_map total_size fold_right]. fold (total_size rs). unfold places at 1. rewrite app_length, seq_length, IH. lia. Qed.
Lemma layout_size pf rs : valid_layout pf rs -> total_size rs <= pf_size pf.
Proof.
  intros [H1 H2]. assert (H : (length (flat_map places rs) <= length (seq 0 (N.to_nat (pf_size pf))))%nat).
  { apply NoDup_incl_length; [now apply places_nodup|]. intros x Hx. apply in_flat_map in Hx as (r & Hr & Hx). pose proof (proj1 (Forall_forall _ _) H1 _ Hr) as HA. cbn beta in HA. unfold places in Hx. apply in_seq in Hx. apply in_seq. lia. }
  rewrite places_length, seq_length in H. lia.
Qed.
Lemma layout_count pf rs : valid_layout pf rs -> N.of_nat (length rs) <= total_size rs.
Proof.
  intros [H _]. induction H as [|r rs H _ IH]; [cbn; lia|]. cbn [total_size fold_right length]. fold (total_size rs). lia.
Qed.

Lemma quad_longer enc dec mk rd srt root ps B : pack_features_quad enc dec mk rd srt root ps = Ok B -> 4 <= blen B.
Proof.
  unfold pack_features_quad. intros H. apply bind_ok in H as (u & _ & H). apply bind_ok in H as ([ls n] & _ & H). apply bind_ok in H as (h & _ & H). apply bind_ok in H as ([buf ts] & _ & H).
  destruct (append_trees buf ts) as [buf' os]. destruct (append_packed buf' os) as [buf'' o]. apply Ok_inj in H. subst B. unfold pack_finish, blen.
  rewrite app_length, le_bytes_length. lia.
Qed.

Lemma tile_packs_holds L d D fs T s rows t p : binv L true d D fs T s rows -> In p (tile_packs rows t) ->
  record_holds true (dict_encode (coder_make (l_psort L) d)) (dict_decode d) (l_mk L) (l_rd L) (l_qsort L) s t p /\ tz t = 10 /\ valid_tile t.
Proof.
  intros [[_ [_ B3]] _ _ _ _ _ _] Hp. apply in_tile_packs in Hp as (r & Hr & Et & Hp). destruct (proj1 (Forall_forall _ _) B3 _ Hr) as (Z1 & Z2 & Z3). rewrite Et in *. split; [exact (proj1 (Forall_forall _ _) Z3 _ Hp) | auto].
Qed.

Section Pack.
Variable L : libs.
Variables (K B W : N).
Hypothesis HL : libs_ok L.
Variable d : list meta.
Hypothesis Hd : N.of_nat (length d) < 2 ^ 64.
Variable D : list (tile * feature).
Variable fs : list feature.
Variable T : table.
Variable pf0 : pfile.
Variable rows : list row.
Hypothesis HB : binv L true d D fs T pf0 rows.
Hypothesis HN : forall i, index_tile 10 i -> N.of_nat (length (tile_features rows i)) <= 2 * K.
Hypothesis HD : Forall (fun e => touches (bounding_box (f_geom (snd e))) (tile_area (fst e)) /\ stored_size L B (snd e) /\ f_minz (snd e) <= 20) D.
Hypothesis HF : Forall (light L B W) fs.
Hypothesis HS : 2 * (K + 1) * (B + 1500) < 2 ^ 30.

Lemma tile_quad t ps : tile_packs rows t <> [] -> Permutation ps (map (bytes_of pf0) (map fst (tile_packs rows t))) ->
  exists b, pack_features_quad (dict_encode (coder_make (l_psort L) d)) (dict_decode d) (l_mk L) (l_rd L) (l_qsort L) t ps = Ok b /\ blen b <= 600 + 2 * K * (B + 1419).
Proof.
  intros Hne HP. assert (Ht : tz t = 10 /\ valid_tile t).
  { destruct (tile_packs rows t) as [|p l] eqn:E; [contradiction|]. apply (tile_packs_holds L d D fs T pf0 rows t p HB). rewrite E. now left. }
  destruct Ht as [Hz Hv]. assert (Hi : index_tile 10 t) by (split; [assumption|]; destruct Hv as [H1 H2]; rewrite Hz in *; auto).
  rewrite map_map in HP. apply Permutation_map_inv in HP as (rps & Eps & HPr).
  assert (Hin : forall p, In p rps -> In p (tile_packs rows t)) by (intros p Hp; now apply (Permutation_in _ (Permutation_sym HPr))).
  assert (HH : Forall2 (pack_holds (dict_decode d)) ps (map snd rps)).
  { rewrite Eps. clear -Hin HB. induction rps as [|p rps IH]; [constructor|]. cbn [map]. constructor; [|apply IH; intros q Hq; apply Hin; now right].
    eapply raw_holds. apply (tile_packs_holds L d D fs T pf0 rows t p HB), Hin. now left. }
  assert (Hpl : Forall plain_feature (concat (map snd rps))).
  { apply Forall_forall. intros f Hf. apply in_concat in Hf as (fl & Hfl & Hf). apply in_map_iff in Hfl as (p & <- & Hp). destruct (tile_packs_holds L d D fs T pf0 rows t p HB (Hin p Hp)) as [[Hpl _] _].
    exact (proj1 (Forall_forall _ _) Hpl _ Hf). }
  assert (HC : Permutation (concat (map snd rps)) (tile_features rows t)).
  { rewrite tile_packs_features, <- flat_map_concat_map. now apply Permutation_flat_map, Permutation_sym. }
  assert (HI : forall f, In f (concat (map snd rps)) -> stored_size L B f /\ f_minz f <= 20 /\ touches (bounding_box (f_geom f)) (tile_area t)).
  { intros f Hf. apply (Permutation_in _ HC) in Hf. apply (b_only _ _ _ _ _ _ _ _ HB) in Hf; [|assumption]. destruct Hf as [Hf|[Hf Hm]].
    - pose proof (proj1 (Forall_forall _ _) HD _ Hf) as (Q1 & Q2 & Q3). cbn [fst snd] in *. auto.
    - pose proof (proj1 (Forall_forall _ _) HF _ Hf) as (Q1 & Q2 & Q3). split; [assumption|]. split; [assumption|]. apply meets_touches; [lia|]. now rewrite Hz. }
  assert (HX : Forall (SpecPacker.fits (dict_encode (coder_make (l_psort L) d)) (l_mk L) t) (concat (map snd rps))).
  { apply Forall_forall. intros f Hf. destruct (HI f Hf) as (Q1 & Q2 & Q3). split; [exact (proj1 (Forall_forall _ _) Hpl _ Hf)|]. split; [assumption|]. split; [assumption|]. intros f' s Q4 Q5. apply (Q1 d false f' s Hd Q4 Q5). }
  assert (HLn : N.of_nat (length (concat (map snd rps))) <= 2 * K) by (rewrite (Permutation_length HC); now apply HN).
  assert (HK : 2 * K < 2 ^ 32). { change (2 ^ 30) with 1073741824 in HS. change (2 ^ 32) with 4294967296. nia. }
  destruct (packer_succeeds _ (dict_decode d) _ (l_rd L) _ t (ok_qsort _ HL) ps (map snd rps) ltac:(lia) Hv HH HX ltac:(lia)) as (b & Eb). exists b. split; [exact Eb|].
  assert (HQ : (length b <= 600 + length (concat (map snd rps)) * (N.to_nat B + 1419))%nat).
  { apply (quad_size _ (dict_decode d) _ (l_rd L) _ t (ok_qsort _ HL) (N.to_nat B) ps (map snd rps) b ltac:(lia) Hv HH HX); [|exact Eb].
    intros f f' s Hf Q4 Q5. destruct (HI f Hf) as (Q1 & _). pose proof (Q1 d false f' s Hd Q4 Q5) as Q6. unfold blen in Q6. lia. }
  unfold blen. clear -HQ HLn. set (n := length (concat (map snd rps))) in *. clearbody n. set (m := length b) in *. clearbody m. nia.
Qed.

Lemma tile_packed t ps : tile_packs rows t <> [] -> Permutation ps (map (bytes_of pf0) (map fst (tile_packs rows t))) ->
  4 <= blen (packs_with L d t ps) <= 600 + 2 * K * (B + 1419).
Proof.
  intros Hne HP. destruct (tile_quad t ps Hne HP) as (b & Eb & Hb). unfold packs_with. rewrite Eb. split; [|assumption]. eapply quad_longer. exact Eb.
Qed.

(** packing can be completed *)
Lemma pack_completes meta tl : load_dict (meta_get meta kMetaCoding) = Ok d -> rows <> [] -> blen (pf_mem pf0) < 2 ^ 30 ->
  exists T' pf', pack_phase L (Session meta T tl pf0) (Session meta T' tl pf') /\ (pf_inv pf' /\ blen (pf_mem pf') < 2 ^ 62) /\ T' <> [] /\
    (forall k v rs, In (k, v) T' -> pack_records_deserialize v = Ok rs -> Forall (fun r => r_size r < 2 ^ 30) rs).
Proof.
  intros Ed Hrow Hmem. pose proof HB as [[B1 [B2 B3]] B4 B5 B5' B6 B7 B8].
  set (db := map row_index rows) in *. set (pack := packs_with L d).
  assert (Hne : Forall (fun x : dbent => snd x <> []) db).
  { apply Forall_map, Forall_forall. intros r Hr. destruct (proj1 (Forall_forall _ _) B4 _ Hr) as [_ H]. unfold row_index. cbn [snd]. intros E. apply map_eq_nil in E. contradiction. }
  assert (HLy : valid_layout pf0 (flat_map snd db)).
  { replace (flat_map snd db) with (flat_map (fun r => map fst (row_packs r)) rows); [exact B8|]. unfold db. clear. generalize rows. clear. intros l. induction l as [|r l IH]; [reflexivity|]. cbn [map flat_map]. rewrite IH. reflexivity. }
  pose proof (packs_with_nonempty L d) as Hpk. fold pack in Hpk.
  destruct (tasks_of_db db T B1 B2 Hne) as (tasks & ER & HG). pose proof (tasks_layout pf0 db T B1 B2 Hne HLy tasks ER) as TL.
  pose proof (layout_size _ _ TL) as Z1. pose proof (layout_count _ _ TL) as Z2. unfold pf_inv in B6.
  assert (Z3 : 0 < pf_size pf0).
  { destruct rows as [|r rows0]; [contradiction|]. destruct TL as [TL _]. apply Forall_cons_iff in B4 as [[_ B4] _]. destruct HLy as [HL1 _].
    unfold db in HL1. cbn [map flat_map row_index snd] in HL1. destruct (row_packs r) as [|p l]; [contradiction|]. cbn [map app] in HL1. apply Forall_cons_iff in HL1 as [HL1 _]. lia. }
  assert (HT : (length tasks <= length (flat_map snd tasks))%nat).
  { assert (QN : Forall (fun x : task => snd x <> []) tasks).
    { apply Forall_forall. intros [t rs] Hin. cbn [snd]. rewrite (gr_recs _ _ HG t rs Hin). destruct (gr_from _ _ HG t) as (e & He & Et); [apply in_map_iff; exists (t, rs); auto|].
      apply (tile_records_some db t e He Et). exact (proj1 (Forall_forall _ _) Hne _ He). }
    clear -QN. induction QN as [|[t rs] l H _ IH]; [apply Nat.le_refl|]. cbn [flat_map snd length] in *. rewrite app_length. destruct rs as [|r rs]; [contradiction|]. cbn [length]. unfold task in *. lia. }
  assert (Hpt : forall t ps, In t (map fst tasks) -> Permutation ps (map (bytes_of pf0) (tile_records db t)) -> 4 <= blen (pack t ps) <= 600 + 2 * K * (B + 1419)).
  { intros t ps Hin HP. unfold db in HP. rewrite tile_packs_records in HP. apply tile_packed; [|assumption].
    destruct (gr_from _ _ HG t Hin) as (e & He & Et). pose proof (tile_records_some db t e He Et (proj1 (Forall_forall _ _) Hne _ He)) as Q. unfold db in Q. rewrite tile_packs_records in Q. intros E. rewrite E in Q. now apply Q. }
  destruct (can_complete (l_possort L) (l_recsort L) (l_tasksort L) pack (2 ^ 30) 32 ltac:(discriminate) (ok_possort _ HL) (ok_recsort _ HL) (ok_tasksort _ HL) Hpk pf0 tasks B6 B7 TL) as (s & HR & Hdone).
  { left. split; [|assumption]. eapply N.le_lt_trans; [exact Z1|]. eapply N.le_lt_trans; [exact B6 | exact Hmem]. }
  destruct (table_done _ _ _ _ _ _ (ok_possort _ HL) (ok_recsort _ HL) (ok_tasksort _ HL) Hpk _ db T B1 B2 Hne B6 B7 HLy tasks ER s HR Hdone) as (T' & E1 & TS & TD1 & TD2).
  destruct (table_now _ _ _ _ _ _ (ok_possort _ HL) (ok_recsort _ HL) (ok_tasksort _ HL) Hpk _ db T B1 B2 Hne B6 B7 HLy tasks ER s HR) as (T2 & E2 & _ & TN1 & TN2 & TN3).
  destruct (done_layout _ _ _ _ _ _ (ok_possort _ HL) (ok_recsort _ HL) (ok_tasksort _ HL) Hpk _ db T B1 B2 Hne B6 B7 HLy tasks ER s HR Hdone) as (LI & LV & LN).
  rewrite E1 in E2. apply Ok_inj in E2. subst T2.
  assert (Hout : forall t r, In (t, r) (concat (r_out s)) -> 4 <= r_size r <= 600 + 2 * K * (B + 1419)).
  { intros t r Hu. destruct (out_good _ _ _ _ _ _ (ok_possort _ HL) (ok_recsort _ HL) (ok_tasksort _ HL) Hpk _ db T B1 B2 Hne B6 B7 HLy tasks ER s t r HR Hu) as (ps & HPm & HG').
    apply pf_get_bytes in HG' as [_ <-]. apply Hpt; [|assumption]. apply (TN3 t r Hu). }
  assert (Q30 : 600 + 2 * K * (B + 1419) < 2 ^ 30) by lia.
  assert (HM : blen (pf_mem (g_pf (r_mgr s))) < 2 ^ 62).
  { pose proof (ProofRepackSize.size_bound _ _ _ _ (2 ^ 30) 32 (ok_possort _ HL) (ok_recsort _ HL) (ok_tasksort _ HL) Hpk pf0 tasks B6 B7 TL (600 + 2 * K * (B + 1419))) as Q.
    specialize (Q ltac:(intros w (t & Ht & Ef & Hpo); rewrite (tasks_filled db T B1 B2 Hne tasks ER) in Ht; rewrite Ef; destruct t as [t rs]; apply Hpt; [apply in_map_iff; exists (t, rs); auto|];
      unfold packs_of in Hpo; cbn [fst snd] in *; rewrite <- (gr_recs _ _ HG t rs Ht); exact Hpo) s HR ltac:(rewrite Hdone; discriminate)).
    unfold ProofRepackSize.bounded, ProofRepackSize.cap in Q. clear -Q Hmem B6 Q30 Z1 Z2 HT.
    assert (HT' : N.of_nat (length tasks) < 2 ^ 30) by lia.
    set (n := N.of_nat (length tasks)) in *. clearbody n. set (q := 600 + 2 * K * (B + 1419)) in *. clearbody q.
    change (2 ^ 30) with 1073741824 in *. change (2 ^ 62) with 4611686018427387904. nia. }
  exists T', (g_pf (r_mgr s)). split; [|split; [|split]].
  - exists d, tasks, s, T'. cbn [ss_meta ss_features ss_tiles ss_file]. split; [exact Ed|]. split; [exact ER|]. split; [exact HR|]. split; [exact Hdone|]. split; [|split; [exact E1 | reflexivity]].
    intros [t r] Hu E. apply pf_get_bytes in E as [_ E]. cbn [snd] in E. pose proof (Hout t r Hu). unfold failed_pack, blen in E. cbn [length] in E. lia.
  - split; [exact LI | exact HM].
  - intros E. destruct rows as [|r rows0]; [contradiction|]. destruct (tile_key0 db T B1 (row_index r)) as (k & Hk); [unfold db; cbn [map]; now left|].
    destruct (TD1 _ k Hk) as [[Q _]|[_ (v & Q & _)]].
    + eapply tile_records_some in Q; [exact Q|unfold db; cbn [map]; now left|reflexivity|]. unfold db in Hne. cbn [map] in Hne. now apply Forall_cons_iff in Hne as [Hne _].
    + rewrite E in Q. discriminate Q.
  - intros k v rs Hin Ers. apply (table_get_in _ _ _ TS) in Hin. destruct (TN2 k v Hin) as (t & r & Hu & _ & ->).
    assert (HRS : rec_ok r). { destruct LV as [LV _]. assert (Hi : In r (map snd (concat (r_out s)))) by (apply in_map_iff; exists (t, r); auto). pose proof (proj1 (Forall_forall _ _) LV _ Hi) as Q. cbn beta in Q.
      pose proof (Hout t r Hu). unfold pf_inv in LI. change (2 ^ 62) with 4611686018427387904 in HM. change (2 ^ 30) with 1073741824 in Q30. clear -Q LI HM Q30 H. split; change (2 ^ 64) with 18446744073709551616; lia. }
    rewrite deserialize_serialize in Ers by (constructor; [exact HRS | constructor]). apply Ok_inj in Ers. subst rs. constructor; [|constructor]. pose proof (Hout t r Hu). lia.
Qed.
End Pack.

(** ** Preparing tiles *)
Lemma in_bounds_valid L raw d D fs F pf rows t : binv L raw d D fs F pf rows -> tz t <= 10 -> in_bounds F t -> valid_tile t.
Proof.
  intros HB Hz (i & (Zi & _ & (ex & Hx & Lx) & _ & (ey & Hy & Ly)) & Hr). destruct HB as [[B1 [_ B3]] B4 _ _ _ _ _].
  assert (HV : forall e, In e F -> tx (key_to_tile (fst e)) < 2 ^ 10 /\ ty (key_to_tile (fst e)) < 2 ^ 10).
  { intros e He. destruct (Forall2_in_r _ _ _ _ B1 He) as (r' & Hr' & (K & _)). apply in_map_iff in Hr' as (r & <- & Hr'). destruct (proj1 (Forall_forall _ _) B3 _ Hr') as (Z & V & _).
    apply tile_to_key_ok in K as [K _]. cbn [row_index fst] in K. rewrite K. unfold valid_tile in V. now rewrite Z in V. }
  destruct (HV _ Hx) as [Vx _]. destruct (HV _ Hy) as [_ Vy]. assert (Qx : tx i < 2 ^ 10) by lia. assert (Qy : ty i < 2 ^ 10) by lia. clear HV Lx Ly Vx Vy Hx Hy B1 B3 B4.
  unfold valid_tile. destruct Hr as [(Hl & Ex & Ey)|(Hl & Ex & Ey)].
  - assert (E : tz t = 10) by lia. rewrite E in *. rewrite Zi in *. change (10 - 10) with 0 in *. change (2 ^ 0) with 1 in *. rewrite N.div_1_r in *. rewrite <- Ex, <- Ey. auto.
  - rewrite Zi in *. assert (E : 2 ^ 10 = 2 ^ tz t * 2 ^ (10 - tz t)) by (rewrite <- N.pow_add_r; f_equal; lia). rewrite E in Qx, Qy. rewrite Ex, Ey.
    pose proof (N.pow_nonzero 2 (10 - tz t) ltac:(discriminate)) as P. clear E Ex Ey Hl. split; apply N.div_lt_upper_bound; try assumption; rewrite N.mul_comm; assumption.
Qed.

Lemma prepare_total L j co fe raw D ks fs names d sea v F pf rows t : libs_ok L -> job_ok L j -> content L j co fe D ks fs names d sea -> make_bq_tree sea = Ok v ->
  binv L raw d D fs F pf rows -> tz t <= 10 -> valid_tile t -> exists r, prepare_tile F pf (base_ctx L v names d) t = Ok r.
Proof.
  intros HL HJ HC Hsv HB Hz Hv. assert (Hz20 : tz t <= 20) by lia.
  assert (Hsb : seaside_is (base_ctx L v names d) sea) by (apply sea_of_tree; [exact (n_sea _ _ _ _ _ _ _ _ _ _ HC) | assumption]).
  set (x := base_ctx L v names d) in *.
  assert (HV : view L names d sea (true && (tz t <=? 10)) t (on_demand x)).
  { replace (tz t <=? 10) with true by lia. constructor; try reflexivity; [exact Hsb|]. intros [Hp _]. discriminate Hp. }
  destruct (v_total L j co fe raw true HL D ks fs names d sea HC t Hz20 Hv (on_demand x) [] F pf rows HV (binv_shown _ _ _ _ _ _ _ _ HB)) as (r & Er).
  unfold get_tile, kMaxZoomLevel in Er. replace (tz t <=? 20) with true in Er by lia. cbn [verify bind on_demand x_ignore_prepared negb andb] in Er.
  unfold prepare_tile. destruct (foreach_pack F pf t) as [ps| | |]; [|discriminate..]. cbn [bind] in *.
  unfold render_tile in *. unfold make_builder in *. destruct (square_ctx t Hz20 Hv) as (sp & Esp & Hd). rewrite Esp in *. cbn [bind] in *.
  cbn [prepare_ctx on_demand x_names x_agg_lines x_agg_polys x_drop_subpixel x_cut x_area x_aggregate x_seaside x_ignore_seaside x_compress x_deflate] in *.
  change (seaside_features (prepare_ctx x) t) with (seaside_features x t). change (seaside_features (on_demand x) t) with (seaside_features x t) in Er.
  change (render_features (prepare_ctx x) t ps) with (render_features x t ps). change (render_features (on_demand x) t ps) with (render_features x t ps) in Er.
  apply bind_ok in Er as (ss & Ess & Er). apply bind_ok in Er as (gs & Efs & Er). rewrite Ess, Efs. cbn [bind] in *.
  destruct (sea_contains x sea t Hsb Hz20 Hv) as (b & Eb & _). rewrite Eb. cbn [bind]. destruct (b && _); [eauto|]. exists r. exact Er.
Qed.

Lemma tiles_completes L j co fe raw prep whole a : libs_ok L -> job_ok L j -> sinv L j co fe raw prep whole a -> ss_features a <> [] -> exists b, tiles_phase L a b.
Proof.
  intros HL HJ (D & ks & fs & names & d & sea & v & rows & HC & HM & Hv & HB & HT) Hne. destruct (proj2 (ProofPrepare.manager_fails (ss_features a) 10) Hne) as (m & Em).
  destruct (ProofPrepareEnd.prepare_completes (ss_features a) 10 m (l_threads L) (ss_tiles a) (prepare_tile (ss_features a) (ss_file a) (server_ctx L v names d prep)) _ Em ltac:(lia) (pr_init _ _ _ _)) as (s & HR & HX).
  { intros t Hz Hb. rewrite prepare_any. eapply prepare_total; eauto. eapply in_bounds_valid; eauto. }
  eexists. exists m, (server_ctx L v names d prep), s. split; [exact Em|]. split; [apply (ctx_of L _ names d sea prep v HM Hv)|]. split; [exact HR|]. split; [exact HX | reflexivity].
Qed.

(** ** Runs *)
Lemma close_le s : pf_inv s -> blen (pf_close s) <= blen (pf_mem s) + 1.
Proof.
  intros H. unfold pf_close. destruct (_ || _); [|lia]. unfold pf_append. destruct (pf_insert s (pf_size s) [97]) as [s' r] eqn:E. apply insert_ext in E as (_ & E1 & E2). unfold cap, pf_inv in *. cbn [fst]. change (blen [97]) with 1 in E1. lia.
Qed.

Lemma some_rows L raw d D fs F pf rows : binv L raw d D fs F pf rows -> whole_db D fs F -> Forall (fun e => tz (fst e) = 10 /\ valid_tile (fst e)) D -> Forall (fun f => usable L (f_geom f)) fs -> D <> [] \/ fs <> [] -> rows <> [] /\ F <> [].
Proof.
  intros HB HWh HD HF HX. assert (Hr : rows <> []).
  { intros ->. assert (exists i f, index_tile 10 i /\ cont D fs i f) as (i & f & Hi & Hc).
    { destruct HX as [HX|HX].
      - destruct D as [|[i f] D']; [contradiction|]. apply Forall_cons_iff in HD as [[Z V] _]. cbn [fst] in *. exists i, f. split; [|left; now left]. split; [assumption|]. unfold valid_tile in V. now rewrite Z in V.
      - destruct fs as [|f fs']; [contradiction|]. apply Forall_cons_iff in HF as [HU _]. pose proof (usable_world L _ HU) as HW. pose proof (range_nonempty 10 f ltac:(discriminate) HW) as HR.
        destruct (job_range 10 f) as [|i l] eqn:E; [contradiction|]. assert (Hin : In i (job_range 10 f)) by (rewrite E; now left).
        assert (Hi : index_tile 10 i) by (apply (range_world 10 f i); [discriminate | assumption ..]). exists i, f. split; [assumption|]. right. split; [left; reflexivity|]. apply range_in; [discriminate | assumption ..]. }
    exact (b_all _ _ _ _ _ _ _ _ HB i f Hi Hc (HWh i f Hi Hc)). }
  split; [assumption|]. intros ->. destruct (b_db _ _ _ _ _ _ _ _ HB) as (B1 & _). inversion B1 as [E|]. symmetry in E. apply map_eq_nil in E. contradiction.
Qed.

Lemma layout_small L raw d D fs F pf rows : binv L raw d D fs F pf rows -> pf_size pf < 2 ^ 30 ->
  forall k v rs, In (k, v) F -> pack_records_deserialize v = Ok rs -> Forall (fun r => r_size r < 2 ^ 30) rs.
Proof.
  intros [[B1 _] _ _ _ _ _ B8] Hs k v rs Hin E. destruct (Forall2_in_r _ _ _ _ B1 Hin) as (x & Hx & (_ & Hok & Ev)). cbn [snd] in Ev. rewrite Ev, deserialize_serialize in E by assumption. apply Ok_inj in E. subst rs.
  apply in_map_iff in Hx as (r & <- & Hr). unfold row_index. cbn [snd]. apply Forall_forall. intros p Hp. destruct B8 as [B8 _]. assert (Hi : In p (flat_map (fun r => map fst (row_packs r)) rows)) by (apply in_flat_map; eauto).
  pose proof (proj1 (Forall_forall _ _) B8 _ Hi) as Q. cbn beta in Q. clear -Q Hs. lia.
Qed.

(** nothing is loaded *)
Lemma load_none L tasks j a : libs_ok L -> loads tasks = false -> blen (pf_mem (ss_file a)) < 2 ^ 64 -> load_phase L tasks j a a.
Proof.
  intros HL Hl Hs. rewrite loads_any in Hl. apply orb_false_iff in Hl as [H1 H2]. destruct a as [m F tl pf]. cbn [ss_file] in Hs.
  pose proof (ir_init 10 (2 ^ 30) (2 ^ 30 / 4 * 3) (l_isort L) F pf 0) as R. unfold ist_init in R. cbn [repeat] in R.
  eapply ir_step in R; [|apply s_destroy; constructor]. pose proof (ir_step _ _ _ _ _ _ _ _ _ R (s_check1_low 10 (2 ^ 30) (2 ^ 30 / 4 * 3) (l_isort L) 0 (init_buckets 10) false false F pf [] [] 0 [] true true (N.le_refl 0))) as R2. clear R.
  eexists [], m, [], m, 0%nat, _. cbn [ss_meta ss_features ss_tiles ss_file]. rewrite H1, H2. split; [auto|]. split; [auto|]. split; [exact R2|]. split; [|split; [|split; [reflexivity|split; [exact Hs | reflexivity]]]].
  - eexists. split; [left; reflexivity | reflexivity].
  - constructor; [|constructor]. intros [].
Qed.

Lemma any_more tasks a b : has_any_task tasks [a] = true -> has_any_task tasks [a; b] = true /\ has_any_task tasks [b; a] = true.
Proof.
  unfold has_any_task. cbn [existsb]. rewrite !orb_false_r. destruct (existsb (bytes_eqb (lit "all")) tasks), (existsb (bytes_eqb a) tasks), (existsb (bytes_eqb b) tasks); intros H; try discriminate H; split; reflexivity.
Qed.

Lemma run_completes L tasks j K B W st : libs_ok L -> job_ok L j -> loads tasks = true -> moderate L tasks j K B W ->
  exists st', import_run L tasks j st st' /\ small_packs st'.
Proof.
  intros HL HJ Hl HM. destruct (load_exists L tasks j K B W HL HJ HM) as (s1 & H1).
  destruct (load_facts L tasks j K B W HL HJ HM s1 H1) as (D & ks & fs & names & d & sea & rows & C1 & C2 & C3 & C3' & C4 & C5 & C6 & C7 & C8).
  destruct (mo_size _ _ _ _ _ _ HM) as (M1 & M2 & M3).
  assert (Hmem : blen (pf_mem (ss_file s1)) < 2 ^ 30) by nia.
  assert (SI : sinv L j (has_any_task tasks [lit "coastlines"]) (has_any_task tasks [lit "features"]) true false true s1).
  { destruct (m_sea _ _ _ _ _ C2) as (v & _ & Hv). exists D, ks, fs, names, d, sea, v, rows. repeat (split; [assumption|]). split; [auto|]. rewrite C4. apply no_tiles_say. }
  pose proof (stats_ok L j _ _ _ _ _ s1 HL SI) as ST.
  assert (Hsome : has_any_task tasks [lit "pack"; lit "tiles"] = true -> rows <> [] /\ ss_features s1 <> []).
  { intros Hany. eapply some_rows; [exact C3 | exact C3' | | exact (n_usable _ _ _ _ _ _ _ _ _ _ C1) |].
    - eapply Forall_impl; [|exact (n_D _ _ _ _ _ _ _ _ _ _ C1)]. intros e (X1 & X2 & _). auto.
    - destruct (mo_some _ _ _ _ _ _ HM Hany) as [(Hf & i & layer & mn & Hi & Him)|(Hc & Hn)].
      + right. pose proof (n_objs _ _ _ _ _ _ _ _ _ _ C1) as Ho. rewrite Hf in Ho. assert (Hk : In (i, layer, mn) ks) by (apply Ho; auto).
        destruct (Forall2_in_l _ _ _ _ (n_made _ _ _ _ _ _ _ _ _ _ C1) Hk) as (f & Hff & _). intros ->. destruct Hff.
      + left. pose proof (n_coast _ _ _ _ _ _ _ _ _ _ C1) as Ho. rewrite Hc in Ho. destruct Ho as (s & Hs & -> & _). exact (Hn s Hs). }
  assert (H2 : exists s2 raw, (if has_any_task tasks [lit "pack"] then pack_phase L s1 s2 else s2 = s1) /\ sinv L j (has_any_task tasks [lit "coastlines"]) (has_any_task tasks [lit "features"]) raw false true s2 /\
    (has_any_task tasks [lit "tiles"] = true -> ss_features s2 <> []) /\ pf_inv (ss_file s2) /\ blen (pf_mem (ss_file s2)) < 2 ^ 62 /\
    (forall k v rs, In (k, v) (ss_features s2) -> pack_records_deserialize v = Ok rs -> Forall (fun r => r_size r < 2 ^ 30) rs)).
  { destruct (has_any_task tasks [lit "pack"]) eqn:Ep.
    - destruct (Hsome (proj1 (any_more _ _ _ Ep))) as [Hr _].
      destruct (pack_completes L K B W HL d (n_dict _ _ _ _ _ _ _ _ _ _ C1) D fs (ss_features s1) (ss_file s1) rows C3 C5) with (meta := ss_meta s1) (tl := ss_tiles s1) as (T' & pf' & P1 & [P2 P2'] & P3 & P4); try assumption.
      + pose proof (n_D _ _ _ _ _ _ _ _ _ _ C1) as ND. apply Forall_forall. intros e He. pose proof (proj1 (Forall_forall _ _) C6 _ He) as [Q1 Q2]. pose proof (proj1 (Forall_forall _ _) ND _ He) as (_ & _ & _ & _ & Q3 & _).
        split; [assumption|]. split; [assumption|]. rewrite Q3. discriminate.
      + exact (m_dict _ _ _ _ _ C2).
      + exists (Session (ss_meta s1) T' (ss_tiles s1) pf'), false. destruct s1 as [m F tl pf]. cbn [ss_meta ss_features ss_tiles ss_file] in *. split; [exact P1|]. split; [|split; [intros _; exact P3|split; [exact P2|split; [exact P2' | exact P4]]]].
        eapply pack_step; [exact HL | exact SI | exact C4 | exact P1 | | exact P4]. cbn [ss_file]. unfold pf_inv in P2. change (2 ^ 62) with 4611686018427387904 in P2'. change (2 ^ 64) with 18446744073709551616. lia.
    - exists s1, true. split; [reflexivity|]. split; [exact SI|]. split; [intros Et; apply (Hsome (proj2 (any_more _ _ _ Et)))|]. split; [exact (b_inv _ _ _ _ _ _ _ _ C3)|].
      pose proof (b_inv _ _ _ _ _ _ _ _ C3) as Q. unfold pf_inv in Q. split; [change (2 ^ 62) with 4611686018427387904; change (2 ^ 30) with 1073741824 in Hmem; lia|]. eapply layout_small; [exact C3|]. lia. }
  destruct H2 as (s2 & raw & P1 & P2 & P3 & P4 & P5 & P6).
  assert (H3 : exists s3, (if has_any_task tasks [lit "tiles"] then tiles_phase L s2 s3 else s3 = s2) /\ ss_features s3 = ss_features s2 /\ ss_file s3 = ss_file s2).
  { destruct (has_any_task tasks [lit "tiles"]); [|eauto]. destruct (tiles_completes L j _ _ _ _ _ s2 HL HJ P2 (P3 eq_refl)) as (s3 & T3). exists s3. split; [assumption|]. now apply tiles_keep in T3. }
  destruct H3 as (s3 & T1 & T2 & T3). exists (close_session s3). split.
  - exists s1, s2, s3. rewrite Hl. split; [exact H1|]. split; [intros _; exact ST|]. split; [exact P1|]. split; [exact T1|]. split; [reflexivity|].
    cbn [close_session st_pack]. rewrite T3. pose proof (close_le _ P4). change (2 ^ 62) with 4611686018427387904 in P5. change (2 ^ 64) with 18446744073709551616. lia.
  - intros k v rs. cbn [close_session st_features]. rewrite T2. apply P6.
Qed.

(** tiles can be prepared later *)
Lemma later_sinv L tasks j j' co fe raw prep whole st : libs_ok L -> job_ok L j -> sinv L j co fe raw prep whole (open_store st) -> small_packs st -> loads tasks = false -> has_any_task tasks [lit "pack"] = false ->
  (has_any_task tasks [lit "tiles"] = true -> st_features st <> []) -> blen (st_pack st) + 2 < 2 ^ 64 -> exists st', import_run L tasks j' st st' /\ small_packs st'.
Proof.
  intros HL HJ SI Hsm Hl Hp Hne Hsz.
  assert (HI : pf_inv (ss_file (open_store st))) by (destruct SI as (D & ks & fs & names & d & sea & v & rows & _ & _ & _ & HB & _); exact (b_inv _ _ _ _ _ _ _ _ HB)).
  assert (H3 : exists s3, (if has_any_task tasks [lit "tiles"] then tiles_phase L (open_store st) s3 else s3 = open_store st) /\ ss_features s3 = st_features st /\ ss_file s3 = ss_file (open_store st)).
  { destruct (has_any_task tasks [lit "tiles"]); [|eexists; split; [reflexivity | split; reflexivity]]. destruct (tiles_completes L j _ _ _ _ _ _ HL HJ SI) as (s3 & T3); [exact (Hne eq_refl)|]. exists s3. split; [assumption|]. now apply tiles_keep in T3. }
  destruct H3 as (s3 & T1 & T2 & T3). exists (close_session s3). split.
  - exists (open_store st), (open_store st), s3. rewrite Hl. split; [|split; [|split; [|split; [exact T1|split; [reflexivity|]]]]].
    + apply load_none; try assumption. cbn [open_store ss_file pf_open pf_mem]. clear -Hsz. lia.
    + intros _. eapply stats_ok; eauto.
    + rewrite Hp. reflexivity.
    + cbn [close_session st_pack]. rewrite T3. pose proof (close_le _ HI) as Q. change (pf_mem (ss_file (open_store st))) with (st_pack st) in Q. set (a := blen (pf_close _)) in *. set (b := blen (st_pack st)) in *. clearbody a b. clear -Q Hsz. lia.
  - intros k v rs. cbn [close_session st_features]. rewrite T2. apply Hsm.
Qed.
Lemma later_completes L tasks j j' co fe raw prep st : libs_ok L -> job_ok L j -> history L j co fe raw prep st -> loads tasks = false -> has_any_task tasks [lit "pack"] = false ->
  (has_any_task tasks [lit "tiles"] = true -> st_features st <> []) -> blen (st_pack st) + 2 < 2 ^ 64 -> exists st', import_run L tasks j' st st' /\ small_packs st'.
Proof. intros HL HJ H. apply (later_sinv L tasks j j' co fe raw prep true st HL HJ (history_sinv _ _ _ _ _ _ _ HL HJ H)). destruct H; assumption. Qed.
