(** Whole imports: packing. *)
From Coq Require Import Permutation String Ascii Sorting.Sorted.
From Coq Require Import List.
From Verif Require Import Base BaseProof ModelTile SpecTile ProofTile ModelPackFile SpecPackFile ProofPackFile ModelTable ProofTable ModelCodec ModelGeom SpecGeom ModelFeature SpecFeature ProofFeature
  ModelPack ProofPack ModelPacker SpecPacker ProofPackerProps ModelBqTree SpecBqTree ModelMvt SpecMvt ModelRender SpecRender ProofRender ModelInserter SpecInserter ProofInserter ModelDict SpecDict ProofDict
  ModelOsm SpecOsm ModelDrain ModelCoast SpecCoast SpecLayout ProofLayout ModelRepack SpecRepack ProofRepackRun ProofPackDb ModelServer ModelImport SpecImport ProofImportObjects ProofImportLoad.
Import ListNotations.
Open Scope N_scope.

Lemma raw_unpacks (fs : list feature) (strs : list bytes) B (P : feature -> bytes -> Prop) : pack_features strs = Ok B ->
  Forall2 (fun f str => P f str /\ blen str < 2 ^ 32) fs strs -> exists rest, unpack_features B = Ok (strs, rest).
Proof.
  intros H HF. pose proof H as H0. unfold pack_features, pack_header in H0.
  destruct (N.ltb_spec (N.of_nat (length strs)) (2 ^ 32)) as [Hl|]; [|discriminate]. cbn [verify bind] in H0.
  apply bind_ok in H0 as (b & Hb0 & H0). apply Ok_inj in H0. unfold append_features in Hb0. apply bind_ok in Hb0 as (b' & Hb1 & Hb0).
  apply Ok_inj in Hb0. apply ProofPack.append_each_inv in Hb1 as [F E].
  destruct (ProofPack.pack_unpack strs) as (bs & E1 & rest & E2).
  { clear - F HF. induction HF as [|f str fs strs [_ H] HF IH]; [constructor|]. apply Forall_cons_iff in F as [F1 F2]. constructor; [|exact (IH F2)].
    split; [exact F1|]. change (2 ^ 32) with 4294967296 in H. change (2 ^ 64) with 18446744073709551616. lia. }
  { exact Hl. }
  rewrite H in E1. apply Ok_inj in E1. subst bs. eauto.
Qed.
Lemma quad_nonempty enc dec mk rd srt root ps B : pack_features_quad enc dec mk rd srt root ps = Ok B -> B <> [].
Proof.
  unfold pack_features_quad. intros H. apply bind_ok in H as (u & _ & H). apply bind_ok in H as ([ls n] & _ & H). apply bind_ok in H as (h & _ & H). apply bind_ok in H as ([buf ts] & _ & H).
  destruct (append_trees buf ts) as [buf' os]. destruct (append_packed buf' os) as [buf'' o]. apply Ok_inj in H. subst B. unfold pack_finish. intros E. apply (f_equal (@length _)) in E.
  rewrite app_length, le_bytes_length in E. cbn [length] in E. lia.
Qed.
Lemma packs_with_nonempty L d t ps : packs_with L d t ps <> [].
Proof. unfold packs_with. destruct (pack_features_quad _ _ _ _ _ _ _) eqn:E; [eapply quad_nonempty; exact E|discriminate..]. Qed.

Lemma pf_get_bytes s r B : pf_get s r = Ok B -> B = bytes_of s r /\ blen B = r_size r.
Proof.
  unfold pf_get, bytes_of. intros H. apply bind_ok in H as (u & _ & H). destruct (N.leb_spec (r_off r + r_size r) (blen (pf_mem s))) as [Hl|]; [|discriminate]. apply Ok_inj in H. subst B.
  split; [reflexivity|]. unfold slice. unfold blen in *. rewrite firstn_length, skipn_length. lia.
Qed.

Lemma choose {A B} (R : B -> A -> Prop) l : (forall x, In x l -> exists y, R y x) -> exists ys, Forall2 R ys l.
Proof.
  induction l as [|x l IH]; intros H; [exists []; constructor|]. destruct (H x (or_introl eq_refl)) as (y & Hy). destruct IH as (ys & Hys); [intros z Hz; apply H; now right|].
  exists (y :: ys). now constructor.
Qed.

(** the packs of a tile *)
Definition tile_packs (rows : list row) (t : tile) : list (pack_record * list feature) :=
  flat_map row_packs (filter (fun r => tile_eqb (row_tile r) t) rows).
Lemma tile_packs_records rows t : tile_records (map row_index rows) t = map fst (tile_packs rows t).
Proof.
  unfold tile_records, tile_packs. induction rows as [|r rows IH]; [reflexivity|]. cbn [map filter]. unfold row_index at 1. cbn [fst]. destruct (tile_eqb (row_tile r) t); [|exact IH].
  cbn [flat_map]. rewrite IH, map_app. reflexivity.
Qed.
Lemma tile_packs_features rows t : tile_features rows t = flat_map snd (tile_packs rows t).
Proof.
  unfold tile_features, tile_packs. induction (filter _ rows) as [|r l IH]; [reflexivity|]. cbn [flat_map]. rewrite flat_map_app, <- IH. reflexivity.
Qed.
Lemma in_tile_packs rows t p : In p (tile_packs rows t) <-> exists r, In r rows /\ row_tile r = t /\ In p (row_packs r).
Proof.
  unfold tile_packs. rewrite in_flat_map. split.
  - intros (r & Hr & Hp). apply filter_In in Hr as [Hr Ht]. apply tile_eqb_eq in Ht. eauto.
  - intros (r & Hr & Ht & Hp). exists r. split; [|assumption]. apply filter_In. split; [assumption|]. now apply tile_eqb_eq.
Qed.

Lemma nodup_tiles (rows : list row) (T : table) : Forall2 (fun r e => tile_to_key (row_tile r) 0 = Ok (fst e)) rows T -> table_sorted T -> NoDup (map row_tile rows).
Proof.
  induction 1 as [|r [k v] rows T E F IH]; cbn [map table_sorted]; intros H; [constructor|]. destruct H as [H1 H2]. constructor; [|auto].
  intros Hin. apply in_map_iff in Hin as (r' & Et & Hr'). destruct (Forall2_in_l _ _ _ _ F Hr') as (e & He & Ee). rewrite Et, E in Ee. apply Ok_inj in Ee. cbn [fst] in Ee.
  pose proof (proj1 (Forall_forall _ _) H1 _ He) as H3. cbn [fst] in H3. lia.
Qed.

Lemma none_known (d : list meta) : coder_ok (fun _ => None) (dict_decode d).
Proof. intros m i H. discriminate H. Qed.

Lemma raw_holds d enc mk rd srt s root rf : record_holds true enc (dict_decode d) mk rd srt s root rf ->
  pack_holds (dict_decode d) (bytes_of s (fst rf)) (snd rf).
Proof.
  intros [_ (strs & B & H1 & H2 & H3)]. apply pf_get_bytes in H3 as [H3 _]. rewrite <- H3. destruct (raw_unpacks _ _ _ _ H2 H1) as (rest & E). exists strs, rest. split; [exact E|].
  clear -H1. induction H1 as [|f str fs strs [E1 E2] H1 IH]; constructor; [|exact IH]. split; [assumption|]. exists f, (fun _ => None), (fun _ => []), true. split; [repeat split; apply Permutation_refl|]. split; [apply none_known | assumption].
Qed.

Lemma coder_good L d : libs_ok L -> N.of_nat (length d) < 2 ^ 64 -> coder_ok (dict_encode (coder_make (l_psort L) d)) (dict_decode d).
Proof.
  intros HL Hd m i E. pose proof (encode_spec (l_psort L) d m (ok_psort _ HL)) as H. rewrite E in H. destruct H as [H1 H2]. split; [lia | assumption].
Qed.
(** a pack of the database can be packed (again) *)
Lemma holds_pack L raw d s root rf : libs_ok L -> N.of_nat (length d) < 2 ^ 64 -> tz root = 10 -> valid_tile root ->
  record_holds raw (dict_encode (coder_make (l_psort L) d)) (dict_decode d) (l_mk L) (l_rd L) (l_qsort L) s root rf ->
  exists fl, Permutation fl (snd rf) /\ pack_holds (dict_decode d) (bytes_of s (fst rf)) fl.
Proof.
  intros HL Hd Hz Hv HR. destruct raw; [exists (snd rf); split; [apply Permutation_refl | eapply raw_holds; exact HR]|].
  destruct HR as [HF (packs & fss & B & H1 & H2 & H3 & H4 & H5)]. rewrite H1 in HF.
  destruct (packer_written _ _ _ _ _ root (ok_qsort _ HL) packs fss B ltac:(rewrite Hz; discriminate) Hv H2 HF H3 H4) as (_ & fs & out & rest & PM & EU & FW).
  exists fs. split; [now rewrite H1|]. apply pf_get_bytes in H5 as [H5 _]. rewrite <- H5. exists out, rest. split; [assumption|].
  eapply Forall2_mono; [|exact FW]. intros f str (f' & SB & _ & Es & Eb). split; [change (2 ^ 30) with 1073741824 in Eb; change (2 ^ 32) with 4294967296; lia|].
  exists f', (dict_encode (coder_make (l_psort L) d)), (l_mk L), false. split; [assumption|]. split; [now apply coder_good | assumption].
Qed.

(** an entry written by packing *)
Definition packed_row (L : libs) (d : list meta) (pf : pfile) (rows : list row) (us : list single) (r : row) (e : N * bytes) : Prop :=
  stores (row_index r) e /\ row_n r = 0 /\ tz (row_tile r) = 10 /\ valid_tile (row_tile r) /\
  exists rec fl, row_packs r = [(rec, fl)] /\ In (row_tile r, rec) us /\
    record_holds false (dict_encode (coder_make (l_psort L) d)) (dict_decode d) (l_mk L) (l_rd L) (l_qsort L) pf (row_tile r) (rec, fl) /\
    tile_packs rows (row_tile r) <> [] /\ forall f, In f fl <-> In f (tile_features rows (row_tile r)).
Lemma packed_row_file L d pf pf' rows us r e : (forall u B, In u us -> pf_get pf (snd u) = Ok B -> pf_get pf' (snd u) = Ok B) ->
  packed_row L d pf rows us r e -> packed_row L d pf' rows us r e.
Proof.
  intros HG (H1 & H2 & H3 & H4 & rec & fl & H5 & H6 & (H7 & packs & fss & B & Q1 & Q2 & Q3 & Q4 & Q5) & H8). split; [assumption|]. split; [assumption|]. split; [assumption|]. split; [assumption|].
  exists rec, fl. split; [assumption|]. split; [assumption|]. split; [|assumption]. split; [assumption|]. exists packs, fss, B. repeat (split; [assumption|]). exact (HG _ B H6 Q5).
Qed.

Section Packed.
Context (L : libs) (raw : bool) (d : list meta) (D : list (tile * feature)) (fs : list feature) (F0 : table) (pf0 : pfile) (rows : list row).
Hypothesis HL : libs_ok L.
Hypothesis Hd : N.of_nat (length d) < 2 ^ 64.
Hypothesis HB : binv L raw d D fs F0 pf0 rows.
Context (tasks : list task) (s : rst) (T : table).
Hypothesis ER : read_tasks [] F0 = Ok tasks.
Hypothesis HR : rp_reach (l_possort L) (l_recsort L) (l_tasksort L) (packs_with L d) (2 ^ 30) 32 pf0 tasks s.
Hypothesis HN : forall u, In u (concat (r_out s)) -> pf_get (g_pf (r_mgr s)) (snd u) <> Ok failed_pack.
Hypothesis ET : packed_table (r_out s) = Ok T.

Lemma rows_filled : Forall (fun x : dbent => snd x <> []) (map row_index rows).
Proof.
  apply Forall_map, Forall_forall. intros r Hr. destruct (proj1 (Forall_forall _ _) (b_packs _ _ _ _ _ _ _ _ HB) _ Hr) as [_ H]. unfold row_index. cbn [snd]. intros E. apply map_eq_nil in E. contradiction.
Qed.
Lemma rows_layout : valid_layout pf0 (flat_map snd (map row_index rows)).
Proof.
  replace (flat_map snd (map row_index rows)) with (flat_map (fun r => map fst (row_packs r)) rows); [exact (b_lay _ _ _ _ _ _ _ _ HB)|]. generalize rows. intros l. induction l as [|r l IH]; [reflexivity|]. cbn [map flat_map]. rewrite IH. reflexivity.
Qed.
Lemma rows_stores : Forall2 stores (map row_index rows) F0 /\ table_sorted F0.
Proof. destruct (b_db _ _ _ _ _ _ _ _ HB) as (B1 & B2 & _). auto. Qed.

Lemma packed_updates : (forall t r, In (t, r) (concat (r_out s)) -> exists k, tile_to_key t 0 = Ok k /\ table_get T k = Some (pack_records_serialize [r])) /\
  (forall t r, In (t, r) (concat (r_out s)) -> exists B, pf_get (g_pf (r_mgr s)) r = Ok B).
Proof.
  destruct rows_stores as [B1 B2].
  destruct (table_now _ _ _ _ _ _ (ok_possort _ HL) (ok_recsort _ HL) (ok_tasksort _ HL) (packs_with_nonempty L d) _ (map row_index rows) F0 B1 B2 rows_filled (b_inv _ _ _ _ _ _ _ _ HB) (b_size _ _ _ _ _ _ _ _ HB) rows_layout tasks ER s HR) as (T2 & E2 & _ & TN1 & _ & _).
  rewrite ET in E2. apply Ok_inj in E2. subst T2. split; [exact TN1|]. intros t r Hu.
  destruct (out_good _ _ _ _ _ _ (ok_possort _ HL) (ok_recsort _ HL) (ok_tasksort _ HL) (packs_with_nonempty L d) _ (map row_index rows) F0 B1 B2 rows_filled (b_inv _ _ _ _ _ _ _ _ HB) (b_size _ _ _ _ _ _ _ _ HB) rows_layout tasks ER s t r HR Hu) as (ps & _ & HG).
  eauto.
Qed.

Lemma packed_rows : (forall u, In u (concat (r_out s)) -> rec_ok (snd u) /\ r_size (snd u) < 2 ^ 30) ->
  table_sorted T /\ exists rows', Forall2 (packed_row L d (g_pf (r_mgr s)) rows (concat (r_out s))) rows' T.
Proof.
  intros HS. destruct rows_stores as [B1 B2]. pose proof rows_filled as Hne. pose proof rows_layout as HLy. pose proof HB as [[_ [_ B3]] _ _ _ B6 B7 _]. pose proof (packs_with_nonempty L d) as Hpk.
  destruct (table_now _ _ _ _ _ _ (ok_possort _ HL) (ok_recsort _ HL) (ok_tasksort _ HL) Hpk _ (map row_index rows) F0 B1 B2 Hne B6 B7 HLy tasks ER s HR) as (T2 & E2 & TS & TN1 & TN2 & TN3).
  rewrite ET in E2. apply Ok_inj in E2. subst T2. split; [exact TS|]. set (pf := g_pf (r_mgr s)) in *. set (db := map row_index rows) in *.
  apply choose. intros [k v] He. pose proof (table_get_in _ _ _ TS He) as Hg. destruct (TN2 k v Hg) as (t & rec & Hu & Hk & Ev). destruct (TN3 t rec Hu) as [_ Hmt].
  assert (Hrec : tile_records db t <> []).
  { destruct (tasks_of_db db F0 B1 B2 Hne) as (tasks' & ER' & HG). rewrite ER in ER'. apply Ok_inj in ER'. subst tasks'. destruct (gr_from _ _ HG t Hmt) as (x & X1 & X2).
    apply (tile_records_some db t x X1 X2). exact (proj1 (Forall_forall _ _) Hne _ X1). }
  destruct (HS (t, rec) Hu) as [HRS HSZ]. cbn [snd] in HRS, HSZ.
  destruct (out_good _ _ _ _ _ _ (ok_possort _ HL) (ok_recsort _ HL) (ok_tasksort _ HL) Hpk _ db F0 B1 B2 Hne B6 B7 HLy tasks ER s t rec HR Hu) as (ps & HPm & HG). fold pf in HG.
  unfold db in HPm, Hrec. rewrite tile_packs_records in HPm, Hrec. rewrite map_map in HPm. apply Permutation_map_inv in HPm as (rps & Eps & HPr).
  assert (Hrows : forall p, In p (tile_packs rows t) -> record_holds raw (dict_encode (coder_make (l_psort L) d)) (dict_decode d) (l_mk L) (l_rd L) (l_qsort L) pf0 t p /\ tz t = 10 /\ valid_tile t).
  { intros p Hp. apply in_tile_packs in Hp as (r & Hr & Et & Hp). destruct (proj1 (Forall_forall _ _) B3 _ Hr) as (Z1 & Z2 & Z3). rewrite Et in *. split; [exact (proj1 (Forall_forall _ _) Z3 _ Hp) | auto]. }
  assert (Hnt : tile_packs rows t <> []) by (intros E; rewrite E in Hrec; now apply Hrec).
  assert (Ht : tz t = 10 /\ valid_tile t). { destruct (tile_packs rows t) as [|p l]; [contradiction|]. apply (Hrows p). now left. }
  assert (EQ : packs_with L d t ps = packs_with L d t ps) by reflexivity. unfold packs_with in EQ at 2.
  destruct (pack_features_quad (dict_encode (coder_make (l_psort L) d)) (dict_decode d) (l_mk L) (l_rd L) (l_qsort L) t ps) as [B| | |] eqn:EP;
    try (exfalso; apply (HN (t, rec) Hu); cbn [snd]; fold pf; rewrite HG; f_equal; exact EQ).
  rewrite EQ in HG.
  assert (HBz : blen B < 2 ^ 30) by (destruct (pf_get_bytes _ _ _ HG) as [_ ->]; exact HSZ).
  assert (Hin : forall p, In p rps -> In p (tile_packs rows t)) by (intros p Hp; now apply (Permutation_in _ (Permutation_sym HPr))).
  assert (HF : exists fls, Forall2 (fun fl p => Permutation fl (snd p) /\ pack_holds (dict_decode d) (bytes_of pf0 (fst p)) fl) fls rps).
  { apply choose. intros p Hp. apply (holds_pack L raw d pf0 t p HL Hd); [apply Ht | apply Ht |]. now apply Hrows, Hin. }
  destruct HF as (fls & HF).
  assert (Hmem : forall f, In f (concat fls) <-> In f (tile_features rows t)).
  { intros f. rewrite tile_packs_features. rewrite in_flat_map, in_concat. split.
    - intros (fl & Hfl & Hf). destruct (Forall2_in_l _ _ _ _ HF Hfl) as (p & Hp & HPp & _). exists p. split; [now apply Hin | now apply (Permutation_in _ HPp)].
    - intros (p & Hp & Hf). apply (Permutation_in _ HPr) in Hp. destruct (Forall2_in_r _ _ _ _ HF Hp) as (fl & Hfl & HPp & _). exists fl. split; [assumption | now apply (Permutation_in _ (Permutation_sym HPp))]. }
  exists (Row t 0 [(rec, concat fls)]). split; [|split; [reflexivity|split; [apply Ht|split; [apply Ht|]]]].
  - unfold row_index. cbn [row_tile row_n row_packs map fst]. split; [exact Hk|]. split; [constructor; [exact HRS | constructor]|]. cbn [snd]. exact Ev.
  - exists rec, (concat fls). cbn [row_packs row_tile]. split; [reflexivity|]. split; [exact Hu|]. split; [|split; [exact Hnt | exact Hmem]].
    split; cbn [fst snd].
    + apply Forall_forall. intros f Hf. apply Hmem in Hf. rewrite tile_packs_features in Hf. apply in_flat_map in Hf as (p & Hp & Hf). destruct (Hrows p Hp) as [[Hpl _] _].
      exact (proj1 (Forall_forall _ _) Hpl _ Hf).
    + exists ps, fls, B. split; [reflexivity|]. split; [|split; [exact EP|split; [exact HBz | exact HG]]].
      rewrite Eps. clear -HF. induction HF as [|fl p fls rps [_ H] HF IH]; [constructor|]. cbn [map]. constructor; assumption.
Qed.

Lemma packed_binv pf' rows' : table_sorted T -> Forall2 (packed_row L d pf' rows (concat (r_out s))) rows' T ->
  Forall (fun u : single => r_off (snd u) + r_size (snd u) <= pf_size pf') (concat (r_out s)) -> pf_inv pf' -> pf_size pf' < 2 ^ 64 ->
  binv L false d D fs T pf' rows'.
Proof.
  intros TS HF HE HI Hsz. destruct rows_stores as [B1 B2].
  destruct (now_layout _ _ _ _ _ _ (ok_possort _ HL) (ok_recsort _ HL) (ok_tasksort _ HL) (packs_with_nonempty L d) _ (map row_index rows) F0 B1 B2 rows_filled (b_inv _ _ _ _ _ _ _ _ HB) (b_size _ _ _ _ _ _ _ _ HB) rows_layout tasks ER s HR) as (LS & LA & LN).
  destruct packed_updates as [TN1 _].
  constructor.
  - split; [|split; [exact TS|]].
    + clear -HF. induction HF as [|r e rows' T (HS & _) F IH]; cbn [map]; constructor; auto.
    + apply Forall_forall. intros r Hr. destruct (Forall2_in_l _ _ _ _ HF Hr) as (e & He & (_ & _ & Z1 & Z2 & rec & fl & Ep & _ & HH & _)). split; [exact Z1|]. split; [exact Z2|]. rewrite Ep. constructor; [exact HH | constructor].
  - apply Forall_forall. intros r Hr. destruct (Forall2_in_l _ _ _ _ HF Hr) as (e & He & (_ & Z0 & _ & _ & rec & fl & Ep & _)). split; [exact Z0|]. rewrite Ep. discriminate.
  - intros i f Hi H. apply (b_only _ _ _ _ _ _ _ _ HB i f Hi). unfold tile_features in H. apply in_flat_map in H as (r & Hr & Hf). apply filter_In in Hr as [Hr Et]. apply tile_eqb_eq in Et.
    destruct (Forall2_in_l _ _ _ _ HF Hr) as (e & He & (_ & _ & _ & _ & rec & fl & Ep & _ & _ & _ & Hin)). rewrite <- Et. apply Hin. unfold row_features in Hf. rewrite Ep in Hf. cbn [flat_map snd] in Hf. now rewrite app_nil_r in Hf.
  - intros i f Hi Hc (k & v & Hk & Hv).
    destruct (Forall2_in_r _ _ _ _ HF Hv) as (r & Hr & ((Kr & _) & Z0 & _ & _ & rec & fl & Ep & _ & _ & Hnt & Hin)). unfold row_index in Kr. cbn [fst snd] in Kr. rewrite Z0 in Kr.
    destruct (tile_key_injective _ _ _ _ _ Hk Kr) as [Et _]. unfold tile_features. apply in_flat_map. exists r. split; [apply filter_In; split; [assumption|]; apply tile_eqb_eq; now symmetry|].
    unfold row_features. rewrite Ep. cbn [flat_map snd]. rewrite app_nil_r. apply Hin. rewrite <- Et in *. apply (b_all _ _ _ _ _ _ _ _ HB i f Hi Hc).
    destruct (tile_packs rows i) as [|p l] eqn:E; [contradiction|]. assert (Hp : In p (tile_packs rows i)) by (rewrite E; now left). apply in_tile_packs in Hp as (r0 & Hr0 & <- & _).
    apply (row_entry rows); [exact B1 | assumption|]. apply (proj1 (Forall_forall _ _) (b_packs _ _ _ _ _ _ _ _ HB) _ Hr0).
  - exact HI.
  - exact Hsz.
  - assert (HPm : Permutation (map (fun r => (row_tile r, match row_packs r with p :: _ => fst p | [] => no_rec end)) rows') (concat (r_out s))).
    { apply NoDup_Permutation.
      - assert (ND : NoDup (map row_tile rows')). { apply (nodup_tiles rows' T); [|exact TS]. clear -HF. induction HF as [|r e rows' T ((K & _) & Z & _) F IH]; constructor; [|exact IH]. unfold row_index in K. cbn [fst snd] in K. now rewrite Z in K. }
        clear -ND. apply (NoDup_map_inv fst). now rewrite map_map.
      - exact (NoDup_map_inv _ _ LN).
      - intros [t rec]. split.
        + intros H. apply in_map_iff in H as (r & E & Hr). destruct (Forall2_in_l _ _ _ _ HF Hr) as (e & He & (_ & _ & _ & _ & rec' & fl & Ep & Hu & _)). rewrite Ep in E. cbn [fst] in E. injection E as <- <-. exact Hu.
        + intros Hu. destruct (TN1 t rec Hu) as (k & Hk & Hg). apply table_get_In in Hg. destruct (Forall2_in_r _ _ _ _ HF Hg) as (r & Hr & ((Kr & _) & Z0 & _ & _ & rec' & fl & Ep & Hu' & _)).
          unfold row_index in Kr. cbn [fst snd] in Kr. rewrite Z0 in Kr. destruct (tile_key_injective _ _ _ _ _ Hk Kr) as [Et _]. apply in_map_iff. exists r. split; [|exact Hr]. rewrite Ep. cbn [fst].
          f_equal; [now symmetry|]. rewrite <- Et in Hu'. clear -LN Hu Hu'. induction (concat (r_out s)) as [|[t1 r1] l IH]; [destruct Hu|]. cbn [map fst] in LN. inversion LN as [|? ? N1 N2]; subst.
          destruct Hu as [E|Hu], Hu' as [E'|Hu'].
          * congruence.
          * injection E as <- <-. destruct N1. apply in_map_iff. exists (t1, rec'). auto.
          * injection E' as <- <-. destruct N1. apply in_map_iff. exists (t1, rec). auto.
          * now apply IH. }
    apply (Permutation_map snd) in HPm. rewrite map_map in HPm. cbn [snd] in HPm.
    replace (flat_map (fun r => map fst (row_packs r)) rows') with (map (fun r => match row_packs r with p :: _ => fst p | [] => no_rec end) rows').
    + split.
      * apply Forall_forall. intros r Hr. apply (Permutation_in _ HPm) in Hr. split; [exact (proj1 (Forall_forall _ _) LS _ Hr)|].
        apply in_map_iff in Hr as (u & <- & Hu). exact (proj1 (Forall_forall _ _) HE _ Hu).
      * eapply fop_perm; [|apply Permutation_sym; exact HPm | exact LA]. intros x y. apply apart_sym.
    + clear -HF. induction HF as [|r e rows' T (_ & _ & _ & _ & rec & fl & Ep & _) F IH]; [reflexivity|]. cbn [map flat_map]. rewrite IH, Ep. reflexivity.
Qed.

Lemma packed_whole : r_pc s = RpDone -> whole_db D fs F0 -> whole_db D fs T.
Proof.
  intros HP HW i f Hi Hc. destruct rows_stores as [B1 B2].
  destruct (table_done _ _ _ _ _ _ (ok_possort _ HL) (ok_recsort _ HL) (ok_tasksort _ HL) (packs_with_nonempty L d) _ (map row_index rows) F0 B1 B2 rows_filled (b_inv _ _ _ _ _ _ _ _ HB) (b_size _ _ _ _ _ _ _ _ HB) rows_layout tasks ER s HR HP) as (T1 & E1 & TS & TD1 & _).
  rewrite ET in E1. apply Ok_inj in E1. subst T1. pose proof (b_all _ _ _ _ _ _ _ _ HB i f Hi Hc (HW i f Hi Hc)) as H.
  destruct (index_key 10 i) as (k & Hk); [lia | exact Hi|]. destruct (TD1 i k Hk) as [[Hno _]|[_ (v & Hv & _)]].
  - exfalso. rewrite tile_packs_records in Hno. apply map_eq_nil in Hno. rewrite tile_packs_features, Hno in H. destruct H.
  - apply table_get_In in Hv. exists k, v. auto.
Qed.
End Packed.

Lemma pack_spec L raw d D fs a b rows : libs_ok L -> N.of_nat (length d) < 2 ^ 64 -> load_dict (meta_get (ss_meta a) kMetaCoding) = Ok d ->
  binv L raw d D fs (ss_features a) (ss_file a) rows -> pack_phase L a b -> pf_size (ss_file b) < 2 ^ 64 ->
  (forall k v rs, In (k, v) (ss_features b) -> pack_records_deserialize v = Ok rs -> Forall (fun r => r_size r < 2 ^ 30) rs) ->
  exists rows', binv L false d D fs (ss_features b) (ss_file b) rows' /\ (whole_db D fs (ss_features a) -> whole_db D fs (ss_features b)) /\ ss_meta b = ss_meta a /\ ss_tiles b = ss_tiles a.
Proof.
  intros HL Hdl Hd HB (d' & tasks & s & T & Ed & ER & HR & HP & HN & ET & ->) Hsz Hsm. cbn [ss_meta ss_features ss_tiles ss_file] in *.
  rewrite Hd in Ed. apply Ok_inj in Ed. subst d'. destruct (rows_stores L raw d D fs (ss_features a) (ss_file a) rows HB) as [B1 B2].
  destruct (done_layout _ _ _ _ _ _ (ok_possort _ HL) (ok_recsort _ HL) (ok_tasksort _ HL) (packs_with_nonempty L d) _ (map row_index rows) (ss_features a) B1 B2 (rows_filled _ _ _ _ _ _ _ _ HB) (b_inv _ _ _ _ _ _ _ _ HB) (b_size _ _ _ _ _ _ _ _ HB) (rows_layout _ _ _ _ _ _ _ _ HB) tasks ER s HR HP) as (LI & LV & LN).
  destruct (packed_updates L raw d D fs (ss_features a) (ss_file a) rows HL HB tasks s T ER HR ET) as [TN1 _].
  assert (HSz : forall u, In u (concat (r_out s)) -> rec_ok (snd u) /\ r_size (snd u) < 2 ^ 30).
  { intros [t rec] Hu. cbn [snd]. assert (HRS : rec_ok rec). { destruct LV as [LV _]. assert (Hin : In rec (map snd (concat (r_out s)))) by (apply in_map_iff; exists (t, rec); auto). pose proof (proj1 (Forall_forall _ _) LV _ Hin) as Q. cbn beta in Q. split; lia. }
    split; [assumption|]. destruct (TN1 t rec Hu) as (k & _ & Hg). apply table_get_In in Hg. assert (Q : Forall (fun r => r_size r < 2 ^ 30) [rec]); [|now inversion Q].
    apply (Hsm k _ [rec] Hg). apply deserialize_serialize. constructor; [exact HRS | constructor]. }
  destruct (packed_rows L raw d D fs (ss_features a) (ss_file a) rows HL Hdl HB tasks s T ER HR HN ET HSz) as (TS & rows' & HF).
  exists rows'. split; [|split; [exact (packed_whole L raw d D fs (ss_features a) (ss_file a) rows HL Hdl HB tasks s T ER HR ET HP)|split; reflexivity]].
  apply (packed_binv L raw d D fs (ss_features a) (ss_file a) rows HL HB tasks s T ER HR ET); try assumption.
  apply Forall_forall. intros u Hu. destruct LV as [LV _]. assert (Hin : In (snd u) (map snd (concat (r_out s)))) by now apply in_map. pose proof (proj1 (Forall_forall _ _) LV _ Hin) as Q. cbn beta in Q. lia.
Qed.
