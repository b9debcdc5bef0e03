(** Whole imports: what loading leaves in the database. *)
From Coq Require Import Permutation String Ascii Sorting.Sorted.
From Coq Require Import List.
From Verif Require Import Base BaseProof ModelTile SpecTile ProofTile ModelPackFile SpecPackFile ProofPackFile ModelTable ProofTable ModelCodec ModelGeom SpecGeom ModelFeature SpecFeature ProofFeature
  ModelPack ModelPacker SpecPacker ModelBqTree SpecBqTree ModelMvt SpecMvt ModelRender SpecRender ProofRender ModelInserter SpecInserter ProofInserter ModelDict SpecDict ProofDict
  ModelOsm SpecOsm ProofOsm ModelDrain ModelCoast SpecCoast SpecLayout ProofLayout ModelRepack SpecRepack ModelServer ModelImport SpecImport.
Import ListNotations.
Open Scope N_scope.

(** ** The table meta *)
Lemma bytes_eqb_refl a : bytes_eqb a a = true.
Proof. apply bytes_eqb_eq. reflexivity. Qed.
Lemma meta_get_put m k v : meta_get (meta_put m k v) k = Some v.
Proof. unfold meta_put. cbn [meta_get fst]. now rewrite bytes_eqb_refl. Qed.
Lemma meta_get_put_other m k v k' : k <> k' -> meta_get (meta_put m k v) k' = meta_get m k'.
Proof.
  intros Hn. unfold meta_put. cbn [meta_get fst]. destruct (bytes_eqb k k') eqn:E; [apply bytes_eqb_eq in E; contradiction|].
  clear E. induction m as [|[k0 v0] m IH]; [reflexivity|]. cbn [filter fst meta_get]. destruct (bytes_eqb k0 k) eqn:E; cbn [negb].
  - apply bytes_eqb_eq in E. subst k0. destruct (bytes_eqb k k') eqn:E2; [apply bytes_eqb_eq in E2; contradiction | assumption].
  - cbn [meta_get fst]. destruct (bytes_eqb k0 k'); [reflexivity | assumption].
Qed.

(** ** Runs without calls *)
Lemma no_calls z upper lower srt T0 s0 n s : ireach z upper lower srt T0 s0 n s -> i_calls s = [] ->
  i_cache s = 0 /\ i_table s = T0 /\ i_file s = s0 /\
  Forall (fun t => th_pc t = IIdle \/ th_pc t = FCheck1 true \/ th_pc t = IDone) (i_threads s).
Proof.
  intros R. induction R as [|s s' R IH H]; intros HC.
  - cbn. repeat split; auto. apply Forall_forall. intros t Ht. apply repeat_spec in Ht. subst t. auto.
  - destruct H; cbn [i_calls] in *; try (now destruct cs); destruct (IH HC) as (Hc & HT & Hs & HF); cbn [i_cache i_table i_file i_threads] in *;
      try (apply Forall_app in HF as [HF1 HF2]; inversion HF2 as [|? ? HP HF3]; subst; cbn [th_pc] in HP; destruct HP as [HP|[HP|HP]]; try discriminate HP).
    + injection HP as ->. repeat split; auto. apply Forall_app. split; [assumption|]. constructor; [|assumption]. cbn. auto.
    + exfalso. injection HP as ->. cbn [up] in H. lia.
    + repeat split; auto. apply Forall_app. split; [assumption|]. constructor; [cbn; auto | constructor].
Qed.

(** ** Features handed to the inserter *)
(** reading back what the inserter writes *)
Definition dummy : feature := Feature 0 0 0 0 [] GNull.
Definition unser (v : bytes) : feature :=
  match deserialize_feature (fun _ => Throw) (fun _ _ => (0%Z, fun _ => true)) no_hints v with Ok (Some f) => f | _ => dummy end.
Definition fine (f : feature) : Prop := plain_feature f /\ exists v, ser f = Ok v /\ blen v < 2 ^ 32.
Lemma unser_ser f v : fine f -> ser f = Ok v -> unser v = f.
Proof.
  intros [[H1 H2] (v' & E & H3)] E'. rewrite E in E'. apply Ok_inj in E'. subst v'.
  destruct (feature_roundtrip (fun _ => None) (fun _ => Throw) (fun _ => []) (fun _ _ => (0%Z, fun _ => true)) true f v H1) as (f' & E2 & _ & E3); auto.
  { intros m i. discriminate. }
  unfold unser. rewrite E2. now apply E3.
Qed.

Definition cont (D : list (tile * feature)) (fs : list feature) (i : tile) (f : feature) : Prop :=
  In (i, f) D \/ In f fs /\ meets 10 i (bounding_box (f_geom f)) = true.

(** the features of a tile in the rows *)
Definition tile_features (rows : list row) (i : tile) : list feature :=
  flat_map row_features (filter (fun r => tile_eqb (row_tile r) i) rows).

Record binv (L : libs) (raw : bool) (d : list meta) (D : list (tile * feature)) (fs : list feature) (T : table) (s : pfile) (rows : list row) : Prop := {
  b_db : database_ok raw (dict_encode (coder_make (l_psort L) d)) (dict_decode d) (l_mk L) (l_rd L) (l_qsort L) s T rows;
  b_packs : Forall (fun r => row_n r = 0 /\ row_packs r <> []) rows;
  b_only : forall i f, index_tile 10 i -> In f (tile_features rows i) -> cont D fs i f;
  b_all : forall i f, index_tile 10 i -> cont D fs i f -> has_entry T i -> In f (tile_features rows i);
  b_inv : pf_inv s; b_size : pf_size s < 2 ^ 64;
  b_lay : valid_layout s (flat_map (fun r => map fst (row_packs r)) rows) }.

(** nothing is lost *)
Definition whole_db (D : list (tile * feature)) (fs : list feature) (T : table) : Prop := forall i f, index_tile 10 i -> cont D fs i f -> has_entry T i.
Lemma row_entry rows T r : Forall2 stores (map row_index rows) T -> In r rows -> row_n r = 0 -> has_entry T (row_tile r).
Proof.
  intros H Hr Hn. destruct (Forall2_in_l _ _ _ _ H (in_map row_index _ _ Hr)) as ([k v] & He & (K & _)). unfold row_index in K. cbn [fst snd] in K. rewrite Hn in K. exists k, v. auto.
Qed.
Lemma in_entry rows T i f : Forall2 stores (map row_index rows) T -> Forall (fun r => row_n r = 0 /\ row_packs r <> []) rows -> In f (tile_features rows i) -> has_entry T i.
Proof.
  intros H1 H2 H. unfold tile_features in H. apply in_flat_map in H as (r & Hr & _). apply filter_In in Hr as [Hr Ht]. apply tile_eqb_eq in Ht. subst i. apply (row_entry rows); try assumption.
  apply (proj1 (Forall_forall _ _) H2 _ Hr).
Qed.

Definition row_of (d : entry) : row := Row (fst d) 0 (map (fun p => (fst p, map unser (snd p))) (snd d)).

Lemma values_cont D fs cc i v : Forall fine (map snd D ++ fs) ->
  Forall2 (fun d c => exists v, ser (snd d) = Ok v /\ c = CValue (fst d) v) D cc ->
  In v (values_for 10 i (cc ++ map CFeature fs)) <-> exists f, cont D fs i f /\ ser f = Ok v.
Proof.
  intros HF H2. unfold values_for. rewrite flat_map_app, in_app_iff. split.
  - intros [H|H].
    + apply in_flat_map in H as (c & Hc & Hv). destruct (Forall2_in_r _ _ _ _ H2 Hc) as ([t f] & Hd & v0 & E & ->). cbn [fst snd] in *.
      destruct (tile_eqb i t) eqn:Et; [|destruct Hv]. apply tile_eqb_eq in Et. subst t. destruct Hv as [->|[]]. exists f. split; [now left | assumption].
    + apply in_flat_map in H as (c & Hc & Hv). apply in_map_iff in Hc as (f & <- & Hf). destruct (ser f) as [v0| | |] eqn:E; try (now destruct Hv).
      destruct (meets 10 i _) eqn:M; [|destruct Hv]. destruct Hv as [->|[]]. exists f. split; [right; auto | assumption].
  - intros (f & [Hf|[Hf M]] & E).
    + left. destruct (Forall2_in_l _ _ _ _ H2 Hf) as (c & Hc & v0 & E0 & ->). cbn [fst snd] in *. rewrite E in E0. apply Ok_inj in E0. subst v0.
      apply in_flat_map. exists (CValue i v). split; [assumption|]. assert (X : tile_eqb i i = true) by now apply tile_eqb_eq. rewrite X. now left.
    + right. apply in_flat_map. exists (CFeature f). split; [now apply in_map|]. rewrite E, M. now left.
Qed.

Lemma map_entry (g : list bytes -> list feature) (l : list (pack_record * list bytes)) :
  flat_map snd (map (fun p => (fst p, g (snd p))) l) = flat_map (fun p => g (snd p)) l.
Proof. induction l as [|p l IH]; [reflexivity|]. cbn [map flat_map snd]. now rewrite IH. Qed.

Lemma loaded L d D fs cc T s db : Forall fine (map snd D ++ fs) ->
  Forall2 (fun d c => exists v, ser (snd d) = Ok v /\ c = CValue (fst d) v) D cc ->
  laid 10 T s db -> pf_inv s -> pf_size s < 2 ^ 64 ->
  (forall i v, index_tile 10 i -> In v (entry_values db i) <-> In v (values_for 10 i (cc ++ map CFeature fs))) ->
  binv L true d D fs T s (map row_of db) /\ whole_db D fs T.
Proof.
  intros HF H2 HL HI HS HV. destruct HL as (L1 & L2 & L3 & L4).
  assert (Hfine : forall i f, cont D fs i f -> fine f).
  { intros i f Hc. apply (proj1 (Forall_forall _ _) HF). apply in_or_app. destruct Hc as [Hc|[Hc _]]; [left; apply in_map_iff; exists (i, f); auto | now right]. }
  assert (Hstr : forall e, In e db -> index_tile 10 (fst e) -> forall p, In p (snd e) -> forall v, In v (snd p) -> exists f, cont D fs (fst e) f /\ ser f = Ok v).
  { intros e He Hi p Hp v Hv. apply (values_cont D fs cc (fst e) v HF H2). apply HV; [assumption|]. apply in_flat_map. exists e. split; [assumption|].
    assert (X : tile_eqb (fst e) (fst e) = true) by now apply tile_eqb_eq. rewrite X. apply in_concat. exists (snd p). split; [now apply in_map | assumption]. }
  assert (HE : Forall2 stores (map row_index (map row_of db)) T).
  { rewrite map_map. replace (map (fun x => row_index (row_of x)) db) with (map entry_row db); [assumption|].
      apply map_ext. intros [t ps]. unfold row_index, row_of, entry_row. cbn [fst snd row_tile row_n row_packs]. rewrite map_map. reflexivity. }
  assert (HN : Forall (fun r => row_n r = 0 /\ row_packs r <> []) (map row_of db)).
  { apply Forall_forall. intros r Hr. apply in_map_iff in Hr as (e & <- & He). destruct (proj1 (Forall_forall _ _) L3 _ He) as (_ & I2 & _).
    split; [reflexivity|]. cbn [row_of row_packs]. intros E. apply map_eq_nil in E. contradiction. }
  assert (HAL : forall i f, index_tile 10 i -> cont D fs i f -> In f (tile_features (map row_of db) i)).
  { intros i f Hi. unfold tile_features.
      intros Hc. destruct (Hfine _ _ Hc) as [_ (v & Ev & _)].
      assert (Hv : In v (entry_values db i)) by (apply HV; [assumption|]; apply (values_cont D fs cc i v HF H2); eauto).
      apply in_flat_map in Hv as (e & He & Hv). destruct (tile_eqb (fst e) i) eqn:Et; [|destruct Hv]. apply in_concat in Hv as (vs & Hvs & Hv). apply in_map_iff in Hvs as (p & <- & Hp).
      apply in_flat_map. exists (row_of e). split; [apply filter_In; split; [now apply in_map | assumption]|].
      unfold row_features. cbn [row_of row_packs]. rewrite map_entry. apply in_flat_map. exists p. split; [assumption|]. apply in_map_iff. exists v. split; [apply unser_ser; [eapply Hfine; eauto | assumption] | assumption]. }
  split; [|intros i f Hi Hc; exact (in_entry _ _ _ _ HE HN (HAL i f Hi Hc))].
  constructor.
  - split; [assumption|]. split; [assumption|].
    apply Forall_forall. intros r Hr. apply in_map_iff in Hr as (e & <- & He). destruct (proj1 (Forall_forall _ _) L3 _ He) as (I1 & I2 & I3).
      cbn [row_of row_tile row_packs]. split; [apply I1|]. split; [unfold valid_tile; destruct I1 as (-> & ?); tauto|].
      apply Forall_forall. intros rf Hrf. apply in_map_iff in Hrf as (p & <- & Hp). cbn [fst snd]. destruct (proj1 (Forall_forall _ _) I3 _ Hp) as (B & B1 & B2).
      assert (HA : Forall (fun v => exists f, cont D fs (fst e) f /\ ser f = Ok v) (snd p)) by (apply Forall_forall; intros v Hv; eapply Hstr; eauto).
      split; cbn [fst snd].
      * apply Forall_forall. intros f Hf. apply in_map_iff in Hf as (v & <- & Hv). destruct (proj1 (Forall_forall _ _) HA _ Hv) as (f & Hc & Ev).
        rewrite (unser_ser f v (Hfine _ _ Hc) Ev). apply (Hfine _ _ Hc).
      * exists (snd p), B. split; [|auto]. clear - HA Hfine. induction HA as [|v vs (f & Hc & Ev) HA IH]; [constructor|]. cbn [map]. constructor; [|assumption].
        rewrite (unser_ser f v (Hfine _ _ Hc) Ev). split; [assumption|]. destruct (Hfine _ _ Hc) as [_ (v' & E & Hb)]. rewrite Ev in E. apply Ok_inj in E. now subst v'.
  - exact HN.
  - intros i f Hi. unfold tile_features.
    intros H. apply in_flat_map in H as (r & Hr & Hf). apply filter_In in Hr as [Hr Ht]. apply tile_eqb_eq in Ht. apply in_map_iff in Hr as (e & <- & He). cbn [row_of row_tile] in Ht. subst i.
      unfold row_features in Hf. cbn [row_of row_packs] in Hf. rewrite map_entry in Hf. apply in_flat_map in Hf as (p & Hp & Hf). apply in_map_iff in Hf as (v & <- & Hv).
      destruct (Hstr e He Hi p Hp v Hv) as (f & Hc & Ev). now rewrite (unser_ser f v (Hfine _ _ Hc) Ev).
  - intros i f Hi Hc _. now apply HAL.
  - assumption.
  - assumption.
  - replace (flat_map (fun r => map fst (row_packs r)) (map row_of db)) with (flat_map (fun d0 => snd (entry_row d0)) db); [assumption|].
    clear. induction db as [|e db IH]; [reflexivity|]. cbn [map flat_map]. rewrite IH. f_equal. unfold entry_row, row_of. cbn [row_packs snd]. now rewrite map_map.
Qed.
