(** C41: joining line features. *)
From Coq Require Import Permutation Sorting.Sorted.
From Verif Require Import Base BaseProof ModelTile ModelCodec ModelGeom ModelFeature ModelDict ModelMvt SpecMvt ModelAggregate SpecDict SpecAggregate
  ProofAggregate ProofAggregateJoin ProofAggregateOut ProofAggregateFeat ProofDict ProofMvtTile.
Open Scope Z_scope.

(** C41: joining always ends with a result.  Every line is used exactly once, whole, forwards or backwards;
    lines are put together only at a point where exactly two lines end (the point appears once in the result),
    and nothing is left to join; every segment is drawn exactly as often as before. *)
Theorem c41_joined : forall srt lns,
  sorts lentry_ltb srt -> Forall line_ok lns ->
  exists out, join_group srt lns = Ok out /\ joined_from lns out /\ fully_joined lns out /\
    Permutation (map undirected (flat_map segments out)) (map undirected (flat_map segments lns)).
Proof.
  intros srt lns Hs Hl. destruct (join_group_main srt lns Hl Hs) as (out & E & J & F). exists out.
  split; [exact E|]. split; [exact J|]. split; [exact F|]. exact (segments_preserved lns out Hl J).
Qed.
Print Assumptions c41_joined.

(** C41: the features of a tile: one feature for each metadata that occurs, with the smallest id of the
    features with this metadata, and their lines joined (and simplified); no id appears twice if none did *)
Theorem c41_features : forall srt_f srt_e simp fs z,
  sorts feature_ltb srt_f -> sorts lentry_ltb srt_e -> Forall line_feature fs ->
  exists r, aggregate_line_features srt_f srt_e simp fs z = Ok r /\ aggregated simp z fs r /\
    (NoDup (map f_id fs) -> NoDup (map f_id r)).
Proof. intros srt_f srt_e simp fs z H1 H2. exact (aggregate_main srt_f srt_e simp H1 H2 fs z). Qed.
Print Assumptions c41_features.

(** C41: where simplification changes nothing, the features draw exactly the same segments as before *)
Theorem c41_segments : forall srt_f srt_e fs z r,
  sorts feature_ltb srt_f -> sorts lentry_ltb srt_e -> Forall line_feature fs ->
  aggregate_line_features srt_f srt_e (fun l _ => l) fs z = Ok r ->
  Permutation (drawn_segments r) (drawn_segments fs).
Proof.
  intros srt_f srt_e fs z r H1 H2 Hl E. destruct (aggregate_main srt_f srt_e (fun l _ => l) H1 H2 fs z Hl) as (r' & E' & A & _).
  rewrite E in E'. apply Ok_inj in E'. subst r'. exact (aggregated_segments z fs r Hl A).
Qed.
Print Assumptions c41_segments.

(** it is what the tile builder and the renderer (C26, C27, C44, C52) need *)
Theorem c41_fits_builder : forall srt_f srt_e simp, sorts feature_ltb srt_f -> sorts lentry_ltb srt_e ->
  aggregate_ok (aggregate_line_features srt_f srt_e simp) /\ joins_lines (aggregate_line_features srt_f srt_e simp).
Proof.
  intros srt_f srt_e simp H1 H2. split; [exact (aggregate_is_ok srt_f srt_e simp H1)|].
  intros ls z Hl. destruct (aggregate_main srt_f srt_e simp H1 H2 ls z Hl) as (r & Er & _). eauto.
Qed.
Print Assumptions c41_fits_builder.

(** C26 with the lines joined by this function: building a tile never fails if the lines to join have points *)
Theorem c26_tile_total_joined : forall srt_f srt_e simp c t fs,
  sorts feature_ltb srt_f -> sorts lentry_ltb srt_e -> c_aggregate c = aggregate_line_features srt_f srt_e simp ->
  ctx_for c t -> cuts_areas (c_cut c) ->
  Forall (fun f => f_id f < 2 ^ 64 /\ f_layer f < N.of_nat (length (c_names c)) /\ meta_ok f /\
                   areal (f_geom f) /\ (c_agg_lines c = true -> joinable (f_geom f)))%N fs ->
  exists buf, build_tile c fs = Ok buf.
Proof.
  intros srt_f srt_e simp c t fs H1 H2 E Hc Ht. apply (build_tile_total c t Hc Ht); rewrite E.
  - exact (aggregate_is_ok srt_f srt_e simp H1).
  - intros ls z Hl. destruct (aggregate_main srt_f srt_e simp H1 H2 ls z Hl) as (r & Er & _). eauto.
Qed.
Print Assumptions c26_tile_total_joined.

(** C27 with the lines joined by this function *)
Theorem c27_ids_unique_joined : forall srt_f srt_e simp c t fs buf vls,
  sorts feature_ltb srt_f -> c_aggregate c = aggregate_line_features srt_f srt_e simp ->
  ctx_for c t -> Forall (fun f => f_id f < 2 ^ 64)%N fs ->
  build_tile c fs = Ok buf -> (blen buf < 2 ^ 29)%N -> decode_tile buf = Some vls ->
  Forall (fun l => vl_features l <> [] /\ NoDup (map (fun v => (v_id v, vkind (v_geom v))) (vl_features l))) vls.
Proof.
  intros srt_f srt_e simp c t fs buf vls H1 E Hc Hf. apply (tile_ids_unique c t fs buf vls Hc Hf). rewrite E.
  exact (aggregate_is_ok srt_f srt_e simp H1).
Qed.
Print Assumptions c27_ids_unique_joined.

(** ** Concrete cases *)
Lemma c41_ex_sort_e : sorts lentry_ltb (isort lentry_ltb).
Proof. apply isort_sorts; [apply lentry_ltb_asym|]. intros a b c H1 H2. exact (lentry_le_trans _ _ _ H1 H2). Qed.
Lemma c41_ex_sort_f : sorts feature_ltb (isort feature_ltb).
Proof.
  apply isort_sorts.
  - intros a b H. destruct (feature_ltb b a) eqn:E; [|reflexivity]. exfalso.
    unfold feature_ltb in *. destruct (metas_ltb (f_meta a) (f_meta b)) eqn:A, (metas_ltb (f_meta b) (f_meta a)) eqn:B; cbn [orb negb andb] in *; try discriminate.
    + rewrite (metas_asym _ _ A) in B. discriminate.
    + lia.
  - intros a b c H1 H2. apply fle_spec in H1, H2. apply fle_spec. destruct H1 as [H1|[H1 H1']], H2 as [H2|[H2 H2']].
    + left. eapply metas_trans; eassumption.
    + left. rewrite <- H2. exact H1.
    + left. rewrite H1. exact H2.
    + right. split; [congruence|lia].
Qed.

(** a chain with a reversed part, a junction of three lines, a ring of two lines, a closed line at a junction *)
Definition c41_lns : list line :=
  [[(0, 0); (1, 0); (2, 0)]; [(5, 0); (4, 1); (2, 0)]; [(5, 0); (6, 0)]; [(6, 0); (7, 1)]; [(6, 0); (7, -1)];
   [(20, 0); (21, 0)]; [(20, 0); (20, 1); (21, 0)]; [(6, 0); (6, 5); (7, 5); (6, 0)]; [(30, 0)]].
Example c41_ex_ok : Forall line_ok c41_lns.
Proof. repeat apply Forall_cons; try apply Forall_nil; (split; [discriminate|split; vm_compute; discriminate]). Qed.
Example c41_ex_join : join_group (isort lentry_ltb) c41_lns = Ok
  [[(0, 0); (1, 0); (2, 0); (4, 1); (5, 0); (6, 0)]; [(6, 0); (7, 1)]; [(6, 0); (7, -1)];
   [(21, 0); (20, 1); (20, 0); (21, 0)]; [(6, 0); (6, 5); (7, 5); (6, 0)]; [(30, 0)]].
Proof. vm_compute. reflexivity. Qed.

Definition c41_fs : list feature :=
  [Feature 9 1 0 20 [([110], [2; 65])]%N (GLine [[(0, 0); (1, 0)]]%Z);
   Feature 4 1 0 20 []%N (GLine [[(1, 0); (2, 0)]]%Z);
   Feature 3 1 0 20 [([110], [2; 65])]%N (GLine [[(1, 0); (1, 1)]; [(9, 9); (8, 8)]]%Z)]%N.
Example c41_ex_fs : Forall line_feature c41_fs.
Proof.
  repeat apply Forall_cons; try apply Forall_nil; (eexists; split; [reflexivity|split; [|vm_compute; reflexivity]]);
    repeat apply Forall_cons; try apply Forall_nil; (split; [discriminate|split; vm_compute; discriminate]).
Qed.
Example c41_ex_features : aggregate_line_features (isort feature_ltb) (isort lentry_ltb) (fun l _ => l) c41_fs 10 = Ok
  [Feature 4 kInvalidLayer 0 0 []%N (GLine [[(1, 0); (2, 0)]]%Z);
   Feature 3 kInvalidLayer 0 0 [([110], [2; 65])]%N (GLine [[(0, 0); (1, 0); (1, 1)]; [(9, 9); (8, 8)]]%Z)]%N.
Proof. vm_compute. reflexivity. Qed.

(** the hypothesis is needed: a line without points is read out of bounds; another kind of geometry throws *)
Example c41_ex_empty : aggregate_line_features (isort feature_ltb) (isort lentry_ltb) (fun l _ => l)
  [Feature 1 1 0 20 [] (GLine [[]])]%N 10 = UB.
Proof. vm_compute. reflexivity. Qed.
Example c41_ex_point : aggregate_line_features (isort feature_ltb) (isort lentry_ltb) (fun l _ => l)
  [Feature 1 1 0 20 [] (GPoint [(0, 0)]%Z)]%N 10 = Throw.
Proof. vm_compute. reflexivity. Qed.
