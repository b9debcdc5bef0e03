From Coq Require Import Permutation Sorting.Sorted.
From Verif Require Import Base BaseProof ModelTile ModelCodec ProofCodec ModelGeom SpecGeom ModelFeature ModelMvt SpecMvt ProofMvtGeom ProofMvt ProofMvtTile.
From Verif Require Import ModelServer ModelDebug ModelTileStats SpecTileStats.
From Coq Require Import String.
From Coq Require Import List.
Import ListNotations.
Open Scope N_scope.

Definition rmap {A B} (f : A -> B) (r : res A) : res B := do x <- r; Ok (f x).
Lemma rmap_ok {A B} (f : A -> B) r a : r = Ok a -> rmap f r = Ok (f a).
Proof. now intros ->. Qed.

(** ** The counters do not change what is built *)
Lemma wf_st c s f : rmap s_lb (write_feature_st c s f) = write_feature c (s_lb s) f.
Proof.
  unfold write_feature_st, rmap. destruct (f_geom f) eqn:E; [cbn [bind]; unfold write_feature; now rewrite E|..];
    destruct (write_feature c (s_lb s) f); reflexivity.
Qed.
Lemma add_st c s f : rmap s_lb (lb_add_feature_st c s f) = lb_add_feature c (s_lb s) f.
Proof.
  unfold lb_add_feature_st, lb_add_feature. destruct (f_geom f) eqn:E; [reflexivity|..]; destruct (mem (f_id f) _); try reflexivity.
  - destruct (clip_shift c f); cbn [bind rmap]; try reflexivity. apply wf_st.
  - destruct (c_agg_lines c); [reflexivity|]. destruct (clip_shift c f); cbn [bind rmap]; try reflexivity. apply wf_st.
  - destruct (c_agg_polys c); [reflexivity|]. destruct (clip_shift c f); cbn [bind rmap]; try reflexivity. apply wf_st.
Qed.
Lemma polys_st c fs : forall s, rmap s_lb (write_polys_st c s fs) = write_polys c (s_lb s) fs.
Proof.
  induction fs as [|f fs IH]; intros s; [reflexivity|]. cbn [write_polys_st write_polys]. destruct (clip_shift c f) as [f'| | |]; cbn [bind rmap]; try reflexivity.
  destruct (_ && _ && _); [apply IH|]. rewrite <- wf_st. destruct (write_feature_st c s f'); cbn [bind rmap]; try reflexivity. apply IH.
Qed.
Lemma lines_st c fs : forall s, rmap s_lb (write_lines_st c s fs) = write_lines c (s_lb s) fs.
Proof.
  induction fs as [|f fs IH]; intros s; [reflexivity|]. cbn [write_lines_st write_lines]. destruct (clip_shift c f) as [f'| | |]; cbn [bind rmap]; try reflexivity.
  rewrite <- wf_st. destruct (write_feature_st c s f'); cbn [bind rmap]; try reflexivity. apply IH.
Qed.
Lemma aggregate_st c s : rmap s_lb (aggregate_geometry_st c s) = aggregate_geometry c (s_lb s).
Proof.
  unfold aggregate_geometry_st, aggregate_geometry.
  assert (E : rmap s_lb (if c_agg_polys c then write_polys_st c s (lb_poly_buf (s_lb s)) else Ok s) =
    if c_agg_polys c then write_polys c (s_lb s) (lb_poly_buf (s_lb s)) else Ok (s_lb s)) by (destruct (c_agg_polys c); [apply polys_st | reflexivity]).
  rewrite <- E. destruct (if c_agg_polys c then _ else _) as [s1| | |]; cbn [bind rmap]; try reflexivity.
  destruct (c_agg_lines c && _); [|reflexivity]. destruct (c_aggregate c _ _); cbn [bind rmap]; try reflexivity. apply lines_st.
Qed.

Definition proj (tb : list (N * counting)) : tile_builder := map (fun e => (fst e, s_lb (snd e))) tb.
Lemma map_update_proj i init upd upd' : (forall s, rmap s_lb (upd s) = upd' (s_lb s)) -> forall m,
  rmap proj (map_update_st i init upd m) = map_update i (s_lb init) upd' (proj m).
Proof.
  intros Hu. induction m as [|[j s] m IH]; cbn [map_update_st map_update proj map fst snd].
  - rewrite <- Hu. destruct (upd init); reflexivity.
  - destruct (i <? j); [rewrite <- Hu; destruct (upd init); reflexivity|]. destruct (i =? j); [rewrite <- Hu; destruct (upd s); reflexivity|].
    fold (proj m). rewrite <- IH. destruct (map_update_st i init upd m); reflexivity.
Qed.
Lemma features_st c fs : forall tb, rmap proj (tb_add_features_st c tb fs) = tb_add_features c (proj tb) fs.
Proof.
  induction fs as [|f fs IH]; intros tb; [reflexivity|]. cbn [tb_add_features_st tb_add_features].
  assert (E : rmap proj (tb_add_feature_st c tb f) = tb_add_feature c (proj tb) f).
  { unfold tb_add_feature_st, tb_add_feature. destruct (nth_error _ _) as [name|]; [|reflexivity].
    apply (map_update_proj (f_layer f) (counting_init name)). intros s. apply add_st. }
  rewrite <- E. destruct (tb_add_feature_st c tb f); cbn [bind rmap]; try reflexivity. apply IH.
Qed.
Lemma finish_st c tb : rmap fst (tb_finish_st c tb) = tb_finish c (proj tb).
Proof.
  induction tb as [|[i s] tb IH]; [reflexivity|]. cbn [tb_finish_st tb_finish proj map fst snd]. fold (proj tb).
  rewrite <- aggregate_st, <- IH. destruct (aggregate_geometry_st c s) as [s1| | |]; cbn [bind rmap]; try reflexivity.
  destruct (lb_has (s_lb s1)).
  - unfold lb_finish_st. destruct (lb_finish (s_lb s1)); cbn [bind fst snd]; try reflexivity. destruct (tb_finish_st c tb); reflexivity.
  - cbn [bind fst snd]. destruct (tb_finish_st c tb); reflexivity.
Qed.

Lemma stats_same c t fs : rmap fst (build_tile_stats c t false fs) = build_tile c fs.
Proof.
  unfold build_tile_stats, build_tile. change (@nil (N * layer_builder)) with (proj []). rewrite <- features_st.
  destruct (tb_add_features_st c [] fs) as [tb| | |]; cbn [bind rmap]; try reflexivity. rewrite <- finish_st. destruct (tb_finish_st c tb); reflexivity.
Qed.
Lemma stats_same_debug c t fs : rmap fst (build_tile_stats c t true fs) = build_tile_debug c t fs.
Proof.
  unfold build_tile_stats, build_tile_debug. change (@nil (N * layer_builder)) with (proj []). rewrite <- features_st.
  destruct (tb_add_features_st c [] fs) as [tb| | |]; cbn [bind rmap]; try reflexivity. rewrite <- finish_st. destruct (tb_finish_st c tb); cbn [bind rmap]; try reflexivity.
  destruct (debug_layer (c_spec c) t); reflexivity.
Qed.
Lemma debug_lines c t fs r : build_tile_stats c t true fs = Ok r ->
  exists b d lines, build_tile_stats c t false fs = Ok (b, lines) /\ debug_layer (c_spec c) t = Ok d /\ fst r = b ++ field_bytes MT_LAYERS d /\
    snd r = lines ++ [TLine (lit "tiles_debug_info") 0 0 (blen d)].
Proof.
  unfold build_tile_stats. intros H. apply bind_ok in H as (tb & E1 & H). apply bind_ok in H as ([b lines] & E2 & H). apply bind_ok in H as (d & E3 & H). apply Ok_inj in H. subst r.
  exists b, d, lines. rewrite E1. cbn [bind]. rewrite E2. auto.
Qed.

(** ** The invariant of a layer *)
Definition buf_inv (s : counting) : Prop :=
  exists fbs, lb_buf (s_lb s) = enc_msg (header_fields (s_name s) ++ map (fun b => (2, WLen b)) fbs) /\ s_written s = num fbs.
Definition same_ids (l : list N) (k : N) (fs : list feature) : Prop := NoDup l /\ forall id, In id l <-> In id (ids_of_kind k fs).
Definition ids_inv (s : counting) (fs : list feature) : Prop :=
  let lb := s_lb s in
  same_ids (lb_nodes lb) 1 fs /\ same_ids (lb_lines lb) 2 fs /\ same_ids (lb_polys lb) 3 fs /\
  s_added s = num (ids_of_kind 0 fs) + num (lb_nodes lb) + num (lb_lines lb) + num (lb_polys lb).

Lemma buf_inv_init name : buf_inv (counting_init name).
Proof.
  exists []. split; [|reflexivity]. cbn [counting_init s_lb s_name layer_builder_init lb_buf map]. rewrite app_nil_r.
  unfold enc_msg, header_fields. cbn [flat_map enc_field fst snd]. now rewrite app_nil_r.
Qed.
Lemma ids_inv_init name : ids_inv (counting_init name) [].
Proof. repeat split; try (constructor); cbn; auto. Qed.

Definition frame (s s' : counting) : Prop :=
  s_name s' = s_name s /\ s_added s' = s_added s /\ lb_nodes (s_lb s') = lb_nodes (s_lb s) /\ lb_lines (s_lb s') = lb_lines (s_lb s) /\ lb_polys (s_lb s') = lb_polys (s_lb s).
Lemma frame_refl s : frame s s.
Proof. repeat split. Qed.
Lemma frame_trans a b d : frame a b -> frame b d -> frame a d.
Proof. unfold frame. intuition congruence. Qed.

Lemma write_st_inv c s f s' : buf_inv s -> write_feature_st c s f = Ok s' -> buf_inv s' /\ frame s s'.
Proof.
  intros (fbs & E & W) H. unfold write_feature_st in H.
  assert (D : f_geom f = GNull \/ exists lb, write_feature c (s_lb s) f = Ok lb /\ s' = Counting (s_name s) lb (s_added s) (s_written s + 1) /\ f_geom f <> GNull).
  { destruct (f_geom f); [now left|..]; right; apply bind_ok in H as (lb & E1 & H); apply Ok_inj in H; exists lb; (split; [exact E1 | split; [now symmetry | discriminate]]). }
  destruct D as [D|(lb & E1 & -> & D)]; [rewrite D in H; apply Ok_inj in H; subst s'; split; [now exists fbs | apply frame_refl]|].
  assert (F : exists fb, lb_buf lb = lb_buf (s_lb s) ++ field_bytes ML_FEATURES fb /\ lb_nodes lb = lb_nodes (s_lb s) /\ lb_lines lb = lb_lines (s_lb s) /\ lb_polys lb = lb_polys (s_lb s)).
  { clear - E1 D. unfold write_feature in E1. destruct (f_geom f); [congruence|..];
    apply bind_ok in E1 as (g & _ & E1); destruct (collect_tags (lb_keys (s_lb s)) (lb_vals (s_lb s)) (f_meta f)) as [[ks vs] tt]; apply Ok_inj in E1; subst lb; eexists; repeat split; reflexivity. }
  destruct F as (fb & F1 & F2 & F3 & F4). split; [|repeat split; assumption].
  exists (fbs ++ [fb]). cbn [s_lb s_name s_written]. rewrite F1, E, W. unfold num. rewrite map_app, app_assoc, (enc_msg_app (_ ++ _)), app_length. cbn [map length]. split; [|lia].
  f_equal. unfold enc_msg. cbn [flat_map]. now rewrite app_nil_r.
Qed.
Lemma polys_st_inv c fs : forall s s', buf_inv s -> write_polys_st c s fs = Ok s' -> buf_inv s' /\ frame s s'.
Proof.
  induction fs as [|f fs IH]; intros s s' I H; cbn [write_polys_st] in H; [apply Ok_inj in H; subst; split; [assumption | apply frame_refl]|].
  apply bind_ok in H as (f' & _ & H). destruct (_ && _ && _); [now apply IH in H|]. apply bind_ok in H as (s1 & E & H).
  destruct (write_st_inv c s f' s1 I E) as [I1 F1]. destruct (IH _ _ I1 H) as [I2 F2]. split; [assumption | eapply frame_trans; eassumption].
Qed.
Lemma lines_st_inv c fs : forall s s', buf_inv s -> write_lines_st c s fs = Ok s' -> buf_inv s' /\ frame s s'.
Proof.
  induction fs as [|f fs IH]; intros s s' I H; cbn [write_lines_st] in H; [apply Ok_inj in H; subst; split; [assumption | apply frame_refl]|].
  apply bind_ok in H as (f' & _ & H). apply bind_ok in H as (s1 & E & H).
  destruct (write_st_inv c s f' s1 I E) as [I1 F1]. destruct (IH _ _ I1 H) as [I2 F2]. split; [assumption | eapply frame_trans; eassumption].
Qed.
Lemma aggregate_st_inv c s s' : buf_inv s -> aggregate_geometry_st c s = Ok s' -> buf_inv s' /\ frame s s'.
Proof.
  intros I H. unfold aggregate_geometry_st in H. apply bind_ok in H as (s1 & E & H).
  assert (A : buf_inv s1 /\ frame s s1) by (destruct (c_agg_polys c); [eapply polys_st_inv; eassumption | apply Ok_inj in E; subst; split; [assumption | apply frame_refl]]).
  destruct A as [I1 F1]. destruct (c_agg_lines c && _); [|apply Ok_inj in H; subst; auto]. apply bind_ok in H as (fs & _ & H).
  destruct (lines_st_inv c fs s1 s' I1 H) as [I2 F2]. split; [assumption | eapply frame_trans; eassumption].
Qed.

Lemma ids_snoc k fs f : ids_of_kind k (fs ++ [f]) = ids_of_kind k fs ++ (if kind (f_geom f) =? k then [f_id f] else []).
Proof. unfold ids_of_kind, of_kind. rewrite filter_app, map_app. cbn [filter]. destruct (kind (f_geom f) =? k); reflexivity. Qed.
Lemma same_ids_other l k fs f : kind (f_geom f) <> k -> same_ids l k fs -> same_ids l k (fs ++ [f]).
Proof. intros H [H1 H2]. split; [assumption|]. intros id. rewrite ids_snoc. replace (kind (f_geom f) =? k) with false by lia. rewrite app_nil_r. apply H2. Qed.
Lemma mem_in id l : mem id l = true <-> In id l.
Proof. unfold mem. rewrite existsb_exists. split; [intros (x & H & E); apply N.eqb_eq in E; now subst | intros H; exists id; split; [assumption | apply N.eqb_refl]]. Qed.
Lemma same_ids_dup l k fs f : kind (f_geom f) = k -> mem (f_id f) l = true -> same_ids l k fs -> same_ids l k (fs ++ [f]).
Proof.
  intros H M [H1 H2]. split; [assumption|]. intros id. rewrite ids_snoc. replace (kind (f_geom f) =? k) with true by lia. rewrite in_app_iff, <- H2. apply mem_in in M. cbn [In].
  split; [auto|]. intros [Hi|[<-|[]]]; auto.
Qed.
Lemma same_ids_new l k fs f : kind (f_geom f) = k -> mem (f_id f) l = false -> same_ids l k fs -> same_ids (f_id f :: l) k (fs ++ [f]).
Proof.
  intros H M [H1 H2]. split; [constructor; [intros Hi; apply mem_in in Hi; congruence | assumption]|]. intros id. rewrite ids_snoc. replace (kind (f_geom f) =? k) with true by lia.
  rewrite in_app_iff, <- H2. cbn [In]. tauto.
Qed.

Lemma add_st_inv c s fs f s' : buf_inv s -> ids_inv s fs -> lb_add_feature_st c s f = Ok s' -> buf_inv s' /\ ids_inv s' (fs ++ [f]) /\ s_name s' = s_name s.
Proof.
  intros I (A1 & A2 & A3 & A4) H.
  assert (W : forall s0, buf_inv s0 -> s_name s0 = s_name s -> ids_inv s0 (fs ++ [f]) -> forall f', write_feature_st c s0 f' = Ok s' -> buf_inv s' /\ ids_inv s' (fs ++ [f]) /\ s_name s' = s_name s).
  { intros s0 I0 N0 D0 f' Hw. destruct (write_st_inv c s0 f' s' I0 Hw) as (I1 & F1 & F2 & F3 & F4 & F5). split; [assumption|]. split; [|congruence].
    unfold ids_inv. rewrite F2, F3, F4, F5. exact D0. }
  unfold lb_add_feature_st in H. unfold ids_inv. rewrite ids_snoc. destruct (f_geom f) eqn:E; cbn [kind N.eqb Pos.eqb].
  - apply Ok_inj in H. subst s'. split; [exact I|]. split; [|reflexivity]. cbn [count_added s_lb s_added].
    split; [apply same_ids_other; [rewrite E; discriminate | assumption]|]. split; [apply same_ids_other; [rewrite E; discriminate | assumption]|].
    split; [apply same_ids_other; [rewrite E; discriminate | assumption]|]. rewrite A4. unfold num. rewrite app_length. cbn [length]. lia.
  - destruct (mem _ _) eqn:M.
    + apply Ok_inj in H. subst s'. split; [exact I|]. split; [|reflexivity]. rewrite app_nil_r.
      split; [apply same_ids_dup; [now rewrite E | assumption | assumption]|]. split; [apply same_ids_other; [rewrite E; discriminate | assumption]|].
      split; [apply same_ids_other; [rewrite E; discriminate | assumption] | assumption].
    + apply bind_ok in H as (f' & _ & H). unfold ids_inv in W. rewrite ids_snoc, E in W. cbn [kind N.eqb Pos.eqb] in W.
      eapply W; [| |  | exact H]; [exact I | reflexivity|]. cbn [count_added s_lb s_added lb_nodes lb_lines lb_polys]. rewrite app_nil_r.
      split; [apply same_ids_new; [now rewrite E | assumption | assumption]|]. split; [apply same_ids_other; [rewrite E; discriminate | assumption]|].
      split; [apply same_ids_other; [rewrite E; discriminate | assumption]|]. rewrite A4. unfold num. cbn [length]. lia.
  - destruct (mem _ _) eqn:M.
    + apply Ok_inj in H. subst s'. split; [exact I|]. split; [|reflexivity]. rewrite app_nil_r.
      split; [apply same_ids_other; [rewrite E; discriminate | assumption]|]. split; [apply same_ids_dup; [now rewrite E | assumption | assumption]|].
      split; [apply same_ids_other; [rewrite E; discriminate | assumption] | assumption].
    + assert (D : forall buf, let s0 := count_added s (LB (lb_nodes (s_lb s)) (f_id f :: lb_lines (s_lb s)) (lb_polys (s_lb s)) buf (lb_poly_buf (s_lb s)) (lb_has (s_lb s)) (lb_buf (s_lb s)) (lb_keys (s_lb s)) (lb_vals (s_lb s))) in ids_inv s0 (fs ++ [f])).
      { intros buf. unfold ids_inv. rewrite ids_snoc, E. cbn [kind N.eqb Pos.eqb count_added s_lb s_added lb_nodes lb_lines lb_polys]. rewrite app_nil_r.
        split; [apply same_ids_other; [rewrite E; discriminate | assumption]|]. split; [apply same_ids_new; [now rewrite E | assumption | assumption]|].
        split; [apply same_ids_other; [rewrite E; discriminate | assumption]|]. rewrite A4. unfold num. cbn [length]. lia. }
      cbv zeta in D. unfold ids_inv in D, W. rewrite ids_snoc, E in D, W. cbn [kind N.eqb Pos.eqb] in D, W.
      destruct (c_agg_lines c).
      * apply Ok_inj in H. subst s'. split; [exact I|]. split; [apply D | reflexivity].
      * apply bind_ok in H as (f' & _ & H). eapply W; [| | | exact H]; [exact I | reflexivity | apply D].
  - destruct (mem _ _) eqn:M.
    + apply Ok_inj in H. subst s'. split; [exact I|]. split; [|reflexivity]. rewrite app_nil_r.
      split; [apply same_ids_other; [rewrite E; discriminate | assumption]|]. split; [apply same_ids_other; [rewrite E; discriminate | assumption]|].
      split; [apply same_ids_dup; [now rewrite E | assumption | assumption] | assumption].
    + assert (D : forall buf, let s0 := count_added s (LB (lb_nodes (s_lb s)) (lb_lines (s_lb s)) (f_id f :: lb_polys (s_lb s)) (lb_line_buf (s_lb s)) buf (lb_has (s_lb s)) (lb_buf (s_lb s)) (lb_keys (s_lb s)) (lb_vals (s_lb s))) in ids_inv s0 (fs ++ [f])).
      { intros buf. unfold ids_inv. rewrite ids_snoc, E. cbn [kind N.eqb Pos.eqb count_added s_lb s_added lb_nodes lb_lines lb_polys]. rewrite app_nil_r.
        split; [apply same_ids_other; [rewrite E; discriminate | assumption]|]. split; [apply same_ids_other; [rewrite E; discriminate | assumption]|].
        split; [apply same_ids_new; [now rewrite E | assumption | assumption]|]. rewrite A4. unfold num. cbn [length]. lia. }
      cbv zeta in D. unfold ids_inv in D, W. rewrite ids_snoc, E in D, W. cbn [kind N.eqb Pos.eqb] in D, W.
      destruct (c_agg_polys c).
      * apply Ok_inj in H. subst s'. split; [exact I|]. split; [apply D | reflexivity].
      * apply bind_ok in H as (f' & _ & H). eapply W; [| | | exact H]; [exact I | reflexivity | apply D].
Qed.

(** the counters at the end of a layer *)
Lemma same_num l k fs : same_ids l k fs -> num l = distinct (ids_of_kind k fs).
Proof.
  intros [H1 H2]. unfold distinct, num. f_equal. apply Permutation_length. apply NoDup_Permutation; [assumption | apply NoDup_nodup|]. intros x. rewrite nodup_In. apply H2.
Qed.
Lemma ids_added s fs : ids_inv s fs -> s_added s = added_of fs.
Proof. intros (A1 & A2 & A3 & ->). unfold added_of. now rewrite (same_num _ _ _ A1), (same_num _ _ _ A2), (same_num _ _ _ A3). Qed.

(** ** Not more is written than added *)
Definition room (c : tctx) (s : counting) : Prop :=
  let lb := s_lb s in
  map f_id (lb_line_buf lb) = (if c_agg_lines c then rev (lb_lines lb) else []) /\ NoDup (lb_lines lb) /\
  s_written s + num (lb_line_buf lb) + num (lb_poly_buf lb) <= s_added s.
Lemma room_init c name : room c (counting_init name).
Proof. split; [cbn; now destruct (c_agg_lines c)|]. split; [apply NoDup_nil | discriminate]. Qed.

(** what a write changes *)
Lemma write_st_frame c s f s' : write_feature_st c s f = Ok s' -> frame s s' /\ s_written s' <= s_written s + 1 /\
  lb_line_buf (s_lb s') = lb_line_buf (s_lb s) /\ lb_poly_buf (s_lb s') = lb_poly_buf (s_lb s).
Proof.
  intros H. unfold write_feature_st in H.
  assert (D : s' = s \/ exists lb, write_feature c (s_lb s) f = Ok lb /\ s' = Counting (s_name s) lb (s_added s) (s_written s + 1)).
  { destruct (f_geom f); [apply Ok_inj in H; left; now symmetry|..]; right; apply bind_ok in H as (lb & E1 & H); apply Ok_inj in H; exists lb; (split; [exact E1 | now symmetry]). }
  destruct D as [->|(lb & E1 & ->)]; [split; [apply frame_refl|]; split; [lia | auto]|]. unfold write_feature in E1.
  destruct (f_geom f); [apply Ok_inj in E1; subst lb; cbn; split; [repeat split | repeat split; lia]|..];
    apply bind_ok in E1 as (g & _ & E1); destruct (collect_tags (lb_keys (s_lb s)) (lb_vals (s_lb s)) (f_meta f)) as [[ks vs] tt]; apply Ok_inj in E1; subst lb;
    (split; [repeat split | cbn [s_written s_lb lb_line_buf lb_poly_buf]; repeat split; lia]).
Qed.
Lemma polys_st_frame c fs : forall s s', write_polys_st c s fs = Ok s' -> frame s s' /\ s_written s' <= s_written s + num fs /\ lb_line_buf (s_lb s') = lb_line_buf (s_lb s).
Proof.
  induction fs as [|f fs IH]; intros s s' H; cbn [write_polys_st] in H; [apply Ok_inj in H; subst; split; [apply frame_refl | split; [unfold num; lia | reflexivity]]|].
  apply bind_ok in H as (f' & _ & H). unfold num in *. cbn [length]. destruct (_ && _ && _).
  - destruct (IH _ _ H) as (H1 & H2 & H3). split; [assumption|]. split; [lia | assumption].
  - apply bind_ok in H as (s1 & E & H). destruct (write_st_frame c s f' s1 E) as (F1 & F2 & F3 & _). destruct (IH _ _ H) as (H1 & H2 & H3).
    split; [eapply frame_trans; eassumption|]. split; [lia | congruence].
Qed.
Lemma lines_st_frame c fs : forall s s', write_lines_st c s fs = Ok s' -> frame s s' /\ s_written s' <= s_written s + num fs.
Proof.
  induction fs as [|f fs IH]; intros s s' H; cbn [write_lines_st] in H; [apply Ok_inj in H; subst; split; [apply frame_refl | unfold num; lia]|].
  apply bind_ok in H as (f' & _ & H). unfold num in *. cbn [length].
  apply bind_ok in H as (s1 & E & H). destruct (write_st_frame c s f' s1 E) as (F1 & F2 & _ & _). destruct (IH _ _ H) as (H1 & H2).
  split; [eapply frame_trans; eassumption | lia].
Qed.
Lemma aggregate_room c s s' : aggregate_ok (c_aggregate c) -> room c s -> aggregate_geometry_st c s = Ok s' -> s_written s' <= s_added s'.
Proof.
  intros Ha (R1 & R2 & R3) H. unfold aggregate_geometry_st in H. apply bind_ok in H as (s1 & E & H).
  assert (A : frame s s1 /\ s_written s1 <= s_written s + num (lb_poly_buf (s_lb s)) /\ lb_line_buf (s_lb s1) = lb_line_buf (s_lb s)).
  { destruct (c_agg_polys c); [now apply (polys_st_frame c)|]. apply Ok_inj in E. subst. split; [apply frame_refl | split; [lia | reflexivity]]. }
  destruct A as ((_ & A1 & _) & A2 & A3). destruct (c_agg_lines c && _) eqn:El; [|apply Ok_inj in H; subst s'; lia].
  apply andb_true_iff in El as [El _]. rewrite El in R1. apply bind_ok in H as (fs & Ef & H). rewrite A3 in Ef.
  destruct (Ha _ _ _ Ef) as [G1 G2]. destruct (lines_st_frame c fs s1 s' H) as [(_ & F & _) F2].
  assert (L : num fs <= num (lb_line_buf (s_lb s))).
  { unfold num. rewrite <- (map_length f_id fs), <- (map_length f_id (lb_line_buf (s_lb s))). apply N2Z.inj_le. rewrite !nat_N_Z. apply inj_le. apply NoDup_incl_length.
    - apply G2. rewrite R1. now apply NoDup_rev.
    - intros x Hx. apply in_map_iff in Hx as (f & <- & Hf). destruct (G1 f Hf) as (_ & f0 & H0 & H1 & _). rewrite <- H1. now apply in_map. }
  lia.
Qed.
Lemma add_st_room c s f s' : room c s -> lb_add_feature_st c s f = Ok s' -> room c s'.
Proof.
  intros (R1 & R2 & R3) H.
  assert (W : forall s0 f', map f_id (lb_line_buf (s_lb s0)) = (if c_agg_lines c then rev (lb_lines (s_lb s0)) else []) -> NoDup (lb_lines (s_lb s0)) ->
    s_written s0 + 1 + num (lb_line_buf (s_lb s0)) + num (lb_poly_buf (s_lb s0)) <= s_added s0 -> write_feature_st c s0 f' = Ok s' -> room c s').
  { intros s0 f' W1 W2 W3 Hw. destruct (write_st_frame c s0 f' s' Hw) as ((_ & F1 & _ & F2 & _) & F3 & F4 & F5). unfold room. rewrite F1, F2, F4, F5. split; [assumption|]. split; [assumption | lia]. }
  unfold lb_add_feature_st in H. destruct (f_geom f) eqn:E.
  - apply Ok_inj in H. subst s'. split; [exact R1|]. split; [exact R2|]. cbn [count_added s_added s_written s_lb]. lia.
  - destruct (mem _ _); [apply Ok_inj in H; subst s'; repeat split; assumption|]. apply bind_ok in H as (f' & _ & H).
    eapply W; [| | | exact H]; cbn [count_added s_added s_written s_lb lb_lines lb_line_buf lb_poly_buf]; [assumption | assumption | lia].
  - destruct (mem _ _) eqn:M; [apply Ok_inj in H; subst s'; repeat split; assumption|].
    assert (ND : NoDup (f_id f :: lb_lines (s_lb s))) by (constructor; [intros Hi; apply mem_in in Hi; congruence | assumption]).
    destruct (c_agg_lines c) eqn:Ea.
    + apply Ok_inj in H. subst s'. unfold room. cbn [count_added s_added s_written s_lb lb_lines lb_line_buf lb_poly_buf rev]. rewrite Ea, map_app, R1. cbn [map].
      split; [reflexivity|]. split; [assumption|]. unfold num in *. rewrite app_length. cbn [length]. lia.
    + apply bind_ok in H as (f' & _ & H). eapply W; [| | | exact H]; cbn [count_added s_added s_written s_lb lb_lines lb_line_buf lb_poly_buf]; [assumption | assumption | lia].
  - destruct (mem _ _); [apply Ok_inj in H; subst s'; repeat split; assumption|]. destruct (c_agg_polys c).
    + apply Ok_inj in H. subst s'. split; [exact R1|]. split; [exact R2|]. cbn [count_added s_added s_written s_lb lb_line_buf lb_poly_buf]. unfold num in *. rewrite app_length. cbn [length]. lia.
    + apply bind_ok in H as (f' & _ & H). eapply W; [| | | exact H]; cbn [count_added s_added s_written s_lb lb_lines lb_line_buf lb_poly_buf]; [assumption | assumption | lia].
Qed.

(** ** All layers *)
Lemma proj_keys tb : keys (proj tb) = map fst tb.
Proof. unfold keys, proj. now rewrite map_map. Qed.
Lemma map_update_st_in i init upd : forall m m', StronglySorted N.lt (map fst m) -> map_update_st i init upd m = Ok m' -> forall j s', In (j, s') m' ->
  (j <> i /\ In (j, s') m) \/ (j = i /\ ((exists s, In (i, s) m /\ upd s = Ok s') \/ (~ In i (map fst m) /\ upd init = Ok s'))).
Proof.
  induction m as [|[k s] m IH]; intros m' HS H j s' Hj; cbn [map_update_st] in H.
  - apply bind_ok in H as (s1 & E & H). apply Ok_inj in H. subst m'. destruct Hj as [Hj|[]]. injection Hj as <- <-. right. split; [reflexivity|]. right. split; [intros [] | assumption].
  - cbn [map fst] in HS. apply StronglySorted_inv in HS as [HS1 HS2]. rewrite Forall_forall in HS2. destruct (N.ltb_spec i k) as [Hlt|Hge].
    + apply bind_ok in H as (s1 & E & H). apply Ok_inj in H. subst m'.
      assert (Hni : ~ In i (map fst ((k, s) :: m))) by (cbn [map fst In]; intros [->|Hi]; [lia | apply HS2 in Hi; lia]).
      destruct Hj as [Hj|Hj].
      * injection Hj as <- <-. right. split; [reflexivity|]. now right.
      * left. split; [|assumption]. intros ->. apply Hni. apply in_map_iff. now exists (i, s').
    + destruct (N.eqb_spec i k) as [->|Hne].
      * apply bind_ok in H as (s1 & E & H). apply Ok_inj in H. subst m'. destruct Hj as [Hj|Hj].
        -- injection Hj as <- <-. right. split; [reflexivity|]. left. exists s. split; [now left | assumption].
        -- left. split; [|now right]. intros ->. assert (Hk : In k (map fst m)) by (apply in_map_iff; now exists (k, s')). apply HS2 in Hk. lia.
      * apply bind_ok in H as (r & E & H). apply Ok_inj in H. subst m'. destruct Hj as [Hj|Hj].
        -- injection Hj as <- <-. left. split; [congruence | now left].
        -- destruct (IH r HS1 E j s' Hj) as [[H1 H2]|[H1 [(s0 & H2 & H3)|[H2 H3]]]]; [left; split; [assumption | now right]|right; split; [assumption|]..].
           ++ left. exists s0. split; [now right | assumption].
           ++ right. split; [|assumption]. cbn [map fst In]. intros [Hi|Hi]; [congruence | contradiction].
Qed.

Definition entry_inv (c : tctx) (fs : list feature) (e : N * counting) : Prop :=
  buf_inv (snd e) /\ (ids_inv (snd e) (of_layer (fst e) fs) /\ room c (snd e)) /\ nth_error (c_names c) (N.to_nat (fst e)) = Some (s_name (snd e)).
Definition tb_st_inv (c : tctx) (fs : list feature) (tb : list (N * counting)) : Prop :=
  tb_inv c fs (proj tb) /\ Forall (entry_inv c fs) tb.

Lemma features_st_inv c fs : forall done tb tb', tb_st_inv c done tb -> tb_add_features_st c tb fs = Ok tb' -> tb_st_inv c (done ++ fs) tb'.
Proof.
  induction fs as [|f fs IH]; intros done tb tb' Hi H; cbn [tb_add_features_st] in H.
  - apply Ok_inj in H. subst. now rewrite app_nil_r.
  - apply bind_ok in H as (tb1 & E & H). replace (done ++ f :: fs) with ((done ++ [f]) ++ fs) by (rewrite <- app_assoc; reflexivity).
    eapply IH; [|exact H]. clear IH H tb'. destruct Hi as [HI HE].
    assert (HI1 : tb_inv c (done ++ [f]) (proj tb1)).
    { apply (tb_add_features_spec c [f] done (proj tb)); [assumption|]. rewrite <- features_st. cbn [tb_add_features_st]. rewrite E. reflexivity. }
    split; [assumption|]. unfold tb_add_feature_st in E. destruct (nth_error (c_names c) (N.to_nat (f_layer f))) as [name|] eqn:En; [|discriminate].
    destruct HI as (I1 & I2 & _). unfold sorted_tb in I1. rewrite proj_keys in I1. apply Forall_forall. intros [j s'] Hj. rewrite Forall_forall in HE.
    destruct (map_update_st_in _ _ _ _ _ I1 E j s' Hj) as [[H1 H2]|[-> [(s & H2 & H3)|[H2 H3]]]].
    + destruct (HE _ H2) as (B1 & [B2 B4] & B3). cbn [fst snd] in *. split; [exact B1|]. split; [|exact B3]. cbn [fst snd]. split; [|exact B4]. unfold of_layer in *. rewrite filter_app. cbn [filter].
      replace (f_layer f =? j) with false by lia. now rewrite app_nil_r.
    + destruct (HE _ H2) as (B1 & [B2 B4] & B3). cbn [fst snd] in *. destruct (add_st_inv c s _ f s' B1 B2 H3) as (C1 & C2 & C3). split; [exact C1|]. cbn [fst snd]. split; [|now rewrite C3]. split; [|now apply (add_st_room c s f)].
      unfold of_layer in *. rewrite filter_app. cbn [filter]. rewrite N.eqb_refl. exact C2.
    + assert (Z : of_layer (f_layer f) done = []).
      { destruct (of_layer (f_layer f) done) eqn:Ep; [reflexivity|]. exfalso. apply H2. rewrite <- proj_keys. apply I2. unfold part. unfold of_layer in Ep. rewrite Ep. discriminate. }
      destruct (add_st_inv c (counting_init name) [] f s' (buf_inv_init name) (ids_inv_init name) H3) as (C1 & C2 & C3). split; [exact C1|]. cbn [fst snd]. split; [|now rewrite C3]. split; [|apply (add_st_room c (counting_init name) f); [apply room_init | assumption]].
      unfold of_layer in *. rewrite filter_app, Z. cbn [filter app]. rewrite N.eqb_refl. exact C2.
Qed.

(** what a layer's message looks like *)
Definition message_of (l : tile_line) (b : bytes) : Prop :=
  tl_bytes l = blen b /\ exists fbs ks ms,
    b = enc_msg (header_fields (tl_name l) ++ map (fun b => (2, WLen b)) fbs ++ map (fun k => (3, WLen k)) ks ++ map (fun m => (4, WLen m)) ms) /\ tl_written l = num fbs.

Lemma finish_lines c fs tb : aggregate_ok (c_aggregate c) -> forall r, StronglySorted N.lt (map fst tb) -> Forall (entry_inv c fs) tb -> tb_finish_st c tb = Ok r ->
  exists bs is, fst r = enc_msg (map (fun b => (3, WLen b)) bs) /\ Forall2 message_of (snd r) bs /\
    Forall2 (line_counts (c_names c) fs) (snd r) is /\ StronglySorted N.lt is /\ incl is (map fst tb).
Proof.
  intros Ha.
  induction tb as [|[i s] tb IH]; intros r HS HE H; cbn [tb_finish_st] in H.
  - apply Ok_inj in H. subst r. exists [], []. repeat split; try constructor. intros x [].
  - apply bind_ok in H as (s1 & E1 & H). apply bind_ok in H as (l & E2 & H). apply bind_ok in H as (r' & E3 & H). apply Ok_inj in H. subst r. cbn [fst snd].
    cbn [map fst] in HS. apply StronglySorted_inv in HS as [HS1 HS2]. inversion HE as [|? ? (B1 & [B2 B4] & B3) HE']; subst. cbn [fst snd] in B1, B2, B3.
    destruct (IH r' HS1 HE' E3) as (bs & is & D1 & D2 & D3 & D4 & D5).
    destruct (aggregate_st_inv c s s1 B1 E1) as (I1 & F1 & F2 & F3 & F4 & F5).
    destruct (lb_has (s_lb s1)).
    + apply bind_ok in E2 as ([b ln] & Ef & E2). apply Ok_inj in E2. subst l. unfold lb_finish_st in Ef. apply bind_ok in Ef as (b' & Ef & Eq). apply Ok_inj in Eq. injection Eq as -> <-. cbn [fst snd app].
      exists (b :: bs), (i :: is). split; [rewrite D1; reflexivity|]. split; [|split; [|split]].
      * constructor; [|assumption]. split; [reflexivity|]. destruct I1 as (fbs & G1 & G2). unfold lb_finish in Ef. apply bind_ok in Ef as (vs & Ev & Ef). apply Ok_inj in Ef.
        destruct (encode_values_fields _ _ Ev) as (ms & -> & _). exists fbs, (lb_keys (s_lb s1)), ms. cbn [tl_name tl_written]. split; [|exact G2].
        rewrite <- Ef, G1, keys_fields, !enc_msg_app. now rewrite <- !app_assoc.
      * constructor; [|assumption]. split; cbn [tl_name tl_added]; [now rewrite F1|]. split; [rewrite F2; now apply ids_added | now apply (aggregate_room c s)].
      * constructor; [assumption|]. apply Forall_forall. intros x Hx. rewrite Forall_forall in HS2. apply HS2. now apply D5.
      * intros x [<-|Hx]; [now left | right; now apply D5].
    + apply Ok_inj in E2. subst l. cbn [fst snd app]. exists bs, is. repeat split; try assumption. intros x Hx. right. now apply D5.
Qed.

Lemma all_some_length {A} (l : list (option A)) : forall r, all_some l = Some r -> length r = length l.
Proof. induction l as [|[a|] l IH]; intros r H; cbn [all_some] in H; [injection H as <-; reflexivity | | discriminate]. destruct (all_some l) as [r'|]; [|discriminate]. injection H as <-. cbn [length]. now rewrite (IH r'). Qed.

Lemma wlen_ok m : Forall (fun f => tag_ok (fst f) = true /\ match snd f with WInt n => n < 2 ^ 64 | WLen _ => True | _ => False end) m ->
  blen (enc_msg m) < 2 ^ 29 -> Forall wire_ok m.
Proof.
  intros H Hb. rewrite Forall_forall in H. apply Forall_forall. intros [t w] Hf. destruct (H _ Hf) as [H1 H2]. cbn [fst snd] in *. split; [assumption|]. cbn [snd].
  destruct w as [n|b|b|b]; [assumption | | contradiction | contradiction]. apply blen_in in Hf. lia.
Qed.

Lemma message_shows l b v : message_of l b -> blen b < 2 ^ 29 -> decode_layer b = Some v -> line_about l b v.
Proof.
  intros (M1 & fbs & ks & ms & M2 & M3) Hb Hd. split; [assumption|].
  assert (P : parse_msg b = Some (header_fields (tl_name l) ++ map (fun b => (2, WLen b)) fbs ++ map (fun k => (3, WLen k)) ks ++ map (fun m => (4, WLen m)) ms)).
  { rewrite M2. apply parse_msg_enc. apply wlen_ok; [|now rewrite <- M2].
    apply Forall_app. split; [repeat constructor|]. repeat (apply Forall_app; split); apply Forall_map, Forall_forall; intros; now split. }
  unfold decode_layer in Hd. rewrite P in Hd. cbn [obind] in Hd. rewrite !field_all_app in Hd.
  rewrite !(field_all_other 1), !(field_all_other 15), !(field_all_other 5) in Hd by discriminate.
  rewrite (field_all_same 2), (field_all_other 2 3), (field_all_other 2 4) in Hd by discriminate.
  rewrite !app_nil_r in Hd.
  change (field_all 15 (header_fields (tl_name l))) with [WInt 2] in Hd. change (field_all 1 (header_fields (tl_name l))) with [WLen (tl_name l)] in Hd.
  change (field_all 5 (header_fields (tl_name l))) with [WInt 4096] in Hd. change (field_all 2 (header_fields (tl_name l))) with (@nil wire) in Hd.
  cbn [field_one obind as_int as_len app] in Hd.
  destruct (all_some (map as_len _)) as [K|]; [|discriminate]. cbn [obind] in Hd. destruct (all_some (map (fun w => obind (as_len w) decode_value) _)) as [V|]; [|discriminate]. cbn [obind] in Hd.
  destruct (all_some (map _ (map WLen fbs))) as [F|] eqn:EF; [|discriminate]. cbn [obind] in Hd. injection Hd as <-. cbn [vl_name vl_features].
  apply all_some_length in EF. rewrite !map_length in EF. repeat split; [|assumption]. rewrite M3. unfold num. now rewrite EF.
Qed.

Lemma wlen_map_inj bs : forall bs', map (fun b => (3, WLen b)) bs = map (fun b => (3, WLen b)) bs' -> bs = bs'.
Proof. induction bs as [|b bs IH]; intros [|b' bs'] H; try discriminate; [reflexivity|]. cbn [map] in H. injection H as -> H. f_equal. now apply IH. Qed.

Lemma tile_lines c t fs buf lines :
  ctx_for c t -> Forall (fun f => f_id f < 2 ^ 64) fs -> aggregate_ok (c_aggregate c) ->
  build_tile_stats c t false fs = Ok (buf, lines) -> blen buf < 2 ^ 29 ->
  exists layers vls is, decode_tile buf = Some vls /\ layer_messages buf layers /\ lines_about lines layers vls /\
    StronglySorted N.lt is /\ Forall2 (line_counts (c_names c) fs) lines is.
Proof.
  intros Hc Hid Ha H Hb.
  assert (HB : build_tile c fs = Ok buf) by (rewrite <- (stats_same c t), H; reflexivity).
  destruct (tile_decodes c t fs buf Hc Hid Ha HB Hb) as (_ & vls & D & _).
  unfold build_tile_stats in H. apply bind_ok in H as (tb & E1 & H). apply bind_ok in H as (r & E2 & H). apply Ok_inj in H. subst r.
  destruct (features_st_inv c fs [] [] tb) as [(I1 & _) I2]; [split; [apply tb_inv_init | constructor] | exact E1|]. cbn [app] in I2.
  unfold sorted_tb in I1. rewrite proj_keys in I1. destruct (finish_lines c fs tb Ha _ I1 I2 E2) as (bs & is & F1 & F2 & F3 & F4 & _). cbn [fst snd] in *.
  assert (P : parse_msg buf = Some (map (fun b => (3, WLen b)) bs)).
  { rewrite F1. apply parse_msg_enc, wlen_ok; [|now rewrite <- F1]. apply Forall_map, Forall_forall. intros; now split. }
  exists bs, vls, is. split; [assumption|]. split; [exact P|]. split; [|split; assumption].
  unfold decode_tile in D. rewrite P in D. cbn [obind] in D. rewrite map_map in D. cbn [fst snd N.eqb Pos.eqb as_len obind] in D.
  assert (HL : Forall (fun b => blen b < 2 ^ 29) bs).
  { apply Forall_forall. intros b Hin. assert (In (3, WLen b) (map (fun b => (3, WLen b)) bs)) by (apply in_map_iff; eauto). apply blen_in in H. rewrite <- F1 in H. lia. }
  clear - D F2 HL. revert vls D. induction F2 as [|l b ls bs M F2 IH]; intros vls D; cbn [map all_some] in D; [injection D as <-; constructor|].
  inversion HL; subst. destruct (decode_layer b) as [v|] eqn:Ed; [|discriminate]. destruct (all_some (map _ bs)) as [vs|] eqn:Es; [|discriminate]. injection D as <-.
  constructor; [now apply message_shows | now apply IH].
Qed.
