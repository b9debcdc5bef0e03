From Coq Require Import Sorting.Sorted.
From Verif Require Import Base BaseProof ModelTile ModelCodec ProofCodec ModelGeom SpecGeom ProofGeom ProofShift
  ModelFeature ModelMvt SpecMvt ProofMvtGeom.
Open Scope N_scope.

(** ** string tables *)
Lemma index_of_some s l i : index_of s l = Some i -> nth_error l (N.to_nat i) = Some s.
Proof.
  revert i. induction l as [|x l IH]; intros i H; cbn [index_of] in H; [discriminate|].
  destruct (bytes_eqb x s) eqn:E.
  - injection H as <-. apply bytes_eqb_eq in E. now subst.
  - destruct (index_of s l) as [j|]; [|discriminate]. injection H as <-.
    replace (N.to_nat (j + 1)) with (S (N.to_nat j)) by lia. now apply IH.
Qed.
Lemma index_of_none s l : index_of s l = None -> ~ In s l.
Proof.
  induction l as [|x l IH]; intros H; cbn [index_of] in H; [auto|].
  destruct (bytes_eqb x s) eqn:E; [discriminate|].
  destruct (index_of s l) as [j|] eqn:E2; [discriminate|].
  intros [->|Hi]; [|now apply IH]. assert (bytes_eqb s s = true) by now apply bytes_eqb_eq. congruence.
Qed.

Lemma goc_spec l s l' i : get_or_create_index l s = (l', i) -> NoDup l ->
  NoDup l' /\ (exists e, l' = l ++ e /\ Forall (eq s) e) /\ nth_error l' (N.to_nat i) = Some s.
Proof.
  unfold get_or_create_index. destruct (index_of s l) as [j|] eqn:E; intros H Hn; injection H as <- <-.
  - split; [assumption|]. split; [exists []; rewrite app_nil_r; auto|]. now apply index_of_some.
  - apply index_of_none in E. split; [|split].
    + apply NoDup_rev in Hn. rewrite <- (rev_involutive (l ++ [s])). apply NoDup_rev. rewrite rev_app_distr. cbn [rev app].
      constructor; [|assumption]. now rewrite <- in_rev.
    + exists [s]. auto.
    + rewrite Nnat.Nat2N.id, nth_error_app2 by lia. now rewrite Nat.sub_diag.
Qed.

Lemma resolve_app {V} ks (vs : list V) t r ek ev : resolve_tags ks vs t = Some r ->
  resolve_tags (ks ++ ek) (vs ++ ev) t = Some r.
Proof.
  revert r. enough (H : forall n t r, (length t <= n)%nat -> resolve_tags ks vs t = Some r ->
    resolve_tags (ks ++ ek) (vs ++ ev) t = Some r) by (intros r; eapply H; eauto).
  clear. induction n as [|n IH]; intros t r Hn H.
  - destruct t; [assumption | cbn in Hn; lia].
  - destruct t as [|i [|j t]]; [assumption | discriminate |]. cbn [resolve_tags length] in *.
    destruct (nth_error ks (N.to_nat i)) as [k|] eqn:E1; [|discriminate].
    destruct (nth_error vs (N.to_nat j)) as [v|] eqn:E2; [|discriminate].
    rewrite !nth_error_app1 by (apply nth_error_Some; congruence). rewrite E1, E2.
    destruct (resolve_tags ks vs t) as [r'|] eqn:E3; [|discriminate].
    now rewrite (IH t r') by (assumption || lia).
Qed.

Definition visible_meta (ms : list meta) : list meta := filter (fun m => negb (skip_key (fst m))) ms.

Definition raw_tags (t : list N) : list N := map (fun i => i mod 2 ^ 32) t.

Lemma collect_tags_spec ms : forall ks vs ks' vs' t, collect_tags ks vs ms = (ks', vs', t) ->
  NoDup ks -> NoDup vs ->
  NoDup ks' /\ NoDup vs' /\ (exists ek ev, ks' = ks ++ ek /\ vs' = vs ++ ev /\
     Forall (fun v => In v (map snd (visible_meta ms))) ev) /\
  exists t0, t = raw_tags t0 /\ resolve_tags ks' vs' t0 = Some (visible_meta ms).
Proof.
  induction ms as [|[k v] ms IH]; intros ks vs ks' vs' t H Hk Hv; cbn [collect_tags] in H.
  - injection H as <- <- <-. split; [assumption|]. split; [assumption|]. split.
    + exists [], []. rewrite !app_nil_r. auto.
    + exists []. auto.
  - unfold visible_meta. cbn [filter fst]. destruct (skip_key k) eqn:Es; cbn [negb]; [now apply IH|].
    destruct (get_or_create_index ks k) as [ks1 i] eqn:E1.
    destruct (get_or_create_index vs v) as [vs1 j] eqn:E2.
    destruct (collect_tags ks1 vs1 ms) as [[ks2 vs2] t2] eqn:E3. injection H as <- <- <-.
    destruct (goc_spec _ _ _ _ E1 Hk) as (K1 & (ek & K2 & _) & K3).
    destruct (goc_spec _ _ _ _ E2 Hv) as (V1 & (ev & V2 & V4) & V3).
    destruct (IH _ _ _ _ _ E3 K1 V1) as (A & B & (ek2 & ev2 & C & D & F) & t0 & -> & G).
    split; [assumption|]. split; [assumption|]. split.
    + exists (ek ++ ek2), (ev ++ ev2). rewrite !app_assoc. rewrite <- K2, <- V2. repeat split; try assumption.
      cbn [map snd]. apply Forall_app. split.
      * eapply Forall_impl; [|exact V4]. cbn. intros a ->. now left.
      * eapply Forall_impl; [|exact F]. cbn. intros a Ha. now right.
    + exists (i :: j :: t0). split; [reflexivity|]. cbn [resolve_tags].
      fold (visible_meta ms). rewrite G, C, D.
      rewrite nth_error_app1 by (apply nth_error_Some; congruence).
      rewrite nth_error_app1 by (apply nth_error_Some; congruence).
      now rewrite K3, V3.
Qed.

(** ** invariant of a layer builder *)
Definition header_fields (name : bytes) : list (N * wire) := [(15, WInt 2); (1, WLen name); (5, WInt 4096)].

Definition written (c : tctx) (ks vs : list bytes) (f : feature) (b : bytes) : Prop :=
  f_geom f <> GNull /\
  exists g t, encode_geometry (c_spec c) (f_geom f) = Ok g /\
    b = g ++ field_varint MF_ID (f_id f) ++ field_packed_u64 MF_TAGS (raw_tags t) /\
    resolve_tags ks vs t = Some (visible_meta (f_meta f)).

Definition lb_inv (c : tctx) (name : bytes) (lb : layer_builder) (ws : list feature) : Prop :=
  exists fbs,
    lb_buf lb = enc_msg (header_fields name ++ map (fun b => (2, WLen b)) fbs) /\
    Forall2 (written c (lb_keys lb) (lb_vals lb)) ws fbs /\
    lb_has lb = negb (match ws with [] => true | _ => false end) /\
    NoDup (lb_keys lb) /\ NoDup (lb_vals lb) /\
    Forall (fun v => exists f, In f ws /\ In v (map snd (visible_meta (f_meta f)))) (lb_vals lb).

Lemma lb_inv_init c name : lb_inv c name (layer_builder_init name) [].
Proof.
  exists []. split.
  { cbn [layer_builder_init lb_buf map]. rewrite app_nil_r.
    unfold enc_msg, header_fields. cbn [flat_map enc_field fst snd]. now rewrite app_nil_r. }
  repeat split; constructor.
Qed.

Lemma written_app c ks vs ek ev f b : written c ks vs f b -> written c (ks ++ ek) (vs ++ ev) f b.
Proof.
  intros (H & g & t & H1 & H2 & H3). split; [assumption|]. exists g, t. repeat split; try assumption. now apply resolve_app.
Qed.

Lemma Forall2_impl' {A B} (R Q : A -> B -> Prop) la lb : (forall a b, R a b -> Q a b) -> Forall2 R la lb -> Forall2 Q la lb.
Proof. intros H F. induction F; constructor; auto. Qed.

Lemma Forall2_app_one {A B} (R : A -> B -> Prop) la lb a b : Forall2 R la lb -> R a b -> Forall2 R (la ++ [a]) (lb ++ [b]).
Proof. intros H1 H2. apply Forall2_app; [assumption|]. constructor; [assumption | constructor]. Qed.

Lemma negb_nil_app {A} (l : list A) a : negb (match l ++ [a] with [] => true | _ => false end) = true.
Proof. destruct l; reflexivity. Qed.

Lemma write_feature_inv c name lb ws f lb' :
  lb_inv c name lb ws -> write_feature c lb f = Ok lb' ->
  lb_inv c name lb' (ws ++ filter not_null [f]) /\
  lb_nodes lb' = lb_nodes lb /\ lb_lines lb' = lb_lines lb /\ lb_polys lb' = lb_polys lb /\
  lb_line_buf lb' = lb_line_buf lb /\ lb_poly_buf lb' = lb_poly_buf lb.
Proof.
  intros Hi H. unfold write_feature in H. cbn [filter]. unfold not_null.
  assert (Hn : f_geom f = GNull -> lb' = lb) by (intros E; rewrite E in H; now apply Ok_inj in H).
  destruct (kind (f_geom f) =? 0) eqn:Ek; cbn [negb].
  - assert (E : f_geom f = GNull) by (destruct (f_geom f); [reflexivity|discriminate..]).
    rewrite (Hn E), app_nil_r. auto 10.
  - assert (Hne : f_geom f <> GNull) by (intros E; rewrite E in Ek; discriminate).
    assert (H' : (do g <- encode_geometry (c_spec c) (f_geom f);
       (let '(ks, vs, t) := collect_tags (lb_keys lb) (lb_vals lb) (f_meta f) in
        Ok (LB (lb_nodes lb) (lb_lines lb) (lb_polys lb) (lb_line_buf lb) (lb_poly_buf lb) true
        (lb_buf lb ++ field_bytes ML_FEATURES (g ++ field_varint MF_ID (f_id f) ++ field_packed_u64 MF_TAGS t)) ks vs))) = Ok lb').
    { destruct (f_geom f); [congruence|exact H..]. }
    clear H. apply bind_ok in H' as (g & Eg & H).
    destruct (collect_tags (lb_keys lb) (lb_vals lb) (f_meta f)) as [[ks vs] t] eqn:Et.
    apply Ok_inj in H. subst lb'. cbn [lb_nodes lb_lines lb_polys lb_line_buf lb_poly_buf]. split; [|auto 10].
    destruct Hi as (fbs & I1 & I2 & I3 & I4 & I5 & I6).
    destruct (collect_tags_spec _ _ _ _ _ _ Et I4 I5) as (A & B & (ek & ev & -> & -> & C) & t0 & -> & D).
    exists (fbs ++ [g ++ field_varint MF_ID (f_id f) ++ field_packed_u64 MF_TAGS (raw_tags t0)]).
    cbn [lb_buf lb_keys lb_vals lb_has]. split; [|split; [|split; [|split; [|split]]]]; try assumption.
    + rewrite I1, map_app. cbn [map]. rewrite !enc_msg_app, <- (app_assoc (enc_msg _)). f_equal.
      f_equal. unfold enc_msg. cbn [flat_map enc_field fst snd]. now rewrite app_nil_r.
    + apply Forall2_app_one.
      * eapply Forall2_impl'; [|exact I2]. intros a b. apply written_app.
      * split; [assumption|]. exists g, t0. auto.
    + now rewrite negb_nil_app.
    + apply Forall_app. split.
      * eapply Forall_impl; [|exact I6]. intros v (f' & Hf & Hv). exists f'. split; [apply in_app_iff; now left | assumption].
      * eapply Forall_impl; [|exact C]. intros v Hv. exists f. split; [apply in_app_iff; right; now left | assumption].
Qed.

Lemma lb_inv_same c name lb lb' ws : lb_inv c name lb ws ->
  lb_buf lb' = lb_buf lb -> lb_has lb' = lb_has lb -> lb_keys lb' = lb_keys lb -> lb_vals lb' = lb_vals lb ->
  lb_inv c name lb' ws.
Proof. intros (fbs & I) E1 E2 E3 E4. exists fbs. now rewrite E1, E2, E3, E4. Qed.

(** ** a sequence of features added to one layer *)
Fixpoint lb_adds (c : tctx) (lb : layer_builder) (fs : list feature) : res layer_builder :=
  match fs with [] => Ok lb | f :: fs' => do lb' <- lb_add_feature c lb f; lb_adds c lb' fs' end.

Definition seen_ok (lb : layer_builder) (seen : list (N * N)) : Prop :=
  forall id, let has k := existsb (fun s => (fst s =? id) && (snd s =? k)) seen in
    mem id (lb_nodes lb) = has 1 /\ mem id (lb_lines lb) = has 2 /\ mem id (lb_polys lb) = has 3.

Definition line_part (c : tctx) (f : feature) : bool := c_agg_lines c && of_kind 2 f.
Definition poly_part (c : tctx) (f : feature) : bool := c_agg_polys c && of_kind 3 f.

Lemma lb_adds_spec c name fs : forall lb ws seen lb',
  lb_inv c name lb ws -> seen_ok lb seen -> lb_adds c lb fs = Ok lb' ->
  let l := first_of_kind seen fs in
  exists direct, map_res (clip_shift c) (filter (fun f => negb (buffered c f)) l) = Ok direct /\
    lb_inv c name lb' (ws ++ filter not_null direct) /\
    lb_line_buf lb' = lb_line_buf lb ++ filter (line_part c) l /\
    lb_poly_buf lb' = lb_poly_buf lb ++ filter (poly_part c) l.
Proof.
  induction fs as [|f fs IH]; intros lb ws seen lb' Hi Hs H; cbn [lb_adds first_of_kind filter map_res] in *.
  - apply Ok_inj in H. subst. exists []. cbn [filter]. rewrite !app_nil_r. auto.
  - apply bind_ok in H as (lb1 & H1 & H). unfold lb_add_feature in H1.
    assert (Skip : lb1 = lb -> exists direct, map_res (clip_shift c) (filter (fun f => negb (buffered c f)) (first_of_kind seen fs)) = Ok direct /\
      lb_inv c name lb' (ws ++ filter not_null direct) /\
      lb_line_buf lb' = lb_line_buf lb ++ filter (line_part c) (first_of_kind seen fs) /\
      lb_poly_buf lb' = lb_poly_buf lb ++ filter (poly_part c) (first_of_kind seen fs)).
    { intros ->. now apply IH. }
    destruct (Hs (f_id f)) as (S1 & S2 & S3).
    assert (Direct : forall lb0 f', lb_inv c name lb0 ws -> lb_line_buf lb0 = lb_line_buf lb -> lb_poly_buf lb0 = lb_poly_buf lb ->
      buffered c f = false -> line_part c f = false -> poly_part c f = false ->
      clip_shift c f = Ok f' -> write_feature c lb0 f' = Ok lb1 ->
      seen_ok lb0 ((f_id f, kind (f_geom f)) :: seen) ->
      let l := f :: first_of_kind ((f_id f, kind (f_geom f)) :: seen) fs in
      exists direct, map_res (clip_shift c) (filter (fun f => negb (buffered c f)) l) = Ok direct /\
        lb_inv c name lb' (ws ++ filter not_null direct) /\
        lb_line_buf lb' = lb_line_buf lb ++ filter (line_part c) l /\
        lb_poly_buf lb' = lb_poly_buf lb ++ filter (poly_part c) l).
    { intros lb0 f' J0 J1 J2 J3 J4 J5 J6 J7 J8 l.
      destruct (write_feature_inv c name lb0 ws f' lb1 J0 J7) as (W0 & W1 & W2 & W3 & W4 & W5).
      assert (Hs1 : seen_ok lb1 ((f_id f, kind (f_geom f)) :: seen)).
      { intros id. rewrite W1, W2, W3. apply J8. }
      destruct (IH lb1 _ _ lb' W0 Hs1 H) as (direct & E1 & E2 & E3 & E4).
      exists (f' :: direct). unfold l. cbn [filter]. rewrite J3, J4, J5. cbn [negb map_res]. rewrite J6. cbn [bind].
      rewrite E1. cbn [bind]. split; [reflexivity|]. split; [|split].
      - rewrite <- app_assoc in E2. cbn [filter] in *. destruct (not_null f'); exact E2.
      - rewrite E3, W4, J1. reflexivity.
      - rewrite E4, W5, J2. reflexivity. }
    unfold seen_ok in Direct.
    destruct (f_geom f) as [|ps|ls|ps] eqn:Eg; cbn [kind N.eqb Pos.eqb] in *.
    + apply Ok_inj in H1. apply Skip. congruence.
    + rewrite S1 in H1. destruct (existsb (fun s => (fst s =? f_id f) && (snd s =? 1)) seen) eqn:Ex.
      * apply Ok_inj in H1. apply Skip. congruence.
      * apply bind_ok in H1 as (f' & E1 & E2).
        match type of E2 with write_feature c ?l0 f' = _ => apply (Direct l0 f') end; [|reflexivity|reflexivity| | | |exact E1|exact E2|].
        -- eapply lb_inv_same; [exact Hi|reflexivity..].
        -- unfold buffered. rewrite Eg. cbn [kind]. now rewrite !andb_false_r.
        -- unfold line_part, of_kind. rewrite Eg. cbn [kind]. now rewrite !andb_false_r.
        -- unfold poly_part, of_kind. rewrite Eg. cbn [kind]. now rewrite !andb_false_r.
        -- intros id. destruct (Hs id) as (T1 & T2 & T3). cbn [lb_nodes lb_lines lb_polys mem existsb fst snd N.eqb Pos.eqb].
           unfold mem in *. rewrite ?andb_true_r, ?andb_false_r. cbn [orb].
           rewrite T1, T2, T3, (N.eqb_sym id). auto.
    + rewrite S2 in H1. destruct (existsb (fun s => (fst s =? f_id f) && (snd s =? 2)) seen) eqn:Ex.
      * apply Ok_inj in H1. apply Skip. congruence.
      * destruct (c_agg_lines c) eqn:Ea.
        -- apply Ok_inj in H1.
           assert (Hi1 : lb_inv c name lb1 ws) by (subst lb1; eapply lb_inv_same; [exact Hi|reflexivity..]).
           assert (Hs1 : seen_ok lb1 ((f_id f, 2) :: seen)).
           { intros id. destruct (Hs id) as (T1 & T2 & T3). subst lb1. cbn [lb_nodes lb_lines lb_polys mem existsb fst snd N.eqb Pos.eqb].
             unfold mem in *. rewrite ?andb_true_r, ?andb_false_r. cbn [orb].
             rewrite T1, T2, T3, (N.eqb_sym id). auto. }
           destruct (IH lb1 _ _ lb' Hi1 Hs1 H) as (direct & E1 & E2 & E3 & E4).
           exists direct. cbn [filter].
           assert (B1 : buffered c f = true) by (unfold buffered; rewrite Eg, Ea; reflexivity).
           assert (B2 : line_part c f = true) by (unfold line_part, of_kind; rewrite Eg, Ea; reflexivity).
           assert (B3 : poly_part c f = false) by (unfold poly_part, of_kind; rewrite Eg; apply andb_false_r).
           rewrite B1, B2, B3. cbn [negb]. split; [assumption|]. split; [assumption|].
           rewrite E3, E4. subst lb1. cbn [lb_line_buf lb_poly_buf]. now rewrite <- app_assoc.
        -- apply bind_ok in H1 as (f' & E1 & E2).
           match type of E2 with write_feature c ?l0 f' = _ => apply (Direct l0 f') end; [|reflexivity|reflexivity| | | |exact E1|exact E2|].
           ++ eapply lb_inv_same; [exact Hi|reflexivity..].
           ++ unfold buffered. rewrite Eg, Ea. cbn [kind]. now rewrite !andb_false_r.
           ++ unfold line_part. now rewrite Ea.
           ++ unfold poly_part, of_kind. rewrite Eg. cbn [kind]. now rewrite !andb_false_r.
           ++ intros id. destruct (Hs id) as (T1 & T2 & T3). cbn [lb_nodes lb_lines lb_polys mem existsb fst snd N.eqb Pos.eqb].
              unfold mem in *. rewrite ?andb_true_r, ?andb_false_r. cbn [orb].
              rewrite T1, T2, T3, (N.eqb_sym id). auto.
    + rewrite S3 in H1. destruct (existsb (fun s => (fst s =? f_id f) && (snd s =? 3)) seen) eqn:Ex.
      * apply Ok_inj in H1. apply Skip. congruence.
      * destruct (c_agg_polys c) eqn:Ea.
        -- apply Ok_inj in H1.
           assert (Hi1 : lb_inv c name lb1 ws) by (subst lb1; eapply lb_inv_same; [exact Hi|reflexivity..]).
           assert (Hs1 : seen_ok lb1 ((f_id f, 3) :: seen)).
           { intros id. destruct (Hs id) as (T1 & T2 & T3). subst lb1. cbn [lb_nodes lb_lines lb_polys mem existsb fst snd N.eqb Pos.eqb].
             unfold mem in *. rewrite ?andb_true_r, ?andb_false_r. cbn [orb].
             rewrite T1, T2, T3, (N.eqb_sym id). auto. }
           destruct (IH lb1 _ _ lb' Hi1 Hs1 H) as (direct & E1 & E2 & E3 & E4).
           exists direct. cbn [filter].
           assert (B1 : buffered c f = true) by (unfold buffered; rewrite Eg, Ea; apply orb_true_r).
           assert (B2 : line_part c f = false) by (unfold line_part, of_kind; rewrite Eg; apply andb_false_r).
           assert (B3 : poly_part c f = true) by (unfold poly_part, of_kind; rewrite Eg, Ea; reflexivity).
           rewrite B1, B2, B3. cbn [negb]. split; [assumption|]. split; [assumption|].
           rewrite E3, E4. subst lb1. cbn [lb_line_buf lb_poly_buf]. now rewrite <- app_assoc.
        -- apply bind_ok in H1 as (f' & E1 & E2).
           match type of E2 with write_feature c ?l0 f' = _ => apply (Direct l0 f') end; [|reflexivity|reflexivity| | | |exact E1|exact E2|].
           ++ eapply lb_inv_same; [exact Hi|reflexivity..].
           ++ unfold buffered. rewrite Eg, Ea. cbn [kind]. now rewrite !andb_false_r.
           ++ unfold line_part, of_kind. rewrite Eg. cbn [kind]. now rewrite !andb_false_r.
           ++ unfold poly_part. now rewrite Ea.
           ++ intros id. destruct (Hs id) as (T1 & T2 & T3). cbn [lb_nodes lb_lines lb_polys mem existsb fst snd N.eqb Pos.eqb].
              unfold mem in *. rewrite ?andb_true_r, ?andb_false_r. cbn [orb].
              rewrite T1, T2, T3, (N.eqb_sym id). auto.
Qed.

Lemma big_enough_drop c f : big_enough c f =
  negb (negb (f_layer f =? kLayerCoastlineIdx) && c_drop_subpixel c && (c_area c (f_geom f) <? kScreenPixelArea)%Z).
Proof.
  unfold big_enough, kLayerCoastlineIdx, kScreenPixelArea.
  destruct (f_layer f =? 0), (c_drop_subpixel c); cbn [negb andb orb]; try reflexivity.
  destruct (Z.ltb_spec (c_area c (f_geom f)) 256), (Z.leb_spec 256 (c_area c (f_geom f))); try reflexivity; lia.
Qed.

Lemma write_polys_spec c name fs : forall lb ws lb', lb_inv c name lb ws -> write_polys c lb fs = Ok lb' ->
  exists ps, map_res (clip_shift c) fs = Ok ps /\
    lb_inv c name lb' (ws ++ filter not_null (filter (big_enough c) ps)) /\ lb_line_buf lb' = lb_line_buf lb.
Proof.
  induction fs as [|f fs IH]; intros lb ws lb' Hi H; cbn [write_polys map_res] in *.
  - apply Ok_inj in H. subst. exists []. cbn [filter]. rewrite app_nil_r. auto.
  - apply bind_ok in H as (f' & E1 & H). rewrite E1. cbn [bind].
    destruct (negb (f_layer f' =? kLayerCoastlineIdx) && c_drop_subpixel c && (c_area c (f_geom f') <? kScreenPixelArea)%Z) eqn:Eb.
    + destruct (IH _ _ _ Hi H) as (ps & -> & A & B). cbn [bind]. exists (f' :: ps). split; [reflexivity|].
      cbn [filter]. rewrite big_enough_drop, Eb. cbn [negb]. auto.
    + apply bind_ok in H as (lb1 & E2 & H).
      destruct (write_feature_inv c name lb ws f' lb1 Hi E2) as (W0 & _ & _ & _ & W4 & _).
      destruct (IH _ _ _ W0 H) as (ps & -> & A & B). cbn [bind]. exists (f' :: ps). split; [reflexivity|].
      cbn [filter]. rewrite big_enough_drop, Eb. cbn [negb]. rewrite <- app_assoc in A. cbn [filter] in *.
      split; [destruct (not_null f'); exact A | now rewrite B, W4].
Qed.

Lemma write_lines_spec c name fs : forall lb ws lb', lb_inv c name lb ws -> write_lines c lb fs = Ok lb' ->
  exists ps, map_res (clip_shift c) fs = Ok ps /\ lb_inv c name lb' (ws ++ filter not_null ps).
Proof.
  induction fs as [|f fs IH]; intros lb ws lb' Hi H; cbn [write_lines map_res] in *.
  - apply Ok_inj in H. subst. exists []. cbn [filter]. rewrite app_nil_r. auto.
  - apply bind_ok in H as (f' & E1 & H). rewrite E1. cbn [bind].
    apply bind_ok in H as (lb1 & E2 & H).
    destruct (write_feature_inv c name lb ws f' lb1 Hi E2) as (W0 & _).
    destruct (IH _ _ _ W0 H) as (ps & -> & A). cbn [bind]. exists (f' :: ps). split; [reflexivity|].
    rewrite <- app_assoc in A. cbn [filter] in *. destruct (not_null f'); exact A.
Qed.

Lemma filter_false {A} (l : list A) : filter (fun _ => false) l = [].
Proof. induction l; auto. Qed.

Lemma seen_ok_init name : seen_ok (layer_builder_init name) [].
Proof. intros id. repeat split. Qed.

(** one layer from start to finish *)
Lemma layer_spec c name i fs lb lb1 :
  lb_adds c (layer_builder_init name) (filter (fun f => f_layer f =? i) fs) = Ok lb ->
  aggregate_geometry c lb = Ok lb1 ->
  exists ws, layer_content c i fs = Ok ws /\ lb_inv c name lb1 ws.
Proof.
  intros H1 H2. set (l0 := filter _ fs) in *.
  destruct (lb_adds_spec c name l0 _ _ _ _ (lb_inv_init c name) (seen_ok_init name) H1) as (direct & E1 & E2 & E3 & E4).
  cbn [layer_builder_init lb_line_buf lb_poly_buf app] in E3, E4.
  unfold layer_content. fold l0. rewrite E1. cbn [bind].
  unfold aggregate_geometry in H2. apply bind_ok in H2 as (lb2 & Ep & H2).
  assert (exists ps, map_res (clip_shift c) (filter (poly_part c) (first_of_kind [] l0)) = Ok ps /\
    lb_inv c name lb2 (filter not_null direct ++ filter not_null (filter (big_enough c) ps)) /\
    lb_line_buf lb2 = lb_line_buf lb) as (ps & P1 & P2 & P3).
  { destruct (c_agg_polys c) eqn:Ea.
    - rewrite E4 in Ep. exact (write_polys_spec c name _ _ _ _ E2 Ep).
    - apply Ok_inj in Ep. subst lb2. exists [].
      assert (Z : filter (poly_part c) (first_of_kind [] l0) = []).
      { unfold poly_part. rewrite Ea. cbn [andb]. apply filter_false. }
      rewrite Z. cbn [map_res filter]. rewrite app_nil_r. auto. }
  change (fun f => c_agg_polys c && of_kind 3 f) with (poly_part c). rewrite P1. cbn [bind].
  change (fun f => c_agg_lines c && of_kind 2 f) with (line_part c).
  rewrite P3, E3 in H2.
  destruct (c_agg_lines c) eqn:Ea; cbn [andb] in H2.
  - destruct (filter (line_part c) (first_of_kind [] l0)) as [|x xs] eqn:El; cbn [negb] in H2.
    + apply Ok_inj in H2. subst lb2. cbn [bind map_res]. eexists. split; [reflexivity|].
      rewrite app_nil_r, filter_app. exact P2.
    + apply bind_ok in H2 as (joined & -> & H2). cbn [bind].
      destruct (write_lines_spec c name _ _ _ _ P2 H2) as (ls & -> & L2). cbn [bind].
      eexists. split; [reflexivity|]. rewrite !filter_app, app_assoc. exact L2.
  - assert (Z : filter (line_part c) (first_of_kind [] l0) = []).
    { unfold line_part. rewrite Ea. cbn [andb]. apply filter_false. }
    rewrite Z. cbn [bind map_res]. apply Ok_inj in H2. subst lb2. eexists. split; [reflexivity|].
    rewrite app_nil_r, filter_app. exact P2.
Qed.

(** ** the map of layer builders *)
Fixpoint lookup (i : N) (tb : tile_builder) : option layer_builder :=
  match tb with [] => None | (j, lb) :: tb' => if i =? j then Some lb else lookup i tb' end.

Definition keys (tb : tile_builder) : list N := map fst tb.
Definition sorted_tb (tb : tile_builder) : Prop := StronglySorted N.lt (keys tb).

Lemma lookup_not_in i tb : ~ In i (keys tb) -> lookup i tb = None.
Proof.
  induction tb as [|[j lb] tb IH]; [reflexivity|]. cbn [keys map fst lookup]. intros H.
  destruct (N.eqb_spec i j) as [->|Hne]; [exfalso; apply H; now left|]. apply IH. intros Hi. apply H. now right.
Qed.

Lemma map_update_spec i init upd tb : forall tb', sorted_tb tb -> map_update i init upd tb = Ok tb' ->
  sorted_tb tb' /\ (forall j, In j (keys tb') <-> j = i \/ In j (keys tb)) /\
  (forall j, j <> i -> lookup j tb' = lookup j tb) /\
  exists lb, upd (match lookup i tb with Some lb => lb | None => init end) = Ok lb /\ lookup i tb' = Some lb.
Proof.
  induction tb as [|[j lb] tb IH]; intros tb' Hs H; cbn [map_update] in H.
  - apply bind_ok in H as (lb & E & H). apply Ok_inj in H. subst tb'. split; [|split; [|split]].
    + constructor; constructor.
    + intros j. cbn. split; intros [H|H]; auto; contradiction.
    + intros j Hj. cbn [lookup]. now replace (j =? i) with false by lia.
    + exists lb. cbn [lookup]. rewrite N.eqb_refl. auto.
  - unfold sorted_tb, keys in Hs. cbn [map fst] in Hs. apply StronglySorted_inv in Hs as [Hs1 Hs2].
    rewrite Forall_forall in Hs2.
    destruct (N.ltb_spec i j) as [Hlt|Hge].
    + apply bind_ok in H as (lb' & E & H). apply Ok_inj in H. subst tb'.
      assert (Hn : lookup i ((j, lb) :: tb) = None).
      { apply lookup_not_in. cbn [keys map fst]. intros [Hi|Hi]; [lia|]. specialize (Hs2 _ Hi). lia. }
      split; [|split; [|split]].
      * unfold sorted_tb, keys. cbn [map fst]. constructor; [constructor; [assumption | now apply Forall_forall]|].
        constructor; [assumption|]. apply Forall_forall. intros k Hk. specialize (Hs2 _ Hk). lia.
      * intros k. cbn [keys map fst In]. intuition congruence.
      * intros k Hk. cbn [lookup]. now replace (k =? i) with false by lia.
      * exists lb'. rewrite Hn. cbn [lookup]. rewrite N.eqb_refl. auto.
    + destruct (N.eqb_spec i j) as [->|Hne].
      * apply bind_ok in H as (lb' & E & H). apply Ok_inj in H. subst tb'. split; [|split; [|split]].
        -- unfold sorted_tb, keys. cbn [map fst]. constructor; [assumption | now apply Forall_forall].
        -- intros k. cbn [keys map fst In]. intuition congruence.
        -- intros k Hk. cbn [lookup]. now replace (k =? j) with false by lia.
        -- exists lb'. cbn [lookup]. rewrite N.eqb_refl. auto.
      * apply bind_ok in H as (r & E & H). apply Ok_inj in H. subst tb'.
        destruct (IH r Hs1 E) as (A & B & C & D). split; [|split; [|split]].
        -- unfold sorted_tb, keys. cbn [map fst]. constructor; [assumption|]. apply Forall_forall. intros k Hk.
           apply B in Hk as [->|Hk]; [lia|]. now apply Hs2.
        -- intros k. cbn [keys map fst In]. fold (keys r). rewrite B. fold (keys tb). intuition congruence.
        -- intros k Hk. cbn [lookup]. destruct (k =? j); [reflexivity|]. now apply C.
        -- destruct D as (lb' & D1 & D2). exists lb'. cbn [lookup]. replace (i =? j) with false by lia. auto.
Qed.

Definition part (i : N) (fs : list feature) : list feature := filter (fun f => f_layer f =? i) fs.

Lemma lb_adds_app c a : forall lb b, lb_adds c lb (a ++ b) = do x <- lb_adds c lb a; lb_adds c x b.
Proof.
  induction a as [|f a IH]; intros lb b; [reflexivity|]. cbn [app lb_adds].
  destruct (lb_add_feature c lb f); cbn [bind]; auto.
Qed.

(** after adding [fs]: one builder per layer that occurs, holding its features *)
Definition tb_inv (c : tctx) (fs : list feature) (tb : tile_builder) : Prop :=
  sorted_tb tb /\
  (forall i, In i (keys tb) <-> part i fs <> []) /\
  (forall i lb, lookup i tb = Some lb -> exists name, nth_error (c_names c) (N.to_nat i) = Some name /\
     lb_adds c (layer_builder_init name) (part i fs) = Ok lb).

Lemma lookup_in i tb : In i (keys tb) -> exists lb, lookup i tb = Some lb.
Proof.
  induction tb as [|[j lb] tb IH]; [intros []|]. cbn [keys map fst lookup].
  intros [->|H]; [rewrite N.eqb_refl; eauto|]. destruct (i =? j); [eauto|]. now apply IH.
Qed.

Lemma lookup_some_in i tb lb : lookup i tb = Some lb -> In i (keys tb) /\ In (i, lb) tb.
Proof.
  induction tb as [|[j lb0] tb IH]; [discriminate|]. cbn [keys map fst lookup].
  destruct (N.eqb_spec i j) as [->|Hne].
  - intros H. injection H as <-. split; now left.
  - intros H. destruct (IH H). split; right; assumption.
Qed.

Lemma tb_add_features_spec c fs : forall done tb tb', tb_inv c done tb -> tb_add_features c tb fs = Ok tb' ->
  tb_inv c (done ++ fs) tb'.
Proof.
  induction fs as [|f fs IH]; intros done tb tb' Hi H; cbn [tb_add_features] in H.
  - apply Ok_inj in H. subst. now rewrite app_nil_r.
  - apply bind_ok in H as (tb1 & E & H).
    replace (done ++ f :: fs) with ((done ++ [f]) ++ fs) by (rewrite <- app_assoc; reflexivity).
    eapply IH; [|exact H]. clear IH H tb'.
    unfold tb_add_feature in E. destruct (nth_error (c_names c) (N.to_nat (f_layer f))) as [name|] eqn:En; [|discriminate].
    destruct Hi as (I1 & I2 & I3).
    destruct (map_update_spec _ _ _ _ _ I1 E) as (A & B & C & lb & D1 & D2).
    split; [assumption|]. split.
    + intros i. rewrite B, I2. unfold part. rewrite filter_app. cbn [filter].
      destruct (N.eqb_spec (f_layer f) i) as [->|Hne].
      * split; [|auto]. intros _ H. apply app_eq_nil in H as [_ H]. discriminate.
      * rewrite app_nil_r. split; [intros [->|H]; [congruence|assumption] | auto].
    + intros i lb' Hl. destruct (N.eqb_spec (f_layer f) i) as [<-|Hne].
      * rewrite D2 in Hl. injection Hl as <-. exists name. split; [assumption|].
        unfold part. rewrite filter_app, lb_adds_app. cbn [filter]. rewrite N.eqb_refl. cbn [lb_adds].
        destruct (lookup (f_layer f) tb) as [lb0|] eqn:El.
        -- destruct (I3 _ _ El) as (name' & En' & E0). rewrite En in En'. injection En' as <-.
           unfold part in E0. rewrite E0. cbn [bind]. rewrite D1. reflexivity.
        -- assert (Z : part (f_layer f) done = []).
           { destruct (part (f_layer f) done) eqn:Ep; [reflexivity|]. exfalso.
             destruct (lookup_in (f_layer f) tb) as (x & Hx); [apply I2; congruence|congruence]. }
           unfold part in Z. rewrite Z. cbn [lb_adds bind]. rewrite D1. reflexivity.
      * rewrite C in Hl by congruence. destruct (I3 _ _ Hl) as (name' & En' & E0). exists name'. split; [assumption|].
        unfold part. rewrite filter_app. cbn [filter]. replace (f_layer f =? i) with false by lia.
        rewrite app_nil_r. exact E0.
Qed.

Lemma tb_inv_init c : tb_inv c [] [].
Proof. split; [constructor|]. split; [intros i; cbn; intuition congruence | discriminate]. Qed.
