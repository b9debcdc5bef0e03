(** Aggregation of features: groups of equal metadata. *)
From Coq Require Import Permutation Sorting.Sorted.
From Verif Require Import Base BaseProof ModelTile ModelCodec ModelGeom ModelFeature ModelDict ModelAggregate SpecDict SpecAggregate
  ProofAggregate ProofAggregateJoin ProofAggregateOut ProofDict ProofRender.
Open Scope Z_scope.

Lemma metas_irrefl a : metas_ltb a a = false.
Proof. induction a as [|x a IH]; cbn [metas_ltb]; [reflexivity|]. rewrite meta_ltb_irrefl. exact IH. Qed.
Lemma metas_total : forall a b, metas_ltb a b = false -> metas_ltb b a = false -> a = b.
Proof.
  induction a as [|x a IH]; intros [|y b]; cbn [metas_ltb]; try discriminate; [reflexivity|].
  destruct (meta_ltb x y) eqn:E1; [discriminate|]. destruct (meta_ltb y x) eqn:E2; [discriminate|]. intros H1 H2.
  rewrite (meta_ltb_total _ _ E1 E2). f_equal. apply IH; assumption.
Qed.
Lemma metas_trans : forall a b c, metas_ltb a b = true -> metas_ltb b c = true -> metas_ltb a c = true.
Proof.
  induction a as [|x a IH]; intros [|y b] [|z c]; cbn [metas_ltb]; try discriminate; [reflexivity|].
  destruct (meta_ltb x y) eqn:E1.
  - intros _. destruct (meta_ltb y z) eqn:E2; [rewrite (meta_ltb_trans _ _ _ E1 E2); reflexivity|].
    destruct (meta_ltb z y) eqn:E3; [discriminate|]. rewrite <- (meta_ltb_total _ _ E2 E3), E1. reflexivity.
  - destruct (meta_ltb y x) eqn:E2; [discriminate|]. rewrite <- (meta_ltb_total _ _ E1 E2).
    destruct (meta_ltb x z); [reflexivity|]. destruct (meta_ltb z x); [discriminate|]. apply IH.
Qed.
Lemma metas_asym a b : metas_ltb a b = true -> metas_ltb b a = false.
Proof. intros H. destruct (metas_ltb b a) eqn:E; [|reflexivity]. rewrite <- (metas_irrefl a). symmetry. eapply metas_trans; eassumption. Qed.
Lemma metas_eqb_spec a b : metas_eqb a b = true <-> a = b.
Proof. unfold metas_eqb. destruct list_eq_dec; split; congruence. Qed.

(** [a] is not after [b] *)
Definition fle (a b : feature) : Prop := feature_ltb b a = false.
Lemma fle_spec a b : fle a b <-> metas_ltb (f_meta a) (f_meta b) = true \/ (f_meta a = f_meta b /\ (f_id a <= f_id b)%N).
Proof.
  unfold fle, feature_ltb. split.
  - intros H. apply orb_false_iff in H as [H1 H2]. destruct (metas_ltb (f_meta a) (f_meta b)) eqn:E; [left; reflexivity|]. right.
    split; [apply metas_total; assumption|]. cbn [negb andb] in H2. lia.
  - intros [H|[H1 H2]].
    + rewrite (metas_asym _ _ H), H. reflexivity.
    + rewrite H1, metas_irrefl. cbn [orb negb andb]. lia.
Qed.

Lemma sorted_app_r {A} (R : A -> A -> Prop) a b : StronglySorted R (a ++ b) -> StronglySorted R b.
Proof. induction a as [|x a IH]; [auto|]. cbn [app]. intros H. apply StronglySorted_inv in H. apply IH, H. Qed.
Lemma take_run_spec m fs : let '(a, b) := take_run m fs in
  fs = a ++ b /\ Forall (fun f => f_meta f = m) a /\ match b with [] => True | f :: _ => f_meta f <> m end.
Proof.
  induction fs as [|f fs IH]; cbn [take_run]; [auto|]. destruct (metas_eqb m (f_meta f)) eqn:E.
  - apply metas_eqb_spec in E. destruct (take_run m fs) as [a b]. destruct IH as (-> & H1 & H2). split; [reflexivity|]. split; [constructor; [congruence|exact H1]|exact H2].
  - split; [reflexivity|]. split; [constructor|]. intros X. rewrite (proj2 (metas_eqb_spec m (f_meta f))) in E; congruence.
Qed.

Definition group_meta (g : list feature) : list meta := match g with [] => [] | f :: _ => f_meta f end.
Definition group_ok (g : list feature) : Prop :=
  match g with [] => False | f :: g' => Forall (fun h => f_meta h = f_meta f /\ (f_id f <= f_id h)%N) g' end.
Lemma runs_spec : forall n fs, (length fs <= n)%nat -> StronglySorted fle fs ->
  exists gs, runs n fs = Ok gs /\ concat gs = fs /\ Forall group_ok gs /\ NoDup (map group_meta gs).
Proof.
  induction n as [|n IH]; intros fs Hn Hs.
  - destruct fs; [|cbn [length] in Hn; lia]. exists []. repeat split; constructor.
  - destruct fs as [|f fs]; [exists []; repeat split; constructor|]. cbn [runs].
    pose proof (take_run_spec (f_meta f) fs) as T. destruct (take_run (f_meta f) fs) as [a b]. destruct T as (-> & Ha & Hb).
    apply StronglySorted_inv in Hs as [Hs Hf]. apply Forall_app in Hf as [Hfa Hfb]. pose proof (sorted_app_r _ _ _ Hs) as Hsb.
    destruct (IH b) as (gs & E & Hc & Hg & HN); [cbn [length] in Hn; rewrite app_length in Hn; lia|exact Hsb|].
    rewrite E. cbn [bind]. exists ((f :: a) :: gs). split; [reflexivity|]. split; [cbn [concat]; rewrite Hc; reflexivity|]. split; [constructor; [|exact Hg]|].
    + cbn [group_ok]. rewrite Forall_forall in *. intros h Hh. specialize (Ha h Hh). specialize (Hfa h Hh). apply fle_spec in Hfa.
      destruct Hfa as [X|[_ X]]; [rewrite Ha, metas_irrefl in X; discriminate|auto].
    + cbn [map group_meta]. constructor; [|exact HN]. intros Hi. apply in_map_iff in Hi as (g & Eg & Hi).
      assert (Hin : exists h, In h b /\ f_meta h = f_meta f).
      { rewrite Forall_forall in Hg. specialize (Hg g Hi). destruct g as [|h g]; [destruct Hg|]. exists h. split; [|exact Eg].
        rewrite <- Hc. apply in_concat. exists (h :: g). split; [exact Hi|left; reflexivity]. }
      destruct Hin as (h & Hh & Em). destruct b as [|h0 b]; [destruct Hh|].
      rewrite Forall_forall in Hfb. pose proof (Hfb h0 (or_introl eq_refl)) as H0. apply fle_spec in H0.
      destruct H0 as [H0|[H0 _]]; [|congruence]. destruct Hh as [->|Hh]; [congruence|].
      apply StronglySorted_inv in Hsb as [_ Hsb]. rewrite Forall_forall in Hsb. pose proof (Hsb h Hh) as H1. apply fle_spec in H1. rewrite Em in H1.
      destruct H1 as [H1|[H1 _]]; [|congruence]. rewrite (metas_asym _ _ H0) in H1. discriminate.
Qed.

Lemma filter_none {A} (f : A -> bool) l : (forall x, In x l -> f x = false) -> filter f l = [].
Proof. induction l as [|a l IH]; intros H; cbn [filter]; [reflexivity|]. rewrite H by (left; reflexivity). apply IH. intros; apply H; right; assumption. Qed.
Lemma filter_all {A} (f : A -> bool) l : (forall x, In x l -> f x = true) -> filter f l = l.
Proof. induction l as [|a l IH]; intros H; cbn [filter]; [reflexivity|]. rewrite H by (left; reflexivity). f_equal. apply IH. intros; apply H; right; assumption. Qed.
Lemma group_ok_meta g h : group_ok g -> In h g -> f_meta h = group_meta g.
Proof. destruct g as [|f g]; [intros []|]. cbn [group_ok group_meta]. intros H [->|Hh]; [reflexivity|]. rewrite Forall_forall in H. apply H, Hh. Qed.
Lemma group_of_app m a b : group_of m (a ++ b) = group_of m a ++ group_of m b.
Proof. apply filter_app. Qed.
Lemma group_of_same g : group_ok g -> group_of (group_meta g) g = g.
Proof. intros H. apply filter_all. intros h Hh. destruct list_eq_dec as [_|N]; [reflexivity|]. exfalso. apply N, group_ok_meta; assumption. Qed.
Lemma group_of_other m g : group_ok g -> m <> group_meta g -> group_of m g = [].
Proof. intros H Hm. apply filter_none. intros h Hh. destruct list_eq_dec as [E|_]; [|reflexivity]. exfalso. apply Hm. rewrite <- E. apply group_ok_meta; assumption. Qed.
Lemma group_of_concat gs g : Forall group_ok gs -> NoDup (map group_meta gs) -> In g gs -> group_of (group_meta g) (concat gs) = g.
Proof.
  intros Hg. induction Hg as [|a gs Ha Hg IH]; intros HN Hi; [destruct Hi|]. cbn [concat map] in *. inversion HN as [|? ? Hni HN']; subst.
  rewrite group_of_app. destruct Hi as [->|Hi].
  - rewrite group_of_same by exact Ha. rewrite <- (app_nil_r g) at 3. f_equal.
    apply filter_none. intros h Hh. destruct list_eq_dec as [E|_]; [|reflexivity]. exfalso. apply Hni. apply in_concat in Hh as (g' & Hg' & Hh).
    rewrite <- E. rewrite Forall_forall in Hg. rewrite (group_ok_meta g' h (Hg g' Hg') Hh). apply in_map, Hg'.
  - rewrite group_of_other; [apply IH; assumption|exact Ha|]. intros E. apply Hni. rewrite <- E. apply in_map, Hi.
Qed.
Lemma group_of_perm m a b : Permutation a b -> Permutation (group_of m a) (group_of m b).
Proof.
  unfold group_of. induction 1 as [|x a b H IH|x y a|a b c H1 IH1 H2 IH2]; cbn [filter]; [reflexivity| | |etransitivity; eassumption].
  - destruct list_eq_dec; [apply perm_skip, IH|exact IH].
  - destruct list_eq_dec, list_eq_dec; try apply perm_swap; reflexivity.
Qed.

Section Agg.
Variable srt_f : list feature -> list feature.
Variable srt_e : list lentry -> list lentry.
Variable simp : line -> N -> line.
Hypothesis Hsf : sorts feature_ltb srt_f.
Hypothesis Hse : sorts lentry_ltb srt_e.

Lemma feature_lines_spec g : Forall line_feature g -> map_res feature_lines g = Ok (map lines_of g) /\ Forall line_ok (concat (map lines_of g)).
Proof.
  induction 1 as [|f g (ls & E & Hl & Hn) Hg [IH1 IH2]]; [split; [reflexivity|constructor]|].
  cbn [map_res map concat]. unfold feature_lines at 1, lines_of at 1 3. rewrite E. unfold verify. replace (N.of_nat (length ls) <? 2 ^ 32 - 1)%N with true by lia.
  cbn [bind]. rewrite IH1. cbn [bind]. split; [reflexivity|]. apply Forall_app. auto.
Qed.

(** what one group gives *)
Definition one_ok (z : N) (g : list feature) (f : feature) : Prop :=
  f_meta f = group_meta g /\ (exists f0, In f0 g /\ f_id f0 = f_id f) /\ Forall (fun h => f_id f <= f_id h)%N g /\
  exists js, joined_from (flat_map lines_of g) js /\ fully_joined (flat_map lines_of g) js /\ f_geom f = GLine (simplified simp z js).
Lemma join_features_spec z g : group_ok g -> Forall line_feature g -> exists f, join_features srt_e simp z g = Ok f /\ one_ok z g f.
Proof.
  intros Hg Hl. destruct g as [|f g]; [destruct Hg|]. unfold join_features.
  destruct (feature_lines_spec _ Hl) as [E Hok]. rewrite E. cbn [bind].
  destruct (join_group_main srt_e _ Hok Hse) as (js & Ej & J1 & J2). rewrite Ej. cbn [bind].
  eexists. split; [reflexivity|]. unfold one_ok. cbn [f_meta f_id f_geom group_meta]. split; [reflexivity|]. split; [exists f; split; [left; reflexivity|reflexivity]|].
  split; [constructor; [lia|]; eapply Forall_impl; [|exact Hg]; intros h [_ H]; exact H|].
  exists js. rewrite flat_map_concat_map. split; [exact J1|]. split; [exact J2|]. reflexivity.
Qed.

Lemma aggregate_main fs z : Forall line_feature fs ->
  exists r, aggregate_line_features srt_f srt_e simp fs z = Ok r /\ aggregated simp z fs r /\
    (NoDup (map f_id fs) -> NoDup (map f_id r)).
Proof.
  intros Hl. unfold aggregate_line_features. destruct (Hsf fs) as [P O].
  destruct (runs_spec (S (length fs)) (srt_f fs)) as (gs & E & Hc & Hg & HN); [rewrite (Permutation_length P); lia|exact O|].
  rewrite E. cbn [bind].
  assert (Hlg : Forall (Forall line_feature) gs).
  { apply Forall_forall. intros g Hi. apply Forall_forall. intros f Hf. rewrite Forall_forall in Hl. apply Hl. apply (Permutation_in _ P). rewrite <- Hc. apply in_concat. eauto. }
  assert (Hr : exists r, map_res (join_features srt_e simp z) gs = Ok r /\ Forall2 (one_ok z) gs r).
  { clear E Hc HN. induction Hg as [|g gs Hgo Hg IH]; [exists []; split; [reflexivity|constructor]|]. inversion Hlg as [|? ? Hl1 Hl2]; subst.
    destruct (IH Hl2) as (r & Er & F). destruct (join_features_spec z g Hgo Hl1) as (f & Ef & Ho). exists (f :: r). cbn [map_res]. rewrite Ef. cbn [bind]. rewrite Er. split; [reflexivity|constructor; assumption]. }
  destruct Hr as (r & Er & F). exists r. split; [exact Er|].
  assert (Hmeta : map f_meta r = map group_meta gs).
  { clear -F. induction F as [|g f gs r (H & _) F IH]; cbn [map]; [reflexivity|]. rewrite H, IH. reflexivity. }
  split; [split; [rewrite Hmeta; exact HN|split]|].
  - intros m. rewrite Hmeta. split; intros Hm.
    + apply in_map_iff in Hm as (g & <- & Hi). rewrite Forall_forall in Hg. pose proof (Hg g Hi) as Ho. destruct g as [|f g]; [destruct Ho|].
      cbn [group_meta]. apply in_map. apply (Permutation_in _ P). rewrite <- Hc. apply in_concat. exists (f :: g). split; [exact Hi|left; reflexivity].
    + apply in_map_iff in Hm as (f & <- & Hf). apply (Permutation_in _ (Permutation_sym P)) in Hf. rewrite <- Hc in Hf. apply in_concat in Hf as (g & Hi & Hf).
      rewrite Forall_forall in Hg. rewrite (group_ok_meta g f (Hg g Hi) Hf). apply in_map, Hi.
  - apply Forall_forall. intros f Hf. destruct (Forall2_in_r _ _ _ _ F Hf) as (g & Hi & (H1 & H2 & H3 & js & H4 & H5 & H6)).
    exists g, js. split; [|auto]. rewrite H1. rewrite <- (group_of_perm _ _ _ P), <- Hc. rewrite group_of_concat by assumption. reflexivity.
  - intros Hid. apply (Permutation_NoDup (Permutation_map f_id (Permutation_sym P))) in Hid. rewrite <- Hc in Hid. clear -F Hid.
    induction F as [|g f gs r Ho F IH]; cbn [map concat] in *; [constructor|]. rewrite map_app in Hid. constructor.
    + intros Hi. destruct Ho as (_ & (f0 & Hf0 & E0) & _). apply in_map_iff in Hi as (f1 & E1 & Hf1).
      destruct (Forall2_in_r _ _ _ _ F Hf1) as (g1 & Hg1 & (_ & (f2 & Hf2 & E2) & _)).
      assert (A : In (f_id f) (map f_id g)) by (rewrite <- E0; apply in_map, Hf0).
      assert (B : In (f_id f) (map f_id (concat gs))) by (rewrite <- E1, <- E2; apply in_map, in_concat; eauto).
      clear -Hid A B. induction (map f_id g) as [|x l IH]; [destruct A|]. cbn [app] in Hid. inversion Hid as [|? ? Hn Hd]; subst.
      destruct A as [->|A]; [|auto]. apply Hn, in_or_app. right. exact B.
    + apply IH. clear -Hid. induction (map f_id g) as [|x l IH]; [exact Hid|]. cbn [app] in Hid. inversion Hid; auto.
Qed.
End Agg.

(** whatever goes in: what comes out are lines with ids and metadata from the input *)
Lemma aggregate_is_ok srt_f srt_e simp : sorts feature_ltb srt_f -> SpecMvt.aggregate_ok (aggregate_line_features srt_f srt_e simp).
Proof.
  intros Hsf fs z r H. unfold aggregate_line_features in H. destruct (Hsf fs) as [P O].
  destruct (runs_spec (S (length fs)) (srt_f fs)) as (gs & E & Hc & Hg & HN); [rewrite (Permutation_length P); lia|exact O|].
  rewrite E in H. cbn [bind] in H. clear E O.
  assert (F : Forall2 (fun g f => SpecMvt.kind (f_geom f) = 2%N /\ exists f0, In f0 g /\ f_id f0 = f_id f /\ f_meta f0 = f_meta f) gs r).
  { apply map_res_Forall2 in H. clear -H. induction H as [|g f gs r E F IH]; constructor; [|exact IH]. unfold join_features in E.
    destruct g as [|f0 g]; [discriminate|]. apply bind_ok in E as (ls & _ & E). apply bind_ok in E as (js & _ & E). apply Ok_inj in E. subst f.
    cbn [f_geom SpecMvt.kind f_id f_meta]. split; [reflexivity|]. exists f0. split; [left; reflexivity|split; reflexivity]. }
  split.
  - intros f Hf. destruct (Forall2_in_r _ _ _ _ F Hf) as (g & Hi & K & f0 & H0 & H1 & H2). split; [exact K|]. exists f0.
    split; [|split; assumption]. apply (Permutation_in _ P). rewrite <- Hc. apply in_concat. eauto.
  - intros Hid. apply (Permutation_NoDup (Permutation_map f_id (Permutation_sym P))) in Hid. rewrite <- Hc in Hid. clear -F Hid.
    induction F as [|g f gs r Ho F IH]; cbn [map concat] in *; [constructor|]. rewrite map_app in Hid. constructor.
    + intros Hi. destruct Ho as (_ & f0 & Hf0 & E0 & _). apply in_map_iff in Hi as (f1 & E1 & Hf1).
      destruct (Forall2_in_r _ _ _ _ F Hf1) as (g1 & Hg1 & (_ & f2 & Hf2 & E2 & _)).
      assert (A : In (f_id f) (map f_id g)) by (rewrite <- E0; apply in_map, Hf0).
      assert (B : In (f_id f) (map f_id (concat gs))) by (rewrite <- E1, <- E2; apply in_map, in_concat; eauto).
      clear -Hid A B. induction (map f_id g) as [|x l IH]; [destruct A|]. cbn [app] in Hid. inversion Hid as [|? ? Hn Hd]; subst.
      destruct A as [->|A]; [|auto]. apply Hn, in_or_app. right. exact B.
    + apply IH. clear -Hid. induction (map f_id g) as [|x l IH]; [exact Hid|]. cbn [app] in Hid. inversion Hid; auto.
Qed.

Lemma flat_map_ext_at {A B} (f g : A -> list B) l : (forall x, In x l -> f x = g x) -> flat_map f l = flat_map g l.
Proof. induction l as [|x l IH]; intros H; cbn [flat_map]; [reflexivity|]. rewrite (H x (or_introl eq_refl)), IH; [reflexivity|]. intros y Hy. apply H. right. exact Hy. Qed.

(** the segments of all features *)
Lemma perm_by_groups {A B} (key : A -> B) (dec : forall x y : B, {x = y} + {x <> y}) (ks : list B) : NoDup ks ->
  forall l, (forall x, In x l -> In (key x) ks) ->
  Permutation (flat_map (fun k => filter (fun x => if dec (key x) k then true else false) l) ks) l.
Proof.
  induction 1 as [|k ks Hn HN IH]; intros l Hl; [destruct l as [|x l]; [reflexivity|destruct (Hl x (or_introl eq_refl))]|].
  cbn [flat_map].
  set (p := fun x => if dec (key x) k then true else false).
  assert (S : Permutation (filter p l ++ filter (fun x => negb (p x)) l) l).
  { clear. induction l as [|x l IH]; cbn [filter]; [reflexivity|]. destruct (p x); cbn [negb app]; [apply perm_skip, IH|].
    symmetry. etransitivity; [|apply Permutation_middle]. apply perm_skip. symmetry. exact IH. }
  etransitivity; [|exact S]. apply Permutation_app_head. etransitivity; [|apply (IH (filter (fun x => negb (p x)) l))].
  - match goal with |- Permutation ?a ?b => assert (a = b) as ->; [|reflexivity] end.
    apply flat_map_ext_at. intros k' Hk'. clear -Hn Hk'. induction l as [|x l IH]; [reflexivity|]. cbn [filter]. unfold p.
    destruct (dec (key x) k) as [E|Hd2]; cbn [negb filter]; destruct (dec (key x) k') as [E'|Hd].
    + exfalso. apply Hn. rewrite <- E, E'. exact Hk'.
    + exact IH.
    + f_equal. exact IH.
    + exact IH.
  - intros x Hx. apply filter_In in Hx as [Hx Hp]. destruct (Hl x Hx) as [E|H]; [|exact H]. unfold p in Hp. destruct (dec (key x) k); [discriminate|congruence].
Qed.

Lemma flat_map_perm_l {A B} (f : A -> list B) a b : Permutation a b -> Permutation (flat_map f a) (flat_map f b).
Proof. apply Permutation_flat_map. Qed.
Lemma aggregated_segments z fs r : Forall line_feature fs -> aggregated (fun l _ => l) z fs r ->
  Permutation (drawn_segments r) (drawn_segments fs).
Proof.
  intros Hl (HN & HM & F). unfold drawn_segments.
  assert (G : Permutation (flat_map (fun k => group_of k fs) (map f_meta r)) fs).
  { apply (perm_by_groups f_meta (list_eq_dec meta_dec)); [exact HN|]. intros x Hx. apply HM, in_map, Hx. }
  transitivity (map undirected (flat_map segments (flat_map lines_of (flat_map (fun k => group_of k fs) (map f_meta r))))).
  2: { apply Permutation_map. do 2 apply flat_map_perm_l. exact G. }
  clear HN HM G. induction F as [|f r (g & js & P & _ & _ & J & _ & E) F IH]; [reflexivity|].
  cbn [map flat_map]. rewrite !flat_map_app, !map_app. apply Permutation_app; [|exact IH].
  assert (Lg : Forall line_ok (flat_map lines_of g)).
  { rewrite flat_map_concat_map. apply feature_lines_spec. apply Forall_forall. intros h Hh. apply (Permutation_in _ P) in Hh. apply filter_In in Hh as [Hh _].
    exact (proj1 (Forall_forall _ _) Hl _ Hh). }
  pose proof (segments_preserved _ _ Lg J) as Q. unfold lines_of at 1. rewrite E.
  assert (ES : simplified (fun l _ => l) z js = js) by (unfold simplified; destruct (z <=? 20)%N; [apply map_id|reflexivity]). rewrite ES.
  etransitivity; [exact Q|]. apply Permutation_map. do 2 apply flat_map_perm_l. exact P.
Qed.
