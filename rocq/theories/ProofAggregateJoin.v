(** join_lines keeps the invariant, terminates and leaves nothing to join. *)
From Coq Require Import Permutation Sorting.Sorted.
From Verif Require Import Base BaseProof ModelTile ModelCodec ModelGeom ModelFeature ModelAggregate SpecDict SpecAggregate ProofAggregate ProofPerm.
Open Scope Z_scope.

Section Join.
Variable lns : list line.
Hypothesis Hok : Forall line_ok lns.
Let n := length lns.
Variable idx : list lentry.
Hypothesis Hsorted : StronglySorted (fun a b => lentry_ltb a b = true) idx.
Hypothesis Hidx : forall p k, In (p, k) idx <-> (k < n)%nat /\ touches p (nth k lns []).

Notation hinv := (hinv lns).
Notation start := (start lns).
Notation stop_at := (stop_at lns).
Notation touching := (touching lns).
Notation end_of_route := (end_of_route lns).
Notation degree := (degree lns).
Notation rt j := (leaves (j_tree j)).

Lemma entries_In p e : In e (entries_at p idx) <-> fst e = p /\ In (snd e) (touching p).
Proof.
  rewrite entries_filter by exact Hsorted. rewrite filter_In, pt_eqb_spec. destruct e as [q k]. cbn [fst snd]. rewrite Hidx, touching_In. unfold n.
  split; [intros ((H1 & H2) & ->); auto|intros (-> & H1 & H2); auto].
Qed.
Lemma entries_length p : length (entries_at p idx) = degree p.
Proof.
  rewrite degree_touching, <- (map_length snd). apply Permutation_length. apply NoDup_Permutation.
  - assert (HN : NoDup (entries_at p idx)) by (rewrite entries_filter by exact Hsorted; apply NoDup_filter, sorted_NoDup, Hsorted).
    assert (Hf : forall e, In e (entries_at p idx) -> fst e = p) by (intros e He; apply entries_In in He; tauto).
    clear -HN Hf. induction HN as [|[q k] l Hni HN IH]; cbn [map]; constructor.
    + intros Hi. apply in_map_iff in Hi as ([q' k'] & E & Hi). cbn [snd] in E. subst k'. apply Hni.
      pose proof (Hf _ (or_introl eq_refl)) as E1. pose proof (Hf _ (or_intror Hi)) as E2. cbn [fst] in E1, E2. subst q q'. exact Hi.
    + apply IH. intros e He. apply Hf. right. exact He.
  - apply touching_NoDup.
  - intros k. rewrite in_map_iff. split.
    + intros (e & <- & He). apply entries_In in He. tauto.
    + intros Hk. exists (p, k). split; [reflexivity|]. apply entries_In. auto.
Qed.

Definition same_trees (hs hs' : handles) : Prop :=
  length hs' = length hs /\ forall k, option_map j_tree (handle_at hs' k) = option_map j_tree (handle_at hs k).
Lemma same_trees_refl hs : same_trees hs hs.
Proof. split; reflexivity. Qed.
Lemma same_trees_trans a b c : same_trees a b -> same_trees b c -> same_trees a c.
Proof. intros [L1 H1] [L2 H2]. split; [congruence|]. intros k. rewrite H2. apply H1. Qed.

Lemma burn_step p hs k j j' : degree p <> 2%nat -> p <> invalid_xy -> hinv hs -> handle_at hs k = Some j ->
  j_tree j' = j_tree j ->
  (j_from j' = j_from j \/ (j_from j = p /\ j_from j' = invalid_xy)) ->
  (j_to j' = j_to j \/ (j_to j = p /\ j_to j' = invalid_xy)) ->
  hinv (set_handle hs k (Some j')) /\ same_trees hs (set_handle hs k (Some j')).
Proof.
  intros Hd Hp (HL & HP & HO) E Et Ef Eo. pose proof (at_lt _ _ _ E) as Hk. split; [split; [|split]|split].
  - rewrite set_length. exact HL.
  - etransitivity; [|exact HP]. apply (Permutation_app_inv_l (ids (handle_at hs k))). rewrite (cr_set hs k (Some j') Hk).
    rewrite E. cbn [ids]. rewrite Et. reflexivity.
  - intros m jm Em. destruct (Nat.eq_dec m k) as [->|Ne].
    + rewrite at_set_same in Em by exact Hk. injection Em as <-. destruct (HO _ _ E) as (H1 & H2 & H3 & H4 & H5).
      unfold handle_ok. cbn [ids]. rewrite Et. split; [exact H1|]. split; [exact H2|]. split; [|split; [|exact H5]].
      * destruct Ef as [->|[Ef ->]]; [exact H3|]. right. split; [reflexivity|]. destruct H3 as [H3|[H3 _]]; [|congruence].
        rewrite <- H3, Ef. exact Hd.
      * destruct Eo as [->|[Eo ->]]; [exact H4|]. right. split; [reflexivity|]. destruct H4 as [H4|[H4 _]]; [|congruence].
        rewrite <- H4, Eo. exact Hd.
    + rewrite at_set_other in Em by exact Ne. apply HO. exact Em.
  - apply set_length.
  - intros m. destruct (Nat.eq_dec m k) as [->|Ne].
    + rewrite at_set_same by exact Hk. rewrite E. cbn [option_map]. f_equal. exact Et.
    + rewrite at_set_other by exact Ne. reflexivity.
Qed.

Lemma burn_spec self (at_from : bool) p es : forall hs, degree p <> 2%nat -> p <> invalid_xy -> hinv hs ->
  (forall j, handle_at hs self = Some j -> (if at_from then j_from j else j_to j) = p) ->
  hinv (burn self at_from p es hs) /\ same_trees hs (burn self at_from p es hs).
Proof.
  induction es as [|[q k] es IH]; intros hs Hd Hp Hi Hs; cbn [burn]; [split; [exact Hi|apply same_trees_refl]|].
  destruct (handle_at hs k) as [j|] eqn:E; [|apply IH; assumption].
  assert (Hc : forall f, (if pt_eqb f p then invalid_xy else f) = f \/ (f = p /\ (if pt_eqb f p then invalid_xy else f) = invalid_xy)).
  { intros f. destruct (pt_eqb f p) eqn:Ef; [right|left; reflexivity]. apply pt_eqb_spec in Ef. auto. }
  destruct (Nat.eqb_spec k self) as [->|Ne].
  - apply (burn_step p hs self j); try assumption.
    + destruct at_from; reflexivity.
    + destruct at_from; cbn [j_from]; [right; split; [apply (Hs _ E)|reflexivity]|apply Hc].
    + destruct at_from; cbn [j_to]; [left; reflexivity|right; split; [apply (Hs _ E)|reflexivity]].
  - match goal with |- context [set_handle hs k ?v] => set (nv := v) end.
    destruct (burn_step p hs k j (JL (if pt_eqb (j_from j) p then invalid_xy else j_from j) (if pt_eqb (j_to j) p then invalid_xy else j_to j) (j_tree j)) Hd Hp Hi E eq_refl (Hc _) (Hc _)) as [Hi1 Hs1].
    fold nv in Hi1, Hs1. destruct (IH (set_handle hs k nv) Hd Hp Hi1) as [Hi2 Hs2].
    { intros j1 Ej. rewrite at_set_other in Ej by congruence. apply Hs. exact Ej. }
    split; [exact Hi2|]. eapply same_trees_trans; eassumption.
Qed.

Lemma other_of_spec self hs es acc :
  match other_of self hs es acc with
  | Some k => acc = Some k \/ (k <> self /\ handle_at hs k <> None /\ exists e, In e es /\ snd e = k)
  | None => acc = None /\ forall e, In e es -> snd e = self \/ handle_at hs (snd e) = None
  end.
Proof.
  revert acc. induction es as [|[q k] es IH]; intros acc; cbn [other_of].
  - destruct acc; auto. split; [reflexivity|]. intros e [].
  - destruct (Nat.eqb_spec k self) as [->|Ne]; cbn [orb].
    + specialize (IH acc). destruct (other_of self hs es acc) as [k'|].
      * destruct IH as [H|(H1 & H2 & e & H3 & H4)]; [auto|]. right. split; [exact H1|]. split; [exact H2|]. exists e. split; [right; exact H3|exact H4].
      * destruct IH as [H1 H2]. split; [exact H1|]. intros e [<-|He]; [left; reflexivity|apply H2, He].
    + destruct (handle_at hs k) as [j|] eqn:E.
      * specialize (IH (Some k)). destruct (other_of self hs es (Some k)) as [k'|].
        -- right. destruct IH as [H|(H1 & H2 & e & H3 & H4)].
           ++ injection H as <-. split; [exact Ne|]. split; [congruence|]. exists (q, k). split; [left; reflexivity|reflexivity].
           ++ split; [exact H1|]. split; [exact H2|]. exists e. split; [right; exact H3|exact H4].
        -- destruct IH as [H _]. discriminate.
      * specialize (IH acc). destruct (other_of self hs es acc) as [k'|].
        -- destruct IH as [H|(H1 & H2 & e & H3 & H4)]; [auto|]. right. split; [exact H1|]. split; [exact H2|]. exists e. split; [right; exact H3|exact H4].
        -- destruct IH as [H1 H2]. split; [exact H1|]. intros e [<-|He]; [right; exact E|apply H2, He].
Qed.

Lemma find_spec hs i me (at_from : bool) : hinv hs -> handle_at hs i = Some me ->
  let p := if at_from then j_from me else j_to me in
  match find_incident idx hs i at_from p with
  | (Some k, hs1) => hs1 = hs /\ degree p = 2%nat /\ p <> invalid_xy /\ k <> i /\ In k (touching p) /\ exists ot, handle_at hs k = Some ot
  | (None, hs1) => hinv hs1 /\ same_trees hs hs1 /\
      (p = invalid_xy \/ degree p <> 2%nat \/ forall k, In k (touching p) -> k = i \/ handle_at hs k = None)
  end.
Proof.
  intros Hi Em p. unfold find_incident. destruct (pt_eqb p invalid_xy) eqn:Ei.
  - apply pt_eqb_spec in Ei. split; [exact Hi|]. split; [apply same_trees_refl|]. auto.
  - apply pt_eqb_no in Ei. rewrite entries_length. destruct (Nat.eqb_spec (degree p) 2) as [Ed|Ed].
    + pose proof (other_of_spec i hs (entries_at p idx) None) as H. destruct (other_of i hs (entries_at p idx) None) as [k|].
      * destruct H as [H|(H1 & H2 & e & H3 & H4)]; [discriminate|]. split; [reflexivity|]. split; [exact Ed|]. split; [exact Ei|]. split; [exact H1|].
        apply entries_In in H3. destruct H3 as [_ H3]. rewrite H4 in H3. split; [exact H3|].
        destruct (handle_at hs k) as [ot|]; [eexists; reflexivity|congruence].
      * destruct H as [_ H]. split; [exact Hi|]. split; [apply same_trees_refl|]. right; right. intros k Hk.
        apply (H (p, k)). apply entries_In. auto.
    + destruct (burn_spec i at_from p (entries_at p idx) hs Ed Ei Hi) as [H1 H2]; [|auto].
      intros j Ej. rewrite Em in Ej. injection Ej as <-. reflexivity.
Qed.

(** ** settled handles *)
Definition tr (hs : handles) (k : nat) : option route := option_map (fun t => leaves t) (option_map j_tree (handle_at hs k)).
Definition closed_r (r : route) : Prop := start r = stop_at r.
Definition quiet (hs : handles) (i : nat) (p : pt) : Prop :=
  degree p = 2%nat -> forall r b rb, tr hs i = Some r -> b <> i -> tr hs b = Some rb -> end_of_route p rb -> closed_r rb \/ closed_r r.
Definition settled (hs : handles) (a : nat) : Prop :=
  forall ra p, tr hs a = Some ra -> end_of_route p ra -> quiet hs a p.
Lemma tr_some hs k j : handle_at hs k = Some j -> tr hs k = Some (rt j).
Proof. unfold tr. intros ->. reflexivity. Qed.
Lemma tr_inv hs k r : tr hs k = Some r -> exists j, handle_at hs k = Some j /\ r = rt j.
Proof. unfold tr. destruct (handle_at hs k) as [j|]; [|discriminate]. cbn [option_map]. intros H. injection H as <-. eauto. Qed.
Lemma tr_same hs hs' k : same_trees hs hs' -> tr hs' k = tr hs k.
Proof. intros [_ H]. unfold tr. rewrite H. reflexivity. Qed.
Lemma quiet_same hs hs' i p : same_trees hs hs' -> quiet hs i p -> quiet hs' i p.
Proof. intros H Q Hd r b rb. rewrite !(tr_same _ _ _ H). apply Q, Hd. Qed.
Lemma settled_same hs hs' i : same_trees hs hs' -> settled hs i -> settled hs' i.
Proof. intros H Q ra p. rewrite (tr_same _ _ _ H). intros E He. eapply quiet_same; [exact H|]. exact (Q ra p E He). Qed.

Definition jinv (i : nat) (hs : handles) : Prop :=
  hinv hs /\ (forall k, (i < k)%nat -> forall r, tr hs k = Some r -> r = [(k, false)]) /\ (forall a, (a < i)%nat -> settled hs a).
Lemma jinv_same i hs hs' : same_trees hs hs' -> hinv hs' -> jinv i hs -> jinv i hs'.
Proof.
  intros H Hi (_ & H2 & H3). split; [exact Hi|]. split.
  - intros k Hk r. rewrite (tr_same _ _ _ H). apply H2, Hk.
  - intros a Ha. eapply settled_same; [exact H|]. apply H3, Ha.
Qed.

Definition live (hs : handles) : nat := length (filter (fun h => match h with Some _ => true | None => false end) hs).
Lemma live_set_none hs k j : handle_at hs k = Some j -> S (live (set_handle hs k None)) = live hs.
Proof.
  unfold live, handle_at. revert k. induction hs as [|h hs IH]; intros [|k] E; cbn [nth set_handle filter] in *; try discriminate.
  - subst h. reflexivity.
  - specialize (IH _ E). destruct h; cbn [length]; lia.
Qed.
Lemma live_set_some hs k j j' : handle_at hs k = Some j -> live (set_handle hs k (Some j')) = live hs.
Proof.
  unfold live, handle_at. revert k. induction hs as [|h hs IH]; intros [|k] E; cbn [nth set_handle filter] in *; try discriminate.
  - subst h. reflexivity.
  - specialize (IH _ E). destruct h; cbn [length]; lia.
Qed.
Lemma live_le hs : (live hs <= length hs)%nat.
Proof. unfold live. induction hs as [|[h|] hs IH]; cbn [filter length]; lia. Qed.
Lemma live_same hs hs' : same_trees hs hs' -> live hs' = live hs.
Proof.
  intros [HL H]. unfold live. revert hs' HL H. induction hs as [|h hs IH]; intros [|h' hs'] HL H; try discriminate; [reflexivity|].
  cbn [filter]. pose proof (H O) as H0. cbn [handle_at nth] in H0. specialize (IH hs' ltac:(cbn [length] in HL; lia) (fun k => H (S k))).
  destruct h, h'; try discriminate; cbn [length]; lia.
Qed.

(** one end of a non-burned route *)
Lemma end_eq f p : end_is lns f p -> degree p = 2%nat -> f = p.
Proof. intros [H|[_ H]] Hd; [exact H|contradiction]. Qed.

(** joining *)
Lemma not_closed_other hs k ot p : hinv hs -> handle_at hs k = Some ot -> end_of_route p (rt ot) -> degree p = 2%nat ->
  j_from ot <> j_to ot -> ~ closed_r (rt ot).
Proof.
  intros (_ & _ & HO) E He Hd Hne Hc. destruct (HO _ _ E) as (_ & _ & H3 & H4 & _). unfold closed_r in Hc.
  assert (start (rt ot) = p) by (destruct He; congruence). assert (stop_at (rt ot) = p) by congruence.
  rewrite H in H3. rewrite H0 in H4. apply Hne. rewrite (end_eq _ _ H3 Hd), (end_eq _ _ H4 Hd). reflexivity.
Qed.
Lemma not_closed_me hs i k me ot p : hinv hs -> handle_at hs i = Some me -> handle_at hs k = Some ot -> i <> k ->
  end_of_route p (rt me) -> degree p = 2%nat -> In k (touching p) ->
  (j_from me <> j_to me \/ (2 <= length (rt me))%nat) -> ~ closed_r (rt me).
Proof.
  intros Hi Em Eo Hik He Hd Ht [Hne|Hl].
  - eapply not_closed_other; eassumption.
  - intros Hc. unfold closed_r in Hc. assert (start (rt me) = p) by (destruct He; congruence). assert (stop_at (rt me) = p) by congruence.
    pose proof (hinv_NoDup _ _ Hi) as HN. pose proof (cr_NoDup_at _ i HN) as HNi. rewrite Em in HNi. cbn [ids] in HNi.
    destruct (closed_touch _ p _ Hl HNi H H0) as (a & b & Hab & Ha & Hb & Hta & Htb).
    assert (Ha1 : In a (ids (handle_at hs i))) by (rewrite Em; exact Ha).
    assert (Hb1 : In b (ids (handle_at hs i))) by (rewrite Em; exact Hb).
    assert (Hk1 : In k (ids (handle_at hs k))) by (rewrite Eo; destruct Hi as (_ & _ & HO); apply (HO _ _ Eo)).
    apply (three_touch lns p a b k Hd); try (apply touching_In; split; [eapply hinv_lt; eassumption|assumption]); try assumption.
    + intros ->. exact (Hik (cr_unique hs i k k HN Ha1 Hk1)).
    + intros ->. exact (Hik (cr_unique hs i k k HN Hb1 Hk1)).
Qed.

Lemma join_step i hs k me ot p j' : jinv i hs -> handle_at hs i = Some me -> handle_at hs k = Some ot -> k <> i ->
  degree p = 2%nat -> ~ closed_r (rt me) -> ~ closed_r (rt ot) -> end_of_route p (rt me) -> end_of_route p (rt ot) ->
  Permutation (map fst (rt j')) (map fst (rt me) ++ map fst (rt ot)) ->
  good_route lns (rt j') -> (forall q, end_of_route q (rt j') -> end_of_route q (rt me) \/ end_of_route q (rt ot)) ->
  end_is lns (j_from j') (start (rt j')) -> end_is lns (j_to j') (stop_at (rt j')) ->
  (forall m rv, j_tree j' <> LLeaf m rv) ->
  let hs' := set_handle (set_handle hs k None) i (Some j') in
  jinv i hs' /\ handle_at hs' i = Some j' /\ S (live hs') = live hs /\
  (forall q, end_of_route q (rt me) -> quiet hs i q -> quiet hs' i q).
Proof.
  intros (Hi & HU & HS) Em Eo Hki Hd Hcm Hco Hpm Hpo HP HG HE Hf Ht Hl hs'.
  pose proof (at_lt _ _ _ Em) as Li. pose proof (at_lt _ _ _ Eo) as Lk.
  assert (Em1 : handle_at (set_handle hs k None) i = Some me) by (rewrite at_set_other by congruence; exact Em).
  assert (Ei : handle_at hs' i = Some j') by (apply at_set_same; rewrite set_length; exact Li).
  assert (Ek : handle_at hs' k = None) by (unfold hs'; rewrite at_set_other by exact Hki; apply at_set_same; exact Lk).
  assert (Eq : forall m, m <> i -> m <> k -> handle_at hs' m = handle_at hs m) by (intros m H1 H2; unfold hs'; rewrite !at_set_other by assumption; reflexivity).
  assert (Hi' : hinv hs').
  { destruct Hi as (HL & HPm & HO). split; [|split].
    - unfold hs'. rewrite !set_length. exact HL.
    - etransitivity; [|exact HPm].
      apply (Permutation_app_inv_l (map fst (rt me) ++ map fst (rt ot))).
      assert (A : Permutation (ids (handle_at (set_handle hs k None) i) ++ cr hs') (ids (Some j') ++ cr (set_handle hs k None))).
      { apply cr_set. rewrite set_length. exact Li. }
      assert (B : Permutation (ids (handle_at hs k) ++ cr (set_handle hs k None)) (ids None ++ cr hs)) by (apply cr_set; exact Lk).
      rewrite Em1 in A. rewrite Eo in B. cbn [ids] in A, B. cbn [app] in B.
      set (X := cr (set_handle hs k None)) in *. set (Y := cr hs') in *. set (W := cr hs) in *.
      set (M := map fst (rt me)) in *. set (O := map fst (rt ot)) in *. set (J := map fst (rt j')) in *.
      clearbody X Y W M O J.
      transitivity (O ++ (M ++ Y)); [perm|]. rewrite A, HP. transitivity ((M ++ O) ++ (O ++ X)); [perm|]. rewrite B. reflexivity.
    - intros m jm E. destruct (Nat.eq_dec m i) as [->|N1].
      + rewrite Ei in E. injection E as <-. split; [|split; [exact HG|split; [exact Hf|split; [exact Ht|]]]].
        * cbn [ids]. eapply Permutation_in; [symmetry; exact HP|]. apply in_or_app. left. apply (HO _ _ Em).
        * intros a rv E. destruct (Hl _ _ E).
      + destruct (Nat.eq_dec m k) as [->|N2]; [congruence|]. rewrite Eq in E by assumption. apply HO, E. }
  split; [|split; [exact Ei|split]].
  - split; [exact Hi'|]. split.
    + intros m Hm r E. apply tr_inv in E as (jm & E & ->). destruct (Nat.eq_dec m k) as [->|N2]; [congruence|].
      rewrite Eq in E by lia. eapply HU; [exact Hm|]. apply tr_some, E.
    + intros a Ha ra q E He Hdq r b rb E1 Hb E2 He2. rewrite E1 in E. injection E as ->.
      apply tr_inv in E1 as (ja & E1 & ->). destruct (Nat.eq_dec a k) as [->|Nak]; [congruence|]. rewrite Eq in E1 by lia.
      pose proof (fun r0 => HS a Ha _ q (tr_some _ _ _ E1) He Hdq r0 b) as Q.
      apply tr_inv in E2 as (jb & E2 & ->). destruct (Nat.eq_dec b i) as [->|Nbi].
      * rewrite Ei in E2. injection E2 as <-. right. apply HE in He2. destruct He2 as [He2|He2].
        -- destruct (Q _ _ (tr_some _ _ _ E1) Hb (tr_some _ _ _ Em) He2); [contradiction|assumption].
        -- pose proof (HS a Ha _ q (tr_some _ _ _ E1) He Hdq _ k _ (tr_some _ _ _ E1) ltac:(congruence) (tr_some _ _ _ Eo) He2) as [X|X]; [contradiction|assumption].
      * destruct (Nat.eq_dec b k) as [->|Nbk]; [congruence|]. rewrite Eq in E2 by assumption.
        apply (Q _ _ (tr_some _ _ _ E1) Hb (tr_some _ _ _ E2) He2).
  - unfold hs'. rewrite (live_set_some _ _ _ _ Em1). eapply live_set_none, Eo.
  - intros q Hq Q Hdq r b rb E1 Hb E2 He2. apply tr_inv in E2 as (jb & E2 & ->).
    destruct (Nat.eq_dec b k) as [->|Nbk]; [congruence|]. rewrite Eq in E2 by assumption.
    destruct (Q Hdq _ b _ (tr_some _ _ _ Em) Hb (tr_some _ _ _ E2) He2) as [X|X]; [left; exact X|contradiction].
Qed.

(** when the search at an end stops, nothing can be joined there *)
Lemma single_end k p : end_of_route p [(k, false)] -> touches p (nth k lns []).
Proof. intros H. apply (ori_touch lns (k, false)). exact H. Qed.
Lemma quiet_none i hs me p f : jinv i hs -> handle_at hs i = Some me -> end_of_route p (rt me) -> end_is lns f p ->
  (f = invalid_xy \/ degree f <> 2%nat \/ forall k, In k (touching f) -> k = i \/ handle_at hs k = None) -> quiet hs i p.
Proof.
  intros (Hi & HU & HS) Em Hp Hf H Hd r b rb E1 Hb E2 He. pose proof (end_eq _ _ Hf Hd) as ->.
  pose proof (route_end_valid lns Hok _ _ _ _ Hi Em Hp) as Hv. destruct H as [H|[H|H]]; [contradiction..|].
  apply tr_inv in E2 as (jb & E2 & ->). rewrite (tr_some _ _ _ Em) in E1. injection E1 as <-.
  destruct (Nat.lt_trichotomy b i) as [Hlt|[->|Hlt]]; [|congruence|].
  - destruct (HS b Hlt _ p (tr_some _ _ _ E2) He Hd _ i _ (tr_some _ _ _ E2) ltac:(congruence) (tr_some _ _ _ Em) Hp); auto.
  - exfalso. pose proof (HU b Hlt _ (tr_some _ _ _ E2)) as Er. rewrite Er in He. apply single_end in He.
    destruct (H b) as [X|X]; [|contradiction|congruence]. apply touching_In. split; [|exact He].
    apply (hinv_lt lns hs b); [exact Hi|]. rewrite E2. cbn [ids]. rewrite Er. left. reflexivity.
Qed.
Lemma quiet_blossom i hs me k ot p : jinv i hs -> handle_at hs i = Some me -> handle_at hs k = Some ot -> k <> i ->
  end_of_route p (rt me) -> degree p = 2%nat -> In k (touching p) -> j_from ot = j_to ot -> quiet hs i p.
Proof.
  intros (Hi & HU & HS) Em Eo Hki Hp Hd Hk Hbl _ r b rb E1 Hb E2 He.
  apply tr_inv in E2 as (jb & E2 & ->). rewrite (tr_some _ _ _ Em) in E1. injection E1 as <-.
  apply touching_In in Hk as [Hkn Hkt].
  destruct (Nat.lt_trichotomy b i) as [Hlt|[->|Hlt]]; [|congruence|].
  - destruct (HS b Hlt _ p (tr_some _ _ _ E2) He Hd _ i _ (tr_some _ _ _ E2) ltac:(congruence) (tr_some _ _ _ Em) Hp); auto.
  - pose proof (HU b Hlt _ (tr_some _ _ _ E2)) as Er. destruct (Nat.eq_dec b k) as [->|Nbk].
    + left. assert (jb = ot) by congruence. subst jb. pose proof (other_end lns _ _ _ _ _ p Hi Em Eo ltac:(congruence) Hp Hd Hkt) as Hoe.
      destruct Hi as (HL & HP & HO). destruct (HO _ _ Eo) as (_ & _ & H3 & H4 & _). unfold closed_r.
      assert (Hv : p <> invalid_xy) by (eapply ends_valid; eassumption).
      destruct Hoe as [Hoe|Hoe]; rewrite Hoe in *.
      * pose proof (end_eq _ _ H3 Hd) as X. rewrite <- Hbl, X in H4. destruct H4 as [H4|[H4 _]]; [exact H4|contradiction].
      * pose proof (end_eq _ _ H4 Hd) as X. rewrite Hbl, X in H3. destruct H3 as [H3|[H3 _]]; [symmetry; exact H3|contradiction].
    + exfalso. rewrite Er in He. apply single_end in He.
      destruct (end_touch _ _ _ (leaves_nonempty _) Hp) as (x & Hx & Htx).
      assert (Hx1 : In x (ids (handle_at hs i))) by (rewrite Em; exact Hx).
      pose proof Hi as (_ & _ & HO).
      assert (Hk1 : In k (ids (handle_at hs k))) by (rewrite Eo; apply (HO _ _ Eo)).
      assert (Hb1 : In b (ids (handle_at hs b))) by (rewrite E2; apply (HO _ _ E2)).
      pose proof (hinv_NoDup _ _ Hi) as HN.
      apply (three_touch lns p x k b Hd); try (apply touching_In; split; [eapply hinv_lt; eassumption|assumption]).
      * intros ->. exact (Hki (cr_unique hs k i k HN Hk1 Hx1)).
      * intros ->. exact (Hb (cr_unique hs b i b HN Hb1 Hx1)).
      * congruence.
Qed.

Definition keeps_going (me : jline) : Prop := j_from me <> j_to me \/ (2 <= length (rt me))%nat.

Lemma tr_at_none_eq hs k : handle_at hs k = None -> tr hs k = None.
Proof. unfold tr. intros ->. reflexivity. Qed.
Lemma same_at hs hs' i me : same_trees hs hs' -> handle_at hs i = Some me -> exists me', handle_at hs' i = Some me' /\ j_tree me' = j_tree me.
Proof.
  intros [_ H] E. specialize (H i). rewrite E in H. destruct (handle_at hs' i) as [me'|]; [|discriminate]. cbn [option_map] in H.
  injection H as H. eauto.
Qed.

Lemma join_from_spec i : forall fuel hs me, jinv i hs -> handle_at hs i = Some me -> keeps_going me -> (live hs < fuel)%nat ->
  exists hs' me', join_from fuel idx i hs = Ok hs' /\ jinv i hs' /\ length hs' = length hs /\ handle_at hs' i = Some me' /\ quiet hs' i (start (rt me')).
Proof.
  induction fuel as [|fuel IH]; intros hs me HJ Em HK Hf; [lia|]. cbn [join_from]. rewrite Em.
  pose proof HJ as (Hi & HU & HS). pose proof Hi as (_ & _ & HO). destruct (HO _ _ Em) as (Hmi & Hmg & Hmf & Hmt & _).
  pose proof (find_spec hs i me true Hi Em) as F. cbv zeta in F. cbv iota in F.
  destruct (find_incident idx hs i true (j_from me)) as [[k|] hs1].
  - destruct F as (-> & Hd & Hv & Hki & Hkt & ot & Eo). rewrite Eo.
    pose proof Hmf as Hmf'. destruct Hmf as [Ef|[Ef _]]; [|congruence].
    assert (Hpm : end_of_route (j_from me) (rt me)) by (left; symmetry; exact Ef).
    pose proof (proj1 (touching_In _ _ _) Hkt) as [_ Hkt'].
    destruct (pt_eqb (j_from ot) (j_to ot)) eqn:Eb.
    + apply pt_eqb_spec in Eb. exists hs, me. split; [reflexivity|]. split; [exact HJ|]. split; [reflexivity|]. split; [exact Em|].
      rewrite <- Ef. eapply quiet_blossom; eassumption.
    + apply pt_eqb_no in Eb.
      pose proof (other_end lns _ _ _ _ _ (j_from me) Hi Em Eo ltac:(congruence) Hpm Hd Hkt') as Hpo.
      pose proof (not_closed_other _ _ _ _ Hi Eo Hpo Hd Eb) as Hco.
      pose proof (not_closed_me _ _ _ _ _ _ Hi Em Eo ltac:(congruence) Hpm Hd Hkt HK) as Hcm.
      destruct (HO _ _ Eo) as (Hoi & Hog & Hof & Hot & _).
      pose proof (leaves_nonempty (j_tree ot)) as No. pose proof (leaves_nonempty (j_tree me)) as Nm.
      match goal with |- context [set_handle (set_handle hs k None) i (Some ?v)] => set (j' := v) end.
      assert (Hj : exists ro, rt j' = ro ++ rt me /\ ro <> [] /\ Permutation (map fst ro) (map fst (rt ot)) /\ good_route lns ro /\
                   stop_at ro = j_from me /\ (start ro = start (rt ot) \/ start ro = stop_at (rt ot)) /\
                   end_is lns (j_from j') (start ro) /\ j_to j' = j_to me /\ (forall m rv, j_tree j' <> LLeaf m rv)).
      { unfold j'. destruct (pt_eqb (j_from me) (j_to ot)) eqn:Ej; cbn [j_tree j_from j_to leaves].
        - apply pt_eqb_spec in Ej. exists (rt ot). repeat split; auto; [|discriminate].
          rewrite Ej. destruct Hot as [H|[H _]]; [symmetry; exact H|congruence].
        - apply pt_eqb_no in Ej. exists (rflip (rt ot)). rewrite leaves_flip. split; [reflexivity|].
          split; [intros X; apply No, rflip_nil, X|]. split; [apply rflip_ids|]. split; [apply good_rflip, Hog|].
          rewrite start_rflip, stop_rflip by exact No. split; [|split; [auto|split; [exact Hot|split; [reflexivity|discriminate]]]].
          destruct Hpo as [H|H]; [exact H|]. rewrite H in Hot. rewrite (end_eq _ _ Hot Hd) in Ej. congruence. }
      destruct Hj as (ro & Ero & Nr & Pro & Gro & Sro & Stro & Hjf & Hjt & Hjl).
      destruct (join_step i hs k me ot (j_from me) j' HJ Em Eo Hki Hd Hcm Hco Hpm Hpo) as (J1 & J2 & J3 & J4).
      * rewrite Ero, map_app, Pro. apply Permutation_app_comm.
      * rewrite Ero. apply good_app; [exact Nr|exact Nm|]. rewrite Sro, <- Ef. auto.
      * intros q. rewrite Ero. unfold ProofAggregate.end_of_route. rewrite start_app, stop_app by assumption.
        intros [Hq|Hq]; [|left; right; exact Hq]. right. destruct Stro as [X|X]; [left|right]; congruence.
      * rewrite Ero, start_app by exact Nr. exact Hjf.
      * rewrite Hjt, Ero, stop_app by exact Nm. exact Hmt.
      * exact Hjl.
      * match goal with |- context [join_from fuel idx i ?h] => set (hs' := h) in * end.
        destruct (IH hs' j' J1 J2) as (hs2 & me2 & R1 & R2 & R3 & R4 & R5).
        -- right. rewrite Ero, app_length. destruct ro; [congruence|]. destruct (rt me); [congruence|]. cbn [length]. lia.
        -- lia.
        -- exists hs2, me2. split; [exact R1|]. split; [exact R2|]. split; [rewrite R3; unfold hs'; rewrite !set_length; reflexivity|]. auto.
  - destruct F as (F1 & F2 & F3). destruct (same_at _ _ _ _ F2 Em) as (me' & Em' & Et').
    exists hs1, me'. split; [reflexivity|]. split; [eapply jinv_same; eassumption|]. split; [apply F2|]. split; [exact Em'|].
    rewrite Et'. eapply quiet_same; [exact F2|]. eapply quiet_none; try eassumption. left. reflexivity.
Qed.

Lemma join_to_spec i : forall fuel hs me, jinv i hs -> handle_at hs i = Some me -> keeps_going me -> (live hs < fuel)%nat ->
  quiet hs i (start (rt me)) ->
  exists hs' me', join_to fuel idx i hs = Ok hs' /\ jinv i hs' /\ length hs' = length hs /\ handle_at hs' i = Some me' /\
    quiet hs' i (start (rt me')) /\ quiet hs' i (stop_at (rt me')).
Proof.
  induction fuel as [|fuel IH]; intros hs me HJ Em HK Hf HQ; [lia|]. cbn [join_to]. rewrite Em.
  pose proof HJ as (Hi & HU & HS). pose proof Hi as (_ & _ & HO). destruct (HO _ _ Em) as (Hmi & Hmg & Hmf & Hmt & _).
  pose proof (find_spec hs i me false Hi Em) as F. cbv zeta in F. cbv iota in F.
  destruct (find_incident idx hs i false (j_to me)) as [[k|] hs1].
  - destruct F as (-> & Hd & Hv & Hki & Hkt & ot & Eo). rewrite Eo.
    pose proof Hmt as Hmt'. destruct Hmt as [Ef|[Ef _]]; [|congruence].
    assert (Hpm : end_of_route (j_to me) (rt me)) by (right; symmetry; exact Ef).
    pose proof (proj1 (touching_In _ _ _) Hkt) as [_ Hkt'].
    destruct (pt_eqb (j_from ot) (j_to ot)) eqn:Eb.
    + apply pt_eqb_spec in Eb. exists hs, me. split; [reflexivity|]. split; [exact HJ|]. split; [reflexivity|]. split; [exact Em|].
      split; [exact HQ|]. rewrite <- Ef. eapply quiet_blossom; eassumption.
    + apply pt_eqb_no in Eb.
      pose proof (other_end lns _ _ _ _ _ (j_to me) Hi Em Eo ltac:(congruence) Hpm Hd Hkt') as Hpo.
      pose proof (not_closed_other _ _ _ _ Hi Eo Hpo Hd Eb) as Hco.
      pose proof (not_closed_me _ _ _ _ _ _ Hi Em Eo ltac:(congruence) Hpm Hd Hkt HK) as Hcm.
      destruct (HO _ _ Eo) as (Hoi & Hog & Hof & Hot & _).
      pose proof (leaves_nonempty (j_tree ot)) as No. pose proof (leaves_nonempty (j_tree me)) as Nm.
      match goal with |- context [set_handle (set_handle hs k None) i (Some ?v)] => set (j' := v) end.
      assert (Hj : exists ro, rt j' = rt me ++ ro /\ ro <> [] /\ Permutation (map fst ro) (map fst (rt ot)) /\ good_route lns ro /\
                   start ro = j_to me /\ (stop_at ro = start (rt ot) \/ stop_at ro = stop_at (rt ot)) /\
                   end_is lns (j_to j') (stop_at ro) /\ j_from j' = j_from me /\ (forall m rv, j_tree j' <> LLeaf m rv)).
      { unfold j'. destruct (pt_eqb (j_to me) (j_from ot)) eqn:Ej; cbn [j_tree j_from j_to leaves].
        - apply pt_eqb_spec in Ej. exists (rt ot). repeat split; auto; [|discriminate].
          rewrite Ej. destruct Hof as [H|[H _]]; [symmetry; exact H|congruence].
        - apply pt_eqb_no in Ej. exists (rflip (rt ot)). rewrite leaves_flip. split; [reflexivity|].
          split; [intros X; apply No, rflip_nil, X|]. split; [apply rflip_ids|]. split; [apply good_rflip, Hog|].
          rewrite start_rflip, stop_rflip by exact No. split; [|split; [auto|split; [exact Hof|split; [reflexivity|discriminate]]]].
          destruct Hpo as [H|H]; [|exact H]. rewrite H in Hof. rewrite (end_eq _ _ Hof Hd) in Ej. congruence. }
      destruct Hj as (ro & Ero & Nr & Pro & Gro & Sro & Stro & Hjf & Hjt & Hjl).
      destruct (join_step i hs k me ot (j_to me) j' HJ Em Eo Hki Hd Hcm Hco Hpm Hpo) as (J1 & J2 & J3 & J4).
      * rewrite Ero, map_app, Pro. reflexivity.
      * rewrite Ero. apply good_app; [exact Nm|exact Nr|]. rewrite Sro, <- Ef. auto.
      * intros q. rewrite Ero. unfold ProofAggregate.end_of_route. rewrite start_app, stop_app by assumption.
        intros [Hq|Hq]; [left; left; exact Hq|]. right. destruct Stro as [X|X]; [left|right]; congruence.
      * rewrite Hjt, Ero, start_app by exact Nm. exact Hmf.
      * rewrite Ero, stop_app by exact Nr. exact Hjf.
      * exact Hjl.
      * match goal with |- context [join_to fuel idx i ?h] => set (hs' := h) in * end.
        destruct (IH hs' j' J1 J2) as (hs2 & me2 & R1 & R2 & R3 & R4 & R5).
        -- right. rewrite Ero, app_length. destruct ro; [congruence|]. destruct (rt me); [congruence|]. cbn [length]. lia.
        -- lia.
        -- rewrite Ero, start_app by exact Nm. apply J4; [left; reflexivity|exact HQ].
        -- exists hs2, me2. split; [exact R1|]. split; [exact R2|]. split; [rewrite R3; unfold hs'; rewrite !set_length; reflexivity|]. auto.
  - destruct F as (F1 & F2 & F3). destruct (same_at _ _ _ _ F2 Em) as (me' & Em' & Et').
    exists hs1, me'. split; [reflexivity|]. split; [eapply jinv_same; eassumption|]. split; [apply F2|]. split; [exact Em'|].
    rewrite Et'. split; (eapply quiet_same; [exact F2|]); [exact HQ|]. eapply quiet_none; try eassumption. right. reflexivity.
Qed.

Lemma settled_equal hs i me : hinv hs -> handle_at hs i = Some me -> j_from me = j_to me -> settled hs i.
Proof.
  intros Hi Em E ra p Er Hp Hd r b rb Er' _ _ _. right. rewrite (tr_some _ _ _ Em) in Er, Er'. injection Er as <-. injection Er' as <-.
  pose proof (route_end_valid lns Hok _ _ _ _ Hi Em Hp) as Hv.
  destruct Hi as (_ & _ & HO). destruct (HO _ _ Em) as (_ & _ & H3 & H4 & _). unfold closed_r.
  destruct Hp as [Hp|Hp]; rewrite Hp in *.
  - pose proof (end_eq _ _ H3 Hd) as X. rewrite <- E, X in H4. destruct H4 as [H4|[H4 _]]; [exact H4|contradiction].
  - pose proof (end_eq _ _ H4 Hd) as X. rewrite E, X in H3. destruct H3 as [H3|[H3 _]]; [symmetry; exact H3|contradiction].
Qed.
Lemma jinv_next i hs : jinv i hs -> settled hs i -> jinv (S i) hs.
Proof.
  intros (Hi & HU & HS) Hs. split; [exact Hi|]. split; [intros k Hk; apply HU; lia|].
  intros a Ha. destruct (Nat.eq_dec a i) as [->|Ne]; [exact Hs|apply HS; lia].
Qed.

Lemma join_one_spec i hs : jinv i hs -> exists hs', join_one idx i hs = Ok hs' /\ jinv (S i) hs' /\ length hs' = length hs.
Proof.
  intros HJ. unfold join_one. destruct (handle_at hs i) as [me|] eqn:Em.
  - destruct (pt_eqb (j_from me) (j_to me)) eqn:E.
    + apply pt_eqb_spec in E. exists hs. split; [reflexivity|]. split; [|reflexivity]. apply jinv_next; [exact HJ|]. eapply settled_equal; [apply HJ|eassumption..].
    + apply pt_eqb_no in E. destruct (join_from_spec i (S (length hs)) hs me HJ Em (or_introl E)) as (hs1 & me1 & R1 & R2 & R3 & R4 & R5); [pose proof (live_le hs); lia|].
      rewrite R1. cbn [bind]. rewrite R4. destruct (pt_eqb (j_from me1) (j_to me1)) eqn:E1.
      * apply pt_eqb_spec in E1. exists hs1. split; [reflexivity|]. split; [|exact R3]. apply jinv_next; [exact R2|]. eapply settled_equal; [apply R2|eassumption..].
      * apply pt_eqb_no in E1. destruct (join_to_spec i (S (length hs1)) hs1 me1 R2 R4 (or_introl E1)) as (hs2 & me2 & T1 & T2 & T3 & T4 & T5 & T6); [pose proof (live_le hs1); lia|exact R5|].
        exists hs2. split; [exact T1|]. split; [|congruence]. apply jinv_next; [exact T2|].
        intros ra p Er Hp. rewrite (tr_some _ _ _ T4) in Er. injection Er as <-. destruct Hp as [<-|<-]; assumption.
  - exists hs. split; [reflexivity|]. split; [|reflexivity]. apply jinv_next; [exact HJ|]. intros ra p Er. rewrite (tr_at_none_eq _ _ Em) in Er. discriminate.
Qed.
Lemma join_each_spec m : forall i hs, jinv i hs -> exists hs', join_each idx (seq i m) hs = Ok hs' /\ jinv (i + m) hs' /\ length hs' = length hs.
Proof.
  induction m as [|m IH]; intros i hs HJ; cbn [seq join_each].
  - exists hs. rewrite Nat.add_0_r. auto.
  - destruct (join_one_spec i hs HJ) as (hs1 & R1 & R2 & R3). rewrite R1. cbn [bind].
    destruct (IH (S i) hs1 R2) as (hs2 & S1 & S2 & S3). exists hs2. split; [exact S1|]. split; [|congruence].
    replace (i + S m)%nat with (S i + m)%nat by lia. exact S2.
Qed.
End Join.
