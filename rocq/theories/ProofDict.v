(** Proofs for layer names and the shared metadata dictionary. *)
From Coq Require Import Permutation Sorting.Sorted.
From Verif Require Import Base BaseProof ModelTile ModelCodec ModelGeom ModelFeature SpecGeom SpecFeature ModelDict SpecDict ProofCodec ProofFeature ProofBqQuery.
Open Scope N_scope.

(** ** the orders *)
Lemma bytes_ltb_irrefl a : bytes_ltb a a = false.
Proof. induction a as [|x a IH]; cbn [bytes_ltb]; [reflexivity|]. now rewrite N.ltb_irrefl. Qed.
Lemma bytes_ltb_trans : forall a b c, bytes_ltb a b = true -> bytes_ltb b c = true -> bytes_ltb a c = true.
Proof.
  induction a as [|x a IH]; intros [|y b] [|z c]; cbn [bytes_ltb]; try discriminate; try reflexivity.
  destruct (N.ltb_spec x y), (N.ltb_spec y z), (N.ltb_spec x z); try reflexivity; try lia;
  destruct (N.ltb_spec y x), (N.ltb_spec z y), (N.ltb_spec z x); try discriminate; try lia; eauto.
Qed.
Lemma bytes_ltb_total : forall a b, bytes_ltb a b = false -> bytes_ltb b a = false -> a = b.
Proof.
  induction a as [|x a IH]; intros [|y b]; cbn [bytes_ltb]; try discriminate; try reflexivity.
  destruct (N.ltb_spec x y), (N.ltb_spec y x); try discriminate; try lia.
  intros. f_equal; [lia | auto].
Qed.

Lemma meta_eqb_eq a b : meta_eqb a b = true <-> a = b.
Proof.
  unfold meta_eqb. rewrite andb_true_iff, !bytes_eqb_eq. destruct a, b. cbn [fst snd].
  split; [intros [-> ->]; reflexivity | intros [= -> ->]; auto].
Qed.
Lemma meta_eqb_refl a : meta_eqb a a = true.
Proof. now apply meta_eqb_eq. Qed.
Lemma meta_ltb_irrefl a : meta_ltb a a = false.
Proof. unfold meta_ltb. now rewrite !bytes_ltb_irrefl. Qed.
Lemma bytes_ltb_asym a b : bytes_ltb a b = true -> bytes_ltb b a = false.
Proof.
  intros H. destruct (bytes_ltb b a) eqn:E; [|reflexivity].
  pose proof (bytes_ltb_trans _ _ _ H E) as H1. now rewrite bytes_ltb_irrefl in H1.
Qed.
Lemma meta_ltb_spec a b : meta_ltb a b = true <->
  bytes_ltb (fst a) (fst b) = true \/ (fst a = fst b /\ bytes_ltb (snd a) (snd b) = true).
Proof.
  unfold meta_ltb. rewrite orb_true_iff, andb_true_iff, negb_true_iff. split.
  - intros [H|[H1 H2]]; [now left|]. destruct (bytes_ltb (fst a) (fst b)) eqn:E; [now left|].
    right. split; [now apply bytes_ltb_total | assumption].
  - intros [H|[H1 H2]]; [now left|]. right. rewrite H1, bytes_ltb_irrefl. auto.
Qed.
Lemma meta_ltb_trans a b c : meta_ltb a b = true -> meta_ltb b c = true -> meta_ltb a c = true.
Proof.
  rewrite !meta_ltb_spec. intros [H1|[H1 H2]] [H3|[H3 H4]].
  - left. eapply bytes_ltb_trans; eauto.
  - left. congruence.
  - left. congruence.
  - right. split; [congruence|]. eapply bytes_ltb_trans; eauto.
Qed.
Lemma meta_ltb_total a b : meta_ltb a b = false -> meta_ltb b a = false -> a = b.
Proof.
  intros H1 H2. destruct (bytes_ltb (fst a) (fst b)) eqn:E1.
  { unfold meta_ltb in H1. now rewrite E1 in H1. }
  destruct (bytes_ltb (fst b) (fst a)) eqn:E2.
  { unfold meta_ltb in H2. now rewrite E2 in H2. }
  unfold meta_ltb in *. rewrite E1, E2 in *. cbn [orb negb andb] in *.
  destruct a, b. cbn [fst snd] in *. f_equal; now apply bytes_ltb_total.
Qed.
Lemma meta_ltb_asym a b : meta_ltb a b = true -> meta_ltb b a = false.
Proof.
  intros H. destruct (meta_ltb b a) eqn:E; [|reflexivity].
  pose proof (meta_ltb_trans _ _ _ H E) as H1. now rewrite meta_ltb_irrefl in H1.
Qed.
Definition mlt (a b : meta) : Prop := meta_ltb a b = true.
Definition mle (a b : meta) : Prop := meta_ltb b a = false.
Lemma mle_lt_eq a b : mle a b <-> mlt a b \/ a = b.
Proof.
  unfold mle, mlt. split.
  - intros H. destruct (meta_ltb a b) eqn:E; [now left|right; now apply meta_ltb_total].
  - intros [H|<-]; [now apply meta_ltb_asym | apply meta_ltb_irrefl].
Qed.
Lemma mle_trans a b c : mle a b -> mle b c -> mle a c.
Proof.
  rewrite !mle_lt_eq. intros [H1| ->] [H2| ->]; auto. left. exact (meta_ltb_trans _ _ _ H1 H2).
Qed.
Lemma mlt_mle_trans a b c : mlt a b -> mle b c -> mlt a c.
Proof. rewrite mle_lt_eq. intros H1 [H2| <-]; auto. exact (meta_ltb_trans _ _ _ H1 H2). Qed.

(** ** totals *)
Definition tot (m : meta) (c : counts) : N :=
  fold_right (fun p a => if meta_dec (fst p) m then snd p + a else a) 0 c.
Lemma tot_app m a b : tot m (a ++ b) = tot m a + tot m b.
Proof. induction a as [|x a IH]; cbn [app tot fold_right]; [reflexivity|]. fold (tot m (a ++ b)). rewrite IH. unfold tot. destruct (meta_dec _ _); lia. Qed.
Lemma tot_perm m a b : Permutation a b -> tot m a = tot m b.
Proof.
  induction 1 as [|x a b P IH|x y a|a b c P1 IH1 P2 IH2]; cbn [tot fold_right]; try reflexivity.
  - unfold tot in IH. rewrite IH. reflexivity.
  - destruct (meta_dec _ _), (meta_dec _ _); lia.
  - congruence.
Qed.
Lemma tot_cons m p c : tot m (p :: c) = (if meta_dec (fst p) m then snd p else 0) + tot m c.
Proof. unfold tot. cbn [fold_right]. destruct (meta_dec _ _); lia. Qed.
Lemma tot_notin m c : ~ In m (map fst c) -> tot m c = 0.
Proof.
  induction c as [|p c IH]; intros H; [reflexivity|]. rewrite tot_cons. cbn [map] in H.
  destruct (meta_dec (fst p) m) as [E|_]; [destruct H; now left|]. rewrite IH; [lia|]. intros H'. apply H. now right.
Qed.
Lemma times_cons m x l : times m (x :: l) = (if meta_dec x m then 1 else 0) + times m l.
Proof. unfold times. cbn [count_occ]. destruct (meta_dec x m); lia. Qed.
Lemma times_app m a b : times m (a ++ b) = times m a + times m b.
Proof. unfold times. rewrite count_occ_app. lia. Qed.
Lemma times_perm m a b : Permutation a b -> times m a = times m b.
Proof. unfold times. intros H. f_equal. revert m. now apply Permutation_count_occ. Qed.
Lemma times_le m l : times m l <= N.of_nat (length l).
Proof. induction l as [|x l IH]; [unfold times; cbn; lia|]. rewrite times_cons. cbn [length]. destruct (meta_dec x m); lia. Qed.

Definition strict (c : counts) : Prop := StronglySorted (fun a b => mlt (fst a) (fst b)) c.
Definition posc (c : counts) : Prop := Forall (fun p => 0 < snd p) c.

Lemma count_runs_keys l : forall m, In m (map fst (count_runs l)) -> In m l.
Proof.
  induction l as [|x l IH]; intros m; cbn [count_runs]; [auto|].
  destruct (count_runs l) as [|[m' n] r].
  - cbn. tauto.
  - destruct (meta_eqb x m') eqn:E.
    + apply meta_eqb_eq in E. subst m'. cbn [map fst In]. intros [->|H]; [now left|right; apply IH; now right].
    + cbn [map fst In]. intros [->|H]; [now left|right; apply IH; cbn [map fst In]; tauto].
Qed.
Lemma count_runs_spec l : StronglySorted mle l ->
  strict (count_runs l) /\ posc (count_runs l) /\ forall m, tot m (count_runs l) = times m l.
Proof.
  induction 1 as [|x l S IH F]; cbn [count_runs].
  - split; [constructor|]. split; [constructor|reflexivity].
  - destruct IH as (I1 & I2 & I3). pose proof (count_runs_keys l) as K.
    destruct (count_runs l) as [|[m' n] r].
    + split; [repeat constructor|]. split; [repeat constructor|]. intros m. rewrite tot_cons, times_cons. cbn [fst snd]. now rewrite <- I3.
    + apply StronglySorted_inv in I1 as [I1 I1']. apply Forall_inv in I2 as I2'. apply Forall_inv_tail in I2. cbn [snd] in I2'.
      destruct (meta_eqb x m') eqn:E.
      * apply meta_eqb_eq in E. subst m'. split; [now constructor|]. split; [constructor; [cbn [snd]; lia|assumption]|].
        intros m. specialize (I3 m). rewrite tot_cons, times_cons in *. cbn [fst snd] in *. destruct (meta_dec x m); lia.
      * assert (Hlt : mlt x m').
        { rewrite Forall_forall in F. assert (H : mle x m') by (apply F, K; now left). apply mle_lt_eq in H as [H| ->]; [assumption|].
          now rewrite meta_eqb_refl in E. }
        split.
        { constructor; [now constructor|]. constructor; [assumption|].
          eapply Forall_impl; [|exact I1']. intros p Hp. cbn [fst] in *. exact (meta_ltb_trans _ _ _ Hlt Hp). }
        split; [constructor; [cbn [snd]; lia|now constructor]|].
        intros m. specialize (I3 m). rewrite (tot_cons m (x, 1)), times_cons in *. cbn [fst snd] in *. lia.
Qed.

(** ** merging *)
Lemma merge_nil_l b : merge_counts [] b = b.
Proof. now destruct b. Qed.
Lemma merge_nil_r a : merge_counts a [] = a.
Proof. now destruct a. Qed.
Lemma merge_cons x a y b : merge_counts (x :: a) (y :: b) =
  if meta_ltb (fst y) (fst x) then y :: merge_counts (x :: a) b else x :: merge_counts a (y :: b).
Proof. reflexivity. Qed.
Lemma merge_perm : forall a b, Permutation (merge_counts a b) (a ++ b).
Proof.
  induction a as [|x a IHa]; intros b; [now rewrite merge_nil_l|].
  induction b as [|y b IHb]; [rewrite merge_nil_r, app_nil_r; reflexivity|].
  rewrite merge_cons. destruct (meta_ltb (fst y) (fst x)).
  - rewrite IHb. apply Permutation_middle.
  - cbn [app]. constructor. apply IHa.
Qed.
Definition weak (c : counts) : Prop := StronglySorted (fun a b => mle (fst a) (fst b)) c.
Lemma merge_sorted : forall a b, weak a -> weak b -> weak (merge_counts a b).
Proof.
  induction a as [|x a IHa]; intros b Ha Hb; [now rewrite merge_nil_l|].
  induction b as [|y b IHb]; [now rewrite merge_nil_r|].
  rewrite merge_cons. pose proof Ha as Ha'. pose proof Hb as Hb'.
  apply StronglySorted_inv in Ha' as [A1 A2]. apply StronglySorted_inv in Hb' as [B1 B2].
  destruct (meta_ltb (fst y) (fst x)) eqn:E.
  - constructor; [now apply IHb|]. assert (H : Forall (fun p => mle (fst y) (fst p)) ((x :: a) ++ b)).
    { apply Forall_app. split; [|assumption]. assert (Hyx : mle (fst y) (fst x)) by (apply mle_lt_eq; now left).
      constructor; [assumption|]. eapply Forall_impl; [|exact A2]. intros p Hp. exact (mle_trans _ _ _ Hyx Hp). }
    eapply Permutation_Forall; [|exact H]. symmetry. apply merge_perm.
  - constructor; [now apply IHa|]. assert (H : Forall (fun p => mle (fst x) (fst p)) (a ++ y :: b)).
    { apply Forall_app. split; [assumption|]. constructor; [exact E|]. eapply Forall_impl; [|exact B2].
      intros p Hp. exact (mle_trans _ _ _ E Hp). }
    eapply Permutation_Forall; [|exact H]. symmetry. apply merge_perm.
Qed.
Lemma strict_weak c : strict c -> weak c.
Proof.
  induction 1 as [|x c S IH F]; constructor; [assumption|]. eapply Forall_impl; [|exact F].
  intros p Hp. apply mle_lt_eq. now left.
Qed.
Lemma strict_nodup c : strict c -> NoDup (map fst c).
Proof.
  induction 1 as [|x c S IH F]; cbn [map]; constructor; [|assumption].
  intros H. apply in_map_iff in H as (p & E & Hp). rewrite Forall_forall in F. specialize (F p Hp).
  unfold mlt in F. rewrite E in F. now rewrite meta_ltb_irrefl in F.
Qed.

Lemma run_of_spec m : forall l a b, run_of m l = (a, b) ->
  l = a ++ b /\ Forall (fun p => fst p = m) a /\ match b with [] => True | p :: _ => fst p <> m end.
Proof.
  induction l as [|x l IH]; intros a b H; cbn [run_of] in H.
  - injection H as <- <-. auto.
  - destruct (meta_eqb m (fst x)) eqn:E.
    + destruct (run_of m l) as [a' b'] eqn:R. injection H as <- <-.
      destruct (IH _ _ eq_refl) as (-> & I2 & I3). apply meta_eqb_eq in E. split; [reflexivity|]. split; [now constructor|assumption].
    + injection H as <- <-. split; [reflexivity|]. split; [constructor|]. intros Em. rewrite Em, meta_eqb_refl in E. discriminate.
Qed.
Definition knum (m : meta) (c : counts) : nat := count_occ meta_dec (map fst c) m.
Lemma knum_run m a : Forall (fun p => fst p = m) a -> knum m a = length a.
Proof.
  unfold knum. induction 1 as [|p a E F IH]; cbn [map count_occ length]; [reflexivity|].
  rewrite E. destruct (meta_dec m m); [|easy]. now rewrite IH.
Qed.
Lemma knum_app m a b : knum m (a ++ b) = (knum m a + knum m b)%nat.
Proof. unfold knum. now rewrite map_app, count_occ_app. Qed.
Lemma ss_app_r {A} (R : A -> A -> Prop) a b : StronglySorted R (a ++ b) -> StronglySorted R b.
Proof. induction a as [|x a IH]; cbn [app]; [auto|]. intros H. apply StronglySorted_inv in H as [H _]. auto. Qed.

Definition nonzero (p : meta * N) : bool := negb (snd p =? 0).
Lemma join_spec : forall fuel l, (length l < fuel)%nat -> weak l -> posc l ->
  (forall m, (knum m l <= 2)%nat) -> (forall m, tot m l < 2 ^ 64) ->
  exists j, join_equal fuel l = Ok j /\ strict (filter nonzero j) /\ posc (filter nonzero j) /\
    (forall m, tot m (filter nonzero j) = tot m l) /\ (forall m, In m (map fst j) -> In m (map fst l)).
Proof.
  induction fuel as [|fuel IH]; intros l Hf Hw Hp Hk Ht; [lia|]. cbn [join_equal].
  destruct l as [|[m n] l']. { exists []. repeat split; try constructor; auto. }
  destruct (run_of m l') as [run rest] eqn:R. destruct (run_of_spec _ _ _ _ R) as (-> & R2 & R3).
  apply StronglySorted_inv in Hw as [W1 W2]. apply Forall_inv in Hp as Hp1. apply Forall_inv_tail in Hp as Hp2.
  assert (W3 : weak rest) by (now apply ss_app_r in W1).
  assert (Gt : Forall (fun p => mlt m (fst p)) rest).
  { assert (Hm : Forall (fun p => mle m (fst p)) rest) by (apply Forall_app in W2; tauto).
    destruct rest as [|p rest]; [constructor|]. apply StronglySorted_inv in W3 as [_ W3].
    assert (Hlt : mlt m (fst p)) by (apply Forall_inv in Hm; apply mle_lt_eq in Hm as [Hm|Hm]; congruence).
    constructor; [assumption|]. eapply Forall_impl; [|exact W3]. intros q Hq. cbn beta in Hq. exact (mlt_mle_trans _ _ _ Hlt Hq). }
  cbn [length] in Hf. rewrite app_length in Hf.
  destruct (IH rest) as (j & J1 & J2 & J3 & J4 & J5).
  - lia.
  - assumption.
  - apply Forall_app in Hp2. tauto.
  - intros k. specialize (Hk k). unfold knum in *. cbn [map count_occ fst] in Hk. rewrite map_app, count_occ_app in Hk. destruct (meta_dec m k); lia.
  - intros k. specialize (Ht k). rewrite tot_cons, tot_app in Ht. lia.
  - rewrite J1. cbn [bind].
    assert (Nin : ~ In m (map fst rest)).
    { intros H. apply in_map_iff in H as (p & E & Hp'). rewrite Forall_forall in Gt. specialize (Gt p Hp'). rewrite E in Gt.
      unfold mlt in Gt. now rewrite meta_ltb_irrefl in Gt. }
    assert (GtJ : Forall (fun p => mlt m (fst p)) (filter nonzero j)).
    { apply Forall_forall. intros p Hp'. apply filter_In in Hp' as [Hp' _]. rewrite Forall_forall in Gt.
      assert (H : In (fst p) (map fst rest)) by (apply J5, in_map; assumption). apply in_map_iff in H as (q & E & Hq).
      rewrite <- E. now apply Gt. }
    specialize (Hk m). rewrite <- (app_nil_l run) in Hk at 1. unfold knum in Hk. cbn [map count_occ fst app] in Hk.
    destruct (meta_dec m m) as [_|Hm]; [|easy]. rewrite map_app, count_occ_app in Hk. fold (knum m run) in Hk.
    rewrite knum_run in Hk by assumption.
    destruct run as [|[m' n'] run'].
    + exists ((m, n) :: j). split; [reflexivity|]. cbn [snd] in Hp1.
      assert (Fz : filter nonzero ((m, n) :: j) = (m, n) :: filter nonzero j)
        by (cbn [filter]; unfold nonzero at 1; cbn [snd]; replace (n =? 0) with false by lia; reflexivity).
      rewrite Fz.
      split; [constructor; assumption|]. split; [constructor; [assumption|assumption]|]. split.
      * intros k. rewrite !tot_cons. cbn [app]. now rewrite J4.
      * intros k. cbn [map fst In app]. intros [->|H]; auto.
    + destruct run' as [|? ?]; [|cbn [length] in Hk; lia]. apply Forall_inv in R2. cbn [fst] in R2. subst m'.
      exists ((m, (n + n') mod 2 ^ 64) :: (m, 0) :: j). split; [reflexivity|].
      assert (Hn : n + n' < 2 ^ 64).
      { specialize (Ht m). rewrite tot_cons in Ht. cbn [app] in Ht. rewrite tot_cons in Ht. cbn [fst snd] in Ht.
        destruct (meta_dec m m); [|easy]. lia. }
      rewrite N.mod_small by assumption. cbn [snd] in Hp1.
      assert (Fz : filter nonzero ((m, n + n') :: (m, 0) :: j) = (m, n + n') :: filter nonzero j)
        by (cbn [filter]; unfold nonzero at 1 2; cbn [snd]; replace (n + n' =? 0) with false by lia; reflexivity).
      rewrite Fz.
      split; [constructor; assumption|]. split; [constructor; [cbn [snd]; lia|assumption]|]. split.
      * intros k. rewrite !tot_cons. cbn [app]. rewrite tot_cons, J4. cbn [fst snd]. destruct (meta_dec m k); lia.
      * intros k. cbn [map fst In app]. intros [->|[->|H]]; auto.
Qed.

Lemma knum_strict m c : strict c -> (knum m c <= 1)%nat.
Proof. intros H. apply strict_nodup in H. unfold knum. rewrite (NoDup_count_occ meta_dec) in H. apply H. Qed.

Lemma flush_spec srt c buf : sorts meta_ltb srt -> strict c -> posc c ->
  (forall m, tot m c + times m buf < 2 ^ 64) ->
  exists c', flush_buf srt c buf = Ok c' /\ strict c' /\ posc c' /\ forall m, tot m c' = tot m c + times m buf.
Proof.
  intros Hs Hc Hp Hb. unfold flush_buf. destruct (Hs buf) as [P Srt].
  destruct (count_runs_spec (srt buf) Srt) as (R1 & R2 & R3).
  set (bc := count_runs (srt buf)) in *.
  assert (T : forall m, tot m (merge_counts c bc) = tot m c + times m buf).
  { intros m. rewrite (tot_perm m _ _ (merge_perm c bc)), tot_app, R3. now rewrite (times_perm m _ _ P). }
  destruct (join_spec (S (length (merge_counts c bc))) (merge_counts c bc)) as (j & J1 & J2 & J3 & J4 & J5).
  - lia.
  - apply merge_sorted; now apply strict_weak.
  - eapply Permutation_Forall; [symmetry; apply merge_perm|]. apply Forall_app. auto.
  - intros m. unfold knum. erewrite (proj1 (Permutation_count_occ meta_dec _ _)); [|apply Permutation_map, merge_perm].
    fold (knum m (c ++ bc)). rewrite knum_app. pose proof (knum_strict m c Hc). pose proof (knum_strict m bc R1). lia.
  - intros m. rewrite T. apply Hb.
  - rewrite J1. cbn [bind]. eexists. split; [reflexivity|]. split; [assumption|]. split; [assumption|].
    intros m. unfold nonzero in J4. now rewrite J4, T.
Qed.

Lemma smb_inv srt : sorts meta_ltb srt -> forall seen s, smb_run srt seen s -> N.of_nat (length seen) < 2 ^ 64 ->
  strict (s_counts s) /\ posc (s_counts s) /\
  forall m, tot m (s_counts s) + times m (concat (s_bufs s)) + times m (s_queue s) = times m seen.
Proof.
  intros Hs. induction 1 as [|seen s data s' R IH St]; intros Hl.
  - split; [constructor|]. split; [constructor|reflexivity].
  - rewrite app_length in Hl. destruct IH as (I1 & I2 & I3); [lia|].
    destruct St as [data q bs c|buf q q' bs c P|bs1 buf bs2 q c c' E]; cbn [s_counts s_bufs s_queue] in *.
    + split; [assumption|]. split; [assumption|]. intros m. specialize (I3 m). rewrite !times_app. lia.
    + split; [assumption|]. split; [assumption|]. intros m. specialize (I3 m). cbn [concat]. rewrite app_nil_r, times_app.
      rewrite (times_perm m _ _ P), times_app in I3. lia.
    + destruct (flush_spec srt c buf Hs I1 I2) as (c1 & E1 & F1 & F2 & F3).
      { intros m. specialize (I3 m). rewrite concat_app in I3. cbn [concat] in I3. rewrite !times_app in I3.
        pose proof (times_le m seen). lia. }
      rewrite E in E1. apply Ok_inj in E1. subst c1. split; [assumption|]. split; [assumption|].
      intros m. specialize (I3 m). rewrite app_nil_r. rewrite concat_app in *. cbn [concat] in I3. rewrite !times_app in *. rewrite F3. lia.
Qed.

Lemma in_strict_tot c : strict c -> forall m n, 0 < n -> (In (m, n) c <-> tot m c = n).
Proof.
  intros Hs m n Hn. induction Hs as [|[m' n'] c S IH F].
  - split; [intros []|]. cbn [tot fold_right]. lia.
  - rewrite tot_cons. cbn [fst snd In]. destruct (meta_dec m' m) as [->|Hm].
    + assert (Z : tot m c = 0).
      { apply tot_notin. intros H. apply in_map_iff in H as (p & E & Hp). rewrite Forall_forall in F. specialize (F p Hp). cbn [fst] in F.
        unfold mlt in F. rewrite E in F. now rewrite meta_ltb_irrefl in F. }
      rewrite Z. split; [|intros H; left; f_equal; lia]. intros [H|H]; [injection H; lia|]. apply IH in H. lia.
    + rewrite N.add_0_l, <- IH. split; [intros [H|H]; [congruence|assumption]|auto].
Qed.

Lemma counts_exact srt : sorts meta_ltb srt -> forall seen s, smb_run srt seen s -> N.of_nat (length seen) < 2 ^ 64 ->
  (forall buf, In buf (s_bufs s) -> exists c', flush_buf srt (s_counts s) buf = Ok c') /\
  (s_queue s = [] -> s_bufs s = [] -> NoDup (map fst (s_counts s)) /\
     forall m n, In (m, n) (s_counts s) <-> n = times m seen /\ 0 < n).
Proof.
  intros Hs seen s R Hl. destruct (smb_inv srt Hs seen s R Hl) as (I1 & I2 & I3). split.
  - intros buf Hin. apply in_split in Hin as (b1 & b2 & E). destruct (flush_spec srt (s_counts s) buf Hs I1 I2) as (c' & E' & _); [|eauto].
    intros m. specialize (I3 m). rewrite E, concat_app in I3. cbn [concat] in I3. rewrite !times_app in I3. pose proof (times_le m seen). lia.
  - intros Eq Eb. split; [now apply strict_nodup|]. intros m n.
    assert (T : tot m (s_counts s) = times m seen).
    { specialize (I3 m). rewrite Eq, Eb in I3. cbn [concat] in I3. change (times m []) with 0 in I3. lia. }
    split.
    + intros H. assert (0 < n) by (exact (proj1 (Forall_forall _ _) I2 _ H)). apply in_strict_tot in H; auto. split; lia.
    + intros [H1 H2]. apply in_strict_tot; auto. lia.
Qed.

(** ** storing *)
Lemma flush_all_spec srt take : sorts meta_ltb srt -> takes take -> forall fuel q c,
  (length q < fuel)%nat -> strict c -> posc c -> (forall m, tot m c + times m q < 2 ^ 64) ->
  exists c', flush_all srt take fuel q c = Ok c' /\ strict c' /\ posc c' /\ forall m, tot m c' = tot m c + times m q.
Proof.
  intros Hs Ht. induction fuel as [|fuel IH]; intros q c Hf Hc Hp Hb; [lia|]. cbn [flush_all].
  destruct (Ht q) as [P E]. destruct (take q) as [buf q']. cbn [fst snd] in *.
  destruct buf as [|x buf].
  - rewrite E by reflexivity. exists c. split; [reflexivity|]. split; [assumption|]. split; [assumption|].
    intros m. change (times m []) with 0. lia.
  - assert (Tm : forall m, times m q = times m (x :: buf) + times m q') by (intros m; rewrite <- (times_perm m _ _ P); apply times_app).
    destruct (flush_spec srt c (x :: buf) Hs Hc Hp) as (c1 & E1 & F1 & F2 & F3).
    { intros m. specialize (Hb m). rewrite Tm in Hb. lia. }
    rewrite E1. cbn [bind]. destruct (IH q' c1) as (c2 & E2 & G1 & G2 & G3); auto.
    + apply Permutation_length in P. rewrite app_length in P. cbn [length] in P. lia.
    + intros m. specialize (Hb m). rewrite Tm in Hb. rewrite F3. lia.
    + exists c2. split; [assumption|]. split; [assumption|]. split; [assumption|]. intros m. rewrite G3, F3, Tm. lia.
Qed.

Lemma ss_map {A B} (f : A -> B) (R : B -> B -> Prop) l : StronglySorted (fun a b => R (f a) (f b)) l -> StronglySorted R (map f l).
Proof.
  induction 1 as [|x l S IH F]; cbn [map]; constructor; [assumption|].
  apply Forall_map. assumption.
Qed.
Lemma ss_impl_in {A} (R Q : A -> A -> Prop) l : (forall a b, In a l -> In b l -> R a b -> Q a b) -> StronglySorted R l -> StronglySorted Q l.
Proof.
  intros H S. induction S as [|x l S IH F]; constructor.
  - apply IH. intros a b Ha Hb. apply H; now right.
  - rewrite Forall_forall in *. intros y Hy. apply H; [now left|now right|auto].
Qed.

Lemma store_spec srt dsrt take : sorts meta_ltb srt -> sorts count_gtb dsrt -> takes take ->
  forall seen s, smb_run srt seen s -> N.of_nat (length seen) < 2 ^ 64 -> s_bufs s = [] ->
  exists d, store_dict srt dsrt take s = Ok (write_dict d) /\ NoDup d /\
    (forall m, In m d <-> 2 <= times m seen) /\
    StronglySorted (fun a b => times b seen <= times a seen) d.
Proof.
  intros Hs Hd Ht seen s R Hl Eb. destruct (smb_inv srt Hs seen s R Hl) as (I1 & I2 & I3).
  rewrite Eb in I3. cbn [concat] in I3.
  destruct (flush_all_spec srt take Hs Ht (S (length (s_queue s))) (s_queue s) (s_counts s)) as (c & E & F1 & F2 & F3); auto.
  { intros m. specialize (I3 m). pose proof (times_le m seen). change (times m []) with 0 in I3. lia. }
  assert (T : forall m, tot m c = times m seen) by (intros m; rewrite F3; specialize (I3 m); change (times m []) with 0 in I3; lia).
  assert (Hin : forall m n, In (m, n) c <-> n = times m seen /\ 0 < n).
  { intros m n. split.
    - intros H. assert (0 < n) by (exact (proj1 (Forall_forall _ _) F2 _ H)). apply in_strict_tot in H; auto. specialize (T m). split; lia.
    - intros [H1 H2]. apply in_strict_tot; auto. specialize (T m). lia. }
  unfold store_dict. rewrite E. cbn [bind].
  set (k := filter (fun p => negb (snd p =? 1)) c). destruct (Hd k) as [P S].
  exists (map fst (dsrt k)). split; [reflexivity|].
  assert (Hk : forall m n, In (m, n) (dsrt k) <-> n = times m seen /\ 2 <= n).
  { intros m n. split.
    - intros H. apply (Permutation_in _ P) in H. apply filter_In in H as [H1 H2]. apply Hin in H1. cbn [snd] in H2. lia.
    - intros [H1 H2]. apply (Permutation_in _ (Permutation_sym P)). apply filter_In. split; [apply Hin; lia|]. cbn [snd]. lia. }
  split.
  - eapply Permutation_NoDup; [apply Permutation_map, Permutation_sym, P|]. unfold k.
    apply strict_nodup in F1. clear - F1. induction c as [|p c IH]; [constructor|]. cbn [map filter] in *.
    apply NoDup_cons_iff in F1 as [N1 N2]. destruct (negb (snd p =? 1)); [|auto]. cbn [map]. constructor; [|auto].
    intros H. apply N1. apply in_map_iff in H as (q & Eq & Hq). apply filter_In in Hq as [Hq _]. rewrite <- Eq. now apply in_map.
  - split.
    + intros m. rewrite in_map_iff. split.
      * intros ([m' n] & Em & H). cbn [fst] in Em. subst m'. apply Hk in H. lia.
      * intros H. exists (m, times m seen). split; [reflexivity|]. apply Hk. auto.
    + apply ss_map. eapply ss_impl_in; [|exact S]. intros [m n] [m' n'] H1 H2 H3. apply Hk in H1, H2.
      unfold count_gtb in H3. cbn [fst snd] in *. lia.
Qed.

(** ** wire format *)
Lemma load_dict_enc : forall d fuel, Forall meta_short d -> (length (write_dict d) < fuel)%nat ->
  load_dict_f fuel (write_dict d) = Ok d.
Proof.
  induction d as [|[k v] d IH]; intros fuel Hd Hf; destruct fuel as [|fuel]; try (cbn in Hf; lia).
  - reflexivity.
  - cbn [write_dict flat_map] in *. fold (write_dict d) in *. cbn [fst snd] in *. cbn [load_dict_f].
    apply Forall_inv in Hd as H1. apply Forall_inv_tail in Hd as H2. destruct H1 as [H1 H1']. cbn [fst snd] in *. unfold short in *.
    rewrite <- !app_assoc. rewrite next_field_bytes by reflexivity. cbn [bind].
    rewrite get_len_enc by assumption. cbn [bind].
    rewrite next_field_bytes by reflexivity. cbn [bind].
    rewrite get_len_enc by assumption. cbn [bind].
    rewrite IH; [reflexivity|assumption|]. rewrite !app_length in Hf. pose proof (field_bytes_pos 1 k). lia.
Qed.
Lemma dict_persists d : Forall meta_short d -> load_dict (Some (write_dict d)) = Ok d.
Proof. intros H. apply load_dict_enc; [assumption|lia]. Qed.

Lemma read_strings_enc : forall d fuel, Forall short d -> (length (write_layer_names d) < fuel)%nat ->
  read_strings fuel (write_layer_names d) = Ok d.
Proof.
  induction d as [|k d IH]; intros fuel Hd Hf; destruct fuel as [|fuel]; try (cbn in Hf; lia).
  - reflexivity.
  - cbn [write_layer_names flat_map] in *. fold (write_layer_names d) in *. cbn [read_strings].
    apply Forall_inv in Hd as H1. apply Forall_inv_tail in Hd as H2.
    rewrite next_field_bytes by reflexivity. cbn [bind].
    rewrite get_len_enc by assumption. cbn [bind].
    rewrite IH; [reflexivity|assumption|]. rewrite !app_length in Hf. pose proof (field_bytes_pos 1 k). lia.
Qed.
Lemma names_persist d : Forall short d -> read_layer_names (write_layer_names d) = Ok d.
Proof. intros H. apply read_strings_enc; [assumption|lia]. Qed.

(** ** coding *)
Lemma nth_ss {A} (R : A -> A -> Prop) l : StronglySorted R l -> forall i j x y, (i < j)%nat ->
  nth_error l i = Some x -> nth_error l j = Some y -> R x y.
Proof.
  induction 1 as [|a l S IH F]; intros i j x y Hij Hx Hy; [destruct i; discriminate|].
  destruct j as [|j]; [lia|]. cbn [nth_error] in Hy. destruct i as [|i]; cbn [nth_error] in Hx.
  - injection Hx as ->. rewrite Forall_forall in F. apply F. eapply nth_error_In; eauto.
  - eapply IH; [|exact Hx|exact Hy]. lia.
Qed.
Lemma lower_bound_spec e q : weak e -> forall fuel first len, (len < fuel)%nat -> (first + len <= length e)%nat ->
  (forall i p, (i < first)%nat -> nth_error e i = Some p -> mlt (fst p) q) ->
  (forall i p, (first + len <= i)%nat -> nth_error e i = Some p -> mle q (fst p)) ->
  let k := lower_bound fuel first len e q in
  (forall i p, (i < k)%nat -> nth_error e i = Some p -> mlt (fst p) q) /\
  (forall i p, (k <= i)%nat -> nth_error e i = Some p -> mle q (fst p)).
Proof.
  intros Hw. induction fuel as [|fuel IH]; intros first len Hf Hl H1 H2; [lia|]. cbv zeta. cbn [lower_bound].
  destruct (Nat.eqb_spec len 0) as [->|Hn].
  - split; [assumption|]. intros i p Hi. apply H2. lia.
  - assert (Hh : (Nat.div2 len < len)%nat) by (apply Nat.lt_div2; lia).
    set (half := Nat.div2 len) in *. destruct (nth_error e (first + half)) as [p|] eqn:E.
    2:{ apply nth_error_None in E. lia. }
    destruct (meta_ltb (fst p) q) eqn:L.
    + apply IH; [lia|lia| |].
      * intros i r Hi Hr. destruct (Nat.eq_dec i (first + half)) as [->|Hne]; [congruence|].
        assert (Hlt : (i < first + half)%nat) by lia.
        pose proof (nth_ss _ _ Hw _ _ _ _ Hlt Hr E) as Hle. cbn beta in Hle. apply mle_lt_eq in Hle as [Hle|Hle].
        -- exact (meta_ltb_trans _ _ _ Hle L).
        -- rewrite Hle. exact L.
      * intros i r Hi. apply H2. lia.
    + apply IH; [lia|lia|assumption|].
      intros i r Hi Hr. destruct (Nat.eq_dec i (first + half)) as [->|Hne]; [rewrite E in Hr; injection Hr as <-; exact L|].
      assert (Hlt : (first + half < i)%nat) by lia.
      pose proof (nth_ss _ _ Hw _ _ _ _ Hlt E Hr) as Hle. cbn beta in Hle. exact (mle_trans _ _ _ L Hle).
Qed.

Lemma number_from_in d : forall k m i, In (m, i) (number_from k d) <-> exists j, i = k + N.of_nat j /\ nth_error d j = Some m.
Proof.
  induction d as [|x d IH]; intros k m i; cbn [number_from In].
  - split; [intros []|]. intros (j & _ & H). destruct j; discriminate.
  - rewrite IH. split.
    + intros [H|(j & H1 & H2)].
      * injection H as -> ->. exists O. split; [lia|reflexivity].
      * exists (S j). split; [lia|assumption].
    + intros ([|j] & H1 & H2); cbn [nth_error] in H2.
      * left. f_equal; [congruence|lia].
      * right. exists j. split; [lia|assumption].
Qed.
Lemma pair_sorted_weak psrt d : sorts pair_ltb psrt -> weak (coder_make psrt d).
Proof.
  intros H. destruct (H (number_from 0 d)) as [_ S]. unfold weak, coder_make.
  eapply ss_impl_in; [|exact S]. intros a b _ _. unfold pair_ltb, mle. intros Hab. apply orb_false_iff in Hab. tauto.
Qed.

Lemma encode_spec psrt d m : sorts pair_ltb psrt ->
  match dict_encode (coder_make psrt d) m with
  | Some i => dict_decode d i = Ok m /\ i < N.of_nat (length d)
  | None => ~ In m d
  end.
Proof.
  intros Hp. pose proof (pair_sorted_weak psrt d Hp) as Hw. destruct (Hp (number_from 0 d)) as [P _].
  fold (coder_make psrt d) in P. set (e := coder_make psrt d) in *.
  assert (He : forall m i, In (m, i) e -> dict_decode d i = Ok m /\ i < N.of_nat (length d)).
  { intros k i Hi. apply (Permutation_in _ P), number_from_in in Hi as (j & -> & Hj). unfold dict_decode.
    replace (N.to_nat (0 + N.of_nat j)) with j by lia. rewrite Hj. split; [reflexivity|].
    assert (j < length d)%nat by (apply nth_error_Some; congruence). lia. }
  unfold dict_encode. destruct (lower_bound_spec e m Hw (S (length e)) 0 (length e)) as [L1 L2]; try lia.
  { intros i p Hi Hn. assert (i < length e)%nat by (apply nth_error_Some; congruence). lia. }
  set (k := lower_bound (S (length e)) 0 (length e) e m) in *.
  assert (No : (forall p, nth_error e k = Some p -> fst p <> m) -> ~ In m d).
  { intros H Hin. apply In_nth_error in Hin as (j & Hj).
    assert (Hie : In (m, N.of_nat j) e) by (apply (Permutation_in _ (Permutation_sym P)), number_from_in; exists j; split; [lia|assumption]).
    apply In_nth_error in Hie as (i & Hi). destruct (lt_eq_lt_dec i k) as [[Hlt| ->]|Hgt].
    - specialize (L1 i _ Hlt Hi). unfold mlt in L1. cbn [fst] in L1. now rewrite meta_ltb_irrefl in L1.
    - now apply (H _ Hi).
    - assert (Hk : exists p, nth_error e k = Some p).
      { destruct (nth_error e k) eqn:E; [eauto|]. apply nth_error_None in E. assert (i < length e)%nat by (apply nth_error_Some; congruence). lia. }
      destruct Hk as (p & Ep). apply (H _ Ep). pose proof (nth_ss _ _ Hw _ _ _ _ Hgt Ep Hi) as Hle. cbn [fst] in Hle.
      assert (Hle2 : mle m (fst p)) by (apply (L2 k); [lia|assumption]). symmetry. apply meta_ltb_total; assumption. }
  destruct (nth_error e k) as [[m' i]|] eqn:E.
  - cbn [fst snd]. destruct (meta_eqb m' m) eqn:Em.
    + apply meta_eqb_eq in Em. subst m'. apply He. eapply nth_error_In; eauto.
    + apply No. intros p [= <-]. cbn [fst]. intros ->. now rewrite meta_eqb_refl in Em.
  - apply No. intros p. discriminate.
Qed.

Lemma encode_total psrt d m : sorts pair_ltb psrt -> In m d <-> exists i, dict_encode (coder_make psrt d) m = Some i.
Proof.
  intros Hp. pose proof (encode_spec psrt d m Hp) as H. destruct (dict_encode _ m) as [i|].
  - split; [eauto|]. intros _. destruct H as [H _]. unfold dict_decode in H. destruct (nth_error d _) eqn:E; [|discriminate].
    apply Ok_inj in H. subst. eapply nth_error_In; eauto.
  - split; [easy|]. intros (i & Hi). discriminate.
Qed.

(** ** layer names *)
Definition names_inv (m : names_map) (v : list bytes) : Prop :=
  m = combine v (map N.of_nat (seq 0 (length v))) /\ NoDup v /\ nth_error v 0 = Some coastline.

Lemma combine_seq_find v : forall k name, NoDup v ->
  nm_find (combine v (map N.of_nat (seq k (length v)))) name =
  match nm_find (combine v (map N.of_nat (seq 0 (length v)))) name with
  | Some i => Some (i + N.of_nat k) | None => None end.
Proof.
  assert (G : forall v k s name, nm_find (combine v (map N.of_nat (seq (k + s) (length v)))) name =
    match nm_find (combine v (map N.of_nat (seq s (length v)))) name with Some i => Some (i + N.of_nat k) | None => None end).
  { clear v. induction v as [|x v IH]; intros k s name; cbn [length seq map combine nm_find]; [reflexivity|].
    destruct (bytes_eqb x name); [f_equal; lia|]. rewrite <- IH. now rewrite Nat.add_succ_r. }
  intros k name _. rewrite <- G. now rewrite Nat.add_0_r.
Qed.
Lemma nm_find_spec v name : NoDup v ->
  match nm_find (combine v (map N.of_nat (seq 0 (length v)))) name with
  | Some i => nth_error v (N.to_nat i) = Some name
  | None => ~ In name v
  end.
Proof.
  induction v as [|x v IH]; intros H; [cbn; auto|]. apply NoDup_cons_iff in H as [H1 H2].
  cbn [length seq map combine nm_find]. destruct (bytes_eqb x name) eqn:E.
  - apply bytes_eqb_eq in E. now subst.
  - rewrite combine_seq_find by assumption. specialize (IH H2). destruct (nm_find _ name) as [i|].
    + replace (N.to_nat (i + N.of_nat 1)) with (S (N.to_nat i)) by lia. exact IH.
    + intros [->|H]; [|auto]. assert (bytes_eqb name name = true) by now apply bytes_eqb_eq. congruence.
Qed.
Lemma combine_app_l {A B} (a1 a2 : list A) (b1 b2 : list B) : length a1 = length b1 ->
  combine (a1 ++ a2) (b1 ++ b2) = combine a1 b1 ++ combine a2 b2.
Proof. revert b1. induction a1 as [|x a1 IH]; intros [|y b1] H; cbn in H; try discriminate; [reflexivity|]. cbn [app combine]. rewrite IH by lia. reflexivity. Qed.
Lemma names_len (v : list bytes) : length (combine v (map N.of_nat (seq 0 (length v)))) = length v.
Proof. rewrite combine_length, map_length, seq_length. lia. Qed.

Lemma get_layer_idx_spec m v name i m' : names_inv m v -> get_layer_idx m name = (i, m') ->
  exists v', names_inv m' v' /\ nth_error v' (N.to_nat i) = Some name /\
    (v' = v \/ v' = v ++ [name]) /\ (In name v -> v' = v).
Proof.
  intros (-> & H2 & H3) H. unfold get_layer_idx in H. pose proof (nm_find_spec v name H2) as F.
  destruct (nm_find _ name) as [j|].
  - injection H as <- <-. exists v. split; [split; auto|]. split; [assumption|]. auto.
  - injection H as <- <-. rewrite names_len. exists (v ++ [name]). split; [split; [|split]|].
    + rewrite app_length. cbn [length]. rewrite Nat.add_1_r, seq_S, map_app. cbn [map].
      rewrite combine_app_l by (now rewrite map_length, seq_length). reflexivity.
    + apply NoDup_app_disj; [assumption|repeat constructor; intros []|]. intros x Hx [->|[]]. auto.
    + rewrite nth_error_app1; [assumption|]. apply nth_error_Some. congruence.
    + split; [rewrite Nnat.Nat2N.id, nth_error_app2, Nat.sub_diag by lia; reflexivity|]. split; [auto|]. easy.
Qed.

Lemma get_layer_idxs_spec : forall names m v is m', names_inv m v -> get_layer_idxs m names = (is, m') ->
  exists v', names_inv m' v' /\ (exists tl, v' = v ++ tl) /\
    Forall2 (fun n i => nth_error v' (N.to_nat i) = Some n) names is /\
    (forall n, In n v' <-> In n v \/ In n names).
Proof.
  induction names as [|n names IH]; intros m v is m' Hi H; cbn [get_layer_idxs] in H.
  - injection H as <- <-. exists v. split; [assumption|]. split; [exists []; now rewrite app_nil_r|]. split; [constructor|]. cbn [In]. tauto.
  - destruct (get_layer_idx m n) as [i m1] eqn:E1. destruct (get_layer_idxs m1 names) as [is2 m2] eqn:E2. injection H as <- <-.
    destruct (get_layer_idx_spec m v n i m1 Hi E1) as (v1 & I1 & N1 & D1 & _).
    destruct (IH m1 v1 is2 m2 I1 E2) as (v2 & I2 & (tl & ->) & F2 & In2). exists (v1 ++ tl).
    assert (Hlen : (N.to_nat i < length v1)%nat) by (apply nth_error_Some; congruence).
    split; [assumption|]. split; [|split].
    + destruct D1 as [->| ->]; [eauto|]. exists ([n] ++ tl). now rewrite app_assoc.
    + constructor; [|assumption]. now rewrite nth_error_app1.
    + intros x. rewrite In2. cbn [In]. split.
      * intros [H|H]; [|auto]. destruct D1 as [->| ->]; [auto|]. apply in_app_iff in H as [H|[->|[]]]; auto.
      * intros [H|[->|H]]; [| |auto]; left.
        -- destruct D1 as [->| ->]; [assumption|]. apply in_app_iff. auto.
        -- eapply nth_error_In; eauto.
Qed.

Lemma fill_names_spec : forall tl done k,
  fill_names (combine tl (map N.of_nat (seq (length done) (length tl)))) (done ++ repeat [] (length tl + k)) =
  Ok (done ++ tl ++ repeat [] k).
Proof.
  induction tl as [|x tl IH]; intros done k; cbn [length seq map combine fill_names]; [reflexivity|].
  rewrite app_length, repeat_length. replace (N.of_nat (length done) <? N.of_nat (length done + (S (length tl) + k))) with true by lia.
  cbn [verify bind]. unfold put_at. rewrite Nnat.Nat2N.id, firstn_app, Nat.sub_diag, firstn_all, app_nil_r.
  rewrite skipn_app, skipn_all2 by lia. replace (S (length done) - length done)%nat with 1%nat by lia.
  cbn [firstn app Nat.add repeat skipn].
  specialize (IH (done ++ [x]) k). rewrite app_length in IH. cbn [length] in IH. rewrite Nat.add_1_r, <- !app_assoc in IH. exact IH.
Qed.
Lemma store_names_spec m v : names_inv m v -> store_layer_names m = Ok (write_layer_names v).
Proof.
  intros (-> & _ & _). unfold store_layer_names. rewrite names_len.
  pose proof (fill_names_spec v [] 0) as H. cbn [length app] in H. rewrite Nat.add_0_r, app_nil_r in H. rewrite H. reflexivity.
Qed.

Lemma names_inv_init : names_inv nm_init [coastline].
Proof. split; [reflexivity|]. split; [repeat constructor; intros []|reflexivity]. Qed.

Lemma layer_names_spec used is m : get_layer_idxs nm_init used = (is, m) -> Forall short used ->
  exists names buf, store_layer_names m = Ok buf /\ get_layer_names (Some buf) = Ok names /\
    NoDup names /\ nth_error names 0 = Some coastline /\
    (forall n, In n names <-> n = coastline \/ In n used) /\
    Forall2 (fun n i => nth_error names (N.to_nat i) = Some n) used is.
Proof.
  intros H Hs. destruct (get_layer_idxs_spec used _ _ _ _ names_inv_init H) as (v & I & _ & F & Hin).
  exists v, (write_layer_names v). split; [now apply store_names_spec|]. split.
  - apply names_persist. apply Forall_forall. intros n Hn. apply Hin in Hn as [[<-|[]]|Hn].
    + unfold short, blen, coastline. cbn [length]. lia.
    + rewrite Forall_forall in Hs. auto.
  - destruct I as (_ & I2 & I3). split; [assumption|]. split; [assumption|]. split; [|assumption].
    intros n. rewrite Hin. cbn [In]. intuition congruence.
Qed.

Lemma layer_names_grow used more is1 m1 is2 m2 : get_layer_idxs nm_init used = (is1, m1) ->
  get_layer_idxs nm_init (used ++ more) = (is2, m2) ->
  exists v tl tl2, store_layer_names m1 = Ok (write_layer_names v) /\
    store_layer_names m2 = Ok (write_layer_names (v ++ tl)) /\ is2 = is1 ++ tl2.
Proof.
  intros H1 H2. destruct (get_layer_idxs_spec used _ _ _ _ names_inv_init H1) as (v & I & _ & _ & _).
  assert (G : forall a m b, get_layer_idxs m (a ++ b) = let '(i, m1) := get_layer_idxs m a in let '(j, m2) := get_layer_idxs m1 b in (i ++ j, m2)).
  { clear. induction a as [|x a IH]; intros m b; cbn [app get_layer_idxs].
    - now destruct (get_layer_idxs m b).
    - destruct (get_layer_idx m x) as [i m1]. rewrite IH. destruct (get_layer_idxs m1 a) as [is m2]. now destruct (get_layer_idxs m2 b). }
  rewrite G, H1 in H2. destruct (get_layer_idxs m1 more) as [j m2'] eqn:E. injection H2 as <- <-.
  destruct (get_layer_idxs_spec more _ _ _ _ I E) as (v2 & I2 & (tl & ->) & _).
  exists v, tl, j. split; [now apply store_names_spec|]. split; [now apply store_names_spec|reflexivity].
Qed.

(** ** a sorting function, for the examples *)
Section Isort.
  Context {A : Type} (lt : A -> A -> bool).
  Fixpoint insert (x : A) (l : list A) : list A :=
    match l with [] => [x] | y :: l' => if lt y x then y :: insert x l' else x :: l end.
  Fixpoint isort (l : list A) : list A := match l with [] => [] | x :: l' => insert x (isort l') end.
  Context (asym : forall a b, lt a b = true -> lt b a = false)
          (le_trans : forall a b c, lt b a = false -> lt c b = false -> lt c a = false).
  Lemma insert_perm x l : Permutation (insert x l) (x :: l).
  Proof. induction l as [|y l IH]; cbn [insert]; [reflexivity|]. destruct (lt y x); [|reflexivity]. rewrite IH. apply perm_swap. Qed.
  Lemma insert_sorted x l : StronglySorted (fun a b => lt b a = false) l -> StronglySorted (fun a b => lt b a = false) (insert x l).
  Proof.
    induction 1 as [|y l S IH F]; cbn [insert]; [repeat constructor|]. destruct (lt y x) eqn:E.
    - constructor; [assumption|]. eapply Permutation_Forall; [symmetry; apply insert_perm|]. constructor; [now apply asym|assumption].
    - constructor; [now constructor|]. constructor; [assumption|]. eapply Forall_impl; [|exact F]. intros z Hz. cbn beta in Hz. eauto.
  Qed.
  Lemma isort_sorts : sorts lt isort.
  Proof.
    intros l. induction l as [|x l [P S]]; cbn [isort]; [split; [reflexivity|constructor]|]. split.
    - rewrite insert_perm. now constructor.
    - now apply insert_sorted.
  Qed.
End Isort.

Lemma isort_meta : sorts meta_ltb (isort meta_ltb).
Proof. apply isort_sorts; [apply meta_ltb_asym|]. intros a b c H1 H2. exact (mle_trans _ _ _ H1 H2). Qed.
Lemma isort_count : sorts count_gtb (isort count_gtb).
Proof. apply isort_sorts; unfold count_gtb; intros; lia. Qed.
Lemma pair_ltb_spec a b : pair_ltb a b = true <-> mlt (fst a) (fst b) \/ (fst a = fst b /\ snd a < snd b).
Proof.
  unfold pair_ltb, mlt. rewrite orb_true_iff, andb_true_iff, negb_true_iff. split.
  - intros [H|[H1 H2]]; [now left|]. destruct (meta_ltb (fst a) (fst b)) eqn:E; [now left|].
    right. split; [now apply meta_ltb_total | lia].
  - intros [H|[H1 H2]]; [now left|]. right. rewrite H1, meta_ltb_irrefl. split; [reflexivity|lia].
Qed.
Lemma isort_pair : sorts pair_ltb (isort pair_ltb).
Proof.
  assert (A : forall a b, pair_ltb a b = true -> pair_ltb b a = false).
  { intros a b H. destruct (pair_ltb b a) eqn:E; [|reflexivity]. apply pair_ltb_spec in H, E. unfold mlt in *.
    destruct H as [H|[H1 H2]], E as [E|[E1 E2]].
    - apply meta_ltb_asym in H. congruence.
    - rewrite E1, meta_ltb_irrefl in H. discriminate.
    - rewrite H1, meta_ltb_irrefl in E. discriminate.
    - lia. }
  assert (T : forall a b, pair_ltb a b = false -> pair_ltb b a = false -> a = b).
  { intros a b H1 H2. unfold pair_ltb in *. apply orb_false_iff in H1 as [H1 H1'], H2 as [H2 H2'].
    pose proof (meta_ltb_total _ _ H1 H2) as E. rewrite H1, H2 in *. cbn [negb andb] in *. destruct a, b. cbn [fst snd] in *. f_equal; [assumption|lia]. }
  assert (Tr : forall a b c, pair_ltb a b = true -> pair_ltb b c = true -> pair_ltb a c = true).
  { intros a b c. rewrite !pair_ltb_spec. unfold mlt. intros [H1|[H1 H2]] [H3|[H3 H4]].
    - left. eapply meta_ltb_trans; eauto.
    - left. congruence.
    - left. congruence.
    - right. split; [congruence|lia]. }
  apply isort_sorts; [assumption|]. intros a b c H1 H2. destruct (pair_ltb c a) eqn:E; [|reflexivity].
  destruct (pair_ltb a b) eqn:E1.
  - rewrite (Tr _ _ _ E E1) in H2. discriminate.
  - rewrite (T _ _ E1 H1) in E. congruence.
Qed.

Lemma times_in m l : 0 < times m l -> In m l.
Proof. unfold times. intros H. apply (count_occ_In meta_dec). lia. Qed.
Lemma store_load_spec srt dsrt take : sorts meta_ltb srt -> sorts count_gtb dsrt -> takes take ->
  forall seen s, smb_run srt seen s -> N.of_nat (length seen) < 2 ^ 64 -> Forall meta_short seen -> s_bufs s = [] ->
  exists b d, store_dict srt dsrt take s = Ok b /\ load_dict (Some b) = Ok d /\ NoDup d /\
    (forall m, In m d <-> 2 <= times m seen) /\
    StronglySorted (fun a b => times b seen <= times a seen) d.
Proof.
  intros Hs Hd Ht seen s R Hl Hm Hb. destruct (store_spec srt dsrt take Hs Hd Ht seen s R Hl Hb) as (d & E & D1 & D2 & D3).
  exists (write_dict d), d. split; [assumption|]. split; [|auto]. apply dict_persists. apply Forall_forall. intros m Hin.
  rewrite Forall_forall in Hm. apply Hm, times_in. apply D2 in Hin. lia.
Qed.
Lemma dict_feature_roundtrip srt dsrt psrt take mk rd fast seen s b d f bs :
  sorts meta_ltb srt -> sorts count_gtb dsrt -> takes take -> sorts pair_ltb psrt ->
  smb_run srt seen s -> N.of_nat (length seen) < 2 ^ 64 -> Forall meta_short seen -> s_bufs s = [] ->
  store_dict srt dsrt take s = Ok b -> load_dict (Some b) = Ok d ->
  feature_ok f -> proper (f_geom f) ->
  serialize_feature (dict_encode (coder_make psrt d)) mk fast f = Ok bs -> blen bs < 2 ^ 32 ->
  exists f', deserialize_feature (dict_decode d) rd no_hints bs = Ok (Some f') /\ same_but f f' (f_geom f) /\ (fast = true -> f' = f).
Proof.
  intros Hs Hd Ht Hp R Hl Hm Hb E L Hf Hg S Hbs.
  destruct (store_load_spec srt dsrt take Hs Hd Ht seen s R Hl Hm Hb) as (b' & d' & E' & L' & D1 & D2 & _).
  rewrite E in E'. apply Ok_inj in E'. subst b'. rewrite L in L'. apply Ok_inj in L'. subst d'.
  apply feature_roundtrip with (enc := dict_encode (coder_make psrt d)) (mk := mk); auto.
  intros m i Hi. pose proof (encode_spec psrt d m Hp) as H. rewrite Hi in H. destruct H as [H1 H2]. split; [|assumption].
  assert (length d <= length seen)%nat.
  { apply NoDup_incl_length; [assumption|]. intros x Hx. apply times_in. apply D2 in Hx. lia. }
  lia.
Qed.
