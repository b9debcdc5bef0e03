(** Order along the z curve: everything below a tile is contiguous. *)
From Coq Require Import Permutation.
From Verif Require Import Base BaseProof ModelTile SpecTile ProofTile ModelQuadTree SpecQuadTree ProofQuadTree ProofQuadWalk.
Open Scope N_scope.

(** ** Lexicographic order *)
Fixpoint prefixb (p l : list N) : bool :=
  match p, l with
  | [], _ => true
  | _, [] => false
  | x :: p', y :: l' => (x =? y) && prefixb p' l'
  end.

Lemma prefixb_spec p : forall l, prefixb p l = true <-> exists r, l = p ++ r.
Proof.
  induction p as [|x p IH]; intros l; cbn [prefixb app]; [split; eauto|].
  destruct l as [|y l]; [split; [discriminate | intros (r & [=])]|].
  rewrite andb_true_iff, N.eqb_eq, IH. split.
  - intros [-> (r & ->)]. eauto.
  - intros (r & [= -> ->]). eauto.
Qed.

Lemma lex_refl a : lex_leb a a = true.
Proof. induction a as [|x a IH]; cbn [lex_leb]; [reflexivity|]. rewrite IH, N.eqb_refl. lia. Qed.
Lemma lex_trans a : forall b c, lex_leb a b = true -> lex_leb b c = true -> lex_leb a c = true.
Proof.
  induction a as [|x a IH]; intros [|y b] [|z c]; cbn [lex_leb]; try discriminate; try reflexivity.
  intros H1 H2. apply orb_true_iff in H1, H2. rewrite andb_true_iff in *.
  destruct H1 as [H1|[H1 H1']], H2 as [H2|[H2 H2']]; apply orb_true_iff; rewrite ?andb_true_iff.
  - left. lia.
  - left. lia.
  - left. lia.
  - right. split; [lia|eauto].
Qed.
Lemma lex_antisym a : forall b, lex_leb a b = true -> lex_leb b a = true -> a = b.
Proof.
  induction a as [|x a IH]; intros [|y b]; cbn [lex_leb]; try discriminate; try reflexivity.
  intros H1 H2. apply orb_true_iff in H1, H2. rewrite andb_true_iff in *.
  destruct H1 as [H1|[H1 H1']], H2 as [H2|[H2 H2']]; try lia.
  f_equal; [lia|eauto].
Qed.
Lemma lex_total a : forall b, lex_leb a b = true \/ lex_leb b a = true.
Proof.
  induction a as [|x a IH]; intros [|y b]; cbn [lex_leb]; auto.
  destruct (N.lt_trichotomy x y) as [H|[->|H]]; [left; lia | | right; lia].
  rewrite N.ltb_irrefl, N.eqb_refl. cbn [andb orb]. apply IH.
Qed.
Lemma lex_prefix p r : lex_leb p (p ++ r) = true.
Proof. induction p as [|x p IH]; cbn [lex_leb app]; [reflexivity|]. rewrite IH, N.eqb_refl. lia. Qed.
Lemma lex_convex p : forall a b c, lex_leb a b = true -> lex_leb b c = true ->
  prefixb p a = true -> prefixb p c = true -> prefixb p b = true.
Proof.
  induction p as [|x p IH]; intros a b c; [reflexivity|].
  destruct a as [|ya a], b as [|yb b], c as [|yc c]; cbn [lex_leb prefixb]; try discriminate; try lia.
  intros H1 H2 H3 H4. rewrite andb_true_iff in *. apply orb_true_iff in H1, H2. rewrite andb_true_iff in *.
  destruct H3 as [H3 H3'], H4 as [H4 H4'].
  destruct H1 as [H1|[H1 H1']], H2 as [H2|[H2 H2']]; try lia. split; [lia|]. eapply IH; eauto.
Qed.

(** a convex predicate selects a contiguous part of a sorted list *)
Lemma convex_contiguous {A} (R : A -> A -> Prop) (P : A -> bool) l :
  StronglySorted R l ->
  (forall a b c, In a l -> In b l -> In c l -> R a b -> R b c -> P a = true -> P c = true -> P b = true) ->
  exists l1 l2, l = l1 ++ filter P l ++ l2 /\ Forall (fun a => P a = false) l1 /\ Forall (fun a => P a = false) l2.
Proof.
  induction l as [|x l IH]; intros HS HC; [exists [], []; repeat constructor|].
  inversion HS as [|? ? HS' HF]; subst.
  destruct IH as (l1 & l2 & E & F1 & F2); [assumption | intros; eapply (HC a b c); auto with datatypes|].
  cbn [filter]. destruct (P x) eqn:EX.
  - destruct l1 as [|y l1].
    + exists [], l2. split; [cbn [app] in *; congruence|]. split; [constructor | assumption].
    + destruct (filter P l) as [|z fl] eqn:EF.
      * exists [], (y :: l1 ++ l2). cbn [app] in *. split; [congruence|]. split; [constructor|].
        apply Forall_app with (l1 := y :: l1). split; assumption.
      * exfalso. assert (HY : P y = true).
        { rewrite Forall_forall in HF. assert (HSy : Forall (R y) (l1 ++ (z :: fl) ++ l2)).
          { rewrite E in HS'. cbn [app] in HS'. inversion HS'; assumption. }
          assert (Iz : In z (filter P l)) by (rewrite EF; auto with datatypes).
          apply filter_In in Iz. destruct Iz as [Iz Pz].
          apply (HC x y z); auto with datatypes.
          - right. rewrite E. auto with datatypes.
          - apply HF. rewrite E. auto with datatypes.
          - rewrite Forall_forall in HSy. apply HSy, in_or_app. right. left. reflexivity. }
        inversion F1. congruence.
  - exists (x :: l1), l2. cbn [app]. split; [congruence|]. split; [constructor; assumption | assumption].
Qed.

(** ** Paths *)
Lemma zpath_length root t : length (zpath root t) = N.to_nat (tz t - tz root).
Proof. unfold zpath. now rewrite map_length, seq_length. Qed.

Lemma covers_digit a t l : covers a t -> l <= tz a -> digit a l = digit t l.
Proof.
  intros (Hz & Hx & Hy) Hl. unfold digit. rewrite Hx, Hy, !N.div_div, <- !N.pow_add_r by (apply N.pow_nonzero; discriminate).
  now replace (tz t - tz a + (tz a - l)) with (tz t - l) by (clear - Hz Hl; lia).
Qed.

Lemma covers_prefix root q t : covers root q -> covers q t -> zpath root t = zpath root q ++ zpath q t.
Proof.
  intros H1 H2. assert (Hz : tz root <= tz q /\ tz q <= tz t) by (split; [apply H1 | apply H2]).
  unfold zpath. replace (N.to_nat (tz t - tz root)) with (N.to_nat (tz q - tz root) + N.to_nat (tz t - tz q))%nat by lia.
  rewrite seq_app, map_app. f_equal.
  - apply map_ext_in. intros i Hi. apply in_seq in Hi. symmetry. apply covers_digit; [assumption | lia].
  - cbn [plus]. rewrite <- (map_map (fun i => tz q + 1 + N.of_nat i) (digit t)).
    rewrite <- (map_map (fun i => tz root + 1 + N.of_nat i) (digit t)). f_equal.
    rewrite <- (Nat.add_0_r (N.to_nat (tz q - tz root))) at 1.
    generalize 0%nat as s. induction (N.to_nat (tz t - tz q)) as [|n IH]; intros s; cbn [seq map]; [reflexivity|].
    f_equal; [lia|]. rewrite <- Nat.add_succ_r. apply IH.
Qed.

Lemma div_step a k : a / 2 ^ k = 2 * (a / 2 ^ (k + 1)) + (a / 2 ^ k) mod 2.
Proof.
  rewrite N.pow_add_r. change (2 ^ 1) with 2. rewrite <- N.div_div by (try apply N.pow_nonzero; discriminate).
  generalize (a / 2 ^ k). intros; lia.
Qed.

Lemma digit_inj xa ya xb yb : xa mod 2 + 2 * (ya mod 2) = xb mod 2 + 2 * (yb mod 2) -> xa mod 2 = xb mod 2 /\ ya mod 2 = yb mod 2.
Proof. lia. Qed.

(** tiles inside the root are determined by their path *)
Lemma prefix_covers root q t : covers root q -> covers root t -> tz q <= tz t ->
  (forall l, tz root < l -> l <= tz q -> digit q l = digit t l) -> covers q t.
Proof.
  intros (Hz1 & Hx1 & Hy1) (Hz2 & Hx2 & Hy2) Hz HD.
  assert (HI : forall k, (k <= N.to_nat (tz q - tz root))%nat ->
     let l := tz root + N.of_nat k in
     tx q / 2 ^ (tz q - l) = tx t / 2 ^ (tz t - l) /\ ty q / 2 ^ (tz q - l) = ty t / 2 ^ (tz t - l)).
  { induction k as [|k IH]; intros Hk l.
    - subst l. rewrite N.add_0_r. split; congruence.
    - specialize (IH (Nat.lt_le_incl _ _ Hk)). cbv zeta in IH. destruct IH as [IHx IHy].
      assert (Hl : tz root < l /\ l <= tz q /\ tz q - l + 1 = tz q - (tz root + N.of_nat k) /\ tz t - l + 1 = tz t - (tz root + N.of_nat k))
        by (clear - Hk Hz Hz1; subst l; lia). destruct Hl as (Hl1 & Hl2 & Hl3 & Hl4).
      specialize (HD l Hl1 Hl2). unfold digit in HD. apply digit_inj in HD. destruct HD as [Dx Dy].
      rewrite (div_step (tx q)), (div_step (tx t)), (div_step (ty q)), (div_step (ty t)), Dx, Dy.
      rewrite Hl3, Hl4, IHx, IHy. split; reflexivity. }
  specialize (HI (N.to_nat (tz q - tz root)) (Nat.le_refl _)). cbv zeta in HI.
  replace (tz root + N.of_nat (N.to_nat (tz q - tz root))) with (tz q) in HI by (clear - Hz1; lia).
  rewrite N.sub_diag, N.pow_0_r, !N.div_1_r in HI. destruct HI. split; [assumption | split; assumption].
Qed.

Lemma nth_zpath root t i : (i < N.to_nat (tz t - tz root))%nat -> nth_error (zpath root t) i = Some (digit t (tz root + 1 + N.of_nat i)).
Proof.
  intros H. unfold zpath. apply map_nth_error with (f := fun i => digit t (tz root + 1 + N.of_nat i)).
  rewrite nth_error_nth' with (d := 0%nat) by (now rewrite seq_length). rewrite seq_nth by assumption. reflexivity.
Qed.

Lemma zpath_prefix root q t : covers root q -> covers root t ->
  prefixb (zpath root q) (zpath root t) = coversb q t.
Proof.
  intros H1 H2. apply Bool.eq_iff_eq_true. rewrite prefixb_spec, coversb_spec. split.
  - intros (r & E).
    assert (HL : tz q <= tz t).
    { pose proof (f_equal (@length N) E) as L. rewrite app_length, !zpath_length in L.
      destruct H1 as (H1 & _), H2 as (H2 & _). lia. }
    apply (prefix_covers root); [assumption.. | intros l Hl1 Hl2].
    pose proof (nth_zpath root q (N.to_nat (l - tz root - 1)) ltac:(lia)) as N1.
    pose proof (nth_zpath root t (N.to_nat (l - tz root - 1)) ltac:(lia)) as N2.
    rewrite E in N2. rewrite nth_error_app1 in N2 by (rewrite zpath_length; lia). rewrite N1 in N2.
    replace (tz root + 1 + N.of_nat (N.to_nat (l - tz root - 1))) with l in N2 by lia. congruence.
  - intros H. exists (zpath q t). now apply covers_prefix.
Qed.

Lemma zpath_inj root a b : covers root a -> covers root b -> zpath root a = zpath root b -> a = b.
Proof.
  intros Ha Hb E. assert (HC : covers a b).
  { apply coversb_spec. rewrite <- (zpath_prefix root) by assumption. apply prefixb_spec. exists []. now rewrite app_nil_r. }
  apply covers_same_z; [assumption|]. pose proof (f_equal (@length N) E) as L. rewrite !zpath_length in L.
  destruct Ha as (Ha & _), Hb as (Hb & _). lia.
Qed.

Lemma covers_z_le root a b : covers root a -> covers a b -> z_le root a b.
Proof. intros H1 H2. unfold z_le. rewrite (covers_prefix root a b) by assumption. apply lex_prefix. Qed.

(** ** Contiguity *)
Lemma related_or_not root q t : covers root t -> covers q t -> covers root q \/ covers q root.
Proof.
  intros H1 H2. destruct (N.le_ge_cases (tz root) (tz q)).
  - left. eapply covers_chain; eauto.
  - right. eapply covers_chain; eauto.
Qed.

Lemma under_contiguous root q es : z_sorted root es -> Forall (fun e => covers root (qi_tile e)) es ->
  exists a b, es = a ++ under q es ++ b.
Proof.
  intros HS HC. rewrite Forall_forall in HC.
  destruct (convex_contiguous _ (fun e => coversb q (qi_tile e)) es HS) as (a & b & E & _).
  - intros x y z Ix Iy Iz Rxy Ryz Px Pz. rewrite coversb_spec in *.
    destruct (related_or_not root q (qi_tile x) (HC x Ix) Px) as [HR|HR].
    + apply coversb_spec. apply coversb_spec in Px, Pz. rewrite <- (zpath_prefix root) in * by auto.
      eapply lex_convex; eauto.
    + eapply covers_trans; eauto.
  - eauto.
Qed.

Lemma consecutive_app a : forall p b, consecutive p (a ++ b) <-> consecutive p a /\ consecutive (p + total_size a) b.
Proof.
  induction a as [|e a IH]; intros p b; cbn [app consecutive].
  - unfold total_size; cbn [fold_right]. rewrite N.add_0_r. tauto.
  - rewrite IH. unfold total_size; cbn [fold_right]. fold (total_size a). rewrite N.add_assoc. tauto.
Qed.

Lemma cells_app o m n : cells (o, m + n) = cells (o, m) ++ cells (o + m, n).
Proof.
  unfold cells; cbn [fst snd]. rewrite <- map_app. f_equal.
  rewrite !Nnat.N2Nat.inj_add, seq_app. reflexivity.
Qed.

Lemma consecutive_cells a : forall p, consecutive p a -> flat_map entry_cells a = cells (p, total_size a).
Proof.
  induction a as [|e a IH]; intros p; cbn [consecutive flat_map]; [reflexivity|].
  intros [E HC]. rewrite (IH _ HC). unfold total_size; cbn [fold_right]. fold (total_size a).
  rewrite cells_app. unfold entry_cells. now rewrite E.
Qed.

Lemma consecutive_ge a : forall p, consecutive p a -> Forall (fun e => p <= qi_off e) a.
Proof.
  induction a as [|e a IH]; intros p; cbn [consecutive]; [constructor|].
  intros [E HC]. constructor; [lia|]. eapply Forall_impl; [|apply IH, HC]. cbn. intros; lia.
Qed.

Lemma consecutive_min a p : a <> [] -> Forall (fun e => qi_off e < 2 ^ 32) a -> consecutive p a -> min_off a = p.
Proof.
  intros HN HF HC. destruct a as [|e a]; [congruence|]. cbn [consecutive] in HC. destruct HC as [E HC].
  apply consecutive_ge in HC. unfold min_off; cbn [fold_right]. fold (min_off a).
  inversion HF as [|? ? HF1 HF2]; subst. assert (qi_off e <= min_off a); [|lia].
  clear - HC HF1. induction a as [|x a IH]; unfold min_off; cbn [fold_right]; [lia|]. fold (min_off a).
  inversion HC; subst. specialize (IH H2). lia.
Qed.

Lemma consecutive_sorted root es : forall p, consecutive p es -> z_sorted root es ->
  Forall (fun e => covers root (qi_tile e)) es -> NoDup (map qi_tile es) -> parents_first es.
Proof.
  intros p HC HS HR HN e e' He He' HCov.
  destruct (in_split _ _ He) as (a & b & E). rewrite E in He'. rewrite in_app_iff in He'. cbn [In] in He'.
  assert (HC' := HC). rewrite E, consecutive_app in HC'. cbn [consecutive] in HC'. destruct HC' as (_ & E1 & HCb).
  apply consecutive_ge in HCb. rewrite Forall_forall in HCb, HR.
  destruct He' as [Ha | [<-|Hb]]; [|lia|specialize (HCb e' Hb); lia].
  exfalso. assert (HT : qi_tile e' = qi_tile e).
  { apply (zpath_inj root); [apply HR; rewrite E; auto with datatypes | apply HR, He |].
    apply lex_antisym.
    - rewrite E in HS. clear - HS Ha. induction a as [|x a IH]; [destruct Ha|]. cbn [app] in HS. inversion HS; subst.
      destruct Ha as [<-|Ha]; [|auto]. rewrite Forall_forall in H2. apply (H2 e), in_or_app. right. left. reflexivity.
    - apply covers_z_le; [apply HR, He | assumption]. }
  rewrite E, map_app in HN. cbn [map] in HN. apply NoDup_remove_2 in HN. apply HN. rewrite <- HT.
  apply in_or_app. left. now apply in_map.
Qed.

Lemma above_filter q es : Permutation (above q es) (filter (fun e => (tz (qi_tile e) <? tz q) && coversb (qi_tile e) q) es).
Proof.
  unfold above. assert (HG : forall n, Permutation (flat_map (fun z => above_at (N.of_nat z) q es) (seq 0 n))
     (filter (fun e => (tz (qi_tile e) <? N.of_nat n) && coversb (qi_tile e) q) es)).
  { induction n as [|n IH].
    - cbn [seq flat_map]. rewrite filter_all_false; [constructor|]. apply Forall_forall. intros e _. apply andb_false_iff. left. lia.
    - rewrite seq_S, flat_map_app. cbn [flat_map plus]. rewrite app_nil_r. rewrite IH. clear IH.
      unfold above_at. induction es as [|e es IH]; [constructor|]. cbn [filter].
      destruct (coversb (qi_tile e) q) eqn:EC; rewrite ?andb_true_r, ?andb_false_r; [|apply IH].
      destruct (N.ltb_spec (tz (qi_tile e)) (N.of_nat n)) as [H|H].
      + replace (tz (qi_tile e) =? N.of_nat n) with false by lia.
        replace (tz (qi_tile e) <? N.of_nat (S n)) with true by lia. cbn [app]. now constructor.
      + destruct (N.eqb_spec (tz (qi_tile e)) (N.of_nat n)).
        * replace (tz (qi_tile e) <? N.of_nat (S n)) with true by lia.
          rewrite <- Permutation_middle. now constructor.
        * replace (tz (qi_tile e) <? N.of_nat (S n)) with false by lia. apply IH. }
  specialize (HG (N.to_nat (tz q))). rewrite Nnat.N2Nat.id in HG. exact HG.
Qed.

Lemma related_split q es : Permutation (above q es ++ under q es) (filter (fun e => relatedb (qi_tile e) q) es).
Proof.
  rewrite above_filter. unfold under. induction es as [|e es IH]; [constructor|]. cbn [filter].
  unfold relatedb at 1. destruct (coversb q (qi_tile e)) eqn:E1.
  - rewrite orb_true_r. apply coversb_spec in E1.
    replace ((tz (qi_tile e) <? tz q) && coversb (qi_tile e) q) with false by (destruct E1; lia).
    rewrite <- Permutation_middle. now constructor.
  - rewrite orb_false_r. destruct (coversb (qi_tile e) q) eqn:E2.
    + destruct (N.ltb_spec (tz (qi_tile e)) (tz q)) as [H|H]; cbn [andb app].
      * now constructor.
      * exfalso. apply coversb_spec in E2. assert (EE : qi_tile e = q) by (apply covers_same_z; [assumption | destruct E2; lia]).
        rewrite EE, coversb_refl in E1. discriminate.
    + rewrite andb_false_r. apply IH.
Qed.

Lemma walk_cells root es bs rest q p : entries_ok es -> z_sorted root es -> consecutive p es ->
  tz root < 2 ^ 31 -> tz q < 2 ^ 31 -> make_quad_tree root es = Ok bs -> blen bs < 2 ^ 30 ->
  exists spans, walk_quad_tree (bs ++ rest) root q = Ok spans /\
    Permutation (flat_map cells spans) (flat_map entry_cells (filter (fun e => relatedb (qi_tile e) q) es)).
Proof.
  intros HE HS HC Hr Hq HM HB. assert (HR : Forall (fun e => covers root (qi_tile e)) es).
  { apply make_quad_tree_ok_iff; eauto. }
  assert (HP : parents_first es) by (eapply consecutive_sorted; eauto; apply HE).
  exists (walk_spec q es). split; [now apply walk_exact with (rest := rest)|].
  unfold walk_spec. rewrite flat_map_app.
  rewrite <- (Permutation_flat_map entry_cells (related_split q es)), flat_map_app. apply Permutation_app.
  { rewrite flat_map_concat_map, map_map, <- flat_map_concat_map. reflexivity. }
  destruct (under_contiguous root q es HS HR) as (a & b & E).
  destruct (under q es) as [|u us] eqn:EU; [reflexivity|].
  cbn [flat_map]. rewrite app_nil_r. change (entry_cells u ++ flat_map entry_cells us) with (flat_map entry_cells (u :: us)). rewrite <- EU in *.
  rewrite E, consecutive_app in HC. destruct HC as [_ HC]. rewrite consecutive_app in HC. destruct HC as [HC _].
  rewrite (consecutive_min (under q es) _) with (3 := HC).
  - rewrite (consecutive_cells _ _ HC). reflexivity.
  - rewrite EU. discriminate.
  - destruct HE as (_ & HF & _). rewrite Forall_forall in HF |- *. intros e He. apply filter_In in He. apply (HF e), He.
Qed.
