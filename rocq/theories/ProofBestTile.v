(** The quad tree node chosen for a feature. *)
From Verif Require Import Base BaseProof ModelTile SpecTile ProofTile ModelCodec ModelGeom ModelFeature
  ModelQuadTree SpecQuadTree ProofQuadTree ProofQuadWalk ProofQuadOrder ModelPack ModelPacker SpecPacker.
Open Scope N_scope.

Lemma boxes_touch_spec a b : boxes_touch a b = true <-> touches a b.
Proof. unfold boxes_touch, touches. lia. Qed.

Lemma tile_spec_area t : tz t <= 20 -> valid_tile t ->
  exists s, make_tile_spec t = Ok s /\ insert_bounds s = tile_area t.
Proof.
  intros Hz [Hx Hy]. unfold make_tile_spec, kMaxZoomLevel. replace (tz t <=? 20) with true by lia. cbn [verify bind].
  rewrite N.shiftl_1_l. replace ((tx t <? 2 ^ tz t) && (ty t <? 2 ^ tz t)) with true by lia. cbn [verify bind].
  eexists. split; [reflexivity|]. unfold tile_area. cbn [insert_bounds bminx bminy bmaxx bmaxy].
  rewrite !Z.shiftl_mul_pow2 by lia. replace (Z.of_N (20 - tz t)) with (20 - Z.of_N (tz t))%Z by lia.
  f_equal; ring.
Qed.

Lemma valid_child t i : i < 4 -> valid_tile t -> valid_tile (child t i).
Proof.
  unfold valid_tile, child. intros Hi [Hx Hy]. cbn [tx ty tz]. rewrite N.pow_add_r. change (2 ^ 1) with 2.
  generalize dependent (2 ^ tz t). intros; lia.
Qed.

Lemma children_list t : direct_children t = [child t 0; child t 1; child t 2; child t 3].
Proof. unfold direct_children, child. cbn. rewrite !N.add_0_r. reflexivity. Qed.

(** areas of children *)
Lemma area_child t i : i < 4 -> tz t < 20 ->
  let s := (4096 * 2 ^ (20 - Z.of_N (tz (child t i))))%Z in
  (s > 0)%Z /\
  tile_area t = FBox (2 * Z.of_N (tx t) * s) (2 * Z.of_N (ty t) * s) ((2 * Z.of_N (tx t) + 2) * s) ((2 * Z.of_N (ty t) + 2) * s) /\
  tile_area (child t i) = FBox ((2 * Z.of_N (tx t) + Z.of_N (i mod 2)) * s) ((2 * Z.of_N (ty t) + Z.of_N (i / 2)) * s)
     ((2 * Z.of_N (tx t) + Z.of_N (i mod 2) + 1) * s) ((2 * Z.of_N (ty t) + Z.of_N (i / 2) + 1) * s).
Proof.
  intros Hi Hz s. assert (E : (4096 * 2 ^ (20 - Z.of_N (tz t)) = 2 * s)%Z).
  { subst s. unfold child; cbn [tz]. replace (20 - Z.of_N (tz t))%Z with (Z.succ (20 - Z.of_N (tz t + 1)))%Z by lia.
    rewrite Z.pow_succ_r by lia. ring. }
  split; [|split].
  - subst s. unfold child; cbn [tz]. pose proof (Z.pow_pos_nonneg 2 (20 - Z.of_N (tz t + 1)) ltac:(lia) ltac:(lia)). lia.
  - unfold tile_area. rewrite E. f_equal; ring.
  - unfold tile_area. fold s. unfold child; cbn [tx ty]. rewrite !N2Z.inj_add, !N2Z.inj_mul. change (Z.of_N 2) with 2%Z. f_equal; ring.
Qed.

Lemma touch_child_parent fb t i : i < 4 -> tz t < 20 -> touches fb (tile_area (child t i)) -> touches fb (tile_area t).
Proof.
  intros Hi Hz. destruct (area_child t i Hi Hz) as (Hs & -> & ->). unfold touches. cbn [bminx bminy bmaxx bmaxy].
  set (s := (4096 * 2 ^ (20 - Z.of_N (tz (child t i))))%Z) in *. clearbody s.
  assert (0 <= Z.of_N (i mod 2) <= 1)%Z by (clear - Hi; lia). assert (0 <= Z.of_N (i / 2) <= 1)%Z by (clear - Hi; lia).
  generalize dependent (Z.of_N (i mod 2)). generalize dependent (Z.of_N (i / 2)).
  generalize (Z.of_N (tx t)) (Z.of_N (ty t)). intros x y b Hb a Ha (H1 & H2 & H3 & H4).
  repeat split; nia.
Qed.

Lemma touch_some_child fb t : box_wf fb -> tz t < 20 -> touches fb (tile_area t) ->
  exists i, i < 4 /\ touches fb (tile_area (child t i)).
Proof.
  intros [W1 W2] Hz. destruct (area_child t 0 ltac:(lia) Hz) as (Hs & E & _). rewrite E. clear E.
  set (s := (4096 * 2 ^ (20 - Z.of_N (tz (child t 0))))%Z) in *.
  unfold touches at 1. cbn [bminx bminy bmaxx bmaxy]. intros (H1 & H2 & H3 & H4).
  set (X := Z.of_N (tx t)) in *. set (Y := Z.of_N (ty t)) in *.
  assert (HA : forall lo hi m : Z, (lo <= hi)%Z -> (lo <= (2 * m + 2) * s)%Z -> (2 * m * s <= hi)%Z ->
    exists a, a < 2 /\ (lo <= (2 * m + Z.of_N a + 1) * s)%Z /\ ((2 * m + Z.of_N a) * s <= hi)%Z).
  { clear. intros lo hi m W A B. destruct (Z.le_gt_cases lo ((2 * m + 1) * s)).
    - exists 0. cbn [Z.of_N]. split; [reflexivity|]. split; lia.
    - exists 1. cbn [Z.of_N]. split; [reflexivity|]. split; lia. }
  destruct (HA _ _ X W1 H1 H2) as (a & Ha & A1 & A2). destruct (HA _ _ Y W2 H3 H4) as (b & Hb & B1 & B2).
  exists (a + 2 * b). split; [clear - Ha Hb; lia|].
  destruct (area_child t (a + 2 * b) ltac:(clear - Ha Hb; lia) Hz) as (_ & _ & ->).
  change (tz (child t (a + 2 * b))) with (tz (child t 0)). fold s. fold X. fold Y.
  replace ((a + 2 * b) mod 2) with a by (clear - Ha Hb; lia). replace ((a + 2 * b) / 2) with b by (clear - Ha Hb; lia).
  unfold touches. cbn [bminx bminy bmaxx bmaxy]. auto.
Qed.

(** the children hit by the box *)
Definition hits (fb : fbox) (cs : list tile) : list tile := filter (fun c => boxes_touch fb (tile_area c)) cs.

Lemma pick_child_ok fb cs : Forall (fun c => tz c <= 20 /\ valid_tile c) cs -> forall nb,
  pick_child fb cs nb = Ok (match nb, hits fb cs with
                            | None, [] => Some None
                            | None, [c] => Some (Some c)
                            | None, _ => None
                            | Some c, [] => Some (Some c)
                            | Some _, _ => None
                            end).
Proof.
  induction 1 as [|c cs [Hz Hv] HF IH]; intros nb; cbn [pick_child hits filter]; [destruct nb; reflexivity|].
  destruct (tile_spec_area c Hz Hv) as (s & -> & ES). cbn [bind]. rewrite ES.
  destruct (boxes_touch fb (tile_area c)); cbn [negb].
  - destruct nb as [b|]; [reflexivity|]. rewrite IH. unfold hits. destruct (filter _ cs); reflexivity.
  - apply IH.
Qed.

Lemma hits_children fb t : tz t < 20 -> valid_tile t ->
  pick_child fb (direct_children t) None =
  Ok (match hits fb (direct_children t) with [] => Some None | [c] => Some (Some c) | _ => None end).
Proof.
  intros Hz Hv. rewrite pick_child_ok; [destruct (hits fb _) as [|? [|? ?]]; reflexivity|].
  rewrite children_list. repeat (apply Forall_cons; [split; [unfold child; cbn [tz]; lia | apply valid_child; [lia|assumption]]|]). constructor.
Qed.

Lemma in_children t c : In c (direct_children t) <-> exists i, i < 4 /\ c = child t i.
Proof.
  rewrite children_list. cbn [In]. split.
  - intros [<-|[<-|[<-|[<-|[]]]]]; [exists 0|exists 1|exists 2|exists 3]; split; (lia || reflexivity).
  - intros (i & Hi & ->). destruct (lt4_cases i Hi) as [-> | [-> | [-> | ->]]]; auto.
Qed.

(** a proper descendant lies in one of the children *)
Lemma below_child t s : covers t s -> t <> s -> exists i, i < 4 /\ covers (child t i) s.
Proof.
  intros HC HN. assert (Hz : tz t < tz s).
  { destruct (N.eq_dec (tz t) (tz s)) as [E|E]; [destruct HN; now apply covers_same_z | destruct HC; lia]. }
  destruct HC as (_ & Hx & Hy). assert (Hk : exists k, tz s = tz t + 1 + k) by (exists (tz s - tz t - 1); clear - Hz; lia).
  destruct Hk as (k & Hk). exists (tx s / 2 ^ k mod 2 + 2 * (ty s / 2 ^ k mod 2)).
  rewrite Hk in Hx, Hy. replace (tz t + 1 + k - tz t) with (k + 1) in * by (clear; lia).
  unfold covers, child. cbn [tx ty tz]. rewrite Hk. replace (tz t + 1 + k - (tz t + 1)) with k by (clear; lia).
  pose proof (div_step (tx s) k) as Dx. pose proof (div_step (ty s) k) as Dy. rewrite <- Hx in Dx. rewrite <- Hy in Dy.
  generalize dependent (tx s / 2 ^ k). generalize dependent (ty s / 2 ^ k). intros y Dy x Dx. clear Hx Hy. split; [lia|].
  split; [lia|]. split; lia.
Qed.

Lemma touch_up fb : forall k t s, tz s = tz t + N.of_nat k -> covers t s -> tz s <= 20 ->
  touches fb (tile_area s) -> touches fb (tile_area t).
Proof.
  induction k as [|k IH]; intros t s Hk HC Hz HT.
  - replace t with s; [assumption|]. symmetry. apply covers_same_z; [assumption | lia].
  - destruct (below_child t s HC) as (i & Hi & Hci); [intros ->; lia|].
    apply (touch_child_parent fb t i Hi ltac:(lia)). apply (IH (child t i) s); auto.
    unfold child; cbn [tz]. lia.
Qed.

Lemma touch_covers fb t s : covers t s -> tz s <= 20 -> touches fb (tile_area s) -> touches fb (tile_area t).
Proof. intros HC. apply (touch_up fb (N.to_nat (tz s - tz t))); [destruct HC; lia | assumption]. Qed.

Definition relevant (fb : fbox) (root s : tile) : Prop :=
  covers root s /\ tz s <= 20 /\ touches fb (tile_area s).

Lemma best_tile_step fb t : tz t < 20 -> valid_tile t -> box_wf fb -> touches fb (tile_area t) ->
  (pick_child fb (direct_children t) None = Ok None) \/
  (exists i, i < 4 /\ pick_child fb (direct_children t) None = Ok (Some (Some (child t i))) /\
     touches fb (tile_area (child t i)) /\
     forall s, relevant fb t s -> related (child t i) s).
Proof.
  intros Hz Hv HW HT. rewrite hits_children by assumption.
  destruct (hits fb (direct_children t)) as [|c [|c' cs]] eqn:EH; [|right|left; reflexivity].
  - exfalso. destruct (touch_some_child fb t HW Hz HT) as (i & Hi & Hti).
    assert (HI : In (child t i) (hits fb (direct_children t))).
    { apply filter_In. split; [apply in_children; eauto | now apply boxes_touch_spec]. }
    rewrite EH in HI. destruct HI.
  - assert (HI : In c (hits fb (direct_children t))) by (rewrite EH; left; reflexivity).
    apply filter_In in HI. destruct HI as [HI Htc]. apply in_children in HI. destruct HI as (i & Hi & ->).
    exists i. split; [assumption|]. split; [reflexivity|]. split; [now apply boxes_touch_spec|].
    intros s (HC & Hsz & Hts). destruct (tile_eqb_spec t s) as [<-|HN].
    + right. apply covers_child_parent, Hi.
    + destruct (below_child t s HC HN) as (j & Hj & HCj).
      assert (Htj : touches fb (tile_area (child t j))) by (apply (touch_covers fb _ s); assumption).
      assert (HIj : In (child t j) (hits fb (direct_children t))).
      { apply filter_In. split; [apply in_children; eauto | now apply boxes_touch_spec]. }
      rewrite EH in HIj. destruct HIj as [E|[]]. rewrite E. left. assumption.
Qed.

Lemma best_tile_loop_ok fb root : box_wf fb -> forall fuel t,
  (N.to_nat (20 - tz t) <= fuel)%nat -> valid_tile t -> tz t <= 20 -> covers root t ->
  touches fb (tile_area t) -> (forall s, relevant fb root s -> related t s) ->
  exists b, best_tile_loop fuel fb t = Ok b /\ covers root b /\ tz b <= 20 /\ valid_tile b /\
    touches fb (tile_area b) /\ (forall s, relevant fb root s -> related b s).
Proof.
  intros HW. induction fuel as [|fuel IH]; intros t Hf Hv Hz HC HT HR; cbn [best_tile_loop]; unfold kMaxZoomLevel.
  - replace (tz t <? 20) with false by lia. cbn [negb]. exists t. repeat (split; [assumption || reflexivity|]). assumption.
  - destruct (N.ltb_spec (tz t) 20) as [Hlt|Hge]; cbn [negb].
    2:{ exists t. repeat (split; [assumption || reflexivity|]). assumption. }
    destruct (best_tile_step fb t Hlt Hv HW HT) as [->|(i & Hi & -> & HTi & HRi)]; cbn [bind].
    + exists t. repeat (split; [assumption || reflexivity|]). assumption.
    + apply IH; [unfold child; cbn [tz]; lia | now apply valid_child | unfold child; cbn [tz]; lia | | assumption |].
      * eapply covers_trans; [eassumption | now apply covers_child_parent].
      * intros s Hs. destruct (HR s Hs) as [H|H].
        -- apply HRi. destruct Hs as (_ & Hs1 & Hs2). split; [assumption | split; assumption].
        -- right. eapply covers_trans; [eassumption | now apply covers_child_parent].
Qed.

Lemma best_tile_ok root fb : tz root <= 20 -> valid_tile root -> box_wf fb -> touches fb (tile_area root) ->
  exists b, find_best_tile root fb = Ok b /\ covers root b /\ tz b <= 20 /\ touches fb (tile_area b) /\
    forall s, covers root s -> tz s <= 20 -> touches fb (tile_area s) -> related b s.
Proof.
  intros Hz Hv HW HT. destruct (best_tile_loop_ok fb root HW (N.to_nat (20 - tz root)) root) as (b & E & H1 & H2 & _ & H3 & H4).
  - lia.
  - assumption.
  - assumption.
  - apply covers_refl.
  - assumption.
  - intros s Hs. left. apply Hs.
  - exists b. split; [exact E|]. repeat (split; [assumption|]). intros s S1 S2 S3. apply H4. split; [assumption|split; assumption].
Qed.

(** a box that misses the root below level 20 is rejected *)
Lemma best_tile_rejects root fb : tz root < 20 -> valid_tile root -> ~ touches fb (tile_area root) ->
  find_best_tile root fb = Throw.
Proof.
  intros Hz Hv HN. unfold find_best_tile. destruct (N.to_nat (kMaxZoomLevel - tz root)) as [|n] eqn:E; [unfold kMaxZoomLevel in E; lia|].
  cbn [best_tile_loop]. unfold kMaxZoomLevel. replace (tz root <? 20) with true by lia. cbn [negb].
  rewrite hits_children by assumption. replace (hits fb (direct_children root)) with (@nil tile); [reflexivity|].
  symmetry. apply filter_all_false, Forall_forall. intros c Hc. apply in_children in Hc. destruct Hc as (i & Hi & ->).
  destruct (boxes_touch fb _) eqn:EB; [|reflexivity]. exfalso. apply HN. apply boxes_touch_spec in EB.
  eapply touch_child_parent; eauto.
Qed.

(** whatever the box: the result lies in the root *)
Lemma best_tile_in_root root fb b : tz root <= 20 -> valid_tile root -> find_best_tile root fb = Ok b -> covers root b /\ tz b <= 20.
Proof.
  intros Hz Hv. unfold find_best_tile. generalize (N.to_nat (kMaxZoomLevel - tz root)). intros n.
  assert (HG : forall n t, covers root t -> tz t <= 20 -> valid_tile t -> best_tile_loop n fb t = Ok b -> covers root b /\ tz b <= 20).
  { clear n. induction n as [|n IH]; intros t HC Ht Hvt; cbn [best_tile_loop]; unfold kMaxZoomLevel; destruct (N.ltb_spec (tz t) 20) as [Hlt|Hge]; cbn [negb];
      try discriminate; try (intros H; apply Ok_inj in H; subst; split; assumption).
    rewrite hits_children by assumption. destruct (hits fb (direct_children t)) as [|c [|c' cs]] eqn:EH; cbn [bind]; [discriminate | |].
    - assert (HI : In c (hits fb (direct_children t))) by (rewrite EH; left; reflexivity).
      apply filter_In in HI. destruct HI as [HI _]. apply in_children in HI. destruct HI as (i & Hi & ->).
      apply IH; [eapply covers_trans; [eassumption | now apply covers_child_parent] | unfold child; cbn [tz]; lia | now apply valid_child].
    - intros H. apply Ok_inj in H. subst. split; assumption. }
  apply HG; [apply covers_refl | assumption | assumption].
Qed.
