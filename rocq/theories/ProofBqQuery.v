(** The tree of covered tiles: queries. *)
From Coq Require Import Permutation.
From Verif Require Import Base BaseProof ModelTile SpecTile ProofTile ModelQuadTree ProofQuadTree ProofQuadWalk ModelBqTree SpecBqTree ProofBqTree ProofBqSer.
Open Scope N_scope.

(** ** the trace *)
Definition down (q : tile) (k : nat) : list tile := match k with O => [] | S k' => trace_down q k' end.

Lemma world_anc q : valid_tile q -> anc (tz q) q = world.
Proof.
  intros [H1 H2]. unfold anc, world. rewrite N.sub_diag. f_equal; now apply N.div_small.
Qed.
Lemma bq_trace_S f b r : bq_trace (S f) (b :: r) =
  if tile_eqb (tile_parent b) (Tile 0 0 0) then Ok (b :: r)
  else do _ <- verify (length (b :: r) <=? 22)%nat; bq_trace f (tile_parent b :: b :: r).
Proof. reflexivity. Qed.
Lemma trace_down_length q k : length (trace_down q k) = S k.
Proof. induction k; cbn [trace_down length]; [reflexivity | now rewrite IHk]. Qed.
Lemma bq_trace_step q f j : tz q < 2 ^ 32 -> (S j < N.to_nat (tz q))%nat ->
  bq_trace (S f) (trace_down q j) = if (j <=? 21)%nat then bq_trace f (trace_down q (S j)) else Throw.
Proof.
  intros Hz Hj. destruct (trace_down_head q j) as [r Er]. rewrite Er, bq_trace_S, <- Er. rewrite anc_parent by lia.
  destruct (tile_eqb_spec (anc (N.of_nat j + 1) q) (Tile 0 0 0)) as [E|_].
  { exfalso. apply (f_equal tz) in E. rewrite anc_tz in E. cbn [tz] in E. lia. }
  rewrite trace_down_length. replace (anc (N.of_nat j + 1) q :: trace_down q j) with (trace_down q (S j)) by (cbn [trace_down]; do 2 f_equal; lia).
  change (S j <=? 22)%nat with (j <=? 21)%nat. now destruct (j <=? 21)%nat.
Qed.
Lemma bq_trace_ok q : valid_tile q -> tz q <= 23 -> forall n j f, (n + j + 1 = N.to_nat (tz q))%nat -> (n < f)%nat ->
  bq_trace f (trace_down q j) = Ok (down q (N.to_nat (tz q))).
Proof.
  intros HV Hz. induction n as [|n IH]; intros j f Hn Hf; (destruct f as [|f]; [lia|]).
  - destruct (trace_down_head q j) as [r Er]. rewrite Er, bq_trace_S, <- Er.
    rewrite anc_parent by lia. replace (N.of_nat j + 1) with (tz q) by lia. rewrite world_anc by assumption. rewrite tile_eqb_refl.
    replace (N.to_nat (tz q)) with (S j) by lia. reflexivity.
  - rewrite bq_trace_step by lia. replace (j <=? 21)%nat with true by lia. apply IH; lia.
Qed.
Lemma bq_trace_23 q : valid_tile q -> 0 < tz q <= 23 -> bq_trace 24 [q] = Ok (down q (N.to_nat (tz q))).
Proof. intros HV Hz. change [q] with (trace_down q 0). apply (bq_trace_ok q HV ltac:(lia) (N.to_nat (tz q) - 1)); lia. Qed.
Lemma bq_trace_deep q : 23 < tz q -> tz q < 2 ^ 32 -> bq_trace 24 [q] = Throw.
Proof.
  intros Hz Hz'. change [q] with (trace_down q 0).
  assert (X : forall f j, (j + f = 24)%nat -> (2 <= f)%nat -> bq_trace f (trace_down q j) = Throw).
  { induction f as [|f IH]; intros j Hj Hf; [lia|]. rewrite bq_trace_step by lia.
    destruct (Nat.leb_spec j 21) as [HJ|HJ]; [apply IH; lia | reflexivity]. }
  apply X; lia.
Qed.

(** ** the descent *)
Section Tree.
Context (tiles : list tile).
Notation any := (any tiles). Notation own := (own tiles). Notation btree_of := (btree_of tiles). Notation bdepth_ok := (bdepth_ok tiles).

Lemma btree_of_S d t : btree_of (S d) t = if own t then BLeaf else if any t then
  BNode (btree_of d (child t 0)) (btree_of d (child t 1)) (btree_of d (child t 2)) (btree_of d (child t 3)) else BNull.
Proof. reflexivity. Qed.
Lemma btree_leaf d t : btree_of d t = BLeaf <-> own t = true.
Proof.
  destruct d; cbn [ProofBqTree.btree_of]; destruct (own t), (any t); try tauto; split; discriminate || tauto.
Qed.
Lemma btree_node d t : is_node (btree_of d t) = true -> exists d', d = S d' /\ own t = false /\ any t = true.
Proof.
  destruct d as [|d]; [cbn [ProofBqTree.btree_of]|rewrite btree_of_S]; destruct (own t), (any t); try discriminate; eauto.
Qed.
Lemma kid4_tree d t i : i < 4 ->
  kid4 (btree_of d (child t 0)) (btree_of d (child t 1)) (btree_of d (child t 2)) (btree_of d (child t 3)) i = btree_of d (child t i).
Proof. intros Hi. destruct (lt4_cases i Hi) as [->|[->|[->| ->]]]; reflexivity. Qed.
Lemma own_under t u : covers t u -> own u = true -> any t = true.
Proof. intros HC HO. apply any_spec. exists u. split; [now apply own_spec | assumption]. Qed.
Lemma any_under t u : covers t u -> any u = true -> any t = true.
Proof. intros HC HA. apply any_spec in HA. destruct HA as (e & He & HE). apply any_spec. exists e. split; [assumption | eapply covers_trans; eauto]. Qed.

Lemma anc_child q k : (S k <= N.to_nat (tz q))%nat -> tz q < 2 ^ 32 ->
  anc (N.of_nat k) q = child (anc (N.of_nat (S k)) q) (quad_pos (anc (N.of_nat k) q)).
Proof.
  intros Hk Hz. rewrite <- (child_parent (anc (N.of_nat k) q)) at 1 by (rewrite anc_tz; lia). rewrite anc_parent by lia.
  do 2 f_equal. lia.
Qed.
Lemma down_S q k : down q (S k) = anc (N.of_nat k) q :: down q k.
Proof. destruct k; cbn [down trace_down]; [now rewrite anc_0|]. reflexivity. Qed.

Definition at_node (v : list N) (w : N) (d : nat) (t : tile) : Prop :=
  exists o, brepr v o (btree_of d t) /\ nth_error v o = Some w /\ is_node (btree_of d t) = true /\ bdepth_ok d t.

Lemma bq_descend_ok v q : tz q < 2 ^ 32 -> forall k d w, (k <= N.to_nat (tz q))%nat -> at_node v w d (anc (N.of_nat k) q) ->
  ((exists j, (j < k)%nat /\ own (anc (N.of_nat j) q) = true) /\ bq_descend v w (down q k) = Ok (Some true, kInvalidNode)) \/
  ((forall j, (j < k)%nat -> own (anc (N.of_nat j) q) = false) /\
    ((any q = false /\ bq_descend v w (down q k) = Ok (Some false, kInvalidNode)) \/
     (any q = true /\ own q = false /\ exists w' d', bq_descend v w (down q k) = Ok (None, w') /\ at_node v w' d' q /\ (bcount (btree_of d' q) <= bcount (btree_of d (anc (N.of_nat k) q)))%nat))).
Proof.
  intros Hz. induction k as [|k IH]; intros d w Hk HA.
  - right. split; [lia|]. right. rewrite anc_0 in HA |- *. pose proof HA as (o & _ & _ & HN & _). apply btree_node in HN. destruct HN as (d' & -> & H1 & H2).
    split; [assumption|]. split; [assumption|]. exists w, (S d'). split; [reflexivity|]. split; [assumption | lia].
  - rewrite down_S. set (t := anc (N.of_nat (S k)) q) in *. set (u := anc (N.of_nat k) q).
    destruct HA as (o & HR & HW & HN & HD). pose proof HN as HN'. apply btree_node in HN'. destruct HN' as (d' & -> & H1 & H2).
    assert (Eu : u = child t (quad_pos u)) by (apply anc_child; assumption).
    rewrite btree_of_S, H1, H2 in HR. destruct (brepr_kid _ _ _ _ _ _ _ (quad_pos u) HR HW (quad_pos_lt u)) as (B1 & B2 & B3).
    rewrite kid4_tree in B1, B2, B3 by apply quad_pos_lt. rewrite <- Eu in B1, B2, B3.
    assert (HDu : bdepth_ok d' u) by (rewrite Eu; now apply bdepth_child).
    assert (HB : (bcount (btree_of d' u) <= bcount (btree_of (S d') t))%nat).
    { rewrite btree_of_S, H1, H2. rewrite Eu at 1. cbn [bcount]. destruct (lt4_cases _ (quad_pos_lt u)) as [->|[->|[->| ->]]]; lia. }
    cbn [bq_descend]. rewrite B1, B2. destruct (btree_of d' u) as [| |c0 c1 c2 c3] eqn:EB.
    + right. apply btree_null in EB; [|assumption]. split.
      * intros j Hj. apply not_true_is_false. intros HO. apply (own_under u) in HO; [congruence|]. apply anc_anc_covers; lia.
      * left. split; [|reflexivity]. apply not_true_is_false. intros HO. apply (any_under u) in HO; [congruence|]. apply anc_covers. lia.
    + left. apply btree_leaf in EB. split; [|reflexivity]. exists k. split; [lia | assumption].
    + destruct (B3 eq_refl) as (R & w' & HW'). cbv zeta in R, HW'. unfold vget. rewrite HW'. cbn [bind].
      rewrite <- EB in R.
      assert (HA' : at_node v w' d' u) by (exists (N.to_nat (N.land w kOffsetMask + inner_before w (N.to_nat (quad_pos u)) 0)); rewrite EB in R |- *; auto).
      assert (HO : own u = false) by (destruct (own u) eqn:E; [|reflexivity]; apply btree_leaf with (d := d') in E; congruence).
      destruct (IH d' w' ltac:(lia) HA') as [((j & Hj & Ho) & E)|(Hno & IHR)].
      * left. split; [exists j; split; [lia | assumption] | assumption].
      * right. split; [intros j Hj; destruct (Nat.eq_dec j k) as [->|]; [assumption | apply Hno; lia]|].
        destruct IHR as [[A B]|(A & A' & x & y & B & C & D)]; [left; auto|]. right. split; [assumption|]. split; [assumption|].
        exists x, y. split; [assumption|]. split; [assumption|]. fold u in D. rewrite EB in D. lia.
Qed.

(** *** the whole tree *)
Definition holds (v : list N) (d : nat) : Prop :=
  bdepth_ok d world /\
  match btree_of d world with
  | BNull => v = [kEmptyRoot]
  | BLeaf => v = [kFullRoot]
  | BNode _ _ _ _ => brepr v 0 (btree_of d world) /\ length v = bcount (btree_of d world)
  end.

Lemma own_anc_covered q : (exists j, (j <= N.to_nat (tz q))%nat /\ own (anc (N.of_nat j) q) = true) <-> covered tiles q.
Proof.
  unfold covered. split.
  - intros (j & Hj & HO). exists (anc (N.of_nat j) q). split; [now apply own_spec | apply anc_covers; lia].
  - intros (e & He & HC). pose proof HC as [HC1 _]. apply covers_anc in HC. exists (N.to_nat (tz q - tz e)). split; [lia|].
    rewrite N2Nat.id, <- HC. now apply own_spec.
Qed.

Lemma find_parent_leaf_ok v d q : holds v d -> valid_tile q -> tz q <= 23 ->
  (covered tiles q /\ exists w, find_parent_leaf v q = Ok (Some true, w)) \/
  (~ covered tiles q /\ any q = false /\ exists w, find_parent_leaf v q = Ok (Some false, w)) \/
  (~ covered tiles q /\ any q = true /\ exists w d', find_parent_leaf v q = Ok (None, w) /\ at_node v w d' q /\ (bcount (btree_of d' q) <= length v)%nat).
Proof.
  intros [HD HH] HV Hz. pose proof (world_covers q HV) as HWC. unfold find_parent_leaf.
  destruct (btree_of d world) as [| |c0 c1 c2 c3] eqn:EB.
  - subst v. right. left. apply btree_null in EB; [|assumption].
    assert (HA : any q = false) by (apply not_true_is_false; intros HA; apply (any_under world) in HA; congruence).
    split; [|split; [assumption|]].
    + rewrite <- own_anc_covered. intros (j & Hj & HO). apply (own_under world) in HO; [congruence|]. apply world_covers. destruct HV. split; cbn [anc tx ty tz].
      * apply N.div_lt_upper_bound; [apply N.pow_nonzero; lia|]. rewrite <- N.pow_add_r. replace (N.of_nat j + (tz q - N.of_nat j)) with (tz q) by lia. assumption.
      * apply N.div_lt_upper_bound; [apply N.pow_nonzero; lia|]. rewrite <- N.pow_add_r. replace (N.of_nat j + (tz q - N.of_nat j)) with (tz q) by lia. assumption.
    + eexists. reflexivity.
  - subst v. left. apply btree_leaf in EB. apply own_spec in EB. split; [exists world; auto|]. eexists. reflexivity.
  - destruct HH as [HR HL]. cbn [brepr] in HR. destruct HR as (b & Hb & HW & HR').
    set (w := bword (N.of_nat b) c0 c1 c2 c3) in *.
    assert (HA : at_node v w d world).
    { exists 0%nat. rewrite EB. split; [|auto]. cbn [brepr]. exists b. auto. }
    unfold vget. rewrite HW. cbn [bind].
    replace (w =? kFullRoot) with false by (symmetry; apply N.eqb_neq; now apply bword_not_full).
    replace (w =? kEmptyRoot) with false by (symmetry; apply N.eqb_neq; now apply bword_not_empty).
    destruct (tile_eqb_spec q (Tile 0 0 0)) as [->|Hq].
    + right. right. change (Tile 0 0 0) with world in *. assert (HN : is_node (btree_of d world) = true) by now rewrite EB.
      apply btree_node in HN. destruct HN as (d' & -> & H1 & H2). split; [|split; [assumption|]].
      * intros (e & He & HC). apply covers_same_z in HC; [|destruct HC as [HC _]; cbn [tz world] in *; lia]. subst e. apply own_spec in He. congruence.
      * exists w, (S d'). split; [reflexivity|]. split; [assumption|]. rewrite EB. lia.
    + assert (Hz0 : 0 < tz q).
      { destruct (N.eq_dec (tz q) 0) as [E|]; [|lia]. exfalso. apply Hq. destruct q as [x y z]. unfold valid_tile in HV. cbn [tx ty tz] in *. subst z.
        change (2 ^ 0) with 1 in HV. f_equal; lia. }
      rewrite bq_trace_23 by (assumption || lia). cbn [bind].
      assert (Ew : world = anc (N.of_nat (N.to_nat (tz q))) q) by (rewrite N2Nat.id; symmetry; now apply world_anc).
      pose proof HA as HA'. rewrite Ew in HA'.
      assert (HW0 : own world = false) by (destruct (own world) eqn:E; [|reflexivity]; apply btree_leaf with (d := d) in E; congruence).
      destruct (bq_descend_ok v q ltac:(lia) _ _ _ (Nat.le_refl _) HA') as [((j & Hj & HO) & E)|(Hno & IHR)].
      * left. rewrite E. split; [apply own_anc_covered; exists j; split; [lia | assumption] | eauto].
      * assert (HC : ~ covered tiles q).
        { rewrite <- own_anc_covered. intros (j & Hj & HO). destruct (Nat.eq_dec j (N.to_nat (tz q))) as [->|]; [rewrite <- Ew in HO; congruence|].
          rewrite Hno in HO by lia. discriminate. }
        destruct IHR as [[A B]|(A & A' & x & y & B & C & D)].
        -- right. left. rewrite B. eauto.
        -- right. right. split; [assumption|]. split; [assumption|]. exists x, y. split; [assumption|]. split; [assumption|]. rewrite <- Ew in D. rewrite HL. rewrite EB in D. lia.
Qed.
Lemma find_parent_leaf_deep v d q : holds v d -> is_node (btree_of d world) = true -> 23 < tz q -> tz q < 2 ^ 32 -> find_parent_leaf v q = Throw.
Proof.
  intros [HD HH] HN Hz Hz'. destruct (btree_of d world) as [| |c0 c1 c2 c3]; try discriminate. destruct HH as [HR _].
  cbn [brepr] in HR. destruct HR as (b & Hb & HW & _). unfold find_parent_leaf, vget. rewrite HW. cbn [bind].
  destruct (N.eqb_spec (bword (N.of_nat b) c0 c1 c2 c3) kFullRoot) as [E|_]; [now apply bword_not_full in E|].
  destruct (N.eqb_spec (bword (N.of_nat b) c0 c1 c2 c3) kEmptyRoot) as [E|_]; [now apply bword_not_empty in E|].
  destruct (tile_eqb_spec q (Tile 0 0 0)) as [->|]; [cbn [tz] in Hz; lia|]. now rewrite bq_trace_deep.
Qed.

(** *** leaves *)
Fixpoint tleaves (d : nat) (t : tile) : list tile :=
  if own t then [t]
  else if any t then
    match d with
    | O => []
    | S d' => tleaves d' (child t 0) ++ tleaves d' (child t 1) ++ tleaves d' (child t 2) ++ tleaves d' (child t 3)
    end
  else [].
Lemma tleaves_S d t : tleaves (S d) t = if own t then [t] else if any t then
   tleaves d (child t 0) ++ tleaves d (child t 1) ++ tleaves d (child t 2) ++ tleaves d (child t 3) else [].
Proof. reflexivity. Qed.
Definition unowned_between (t e : tile) : Prop := forall e', In e' tiles -> covers t e' -> covers e' e -> e' = e.

Lemma child_covers_cases t e : covers t e -> t <> e -> exists i, i < 4 /\ covers (child t i) e.
Proof.
  intros HC HN. pose proof (covers_split t e) as HS. unfold b2n in HS.
  replace (coversb t e) with true in HS by (symmetry; now apply coversb_spec).
  destruct (tile_eqb_spec e t) as [E|_]; [congruence|].
  destruct (coversb (child t 0) e) eqn:E0; [exists 0; split; [lia | now apply coversb_spec]|].
  destruct (coversb (child t 1) e) eqn:E1; [exists 1; split; [lia | now apply coversb_spec]|].
  destruct (coversb (child t 2) e) eqn:E2; [exists 2; split; [lia | now apply coversb_spec]|].
  destruct (coversb (child t 3) e) eqn:E3; [exists 3; split; [lia | now apply coversb_spec]|]. lia.
Qed.
Lemma child_disjoint t i j e : i < 4 -> j < 4 -> covers (child t i) e -> covers (child t j) e -> i = j.
Proof.
  intros Hi Hj H1 H2. apply (child_inj t); try assumption. apply covers_same_z; [|reflexivity]. eapply covers_chain; eauto. cbn [child tz]. lia.
Qed.
Lemma tleaves_in d : forall t e, bdepth_ok d t -> (In e (tleaves d t) <-> In e tiles /\ covers t e /\ unowned_between t e).
Proof.
  assert (OW : forall t e, own t = true -> (In e [t] <-> In e tiles /\ covers t e /\ unowned_between t e)).
  { intros t e HO. apply own_spec in HO. split.
    - intros [<-|[]]. split; [assumption|]. split; [apply covers_refl|]. intros e' _ H1 H2.
      pose proof H1 as [L1 _]. pose proof H2 as [L2 _]. symmetry. apply covers_same_z; [assumption | lia].
    - intros (H1 & H2 & H3). left. apply H3; [assumption | apply covers_refl | assumption]. }
  assert (NA : forall t e, any t = false -> (In e [] <-> In e tiles /\ covers t e /\ unowned_between t e)).
  { intros t e HA. split; [intros [] | intros (H1 & H2 & _)]. apply own_spec in H1. apply (own_under t) in H1; [congruence | assumption]. }
  induction d as [|d IH]; intros t e HD.
  - cbn [tleaves]. destruct (own t) eqn:HO; [now apply OW|]. destruct (any t) eqn:HA; [|now apply NA].
    rewrite (bdepth0 _ _ HD HA) in HO. discriminate.
  - rewrite tleaves_S. destruct (own t) eqn:HO; [now apply OW|]. destruct (any t) eqn:HA; [|now apply NA].
    assert (X : forall i, i < 4 -> (In e (tleaves d (child t i)) <-> In e tiles /\ covers (child t i) e /\ unowned_between (child t i) e))
      by (intros i Hi; apply IH; now apply bdepth_child).
    assert (Y : forall i, i < 4 -> covers (child t i) e -> (unowned_between (child t i) e <-> unowned_between t e)).
    { intros i Hi HC. split; intros HU e' H1 H2 H3; apply HU; try assumption.
      - assert (t <> e') by (intros <-; apply own_spec in H1; congruence).
        destruct (child_covers_cases t e' H2 H) as (j & Hj & HCj). replace i with j; [assumption|].
        apply (child_disjoint t i j e) in HC; [congruence | assumption | assumption|]. eapply covers_trans; eauto.
      - apply (covers_trans t (child t i) e'); [now apply covers_child_parent | exact H2]. }
    rewrite !in_app_iff, !X by lia. split.
    + intros H. assert (HI : exists i, i < 4 /\ In e tiles /\ covers (child t i) e /\ unowned_between (child t i) e).
      { destruct H as [H|[H|[H|H]]]; [exists 0 | exists 1 | exists 2 | exists 3]; (split; [lia | assumption]). }
      destruct HI as (i & Hi & H1 & H2 & H3). split; [assumption|]. split; [apply (covers_trans t (child t i) e); [now apply covers_child_parent | exact H2] | now apply (Y i)].
    + intros (H1 & H2 & H3). assert (t <> e) by (intros <-; apply own_spec in H1; congruence).
      destruct (child_covers_cases t e H2 H) as (j & Hj & HCj).
      assert (H4 : In e tiles /\ covers (child t j) e /\ unowned_between (child t j) e) by (split; [assumption|]; split; [assumption | now apply (Y j)]).
      destruct (lt4_cases j Hj) as [->|[->|[->| ->]]]; tauto.
Qed.
Lemma tleaves_covers d : forall t e, In e (tleaves d t) -> covers t e.
Proof.
  induction d as [|d IH]; intros t e; [cbn [tleaves] | rewrite tleaves_S].
  - destruct (own t), (any t); intros H; try destruct H as [<-|[]]; try destruct H; apply covers_refl.
  - destruct (own t), (any t); intros H; try (destruct H as [<-|[]]; apply covers_refl); try (destruct H; fail).
    rewrite !in_app_iff in H. assert (HI : exists i, i < 4 /\ In e (tleaves d (child t i))).
    { destruct H as [H|[H|[H|H]]]; [exists 0 | exists 1 | exists 2 | exists 3]; (split; [lia | assumption]). }
    destruct HI as (i & Hi & HI). eapply covers_trans; [now apply (covers_child_parent t i) | now apply IH].
Qed.
Lemma NoDup_app_disj {A} (a b : list A) : NoDup a -> NoDup b -> (forall x, In x a -> In x b -> False) -> NoDup (a ++ b).
Proof.
  intros Ha Hb HD. induction Ha as [|x a Hx Ha IH]; [assumption|]. cbn [app]. constructor.
  - rewrite in_app_iff. intros [H|H]; [contradiction | apply (HD x); [now left | assumption]].
  - apply IH. intros y H1 H2. apply (HD y); [now right | assumption].
Qed.
Lemma four_nodup (f : N -> list tile) t : (forall i e, i < 4 -> In e (f i) -> covers (child t i) e) -> (forall i, i < 4 -> NoDup (f i)) ->
  NoDup (f 0 ++ f 1 ++ f 2 ++ f 3).
Proof.
  intros HC HN. assert (X : forall i j e, i < 4 -> j < 4 -> i <> j -> In e (f i) -> In e (f j) -> False).
  { intros i j e Hi Hj Hij H1 H2. apply Hij. apply (child_disjoint t i j e); auto. }
  repeat apply NoDup_app_disj; try (apply HN; lia); intros e He HE; rewrite ?in_app_iff in HE.
  - apply (X 2 3 e); (assumption || lia).
  - destruct HE as [HE|HE]; [apply (X 1 2 e) | apply (X 1 3 e)]; (assumption || lia).
  - destruct HE as [HE|[HE|HE]]; [apply (X 0 1 e) | apply (X 0 2 e) | apply (X 0 3 e)]; (assumption || lia).
Qed.
Lemma tleaves_nodup d : forall t, NoDup (tleaves d t).
Proof.
  induction d as [|d IH]; intros t; [cbn [tleaves] | rewrite tleaves_S]; destruct (own t), (any t); try (repeat constructor; intros []; fail).
  apply (four_nodup (fun i => tleaves d (child t i)) t); [intros i e Hi; apply tleaves_covers | intros; apply IH].
Qed.

(** the tiles of the inner nodes *)
Fixpoint inners (d : nat) (t : tile) : list tile :=
  match d with
  | O => []
  | S d' => if own t then [] else if any t then t :: inners d' (child t 0) ++ inners d' (child t 1) ++ inners d' (child t 2) ++ inners d' (child t 3) else []
  end.
Lemma inners_count d : forall t, length (inners d t) = bcount (btree_of d t).
Proof.
  induction d as [|d IH]; intros t; [cbn [inners ProofBqTree.btree_of]; now destruct (own t), (any t)|].
  rewrite btree_of_S. cbn [inners]. destruct (own t), (any t); try reflexivity. cbn [length bcount]. rewrite !app_length, !IH. lia.
Qed.
Lemma inners_S d t : inners (S d) t = if own t then [] else if any t then t :: inners d (child t 0) ++ inners d (child t 1) ++ inners d (child t 2) ++ inners d (child t 3) else [].
Proof. reflexivity. Qed.
Lemma inners_in d : forall t u, In u (inners d t) -> covers t u /\ own u = false /\ any u = true.
Proof.
  induction d as [|d IH]; intros t u; [intros []|]. rewrite inners_S. destruct (own t) eqn:HO; [intros []|]. destruct (any t) eqn:HA; [|intros []].
  intros [<-|H]; [split; [apply covers_refl | auto]|]. rewrite !in_app_iff in H. assert (HI : exists i, i < 4 /\ In u (inners d (child t i))).
  { destruct H as [H|[H|[H|H]]]; [exists 0 | exists 1 | exists 2 | exists 3]; (split; [lia | assumption]). }
  destruct HI as (i & Hi & HI). apply IH in HI. split; [|tauto]. eapply covers_trans; [now apply (covers_child_parent t i) | tauto].
Qed.
Lemma inners_nodup d : forall t, NoDup (inners d t).
Proof.
  induction d as [|d IH]; intros t; [constructor|]. rewrite inners_S. destruct (own t), (any t); try constructor.
  - rewrite !in_app_iff. intros H. assert (HI : exists i, i < 4 /\ In t (inners d (child t i))).
    { destruct H as [H|[H|[H|H]]]; [exists 0 | exists 1 | exists 2 | exists 3]; (split; [lia | assumption]). }
    destruct HI as (i & Hi & HI). apply inners_in in HI. destruct HI as [[HI _] _]. cbn [child tz] in HI. lia.
  - apply (four_nodup (fun i => inners d (child t i)) t); [intros i e Hi HI; now apply inners_in in HI | intros; apply IH].
Qed.

(** *** the enumeration loop *)
Definition tile_dec (a b : tile) : {a = b} + {a <> b}.
Proof. destruct (tile_eqb a b) eqn:E; [left; now apply tile_eqb_eq | right; intros H; apply tile_eqb_eq in H; congruence]. Defined.
Definition item : Type := tile * N * nat.
Definition it_node (v : list N) (x : item) : Prop := at_node v (snd (fst x)) (snd x) (fst (fst x)).
Definition it_tree (x : item) : btree := btree_of (snd x) (fst (fst x)).
Definition it_leaves (xs : list item) : list tile := concat (map (fun x => tleaves (snd x) (fst (fst x))) xs).
Definition it_count (xs : list item) : nat := fold_right (fun x s => (bcount (it_tree x) + s)%nat) 0%nat xs.
Lemma it_count_app a b : it_count (a ++ b) = (it_count a + it_count b)%nat.
Proof. unfold it_count. induction a as [|x a IH]; [reflexivity|]. cbn [app fold_right]. rewrite IH. lia. Qed.
Lemma it_leaves_app a b : it_leaves (a ++ b) = it_leaves a ++ it_leaves b.
Proof. unfold it_leaves. now rewrite map_app, concat_app. Qed.

Lemma inner_before_S w n : forall i, inner_before w (S n) i = inner_before w n i +
  (if negb (bit_set w (i + N.of_nat n + kFalseOffset)) && negb (bit_set w (i + N.of_nat n + kTrueOffset)) then 1 else 0).
Proof.
  induction n as [|n IH]; intros i; [cbn [inner_before N.of_nat]; rewrite !N.add_0_r; reflexivity|].
  change (inner_before w (S (S n)) i) with ((if negb (bit_set w (i + kFalseOffset)) && negb (bit_set w (i + kTrueOffset)) then 1 else 0) + inner_before w (S n) (i + 1)).
  rewrite IH. replace (i + 1 + N.of_nat n) with (i + N.of_nat (S n)) by lia. cbn [inner_before]. lia.
Qed.
Lemma tleaves_null d t : bdepth_ok d t -> btree_of d t = BNull -> tleaves d t = [].
Proof.
  intros HD E. apply btree_null in E; [|assumption].
  assert (HO : own t = false) by (apply not_true_is_false; intros H; apply own_any in H; congruence).
  destruct d; cbn [tleaves]; now rewrite HO, E.
Qed.
Lemma tleaves_leaf d t : btree_of d t = BLeaf -> tleaves d t = [t].
Proof. intros E. apply btree_leaf in E. destruct d; cbn [tleaves]; now rewrite E. Qed.

Lemma lc_step v o w d t n cs st res : own t = false -> any t = true -> bdepth_ok (S d) t ->
  brepr v o (btree_of (S d) t) -> nth_error v o = Some w -> (n < 4)%nat ->
  exists xs ls, leaf_children v w (child t (N.of_nat n) :: cs) (inner_before w n 0) st res =
      leaf_children v w cs (inner_before w (S n) 0) (map fst xs ++ st) (res ++ ls) /\
    Forall (it_node v) xs /\ it_count xs = bcount (btree_of d (child t (N.of_nat n))) /\
    ls ++ it_leaves xs = tleaves d (child t (N.of_nat n)).
Proof.
  intros HO HA HD HR HW Hn. rewrite btree_of_S, HO, HA in HR.
  assert (Hi : N.of_nat n < 4) by lia.
  destruct (brepr_kid _ _ _ _ _ _ _ (N.of_nat n) HR HW Hi) as (B1 & B2 & B3).
  rewrite kid4_tree in B1, B2, B3 by assumption. rewrite Nat2N.id in B3.
  rewrite inner_before_S, N.add_0_l, B1, B2.
  assert (HDu : bdepth_ok d (child t (N.of_nat n))) by now apply bdepth_child.
  cbn [leaf_children]. rewrite quad_pos_child by assumption. rewrite B1, B2.
  set (u := child t (N.of_nat n)) in *. destruct (btree_of d u) as [| |c0 c1 c2 c3] eqn:EB.
  - exists [], []. rewrite app_nil_r. cbn [negb andb map app]. rewrite N.add_0_r. split; [reflexivity|]. split; [constructor|].
    split; [reflexivity|]. symmetry. now apply tleaves_null.
  - exists [], [u]. cbn [negb andb map app]. rewrite N.add_0_r. split; [reflexivity|]. split; [constructor|].
    split; [reflexivity|]. symmetry. now apply tleaves_leaf.
  - destruct (B3 eq_refl) as (R & w' & HW'). cbv zeta in R, HW'. unfold vget. rewrite HW'. cbn [bind negb andb].
    exists [(u, w', d)], []. rewrite app_nil_r. split; [reflexivity|]. split; [|split].
    + constructor; [|constructor]. exists (N.to_nat (N.land w kOffsetMask + inner_before w n 0)). cbn [fst snd]. rewrite EB. auto.
    + unfold it_count, it_tree. cbn [fold_right fst snd]. rewrite EB. lia.
    + unfold it_leaves. cbn [map concat fst snd app]. now rewrite app_nil_r.
Qed.

Lemma leaf_loop_ok v : forall fuel xs res, Forall (it_node v) xs -> (it_count xs <= fuel)%nat ->
  exists r, leaf_loop fuel v (map fst xs) res = Ok r /\ Permutation r (res ++ it_leaves xs).
Proof.
  induction fuel as [|fuel IH]; intros xs res HF HC.
  - destruct xs as [|[[t w] d] xs]; [exists res; split; [reflexivity | cbn; now rewrite app_nil_r]|].
    exfalso. inversion HF as [|? ? (o & _ & _ & HN & _) _]; subst. cbn [fst snd] in HN. cbn [it_count fold_right] in HC. unfold it_tree in HC. cbn [fst snd] in HC.
    destruct (btree_of d t); try discriminate. cbn [bcount] in HC. lia.
  - destruct xs as [|[[t w] d] xs]; [exists res; split; [reflexivity | cbn; now rewrite app_nil_r]|].
    inversion HF as [|? ? (o & HR & HW & HN & HD) HF']; subst. cbn [fst snd] in *.
    destruct (btree_node _ _ HN) as (d' & -> & HO & HA).
    cbn [map fst leaf_loop].
    replace (direct_children t) with [child t (N.of_nat 0); child t (N.of_nat 1); child t (N.of_nat 2); child t (N.of_nat 3)]
      by (unfold direct_children, child; cbn [N.of_nat Pos.of_succ_nat Pos.succ]; change (0 mod 2) with 0; change (0 / 2) with 0; change (1 mod 2) with 1; change (1 / 2) with 0; change (2 mod 2) with 0; change (2 / 2) with 1; change (3 mod 2) with 1; change (3 / 2) with 1; rewrite !N.add_0_r; reflexivity).
    destruct (lc_step v o w d' t 0 [child t (N.of_nat 1); child t (N.of_nat 2); child t (N.of_nat 3)] (map fst xs) res HO HA HD HR HW ltac:(lia)) as (x0 & l0 & E0 & F0 & C0 & P0).
    destruct (lc_step v o w d' t 1 [child t (N.of_nat 2); child t (N.of_nat 3)] (map fst x0 ++ map fst xs) (res ++ l0) HO HA HD HR HW ltac:(lia)) as (x1 & l1 & E1 & F1 & C1 & P1).
    destruct (lc_step v o w d' t 2 [child t (N.of_nat 3)] (map fst x1 ++ map fst x0 ++ map fst xs) ((res ++ l0) ++ l1) HO HA HD HR HW ltac:(lia)) as (x2 & l2 & E2 & F2 & C2 & P2).
    destruct (lc_step v o w d' t 3 [] (map fst x2 ++ map fst x1 ++ map fst x0 ++ map fst xs) (((res ++ l0) ++ l1) ++ l2) HO HA HD HR HW ltac:(lia)) as (x3 & l3 & E3 & F3 & C3 & P3).
    match goal with |- context [leaf_children v w _ ?z _ _] => change z with (inner_before w 0 0) end.
    rewrite E0, E1, E2, E3. cbn [leaf_children bind].
    rewrite <- !map_app.
    destruct (IH (x3 ++ x2 ++ x1 ++ x0 ++ xs) ((((res ++ l0) ++ l1) ++ l2) ++ l3)) as (r & ER & PR).
    { rewrite !Forall_app. auto. }
    { rewrite !it_count_app. unfold it_count in HC at 1. cbn [fold_right] in HC. fold (it_count xs) in HC. unfold it_tree in HC at 1. cbn [fst snd] in HC.
      rewrite btree_of_S, HO, HA in HC. cbn [bcount] in HC. change (N.of_nat 0) with 0 in C0; change (N.of_nat 1) with 1 in C1; change (N.of_nat 2) with 2 in C2; change (N.of_nat 3) with 3 in C3. lia. }
    exists r. split; [exact ER|]. rewrite PR. rewrite !it_leaves_app.
    change (it_leaves ((t, w, S d') :: xs)) with (tleaves (S d') t ++ it_leaves xs). rewrite tleaves_S, HO, HA.
    change (N.of_nat 0) with 0 in P0; change (N.of_nat 1) with 1 in P1; change (N.of_nat 2) with 2 in P2; change (N.of_nat 3) with 3 in P3. rewrite <- P0, <- P1, <- P2, <- P3. rewrite <- !app_assoc.
    apply Permutation_app_head. clear.
    apply Permutation_app_head.
    generalize (it_leaves xs) as a, (it_leaves x0) as a0, (it_leaves x1) as a1, (it_leaves x2) as a2, (it_leaves x3) as a3. intros.
    apply (Permutation_count_occ tile_dec). intros x. rewrite !count_occ_app. lia.
Qed.

(** ** the results *)
Lemma all_leafs_ok v d q : holds v d -> valid_tile q -> tz q <= 23 ->
  exists L, bq_all_leafs v q = Ok L /\ NoDup L /\
    (covered tiles q -> L = [q]) /\
    (~ covered tiles q -> forall e, In e L <-> maximal tiles e /\ covers q e).
Proof.
  intros HH HV Hz. unfold bq_all_leafs.
  destruct (find_parent_leaf_ok v d q HH HV Hz) as [(HC & w & ->)|[(HC & HA & w & ->)|(HC & HA & w & d' & -> & HN & HL)]]; cbn [bind].
  - exists [q]. split; [reflexivity|]. split; [repeat constructor; intros []|]. split; [reflexivity | contradiction].
  - exists []. split; [reflexivity|]. split; [constructor|]. split; [contradiction|]. intros _ e. split; [intros []|].
    intros [[H1 _] H2]. apply own_spec in H1. apply (own_under q) in H1; [congruence | assumption].
  - destruct (leaf_loop_ok v (length v) [(q, w, d')] []) as (r & ER & PR).
    { constructor; [exact HN | constructor]. }
    { unfold it_count, it_tree. cbn [fold_right fst snd]. lia. }
    cbn [map fst] in ER. rewrite ER. exists r. split; [reflexivity|].
    cbn [app] in PR. unfold it_leaves in PR. cbn [map concat fst snd] in PR. rewrite app_nil_r in PR.
    split; [apply Permutation_sym in PR; eapply Permutation_NoDup; [exact PR | apply tleaves_nodup]|].
    split; [contradiction|]. intros _ e.
    assert (HI : In e r <-> In e (tleaves d' q)) by (split; apply Permutation_in; [assumption | now apply Permutation_sym]).
    rewrite HI. destruct HN as (o & _ & _ & _ & HD). rewrite tleaves_in by assumption. unfold maximal, unowned_between.
    split.
    + intros (H1 & H2 & H3). split; [|assumption]. split; [assumption|]. intros e' I1 I2. apply H3; try assumption.
      destruct (N.le_gt_cases (tz q) (tz e')) as [Hle|Hgt]; [now apply (covers_chain q e' e)|].
      exfalso. apply HC. exists e'. split; [assumption|]. apply (covers_chain e' q e); [assumption | assumption | lia].
    + intros [[H1 H2] H3]. auto.
Qed.
End Tree.


Lemma make_bq_tree_ok tiles : Forall (fun t => tz t < 2 ^ 31 /\ valid_tile t) tiles -> tree_fits tiles ->
  exists v d, make_bq_tree tiles = Ok v /\ holds tiles v d /\ Forall (fun w => w < 2 ^ 32) v /\ v <> [].
Proof.
  intros HF HT. assert (HNE : tiles = [] \/ tiles <> []) by (destruct tiles; [now left | now right]). destruct HNE as [->|HNE].
  - exists [kEmptyRoot], 0%nat. split; [reflexivity|]. split; [|split; [repeat constructor | discriminate]]. split; [constructor|]. reflexivity.
  - destruct (bbuild_root tiles) as (d & HD & EB & HA); [assumption | assumption|].
    assert (EM : make_bq_tree tiles = match bq_build (bq_insert [[]] tiles) with [(_, BLeaf)] => Ok [kFullRoot] | [(_, root)] => bq_serialize root | _ => Throw end)
      by (destruct tiles; [contradiction | reflexivity]).
    rewrite EM, EB. pose proof (btree_null tiles d world HD) as HN.
    destruct (btree_of tiles d world) as [| |c0 c1 c2 c3] eqn:EW.
    + exfalso. destruct HN as [HN _]. rewrite HN in HA by reflexivity. discriminate.
    + exists [kFullRoot], d. split; [reflexivity|]. split; [split; [assumption | now rewrite EW]|]. split; [repeat constructor | discriminate].
    + assert (HB : N.of_nat (bcount (BNode c0 c1 c2 c3)) <= 2 ^ 24).
      { rewrite <- EW, <- inners_count. apply HT; [apply inners_nodup|]. intros t Ht. apply inners_in in Ht. destruct Ht as (_ & H1 & H2).
        apply any_spec in H2. destruct H2 as (e & He & HC). exists e. split; [assumption|]. split; [assumption|]. intros <-. apply own_spec in He. congruence. }
      destruct (bserialize_ok (bcount (BNode c0 c1 c2 c3)) [(O, BNode c0 c1 c2 c3)] [0]) as (v & E & HL & HS & _ & HR).
      { unfold btotal. cbn [fold_right snd]. lia. }
      { constructor; [|constructor]. cbn [fst snd is_node length nth_error]. auto. }
      { cbn [map fst]. repeat constructor. intros []. }
      { cbn [length]. lia. }
      { unfold btotal. cbn [fold_right snd length]. lia. }
      exists v, d. split; [exact E|]. inversion HR as [|? ? HR1 _]; subst. cbn [fst snd] in HR1.
      unfold btotal in HL. cbn [fold_right snd length] in HL.
      split; [|split].
      * split; [assumption|]. rewrite EW. split; [assumption | lia].
      * apply HS. repeat constructor.
      * intros ->. cbn [length bcount] in HL. lia.
Qed.

(** ** storage *)
Lemma u32_words_bytes v : Forall (fun w => w < 2 ^ 32) v -> u32_words (length v) (u32_bytes v) = v.
Proof.
  induction 1 as [|w v Hw HF IH]; [reflexivity|]. cbn [length u32_words].
  change (u32_bytes (w :: v)) with (le_bytes 4 w ++ u32_bytes v).
  rewrite firstn_app_exact', skipn_app_exact' by reflexivity. rewrite le_val_bytes by assumption. now rewrite IH.
Qed.
Lemma bq_of_string_ok v : Forall (fun w => w < 2 ^ 32) v -> bq_of_string (bq_string v) = Ok v.
Proof.
  intros HF. unfold bq_of_string, bq_string, blen. rewrite u32_bytes_length.
  replace (N.of_nat (4 * length v) mod 4 =? 0) with true by lia. cbn [verify bind].
  replace (4 * length v / 4)%nat with (length v) by lia. now rewrite u32_words_bytes.
Qed.

Lemma make_bq_tree_empty v : make_bq_tree [] = Ok v -> v = [kEmptyRoot].
Proof. intros H. apply Ok_inj in H. now subst. Qed.

Lemma contains_ok tiles : Forall (fun t => tz t < 2 ^ 31 /\ valid_tile t) tiles -> tree_fits tiles ->
  exists v, make_bq_tree tiles = Ok v /\
    forall q, valid_tile q -> tz q <= 23 -> exists b, bq_contains v q = Ok b /\ (b = true <-> covered tiles q).
Proof.
  intros HF HT. destruct (make_bq_tree_ok tiles HF HT) as (v & d & E & HH & _). exists v. split; [assumption|]. intros q HV Hz. unfold bq_contains.
  destruct (find_parent_leaf_ok tiles v d q HH HV Hz) as [(HC & w & ->)|[(HC & HA & w & ->)|(HC & HA & w & d' & -> & HN & HL)]]; cbn [bind]; eexists; (split; [reflexivity|]); intuition discriminate.
Qed.
Lemma contains_deep tiles : Forall (fun t => tz t < 2 ^ 31 /\ valid_tile t) tiles -> tree_fits tiles ->
  tiles <> [] -> ~ In (Tile 0 0 0) tiles ->
  exists v, make_bq_tree tiles = Ok v /\
    forall q, 23 < tz q -> tz q < 2 ^ 32 -> bq_contains v q = Throw /\ bq_all_leafs v q = Throw.
Proof.
  intros HF HT HN HW. destruct (make_bq_tree_ok tiles HF HT) as (v & d & E & HH & _). exists v. split; [assumption|]. intros q Hz Hz'.
  destruct (bbuild_root tiles) as (d0 & _ & _ & HA); [assumption | assumption|].
  assert (HNo : is_node (btree_of tiles d world) = true).
  { pose proof HH as [HD _]. pose proof (btree_null tiles d world HD) as [X _]. pose proof (btree_leaf tiles d world) as [Y _].
    destruct (btree_of tiles d world); [rewrite X in HA by reflexivity; discriminate | | reflexivity].
    exfalso. apply HW. apply own_spec. now apply Y. }
  unfold bq_contains, bq_all_leafs. now rewrite (find_parent_leaf_deep tiles v d q HH HNo Hz Hz').
Qed.

Lemma maximal_above tiles : forall n e, tz e <= N.of_nat n -> In e tiles -> exists m, maximal tiles m /\ covers m e.
Proof.
  assert (DEC : forall e, In e tiles -> maximal tiles e \/ exists e', In e' tiles /\ covers e' e /\ e' <> e).
  { intros e He. destruct (existsb (fun x => coversb x e && negb (tile_eqb x e)) tiles) eqn:EX.
    - right. apply existsb_exists in EX. destruct EX as (x & H1 & H2). apply andb_true_iff in H2. destruct H2 as [H2 H3].
      exists x. split; [assumption|]. split; [now apply coversb_spec|]. intros ->. now rewrite tile_eqb_refl in H3.
    - left. split; [assumption|]. intros x H1 H2. destruct (tile_eqb_spec x e) as [|HN]; [assumption|]. exfalso.
      assert (HE : existsb (fun x => coversb x e && negb (tile_eqb x e)) tiles = true).
      { apply existsb_exists. exists x. split; [assumption|]. apply andb_true_iff. split; [now apply coversb_spec|].
        destruct (tile_eqb_spec x e); [contradiction | reflexivity]. }
      congruence. }
  induction n as [|n IH]; intros e Hz He; (destruct (DEC e He) as [|(x & H1 & H2 & H3)]; [exists e; split; [assumption | apply covers_refl]|]).
  - exfalso. apply H3. pose proof H2 as [H2' _]. apply covers_same_z; [assumption | lia].
  - destruct (IH x) as (m & M1 & M2); [|assumption|exists m; split; [assumption | eapply covers_trans; eauto]].
    pose proof H2 as [H2' _]. destruct (N.eq_dec (tz x) (tz e)) as [E|]; [|lia]. exfalso. apply H3. now apply covers_same_z.
Qed.
Lemma leafs_result tiles : Forall (fun t => tz t < 2 ^ 31 /\ valid_tile t) tiles -> tree_fits tiles ->
  exists v, make_bq_tree tiles = Ok v /\
    forall q, valid_tile q -> tz q <= 23 -> exists L, bq_all_leafs v q = Ok L /\ NoDup L /\
      (covered tiles q -> L = [q]) /\
      (~ covered tiles q -> forall e, In e L <-> maximal tiles e /\ covers q e /\ e <> q) /\
      (forall u, covers q u -> (covered tiles u <-> exists e, In e L /\ covers e u)).
Proof.
  intros HF HT. destruct (make_bq_tree_ok tiles HF HT) as (v & d & E & HH & _). exists v. split; [assumption|]. intros q HV Hz.
  destruct (all_leafs_ok tiles v d q HH HV Hz) as (L & EL & HN & H1 & H2). exists L. split; [assumption|]. split; [assumption|]. split; [assumption|].
  split.
  { intros HC e. rewrite (H2 HC). split; [|tauto]. intros [A B]. split; [assumption|]. split; [assumption|]. intros ->. apply HC. exists q. split; [apply A | apply covers_refl]. }
  intros u HU.
  assert (DEC : covered tiles q \/ ~ covered tiles q).
  { unfold covered. destruct (existsb (fun x => coversb x q) tiles) eqn:EX.
    - left. apply existsb_exists in EX. destruct EX as (x & A & B). exists x. split; [assumption | now apply coversb_spec].
    - right. intros (x & A & B). assert (existsb (fun x => coversb x q) tiles = true); [|congruence]. apply existsb_exists. exists x. split; [assumption | now apply coversb_spec]. }
  destruct DEC as [HC|HC].
  - rewrite (H1 HC). split; [intros _; exists q; split; [now left | assumption]|].
    intros _. destruct HC as (x & A & B). exists x. split; [assumption | eapply covers_trans; eauto].
  - split.
    + intros (x & A & B). destruct (maximal_above tiles (N.to_nat (tz x)) x ltac:(lia) A) as (m & M1 & M2).
      assert (MU : covers m u) by (eapply covers_trans; eauto).
      exists m. split; [|assumption]. apply (H2 HC). split; [assumption|].
      destruct (N.le_gt_cases (tz q) (tz m)) as [Hle|Hgt]; [now apply (covers_chain q m u)|].
      exfalso. apply HC. exists m. split; [apply M1|]. apply (covers_chain m q u); [assumption | assumption | lia].
    + intros (x & A & B). apply (H2 HC) in A. exists x. split; [apply A | assumption].
Qed.
Lemma stored_result tiles : Forall (fun t => tz t < 2 ^ 31 /\ valid_tile t) tiles -> tree_fits tiles ->
  exists v, make_bq_tree tiles = Ok v /\ bq_of_string (bq_string v) = Ok v.
Proof.
  intros HF HT. destruct (make_bq_tree_ok tiles HF HT) as (v & d & E & _ & HW & _). exists v. split; [assumption | now apply bq_of_string_ok].
Qed.
Lemma bad_length bs : (length bs mod 4 <> 0)%nat -> bq_of_string bs = Throw.
Proof. intros H. unfold bq_of_string, blen. replace (N.of_nat (length bs) mod 4 =? 0) with false by lia. reflexivity. Qed.
Lemma string_of_of_string : forall n bs, (length bs = 4 * n)%nat -> bytes_ok bs -> u32_bytes (u32_words n bs) = bs.
Proof.
  induction n as [|n IH]; intros bs HL HB; cbn [u32_words].
  - destruct bs; [reflexivity | discriminate].
  - change (u32_bytes (le_val (firstn 4 bs) :: u32_words n (skipn 4 bs))) with (le_bytes 4 (le_val (firstn 4 bs)) ++ u32_bytes (u32_words n (skipn 4 bs))).
    rewrite <- (firstn_skipn 4 bs) in HB. apply Forall_app in HB. destruct HB as [HB1 HB2].
    rewrite IH; [|rewrite skipn_length; lia | assumption].
    replace (le_bytes 4 (le_val (firstn 4 bs))) with (firstn 4 bs); [apply firstn_skipn|].
    symmetry. assert (HF : length (firstn 4 bs) = 4%nat) by (rewrite firstn_length; lia). rewrite <- HF at 1. now apply le_bytes_val.
Qed.
Lemma any_string bs : (length bs mod 4 = 0)%nat -> bytes_ok bs -> exists v, bq_of_string bs = Ok v /\ bq_string v = bs.
Proof.
  intros H HB. unfold bq_of_string, blen. replace (N.of_nat (length bs) mod 4 =? 0) with true by lia. cbn [verify bind].
  eexists. split; [reflexivity|]. unfold bq_string. apply string_of_of_string; [lia | assumption].
Qed.

Lemma fits_by_zoom tiles z : Forall (fun t => tz t <= z) tiles -> N.of_nat (length tiles) * z <= 2 ^ 24 -> tree_fits tiles.
Proof.
  intros HF HZ l HN HI.
  set (U := flat_map (fun e => map (fun j => anc (N.of_nat j + 1) e) (seq 0 (N.to_nat (tz e)))) tiles).
  assert (HL : (length l <= length U)%nat).
  { apply NoDup_incl_length; [assumption|]. intros t Ht. destruct (HI t Ht) as (e & He & HC & HD). apply in_flat_map. exists e. split; [assumption|].
    pose proof HC as [HC' _]. assert (tz t <> tz e) by (intros E; apply HD; now apply covers_same_z).
    apply in_map_iff. exists (N.to_nat (tz e - tz t - 1)). split.
    - rewrite (covers_anc t e HC) at 2. f_equal. lia.
    - apply in_seq. lia. }
  assert (HU : N.of_nat (length U) <= N.of_nat (length tiles) * z).
  { unfold U. clear - HF. induction HF as [|e tiles He HF IH]; [cbn; lia|]. cbn [flat_map length]. rewrite app_length, map_length, seq_length. lia. }
  lia.
Qed.
