(** The tree of covered tiles: construction and serialization. *)
From Coq Require Import Permutation.
From Verif Require Import Base BaseProof ModelTile SpecTile ProofTile ModelQuadTree ProofQuadTree ModelBqTree SpecBqTree.
Open Scope N_scope.

(** ** Construction *)
Definition bget (m : tmap btree) (t : tile) : btree := match tget m t with Some n => n | None => BNull end.
Definition kid (i : N) (c : btree) : btree :=
  match c with
  | BNode c0 c1 c2 c3 => match i with 0 => c0 | 1 => c1 | 2 => c2 | _ => c3 end
  | _ => BNull
  end.
Definition is_node (c : btree) : bool := match c with BNode _ _ _ _ => true | _ => false end.
Definition blevel_ok (z : N) (m : tmap btree) : Prop :=
  NoDup (map fst m) /\ Forall (fun e => tz (fst e) = z /\ snd e <> BNull) m.

Lemma blevel_get z m t : blevel_ok z m -> tget m t = match bget m t with BNull => None | n => Some n end.
Proof.
  intros [HN HF]. unfold bget. destruct (tget m t) as [n|] eqn:E; [|reflexivity].
  apply tget_in in E; [|assumption]. rewrite Forall_forall in HF. apply HF in E. cbn in E.
  destruct n; [tauto | reflexivity | reflexivity].
Qed.
Definition orNode (c : btree) : btree := match c with BNull => BNode BNull BNull BNull BNull | _ => c end.

Lemma set_child_not_null i c p : p <> BNull -> bq_set_child i c p <> BNull.
Proof. destruct p; intros H; cbn [bq_set_child]; [congruence | discriminate|]. destruct i as [|[p|p|]]; try discriminate; destruct p; discriminate. Qed.
Lemma set_child_leaf i c p : bq_set_child i c p = BLeaf <-> p = BLeaf.
Proof. destruct p; cbn [bq_set_child]; [tauto | tauto|]. destruct i as [|[p|p|]]; try (split; discriminate); destruct p; split; discriminate. Qed.
Lemma kid_set i j c p : i < 4 -> j < 4 -> is_node p = true -> kid j (bq_set_child i c p) = if i =? j then c else kid j p.
Proof.
  intros Hi Hj Hp. destruct p; try discriminate. destruct (lt4_cases i Hi) as [->|[->|[->| ->]]], (lt4_cases j Hj) as [->|[->|[->| ->]]]; reflexivity.
Qed.
Lemma kid_orNode j p : kid j (orNode p) = kid j p.
Proof. destruct p; try reflexivity. destruct j as [|[p|p|]]; try reflexivity; destruct p; reflexivity. Qed.

Lemma battach_ok z m c n : blevel_ok z m -> tz c = z + 1 -> tz c < 2 ^ 32 -> blevel_ok z (bq_attach m (c, n)).
Proof.
  intros [HN HF] Hz Hz'. unfold bq_attach. cbn [fst snd]. split.
  - now apply tput_nodup.
  - apply Forall_tput; [assumption|]. cbn [fst snd]. rewrite parent_tz by lia. split; [lia|].
    apply set_child_not_null. destruct (tget m (tile_parent c)) as [x|] eqn:E; [|discriminate].
    apply tget_in in E; [|assumption]. rewrite Forall_forall in HF. now apply HF in E.
Qed.
Lemma battach_get z m c n t : blevel_ok z m ->
  bget (bq_attach m (c, n)) t =
  if tile_eqb (tile_parent c) t then bq_set_child (quad_pos c) n (orNode (bget m t)) else bget m t.
Proof.
  intros HL. unfold bq_attach, bget at 1. cbn [fst snd]. rewrite tget_put.
  destruct (tile_eqb_spec (tile_parent c) t) as [<-|H]; [|reflexivity].
  rewrite (blevel_get _ _ _ HL). destruct (bget m (tile_parent c)); reflexivity.
Qed.

(** what attaching a whole level does to the node of [t] *)
Lemma battach_all z B : forall m t, blevel_ok z m -> tz t = z -> z + 1 < 2 ^ 32 ->
  NoDup (map fst B) -> Forall (fun e => tz (fst e) = z + 1 /\ snd e <> BNull) B ->
  let r := bget (fold_left bq_attach B m) t in
  blevel_ok z (fold_left bq_attach B m) /\
  (bget m t = BLeaf -> r = BLeaf) /\
  (bget m t <> BLeaf ->
     (r <> BLeaf) /\
     (is_node r = true <-> is_node (bget m t) = true \/ exists i, i < 4 /\ bget B (child t i) <> BNull) /\
     forall i, i < 4 -> kid i r = match bget B (child t i) with BNull => kid i (bget m t) | n => n end).
Proof.
  induction B as [|[c n] B IH]; intros m t HL Hz Hzz HN HF; cbn [fold_left].
  - cbv zeta. split; [assumption|]. split; [auto|]. intros Hl. split; [assumption|]. split; [|reflexivity].
    split; [auto|]. intros [H|(i & _ & H)]; [assumption|]. cbn in H. congruence.
  - cbn [map fst] in HN. inversion HN as [|? ? HN1 HN2]; subst. inversion HF as [|? ? [Hc Hn] HF']; subst. cbn [fst snd] in Hc, Hn.
    assert (HL' : blevel_ok (tz t) (bq_attach m (c, n))) by (apply battach_ok; try assumption; lia).
    destruct (IH (bq_attach m (c, n)) t HL' eq_refl Hzz HN2 HF') as (I1 & I2 & I3). cbv zeta in *.
    split; [assumption|]. rewrite (battach_get _ _ _ _ _ HL) in I2, I3.
    assert (HB : forall i, i < 4 -> bget ((c, n) :: B) (child t i) =
              if tile_eqb c (child t i) then n else bget B (child t i)).
    { intros i Hi. unfold bget at 1. cbn [tget]. destruct (tile_eqb c (child t i)); reflexivity. }
    assert (HBn : bget B c = BNull).
    { unfold bget. destruct (tget B c) eqn:E; [|reflexivity]. apply tget_in in E; [|assumption]. exfalso. apply HN1. apply in_map_iff. eexists. split; [|exact E]. reflexivity. }
    destruct (tile_eqb_spec (tile_parent c) t) as [Ht|Ht].
    + split.
      * intros E. apply I2. apply set_child_leaf. now rewrite E.
      * intros Hl. destruct I3 as (J1 & J2 & J3).
        { rewrite set_child_leaf. destruct (bget m t); cbn [orNode]; congruence. }
        assert (Hnode : is_node (orNode (bget m t)) = true) by (destruct (bget m t); [reflexivity | congruence | reflexivity]).
        assert (Ec : c = child t (quad_pos c)) by (rewrite <- Ht; symmetry; apply child_parent; lia).
        split; [assumption|]. split.
        -- split; [|intros _; apply J2; left; destruct (bget m t); [|congruence|]; cbn [orNode bq_set_child]; destruct (quad_pos c) as [|[p|p|]]; try reflexivity; destruct p; reflexivity].
           intros _. right. exists (quad_pos c). split; [apply quad_pos_lt|]. rewrite HB by apply quad_pos_lt. rewrite <- Ec, tile_eqb_refl. assumption.
        -- intros i Hi. rewrite J3, HB by assumption. rewrite kid_set by (try apply quad_pos_lt; assumption). rewrite kid_orNode.
           destruct (N.eqb_spec (quad_pos c) i) as [<-|Hi'].
           ++ rewrite <- Ec, tile_eqb_refl, HBn. destruct n; congruence.
           ++ destruct (tile_eqb_spec c (child t i)) as [E|E]; [|reflexivity].
              exfalso. apply Hi'. rewrite E. now apply quad_pos_child.
    + assert (HBe : forall i, i < 4 -> bget ((c, n) :: B) (child t i) = bget B (child t i)).
      { intros i Hi. rewrite HB by assumption. destruct (tile_eqb_spec c (child t i)) as [E|E]; [|reflexivity].
        exfalso. apply Ht. rewrite E. apply parent_child; [assumption | lia]. }
      split; [assumption|]. intros Hl. destruct (I3 Hl) as (J1 & J2 & J3). split; [assumption|]. split.
      * rewrite J2. split; (intros [H|(i & Hi & H)]; [now left | right; exists i; split; [assumption|]]); [rewrite HBe | rewrite HBe in H]; assumption.
      * intros i Hi. rewrite J3, HBe by assumption. reflexivity.
Qed.

(** the tree the construction is meant to give *)
Section Tiles.
Context (tiles : list tile).
Definition any (t : tile) : bool := existsb (coversb t) tiles.
Definition own (t : tile) : bool := existsb (fun e => tile_eqb e t) tiles.
Fixpoint btree_of (d : nat) (t : tile) : btree :=
  if own t then BLeaf
  else if any t then
    match d with
    | O => BNull
    | S d' => BNode (btree_of d' (child t 0)) (btree_of d' (child t 1)) (btree_of d' (child t 2)) (btree_of d' (child t 3))
    end
  else BNull.
Definition bdepth_ok (d : nat) (t : tile) : Prop := Forall (fun e => tz e <= tz t + N.of_nat d) tiles.

Lemma any_split t : any t = own t || any (child t 0) || any (child t 1) || any (child t 2) || any (child t 3).
Proof.
  unfold any, own. clear. induction tiles as [|e l IH]; [reflexivity|]. cbn [existsb]. rewrite IH. clear IH.
  pose proof (covers_split t e) as HC. unfold b2n in HC.
  destruct (coversb t e), (tile_eqb e t), (coversb (child t 0) e), (coversb (child t 1) e), (coversb (child t 2) e), (coversb (child t 3) e); try lia;
    repeat (rewrite ?orb_true_r, ?orb_true_l, ?orb_false_r, ?orb_false_l); reflexivity.
Qed.
Lemma any_spec t : any t = true <-> exists e, In e tiles /\ covers t e.
Proof. unfold any. rewrite existsb_exists. split; intros (e & H1 & H2); exists e; (split; [assumption|]); now apply coversb_spec. Qed.
Lemma own_spec t : own t = true <-> In t tiles.
Proof.
  unfold own. rewrite existsb_exists. split.
  - intros (e & H1 & H2). apply tile_eqb_eq in H2. now subst.
  - intros H. exists t. split; [assumption | apply tile_eqb_refl].
Qed.
Lemma own_any t : own t = true -> any t = true.
Proof. intros H. rewrite any_split, H. reflexivity. Qed.
Lemma bdepth_child d t i : bdepth_ok (S d) t -> bdepth_ok d (child t i).
Proof. apply Forall_impl. intros e. cbn [child tz]. lia. Qed.
Lemma bdepth0 t : bdepth_ok 0 t -> any t = true -> own t = true.
Proof.
  intros HD HA. apply any_spec in HA. destruct HA as (e & He & HC). apply own_spec. unfold bdepth_ok in HD. rewrite Forall_forall in HD.
  specialize (HD e He). rewrite (covers_same_z t e); [assumption|assumption|]. destruct HC as [HC _]. lia.
Qed.
Lemma btree_null d t : bdepth_ok d t -> (btree_of d t = BNull <-> any t = false).
Proof.
  intros HD. destruct d as [|d]; cbn [btree_of].
  - destruct (own t) eqn:EO; [rewrite (own_any _ EO); split; discriminate|].
    destruct (any t) eqn:EA; [|tauto]. rewrite (bdepth0 _ HD EA) in EO. discriminate.
  - destruct (own t) eqn:EO; [rewrite (own_any _ EO); split; discriminate|]. destruct (any t); [split; discriminate | tauto].
Qed.

Lemma bbuild_ok : forall ls z, ls <> [] ->
  (forall j l, nth_error ls j = Some l -> blevel_ok (z + N.of_nat j) l /\
     forall t, tz t = z + N.of_nat j -> bget l t = if own t then BLeaf else BNull) ->
  (forall e, In e tiles -> tz e < z + N.of_nat (length ls)) ->
  z + N.of_nat (length ls) < 2 ^ 32 ->
  blevel_ok z (bq_build ls) /\ forall t, tz t = z -> bget (bq_build ls) t = btree_of (length ls - 1) t.
Proof.
  induction ls as [|l ls IH]; intros z Hne HL HT HZ; [congruence|].
  destruct (HL 0%nat l eq_refl) as [L1 L2]. rewrite N.add_0_r in L1, L2.
  destruct ls as [|l' ls].
  - cbn [bq_build length Nat.sub]. split; [assumption|]. intros t Ht. rewrite L2 by assumption. cbn [btree_of].
    destruct (own t) eqn:EO; [reflexivity|]. destruct (any t); reflexivity.
  - set (dl := l' :: ls) in *. change (bq_build (l :: dl)) with (fold_left bq_attach (bq_build dl) l).
    assert (HLen : length (l :: dl) = S (length dl)) by reflexivity. rewrite HLen in HT, HZ.
    destruct (IH (z + 1)) as [B1 B2].
    { discriminate. }
    { intros j x Hx. destruct (HL (S j) x Hx) as [A1 A2]. replace (z + 1 + N.of_nat j) with (z + N.of_nat (S j)) by lia. auto. }
    { intros e He. specialize (HT e He). lia. }
    { lia. }
    pose proof B1 as [BN BF].
    split.
    + destruct (battach_all z (bq_build dl) l (Tile 0 0 z) L1 eq_refl ltac:(lia) BN BF) as [H _]. exact H.
    + intros t Ht. destruct (battach_all z (bq_build dl) l t L1 Ht ltac:(lia) BN BF) as (_ & C1 & C2). cbv zeta in *.
      rewrite L2 in C1, C2 by assumption. replace (length (l :: dl) - 1)%nat with (S (length dl - 1)) by (rewrite HLen; change (length dl) with (S (length ls)); lia).
      cbn [btree_of]. destruct (own t) eqn:EO; [now apply C1|]. destruct (C2 ltac:(discriminate)) as (D1 & D2 & D3). clear C1 C2.
      assert (HD : forall i, bdepth_ok (length dl - 1) (child t i)).
      { intros i. apply Forall_forall. intros e He. specialize (HT e He). cbn [child tz]. lia. }
      assert (HG : forall i, bget (bq_build dl) (child t i) = btree_of (length dl - 1) (child t i)).
      { intros i. apply B2. cbn [child tz]. lia. }
      destruct (any t) eqn:EA.
      * assert (HN : is_node (bget (fold_left bq_attach (bq_build dl) l) t) = true).
        { apply D2. right. rewrite any_split, EO in EA. cbn [orb] in EA.
          assert (HX : exists i, i < 4 /\ any (child t i) = true).
          { destruct (any (child t 0)) eqn:E0; [exists 0; split; [lia | assumption]|]. destruct (any (child t 1)) eqn:E1; [exists 1; split; [lia | assumption]|].
            destruct (any (child t 2)) eqn:E2; [exists 2; split; [lia | assumption]|]. exists 3. split; [lia|]. cbn [orb] in EA. assumption. }
          destruct HX as (i & Hi & HA). exists i. split; [assumption|]. rewrite HG. rewrite btree_null by apply HD. congruence. }
        destruct (bget (fold_left bq_attach (bq_build dl) l) t) as [| |c0 c1 c2 c3]; try discriminate.
        pose proof (D3 0 ltac:(lia)) as K0. pose proof (D3 1 ltac:(lia)) as K1. pose proof (D3 2 ltac:(lia)) as K2. pose proof (D3 3 ltac:(lia)) as K3.
        cbn [kid] in K0, K1, K2, K3. rewrite HG in K0, K1, K2, K3.
        assert (KB : forall i, match btree_of (length dl - 1) (child t i) with BNull => kid i BNull | BLeaf => BLeaf | BNode a0 a1 a2 a3 => BNode a0 a1 a2 a3 end
            = btree_of (length dl - 1) (child t i)) by (intros i; destruct (btree_of (length dl - 1) (child t i)); reflexivity).
        cbn [kid] in KB. rewrite KB in K0, K1, K2, K3. now rewrite K0, K1, K2, K3.
      * assert (HN : is_node (bget (fold_left bq_attach (bq_build dl) l) t) = false).
        { apply not_true_is_false. rewrite D2. intros [H|(i & Hi & H)]; [discriminate|]. apply H. rewrite HG. apply btree_null; [apply HD|].
          rewrite any_split, EO in EA. cbn [orb] in EA. destruct (lt4_cases i Hi) as [->|[->|[->| ->]]];
            destruct (any (child t 0)), (any (child t 1)), (any (child t 2)), (any (child t 3)); try discriminate; reflexivity. }
        destruct (bget (fold_left bq_attach (bq_build dl) l) t); [reflexivity | congruence | discriminate].
Qed.
End Tiles.

Definition blevels_for (ls : list (tmap btree)) (ts : list tile) : Prop :=
  ls <> [] /\
  (forall j, blevel_ok (N.of_nat j) (nth j ls []) /\
     forall t, tz t = N.of_nat j -> bget (nth j ls []) t = if own ts t then BLeaf else BNull) /\
  (forall e, In e ts -> tz e < N.of_nat (length ls)) /\ N.of_nat (length ls) < 2 ^ 32.

Lemma binsert_ok : forall input ls ts, blevels_for ls ts -> Forall (fun t => tz t < 2 ^ 31) input ->
  blevels_for (bq_insert ls input) (ts ++ input).
Proof.
  induction input as [|e input IH]; intros ls ts HL HZ; cbn [bq_insert].
  - now rewrite app_nil_r.
  - inversion HZ as [|? ? HZ1 HZ2]; subst. replace (ts ++ e :: input) with ((ts ++ [e]) ++ input) by now rewrite <- app_assoc.
    apply IH; [|assumption]. destruct HL as (HL1 & HL2 & HL3 & HL4). set (j := N.to_nat (tz e)).
    assert (HO : forall t, own (ts ++ [e]) t = own ts t || tile_eqb e t).
    { intros t. unfold own. rewrite existsb_app. cbn [existsb]. now rewrite orb_false_r. }
    split; [destruct ls; [contradiction|]; destruct j; discriminate|].
    rewrite put_level_length. split; [|split].
    + intros i. rewrite put_level_nth. destruct (Nat.eqb_spec i j) as [->|Hi].
      * destruct (HL2 j) as [[A1 A2] B]. split; [split|].
        -- now apply tput_nodup.
        -- apply Forall_tput; [assumption|]. cbn [fst snd]. split; [unfold j; lia | discriminate].
        -- intros t Ht. rewrite HO. unfold bget. rewrite tget_put.
           destruct (tile_eqb e t); [now rewrite orb_true_r|]. rewrite orb_false_r. now apply B.
      * destruct (HL2 i) as [A B]. split; [assumption|]. intros t Ht. rewrite HO.
        destruct (tile_eqb_spec e t) as [<-|]; [unfold j in Hi; lia|]. rewrite orb_false_r. now apply B.
    + intros e' He'. apply in_app_or in He'. destruct He' as [He'|[<-|[]]].
      * specialize (HL3 e' He'). lia.
      * unfold j. lia.
    + unfold j. lia.
Qed.
Lemma blevels_init : blevels_for [[]] [].
Proof.
  split; [discriminate|]. split; [|split; [intros e [] | cbn [length]; lia]].
  intros j. destruct j as [|[|j]]; cbn [nth]; (split; [split; constructor|]); reflexivity.
Qed.

Definition world : tile := Tile 0 0 0.
Lemma world_covers t : valid_tile t -> covers world t.
Proof.
  intros [H1 H2]. unfold covers, world. cbn [tx ty tz]. rewrite N.sub_0_r. split; [lia|]. split; symmetry; now apply N.div_small.
Qed.

Lemma bbuild_root tiles : tiles <> [] -> Forall (fun t => tz t < 2 ^ 31 /\ valid_tile t) tiles ->
  exists d, bdepth_ok tiles d world /\ bq_build (bq_insert [[]] tiles) = [(world, btree_of tiles d world)] /\ any tiles world = true.
Proof.
  intros Hne HF. assert (HZ : Forall (fun t => tz t < 2 ^ 31) tiles) by (eapply Forall_impl; [|exact HF]; cbn; tauto).
  pose proof (binsert_ok tiles [[]] [] blevels_init HZ) as HL. cbn [app] in HL.
  set (ls := bq_insert [[]] tiles) in *. destruct HL as (HL1 & HL2 & HL3 & HL4).
  destruct (bbuild_ok tiles ls 0 HL1) as [B1 B2].
  { intros j l Hj. destruct (HL2 j) as [A B]. rewrite (nth_error_nth _ _ _ Hj) in A, B. rewrite N.add_0_l. auto. }
  { intros e He. rewrite N.add_0_l. now apply HL3. }
  { lia. }
  set (d := (length ls - 1)%nat) in *. exists d.
  assert (HD : forall t, bdepth_ok tiles d t).
  { intros t. apply Forall_forall. intros e He. specialize (HL3 e He). unfold d. lia. }
  assert (HA : any tiles world = true).
  { destruct tiles as [|e0 es]; [congruence|]. apply any_spec. exists e0. split; [now left|]. rewrite Forall_forall in HF. apply world_covers. apply HF. now left. }
  split; [apply HD|]. split; [|assumption].
  assert (HN : btree_of tiles d world <> BNull) by (rewrite btree_null by apply HD; congruence).
  pose proof B1 as [BN BF].
  assert (HI : In (world, btree_of tiles d world) (bq_build ls)).
  { apply tget_in; [assumption|]. rewrite (blevel_get _ _ _ B1), B2 by reflexivity. destruct (btree_of tiles d world); congruence. }
  assert (HAll : forall e, In e (bq_build ls) -> e = (world, btree_of tiles d world)).
  { intros [t k] He. rewrite Forall_forall in BF. destruct (BF _ He) as [H1 H2]. cbn [fst snd] in *.
    apply tget_in in He; [|assumption]. assert (Hk : bget (bq_build ls) t = k) by (unfold bget; now rewrite He).
    rewrite B2 in Hk by assumption.
    destruct (tile_eqb_spec t world) as [->|Ht]; [now rewrite Hk|]. exfalso. apply H2. rewrite <- Hk. apply btree_null; [apply HD|].
    apply not_true_is_false. rewrite any_spec. intros (e & Hin & HC). apply Ht. apply covers_same_z; [|assumption].
    rewrite Forall_forall in HF. destruct (HF e Hin) as [_ HV]. apply world_covers in HV. eapply covers_chain; eauto. cbn [world tz]. lia. }
  destruct (bq_build ls) as [|a m]; [destruct HI|]. rewrite (HAll a) by now left.
  destruct m as [|b m]; [reflexivity|]. exfalso. inversion BN as [|? ? H1 _]; subst. apply H1.
  rewrite (HAll a), (HAll b) by intuition. now left.
Qed.
