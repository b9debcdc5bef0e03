(** Proofs about tiles as a tree and about the quad tree index. *)
From Coq Require Import Permutation.
From Verif Require Import Base BaseProof ModelTile SpecTile ProofTile ModelQuadTree SpecQuadTree.
Open Scope N_scope.

(** ** Tiles as a tree *)
Lemma tile_eqb_eq a b : tile_eqb a b = true <-> a = b.
Proof. destruct a as [x y z], b as [x' y' z']. unfold tile_eqb. cbn [tx ty tz].
  split; [intros H | intros H; injection H as -> -> ->; now rewrite !N.eqb_refl].
  f_equal; lia. Qed.
Lemma tile_eqb_refl t : tile_eqb t t = true.
Proof. now apply tile_eqb_eq. Qed.
Lemma tile_eqb_sym a b : tile_eqb a b = tile_eqb b a.
Proof. unfold tile_eqb. rewrite (N.eqb_sym (tx a)), (N.eqb_sym (ty a)), (N.eqb_sym (tz a)). reflexivity. Qed.
Lemma tile_eqb_spec a b : BoolSpec (a = b) (a <> b) (tile_eqb a b).
Proof. destruct (tile_eqb a b) eqn:E; constructor; [now apply tile_eqb_eq|].
  intros ->. rewrite tile_eqb_refl in E. discriminate. Qed.

Definition child (t : tile) (i : N) : tile := Tile (2 * tx t + i mod 2) (2 * ty t + i / 2) (tz t + 1).

Lemma land_one a : N.land a 1 = a mod 2.
Proof. change 1 with (N.ones 1). rewrite N.land_ones. reflexivity. Qed.

Lemma quad_pos_spec t : quad_pos t = tx t mod 2 + 2 * (ty t mod 2).
Proof.
  unfold quad_pos. rewrite !land_one. rewrite lor_shift_add with (k := 1); [|change (2^1) with 2; lia].
  change (2 ^ 1) with 2. lia.
Qed.
Lemma quad_pos_lt t : quad_pos t < 4.
Proof. rewrite quad_pos_spec. lia. Qed.
Lemma quad_pos_child t i : i < 4 -> quad_pos (child t i) = i.
Proof. intros. rewrite quad_pos_spec. cbn [child tx ty]. lia. Qed.
Lemma parent_child t i : i < 4 -> tz t < 2 ^ 32 - 1 -> tile_parent (child t i) = t.
Proof.
  intros Hi Hz. destruct t as [x y z]. unfold tile_parent, child. cbn [tx ty tz] in *.
  rewrite !N.shiftr_div_pow2. change (2 ^ 1) with 2. f_equal; lia.
Qed.
Lemma child_parent c : 0 < tz c -> tz c < 2 ^ 32 -> child (tile_parent c) (quad_pos c) = c.
Proof.
  intros Hz Hz'. destruct c as [x y z]. rewrite quad_pos_spec. unfold child, tile_parent. cbn [tx ty tz] in *.
  rewrite !N.shiftr_div_pow2. change (2 ^ 1) with 2. f_equal; lia.
Qed.
Lemma parent_tz c : 0 < tz c -> tz c < 2 ^ 32 -> tz (tile_parent c) = tz c - 1.
Proof. intros. unfold tile_parent. cbn [tz]. lia. Qed.

Definition b2n (b : bool) : N := if b then 1 else 0.
(** an entry below t is either at t or below exactly one child of t *)
Lemma covers_split t e :
  b2n (coversb t e) = b2n (tile_eqb e t) + b2n (coversb (child t 0) e) + b2n (coversb (child t 1) e)
                      + b2n (coversb (child t 2) e) + b2n (coversb (child t 3) e).
Proof.
  unfold coversb, tile_eqb, child. cbn [tx ty tz].
  destruct t as [x y z], e as [a b c]. cbn [tx ty tz].
  destruct (N.lt_trichotomy c z) as [H|[H|H]].
  - replace (z <=? c) with false by lia. replace (z + 1 <=? c) with false by lia.
    replace (c =? z) with false by lia. rewrite !andb_false_r. reflexivity.
  - subst c. replace (z + 1 <=? z) with false by lia. rewrite N.leb_refl, N.eqb_refl, N.sub_diag.
    change (2 ^ 0) with 1. rewrite !N.div_1_r. cbn [andb b2n].
    rewrite (N.eqb_sym a x), (N.eqb_sym b y), andb_true_r. lia.
  - replace (z <=? c) with true by lia. replace (z + 1 <=? c) with true by lia.
    replace (c =? z) with false by lia. rewrite !andb_false_r. cbn [andb].
    replace (c - z) with (N.succ (c - (z + 1))) by lia.
    rewrite N.pow_succ_r'. rewrite (N.mul_comm 2).
    rewrite <- !N.div_div by (try apply N.pow_nonzero; lia).
    generalize (a / 2 ^ (c - (z + 1))) as X. generalize (b / 2 ^ (c - (z + 1))) as Y. intros Y X.
    change (0 mod 2) with 0. change (0 / 2) with 0. change (1 mod 2) with 1. change (1 / 2) with 0.
    change (2 mod 2) with 0. change (2 / 2) with 1. change (3 mod 2) with 1. change (3 / 2) with 1.
    rewrite !N.add_0_r.
    replace (x =? X / 2) with ((2 * x =? X) || (2 * x + 1 =? X)) by lia.
    replace (y =? Y / 2) with ((2 * y =? Y) || (2 * y + 1 =? Y)) by lia.
    destruct (N.eqb_spec (2 * x) X) as [E1|_], (N.eqb_spec (2 * x + 1) X) as [E2|_]; try lia;
    destruct (N.eqb_spec (2 * y) Y) as [E3|_], (N.eqb_spec (2 * y + 1) Y) as [E4|_]; try lia; reflexivity.
Qed.

Lemma coversb_refl t : coversb t t = true.
Proof. unfold coversb. rewrite N.leb_refl, N.sub_diag. change (2 ^ 0) with 1. rewrite !N.div_1_r, !N.eqb_refl. reflexivity. Qed.

Lemma covers_refl t : covers t t.
Proof. apply coversb_spec, coversb_refl. Qed.
Lemma covers_trans a b c : covers a b -> covers b c -> covers a c.
Proof.
  unfold covers. intros (H1 & H2 & H3) (H4 & H5 & H6). split; [clear - H1 H4; lia|].
  replace (tz c - tz a) with ((tz c - tz b) + (tz b - tz a)) by (clear - H1 H4; lia).
  rewrite N.pow_add_r, <- !N.div_div by (apply N.pow_nonzero; lia). now rewrite <- H5, <- H6, H2, H3.
Qed.
Lemma covers_same_z a b : covers a b -> tz a = tz b -> a = b.
Proof.
  destruct a as [x y z], b as [x' y' z']. unfold covers. cbn [tx ty tz]. intros (_ & -> & ->) ->. rewrite N.sub_diag.
  change (2 ^ 0) with 1. now rewrite !N.div_1_r.
Qed.
(** two tiles that cover a common tile are related *)
Lemma covers_chain a b c : covers a c -> covers b c -> tz a <= tz b -> covers a b.
Proof.
  unfold covers. intros (H1 & H2 & H3) (H4 & H5 & H6) HZ. split; [assumption|].
  replace (tz c - tz a) with ((tz c - tz b) + (tz b - tz a)) in * by (clear - H1 H4 HZ; lia).
  rewrite N.pow_add_r, <- !N.div_div in H2, H3 by (apply N.pow_nonzero; lia). now rewrite H5, H6.
Qed.
Lemma covers_child_parent t i : i < 4 -> covers t (child t i).
Proof.
  intros Hi. unfold covers, child. cbn [tx ty tz]. replace (tz t + 1 - tz t) with 1 by lia.
  change (2 ^ 1) with 2. lia.
Qed.

(** ** Ancestors of a tile *)
Definition anc (j : N) (q : tile) : tile := Tile (tx q / 2 ^ j) (ty q / 2 ^ j) (tz q - j).
Lemma anc_0 q : anc 0 q = q.
Proof. destruct q as [x y z]. unfold anc. cbn [tx ty tz]. change (2 ^ 0) with 1. now rewrite !N.div_1_r, N.sub_0_r. Qed.
Lemma anc_tz j q : tz (anc j q) = tz q - j. Proof. reflexivity. Qed.
Lemma anc_parent j q : j < tz q -> tz q < 2 ^ 32 -> tile_parent (anc j q) = anc (j + 1) q.
Proof.
  intros Hj Hz. unfold anc, tile_parent. cbn [tx ty tz]. rewrite !N.shiftr_div_pow2.
  rewrite N.pow_add_r, <- !N.div_div by (try apply N.pow_nonzero; cbn; lia).
  change (2 ^ 1) with 2. f_equal. lia.
Qed.
Lemma anc_covers j q : j <= tz q -> covers (anc j q) q.
Proof. intros. unfold covers, anc. cbn [tx ty tz]. replace (tz q - (tz q - j)) with j by lia. repeat split; lia. Qed.
Lemma covers_anc a q : covers a q -> a = anc (tz q - tz a) q.
Proof. destruct a as [x y z]. unfold covers, anc. cbn [tx ty tz]. intros (H & -> & ->). f_equal. lia. Qed.

(** ** Maps keyed by tile *)
Section TMapProofs.
  Context {A : Type}.
  Implicit Types m : tmap A.
  Lemma tget_put m t a u : tget (tput m t a) u = if tile_eqb t u then Some a else tget m u.
  Proof.
    induction m as [|[k b] m IH]; cbn [tput tget].
    - reflexivity.
    - destruct (tile_eqb_spec k t) as [->|Hk].
      + cbn [tget]. destruct (tile_eqb t u); reflexivity.
      + cbn [tget]. rewrite IH. destruct (tile_eqb_spec k u) as [->|]; [|reflexivity].
        destruct (tile_eqb_spec t u) as [->|]; [contradiction | reflexivity].
  Qed.
  Lemma tput_keys_in m t a u : In u (map fst (tput m t a)) <-> u = t \/ In u (map fst m).
  Proof.
    induction m as [|[k b] m IH]; cbn [tput map fst In].
    - intuition.
    - destruct (tile_eqb_spec k t) as [->|Hk]; cbn [map fst In]; [intuition | rewrite IH; intuition].
  Qed.
  Lemma tput_nodup m t a : NoDup (map fst m) -> NoDup (map fst (tput m t a)).
  Proof.
    induction m as [|[k b] m IH]; cbn [tput map fst]; intros H.
    - repeat constructor. intros [].
    - inversion H as [|? ? H1 H2]; subst. destruct (tile_eqb_spec k t) as [->|Hk]; cbn [map fst].
      + now constructor.
      + constructor; [|now apply IH]. rewrite tput_keys_in. intros [->|]; contradiction.
  Qed.
  Lemma tget_in m t a : NoDup (map fst m) -> tget m t = Some a <-> In (t, a) m.
  Proof.
    induction m as [|[k b] m IH]; cbn [tget map fst In]; intros H; [split; [discriminate | tauto]|].
    inversion H as [|? ? H1 H2]; subst. destruct (tile_eqb_spec k t) as [->|Hk].
    - split; [intros E; injection E as ->; now left|]. intros [E|HI]; [now injection E as ->|].
      destruct H1. apply in_map_iff. exists (t, a). now split.
    - rewrite (IH H2). split; [now right|]. intros [E|HI]; [congruence | assumption].
  Qed.
  Lemma tget_none m t : tget m t = None <-> ~ In t (map fst m).
  Proof.
    induction m as [|[k b] m IH]; cbn [tget map fst In]; [tauto|].
    destruct (tile_eqb_spec k t) as [->|Hk]; [split; [discriminate | tauto]|]. rewrite IH. intuition.
  Qed.
End TMapProofs.

Definition qget (m : tmap qtree) (t : tile) : qtree := match tget m t with Some n => n | None => QNull end.
Definition orEmpty (n : qtree) : qtree := match n with QNull => empty_node | _ => n end.

(** every value in the map is a real node, keys are unique, all on level z *)
Definition level_ok (z : N) (m : tmap qtree) : Prop :=
  NoDup (map fst m) /\ Forall (fun e => tz (fst e) = z /\ snd e <> QNull) m.

Lemma level_ok_get z m t : level_ok z m -> tget m t = match qget m t with QNull => None | n => Some n end.
Proof.
  intros [HN HF]. unfold qget. destruct (tget m t) as [n|] eqn:E; [|reflexivity].
  apply tget_in in E; [|assumption]. rewrite Forall_forall in HF. apply HF in E. cbn in E.
  destruct n; [tauto | reflexivity].
Qed.

Lemma add_child_not_null i c p : p <> QNull -> add_child i c p <> QNull.
Proof.
  intros H. destruct p; [contradiction|]. destruct c; cbn [add_child]; [discriminate|].
  destruct i as [|[p|p|]]; try discriminate; destruct p; discriminate.
Qed.

Lemma Forall_tput {A} (P : tile * A -> Prop) m t a : Forall P m -> P (t, a) -> Forall P (tput m t a).
Proof.
  intros HF Hp. induction HF as [|[k b] m H1 HF IH]; cbn [tput].
  - now constructor.
  - destruct (tile_eqb_spec k t) as [->|]; constructor; assumption.
Qed.

Lemma attach_ok z m c n : level_ok z m -> tz c = z + 1 -> tz c < 2 ^ 32 -> n <> QNull -> level_ok z (attach m (c, n)).
Proof.
  intros [HN HF] Hz Hz' Hn. unfold attach. cbn [fst snd]. split.
  - now apply tput_nodup.
  - apply Forall_tput; [assumption|]. cbn [fst snd]. rewrite parent_tz by lia. split; [lia|].
    apply add_child_not_null. destruct (tget m (tile_parent c)) as [p|] eqn:E; [|discriminate].
    apply tget_in in E; [|assumption]. rewrite Forall_forall in HF. apply HF in E. apply E.
Qed.

Lemma attach_get z m c n t : level_ok z m -> n <> QNull ->
  qget (attach m (c, n)) t =
  if tile_eqb (tile_parent c) t then add_child (quad_pos c) n (orEmpty (qget m t)) else qget m t.
Proof.
  intros HL Hn. unfold attach, qget at 1. cbn [fst snd]. rewrite tget_put.
  destruct (tile_eqb_spec (tile_parent c) t) as [->|]; [|reflexivity].
  rewrite (level_ok_get _ _ _ HL). unfold orEmpty. destruct (qget m t); reflexivity.
Qed.

Definition add_all (cs : list (tile * qtree)) (p : qtree) : qtree :=
  fold_left (fun p c => add_child (quad_pos (fst c)) (snd c) p) cs p.
Definition below (t : tile) (B : tmap qtree) : tmap qtree := filter (fun e => tile_eqb (tile_parent (fst e)) t) B.

Lemma attach_all z B : forall m t, level_ok z m ->
  Forall (fun e => tz (fst e) = z + 1 /\ snd e <> QNull) B -> z + 1 < 2 ^ 32 ->
  level_ok z (fold_left attach B m) /\
  qget (fold_left attach B m) t =
    match below t B with [] => qget m t | cs => add_all cs (orEmpty (qget m t)) end.
Proof.
  induction B as [|[c n] B IH]; intros m t HL HF Hz; cbn [fold_left].
  - now split.
  - inversion HF as [|? ? [H1 H2] HF']; subst. cbn [fst snd] in *.
    assert (HL' : level_ok z (attach m (c, n))) by (apply attach_ok; [assumption|assumption|lia|assumption]).
    destruct (IH _ t HL' HF' Hz) as [I1 I2]. split; [assumption|]. rewrite I2.
    rewrite (attach_get z) by assumption. unfold below. cbn [filter fst].
    destruct (tile_eqb (tile_parent c) t) eqn:E; [|reflexivity].
    assert (HA : add_child (quad_pos c) n (orEmpty (qget m t)) <> QNull).
    { apply add_child_not_null. destruct (qget m t); discriminate. }
    cbn [add_all fold_left]. unfold add_all. cbn [fold_left fst snd].
    destruct (filter _ B) as [|e cs]; [reflexivity|].
    destruct (add_child (quad_pos c) n (orEmpty (qget m t))) as [|]; [contradiction | reflexivity].
Qed.

(** *** order of attaching does not matter *)
Lemma lt4_cases i : i < 4 -> i = 0 \/ i = 1 \/ i = 2 \/ i = 3.
Proof. lia. Qed.

Lemma add_child_comm i j a b p : i < 4 -> j < 4 -> i <> j ->
  add_child i a (add_child j b p) = add_child j b (add_child i a p).
Proof.
  intros Hi Hj Hn. destruct p as [|c0 c1 c2 c3 o s u]; [reflexivity|].
  destruct a as [|a0 a1 a2 a3 ao as_ au], b as [|b0 b1 b2 b3 bo bs bu]; try reflexivity.
  - destruct (lt4_cases _ Hj) as [-> | [-> | [-> | ->]]]; reflexivity.
  - destruct (lt4_cases _ Hi) as [-> | [-> | [-> | ->]]]; reflexivity.
  - assert (E1 : N.min (N.min o bo) ao = N.min (N.min o ao) bo) by lia.
    assert (E2 : ((u + bu) mod 2 ^ 32 + au) mod 2 ^ 32 = ((u + au) mod 2 ^ 32 + bu) mod 2 ^ 32) by lia.
    destruct (lt4_cases _ Hi) as [-> | [-> | [-> | ->]]], (lt4_cases _ Hj) as [-> | [-> | [-> | ->]]];
      try congruence; cbn [add_child]; rewrite E1, E2; reflexivity.
Qed.

Lemma add_all_perm cs cs' : Permutation cs cs' -> forall p, NoDup (map (fun c => quad_pos (fst c)) cs) ->
  add_all cs p = add_all cs' p.
Proof.
  induction 1 as [|c cs cs' HP IH|a b cs|cs1 cs2 cs3 H1 IH1 H2 IH2]; intros p HN.
  - reflexivity.
  - unfold add_all. cbn [fold_left]. apply IH. now inversion HN.
  - unfold add_all. cbn [fold_left]. f_equal. apply add_child_comm; try apply quad_pos_lt.
    inversion HN as [|? ? HI _]; subst. cbn [map In] in HI. intuition.
  - rewrite IH1 by assumption. apply IH2. eapply Permutation_NoDup; [|exact HN]. now apply Permutation_map.
Qed.

(** *** the tree the builder produces for tile t *)
Definition own (t : tile) (es : list quad_input) : list quad_input :=
  filter (fun e => tile_eqb (qi_tile e) t) es.
Definition leaf (e : quad_input) : qtree := QNode QNull QNull QNull QNull (qi_off e) (qi_size e) (qi_size e).
Definition own_node (t : tile) (es : list quad_input) : qtree :=
  match own t es with [] => QNull | e :: _ => leaf e end.

Fixpoint tree_of (d : nat) (es : list quad_input) (t : tile) : qtree :=
  match under t es with
  | [] => QNull
  | _ =>
      match d with
      | O => own_node t es
      | S d' =>
          add_child 3 (tree_of d' es (child t 3))
            (add_child 2 (tree_of d' es (child t 2))
               (add_child 1 (tree_of d' es (child t 1))
                  (add_child 0 (tree_of d' es (child t 0)) (orEmpty (own_node t es)))))
      end
  end.

Lemma under_nil_iff t es : under t es = [] <-> (own t es = [] /\ forall i, i < 4 -> under (child t i) es = []).
Proof.
  unfold under, own. induction es as [|e es IH]; [cbn; tauto|]. cbn [filter].
  pose proof (covers_split t (qi_tile e)) as HC. unfold b2n in HC.
  destruct (coversb t (qi_tile e)).
  - split; [discriminate|]. intros [H1 H2]. destruct (tile_eqb (qi_tile e) t); [discriminate|].
    pose proof (H2 0) as A0. pose proof (H2 1) as A1. pose proof (H2 2) as A2. pose proof (H2 3) as A3.
    destruct (coversb (child t 0) (qi_tile e)); [now discriminate A0; lia|].
    destruct (coversb (child t 1) (qi_tile e)); [now discriminate A1; lia|].
    destruct (coversb (child t 2) (qi_tile e)); [now discriminate A2; lia|].
    destruct (coversb (child t 3) (qi_tile e)); [now discriminate A3; lia|]. lia.
  - destruct (tile_eqb (qi_tile e) t); [lia|]. rewrite IH. split; intros [H1 H2]; (split; [assumption|]); intros i Hi.
    + specialize (H2 i Hi). destruct (lt4_cases _ Hi) as [-> | [-> | [-> | ->]]];
        match goal with |- context [if ?b then _ else _] => destruct b; [lia | assumption] end.
    + specialize (H2 i Hi). destruct (lt4_cases _ Hi) as [-> | [-> | [-> | ->]]];
        match type of H2 with context [if ?b then _ else _] => destruct b; [lia | assumption] end.
Qed.

Definition depth_ok (d : nat) (es : list quad_input) (t : tile) : Prop :=
  Forall (fun e => tz (qi_tile e) <= tz t + N.of_nat d) es.
Lemma depth_ok_child d es t i : depth_ok (S d) es t -> depth_ok d es (child t i).
Proof. apply Forall_impl. intros e. cbn [child tz]. lia. Qed.

Lemma own_nil_leaf t es : own t es = [] <-> own_node t es = QNull.
Proof. unfold own_node. destruct (own t es); split; try congruence; discriminate. Qed.

Lemma tree_of_null d es : forall t, depth_ok d es t -> tree_of d es t = QNull <-> under t es = [].
Proof.
  destruct d as [|d]; intros t HD; cbn [tree_of]; destruct (under t es) as [|e l] eqn:E; try tauto.
  - rewrite <- own_nil_leaf. split; [|discriminate]. intros HO. exfalso.
    assert (HI : In e (under t es)) by (rewrite E; now left). apply filter_In in HI. destruct HI as [HI HC].
    apply coversb_spec in HC. unfold depth_ok in HD. rewrite Forall_forall in HD. specialize (HD _ HI).
    assert (t = qi_tile e) by (apply covers_same_z; [assumption | destruct HC; lia]).
    assert (HI' : In e (own t es)) by (apply filter_In; split; [assumption | subst t; apply tile_eqb_refl]).
    rewrite HO in HI'. destruct HI'.
  - split; [|discriminate]. intros H. exfalso. revert H. repeat apply add_child_not_null.
    destruct (own_node t es); discriminate.
Qed.

(** the attached children of t are the non-empty trees of its four children *)
Definition kids (d : nat) (es : list quad_input) (t : tile) : list (tile * qtree) :=
  filter (fun e => match snd e with QNull => false | _ => true end)
    [(child t 0, tree_of d es (child t 0)); (child t 1, tree_of d es (child t 1));
     (child t 2, tree_of d es (child t 2)); (child t 3, tree_of d es (child t 3))].

Lemma kids_add d es t p :
  add_all (kids d es t) p =
  add_child 3 (tree_of d es (child t 3)) (add_child 2 (tree_of d es (child t 2))
    (add_child 1 (tree_of d es (child t 1)) (add_child 0 (tree_of d es (child t 0)) p))).
Proof.
  assert (HS : forall c n cs q, add_all (filter (fun e => match snd e with QNull => false | _ => true end) ((c, n) :: cs)) q
    = add_all (filter (fun e => match snd e with QNull => false | _ => true end) cs) (add_child (quad_pos c) n q)).
  { intros c n cs q. cbn [filter snd]. destruct n; [|reflexivity].
    destruct q; reflexivity. }
  unfold kids. rewrite !HS. cbn [filter add_all fold_left]. unfold add_all. cbn [fold_left].
  rewrite !quad_pos_child by lia. reflexivity.
Qed.

Lemma child_inj t i j : i < 4 -> j < 4 -> child t i = child t j -> i = j.
Proof. unfold child. intros H1 H2 H. injection H as H3 H4. lia. Qed.

Lemma kids_in d es t c n : In (c, n) (kids d es t) <-> (n <> QNull /\ exists i, i < 4 /\ c = child t i /\ n = tree_of d es c).
Proof.
  unfold kids. rewrite filter_In. cbn [snd In]. split.
  - intros [H1 H2]. split; [destruct n; congruence|].
    decompose [or] H1; try contradiction;
      match goal with H : (child t ?i, _) = _ |- _ => injection H as <- <-; exists i; repeat split; lia end.
  - intros (H1 & i & Hi & -> & ->). split; [|destruct (tree_of d es (child t i)); congruence].
    destruct (lt4_cases _ Hi) as [-> | [-> | [-> | ->]]]; tauto.
Qed.

Lemma kids_keys d es t : NoDup (map fst (kids d es t)).
Proof.
  assert (HF : forall (f : tile * qtree -> bool) l, NoDup (map fst l) -> NoDup (map fst (filter f l))).
  { intros f l. induction l as [|a l IH]; cbn [filter map]; [auto|]. intros H. inversion H as [|? ? H1 H2]; subst.
    destruct (f a); [|auto]. cbn [map]. constructor; [|auto]. rewrite in_map_iff. intros (b & E & HI).
    apply filter_In in HI. apply H1. rewrite <- E. apply in_map. tauto. }
  apply HF. cbn [map fst].
  repeat (constructor; [cbn [In]; intuition; match goal with H : child t ?i = child t ?j |- _ => apply child_inj in H; lia end|]).
  constructor.
Qed.

Lemma NoDup_map_fst {A B} (l : list (A * B)) : NoDup (map fst l) -> NoDup l.
Proof.
  induction l as [|[a b] l IH]; cbn [map fst]; intros H; [constructor|].
  inversion H as [|? ? H1 H2]; subst. constructor; [|auto]. intros HI. apply H1.
  apply in_map_iff. exists (a, b). now split.
Qed.

Lemma level_below z d es t B : level_ok (z + 1) B -> (forall c, tz c = z + 1 -> qget B c = tree_of d es c) ->
  tz t = z -> z + 1 < 2 ^ 32 -> Permutation (below t B) (kids d es t).
Proof.
  intros [HN HF] HG Hz Hz'. apply NoDup_Permutation.
  - apply NoDup_filter. now apply NoDup_map_fst.
  - apply NoDup_map_fst, kids_keys.
  - intros [c n]. rewrite kids_in. unfold below. rewrite filter_In. cbn [fst]. rewrite tile_eqb_eq.
    rewrite Forall_forall in HF. split.
    + intros [HI HP]. destruct (HF _ HI) as [H1 H2]. cbn [fst snd] in *. split; [assumption|].
      exists (quad_pos c). split; [apply quad_pos_lt|]. split; [subst t; symmetry; apply child_parent; lia|].
      rewrite <- HG by assumption. unfold qget. apply tget_in in HI; [|assumption]. now rewrite HI.
    + intros (H1 & i & Hi & Hc & Hn). assert (Hcz : tz c = z + 1) by (subst c; cbn [child tz]; lia).
      split; [|subst c; apply parent_child; lia].
      apply tget_in; [assumption|]. rewrite <- HG in Hn by assumption. unfold qget in Hn.
      destruct (tget B c); congruence.
Qed.

Lemma kids_pos d es t : NoDup (map (fun c => quad_pos (fst c)) (kids d es t)).
Proof.
  unfold kids. cbn [filter snd].
  assert (Q : forall i, i < 4 -> quad_pos (child t i) = i) by (intros; now apply quad_pos_child).
  destruct (tree_of d es (child t 0)), (tree_of d es (child t 1)), (tree_of d es (child t 2)), (tree_of d es (child t 3));
    cbn [map fst]; rewrite ?Q by lia; repeat (constructor; [cbn [In]; lia|]); constructor.
Qed.

Lemma kids_nil d es t : depth_ok (S d) es t -> kids d es t = [] -> forall i, i < 4 -> under (child t i) es = [].
Proof.
  intros HD HK i Hi. rewrite <- (tree_of_null d) by now apply depth_ok_child.
  destruct (tree_of d es (child t i)) eqn:E; [reflexivity|]. exfalso.
  assert (HI : In (child t i, tree_of d es (child t i)) (kids d es t)).
  { apply kids_in. split; [congruence|]. eauto. }
  rewrite HK in HI. destruct HI.
Qed.

Lemma build_ok es : forall ls z, ls <> [] ->
  (forall j l, nth_error ls j = Some l -> level_ok (z + N.of_nat j) l /\
     forall t, tz t = z + N.of_nat j -> qget l t = own_node t es) ->
  (forall e, In e es -> tz (qi_tile e) < z + N.of_nat (length ls)) ->
  z + N.of_nat (length ls) < 2 ^ 32 ->
  level_ok z (build_levels ls) /\
  forall t, tz t = z -> qget (build_levels ls) t = tree_of (length ls - 1) es t.
Proof.
  induction ls as [|l ls IH]; intros z Hne HL HE Hz; [congruence|].
  pose proof (HL 0%nat l eq_refl) as [L1 L2]. rewrite N.add_0_r in L1, L2.
  destruct ls as [|l1 ls].
  - cbn [build_levels length Nat.sub]. split; [assumption|]. intros t Ht. rewrite L2 by assumption.
    cbn [tree_of]. destruct (under t es) as [|e r] eqn:E; [|reflexivity].
    apply own_nil_leaf. apply under_nil_iff in E. tauto.
  - specialize (IH (z + 1)). set (ds := l1 :: ls) in *.
    assert (HB : build_levels (l :: ds) = fold_left attach (build_levels ds) l) by reflexivity.
    destruct IH as [I1 I2].
    + discriminate.
    + intros j l' Hj. specialize (HL (S j) l' Hj). replace (z + 1 + N.of_nat j) with (z + N.of_nat (S j)) by lia. exact HL.
    + intros e He. specialize (HE e He). cbn [length] in HE. lia.
    + cbn [length] in Hz. lia.
    + rewrite HB. split.
      * refine (proj1 (attach_all z (build_levels ds) l (Tile 0 0 0) L1 (proj2 I1) _)). cbn [length] in Hz. lia.
      * intros t Ht. destruct (attach_all z (build_levels ds) l t L1 (proj2 I1) ltac:(cbn [length] in Hz; lia)) as [_ ->].
        rewrite L2 by assumption.
        assert (HP := level_below z (length ds - 1) es t _ I1 I2 Ht ltac:(cbn [length] in Hz; lia)).
        replace (length (l :: ds) - 1)%nat with (S (length ds - 1)) by (cbn [length]; unfold ds; cbn [length]; lia).
        assert (HD : depth_ok (S (length ds - 1)) es t).
        { apply Forall_forall. intros e He. specialize (HE e He). unfold ds in *. cbn [length] in *. lia. }
        cbn [tree_of]. rewrite <- kids_add.
        destruct (below t (build_levels ds)) as [|b bs] eqn:EB.
        -- apply Permutation_nil in HP.
           destruct (under t es) as [|e r] eqn:EU.
           ++ apply own_nil_leaf. apply under_nil_iff in EU. tauto.
           ++ rewrite HP. cbn [add_all fold_left]. unfold add_all. cbn [fold_left].
              destruct (own_node t es) as [|] eqn:EO; [|reflexivity]. exfalso.
              apply own_nil_leaf in EO. assert (under t es = []) by (apply under_nil_iff; split; [assumption|]; now apply kids_nil with (d := (length ds - 1)%nat)).
              congruence.
        -- rewrite (add_all_perm _ _ HP).
           ++ destruct (under t es) as [|e r] eqn:EU; [|reflexivity]. exfalso.
              apply under_nil_iff in EU. destruct EU as [_ EU].
              destruct (kids (length ds - 1) es t) as [|[c n] ks] eqn:EK;
                [apply Permutation_sym, Permutation_nil in HP; discriminate|].
              assert (HI : In (c, n) (kids (length ds - 1) es t)) by (rewrite EK; now left).
              apply kids_in in HI. destruct HI as (H1 & i & Hi & -> & ->). apply H1.
              apply tree_of_null; [now apply depth_ok_child|]. now apply EU.
           ++ eapply Permutation_NoDup; [apply Permutation_map, Permutation_sym, HP | apply kids_pos].
Qed.

(** ** From the input to the levels *)
Lemma put_level_nth {A} (t : tile) (a : A) : forall j ls i,
  nth i (put_level ls j t a) [] = if (i =? j)%nat then tput (nth j ls []) t a else nth i ls [].
Proof.
  induction j as [|j IH]; intros ls i; destruct ls as [|l ls]; cbn [put_level]; destruct i as [|i]; cbn [nth Nat.eqb]; try reflexivity.
  - destruct i; reflexivity.
  - rewrite IH. destruct (i =? j)%nat; destruct j; try reflexivity; destruct i; reflexivity.
  - apply IH.
Qed.
Lemma put_level_length {A} (t : tile) (a : A) : forall j ls, length (put_level ls j t a) = Nat.max (length ls) (S j).
Proof. induction j as [|j IH]; intros [|l ls]; cbn [put_level length]; rewrite ?IH; cbn [length]; lia. Qed.

Definition levels_for (root : tile) (ls : list (tmap qtree)) (es : list quad_input) : Prop :=
  ls <> [] /\
  (forall j, level_ok (tz root + N.of_nat j) (nth j ls []) /\
     forall t, tz t = tz root + N.of_nat j -> qget (nth j ls []) t = own_node t es) /\
  (forall e, In e es -> tz root <= tz (qi_tile e) < tz root + N.of_nat (length ls)) /\
  tz root + N.of_nat (length ls) <= N.max (tz root + 1) (2 ^ 31).

Lemma own_node_snoc t es e : ~ In (qi_tile e) (map qi_tile es) ->
  own_node t (es ++ [e]) = if tile_eqb (qi_tile e) t then leaf e else own_node t es.
Proof.
  intros HN. unfold own_node, own. rewrite filter_app. cbn [filter].
  destruct (tile_eqb_spec (qi_tile e) t) as [<-|Ht]; [|now rewrite app_nil_r].
  replace (filter _ es) with (@nil quad_input); [reflexivity|]. symmetry. apply filter_all_false.
  apply Forall_forall. intros e' He'. destruct (tile_eqb_spec (qi_tile e') (qi_tile e)) as [E|]; [|reflexivity].
  destruct HN. rewrite <- E. now apply in_map.
Qed.

Definition in_root_z (root : tile) (e : quad_input) : bool :=
  (tz root <=? tz (qi_tile e)) && (negb (tz root =? tz (qi_tile e)) || tile_eqb root (qi_tile e)).

Lemma insert_inputs_ok root : forall input ls es, levels_for root ls es ->
  NoDup (map qi_tile (es ++ input)) -> Forall (fun e => tz (qi_tile e) < 2 ^ 31) input ->
  (forallb (in_root_z root) input = true -> exists ls', insert_inputs root ls input = Ok ls' /\ levels_for root ls' (es ++ input)) /\
  (forallb (in_root_z root) input = false -> insert_inputs root ls input = Throw).
Proof.
  induction input as [|e input IH]; intros ls es HL HN HZ; cbn [insert_inputs forallb].
  - rewrite app_nil_r. split; [|discriminate]. eauto.
  - inversion HZ as [|? ? HZ1 HZ2]; subst.
    destruct (in_root_z root e) eqn:EZ; unfold in_root_z in EZ; cbn [andb].
    2: { split; [discriminate|]. intros _. destruct (tz root <=? tz (qi_tile e)); [|reflexivity].
         cbn [andb] in EZ. rewrite EZ. reflexivity. }
    apply andb_true_iff in EZ. destruct EZ as [H1 H2]. rewrite H1, H2. cbn [verify bind].
    replace (es ++ e :: input) with ((es ++ [e]) ++ input) in * by now rewrite <- app_assoc.
    assert (HNE : ~ In (qi_tile e) (map qi_tile es)).
    { rewrite !map_app in HN. cbn [map] in HN. rewrite <- app_assoc in HN. apply NoDup_remove_2 in HN. intros HI. apply HN. apply in_or_app. now left. }
    apply IH; [|assumption|assumption].
    destruct HL as (HL1 & HL2 & HL3 & HL4). set (j := N.to_nat (tz (qi_tile e) - tz root)).
    split; [destruct ls; [contradiction|]; destruct j; discriminate|].
    rewrite put_level_length. split; [|split].
    + intros i. rewrite put_level_nth. destruct (Nat.eqb_spec i j) as [->|Hi].
      * destruct (HL2 j) as [[A1 A2] B]. split; [split|].
        -- now apply tput_nodup.
        -- apply Forall_tput; [assumption|]. cbn [fst snd]. split; [unfold j; lia | discriminate].
        -- intros t Ht. rewrite own_node_snoc by assumption. unfold qget. rewrite tget_put.
           destruct (tile_eqb (qi_tile e) t); [reflexivity|]. now apply B.
      * destruct (HL2 i) as [A B]. split; [assumption|]. intros t Ht. rewrite own_node_snoc by assumption.
        destruct (tile_eqb_spec (qi_tile e) t) as [<-|]; [unfold j in Hi; lia | now apply B].
    + intros e' He'. apply in_app_or in He'. destruct He' as [He'|[<-|[]]].
      * specialize (HL3 e' He'). lia.
      * unfold j. lia.
    + unfold j. lia.
Qed.

Lemma levels_for_init root : levels_for root [[]] [].
Proof.
  split; [discriminate|]. split; [|split; [intros e [] | cbn [length]; lia]].
  intros j. destruct j as [|[|j]]; cbn [nth]; (split; [split; constructor|]); reflexivity.
Qed.

(** the level-0 map of the root tile alone *)
Lemma root_level root n m : level_ok (tz root) m -> (forall t, tz t = tz root -> t <> root -> qget m t = QNull) ->
  qget m root = n -> n <> QNull -> m = [(root, n)].
Proof.
  intros HL HO HR Hn. pose proof HL as [HN HF].
  assert (HI : In (root, n) m).
  { apply tget_in; [assumption|]. rewrite (level_ok_get _ _ _ HL), HR. destruct n; congruence. }
  assert (HA : forall e, In e m -> e = (root, n)).
  { intros [t k] He. rewrite Forall_forall in HF. destruct (HF _ He) as [H1 H2]. cbn [fst snd] in *.
    apply tget_in in He; [|assumption]. destruct (tile_eqb_spec t root) as [->|Ht].
    - apply tget_in in HI; [|assumption]. congruence.
    - specialize (HO t H1 Ht). unfold qget in HO. rewrite He in HO. contradiction. }
  destruct m as [|a m]; [destruct HI|]. rewrite (HA a) by now left.
  destruct m as [|b m]; [reflexivity|]. exfalso. inversion HN as [|? ? H1 _]; subst. apply H1.
  rewrite (HA a), (HA b) by intuition. now left.
Qed.

Definition depth_of (root : tile) (es : list quad_input) : nat :=
  N.to_nat (fold_right (fun e m => N.max (tz (qi_tile e) - tz root) m) 0 es).

(** tree_of does not depend on a larger depth *)
Lemma under_child_nil t i es : i < 4 -> under t es = [] -> under (child t i) es = [].
Proof. intros Hi H. apply under_nil_iff in H. now apply H. Qed.

Lemma make_tmp_ok root es : es <> [] -> NoDup (map qi_tile es) -> Forall (fun e => tz (qi_tile e) < 2 ^ 31) es ->
  (Forall (fun e => covers root (qi_tile e)) es ->
     exists d, depth_ok d es root /\ tz root + N.of_nat d < 2 ^ 31 /\ make_tmp_quad_tree root es = Ok (tree_of d es root) /\
               tree_of d es root <> QNull) /\
  (Exists (fun e => ~ covers root (qi_tile e)) es -> make_tmp_quad_tree root es = Throw).
Proof.
  intros Hne HN HZ. unfold make_tmp_quad_tree.
  destruct (insert_inputs_ok root es [[]] [] (levels_for_init root) HN HZ) as [HI1 HI2].
  destruct (forallb (in_root_z root) es) eqn:EF.
  - destruct (HI1 eq_refl) as (ls & E & HL1 & HL2 & HL3 & HL4). rewrite E. cbn [bind]. clear HI1 HI2.
    cbn [app] in *.
    destruct es as [|e0 es0]; [contradiction|]. set (es := e0 :: es0) in *.
    assert (He0 : In e0 es) by now left.
    assert (HB : tz root + N.of_nat (length ls) <= 2 ^ 31).
    { rewrite Forall_forall in HZ. specialize (HZ _ He0). specialize (HL3 _ He0). lia. }
    destruct (build_ok es ls (tz root) HL1) as [B1 B2].
    { intros j l Hj. destruct (HL2 j) as [A B]. rewrite (nth_error_nth _ _ _ Hj) in A, B. auto. }
    { intros e He. now apply HL3. }
    { lia. }
    set (d := (length ls - 1)%nat) in *.
    assert (HLen : (0 < length ls)%nat) by (destruct ls; [contradiction | cbn; lia]).
    assert (HD : depth_ok d es root).
    { apply Forall_forall. intros e He. specialize (HL3 e He). unfold d. lia. }
    split.
    + intros HC. exists d. split; [assumption|]. split; [unfold d; lia|].
      assert (HT : tree_of d es root <> QNull).
      { rewrite tree_of_null by assumption. intros HU.
        assert (In e0 (under root es)) by (apply filter_In; split; [assumption|]; apply coversb_spec; rewrite Forall_forall in HC; auto).
        rewrite HU in H. destruct H. }
      rewrite (root_level root (tree_of d es root) (build_levels ls)).
      * rewrite tile_eqb_refl. split; [reflexivity | assumption].
      * assumption.
      * intros t Ht Hne'. rewrite B2 by assumption. apply tree_of_null.
        { apply Forall_forall. intros e He. specialize (HL3 e He). unfold d. lia. }
        apply filter_all_false. apply Forall_forall. intros e He.
        destruct (coversb t (qi_tile e)) eqn:EC; [|reflexivity]. apply coversb_spec in EC.
        rewrite Forall_forall in HC. specialize (HC e He). exfalso. apply Hne'.
        apply covers_same_z; [|assumption]. eapply covers_chain; eauto. lia.
      * now apply B2.
      * assumption.
    + intros HX. apply Exists_exists in HX. destruct HX as (e & He & HC).
      (* the ancestor of e on the root level is another key *)
      specialize (HL3 e He). set (a := anc (tz (qi_tile e) - tz root) (qi_tile e)).
      assert (Ha : covers a (qi_tile e)) by (apply anc_covers; lia).
      assert (Haz : tz a = tz root) by (unfold a; rewrite anc_tz; lia).
      assert (Har : a <> root) by (intros ->; contradiction).
      assert (HG : qget (build_levels ls) a <> QNull).
      { rewrite B2 by assumption. rewrite tree_of_null.
        - intros HU. assert (HI : In e (under a es)) by (apply filter_In; split; [assumption | now apply coversb_spec]).
          rewrite HU in HI. destruct HI.
        - revert HD. apply Forall_impl. intros. lia. }
      unfold qget in HG. destruct (tget (build_levels ls) a) as [n|] eqn:EG; [|contradiction].
      apply tget_in in EG; [|apply B1].
      destruct (build_levels ls) as [|[t k] [|]]; try reflexivity.
      destruct EG as [EG|[]]. injection EG as -> ->.
      destruct (tile_eqb_spec a root); [contradiction | reflexivity].
  - rewrite HI2 by reflexivity. split; [|reflexivity]. intros HC. exfalso.
    assert (forallb (in_root_z root) es = true); [|congruence].
    apply forallb_forall. intros e He. rewrite Forall_forall in HC. specialize (HC e He). unfold in_root_z.
    destruct (N.eqb_spec (tz root) (tz (qi_tile e))) as [Ez|Ez].
    + pose proof (covers_same_z _ _ HC Ez) as <-. rewrite tile_eqb_refl, N.leb_refl. reflexivity.
    + destruct HC as [HC _]. cbn [negb orb]. lia.
Qed.

(** ** Serialization *)
Definition upd (v : list N) (i : nat) (x : N) : list N := firstn i v ++ x :: skipn (S i) v.
Lemma vset_upd v i x : (i < length v)%nat -> vset v i x = Ok (upd v i x).
Proof. intros H. unfold vset. replace (i <? length v)%nat with true by lia. reflexivity. Qed.
Lemma upd_length v i x : (i < length v)%nat -> length (upd v i x) = length v.
Proof. intros. unfold upd. rewrite app_length, firstn_length. cbn [length]. rewrite skipn_length. lia. Qed.
Lemma upd_nth v i x k : (i < length v)%nat -> nth_error (upd v i x) k = if (k =? i)%nat then Some x else nth_error v k.
Proof.
  intros H. unfold upd. destruct (Nat.eqb_spec k i) as [->|Hk].
  - rewrite nth_error_app2; rewrite firstn_length; [|lia]. replace (i - Nat.min i (length v))%nat with 0%nat by lia. reflexivity.
  - destruct (Nat.ltb_spec k i).
    + rewrite nth_error_app1 by (rewrite firstn_length; lia). now rewrite nth_error_firstn.
    + rewrite nth_error_app2; rewrite firstn_length; [|lia].
      replace (k - Nat.min i (length v))%nat with (S (k - S i)) by lia. cbn [nth_error].
      rewrite nth_error_skipn. f_equal. lia.
Qed.
Lemma upd_same v i x : nth_error v i = Some x -> upd v i x = v.
Proof.
  intros H. assert (i < length v)%nat by (apply nth_error_Some; congruence).
  apply list_ext. intros k. rewrite upd_nth by assumption. destruct (Nat.eqb_spec k i) as [->|]; congruence.
Qed.
Lemma upd_app v i x w : (i < length v)%nat -> upd (v ++ w) i x = upd v i x ++ w.
Proof.
  intros H. apply list_ext. intros k. rewrite upd_nth by (rewrite app_length; lia).
  destruct (Nat.ltb_spec k (length v)).
  - rewrite !nth_error_app1 by (rewrite ?upd_length; assumption). now rewrite upd_nth.
  - rewrite !nth_error_app2 by (rewrite ?upd_length; lia). rewrite upd_length by assumption.
    replace (k =? i)%nat with false by lia. reflexivity.
Qed.
Lemma upd_upd v i x y : (i < length v)%nat -> upd (upd v i x) i y = upd v i y.
Proof.
  intros H. apply list_ext. intros k. rewrite !upd_nth by (rewrite ?upd_length; assumption).
  destruct (k =? i)%nat; reflexivity.
Qed.

Ltac upl := repeat (rewrite upd_length by upl); lia.

Definition nn (c : qtree) : nat := match c with QNull => 0 | _ => 1 end.
Definition mask4 (c0 c1 c2 c3 : qtree) : N :=
  N.of_nat (nn c0) + 2 * N.of_nat (nn c1) + 4 * N.of_nat (nn c2) + 8 * N.of_nat (nn c3).
Definition ptr_val (b m : N) : N := if m =? 0 then 0 else b + 2 ^ 28 * m.

(** the array [v] holds the tree [n] at offset [o] *)
Fixpoint repr (v : list N) (o : nat) (n : qtree) : Prop :=
  match n with
  | QNull => True
  | QNode c0 c1 c2 c3 off self sub =>
      nth_error v (o + 1) = Some off /\ nth_error v (o + 2) = Some self /\ nth_error v (o + 3) = Some sub /\
      exists b, 0 < N.of_nat b < 2 ^ 28 /\
        nth_error v o = Some (ptr_val (N.of_nat b) (mask4 c0 c1 c2 c3)) /\
        repr v b c0 /\ repr v (b + 4 * nn c0) c1 /\ repr v (b + 4 * (nn c0 + nn c1)) c2 /\
        repr v (b + 4 * (nn c0 + nn c1 + nn c2)) c3
  end.

(** *** one node *)
Lemma push_child_step o i c st0 v b k m add :
  (o < length v)%nat -> b = length v -> 0 < N.of_nat b < 2 ^ 28 -> i < 4 -> m < 2 ^ i -> (m = 0 -> k = 0%nat) ->
  push_child o i c (add ++ st0, upd v o (ptr_val (N.of_nat b) m) ++ repeat 0 (4 * k)) =
  Ok ((if nn c then [] else [((b + 4 * k)%nat, c)]) ++ add ++ st0,
      upd v o (ptr_val (N.of_nat b) (m + N.of_nat (nn c) * 2 ^ i)) ++ repeat 0 (4 * (k + nn c))).
Proof.
  intros Ho Hb HB Hi Hm Hk. destruct c as [|c0 c1 c2 c3 o1 s1 u1]; cbn [push_child nn].
  - rewrite N.mul_0_l, N.add_0_r, Nat.add_0_r. reflexivity.
  - unfold vget. rewrite nth_error_app1 by (rewrite upd_length; assumption).
    rewrite upd_nth by assumption. rewrite Nat.eqb_refl. cbn [bind].
    set (w := upd v o (ptr_val (N.of_nat b) m) ++ repeat 0 (4 * k)).
    assert (Hw : length w = (b + 4 * k)%nat).
    { unfold w. rewrite app_length, upd_length, repeat_length by assumption. lia. }
    assert (E : N.lor (if ptr_val (N.of_nat b) m =? 0 then N.of_nat (length w) mod 2 ^ 32 else ptr_val (N.of_nat b) m)
                  (N.shiftl 1 (i + kQuadChildOffset)) = ptr_val (N.of_nat b) (m + N.of_nat 1 * 2 ^ i)).
    { assert (H2i : 0 < 2 ^ i) by (apply N.neq_0_lt_0, N.pow_nonzero; lia).
      assert (HP : 2 ^ (i + kQuadChildOffset) = 2 ^ 28 * 2 ^ i).
      { unfold kQuadChildOffset. rewrite N.add_comm. apply N.pow_add_r. }
      unfold ptr_val. destruct (N.eqb_spec m 0) as [->|Hm0].
      - rewrite N.eqb_refl. rewrite Hk in Hw by reflexivity. rewrite Hw.
        rewrite N.mod_small by (change (2 ^ 32) with (16 * 2 ^ 28); lia).
        rewrite lor_shift_add by (rewrite HP; nia). rewrite HP.
        replace (0 + N.of_nat 1 * 2 ^ i =? 0) with false by lia. lia.
      - replace (N.of_nat b + 2 ^ 28 * m =? 0) with false by lia.
        rewrite lor_shift_add by (rewrite HP; nia). rewrite HP.
        replace (m + N.of_nat 1 * 2 ^ i =? 0) with false by lia. lia. }
    rewrite E. rewrite vset_upd by (rewrite Hw; lia). cbn [bind].
    rewrite upd_length by (rewrite Hw; lia). rewrite Hw.
    unfold w. rewrite upd_app by (rewrite upd_length; assumption). rewrite upd_upd by assumption.
    rewrite <- app_assoc. change [0; 0; 0; 0] with (repeat 0 4). rewrite <- repeat_app.
    replace (4 * k + 4)%nat with (4 * (k + 1))%nat by lia. reflexivity.
Qed.

Definition total (st : qstack) : nat := fold_right (fun e s => (qcount (snd e) + s)%nat) 0%nat st.
Lemma total_app a b : total (a ++ b) = (total a + total b)%nat.
Proof. unfold total. induction a as [|x a IH]; [reflexivity|]. cbn [app fold_right]. rewrite IH. lia. Qed.
Definition one (o : nat) (c : qtree) : qstack := if nn c then [] else [(o, c)].
Lemma one_total o c : total (one o c) = qcount c.
Proof. destruct c; cbn; lia. Qed.
Lemma one_length o c : length (one o c) = nn c.
Proof. destruct c; reflexivity. Qed.
Lemma one_in o c e : In e (one o c) <-> c <> QNull /\ e = (o, c).
Proof. destruct c; cbn; intuition congruence. Qed.

Lemma serialize_total : forall fuel st v, (total st <= fuel)%nat ->
  Forall (fun e => snd e <> QNull /\ (fst e + 4 <= length v)%nat) st ->
  exists v', serialize_loop fuel st v = Ok v' /\ (length v' + 4 * length st = length v + 4 * total st)%nat.
Proof.
  induction fuel as [|fuel IH]; intros st v HT HF; destruct st as [|[o n] st]; cbn [serialize_loop];
    try (eexists; split; [reflexivity | cbn; lia]);
    (destruct n as [|c0 c1 c2 c3 off self sub]; [inversion HF as [|? ? [H1 _] _]; subst; cbn in H1; congruence|]).
  - cbn in HT. lia.
  - inversion HF as [|? ? [_ H1] HF']; subst. cbn [fst] in H1.
    assert (HP : forall i c (st : qstack) v, (o < length v)%nat ->
      Forall (fun e => snd e <> QNull /\ (fst e + 4 <= length v)%nat) st ->
      exists (st' : qstack) v', push_child o i c (st, v) = Ok (st', v') /\ (length v' = length v + 4 * nn c)%nat /\
        (length st' = length st + nn c)%nat /\ (total st' = total st + qcount c)%nat /\
        Forall (fun e => snd e <> QNull /\ (fst e + 4 <= length v')%nat) st').
    { clear. intros i c st v Ho HF. destruct c as [|a0 a1 a2 a3 ao as_ au].
      - exists st, v. cbn [push_child nn qcount]. repeat split; try lia. assumption.
      - cbn [push_child]. unfold vget. destruct (nth_error v o) as [s|] eqn:E; [|apply nth_error_None in E; lia].
        cbn [bind]. rewrite vset_upd by assumption. cbn [bind]. eexists _, _. split; [reflexivity|].
        rewrite upd_length by assumption. cbn [nn length]. rewrite app_length, upd_length by assumption. cbn [length].
        split; [lia|]. split; [lia|]. split; [unfold total; cbn [fold_right snd]; fold (total st); lia|].
        constructor; [cbn [fst snd]; split; [discriminate | lia]|].
        eapply Forall_impl; [|exact HF]. intros e [A B]. split; [assumption | lia]. }
    rewrite vset_upd by lia. cbn [bind]. rewrite vset_upd by upl. cbn [bind].
    rewrite vset_upd by upl. cbn [bind].
    match goal with |- context [push_child o 0 c0 (st, ?w)] => set (v3 := w) end.
    assert (L3 : length v3 = length v) by (unfold v3; upl).
    assert (F3 : Forall (fun e => snd e <> QNull /\ (fst e + 4 <= length v3)%nat) st) by (rewrite L3; assumption).
    match goal with |- context [push_child o 0 c0 ?p] => change p with (@pair qstack (list N) st v3) end.
    destruct (HP 0 c0 st v3 ltac:(lia) F3) as (s4 & v4 & -> & A4 & B4 & C4 & F4). cbn [bind].
    destruct (HP 1 c1 s4 v4 ltac:(lia) F4) as (s5 & v5 & -> & A5 & B5 & C5 & F5). cbn [bind].
    destruct (HP 2 c2 s5 v5 ltac:(lia) F5) as (s6 & v6 & -> & A6 & B6 & C6 & F6). cbn [bind].
    destruct (HP 3 c3 s6 v6 ltac:(lia) F6) as (s7 & v7 & -> & A7 & B7 & C7 & F7). cbn [bind fst snd].
    unfold total in HT. cbn [fold_right snd qcount] in HT. fold (total st) in HT.
    destruct (IH s7 v7 ltac:(lia) F7) as (v' & E & HL). exists v'. split; [assumption|].
    unfold total. cbn [fold_right snd qcount length]. fold (total st). lia.
Qed.

Lemma serialize_repr : forall fuel st v v',
  serialize_loop fuel st v = Ok v' ->
  (total st <= fuel)%nat ->
  Forall (fun e => snd e <> QNull /\ (fst e + 4 <= length v)%nat /\ nth_error v (fst e) = Some 0 /\ (fst e mod 4 = 0)%nat) st ->
  NoDup (map fst st) -> (length v mod 4 = 0)%nat -> (0 < length v)%nat ->
  N.of_nat (length v + 4 * total st) < 2 ^ 28 + N.of_nat (4 * length st) ->
  (forall i, (i < length v)%nat -> (forall e, In e st -> ~ (fst e <= i < fst e + 4)%nat) -> nth_error v' i = nth_error v i) /\
  Forall (fun e => repr v' (fst e) (snd e)) st.
Proof.
  induction fuel as [|fuel IH]; intros st v v' HR HT HF HN H4 H0 HB.
  { destruct st as [|[o n] st]; cbn [serialize_loop] in HR; [|destruct n; discriminate].
    apply Ok_inj in HR. subst. split; [reflexivity | constructor]. }
  destruct st as [|[o n] st]; cbn [serialize_loop] in HR.
  { apply Ok_inj in HR. subst. split; [reflexivity | constructor]. }
  destruct n as [|c0 c1 c2 c3 off self sub]; [discriminate|].
  inversion HF as [|? ? (_ & O1 & O2 & O3) HF']; subst. cbn [fst snd] in *.
  inversion HN as [|? ? N1 N2]; subst. fold (map (@fst nat qtree) st) in *.
  assert (HT' : (S (qcount c0 + qcount c1 + qcount c2 + qcount c3) + total st <= S fuel)%nat) by exact HT.
  assert (Hlt : (length st <= total st)%nat).
  { clear - HF'. induction HF' as [|[a b] st [H _] _ IH]; [cbn; lia|]. unfold total. cbn [fold_right length snd] in *. fold (total st).
    destruct b; [congruence|]. cbn [qcount]. lia. }
  assert (HB' : N.of_nat (length v + 4 * (S (qcount c0 + qcount c1 + qcount c2 + qcount c3) + total st)) < 2 ^ 28 + N.of_nat (4 * S (length st))) by exact HB.
  assert (Hb : 0 < N.of_nat (length v) < 2 ^ 28) by lia.
  rewrite vset_upd in HR by lia. cbn [bind] in HR. rewrite vset_upd in HR by upl. cbn [bind] in HR.
  rewrite vset_upd in HR by upl. cbn [bind] in HR.
  match type of HR with context [push_child o 0 c0 (st, ?w)] => set (v3 := w) in * end.
  assert (L3 : length v3 = length v) by (unfold v3; upl).
  assert (G3 : forall i, nth_error v3 i = if (i =? o + 3)%nat then Some sub else if (i =? o + 2)%nat then Some self
     else if (i =? o + 1)%nat then Some off else nth_error v i).
  { intros i. unfold v3. rewrite !upd_nth by upl. reflexivity. }
  assert (E3 : (st, v3) = ([] ++ st, upd v3 o (ptr_val (N.of_nat (length v)) 0) ++ repeat 0 (4 * 0))).
  { cbn [app repeat Nat.mul]. rewrite app_nil_r. f_equal. symmetry. apply upd_same. rewrite G3.
    replace (o =? o + 3)%nat with false by lia. replace (o =? o + 2)%nat with false by lia.
    replace (o =? o + 1)%nat with false by lia. exact O2. }
  rewrite E3 in HR. clear E3.
  rewrite (push_child_step o 0 c0 st v3 (length v) 0 0 []) in HR by (rewrite ?L3; try assumption; try reflexivity; try lia; cbn; lia).
  cbn [bind] in HR. fold (one (length v + 4 * 0) c0) in HR. rewrite app_nil_l in HR.
  rewrite (push_child_step o 1 c1 st v3 (length v) _ _ (one (length v + 4 * 0) c0)) in HR
    by (rewrite ?L3; try assumption; try reflexivity; try lia; change (2 ^ 0) with 1; change (2 ^ 1) with 2; destruct c0; cbn [nn]; lia).
  cbn [bind] in HR. fold (one (length v + 4 * (0 + nn c0)) c1) in HR. rewrite app_assoc in HR.
  rewrite (push_child_step o 2 c2 st v3 (length v) _ _ (one (length v + 4 * (0 + nn c0)) c1 ++ one (length v + 4 * 0) c0)) in HR
    by (rewrite ?L3; try assumption; try reflexivity; try lia; change (2 ^ 0) with 1; change (2 ^ 1) with 2; change (2 ^ 2) with 4; destruct c0, c1; cbn [nn]; lia).
  cbn [bind] in HR. fold (one (length v + 4 * (0 + nn c0 + nn c1)) c2) in HR. rewrite app_assoc in HR.
  rewrite (push_child_step o 3 c3 st v3 (length v) _ _ (one (length v + 4 * (0 + nn c0 + nn c1)) c2 ++ one (length v + 4 * (0 + nn c0)) c1 ++ one (length v + 4 * 0) c0)) in HR
    by (rewrite ?L3; try assumption; try reflexivity; try lia; change (2 ^ 0) with 1; change (2 ^ 1) with 2; change (2 ^ 2) with 4; change (2 ^ 3) with 8; destruct c0, c1, c2; cbn [nn]; lia).
  cbn [bind fst snd] in HR. fold (one (length v + 4 * (0 + nn c0 + nn c1 + nn c2)) c3) in HR.
  set (K := one (length v + 4 * (0 + nn c0 + nn c1 + nn c2)) c3 ++ (one (length v + 4 * (0 + nn c0 + nn c1)) c2 ++ one (length v + 4 * (0 + nn c0)) c1 ++ one (length v + 4 * 0) c0)) in *.
  rewrite app_assoc in HR. fold K in HR.
  set (P := ptr_val (N.of_nat (length v)) _) in HR.
  assert (EP : P = ptr_val (N.of_nat (length v)) (mask4 c0 c1 c2 c3)).
  { unfold P. f_equal. unfold mask4. change (2 ^ 0) with 1. change (2 ^ 1) with 2. change (2 ^ 2) with 4. change (2 ^ 3) with 8. lia. }
  set (kk := (0 + nn c0 + nn c1 + nn c2 + nn c3)%nat) in *.
  set (v4 := upd v3 o P ++ repeat 0 (4 * kk)) in *.
  assert (L4 : length v4 = (length v + 4 * kk)%nat).
  { unfold v4. rewrite app_length, upd_length, repeat_length by lia. lia. }
  assert (G4 : forall i, (i < length v)%nat -> nth_error v4 i = if (i =? o)%nat then Some P else nth_error v3 i).
  { intros i Hi. unfold v4. rewrite nth_error_app1 by upl. apply upd_nth. lia. }
  assert (Z4 : forall i, (length v <= i < length v + 4 * kk)%nat -> nth_error v4 i = Some 0).
  { intros i Hi. unfold v4. rewrite nth_error_app2 by upl. rewrite upd_length by lia.
    apply nth_error_repeat. lia. }
  assert (KT : total K = (qcount c0 + qcount c1 + qcount c2 + qcount c3)%nat).
  { unfold K. rewrite !total_app, !one_total. lia. }
  assert (KL : length K = kk) by (unfold K; rewrite !app_length, !one_length; unfold kk; lia).
  assert (KIN : forall e, In e K -> snd e <> QNull /\ (length v <= fst e)%nat /\ (fst e + 4 <= length v4)%nat /\ (fst e mod 4 = 0)%nat).
  { intros e He. rewrite L4. unfold kk. unfold K in He. rewrite !in_app_iff, !one_in in He.
    assert (X : forall c, c <> QNull -> nn c = 1%nat) by (intros []; [congruence | reflexivity]).
    assert (Y : forall k, ((length v + 4 * k) mod 4 = 0)%nat) by (intros; lia).
    decompose [and or] He; subst e; cbn [fst snd]; (split; [assumption|]); (split; [lia|]); (split; [|apply Y]);
      rewrite (X _ ltac:(eassumption)); lia. }
  specialize (IH (K ++ st) v4 v' HR).
  rewrite total_app, app_length, KT, KL, L4 in IH.
  assert (KN : NoDup (map fst (K ++ st))).
  { rewrite map_app. 
    assert (KND : NoDup (map fst K)).
    { unfold K. destruct c0, c1, c2, c3; cbn [one nn app map fst]; repeat (constructor; [cbn [In]; lia|]); constructor. }
    revert KND. assert (forall x, In x (map fst K) -> (length v <= x)%nat) as KGE.
    { intros x Hx. apply in_map_iff in Hx. destruct Hx as (e & <- & He). now apply KIN. }
    revert KGE. generalize (map fst K) as ks. induction ks as [|k ks IHk]; intros KGE KND; [exact N2|].
    cbn [app]. inversion KND as [|? ? D1 D2]; subst. constructor; [|apply IHk; [intros; apply KGE; now right | assumption]].
    rewrite in_app_iff. intros [|HI]; [contradiction|]. apply in_map_iff in HI. destruct HI as (e & E & He).
    rewrite Forall_forall in HF'. destruct (HF' _ He) as (_ & Q & _). specialize (KGE k ltac:(now left)). lia. }
  assert (OUT : forall e, In e (K ++ st) -> (fst e >= o + 4 \/ fst e + 4 <= o)%nat).
  { intros e He. apply in_app_iff in He. destruct He as [He|He]; [apply KIN in He; lia|].
    rewrite Forall_forall in HF'. destruct (HF' _ He) as (_ & Q1 & _ & Q2).
    assert (fst e <> o) by (intros <-; apply N1; now apply in_map). lia. }
  destruct IH as [FR RP]; try assumption; try lia.
  { rewrite Forall_forall in HF' |- *. intros e He. apply in_app_iff in He. destruct He as [He|He].
    - destruct (KIN _ He) as (Q1 & Q2 & Q3 & Q4). repeat split; try assumption; try lia. apply Z4. lia.
    - destruct (HF' _ He) as (Q1 & Q2 & Q3 & Q4). repeat split; try assumption; try lia.
      rewrite G4 by lia. specialize (OUT e ltac:(apply in_app_iff; now right)). rewrite G3.
      replace (fst e =? o)%nat with false by lia. replace (fst e =? o + 3)%nat with false by lia.
      replace (fst e =? o + 2)%nat with false by lia. replace (fst e =? o + 1)%nat with false by lia. assumption. }
  assert (OWN : forall i, (o <= i < o + 4)%nat -> nth_error v' i = nth_error v4 i).
  { intros i Hi. apply FR; [lia|]. intros e He. specialize (OUT e He). lia. }
  split.
  - intros i Hi HO. rewrite FR; [|lia|].
    + specialize (HO _ ltac:(now left)) as HO'. cbn [fst] in HO'. rewrite G4, G3 by lia.
      replace (i =? o)%nat with false by lia. replace (i =? o + 3)%nat with false by lia.
      replace (i =? o + 2)%nat with false by lia. replace (i =? o + 1)%nat with false by lia. reflexivity.
    + intros e He. apply in_app_iff in He. destruct He as [He|He]; [apply KIN in He; lia | apply HO; now right].
  - rewrite Forall_app in RP. destruct RP as [RK RS]. constructor; [|assumption]. cbn [fst snd repr].
    rewrite !OWN by lia. rewrite !G4, !G3 by lia. rewrite Nat.eqb_refl.
    replace (o + 1 =? o)%nat with false by lia. replace (o + 2 =? o)%nat with false by lia.
    replace (o + 3 =? o)%nat with false by lia. replace (o + 1 =? o + 3)%nat with false by lia.
    replace (o + 1 =? o + 2)%nat with false by lia. replace (o + 2 =? o + 3)%nat with false by lia.
    rewrite !Nat.eqb_refl. do 3 (split; [reflexivity|]). exists (length v). split; [assumption|].
    rewrite <- EP. split; [reflexivity|].
    rewrite Forall_forall in RK.
    assert (RC : forall k c, (forall e, In e (one k c) -> In e K) -> repr v' k c).
    { intros k c HI. destruct c as [|a0 a1 a2 a3 o' s' u']; [exact I|]. apply (RK (k, QNode a0 a1 a2 a3 o' s' u')). apply HI. now left. }
    unfold K in RC.
    split; [|split; [|split]].
    + replace (length v) with (length v + 4 * 0)%nat by lia. apply RC. intros e He. rewrite !in_app_iff. tauto.
    + replace (4 * nn c0)%nat with (4 * (0 + nn c0))%nat by lia. apply RC. intros e He. rewrite !in_app_iff. tauto.
    + replace (nn c0 + nn c1)%nat with (0 + nn c0 + nn c1)%nat by lia. apply RC. intros e He. rewrite !in_app_iff. tauto.
    + replace (nn c0 + nn c1 + nn c2)%nat with (0 + nn c0 + nn c1 + nn c2)%nat by lia. apply RC. intros e He. rewrite !in_app_iff. tauto.
Qed.
