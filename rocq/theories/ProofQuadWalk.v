(** Proofs about walking a quad tree. *)
From Coq Require Import Permutation.
From Verif Require Import Base BaseProof ModelTile SpecTile ProofTile ModelQuadTree SpecQuadTree ProofQuadTree.
Open Scope N_scope.

(** ** Reading the array from the bytes *)
Lemma u32_bytes_length v : length (u32_bytes v) = (4 * length v)%nat.
Proof. unfold u32_bytes. induction v as [|x v IH]; [reflexivity|]. cbn [flat_map]. rewrite app_length, IH, le_bytes_length. cbn [length]. lia. Qed.
Lemma u32_bytes_app a b : u32_bytes (a ++ b) = u32_bytes a ++ u32_bytes b.
Proof. unfold u32_bytes. now rewrite flat_map_app. Qed.

Lemma read_u32_ok v rest i x : nth_error v i = Some x -> x < 2 ^ 32 ->
  read_u32 (u32_bytes v ++ rest) (N.of_nat i) = Ok x.
Proof.
  intros H Hx. apply nth_error_split in H. destruct H as (a & b & -> & <-).
  unfold read_u32. rewrite u32_bytes_app. change (x :: b) with ([x] ++ b). rewrite u32_bytes_app, <- !app_assoc.
  assert (L : blen (u32_bytes a) = 4 * N.of_nat (length a)) by (unfold blen; rewrite u32_bytes_length; lia).
  assert (L1 : blen (u32_bytes [x]) = 4) by reflexivity.
  rewrite !blen_app, L, L1. replace (4 * N.of_nat (length a) + 4 <=? _) with true by lia.
  rewrite <- L, <- L1 at 1. rewrite slice_app_exact. unfold u32_bytes. cbn [flat_map]. rewrite app_nil_r.
  now rewrite le_val_bytes.
Qed.

(** ** Values in the tree *)
Definition qoff (n : qtree) : N := match n with QNull => kU32Max | QNode _ _ _ _ o _ _ => o end.
Definition qsub (n : qtree) : N := match n with QNull => 0 | QNode _ _ _ _ _ _ u => u end.

Lemma add_four a0 a1 a2 a3 o s u : o <= kU32Max -> u < 2 ^ 32 ->
  add_child 3 a3 (add_child 2 a2 (add_child 1 a1 (add_child 0 a0 (QNode QNull QNull QNull QNull o s u)))) =
  QNode a0 a1 a2 a3 (N.min (N.min (N.min (N.min o (qoff a0)) (qoff a1)) (qoff a2)) (qoff a3)) s
    ((u + qsub a0 + qsub a1 + qsub a2 + qsub a3) mod 2 ^ 32).
Proof.
  intros Ho Hu.
  assert (S : forall n o', o' <= kU32Max -> N.min o' (qoff n) <= kU32Max) by (intros; lia).
  assert (A0 : forall o, o <= kU32Max -> N.min o kU32Max = o) by (intros; lia).
  assert (M : forall a b, (a mod 2 ^ 32 + b) mod 2 ^ 32 = (a + b) mod 2 ^ 32) by (intros; lia).
  assert (M0 : forall a, (a + 0) = a) by (intros; lia).
  assert (Mu : u mod 2 ^ 32 = u) by lia.
  assert (E0 : add_child 0 a0 (QNode QNull QNull QNull QNull o s u) = QNode a0 QNull QNull QNull (N.min o (qoff a0)) s ((u + qsub a0) mod 2 ^ 32)).
  { destruct a0; cbn [add_child qoff qsub]; [rewrite A0, M0, Mu by assumption|]; reflexivity. }
  rewrite E0. clear E0.
  set (o1 := N.min o (qoff a0)). assert (Ho1 : o1 <= kU32Max) by (unfold o1; lia). set (u1 := u + qsub a0).
  assert (E1 : add_child 1 a1 (QNode a0 QNull QNull QNull o1 s (u1 mod 2 ^ 32)) = QNode a0 a1 QNull QNull (N.min o1 (qoff a1)) s ((u1 + qsub a1) mod 2 ^ 32)).
  { destruct a1; cbn [add_child qoff qsub]; [rewrite A0, M0 by assumption|rewrite M]; reflexivity. }
  rewrite E1. clear E1.
  set (o2 := N.min o1 (qoff a1)). assert (Ho2 : o2 <= kU32Max) by (unfold o2; lia). set (u2 := u1 + qsub a1).
  assert (E2 : add_child 2 a2 (QNode a0 a1 QNull QNull o2 s (u2 mod 2 ^ 32)) = QNode a0 a1 a2 QNull (N.min o2 (qoff a2)) s ((u2 + qsub a2) mod 2 ^ 32)).
  { destruct a2; cbn [add_child qoff qsub]; [rewrite A0, M0 by assumption|rewrite M]; reflexivity. }
  rewrite E2. clear E2.
  set (o3 := N.min o2 (qoff a2)). assert (Ho3 : o3 <= kU32Max) by (unfold o3; lia). set (u3 := u2 + qsub a2).
  destruct a3; cbn [add_child qoff qsub]; [rewrite A0, M0 by assumption|rewrite M]; reflexivity.
Qed.

Lemma total_size_filter (f : quad_input -> bool) e es :
  total_size (filter f (e :: es)) = b2n (f e) * qi_size e + total_size (filter f es).
Proof. cbn [filter]. destruct (f e); cbn [b2n total_size fold_right]; [fold (total_size (filter f es))|]; lia. Qed.

Lemma under_total t es :
  total_size (under t es) = total_size (own t es) + total_size (under (child t 0) es) + total_size (under (child t 1) es)
    + total_size (under (child t 2) es) + total_size (under (child t 3) es).
Proof.
  unfold under, own. induction es as [|e es IH]; [reflexivity|]. rewrite !total_size_filter, IH, covers_split. lia.
Qed.

Lemma min_off_cons e es : min_off (e :: es) = N.min (qi_off e) (min_off es).
Proof. reflexivity. Qed.
Lemma min_off_le es : min_off es <= kU32Max.
Proof. induction es as [|e es IH]; [unfold min_off, kU32Max; cbn; lia|]. rewrite min_off_cons. lia. Qed.

Lemma under_min t es :
  min_off (under t es) = N.min (N.min (N.min (N.min (min_off (own t es)) (min_off (under (child t 0) es))) (min_off (under (child t 1) es)))
    (min_off (under (child t 2) es))) (min_off (under (child t 3) es)).
Proof.
  unfold under, own. induction es as [|e es IH]; [reflexivity|]. cbn [filter].
  pose proof (covers_split t (qi_tile e)) as HC. unfold b2n in HC.
  destruct (coversb t (qi_tile e)), (tile_eqb (qi_tile e) t), (coversb (child t 0) (qi_tile e)), (coversb (child t 1) (qi_tile e)),
    (coversb (child t 2) (qi_tile e)), (coversb (child t 3) (qi_tile e)); cbn in HC; try discriminate; rewrite ?min_off_cons, IH; lia.
Qed.

Definition es_small (es : list quad_input) : Prop :=
  NoDup (map qi_tile es) /\ Forall (fun e => qi_off e < 2 ^ 32 /\ qi_size e < 2 ^ 32) es.

Lemma own_le_one t es : NoDup (map qi_tile es) -> own t es = [] \/ exists e, own t es = [e] /\ In e es /\ qi_tile e = t.
Proof.
  unfold own. induction es as [|e es IH]; intros H; [now left|]. inversion H as [|? ? H1 H2]; subst. cbn [filter].
  destruct (tile_eqb_spec (qi_tile e) t) as [<-|Ht].
  - right. exists e. replace (filter _ es) with (@nil quad_input); [split; [reflexivity|]; split; [now left | reflexivity]|].
    symmetry. apply filter_all_false, Forall_forall. intros e' He'.
    destruct (tile_eqb_spec (qi_tile e') (qi_tile e)) as [E|]; [|reflexivity]. destruct H1. rewrite <- E. now apply in_map.
  - destruct (IH H2) as [->|(e' & -> & ? & ?)]; [now left|]. right. exists e'. split; [reflexivity|]. split; [now right | assumption].
Qed.

(** the four children of the node of t *)
Definition kid (d : nat) (es : list quad_input) (t : tile) (i : N) : qtree :=
  match d with O => QNull | S d' => tree_of d' es (child t i) end.

Lemma kid_null d es t i : depth_ok d es t -> i < 4 -> kid d es t i = QNull <-> under (child t i) es = [].
Proof.
  intros HD Hi. destruct d as [|d]; cbn [kid].
  - split; [|reflexivity]. intros _. apply filter_all_false, Forall_forall. intros e He.
    destruct (coversb (child t i) (qi_tile e)) eqn:E; [|reflexivity]. apply coversb_spec in E. destruct E as [E _].
    unfold depth_ok in HD. rewrite Forall_forall in HD. specialize (HD e He). cbn [child tz] in E. lia.
  - apply tree_of_null. now apply depth_ok_child.
Qed.

Lemma tree_of_vals d es : es_small es -> forall t, depth_ok d es t -> under t es <> [] ->
  tree_of d es t = QNode (kid d es t 0) (kid d es t 1) (kid d es t 2) (kid d es t 3)
    (min_off (under t es)) (total_size (own t es)) (total_size (under t es) mod 2 ^ 32).
Proof.
  intros [HN HS]. induction d as [|d IH]; intros t HD HU.
  - cbn [tree_of kid]. destruct (under t es) as [|e0 l] eqn:EU; [congruence|]. rewrite <- EU in *. clear EU.
    assert (K : forall i, i < 4 -> under (child t i) es = []).
    { intros i Hi. apply (kid_null 0 es t i HD Hi). reflexivity. }
    rewrite under_total, under_min, !K by lia. cbn [total_size fold_right].
    unfold own_node. destruct (own_le_one t es HN) as [E|(e & E & HI & _)].
    + destruct HU. apply under_nil_iff. split; assumption.
    + rewrite E. unfold leaf. rewrite Forall_forall in HS. destruct (HS e HI) as [S1 S2].
      cbn [min_off total_size fold_right]. f_equal; lia.
  - cbn [tree_of kid]. destruct (under t es) as [|e0 l] eqn:EU; [congruence|]. rewrite <- EU in *. clear EU.
    assert (V : forall i, i < 4 -> qoff (tree_of d es (child t i)) = min_off (under (child t i) es) /\
                      qsub (tree_of d es (child t i)) = total_size (under (child t i) es) mod 2 ^ 32).
    { intros i Hi. pose proof (depth_ok_child d es t i HD) as HD'.
      destruct (under (child t i) es) as [|e l'] eqn:EU.
      - apply (tree_of_null d es _ HD') in EU. rewrite EU. split; reflexivity.
      - rewrite <- EU in *. rewrite IH; [split; reflexivity | assumption | congruence]. }
    assert (EO : exists o u, orEmpty (own_node t es) = QNode QNull QNull QNull QNull o u u /\ o = min_off (own t es) /\ u = total_size (own t es) /\ u < 2 ^ 32).
    { unfold own_node. destruct (own_le_one t es HN) as [E|(e & E & HI & _)]; rewrite E.
      - exists kU32Max, 0. repeat split.
      - exists (qi_off e), (qi_size e). rewrite Forall_forall in HS. destruct (HS e HI) as [S1 S2].
        unfold leaf. cbn [orEmpty min_off total_size fold_right]. repeat split; lia. }
    destruct EO as (o & u & -> & Eo & Eu & Hu).
    rewrite add_four; [|subst o; apply min_off_le | assumption].
    destruct (V 0) as [-> ->]; [lia|]. destruct (V 1) as [-> ->]; [lia|]. destruct (V 2) as [-> ->]; [lia|]. destruct (V 3) as [-> ->]; [lia|].
    rewrite <- Eu. rewrite (under_total t es), (under_min t es), <- Eo, <- Eu. f_equal.
    clear. generalize (total_size (under (child t 0) es)), (total_size (under (child t 1) es)), (total_size (under (child t 2) es)), (total_size (under (child t 3) es)).
    intros a b c e. lia.
Qed.

(** ** The trace *)
Fixpoint trace_down (q : tile) (k : nat) : list tile :=
  match k with O => [q] | S k' => anc (N.of_nat (S k')) q :: trace_down q k' end.
Lemma trace_down_head q k : exists r, trace_down q k = anc (N.of_nat k) q :: r.
Proof. destruct k; cbn [trace_down]; [rewrite anc_0|]; eauto. Qed.

Lemma reaches_up_spec : forall fuel p q, tz p <= N.of_nat fuel -> tz p < 2 ^ 32 ->
  reaches_up fuel p q = coversb q p.
Proof.
  induction fuel as [|fuel IH]; intros p q Hf Hz; cbn [reaches_up].
  - destruct (tile_eqb_spec p q) as [->|Hne]; [symmetry; apply coversb_refl|].
    destruct (coversb q p) eqn:E; [|reflexivity]. apply coversb_spec in E. pose proof E as [E' _].
    apply covers_same_z in E; [|lia]. congruence.
  - destruct (tile_eqb_spec p q) as [->|Hne]; [symmetry; apply coversb_refl|].
    destruct (N.eqb_spec (tz p) 0) as [H0|H0].
    + destruct (coversb q p) eqn:E; [|reflexivity]. apply coversb_spec in E. pose proof E as [E' _].
      apply covers_same_z in E; [|lia]. congruence.
    + rewrite IH by (rewrite parent_tz; lia).
      destruct (coversb q (tile_parent p)) eqn:E1, (coversb q p) eqn:E2; try reflexivity.
      * apply coversb_spec in E1. assert (covers q p); [|apply coversb_spec in H; congruence].
        eapply covers_trans; [exact E1|]. rewrite <- (child_parent p) at 2 by lia. apply covers_child_parent, quad_pos_lt.
      * apply coversb_spec in E2. assert (covers q (tile_parent p)); [|apply coversb_spec in H; congruence].
        assert (HP : covers (tile_parent p) p).
        { rewrite <- (child_parent p) at 2 by lia. apply covers_child_parent, quad_pos_lt. }
        eapply covers_chain; [exact E2 | exact HP|]. rewrite parent_tz by lia.
        destruct (N.eq_dec (tz q) (tz p)) as [Ez|Ez]; [apply covers_same_z in E2; congruence|]. destruct E2; lia.
Qed.

Lemma trace_up_S f root b r : trace_up (S f) root (b :: r) =
  if tile_eqb (tile_parent b) root then Ok (Some (root :: b :: r))
  else if (tz b =? 0) || (tz b <? tz root) then Ok None
  else trace_up f root (tile_parent b :: b :: r).
Proof. reflexivity. Qed.

Lemma trace_up_spec root q : tz q < 2 ^ 32 -> tz root < 2 ^ 31 -> forall n j,
  (n + j = N.to_nat (tz q))%nat ->
  (forall i, (i <= j)%nat -> anc (N.of_nat i) q <> root) ->
  trace_up (S n) root (trace_down q j) =
  Ok (if coversb root q then Some (trace_down q (N.to_nat (tz q - tz root))) else None).
Proof.
  intros Hz HR. induction n as [|n IH]; intros j Hn HA.
  - destruct (trace_down_head q j) as [r Er]. rewrite Er, trace_up_S, <- Er.
    replace (N.of_nat j) with (tz q) in * by lia.
    rewrite anc_tz, N.sub_diag, N.eqb_refl. cbn [orb].
    destruct (tile_eqb_spec (tile_parent (anc (tz q) q)) root) as [E|E].
    + exfalso. apply (f_equal tz) in E. unfold tile_parent, anc in E. cbn [tz] in E. lia.
    + destruct (coversb root q) eqn:EC; [|reflexivity]. exfalso. apply coversb_spec in EC. pose proof EC as [EC' _].
      apply covers_anc in EC. specialize (HA (N.to_nat (tz q - tz root)) ltac:(lia)). rewrite N2Nat.id in HA. congruence.
  - destruct (trace_down_head q j) as [r Er]. rewrite Er, trace_up_S, <- Er.
    rewrite anc_parent by lia.
    destruct (tile_eqb_spec (anc (N.of_nat j + 1) q) root) as [E|E].
    + assert (HC : covers root q) by (rewrite <- E; apply anc_covers; lia).
      replace (coversb root q) with true by (symmetry; now apply coversb_spec).
      assert (HT : tz root = tz q - (N.of_nat j + 1)) by now rewrite <- E.
      replace (N.to_nat (tz q - tz root)) with (S j) by lia. cbn [trace_down].
      replace (N.of_nat (S j)) with (N.of_nat j + 1) by lia. now rewrite E.
    + rewrite anc_tz. replace (tz q - N.of_nat j =? 0) with false by lia. cbn [orb].
      assert (HA' : forall i, (i <= S j)%nat -> anc (N.of_nat i) q <> root).
      { intros i Hi. destruct (Nat.eq_dec i (S j)) as [->|]; [|apply HA; lia].
        replace (N.of_nat (S j)) with (N.of_nat j + 1) by lia. exact E. }
      destruct (N.ltb_spec (tz q - N.of_nat j) (tz root)) as [HL|HL].
      * destruct (coversb root q) eqn:EC; [|reflexivity]. exfalso. apply coversb_spec in EC. pose proof EC as [EC' _].
        apply covers_anc in EC. specialize (HA (N.to_nat (tz q - tz root)) ltac:(lia)). rewrite N2Nat.id in HA. congruence.
      * replace (anc (N.of_nat j + 1) q :: trace_down q j) with (trace_down q (S j)).
        { apply IH; [lia | assumption]. }
        cbn [trace_down]. do 2 f_equal. lia.
Qed.

(** ** The walk below the root *)
Definition span (e : quad_input) : N * N := (qi_off e, qi_size e).
Definition under_span (q : tile) (es : list quad_input) : list (N * N) :=
  match under q es with [] => [] | l => [(min_off l, total_size l)] end.
Fixpoint spans_down (q : tile) (es : list quad_input) (k : nat) : list (N * N) :=
  match k with
  | O => under_span q es
  | S k' => map span (own (anc (N.of_nat (S k')) q) es) ++ spans_down q es k'
  end.

Lemma under_nil_covers t u es : covers t u -> under t es = [] -> under u es = [].
Proof.
  intros HC HU. apply filter_all_false, Forall_forall. intros e He.
  destruct (coversb u (qi_tile e)) eqn:E; [|reflexivity]. apply coversb_spec in E.
  assert (HI : In e (under t es)) by (apply filter_In; split; [assumption|]; apply coversb_spec; eapply covers_trans; eauto).
  rewrite HU in HI. destruct HI.
Qed.
Lemma under_nil_own t es : under t es = [] -> own t es = [].
Proof. intros H. apply under_nil_iff in H. tauto. Qed.
Lemma anc_anc_covers q i j : i <= j -> j <= tz q -> covers (anc j q) (anc i q).
Proof.
  intros H1 H2. eapply covers_chain; [apply anc_covers; lia | apply anc_covers; lia |]. rewrite !anc_tz. lia.
Qed.
Lemma spans_down_nil q es k : (k <= N.to_nat (tz q))%nat -> under (anc (N.of_nat k) q) es = [] -> spans_down q es k = [].
Proof.
  induction k as [|k IH]; intros Hk HU; cbn [spans_down].
  - rewrite anc_0 in HU. unfold under_span. now rewrite HU.
  - rewrite under_nil_own by assumption. cbn [map app]. apply IH; [lia|].
    eapply under_nil_covers; [|exact HU]. apply anc_anc_covers; lia.
Qed.

Lemma mask_testbit b c0 c1 c2 c3 i : b < 2 ^ 28 -> i < 4 -> mask4 c0 c1 c2 c3 <> 0 ->
  bit_set (ptr_val b (mask4 c0 c1 c2 c3)) (kQuadChildOffset + i) =
  match i with 0 => (0 <? nn c0)%nat | 1 => (0 <? nn c1)%nat | 2 => (0 <? nn c2)%nat | _ => (0 <? nn c3)%nat end.
Proof.
  intros Hb Hi Hm. unfold ptr_val. replace (_ =? 0) with false by lia. unfold bit_set, kQuadChildOffset.
  replace (b + 2 ^ 28 * mask4 c0 c1 c2 c3) with (b + mask4 c0 c1 c2 c3 * 2 ^ 28) by lia.
  rewrite <- lor_shift_add by assumption. rewrite N.lor_spec.
  replace (N.testbit b (28 + i)) with false.
  - rewrite N.shiftl_spec_high' by lia. replace (28 + i - 28) with i by lia.
    destruct (lt4_cases _ Hi) as [-> | [-> | [-> | ->]]]; destruct c0, c1, c2, c3; reflexivity.
  - symmetry. destruct (N.eq_dec b 0) as [->|]; [apply N.bits_0|]. apply N.bits_above_log2.
    assert (N.log2 b < 28) by (apply N.log2_lt_pow2; lia). lia.
Qed.

Lemma ptr_mask b m : b < 2 ^ 28 -> N.land (ptr_val b m) kQuadOffsetMask = if m =? 0 then 0 else b.
Proof.
  intros Hb. unfold kQuadOffsetMask. replace (N.shiftl 1 28 - 1) with (N.ones 28) by reflexivity.
  rewrite land_ones_low. unfold ptr_val. destruct (m =? 0); [reflexivity|].
  rewrite (N.mul_comm (2 ^ 28)), N.mod_add by (vm_compute; discriminate). now apply N.mod_small.
Qed.

Definition kid_of (n : qtree) (i : N) : qtree :=
  match n with
  | QNull => QNull
  | QNode c0 c1 c2 c3 _ _ _ => match i with 0 => c0 | 1 => c1 | 2 => c2 | _ => c3 end
  end.
(** one step down in the array *)
Lemma descend v rest o c0 c1 c2 c3 off self sub i : repr v o (QNode c0 c1 c2 c3 off self sub) -> i < 4 ->
  exists curr, read_u32 (u32_bytes v ++ rest) (N.of_nat o) = Ok curr /\
    (curr =? 0) = (mask4 c0 c1 c2 c3 =? 0) /\
    (mask4 c0 c1 c2 c3 <> 0 ->
       bit_set curr (kQuadChildOffset + i) = (0 <? nn (kid_of (QNode c0 c1 c2 c3 off self sub) i))%nat /\
       exists o', (N.land curr kQuadOffsetMask + count_bits curr (N.to_nat i) 0) mod 2 ^ 32 = N.of_nat o' /\
         repr v o' (kid_of (QNode c0 c1 c2 c3 off self sub) i)).
Proof.
  intros (_ & _ & _ & b & Hb & HP & R0 & R1 & R2 & R3) Hi.
  assert (HM : mask4 c0 c1 c2 c3 < 16) by (unfold mask4; destruct c0, c1, c2, c3; cbn [nn]; lia).
  set (curr := ptr_val (N.of_nat b) (mask4 c0 c1 c2 c3)) in *.
  assert (HC : curr < 2 ^ 32).
  { unfold curr, ptr_val. change (2 ^ 32) with (16 * 2 ^ 28). destruct (_ =? 0); nia. }
  exists curr. split; [now apply read_u32_ok|]. split.
  { unfold curr, ptr_val. destruct (N.eqb_spec (mask4 c0 c1 c2 c3) 0) as [E|E]; [reflexivity|].
    apply N.eqb_neq. lia. }
  intros Hm. assert (HT := fun i Hi => mask_testbit (N.of_nat b) c0 c1 c2 c3 i (proj2 Hb) Hi Hm). fold curr in HT.
  assert (HL : N.land curr kQuadOffsetMask = N.of_nat b).
  { unfold curr. rewrite ptr_mask by tauto. replace (_ =? 0) with false by lia. reflexivity. }
  split.
  { rewrite HT by assumption. destruct (lt4_cases _ Hi) as [-> | [-> | [-> | ->]]]; reflexivity. }
  rewrite HL.
  assert (X : forall c, (if (0 <? nn c)%nat then 4 else 0) = 4 * N.of_nat (nn c)) by (intros []; reflexivity).
  assert (Y : forall c, (nn c <= 1)%nat) by (intros []; cbn; lia).
  pose proof (Y c0). pose proof (Y c1). pose proof (Y c2). clear Y.
  destruct (lt4_cases _ Hi) as [-> | [-> | [-> | ->]]].
  - exists b. split; [change (N.to_nat 0) with 0%nat; cbn [count_bits]; lia | exact R0].
  - exists (b + 4 * nn c0)%nat. change (N.to_nat 1) with 1%nat. cbn [count_bits]. rewrite (HT 0) by lia. rewrite X. split; [lia | exact R1].
  - exists (b + 4 * (nn c0 + nn c1))%nat. change (N.to_nat 2) with 2%nat. cbn [count_bits]. change (0 + 1) with 1.
    rewrite (HT 0), (HT 1) by lia. rewrite !X. split; [lia | exact R2].
  - exists (b + 4 * (nn c0 + nn c1 + nn c2))%nat. change (N.to_nat 3) with 3%nat. cbn [count_bits]. change (0 + 1) with 1. change (1 + 1) with 2.
    rewrite (HT 0), (HT 1), (HT 2) by lia. rewrite !X. split; [lia | exact R3].
Qed.

Lemma kid_of_tree d es t i : es_small es -> depth_ok d es t -> under t es <> [] -> i < 4 ->
  kid_of (tree_of d es t) i = kid d es t i.
Proof.
  intros. rewrite tree_of_vals by assumption. cbn [kid_of].
  destruct (lt4_cases _ H2) as [-> | [-> | [-> | ->]]]; reflexivity.
Qed.

Lemma own_size_zero t es : es_small es -> Forall (fun e => 0 < qi_size e) es -> total_size (own t es) = 0 -> own t es = [].
Proof.
  intros [HN _] HP H. destruct (own_le_one t es HN) as [E|(e & E & HI & _)]; [assumption|]. exfalso.
  rewrite E in H. cbn [total_size fold_right] in H. rewrite Forall_forall in HP. specialize (HP e HI). lia.
Qed.

Lemma total_size_filter_le f es : total_size (filter f es) <= total_size es.
Proof. induction es as [|e es IH]; [reflexivity|]. rewrite total_size_filter. unfold total_size at 2. cbn [fold_right]. fold (total_size es). destruct (f e); cbn [b2n]; lia. Qed.

Lemma walk_trace_ok v rest q es : es_small es -> Forall (fun e => 0 < qi_size e) es -> total_size es < 2 ^ 32 ->
  parents_first es -> tz q < 2 ^ 32 -> forall k d o,
  (k <= N.to_nat (tz q))%nat -> depth_ok d es (anc (N.of_nat k) q) -> under (anc (N.of_nat k) q) es <> [] ->
  repr v o (tree_of d es (anc (N.of_nat k) q)) ->
  walk_trace (u32_bytes v ++ rest) q (N.of_nat o) (trace_down q k) = Ok (spans_down q es k).
Proof.
  intros HS HP HT HPF Hz. induction k as [|k IH]; intros d o Hk HD HU HR.
  - cbn [trace_down walk_trace]. rewrite tile_eqb_refl. rewrite anc_0 in *.
    rewrite tree_of_vals in HR by assumption. destruct HR as (R1 & R2 & R3 & _).
    replace (N.of_nat o + 1) with (N.of_nat (o + 1)) by lia. replace (N.of_nat o + 3) with (N.of_nat (o + 3)) by lia.
    rewrite (read_u32_ok _ _ _ _ R1) by (pose proof (min_off_le (under q es)); unfold kU32Max in *; lia). cbn [bind].
    rewrite (read_u32_ok _ _ _ _ R3) by lia. cbn [bind spans_down]. unfold under_span.
    pose proof (total_size_filter_le (fun e => coversb q (qi_tile e)) es) as HL. fold (under q es) in HL.
    rewrite N.mod_small by lia. destruct (under q es); [congruence | reflexivity].
  - cbn [trace_down walk_trace]. set (t := anc (N.of_nat (S k)) q) in *.
    assert (Htq : tile_eqb t q = false).
    { destruct (tile_eqb_spec t q) as [E|]; [|reflexivity]. apply (f_equal tz) in E. unfold t in E. rewrite anc_tz in E. lia. }
    rewrite Htq. pose proof HR as HR0. rewrite tree_of_vals in HR by assumption.
    set (n := anc (N.of_nat k) q).
    assert (Hpar : tile_parent n = t).
    { unfold n, t. rewrite anc_parent by lia. f_equal. lia. }
    assert (Hnc : n = child t (quad_pos n)).
    { rewrite <- Hpar. symmetry. apply child_parent; unfold n; rewrite anc_tz; lia. }
    destruct HR as (R1 & R2 & R3 & R4).
    pose proof (total_size_filter_le (fun e => tile_eqb (qi_tile e) t) es) as HL. fold (own t es) in HL.
    replace (N.of_nat o + 2) with (N.of_nat (o + 2)) by lia.
    rewrite (read_u32_ok _ _ _ _ R2) by lia. cbn [bind].
    assert (EO : (if total_size (own t es) =? 0 then Ok []
                  else do o0 <- read_u32 (u32_bytes v ++ rest) (N.of_nat o + 1); Ok [(o0, total_size (own t es))])
                 = Ok (map span (own t es))).
    { destruct (own_le_one t es (proj1 HS)) as [E|(e & E & HI & He)].
      - rewrite E. reflexivity.
      - assert (EZ : (total_size (own t es) =? 0) = false).
        { apply N.eqb_neq. intros H. apply own_size_zero in H; [congruence | assumption | assumption]. }
        rewrite EZ. replace (N.of_nat o + 1) with (N.of_nat (o + 1)) by lia.
        rewrite (read_u32_ok _ _ _ _ R1) by (pose proof (min_off_le (under t es)); unfold kU32Max in *; lia). cbn [bind].
        rewrite E. cbn [map]. do 2 f_equal. unfold span. cbn [total_size fold_right]. 
        rewrite N.add_0_r. f_equal.
        apply N.le_antisymm.
        + assert (HIN : In e (under t es)).
          { apply filter_In. split; [assumption|]. rewrite He. apply coversb_refl. }
          clear - HIN. induction (under t es) as [|e' l IHl]; [destruct HIN|]. rewrite min_off_cons.
          destruct HIN as [->|HIN]; [lia|]. specialize (IHl HIN). lia.
        + assert (HA : forall e', In e' (under t es) -> qi_off e <= qi_off e').
          { intros e' He'. apply filter_In in He'. destruct He' as [He' HC']. apply HPF; [assumption|assumption|].
            rewrite He. now apply coversb_spec. }
          assert (HB : qi_off e <= kU32Max).
          { destruct HS as [_ HS']. rewrite Forall_forall in HS'. specialize (HS' e HI). unfold kU32Max. lia. }
          clear - HA HB. induction (under t es) as [|e' l IHl]; [exact HB|]. rewrite min_off_cons.
          apply N.min_glb; [apply HA; now left | apply IHl; intros; apply HA; now right]. }
    rewrite EO. cbn [bind]. clear EO.
    destruct (descend v rest o _ _ _ _ _ _ _ (quad_pos n) (conj R1 (conj R2 (conj R3 R4))) (quad_pos_lt n)) as (curr & EC & E0 & ED).
    rewrite EC. cbn [bind]. rewrite E0. cbn [spans_down]. fold t.
    assert (KN : forall i, i < 4 -> kid d es t i = QNull -> under (child t i) es = []).
    { intros i Hi Hk0. apply (kid_null d es t i HD Hi). assumption. }
    destruct (N.eqb_spec (mask4 (kid d es t 0) (kid d es t 1) (kid d es t 2) (kid d es t 3)) 0) as [EM|EM].
    + rewrite (spans_down_nil q es k), app_nil_r; [reflexivity | lia |]. fold n. rewrite Hnc. apply KN; [apply quad_pos_lt|].
      pose proof (quad_pos_lt n) as HQ. unfold mask4 in EM.
      destruct (lt4_cases _ HQ) as [-> | [-> | [-> | ->]]];
        destruct (kid d es t 0), (kid d es t 1), (kid d es t 2), (kid d es t 3); cbn [nn] in EM; try reflexivity; lia.
    + destruct (trace_down_head q k) as [r Er]. fold n in Er. rewrite Er. rewrite <- Er.
      destruct (ED EM) as [EB (o' & EO & RO)]. rewrite EB, EO.
      assert (EK : kid_of (QNode (kid d es t 0) (kid d es t 1) (kid d es t 2) (kid d es t 3) (min_off (under t es)) (total_size (own t es)) (total_size (under t es) mod 2 ^ 32)) (quad_pos n) = kid d es t (quad_pos n)).
      { cbn [kid_of]. destruct (lt4_cases _ (quad_pos_lt n)) as [-> | [-> | [-> | ->]]]; reflexivity. }
      rewrite EK in *. destruct (kid d es t (quad_pos n)) as [|k0 k1 k2 k3 ko ks ku] eqn:EKid; cbn [nn].
      * change (0 <? 0)%nat with false. cbn [negb].
        rewrite (spans_down_nil q es k), app_nil_r; [reflexivity | lia |]. fold n. rewrite Hnc. apply KN; [apply quad_pos_lt | assumption].
      * change (0 <? 1)%nat with true. cbn [negb]. rewrite <- EKid in RO.
        destruct d as [|d]; [discriminate|]. cbn [kid] in *. rewrite <- Hnc in *.
        rewrite (IH d o'); [reflexivity | lia | | | exact RO].
        -- fold n. rewrite Hnc. now apply depth_ok_child.
        -- fold n. intros HU0. apply (tree_of_null d es n) in HU0; [congruence|]. rewrite Hnc. now apply depth_ok_child.
Qed.

(** ** The whole walk *)
Lemma above_at_own q es j : j <= tz q -> above_at (tz q - j) q es = own (anc j q) es.
Proof.
  intros Hj. unfold above_at, own. apply filter_ext_in. intros e _.
  destruct (tile_eqb_spec (qi_tile e) (anc j q)) as [->|HN].
  - rewrite anc_tz, N.eqb_refl. cbn [andb]. apply coversb_spec, anc_covers, Hj.
  - destruct (N.eqb_spec (tz (qi_tile e)) (tz q - j)) as [E|]; [|reflexivity]. cbn [andb].
    destruct (coversb (qi_tile e) q) eqn:EC; [|reflexivity]. apply coversb_spec in EC. destruct HN.
    rewrite (covers_anc _ _ EC) at 1. f_equal. lia.
Qed.

Lemma spans_down_spec q es : forall k, (k <= N.to_nat (tz q))%nat ->
  spans_down q es k = map span (flat_map (fun z => above_at (N.of_nat z) q es) (seq (N.to_nat (tz q) - k) k)) ++ under_span q es.
Proof.
  induction k as [|k IH]; intros Hk; cbn [spans_down seq flat_map map app]; [reflexivity|].
  rewrite IH by lia. replace (S (N.to_nat (tz q) - S k)) with (N.to_nat (tz q) - k)%nat by lia.
  replace (N.of_nat (N.to_nat (tz q) - S k)) with (tz q - N.of_nat (S k)) by lia.
  rewrite above_at_own by lia. now rewrite map_app, app_assoc.
Qed.

Lemma walk_spec_cut q es k : (k <= N.to_nat (tz q))%nat ->
  (forall e, In e es -> covers (qi_tile e) q -> tz q - N.of_nat k <= tz (qi_tile e)) ->
  walk_spec q es = spans_down q es k.
Proof.
  intros Hk HE. rewrite spans_down_spec by assumption. unfold walk_spec. f_equal.
  change (fun e => (qi_off e, qi_size e)) with span. f_equal. unfold above.
  replace (seq 0 (N.to_nat (tz q))) with (seq 0 (N.to_nat (tz q) - k) ++ seq (N.to_nat (tz q) - k) k).
  - rewrite flat_map_app. replace (flat_map _ (seq 0 _)) with (@nil quad_input); [reflexivity|].
    symmetry. assert (G : forall l, (forall z, In z l -> (z < N.to_nat (tz q) - k)%nat) ->
      flat_map (fun z => above_at (N.of_nat z) q es) l = []).
    { induction l as [|z l IHl]; intros Hl; [reflexivity|]. cbn [flat_map]. rewrite IHl by (intros; apply Hl; now right).
      rewrite app_nil_r. apply filter_all_false, Forall_forall. intros e He.
      destruct (coversb (qi_tile e) q) eqn:EC; [|apply andb_false_r]. apply coversb_spec in EC.
      specialize (HE e He EC). specialize (Hl z ltac:(now left)). rewrite andb_true_r. lia. }
    apply G. intros z Hz. apply in_seq in Hz. lia.
  - rewrite <- seq_app. f_equal. lia.
Qed.

Lemma entries_small es : entries_ok es -> es_small es.
Proof.
  intros (HN & HF & HT). split; [assumption|]. rewrite Forall_forall in *. intros e He. destruct (HF e He) as (H1 & H2 & H3).
  split; [assumption|]. clear - He HT. induction es as [|e' es IH]; [destruct He|].
  unfold total_size in HT. cbn [fold_right] in HT. fold (total_size es) in HT. destruct He as [->|He]; [lia | apply IH; [lia | assumption]].
Qed.

Lemma make_quad_tree_total root es : entries_ok es ->
  (exists bs, make_quad_tree root es = Ok bs) \/ make_quad_tree root es = Throw.
Proof.
  intros (HN & HF & HT). unfold make_quad_tree. destruct es as [|e0 es0]; [eauto|]. set (es := e0 :: es0) in *.
  assert (HZ : Forall (fun e => tz (qi_tile e) < 2 ^ 31) es) by (eapply Forall_impl; [|exact HF]; cbn; tauto).
  destruct (make_tmp_ok root es ltac:(discriminate) HN HZ) as [M1 M2].
  destruct (Forall_Exists_dec (fun e => covers root (qi_tile e))) with (l := es) as [HA|HA].
  { intros e. destruct (coversb root (qi_tile e)) eqn:E; [left; now apply coversb_spec | right; rewrite <- coversb_spec; congruence]. }
  - destruct (M1 HA) as (d & _ & _ & -> & Hn). cbn [bind]. unfold serialize_quad_tree.
    destruct (serialize_total (qcount (tree_of d es root)) [(0%nat, tree_of d es root)] [0; 0; 0; 0]) as (v & -> & _).
    + unfold total. cbn. lia.
    + constructor; [split; [assumption | cbn; lia] | constructor].
    + left. cbn [bind]. eexists. reflexivity.
  - rewrite M2 by assumption. now right.
Qed.

Lemma make_quad_tree_ok_iff root es : entries_ok es ->
  (exists bs, make_quad_tree root es = Ok bs) <-> Forall (fun e => covers root (qi_tile e)) es.
Proof.
  intros (HN & HF & HT). unfold make_quad_tree. destruct es as [|e0 es0]; [split; [constructor | eauto]|]. set (es := e0 :: es0) in *.
  assert (HZ : Forall (fun e => tz (qi_tile e) < 2 ^ 31) es) by (eapply Forall_impl; [|exact HF]; cbn; tauto).
  destruct (make_tmp_ok root es ltac:(discriminate) HN HZ) as [M1 M2].
  destruct (Forall_Exists_dec (fun e => covers root (qi_tile e))) with (l := es) as [HA|HA].
  { intros e. destruct (coversb root (qi_tile e)) eqn:E; [left; now apply coversb_spec | right; rewrite <- coversb_spec; congruence]. }
  - split; [auto|]. intros _. destruct (M1 HA) as (d & _ & _ & -> & Hn). cbn [bind]. unfold serialize_quad_tree.
    destruct (serialize_total (qcount (tree_of d es root)) [(0%nat, tree_of d es root)] [0; 0; 0; 0]) as (v & -> & _).
    + unfold total. cbn. lia.
    + constructor; [split; [assumption | cbn; lia] | constructor].
    + cbn [bind]. eexists. reflexivity.
  - rewrite M2 by assumption. split; [intros [bs H]; discriminate|]. intros HB. exfalso.
    apply Exists_exists in HA. destruct HA as (e & He & HC). rewrite Forall_forall in HB. auto.
Qed.

Lemma walk_exact root es bs rest q : entries_ok es -> parents_first es -> tz root < 2 ^ 31 -> tz q < 2 ^ 31 ->
  make_quad_tree root es = Ok bs -> blen bs < 2 ^ 30 ->
  walk_quad_tree (bs ++ rest) root q = Ok (walk_spec q es).
Proof.
  intros HE HPF HRz HQz HM HB. pose proof (entries_small es HE) as HS.
  destruct es as [|e0 es0].
  { unfold make_quad_tree in HM. apply Ok_inj in HM. subst bs. unfold walk_quad_tree.
    change 3 with (N.of_nat 3). rewrite (read_u32_ok [0; 0; 0; 0] rest 3 0) by (reflexivity || lia). cbn [bind].
    rewrite N.eqb_refl. unfold walk_spec, above, above_at. cbn [filter under map app].
    f_equal. generalize (seq 0 (N.to_nat (tz q))). intros l. induction l as [|z l IH]; [reflexivity|]. exact IH. }
  assert (HALL : Forall (fun e => covers root (qi_tile e)) (e0 :: es0)) by (apply (make_quad_tree_ok_iff root _ HE); eauto).
  destruct HE as (HN & HF & HT). unfold make_quad_tree in HM. set (es := e0 :: es0) in *.
  assert (HZ : Forall (fun e => tz (qi_tile e) < 2 ^ 31) es) by (eapply Forall_impl; [|exact HF]; cbn; tauto).
  assert (HPos : Forall (fun e => 0 < qi_size e) es) by (eapply Forall_impl; [|exact HF]; cbn; tauto).
  destruct (make_tmp_ok root es ltac:(discriminate) HN HZ) as [M1 _].
  destruct (M1 HALL) as (d & HD & Hdz & E & Hn). rewrite E in HM. cbn [bind] in HM.
  apply bind_ok in HM. destruct HM as (v & EV & HM). apply Ok_inj in HM. subst bs. unfold serialize_quad_tree in EV.
  set (n := tree_of d es root) in *.
  destruct (serialize_total (qcount n) [(0%nat, n)] [0; 0; 0; 0]) as (v' & EV' & HL).
  { unfold total. cbn. lia. } { constructor; [split; [assumption | cbn; lia] | constructor]. }
  assert (v' = v) by congruence. subst v'. cbn [length] in HL. unfold total in HL. cbn [fold_right snd] in HL.
  unfold blen in HB. rewrite u32_bytes_length in HB.
  destruct (serialize_repr (qcount n) [(0%nat, n)] [0; 0; 0; 0] v EV) as [_ HR].
  { unfold total. cbn. lia. } { constructor; [cbn; repeat split; [assumption | lia] | constructor]. }
  { repeat constructor. intros []. } { reflexivity. } { cbn; lia. }
  { unfold total. cbn [fold_right snd length]. change (2 ^ 30) with (4 * 2 ^ 28) in HB. lia. }
  inversion HR as [|? ? HR0 _]; subst. cbn [fst snd] in HR0.
  assert (HU : under root es <> []).
  { intros HU. apply (tree_of_null d es root HD) in HU. contradiction. }
  assert (HUA : under root es = es).
  { unfold under. clear - HALL. induction HALL as [|e l H _ IH]; [reflexivity|]. cbn [filter].
    apply coversb_spec in H. rewrite H. now f_equal. }
  pose proof HR0 as HR1. unfold n in HR1. rewrite (tree_of_vals d es HS root HD HU) in HR1.
  destruct HR1 as (R1 & R2 & R3 & _).
  rewrite HUA in *. rewrite N.mod_small in R3 by assumption.
  assert (HTpos : total_size es <> 0).
  { unfold es, total_size. cbn [fold_right]. inversion HPos; subst. lia. }
  unfold walk_quad_tree. change 3 with (N.of_nat (0 + 3)). rewrite (read_u32_ok _ _ _ _ R3) by assumption. cbn [bind].
  replace (total_size es =? 0) with false by lia.
  rewrite reaches_up_spec by lia.
  destruct (coversb q root) eqn:EQ.
  - apply coversb_spec in EQ. change 1 with (N.of_nat (0 + 1)).
    rewrite (read_u32_ok _ _ _ _ R1) by (pose proof (min_off_le es); unfold kU32Max in *; lia). cbn [bind].
    rewrite (walk_spec_cut q es 0); [|lia|].
    + cbn [spans_down]. unfold under_span. replace (under q es) with es; [reflexivity|].
      symmetry. unfold under. clear - HALL EQ. induction HALL as [|e l H _ IH]; [reflexivity|]. cbn [filter].
      replace (coversb q (qi_tile e)) with true; [now f_equal|]. symmetry. apply coversb_spec. eapply covers_trans; eauto.
    + intros e He HC. rewrite Forall_forall in HALL. specialize (HALL e He). destruct EQ as [Z1 _], HALL as [Z2 _]. lia.
  - change [q] with (trace_down q 0). rewrite (trace_up_spec root q) with (n := N.to_nat (tz q)) (j := 0%nat); [|lia|assumption|lia|].
    + cbn [bind]. destruct (coversb root q) eqn:ER.
      * apply coversb_spec in ER. pose proof ER as [Zr _]. set (k := N.to_nat (tz q - tz root)).
        assert (EA : anc (N.of_nat k) q = root) by (unfold k; rewrite N2Nat.id; symmetry; now apply covers_anc).
        change 0 with (N.of_nat 0).
        rewrite (walk_trace_ok v rest q es HS HPos HT HPF ltac:(lia) k d 0%nat).
        -- f_equal. symmetry. apply walk_spec_cut; [unfold k; lia|].
           intros e He _. rewrite Forall_forall in HALL. destruct (HALL e He) as [Z2 _]. unfold k. lia.
        -- unfold k. lia.
        -- now rewrite EA.
        -- rewrite EA, HUA. discriminate.
        -- now rewrite EA.
      * f_equal. symmetry. rewrite (walk_spec_cut q es 0); [|lia|].
        -- cbn [spans_down]. unfold under_span. replace (under q es) with (@nil quad_input); [reflexivity|]. symmetry.
           apply filter_all_false, Forall_forall. intros e He. destruct (coversb q (qi_tile e)) eqn:EC; [|reflexivity].
           apply coversb_spec in EC. rewrite Forall_forall in HALL. specialize (HALL e He). exfalso.
           destruct (N.le_ge_cases (tz q) (tz root)) as [Hle|Hle].
           ++ assert (covers q root) by (eapply covers_chain; eauto). apply coversb_spec in H. congruence.
           ++ assert (covers root q) by (eapply covers_chain; eauto). apply coversb_spec in H. congruence.
        -- intros e He HC. rewrite Forall_forall in HALL. specialize (HALL e He). exfalso.
           assert (covers root q) by (eapply covers_trans; eauto). apply coversb_spec in H. congruence.
    + intros i Hi. replace i with 0%nat by lia. rewrite anc_0. intros ->. rewrite coversb_refl in EQ. discriminate.
Qed.
