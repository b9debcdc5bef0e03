(** Repacking: the run. *)
From Coq Require Import Permutation Sorted.
From Verif Require Import Base BaseProof ModelTile ModelPackFile SpecPackFile ProofPackFile ModelTable ModelRepack SpecDict SpecRepack ProofRepack ProofPerm.
Open Scope N_scope.

Lemma get_inside pf r : pf_inv pf -> 0 < r_size r -> end_of r <= pf_size pf -> pf_get pf r = Ok (bytes_of pf r).
Proof.
  intros HI H1 H2. unfold pf_get, end_of, pf_inv in *.
  assert (M : (r_off r + r_size r) mod 2 ^ 64 <= r_off r + r_size r) by (apply N.mod_le; lia).
  remember ((r_off r + r_size r) mod 2 ^ 64) as m. clear Heqm.
  replace (r_off r <? pf_size pf) with true by lia. replace (m <=? pf_size pf) with true by lia. cbn [andb verify bind].
  replace (r_off r + r_size r <=? blen (pf_mem pf)) with true by lia. reflexivity.
Qed.

Lemma nth_at {A} (a : list A) x b d : nth (length a) (a ++ x :: b) d = x.
Proof. rewrite app_nth2 by lia. rewrite Nat.sub_diag. reflexivity. Qed.
Lemma fop_app {A} (R : A -> A -> Prop) a b : ForallOrdPairs R (a ++ b) <-> ForallOrdPairs R a /\ ForallOrdPairs R b /\ (forall x y, In x a -> In y b -> R x y).
Proof.
  induction a as [|h a IH]; cbn [app].
  - split; [intros H; split; [constructor|split; [exact H|intros ? ? []]]|tauto].
  - split.
    + intros H. inversion H as [|? ? H2 H1]. subst. apply IH in H1 as (H1 & H3 & H4). rewrite Forall_app in H2. destruct H2 as [H2 H5].
      split; [constructor; assumption|]. split; [assumption|]. intros x y [->|Hx] Hy; [|auto]. rewrite Forall_forall in H5. auto.
    + intros (H1 & H2 & H3). inversion H1 as [|? ? H5 H4]. subst. constructor.
      * rewrite Forall_app. split; [exact H5|]. rewrite Forall_forall. intros y Hy. apply H3; [left; reflexivity|exact Hy].
      * apply IH. split; [exact H4|]. split; [exact H2|]. intros x y Hx Hy. apply H3; [right; exact Hx|exact Hy].
Qed.
Lemma fop_perm {A} (R : A -> A -> Prop) : (forall x y, R x y -> R y x) -> forall a b, Permutation a b -> ForallOrdPairs R a -> ForallOrdPairs R b.
Proof.
  intros HS a b HP. induction HP as [|x a b HP IH|x y l|a b c H1 IH1 H2 IH2]; intros H.
  - constructor.
  - inversion H as [|? ? F H']. subst. constructor; [|auto]. rewrite <- HP. exact F.
  - inversion H as [|? ? F H']. subst. inversion H' as [|? ? F' H'']. subst. inversion F as [|? ? F1 F2]. subst. constructor; [constructor; auto|]. constructor; assumption.
  - auto.
Qed.
Lemma apart_sym a b : apart a b -> apart b a.
Proof. unfold apart. tauto. Qed.
Lemma layout_perm pf a b : Permutation a b -> valid_layout pf a -> valid_layout pf b.
Proof.
  intros HP [H1 H2]. split; [now rewrite <- HP|]. eapply fop_perm; [exact apart_sym|exact HP|exact H2].
Qed.
Lemma layout_app_l pf a b : valid_layout pf (a ++ b) -> valid_layout pf a.
Proof. intros [H1 H2]. apply Forall_app in H1 as [H1 _]. apply fop_app in H2 as (H2 & _). split; assumption. Qed.

(** ** records stacked downwards *)
Fixpoint stack (e : N) (rs : list pack_record) (lo : N) : Prop :=
  match rs with [] => e = lo | r :: rs' => end_of r = e /\ stack (r_off r) rs' lo end.
Lemma stack_app e a b lo : stack e (a ++ b) lo <-> exists m, stack e a m /\ stack m b lo.
Proof.
  revert e. induction a as [|r a IH]; intros e; cbn [app stack].
  - split; [intros H; exists e; auto|intros (m & -> & H); exact H].
  - rewrite IH. split; [intros (H & m & H1 & H2); exists m; auto|intros (m & (H & H1) & H2); split; [exact H|exists m; auto]].
Qed.
Lemma stack_le e rs lo : stack e rs lo -> lo <= e.
Proof. revert e. induction rs as [|r rs IH]; cbn [stack]; intros e; [lia|]. intros [H1 H2]. apply IH in H2. unfold end_of in H1. lia. Qed.
Lemma stack_in e rs lo r : stack e rs lo -> In r rs -> lo <= r_off r /\ end_of r <= e.
Proof.
  revert e. induction rs as [|r' rs IH]; cbn [stack In]; intros e; [tauto|]. intros [H1 H2] [->|H].
  - apply stack_le in H2. lia.
  - apply (IH _ H2) in H. unfold end_of in *. lia.
Qed.
Lemma stack_last e rs lo : rs <> [] -> stack e rs lo -> r_off (last rs no_rec) = lo.
Proof.
  intros Hn H. rewrite (snoc_last rs no_rec Hn) in H. apply stack_app in H as (m & _ & H). cbn [stack] in H. apply H.
Qed.

(** records one behind the other *)
Fixpoint chain (a : N) (rs : list pack_record) (e : N) : Prop :=
  match rs with [] => a = e | r :: rs' => r_off r = a /\ chain (end_of r) rs' e end.
Lemma chain_app a l1 l2 e : chain a (l1 ++ l2) e <-> exists m, chain a l1 m /\ chain m l2 e.
Proof.
  revert a. induction l1 as [|r l1 IH]; intros a; cbn [app chain].
  - split; [intros H; exists a; auto|intros (m & -> & H); exact H].
  - rewrite IH. split; [intros (H & m & H1 & H2); exists m; auto|intros (m & (H & H1) & H2); split; [exact H|exists m; auto]].
Qed.
Lemma chain_le a rs e : chain a rs e -> a <= e.
Proof. revert a. induction rs as [|r rs IH]; cbn [chain]; intros a; [lia|]. intros [H1 H2]. apply IH in H2. unfold end_of in H2. lia. Qed.
Lemma chain_in a rs e r : chain a rs e -> In r rs -> a <= r_off r /\ end_of r <= e.
Proof.
  revert a. induction rs as [|r' rs IH]; cbn [chain In]; intros a; [tauto|]. intros [H1 H2] [->|H].
  - apply chain_le in H2. lia.
  - apply (IH _ H2) in H. unfold end_of in *. lia.
Qed.

(** ** defragmenting *)
Section Sort.
Variable qsort : (nat -> nat -> bool) -> list nat -> list nat.
Hypothesis Hq : sorts_positions qsort.

Definition sz_of (rs : list pack_record) (i : nat) : N := r_size (nth i rs no_rec).

Lemma total_app a b : total_size (a ++ b) = total_size a + total_size b.
Proof. unfold total_size. induction a as [|r a IH]; [reflexivity|]. cbn [app fold_right]. rewrite IH. lia. Qed.
Lemma sumto_firstn rs k : (k <= length rs)%nat -> sumto (sz_of rs) k = total_size (firstn k rs).
Proof.
  induction k as [|k IH]; intros H; [reflexivity|]. cbn [sumto]. rewrite IH by lia.
  destruct (skipn_split rs k ltac:(lia)) as (a & x & b & E & Hl & Es).
  assert (E1 : firstn k rs = a). { rewrite E, firstn_app, <- Hl, firstn_all, Nat.sub_diag, firstn_O. apply app_nil_r. }
  assert (E2 : firstn (S k) rs = a ++ [x]).
  { rewrite E, firstn_app. rewrite firstn_all2 by lia. f_equal. replace (S k - length a)%nat with 1%nat by lia. reflexivity. }
  rewrite E1, E2, total_app. unfold sz_of, total_size. cbn [fold_right]. rewrite E, <- Hl. rewrite nth_at. lia.
Qed.
Lemma largest_ge rs r : In r rs -> r_size r <= largest_size rs.
Proof. unfold largest_size. induction rs as [|x rs IH]; [intros []|]. cbn [In fold_right]. intros [->|H]; [lia|]. specialize (IH H). lia. Qed.

Lemma fop_nth {A} (R : A -> A -> Prop) l d i j : (forall x y, R x y -> R y x) -> ForallOrdPairs R l -> (i < length l)%nat -> (j < length l)%nat -> i <> j -> R (nth i l d) (nth j l d).
Proof.
  intros HS H. revert i j. induction H as [|x l F H IH]; cbn [length]; intros i j Hi Hj Hn; [lia|].
  destruct i as [|i], j as [|j]; [lia| | |].
  - cbn [nth]. apply (proj1 (Forall_forall _ _) F). apply nth_In. lia.
  - cbn [nth]. apply HS. apply (proj1 (Forall_forall _ _) F). apply nth_In. lia.
  - cbn [nth]. apply IH; lia.
Qed.

Lemma init_dinv pf rs : pf_inv pf -> valid_layout pf rs ->
  dinv (length rs) (sz_of rs) (fun i => bytes_of pf (nth i rs no_rec)) (pf_size pf) 0
    (Dfs pf rs (pf_size pf) (qsort (fun i j => rec_ltb (nth i rs no_rec) (nth j rs no_rec)) (seq 0 (length rs))) 0 [] None).
Proof.
  intros HI [L1 L2]. destruct (Hq rs (seq 0 (length rs))) as [P W]. set (lt := fun i j => rec_ltb (nth i rs no_rec) (nth j rs no_rec)) in *. set (q := qsort lt (seq 0 (length rs))) in *.
  assert (IQ : forall i, In i q <-> (i < length rs)%nat).
  { intros i. split; intros H. - apply (Permutation_in _ P) in H. apply in_seq in H. lia. - apply (Permutation_in _ (Permutation_sym P)). apply in_seq. lia. }
  assert (ND : NoDup q) by (eapply Permutation_NoDup; [symmetry; exact P|apply seq_NoDup]).
  assert (LI : forall i, (i < length rs)%nat -> 0 < r_size (nth i rs no_rec) /\ end_of (nth i rs no_rec) <= pf_size pf).
  { intros i Hi. apply (proj1 (Forall_forall _ _) L1). now apply nth_In. }
  assert (L0 : live 0 q = q). { unfold live. clear. induction q as [|x q IH]; [reflexivity|]. cbn [filter]. cbn [Nat.leb]. f_equal. exact IH. }
  split; unfold queue, ProofRepack.rest; cbn [d_pf d_recs d_end d_frag d_idx d_defrag skipn app]; rewrite ?L0.
  - split; auto. + intros i Hi. apply LI, Hi.
  - lia.
  - cbn [sumto]. lia.
  - intros i. rewrite IQ. lia.
  - exact ND.
  - intros i. apply IQ.
  - assert (W' : StronglySorted (fun a b => lt b a = false /\ a <> b) q).
    { clear -W ND. induction W as [|x l W IH F]; [constructor|]. inversion ND as [|? ? N1 N2]. subst. constructor; [auto|].
      rewrite Forall_forall in *. intros y Hy. split; [apply F; exact Hy|]. intros E; subst; contradiction. }
    eapply ssort_ext; [|exact W']. intros i j Hi Hj [Hlt Hn]. apply IQ in Hi, Hj. unfold before, rec_at. cbn [d_recs]. unfold lt, rec_ltb in Hlt.
    destruct (LI i Hi) as [S1 S2], (LI j Hj) as [S3 S4]. pose proof (fop_nth apart rs no_rec i j apart_sym L2 Hi Hj Hn) as A. unfold apart, end_of in *.
    apply orb_false_iff in Hlt as [Hlt _]. lia.
  - intros i Hi. unfold rec_at. cbn [d_recs]. apply LI. lia.
  - intros i Hi. lia.
Qed.

Lemma stack_of sz S0 : forall rs, (forall i, (i < length rs)%nat -> r_size (nth i rs no_rec) = sz i) ->
  (forall i, (i < length rs)%nat -> r_off (nth i rs no_rec) + sumto sz (S i) = S0) -> stack S0 rs (S0 - sumto sz (length rs)).
Proof.
  intros rs. induction rs as [|r rs IH] using rev_ind; intros H1 H2.
  - cbn [length sumto stack]. lia.
  - rewrite app_length in *. cbn [length] in *. apply stack_app. exists (S0 - sumto sz (length rs)). split.
    + apply IH; intros i Hi; [specialize (H1 i ltac:(lia)); rewrite app_nth1 in H1 by lia; exact H1|specialize (H2 i ltac:(lia)); rewrite app_nth1 in H2 by lia; exact H2].
    + specialize (H1 (length rs) ltac:(lia)). specialize (H2 (length rs) ltac:(lia)). rewrite nth_at in H1, H2. cbn [stack]. replace (length rs + 1)%nat with (S (length rs)) by lia.
      cbn [sumto] in *. unfold end_of. lia.
Qed.

Lemma defrag_spec pf rs : pf_inv pf -> pf_size pf < 2 ^ 64 -> valid_layout pf rs ->
  defrag qsort pf rs = Throw \/
  exists s, defrag qsort pf rs = Ok s /\ length (d_recs s) = length rs /\ map r_size (d_recs s) = map r_size rs /\
    pf_inv (d_pf s) /\ pf_size (d_pf s) = pf_size pf /\
    (exists lo, stack (pf_size pf) (d_recs s) lo) /\ map (bytes_of (d_pf s)) (d_recs s) = map (bytes_of pf) rs.
Proof.
  intros HI HS L. unfold defrag. fold (total_size rs) (largest_size rs).
  destruct (total_size rs <=? pf_size pf) eqn:E1; cbn [verify bind]; [|left; reflexivity]. apply N.leb_le in E1.
  destruct (largest_size rs <? pf_size pf - total_size rs) eqn:E2; cbn [verify bind]; [|left; reflexivity]. apply N.ltb_lt in E2.
  pose proof (init_dinv pf rs HI L) as D.
  assert (Hroom : forall i, (i < length rs)%nat -> sz_of rs i + sumto (sz_of rs) (length rs) < pf_size pf).
  { intros i Hi. rewrite sumto_firstn, firstn_all by lia. unfold sz_of. pose proof (largest_ge rs (nth i rs no_rec) (nth_In _ _ Hi)). lia. }
  destruct (all_spec (length rs) (sz_of rs) _ (pf_size pf) HS Hroom (6 * length rs + 12) ltac:(lia) (length rs) 0 _ ltac:(lia) D) as [H|(s & H & D')].
  { intros Hn. cbn [d_frag]. destruct (Hq rs (seq 0 (length rs))) as [P _]. destruct (qsort _ _); [|reflexivity]. apply Permutation_length in P. rewrite seq_length in P. cbn [length] in P. lia. }
  - left. exact H.
  - right. exists s. split; [exact H|]. pose proof (v_core _ _ _ _ _ _ D') as [K1 K2 K3 K4 K5 K6].
    split; [exact K1|]. split.
    { apply (nth_ext _ _ 0 0); [rewrite !map_length; exact K1|]. intros i Hi. rewrite map_length in Hi.
      rewrite (nth_indep _ 0 (r_size no_rec)) by (rewrite map_length; lia). rewrite map_nth. rewrite (nth_indep _ 0 (r_size no_rec)) by (rewrite map_length; lia). rewrite map_nth. rewrite K2 by lia. reflexivity. }
    split; [exact K5|]. split; [exact K6|]. split.
    + exists (pf_size pf - sumto (sz_of rs) (length (d_recs s))). apply stack_of; rewrite K1; [exact K2|]. intros i Hi. apply (v_done _ _ _ _ _ _ D' i Hi).
    + apply (nth_ext _ _ [] []); [rewrite !map_length; exact K1|]. intros i Hi. rewrite map_length in Hi.
      rewrite (nth_indep _ [] (bytes_of (d_pf s) no_rec)) by (rewrite map_length; lia). rewrite map_nth.
      rewrite (nth_indep _ [] (bytes_of pf no_rec)) by (rewrite map_length; lia). rewrite map_nth. unfold bytes_of at 1. rewrite K2 by lia. apply K4. lia.
Qed.

Lemma sorted_down : forall n q, Permutation q (seq 0 n) -> StronglySorted (fun a b => (b < a)%nat) q -> q = rev (seq 0 n).
Proof.
  induction n as [|n IH]; intros q P W. - apply Permutation_sym, Permutation_nil in P. exact P.
  - rewrite seq_S, rev_app_distr. cbn [rev app plus]. destruct q as [|h q]; [apply Permutation_length in P; rewrite seq_length in P; discriminate|].
    inversion W as [|? ? W1 W2]. subst.
    assert (Hh : h = n).
    { assert (Hin : In n (h :: q)) by (apply (Permutation_in _ (Permutation_sym P)), in_seq; lia). assert (Hb : In h (seq 0 (S n))) by (apply (Permutation_in _ P); left; reflexivity).
      apply in_seq in Hb. destruct Hin as [E|Hin]; [exact E|]. pose proof (proj1 (Forall_forall _ _) W2 n Hin) as Hlt. cbn beta in Hlt. lia. }
    subst h. f_equal. apply IH; [|exact W1]. rewrite seq_S in P. apply (Permutation_cons_inv (a := n)). rewrite P. cbn [plus]. apply Permutation_sym, Permutation_cons_append.
Qed.
Lemma defrag_desc pf rs : pf_inv pf -> pf_size pf < 2 ^ 64 -> valid_layout pf rs ->
  largest_size rs + total_size rs < pf_size pf -> StronglySorted (fun a b => r_off b < r_off a) rs -> defrag qsort pf rs <> Throw.
Proof.
  intros HI HS L HR HW. unfold defrag. fold (total_size rs) (largest_size rs).
  replace (total_size rs <=? pf_size pf) with true by lia. replace (largest_size rs <? pf_size pf - total_size rs) with true by lia. cbn [verify bind].
  pose proof (init_dinv pf rs HI L) as D.
  assert (Hroom : forall i, (i < length rs)%nat -> sz_of rs i + sumto (sz_of rs) (length rs) < pf_size pf).
  { intros i Hi. rewrite sumto_firstn, firstn_all by lia. unfold sz_of. pose proof (largest_ge rs (nth i rs no_rec) (nth_In _ _ Hi)). lia. }
  destruct (all_desc (length rs) (sz_of rs) _ (pf_size pf) HS Hroom (6 * length rs + 12) ltac:(lia) (length rs) 0 _ ltac:(lia) D eq_refl eq_refl) as (s & H).
  { left. cbn [d_frag]. rewrite Nat.sub_0_r. destruct (Hq rs (seq 0 (length rs))) as [P W]. apply sorted_down; [exact P|].
    set (q := qsort _ (seq 0 (length rs))) in *. assert (ND : NoDup q) by (eapply Permutation_NoDup; [symmetry; exact P|apply seq_NoDup]).
    assert (IQ : forall i, In i q -> (i < length rs)%nat). { intros i H. apply (Permutation_in _ P) in H. apply in_seq in H. lia. }
    assert (HD : forall i j, (i < j)%nat -> (j < length rs)%nat -> r_off (nth j rs no_rec) < r_off (nth i rs no_rec)).
    { clear -HW. induction HW as [|x l W IH F]; cbn [length]; intros i j Hij Hj; [lia|]. destruct j as [|j]; [lia|]. destruct i as [|i]; cbn [nth].
      - apply (proj1 (Forall_forall _ _) F). apply nth_In. lia.
      - apply IH; lia. }
    assert (W' : StronglySorted (fun a b => rec_ltb (nth b rs no_rec) (nth a rs no_rec) = false /\ a <> b) q).
    { clear -W ND. induction W as [|x l W IH F]; [constructor|]. inversion ND as [|? ? N1 N2]. subst. constructor; [auto|].
      rewrite Forall_forall in *. intros y Hy. split; [apply F; exact Hy|]. intros E; subst; contradiction. }
    eapply ssort_ext; [|exact W']. intros i j Hi Hj [E Hn]. destruct (Nat.lt_trichotomy i j) as [H|[H|H]]; [|contradiction|exact H]. exfalso.
    specialize (HD i j H (IQ j Hj)). unfold rec_ltb in E. apply orb_false_iff in E as [E _]. lia. }
  rewrite H. discriminate.
Qed.
End Sort.

(** ** the run *)
Definition content (pf : pfile) (t : task) : tile * list bytes := (fst t, map (bytes_of pf) (snd t)).
Definition read_as (pf : pfile) (u : single) : tile * bytes := (fst u, bytes_of pf (snd u)).

Lemma keep_bytes pf pf' off len l :
  (forall o n, o + n <= blen (pf_mem pf) -> disjoint off len o n -> slice (pf_mem pf') o n = slice (pf_mem pf) o n) -> pf_inv pf ->
  (forall r, In r l -> end_of r <= pf_size pf /\ disjoint off len (r_off r) (r_size r)) -> forall r, In r l -> bytes_of pf' r = bytes_of pf r.
Proof. intros HW HI HL r Hr. destruct (HL r Hr) as [H1 H2]. unfold bytes_of. apply HW; [|exact H2]. unfold pf_inv, end_of in *. lia. Qed.
Lemma content_keep pf pf' tasks : (forall r, In r (flat_map snd tasks) -> bytes_of pf' r = bytes_of pf r) -> map (content pf') tasks = map (content pf) tasks.
Proof.
  intros H. apply map_ext_in. intros t Ht. unfold content. f_equal. apply map_ext_in. intros r Hr. apply H. apply in_flat_map. exists t. auto.
Qed.
Lemma read_keep pf pf' us : (forall r, In r (map snd us) -> bytes_of pf' r = bytes_of pf r) -> map (read_as pf') us = map (read_as pf) us.
Proof. intros H. apply map_ext_in. intros u Hu. unfold read_as. f_equal. apply H. now apply in_map. Qed.

Lemma app_inj_len {A} (a b c d : list A) : length a = length c -> a ++ b = c ++ d -> a = c /\ b = d.
Proof.
  revert c. induction a as [|x a IH]; intros [|y c] HL H; try discriminate; [auto|]. cbn [app length] in *. injection H as -> H. injection HL as HL.
  destruct (IH c HL H) as [-> ->]. auto.
Qed.
Lemma regroup_flat tasks : forall rs, length rs = length (flat_map snd tasks) -> flat_map snd (regroup tasks rs) = rs.
Proof.
  induction tasks as [|[t r] tasks IH]; intros rs H; cbn [regroup flat_map snd] in *.
  - destruct rs; [reflexivity|discriminate].
  - rewrite app_length in H. rewrite IH by (rewrite skipn_length; lia). apply firstn_skipn.
Qed.
Lemma regroup_content pf pf' tasks : forall rs, map (bytes_of pf') rs = map (bytes_of pf) (flat_map snd tasks) -> map (content pf') (regroup tasks rs) = map (content pf) tasks.
Proof.
  induction tasks as [|[t r] tasks IH]; intros rs H; cbn [regroup flat_map snd map] in *; [reflexivity|].
  rewrite map_app in H. rewrite <- (firstn_skipn (length r) rs), map_app in H.
  assert (HL : length rs = (length r + length (flat_map snd tasks))%nat).
  { apply (f_equal (@length _)) in H. rewrite !app_length, !map_length, <- app_length, firstn_skipn in H. exact H. }
  assert (E : map (bytes_of pf') (firstn (length r) rs) = map (bytes_of pf) r /\ map (bytes_of pf') (skipn (length r) rs) = map (bytes_of pf) (flat_map snd tasks)).
  { apply app_inj_len; [|exact H]. rewrite !map_length, firstn_length. lia. }
  destruct E as [E1 E2]. f_equal; [unfold content; cbn [fst snd]; now rewrite E1|]. now apply IH.
Qed.
Lemma regroup_filled tasks : forall rs, length rs = length (flat_map snd tasks) -> Forall (fun t => snd t <> []) tasks -> Forall (fun t : task => snd t <> []) (regroup tasks rs).
Proof.
  induction tasks as [|[t r] tasks IH]; intros rs H F; cbn [regroup]; [constructor|]. inversion F as [|? ? F1 F2]. subst. cbn [flat_map snd] in *. rewrite app_length in H. constructor.
  - cbn [snd]. destruct r; [contradiction|]. destruct rs; [cbn [length] in H; lia|]. discriminate.
  - apply IH; [rewrite skipn_length; lia|exact F2].
Qed.

Lemma last_records tasks : tasks <> [] -> Forall (fun t : task => snd t <> []) tasks ->
  last (flat_map snd tasks) no_rec = last (snd (last tasks (Tile 0 0 0, []))) no_rec /\ flat_map snd tasks <> [].
Proof.
  intros Hn F. set (d := (Tile 0 0 0, []) : task). pose proof (snoc_last tasks d Hn) as E. rewrite E in F.
  apply Forall_app in F as [_ F]. inversion F as [|? ? F1 _]. subst.
  assert (EF : flat_map snd tasks = flat_map snd (removelast tasks) ++ snd (last tasks d)).
  { rewrite E at 1. rewrite flat_map_app. cbn [flat_map]. now rewrite app_nil_r. }
  rewrite EF. fold d. destruct (snd (last tasks d)) as [|r l]; [contradiction|]. split; [apply last_app_cons|].
  destruct (flat_map snd (removelast tasks)); discriminate.
Qed.

Section Run.
Variable qsort : (nat -> nat -> bool) -> list nat -> list nat.
Variable rsort : list pack_record -> list pack_record.
Variable tsort : list task -> list task.
Variable pack : tile -> list bytes -> bytes.
Variable limit : N.
Variable batch : nat.
Hypothesis Hq : sorts_positions qsort.
Hypothesis Hr : reorders rsort.
Hypothesis Ht : reorders tsort.
Hypothesis Hp : forall t ps, pack t ps <> [].
Variable pf0 : pfile.
Variable tasks0 : list task.
Hypothesis I0 : pf_inv pf0.
Hypothesis S0small : pf_size pf0 < 2 ^ 64.
Hypothesis L0 : valid_layout pf0 (flat_map snd tasks0).

Let packed (c : tile * list bytes) : tile * bytes := (fst c, pack (fst c) (snd c)).
Let items := map (content pf0) (g_tasks (mgr_init rsort tsort pf0 tasks0)).

Definition assigned (s : rst) : list single := concat (r_out s) ++ g_upd (r_mgr s).

Definition accounted (s : rst) : Prop := let g := r_mgr s in exists dn,
  Permutation items (map (content (g_pf g)) (g_tasks g) ++ r_fly s ++ dn) /\
  Permutation (map packed dn) (map (read_as (g_pf g)) (g_stash g ++ assigned s)).
Definition sized (s : rst) : Prop := let g := r_mgr s in
  pf_inv (g_pf g) /\ Forall (fun t => snd t <> []) (g_tasks g) /\ Forall (fun r => 0 < r_size r) (flat_map snd (g_tasks g)) /\
  Forall (fun u : single => 0 < r_size (snd u)) (g_stash g ++ assigned s).
Definition phase_a (s : rst) : Prop := let g := r_mgr s in
  g_pf g = pf0 /\ valid_layout pf0 (flat_map snd (g_tasks g)) /\ g_stash g = [] /\ r_out s = [] /\ g_upd g = [] /\ g_off g = 0.
Definition phase_b (s : rst) : Prop := let g := r_mgr s in exists e lo,
  stack e (flat_map snd (g_tasks g)) lo /\ chain 0 (map snd (assigned s)) (g_off g) /\ g_off g <= lo /\
  chain e (map snd (g_stash g)) (pf_size (g_pf g)).
Definition phase_c (s : rst) : Prop := let g := r_mgr s in
  g_tasks g = [] /\ g_stash g = [] /\ chain 0 (map snd (assigned s)) (pf_size (g_pf g)).
Definition phase (s : rst) : Prop :=
  match r_pc s with
  | RpFirst _ | RpDefrag => phase_a s
  | RpDeq _ => phase_b s /\ g_tasks (r_mgr s) <> []
  | RpLoop | RpFlush | RpEnq _ => phase_b s
  | RpStash => phase_b s /\ g_tasks (r_mgr s) = []
  | RpFlush2 | RpDrain | RpFlush3 | RpCheck => phase_c s
  | RpDone => phase_c s /\ r_fly s = []
  | RpThrown => phase_a s \/ phase_b s \/ phase_c s
  end.
Definition inv (s : rst) : Prop := accounted s /\ sized s /\ phase s.

Lemma flat_perm {A B} (f : A -> list B) a b : Permutation a b -> Permutation (flat_map f a) (flat_map f b).
Proof.
  intros H. rewrite !flat_map_concat_map. induction H; cbn [map concat]; auto.
  - now apply Permutation_app_head.
  - rewrite !app_assoc. apply Permutation_app_tail, Permutation_app_comm.
  - etransitivity; eassumption.
Qed.
Lemma init_records : Permutation (flat_map snd (g_tasks (mgr_init rsort tsort pf0 tasks0))) (flat_map snd tasks0).
Proof.
  cbn [mgr_init g_tasks]. rewrite (flat_perm snd _ _ (Ht _)). clear L0 items.
  induction tasks0 as [|[t r] l IH]; [constructor|]. cbn [filter flat_map snd]. destruct r as [|r rs]; cbn [is_nil negb]; [exact IH|].
  cbn [map flat_map snd fst]. apply Permutation_app; [apply Hr|exact IH].
Qed.
Lemma init_filled : Forall (fun t => snd t <> []) (g_tasks (mgr_init rsort tsort pf0 tasks0)).
Proof.
  cbn [mgr_init g_tasks]. rewrite (Ht _). apply Forall_forall. intros t H. apply in_map_iff in H as ([t' rs] & <- & H). apply filter_In in H as [_ H]. cbn [fst snd] in *.
  intros E. assert (P := Hr rs). rewrite E in P. apply Permutation_nil in P. subst. discriminate.
Qed.
Lemma init_inv : inv (rst_start rsort tsort pf0 tasks0).
Proof.
  split; [|split].
  - exists []. unfold rst_start, accounted, assigned. cbn [r_mgr r_fly r_out]. split; [rewrite !app_nil_r; reflexivity|reflexivity].
  - split; [exact I0|]. split; [apply init_filled|]. split; [|constructor]. cbn [rst_start r_mgr]. rewrite init_records. destruct L0 as [H _].
    apply Forall_forall. intros r Hin. apply (proj1 (Forall_forall _ _) H r Hin).
  - unfold phase, phase_a, rst_start. cbn [r_pc r_mgr r_out]. split; [reflexivity|]. split; [|repeat split].
    eapply layout_perm; [symmetry; apply init_records|exact L0].
Qed.

Lemma read_task_ok pf t : pf_inv pf -> Forall (fun r => 0 < r_size r) (snd t) -> (forall r, In r (snd t) -> end_of r <= pf_size pf) ->
  read_task pf t = Ok (map (bytes_of pf) (snd t)).
Proof.
  intros HI. unfold read_task. induction (snd t) as [|r l IH]; intros F HB; [reflexivity|]. inversion F as [|? ? F1 F2]. subst.
  cbn [map_res map]. rewrite get_inside by (auto; apply HB; left; reflexivity). cbn [bind]. rewrite IH by (auto; intros; apply HB; right; assumption). reflexivity.
Qed.

(** taking the last task *)
Lemma tasks_split (g : mgr) : g_tasks g <> [] -> g_tasks g = removelast (g_tasks g) ++ [next_task g].
Proof. intros H. apply (snoc_last _ _ H). Qed.

Lemma enqueue_inv g fly out p p' : g_tasks g <> [] -> accounted (RSt g fly out p) -> sized (RSt g fly out p) ->
  (phase_a (RSt g fly out p) \/ phase_b (RSt g fly out p)) ->
  exists ps, read_task (g_pf g) (next_task g) = Ok ps /\
    let s' := RSt (rest_tasks g) (fly ++ [(fst (next_task g), ps)]) out p' in
    accounted s' /\ sized s' /\ (phase_a (RSt g fly out p) -> phase_a s') /\ (phase_b (RSt g fly out p) -> phase_b s').
Proof.
  intros Hn (dn & A1 & A2) (Z1 & Z2 & Z3 & Z4) HAB. cbn [r_mgr r_fly] in *.
  pose proof (tasks_split g Hn) as E. set (t := next_task g) in *. set (l := removelast (g_tasks g)) in *.
  assert (EF : flat_map snd (g_tasks g) = flat_map snd l ++ snd t). { rewrite E, flat_map_app. cbn [flat_map]. now rewrite app_nil_r. }
  exists (map (bytes_of (g_pf g)) (snd t)). split.
  { apply read_task_ok; [exact Z1| |].
    - rewrite EF in Z3. apply Forall_app in Z3. apply Z3.
    - intros r Hin. assert (Hin' : In r (flat_map snd (g_tasks g))) by (rewrite EF; apply in_app_iff; auto). destruct HAB as [(P1 & P2 & _)|(e & lo & P1 & P2 & P3 & P4)]; cbn [r_mgr] in *.
      + rewrite P1. destruct P2 as [P2 _]. apply (proj1 (Forall_forall _ _) P2 r Hin').
      + apply (stack_in _ _ _ _ P1) in Hin'. apply chain_le in P4. lia. }
  cbn [rest_tasks]. split; [|split; [|split]].
  - exists dn. cbn [r_mgr r_fly g_pf g_tasks g_stash rest_tasks]. split; [|exact A2]. fold l.
    rewrite A1, E, map_app. cbn [map]. unfold content at 2. perm.
  - split; [exact Z1|]. cbn [r_mgr rest_tasks g_tasks g_stash]. fold l. rewrite E in Z2. rewrite EF in Z3. apply Forall_app in Z2 as [Z2 _]. apply Forall_app in Z3 as [Z3 _].
    split; [exact Z2|]. split; [exact Z3|]. exact Z4.
  - intros (P1 & P2 & P3). split; [exact P1|]. split; [|exact P3]. cbn [r_mgr rest_tasks g_tasks]. fold l. cbn [r_mgr] in P2. rewrite EF in P2. now apply layout_app_l in P2.
  - intros (e & lo & P1 & P2 & P3 & P4). cbn [r_mgr] in *. rewrite EF in P1. apply stack_app in P1 as (m & P1 & P5). exists e, m. cbn [r_mgr rest_tasks g_tasks g_off g_stash g_pf]. fold l.
    split; [exact P1|]. split; [exact P2|]. apply stack_le in P5. split; [lia|exact P4].
Qed.

(** inserting a result before the end of the tasks *)
Lemma disjoint_l a n b m : a + n <= b -> disjoint a n b m.
Proof. intros H. left. exact H. Qed.
Lemma disjoint_r a n b m : b + m <= a -> disjoint a n b m.
Proof. intros H. right. exact H. Qed.

Lemma pack_pos t ps : 0 < blen (pack t ps).
Proof. specialize (Hp t ps). unfold blen. destruct (pack t ps); [contradiction|]. cbn [length]. lia. Qed.

Lemma insert_inv_b g f1 t ps f2 out p p' : g_tasks g <> [] ->
  accounted (RSt g (f1 ++ (t, ps) :: f2) out p) -> sized (RSt g (f1 ++ (t, ps) :: f2) out p) -> phase_b (RSt g (f1 ++ (t, ps) :: f2) out p) ->
  exists g', insert_result g t (pack t ps) = Ok g' /\ g_tasks g' = g_tasks g /\
    let s' := RSt g' (f1 ++ f2) out p' in accounted s' /\ sized s' /\ phase_b s'.
Proof.
  intros Hn (dn & A1 & A2) (Z1 & Z2 & Z3 & Z4) (e & lo & P1 & P2 & P3 & P4). unfold assigned in *. cbn [r_mgr r_fly r_out] in *.
  destruct (last_records (g_tasks g) Hn Z2) as [EL Hne]. pose proof (stack_last _ _ _ Hne P1) as Elo. rewrite EL in Elo.
  unfold insert_result. destruct (g_tasks g) as [|t0 tl] eqn:ET; [contradiction|]. rewrite <- ET in *. rewrite Elo. replace (g_off g <=? lo) with true by lia. cbn [verify bind].
  assert (Lo : lo <= e) by (eapply stack_le; exact P1). assert (Le : e <= pf_size (g_pf g)) by (eapply chain_le; exact P4).
  pose proof (pack_pos t ps) as Pp. set (buf := pack t ps) in *.
  destruct (N.ltb_spec (lo - g_off g) (blen buf)) as [Hlt|Hge].
  - (* stash *)
    unfold pf_append. pose proof (insert_spec (g_pf g) (pf_size (g_pf g)) buf Z1) as Sp. destruct (pf_insert (g_pf g) (pf_size (g_pf g)) buf) as [pf r].
    destruct Sp as (Q1 & Q2 & Q3 & Q4 & Q5 & _). eexists. split; [reflexivity|]. cbn [g_tasks]. split; [reflexivity|].
    assert (K : forall r', end_of r' <= pf_size (g_pf g) -> bytes_of pf r' = bytes_of (g_pf g) r').
    { intros r' H. unfold bytes_of. apply Q5; [unfold pf_inv, end_of in *; lia|]. right. exact H. }
    assert (Kt : map (content pf) (g_tasks g) = map (content (g_pf g)) (g_tasks g)).
    { apply content_keep. intros r' H. apply K. apply (stack_in _ _ _ _ P1) in H. lia. }
    assert (Ks : map (read_as pf) (g_stash g) = map (read_as (g_pf g)) (g_stash g)).
    { apply read_keep. intros r' H. apply K. apply (chain_in _ _ _ _ P4) in H. lia. }
    assert (Ka : map (read_as pf) (concat out ++ g_upd g) = map (read_as (g_pf g)) (concat out ++ g_upd g)).
    { apply read_keep. intros r' H. apply K. apply (chain_in _ _ _ _ P2) in H. lia. }
    split; [|split].
    + exists ((t, ps) :: dn). unfold assigned. cbn [r_mgr r_fly r_out g_pf g_tasks g_stash g_upd]. split.
      * rewrite A1, Kt. perm.
      * rewrite map_app, Ka, (map_app _ (g_stash g)), Ks. cbn [map]. rewrite A2, map_app.
        assert (Er : read_as pf (t, r) = packed (t, ps)). { unfold read_as, packed, bytes_of. cbn [fst snd]. rewrite Q2. cbn [r_off r_size]. f_equal. exact Q4. }
        rewrite Er. perm.
    + split; [exact Q1|]. cbn [r_mgr g_tasks g_stash]. split; [exact Z2|]. split; [exact Z3|]. unfold assigned. cbn [r_mgr r_out g_upd].
      apply Forall_app in Z4 as [Z4 Z5]. rewrite !Forall_app. split; [split; [exact Z4|]|now apply Forall_app in Z5]. constructor; [|constructor]. cbn [snd]. rewrite Q2. exact Pp.
    + exists e, lo. unfold assigned. cbn [r_mgr r_out g_upd g_tasks g_off g_stash g_pf]. split; [exact P1|]. split; [exact P2|]. split; [exact P3|].
      rewrite map_app. apply chain_app. exists (pf_size (g_pf g)). split; [exact P4|]. cbn [map snd chain]. rewrite Q2. cbn [r_off]. split; [reflexivity|]. unfold end_of. cbn [r_off r_size]. rewrite Q3. lia.
  - (* insert *)
    pose proof (insert_spec (g_pf g) (g_off g) buf Z1) as Sp. destruct (pf_insert (g_pf g) (g_off g) buf) as [pf r].
    destruct Sp as (Q1 & Q2 & Q3 & Q4 & Q5 & _). eexists. split; [reflexivity|]. cbn [g_tasks]. split; [reflexivity|].
    assert (K : forall r', end_of r' <= pf_size (g_pf g) -> lo <= r_off r' \/ end_of r' <= g_off g -> bytes_of pf r' = bytes_of (g_pf g) r').
    { intros r' H H'. unfold bytes_of. apply Q5; [unfold pf_inv, end_of in *; lia|]. unfold disjoint, end_of in *. lia. }
    assert (Kt : map (content pf) (g_tasks g) = map (content (g_pf g)) (g_tasks g)).
    { apply content_keep. intros r' H. apply (stack_in _ _ _ _ P1) in H. apply K; lia. }
    assert (Ks : map (read_as pf) (g_stash g) = map (read_as (g_pf g)) (g_stash g)).
    { apply read_keep. intros r' H. apply (chain_in _ _ _ _ P4) in H. apply K; lia. }
    assert (Ka : map (read_as pf) (concat out ++ g_upd g) = map (read_as (g_pf g)) (concat out ++ g_upd g)).
    { apply read_keep. intros r' H. apply (chain_in _ _ _ _ P2) in H. apply K; lia. }
    split; [|split].
    + exists ((t, ps) :: dn). unfold assigned. cbn [r_mgr r_fly r_out g_pf g_tasks g_stash g_upd]. split.
      * rewrite A1, Kt. perm.
      * rewrite !app_assoc, <- (app_assoc (g_stash g)). rewrite map_app. cbn [map]. rewrite (map_app _ (g_stash g)), Ks, Ka, <- map_app, A2.
        assert (Er : read_as pf (t, r) = packed (t, ps)). { unfold read_as, packed, bytes_of. cbn [fst snd]. rewrite Q2. cbn [r_off r_size]. f_equal. exact Q4. }
        rewrite Er. perm.
    + split; [exact Q1|]. cbn [r_mgr g_tasks g_stash]. split; [exact Z2|]. split; [exact Z3|]. unfold assigned. cbn [r_mgr r_out g_upd].
      rewrite !app_assoc, <- (app_assoc (g_stash g)). apply Forall_app. split; [exact Z4|]. constructor; [|constructor]. cbn [snd]. rewrite Q2. exact Pp.
    + exists e, lo. unfold assigned. cbn [r_mgr r_out g_upd g_tasks g_off g_stash g_pf]. split; [exact P1|]. split; [|split; [lia|]].
      * rewrite app_assoc, map_app. apply chain_app. exists (g_off g). split; [exact P2|]. cbn [map snd chain]. rewrite Q2. cbn [r_off]. split; [reflexivity|]. reflexivity.
      * rewrite Q3. replace (N.max (pf_size (g_pf g)) (g_off g + blen buf)) with (pf_size (g_pf g)) by lia. exact P4.
Qed.

(** inserting a result after the end of the tasks *)
Lemma insert_inv_c g f1 t ps f2 out p p' :
  accounted (RSt g (f1 ++ (t, ps) :: f2) out p) -> sized (RSt g (f1 ++ (t, ps) :: f2) out p) -> phase_c (RSt g (f1 ++ (t, ps) :: f2) out p) ->
  exists g', insert_result g t (pack t ps) = Ok g' /\
    let s' := RSt g' (f1 ++ f2) out p' in accounted s' /\ sized s' /\ phase_c s'.
Proof.
  intros (dn & A1 & A2) (Z1 & Z2 & Z3 & Z4) (P1 & P2 & P3). unfold assigned in *. cbn [r_mgr r_fly r_out] in *.
  unfold insert_result. rewrite P1 in *. rewrite P2 in *. cbn [app map] in *.
  pose proof (pack_pos t ps) as Pp. set (buf := pack t ps) in *.
  unfold pf_append. pose proof (insert_spec (g_pf g) (pf_size (g_pf g)) buf Z1) as Sp. destruct (pf_insert (g_pf g) (pf_size (g_pf g)) buf) as [pf r].
  destruct Sp as (Q1 & Q2 & Q3 & Q4 & Q5 & _). eexists. split; [reflexivity|].
  assert (Ka : map (read_as pf) (concat out ++ g_upd g) = map (read_as (g_pf g)) (concat out ++ g_upd g)).
  { apply read_keep. intros r' H. apply (chain_in _ _ _ _ P3) in H. unfold bytes_of. apply Q5; [unfold pf_inv, end_of in *; lia|]. right. apply H. }
  split; [|split].
  - exists ((t, ps) :: dn). unfold assigned. cbn [r_mgr r_fly r_out g_pf g_tasks g_stash g_upd map app]. split.
    + rewrite A1. perm.
    + rewrite app_assoc, map_app. cbn [map]. rewrite Ka, A2.
      assert (Er : read_as pf (t, r) = packed (t, ps)). { unfold read_as, packed, bytes_of. cbn [fst snd]. rewrite Q2. cbn [r_off r_size]. f_equal. exact Q4. }
      rewrite Er. perm.
  - split; [exact Q1|]. cbn [r_mgr g_tasks g_stash]. split; [constructor|]. split; [constructor|]. unfold assigned. cbn [r_mgr r_out g_upd app].
    rewrite app_assoc. apply Forall_app. split; [exact Z4|]. constructor; [|constructor]. cbn [snd]. rewrite Q2. exact Pp.
  - split; [reflexivity|]. split; [reflexivity|]. unfold assigned. cbn [r_mgr r_out g_upd g_pf]. rewrite app_assoc, map_app. apply chain_app. exists (pf_size (g_pf g)).
    split; [exact P3|]. cbn [map snd chain]. rewrite Q2. cbn [r_off]. split; [reflexivity|]. unfold end_of. cbn [r_off r_size]. rewrite Q3. lia.
Qed.

(** defragmenting *)
Lemma defragment_inv g fly out p p' : accounted (RSt g fly out p) -> sized (RSt g fly out p) -> phase_a (RSt g fly out p) ->
  defragment qsort g = Throw \/
  exists g', defragment qsort g = Ok g' /\ let s' := RSt g' fly out p' in accounted s' /\ sized s' /\ phase_b s'.
Proof.
  intros (dn & A1 & A2) (Z1 & Z2 & Z3 & Z4) (P1 & P2 & P3 & P4 & P5 & P6). unfold assigned in *. cbn [r_mgr r_fly r_out] in *. unfold defragment.
  rewrite P1 in *. destruct (defrag_spec qsort Hq pf0 _ I0 S0small P2) as [H|(s & H & D1 & D2 & D3 & D4 & (lo & D5) & D6)]; rewrite H; [left; reflexivity|]. right. cbn [bind].
  eexists. split; [reflexivity|]. rewrite P3, P4, P5, P6 in *. cbn [concat app map] in *. unfold assigned. split; [|split].
  - exists dn. unfold assigned. cbn [r_mgr r_fly r_out g_pf g_tasks g_stash g_upd concat app map]. split; [|exact A2].
    rewrite (regroup_content pf0) by exact D6. exact A1.
  - split; [exact D3|]. cbn [r_mgr g_tasks g_stash]. split; [now apply regroup_filled|]. split; [|constructor].
    rewrite regroup_flat by exact D1. clear -D2 Z3. revert Z3 D2. generalize (flat_map snd (g_tasks g)) as b. intros b. generalize (d_recs s) as a. intros a. revert b.
    induction a as [|x a IH]; intros [|y b] F E; try discriminate; constructor; inversion F as [|? ? F1 F2]; subst; cbn [map] in E.
    + apply (f_equal (hd 0)) in E. cbn [hd] in E. lia.
    + apply (IH b F2). apply (f_equal (@tl _)) in E. exact E.
  - exists (pf_size pf0), lo. unfold assigned. cbn [r_mgr r_out g_pf g_tasks g_stash g_upd g_off concat app map]. rewrite regroup_flat by exact D1.
    split; [exact D5|]. split; [reflexivity|]. split; [lia|]. cbn [chain]. lia.
Qed.

(** the stash *)
Lemma move_stash_spec (st : list single) : forall pf off (upd pre : list single) e, pf_inv pf -> chain e (map snd st) (pf_size pf) -> off <= e -> chain 0 (map snd (pre ++ upd)) off ->
  exists pf' off' (mv : list single), move_stash pf off upd st = Ok (pf', off', upd ++ mv) /\ pf_inv pf' /\ pf_size pf' = pf_size pf /\ off' <= pf_size pf /\
    chain 0 (map snd (pre ++ upd ++ mv)) off' /\ map (read_as pf') (pre ++ upd ++ mv) = map (read_as pf) (pre ++ upd) ++ map (read_as pf) st /\
    map (fun u => r_size (snd u)) mv = map (fun u => r_size (snd u)) st.
Proof.
  induction st as [|[t r] st IH]; intros pf off upd pre e HI HC Ho Ha; cbn [move_stash map chain snd] in *.
  - exists pf, off, []. rewrite !app_nil_r. split; [reflexivity|]. split; [exact HI|]. split; [reflexivity|]. split; [lia|]. split; [exact Ha|]. split; reflexivity.
  - destruct HC as [C1 C2]. pose proof (chain_le _ _ _ C2) as Ce. assert (Er : r_off r + r_size r = end_of r) by reflexivity.
    destruct (move_spec pf off r HI ltac:(lia)) as (pf1 & Hm & Q1 & Q2 & Q3 & Q4 & _). rewrite Hm. cbn [bind].
    assert (Q2' : pf_size pf1 = pf_size pf) by lia.
    assert (K : forall r', end_of r' <= pf_size pf -> end_of r <= r_off r' \/ end_of r' <= off -> bytes_of pf1 r' = bytes_of pf r').
    { intros r' H H'. unfold bytes_of. apply Q4; [unfold pf_inv, end_of in *; lia|]. unfold disjoint, end_of in *. lia. }
    destruct (IH pf1 (off + r_size r) (upd ++ [(t, Rec off (r_size r))]) pre (end_of r)) as (pf' & off' & mv & H & R1 & R2 & R3 & R4 & R5 & R6).
    { exact Q1. } { rewrite Q2'. exact C2. } { lia. }
    { rewrite app_assoc, map_app. apply chain_app. exists off. split; [exact Ha|]. cbn [map snd chain r_off]. split; reflexivity. }
    exists pf', off', ((t, Rec off (r_size r)) :: mv). split; [etransitivity; [exact H|]; rewrite <- app_assoc; reflexivity|]. split; [exact R1|]. split; [congruence|]. split; [lia|].
    rewrite <- app_assoc in R4, R5. cbn [app] in R4, R5. split; [exact R4|]. split.
    + etransitivity; [exact R5|]. rewrite (app_assoc pre upd), map_app. cbn [map].
      assert (E1 : map (read_as pf1) (pre ++ upd) = map (read_as pf) (pre ++ upd)).
      { apply read_keep. intros r' H'. apply (chain_in _ _ _ _ Ha) in H'. apply K; lia. }
      assert (E2 : map (read_as pf1) st = map (read_as pf) st).
      { apply read_keep. intros r' H'. apply (chain_in _ _ _ _ C2) in H'. apply K; lia. }
      unfold single in *. rewrite E1, E2. assert (E3 : read_as pf1 (t, Rec off (r_size r)) = read_as pf (t, r)) by (unfold read_as, bytes_of; cbn [fst snd r_off r_size]; now rewrite Q3).
      rewrite E3, <- app_assoc. reflexivity.
    + cbn [map snd r_size]. f_equal. exact R6.
Qed.

Lemma finish_inv g fly out p p' : accounted (RSt g fly out p) -> sized (RSt g fly out p) -> phase_b (RSt g fly out p) -> g_tasks g = [] ->
  exists g', finish_stash g = Ok g' /\ let s' := RSt g' fly out p' in accounted s' /\ sized s' /\ phase_c s'.
Proof.
  intros (dn & A1 & A2) (Z1 & Z2 & Z3 & Z4) (e & lo & P1 & P2 & P3 & P4) ET. unfold assigned in *. cbn [r_mgr r_fly r_out] in *. unfold finish_stash. rewrite ET in *. cbn [is_nil verify bind flat_map stack map app] in *.
  destruct (move_stash_spec (g_stash g) (g_pf g) (g_off g) (g_upd g) (concat out) e Z1 P4 ltac:(lia) P2) as (pf & off & mv & H & R1 & R2 & R3 & R4 & R5 & R6).
  rewrite H. cbn [bind fst snd]. eexists. split; [reflexivity|].
  assert (KR : map (read_as (pf_resize pf off)) (concat out ++ g_upd g ++ mv) = map (read_as pf) (concat out ++ g_upd g ++ mv)).
  { apply read_keep. intros r Hin. apply (chain_in _ _ _ _ R4) in Hin. unfold bytes_of. apply pf_resize_slice. unfold pf_inv, end_of in *. lia. }
  split; [|split].
  - exists dn. unfold assigned. cbn [r_mgr r_fly r_out g_pf g_tasks g_stash g_upd map app]. split; [exact A1|]. rewrite KR, R5, A2, map_app. apply Permutation_app_comm.
  - split; [apply pf_resize_inv|]. unfold assigned. cbn [r_mgr r_out g_tasks g_stash g_upd app flat_map]. split; [constructor|]. split; [constructor|].
    apply Forall_app in Z4 as [Z4 Z5]. apply Forall_app in Z5 as [Z5 Z6]. rewrite !Forall_app. split; [exact Z5|]. split; [exact Z6|].
    clear -Z4 R6. revert R6 Z4. generalize (g_stash g) as b. induction mv as [|x a IH]; intros [|y b] E F; try discriminate; constructor; inversion F as [|? ? F1 F2]; subst; cbn [map] in E.
    + apply (f_equal (hd 0)) in E. cbn [hd] in E. lia.
    + apply (IH b); [|exact F2]. apply (f_equal (@tl _)) in E. exact E.
  - split; [reflexivity|]. split; [reflexivity|]. unfold assigned. cbn [r_mgr r_out g_pf g_upd]. exact R4.
Qed.

Lemma flush_inv g fly out p p' : accounted (RSt g fly out p) -> sized (RSt g fly out p) ->
  let s := RSt g fly out p in let s' := RSt (flush_upd g) fly (out ++ [g_upd g]) p' in
  accounted s' /\ sized s' /\ (phase_b s -> phase_b s') /\ (phase_c s -> phase_c s').
Proof.
  intros A Z. assert (E : assigned (RSt (flush_upd g) fly (out ++ [g_upd g]) p') = assigned (RSt g fly out p)).
  { unfold assigned. cbn [r_mgr r_out g_upd flush_upd]. rewrite concat_app. cbn [concat]. now rewrite !app_nil_r. }
  unfold accounted, sized, phase_b, phase_c in *. rewrite E. cbn [r_mgr r_fly flush_upd g_pf g_tasks g_stash g_off] in *. tauto.
Qed.

Lemma acc_pc g fly out p p' : accounted (RSt g fly out p) -> accounted (RSt g fly out p').
Proof. exact (fun H => H). Qed.
Lemma sized_pc g fly out p p' : sized (RSt g fly out p) -> sized (RSt g fly out p').
Proof. exact (fun H => H). Qed.

Definition throws_from (p : rpc) : Prop := p = RpDefrag \/ p = RpCheck.

Lemma step_inv s s' : inv s -> rp_step qsort pack limit batch s s' -> inv s' /\ (r_pc s' = RpThrown -> throws_from (r_pc s)).
Proof.
  intros (A & Z & P) H. destruct H; unfold phase in P; cbn [r_pc r_mgr r_fly] in P.
  - destruct (enqueue_inv g fly out (RpFirst n) (RpFirst (n + task_size (next_task g))) H A Z (or_introl P)) as (ps' & E & B1 & B2 & B3 & _). rewrite E in H1. apply Ok_inj in H1. subst ps'.
    split; [|discriminate]. split; [exact B1|]. split; [exact B2|]. exact (B3 P).
  - destruct (enqueue_inv g fly out (RpFirst n) (RpFirst n) H A Z (or_introl P)) as (ps' & E & _). congruence.
  - split; [|discriminate]. split; [exact A|]. split; [exact Z|]. exact P.
  - destruct (defragment_inv g fly out RpDefrag RpLoop A Z P) as [E|(g2 & E & B1 & B2 & B3)]; [congruence|]. rewrite E in H. apply Ok_inj in H. subst g2.
    split; [|discriminate]. split; [exact B1|]. split; [exact B2|]. exact B3.
  - split; [|intros _; left; reflexivity]. split; [exact A|]. split; [exact Z|]. left. exact P.
  - split; [|discriminate]. split; [exact A|]. split; [exact Z|]. split; [exact P|exact H].
  - split; [|discriminate]. split; [exact A|]. split; [exact Z|]. split; [exact P|exact H].
  - destruct P as [P Pn]. destruct (insert_inv_b g f1 t ps f2 out _ (RpDeq n) Pn A Z P) as (g2 & E & ET & B1 & B2 & B3). rewrite E in H. apply Ok_inj in H. subst g2.
    split; [|discriminate]. split; [exact B1|]. split; [exact B2|]. split; [exact B3|]. cbn [r_mgr]. rewrite ET. exact Pn.
  - destruct P as [P Pn]. destruct (insert_inv_b g f1 t ps f2 out _ (RpDeq n) Pn A Z P) as (g2 & E & _). congruence.
  - split; [|discriminate]. split; [exact A|]. split; [exact Z|]. exact P.
  - split; [|discriminate]. split; [exact A|]. split; [exact Z|]. exact (proj1 P).
  - destruct (flush_inv g fly out RpFlush (RpEnq batch) A Z) as (B1 & B2 & B3 & _). split; [|discriminate]. split; [exact B1|]. split; [exact B2|]. exact (B3 P).
  - destruct (enqueue_inv g fly out (RpEnq (S n)) (RpEnq n) H A Z (or_intror P)) as (ps' & E & B1 & B2 & _ & B3). rewrite E in H0. apply Ok_inj in H0. subst ps'.
    split; [|discriminate]. split; [exact B1|]. split; [exact B2|]. exact (B3 P).
  - destruct (enqueue_inv g fly out (RpEnq (S n)) (RpEnq n) H A Z (or_intror P)) as (ps' & E & _). congruence.
  - split; [|discriminate]. split; [exact A|]. split; [exact Z|]. exact P.
  - destruct P as [P Pn]. destruct (finish_inv g fly out RpStash RpFlush2 A Z P Pn) as (g2 & E & B1 & B2 & B3). rewrite E in H. apply Ok_inj in H. subst g2.
    split; [|discriminate]. split; [exact B1|]. split; [exact B2|]. exact B3.
  - destruct P as [P Pn]. destruct (finish_inv g fly out RpStash RpFlush2 A Z P Pn) as (g2 & E & _). congruence.
  - destruct (flush_inv g fly out RpFlush2 RpDrain A Z) as (B1 & B2 & _ & B3). split; [|discriminate]. split; [exact B1|]. split; [exact B2|]. exact (B3 P).
  - destruct (insert_inv_c g f1 t ps f2 out _ RpDrain A Z P) as (g2 & E & B1 & B2 & B3). rewrite E in H. apply Ok_inj in H. subst g2.
    split; [|discriminate]. split; [exact B1|]. split; [exact B2|]. exact B3.
  - destruct (insert_inv_c g f1 t ps f2 out _ RpDrain A Z P) as (g2 & E & _). congruence.
  - split; [|discriminate]. split; [exact A|]. split; [exact Z|]. exact P.
  - destruct (flush_inv g fly out RpFlush3 RpCheck A Z) as (B1 & B2 & _ & B3). split; [|discriminate]. split; [exact B1|]. split; [exact B2|]. exact (B3 P).
  - split; [|discriminate]. split; [exact A|]. split; [exact Z|]. split; [exact P|reflexivity].
  - split; [|intros _; right; reflexivity]. split; [exact A|]. split; [exact Z|]. right. right. exact P.
Qed.

Lemma reach_inv s : rp_reach qsort rsort tsort pack limit batch pf0 tasks0 s -> inv s.
Proof. induction 1 as [|s s' _ IH H]; [apply init_inv|]. eapply step_inv; eassumption. Qed.

(** nothing ends in undefined behaviour, and the run always goes on *)
Lemma progress s : inv s -> r_pc s <> RpDone -> r_pc s <> RpThrown -> exists s', rp_step qsort pack limit batch s s'.
Proof.
  intros (A & Z & P) H1 H2. destruct s as [g fly out pc]. cbn [r_pc] in *. destruct pc; unfold phase in P; cbn [r_pc r_mgr] in P; try congruence.
  - destruct (g_tasks g) as [|t0 l] eqn:ET; [eexists; apply rp_first_end; left; exact ET|]. assert (Hn : g_tasks g <> []) by congruence.
    destruct (N.lt_ge_cases size limit) as [Hlt|Hge]; [|eexists; apply rp_first_end; right; exact Hge].
    destruct (enqueue_inv g fly out (RpFirst size) RpDone Hn A Z (or_introl P)) as (ps & E & _). eexists. eapply rp_first; eassumption.
  - destruct (defragment_inv g fly out RpDefrag RpLoop A Z P) as [E|(g' & E & _)]; eexists; [now apply rp_defrag_throw|eapply rp_defrag; exact E].
  - destruct (g_tasks g) as [|t0 l] eqn:ET; eexists; [now apply rp_loop_end|apply rp_loop; congruence].
  - eexists. apply rp_deq_end.
  - eexists. apply rp_flush.
  - destruct (g_tasks g) as [|t0 l] eqn:ET; [eexists; apply rp_enq_end; left; exact ET|]. assert (Hn : g_tasks g <> []) by congruence.
    destruct n as [|n]; [eexists; apply rp_enq_end; right; reflexivity|].
    destruct (enqueue_inv g fly out (RpEnq (S n)) RpDone Hn A Z (or_intror P)) as (ps & E & _). eexists. eapply rp_enq; eassumption.
  - destruct P as [P Pn]. destruct (finish_inv g fly out RpStash RpFlush2 A Z P Pn) as (g2 & E & _). eexists. eapply rp_stash. exact E.
  - eexists. apply rp_flush2.
  - eexists. apply rp_drain_end.
  - eexists. apply rp_flush3.
  - destruct P as (P1 & _). destruct fly as [|f fly]; eexists; [now apply rp_check|]. apply rp_check_throw. right. discriminate.
Qed.

(** ** what the invariant says about the input *)
Definition origin_tasks : list task := map (fun t => (fst t, rsort (snd t))) (filled tasks0).
Lemma items_perm : Permutation items (map (content pf0) origin_tasks).
Proof. unfold items, origin_tasks. apply Permutation_map. cbn [mgr_init g_tasks]. rewrite (Ht _).
  replace (filter (fun t => negb (is_nil (snd t))) tasks0) with (filled tasks0); [reflexivity|]. unfold filled. apply filter_ext. intros [t [|]]; reflexivity.
Qed.

Lemma perm_Forall2 {A B} (R : A -> B -> Prop) a a' b : Permutation a a' -> Forall2 R a b -> exists b', Permutation b b' /\ Forall2 R a' b'.
Proof.
  intros HP. revert b. induction HP as [|x a a' HP IH|x y a|a1 a2 a3 H1 IH1 H2 IH2]; intros b F.
  - exists b. inversion F. subst. split; constructor.
  - inversion F as [|? y ? b' F1 F2]. subst. destruct (IH b' F2) as (b2 & P2 & F3). exists (y :: b2). split; [now constructor|now constructor].
  - inversion F as [|? y1 ? b1 F1 F2]. subst. inversion F2 as [|? y2 ? b2 F3 F4]. subst. exists (y2 :: y1 :: b2). split; [constructor|]. repeat constructor; assumption.
  - destruct (IH1 b F) as (b1 & P1 & F1). destruct (IH2 b1 F1) as (b2 & P2 & F2). exists b2. split; [etransitivity; eassumption|exact F2].
Qed.

(** a content of the input *)
Lemma items_in c : In c items -> is_input pf0 tasks0 c.
Proof.
  intros H. apply (Permutation_in _ items_perm) in H. apply in_map_iff in H as (t & <- & H). unfold origin_tasks in H. apply in_map_iff in H as (t0 & <- & H).
  exists t0. split; [exact H|]. unfold content. cbn [fst snd]. split; [reflexivity|]. apply Permutation_map, Hr.
Qed.

Lemma intact s : inv s -> r_pc s <> RpThrown ->
  (forall t, In t (g_tasks (r_mgr s)) -> exists ps, read_task (g_pf (r_mgr s)) t = Ok ps /\ is_input pf0 tasks0 (fst t, ps)) /\
  (forall w, In w (r_fly s) -> is_input pf0 tasks0 w).
Proof.
  intros ((dn & A1 & A2) & (Z1 & Z2 & Z3 & Z4) & P) HT. split.
  - intros t Hin. exists (map (bytes_of (g_pf (r_mgr s))) (snd t)).
    assert (HB : forall r, In r (flat_map snd (g_tasks (r_mgr s))) -> end_of r <= pf_size (g_pf (r_mgr s))).
    { intros r Hr'. assert (P' : phase_a s \/ phase_b s \/ phase_c s) by (unfold phase in P; destruct (r_pc s); tauto).
      destruct P' as [(P1 & (P2 & _) & _)|[(e & lo & P1 & P2 & P3 & P4)|(P1 & _)]].
      - rewrite P1. apply (proj1 (Forall_forall _ _) P2 r Hr').
      - apply (stack_in _ _ _ _ P1) in Hr'. apply chain_le in P4. lia.
      - rewrite P1 in Hr'. destruct Hr'. }
    split.
    + apply read_task_ok; [exact Z1| |].
      * apply Forall_forall. intros r Hr'. apply (proj1 (Forall_forall _ _) Z3). apply in_flat_map. exists t. auto.
      * intros r Hr'. apply HB. apply in_flat_map. exists t. auto.
    + apply items_in. apply (Permutation_in _ (Permutation_sym A1)). apply in_app_iff. left. apply in_map_iff. exists t. split; [reflexivity|exact Hin].
  - intros w Hw. apply items_in. apply (Permutation_in _ (Permutation_sym A1)). rewrite !in_app_iff. auto.
Qed.

Lemma assigned_inside s u : inv s -> In u (assigned s) -> pf_get (g_pf (r_mgr s)) (snd u) = Ok (bytes_of (g_pf (r_mgr s)) (snd u)).
Proof.
  intros (_ & (Z1 & Z2 & Z3 & Z4) & P) Hin. apply Forall_app in Z4 as [_ Z4]. pose proof (proj1 (Forall_forall _ _) Z4 u Hin) as Hs. apply get_inside; [exact Z1|exact Hs|].
  assert (Hm : In (snd u) (map snd (assigned s))) by (now apply in_map).
  assert (P' : phase_a s \/ phase_b s \/ phase_c s) by (unfold phase in P; destruct (r_pc s); tauto).
  destruct P' as [(P1 & P2 & P3 & P4 & P5 & P6)|[(e & lo & P1 & P2 & P3 & P4)|(P1 & P2 & P3)]].
  - unfold assigned in Hin. rewrite P4, P5 in Hin. destruct Hin.
  - apply (chain_in _ _ _ _ P2) in Hm. apply chain_le in P4. apply stack_le in P1. lia.
  - apply (chain_in _ _ _ _ P3) in Hm. lia.
Qed.

(** what was assigned stays readable *)
Lemma assigned_ok s u : inv s -> In u (assigned s) -> exists t, In t (filled tasks0) /\ repacked pack pf0 (g_pf (r_mgr s)) t u.
Proof.
  intros HI Hin. pose proof (assigned_inside s u HI Hin) as G. destruct HI as ((dn & A1 & A2) & _).
  assert (H : In (read_as (g_pf (r_mgr s)) u) (map packed dn)).
  { apply (Permutation_in _ (Permutation_sym A2)). apply in_map. apply in_app_iff. auto. }
  apply in_map_iff in H as (c & Ec & Hc). assert (Hi : In c items) by (apply (Permutation_in _ (Permutation_sym A1)); rewrite !in_app_iff; auto).
  apply items_in in Hi as (t & Ht' & E1 & E2). exists t. split; [exact Ht'|]. unfold packed, read_as in Ec. injection Ec as E3 E4. unfold repacked.
  split; [congruence|]. exists (snd c). split; [exact E2|]. rewrite G. f_equal. rewrite <- E4, E1. reflexivity.
Qed.

(** at the end *)
Lemma complete s : inv s -> r_pc s = RpDone -> exists ts, Permutation ts (filled tasks0) /\ Forall2 (repacked pack pf0 (g_pf (r_mgr s))) ts (concat (r_out s) ++ g_upd (r_mgr s)).
Proof.
  intros HI E. pose proof (fun u => assigned_inside s u HI) as G. destruct HI as ((dn & A1 & A2) & _ & P). unfold phase in P. rewrite E in P. destruct P as [(P1 & P2 & P3) P4].
  rewrite P1, P4 in A1. rewrite P2 in A2. cbn [map app] in A1, A2.
  assert (F : Forall2 (fun c t => fst c = fst t /\ packs_of pf0 t (snd c)) (map (content pf0) origin_tasks) (filled tasks0)).
  { unfold origin_tasks. clear -Hr. induction (filled tasks0) as [|t l IH]; cbn [map]; constructor; [|exact IH]. cbn [content fst snd]. split; [reflexivity|]. apply Permutation_map, Hr. }
  destruct (perm_Forall2 _ _ dn _ (Permutation_trans (Permutation_sym items_perm) A1) F) as (ts & PT & F').
  assert (F2 : Forall2 (fun (p : tile * bytes) t => fst p = fst t /\ exists ps, packs_of pf0 t ps /\ snd p = pack (fst t) ps) (map packed dn) ts).
  { clear -F'. induction F' as [|c t dn ts [H1 H2] F IH]; cbn [map]; constructor; [|exact IH]. unfold packed. cbn [fst snd]. split; [exact H1|]. exists (snd c). split; [exact H2|]. now rewrite H1. }
  destruct (perm_Forall2 _ _ _ _ A2 F2) as (ts' & PT' & F3). exists ts'. split; [rewrite <- PT', <- PT; reflexivity|].
  clear -F3 G. unfold assigned in *. revert ts' F3. induction (concat (r_out s) ++ g_upd (r_mgr s)) as [|u us IH]; intros ts' F3; cbn [map] in F3; inversion F3 as [|? t ? ts (H1 & ps & H2 & H3) F4]; subst; constructor.
  - unfold repacked. split; [exact H1|]. exists ps. split; [exact H2|]. rewrite G by (left; reflexivity). f_equal. exact H3.
  - apply IH; [|exact F4]. intros v Hv. apply G. right. exact Hv.
Qed.

Lemma done_flushed s : rp_reach qsort rsort tsort pack limit batch pf0 tasks0 s -> r_pc s = RpDone \/ r_pc s = RpCheck -> g_upd (r_mgr s) = [].
Proof.
  induction 1 as [|s s' HR IH H]; [intros [E|E]; discriminate|]. destruct H; cbn [r_pc r_mgr] in *; intros [E|E]; try discriminate; auto.
Qed.

Lemma chain_total rs : forall a e, chain a rs e -> a + total_size rs = e.
Proof.
  induction rs as [|r rs IH]; cbn [chain total_size fold_right]; intros a e H; [lia|]. destruct H as [H1 H2]. apply IH in H2. unfold end_of in H2. fold (total_size rs). lia.
Qed.
Lemma chain_apart rs : forall a e, chain a rs e -> ForallOrdPairs apart rs.
Proof.
  induction rs as [|r rs IH]; cbn [chain]; intros a e H; [constructor|]. destruct H as [H1 H2]. constructor; [|eapply IH; exact H2].
  apply Forall_forall. intros r' Hin. left. apply (chain_in _ _ _ _ H2) in Hin. unfold end_of in Hin. lia.
Qed.
Lemma compacted s : inv s -> r_pc s = RpDone -> pf_size (g_pf (r_mgr s)) = total_size (map snd (assigned s)) /\ ForallOrdPairs apart (map snd (assigned s)).
Proof.
  intros (_ & _ & P) E. unfold phase in P. rewrite E in P. destruct P as [(_ & _ & P) _]. split; [|eapply chain_apart; exact P]. apply chain_total in P. lia.
Qed.

(** ** when defragmenting succeeds *)
Lemma first_state s : rp_reach qsort rsort tsort pack limit batch pf0 tasks0 s ->
  match r_pc s with
  | RpFirst n => exists l, g_tasks (mgr_init rsort tsort pf0 tasks0) = g_tasks (r_mgr s) ++ l /\ n = total_size (flat_map snd l)
  | RpDefrag => exists l, g_tasks (mgr_init rsort tsort pf0 tasks0) = g_tasks (r_mgr s) ++ l /\ (g_tasks (r_mgr s) = [] \/ limit <= total_size (flat_map snd l))
  | _ => True
  end.
Proof.
  induction 1 as [|s s' HR IH H].
  - unfold rst_start. cbn [r_pc r_mgr]. exists []. rewrite app_nil_r. split; reflexivity.
  - destruct H; cbn [r_pc r_mgr] in *; auto.
    + destruct IH as (l & E & En). exists (next_task g :: l). split.
      * cbn [rest_tasks g_tasks]. rewrite E, (tasks_split g H) at 1. rewrite <- app_assoc. reflexivity.
      * rewrite En. cbn [flat_map]. rewrite total_app. unfold task_size. fold (total_size (snd (next_task g))). lia.
    + destruct IH as (l & E & En). exists l. split; [exact E|]. destruct H as [H|H]; [left; exact H|right; lia].
Qed.

Lemma total_perm a b : Permutation a b -> total_size a = total_size b.
Proof. unfold total_size. induction 1; cbn [fold_right]; lia. Qed.
Lemma largest_perm a b : Permutation a b -> largest_size a = largest_size b.
Proof. unfold largest_size. induction 1; cbn [fold_right]; lia. Qed.
Lemma largest_app a b : largest_size (a ++ b) = N.max (largest_size a) (largest_size b).
Proof. unfold largest_size. induction a as [|r a IH]; cbn [app fold_right]; [lia|]. rewrite IH. lia. Qed.

Lemma defrag_ok_state s : rp_reach qsort rsort tsort pack limit batch pf0 tasks0 s -> r_pc s = RpDefrag ->
  (total_size (flat_map snd tasks0) < limit /\ 0 < pf_size pf0 \/
   largest_size (flat_map snd tasks0) + total_size (flat_map snd tasks0) < pf_size pf0 /\ sorts task_gtb tsort /\ Forall (fun t => (length (snd t) <= 1)%nat) tasks0) ->
  defragment qsort (r_mgr s) <> Throw.
Proof.
  intros HR Hpc HC. pose proof (first_state s HR) as FS. rewrite Hpc in FS. destruct FS as (l & El & Hl).
  destruct (reach_inv s HR) as (_ & _ & P). unfold phase in P. rewrite Hpc in P. destruct P as (P1 & P2 & _). unfold defragment. rewrite P1.
  assert (ND : defrag qsort pf0 (flat_map snd (g_tasks (r_mgr s))) <> Throw).
  2:{ destruct (defrag qsort pf0 (flat_map snd (g_tasks (r_mgr s)))); cbn [bind]; congruence. }
  pose proof init_records as IR. rewrite El, flat_map_app in IR.
  assert (T1 : total_size (flat_map snd (g_tasks (r_mgr s))) + total_size (flat_map snd l) = total_size (flat_map snd tasks0)) by (rewrite <- total_app; now apply total_perm).
  assert (T2 : largest_size (flat_map snd (g_tasks (r_mgr s))) <= largest_size (flat_map snd tasks0)) by (rewrite <- (largest_perm _ _ IR), largest_app; apply N.le_max_l).
  destruct HC as [[HC HC0]|(HL & HT & H1)].
  { destruct Hl as [Hl|Hl]; [|exfalso; rewrite <- T1 in HC; clear -HC Hl; revert HC; apply N.le_ngt; etransitivity; [exact Hl|]; rewrite N.add_comm; apply N.le_add_r].
    rewrite Hl in *. apply defrag_desc; [exact Hq|exact I0|exact S0small|exact P2|exact HC0|constructor]. }
  apply defrag_desc; [exact Hq|exact I0|exact S0small|exact P2| |].
  { eapply N.le_lt_trans; [|exact HL]. apply N.add_le_mono; [exact T2|]. rewrite <- T1. apply N.le_add_r. }
  (* single records *)
  set (T := g_tasks (mgr_init rsort tsort pf0 tasks0)) in *.
  assert (F1 : Forall (fun t => exists r, snd t = [r]) T).
  { unfold T. cbn [mgr_init g_tasks]. rewrite (Ht _). apply Forall_forall. intros t H. apply in_map_iff in H as ([t' rs] & <- & H). apply filter_In in H as [Hin H]. cbn [fst snd] in *.
    pose proof (proj1 (Forall_forall _ _) H1 _ Hin) as HL1. cbn [snd] in HL1. destruct rs as [|r [|r' rs]]; [discriminate| |cbn [length] in HL1; lia].
    exists r. apply Permutation_length_1_inv, Permutation_sym, Hr. }
  assert (W : StronglySorted (fun a b => task_gtb b a = false) T) by (unfold T; cbn [mgr_init g_tasks]; apply HT).
  assert (LT : valid_layout pf0 (flat_map snd T)) by (eapply layout_perm; [symmetry; apply init_records|exact L0]).
  rewrite El in F1, W, LT. apply Forall_app in F1 as [F1 _]. apply ssort_app in W as (W & _ & _). clear -F1 W P2.
  induction (g_tasks (r_mgr s)) as [|t ts IH]; [constructor|]. inversion F1 as [|? ? (r & Er) F2]. subst. inversion W as [|? ? W1 W2]. subst. cbn [flat_map] in *. rewrite Er in *. cbn [app] in *.
  destruct P2 as [Q1 Q2]. inversion Q1 as [|? ? [Q3 _] Q4]. subst. inversion Q2 as [|? ? Q5 Q6]. subst. constructor; [apply IH; [split; assumption|exact F2|exact W1]|].
  apply Forall_forall. intros r' Hr'. pose proof (proj1 (Forall_forall _ _) Q5 r' Hr') as A. pose proof (proj1 (Forall_forall _ _) Q4 r' Hr') as [B _].
  apply in_flat_map in Hr' as (t' & Ht' & Hr'). pose proof (proj1 (Forall_forall _ _) W2 t' Ht') as G. destruct (proj1 (Forall_forall _ _) F2 t' Ht') as (r2 & E2). rewrite E2 in Hr'.
  destruct Hr' as [->|[]]. unfold task_gtb in G. rewrite Er, E2 in G. cbn [last] in G. apply N.ltb_ge in G. unfold apart in A. lia.
Qed.
End Run.
