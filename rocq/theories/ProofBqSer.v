(** The tree of covered tiles: the serialized words. *)
From Coq Require Import Permutation.
From Verif Require Import Base BaseProof ModelTile SpecTile ProofTile ModelQuadTree ProofQuadTree ModelBqTree SpecBqTree ProofBqTree.
Open Scope N_scope.

Definition inn (c : btree) : nat := if is_node c then 1 else 0.
Definition flag (i : N) (c : btree) : N :=
  match c with
  | BNull => N.shiftl 1 (i + kFalseOffset)
  | BLeaf => N.shiftl 1 (i + kTrueOffset)
  | BNode _ _ _ _ => 0
  end.
Definition pz (k : nat) (b : N) : N := if (k =? 0)%nat then 0 else b.
Definition bflags (c0 c1 c2 c3 : btree) : N := N.lor (N.lor (N.lor (N.lor 0 (flag 0 c0)) (flag 1 c1)) (flag 2 c2)) (flag 3 c3).
Definition bword (b : N) (c0 c1 c2 c3 : btree) : N := N.lor (bflags c0 c1 c2 c3) (pz (inn c0 + inn c1 + inn c2 + inn c3) b).

Fixpoint brepr (v : list N) (o : nat) (c : btree) : Prop :=
  match c with
  | BNode c0 c1 c2 c3 =>
      exists b, 0 < N.of_nat b < 2 ^ 24 /\ nth_error v o = Some (bword (N.of_nat b) c0 c1 c2 c3) /\
        brepr v b c0 /\ brepr v (b + inn c0) c1 /\ brepr v (b + inn c0 + inn c1) c2 /\ brepr v (b + inn c0 + inn c1 + inn c2) c3
  | _ => True
  end.

Lemma land_mask p : p < 2 ^ 24 -> N.land p kOffsetMask = p.
Proof. intros H. unfold kOffsetMask. change (N.shiftl 1 24 - 1) with (N.ones 24). rewrite N.land_ones. now apply N.mod_small. Qed.
Lemma flag_mask i c : i < 4 -> N.land (flag i c) kOffsetMask = 0.
Proof. intros Hi. destruct (lt4_cases i Hi) as [->|[->|[->| ->]]]; destruct c; reflexivity. Qed.

Lemma bpush_step o i c st0 v b k fl add :
  (o < length v)%nat -> b = length v -> 0 < N.of_nat b < 2 ^ 24 -> N.land fl kOffsetMask = 0 ->
  bq_push o i c (add ++ st0, upd v o (N.lor fl (pz k (N.of_nat b))) ++ repeat 0 k) =
  Ok ((if is_node c then [((b + k)%nat, c)] else []) ++ add ++ st0,
      upd v o (N.lor (N.lor fl (flag i c)) (pz (k + inn c) (N.of_nat b))) ++ repeat 0 (k + inn c)).
Proof.
  intros Ho Hb HB Hfl. set (w := upd v o (N.lor fl (pz k (N.of_nat b))) ++ repeat 0 k).
  assert (Hw : length w = (b + k)%nat) by (unfold w; rewrite app_length, upd_length, repeat_length by assumption; lia).
  assert (G : vget w o = Ok (N.lor fl (pz k (N.of_nat b)))).
  { unfold vget, w. rewrite nth_error_app1 by (rewrite upd_length; assumption). rewrite upd_nth by assumption. now rewrite Nat.eqb_refl. }
  assert (S : forall x, vset w o x = Ok (upd v o x ++ repeat 0 k)).
  { intros x. rewrite vset_upd by (rewrite Hw; lia). unfold w. rewrite upd_app by (rewrite upd_length; assumption). now rewrite upd_upd. }
  destruct c as [| |c0 c1 c2 c3]; cbn [bq_push is_node flag inn].
  - rewrite G. cbn [bind]. rewrite S. cbn [bind]. rewrite Nat.add_0_r. cbn [app]. do 4 f_equal.
    rewrite <- !N.lor_assoc. f_equal. apply N.lor_comm.
  - rewrite G. cbn [bind]. rewrite S. cbn [bind]. rewrite Nat.add_0_r. cbn [app]. do 4 f_equal.
    rewrite <- !N.lor_assoc. f_equal. apply N.lor_comm.
  - rewrite G. cbn [bind].
    assert (HP : pz k (N.of_nat b) < 2 ^ 24) by (unfold pz; destruct (k =? 0)%nat; lia).
    rewrite N.land_lor_distr_l, Hfl, N.lor_0_l, land_mask by assumption.
    assert (E : (if pz k (N.of_nat b) =? 0 then N.lor (N.lor fl (pz k (N.of_nat b))) (N.of_nat (length w) mod 2 ^ 32) else N.lor fl (pz k (N.of_nat b)))
       = N.lor (N.lor fl 0) (pz (k + 1) (N.of_nat b))).
    { rewrite N.lor_0_r. unfold pz. replace (k + 1 =? 0)%nat with false by lia. destruct (Nat.eqb_spec k 0) as [->|Hk].
      - rewrite N.eqb_refl, Hw, N.lor_0_r, Nat.add_0_r. rewrite N.mod_small; [reflexivity|]. change (2 ^ 32) with (256 * 2 ^ 24). lia.
      - replace (N.of_nat b =? 0) with false by lia. reflexivity. }
    rewrite E, S. cbn [bind]. rewrite app_length, upd_length, repeat_length by assumption. rewrite <- Hb.
    rewrite <- app_assoc. change [0] with (repeat 0 1). rewrite <- repeat_app. reflexivity.
Qed.

Definition btotal (st : list (nat * btree)) : nat := fold_right (fun e s => (bcount (snd e) + s)%nat) 0%nat st.
Lemma btotal_app a b : btotal (a ++ b) = (btotal a + btotal b)%nat.
Proof. unfold btotal. induction a as [|x a IH]; [reflexivity|]. cbn [app fold_right]. rewrite IH. lia. Qed.
Definition bone (o : nat) (c : btree) : list (nat * btree) := if is_node c then [(o, c)] else [].
Lemma bone_total o c : btotal (bone o c) = bcount c.
Proof. destruct c; cbn; lia. Qed.
Lemma bone_length o c : length (bone o c) = inn c.
Proof. destruct c; reflexivity. Qed.
Lemma bone_in o c e : In e (bone o c) <-> is_node c = true /\ e = (o, c).
Proof. destruct c; cbn; intuition congruence. Qed.

Lemma flag_small i c : i < 4 -> flag i c < 2 ^ 32.
Proof. intros Hi. destruct (lt4_cases i Hi) as [->|[->|[->| ->]]]; destruct c; reflexivity. Qed.
Lemma lor_small a b : a < 2 ^ 32 -> b < 2 ^ 32 -> N.lor a b < 2 ^ 32.
Proof.
  intros Ha Hb. destruct (N.eq_dec (N.lor a b) 0) as [->|Hn]; [reflexivity|].
  apply N.log2_lt_pow2; [lia|]. rewrite N.log2_lor.
  assert (X : forall x, x < 2 ^ 32 -> N.log2 x < 32).
  { intros x Hx. destruct (N.eq_dec x 0) as [->|]; [reflexivity|]. apply N.log2_lt_pow2; [lia | assumption]. }
  apply N.max_lub_lt; now apply X.
Qed.
Lemma bword_small b c0 c1 c2 c3 : b < 2 ^ 24 -> bword b c0 c1 c2 c3 < 2 ^ 32.
Proof.
  intros Hb. unfold bword, bflags. repeat apply lor_small; try (apply flag_small; lia); [reflexivity|].
  unfold pz. destruct (_ =? 0)%nat; [reflexivity|]. change (2 ^ 32) with (256 * 2 ^ 24). lia.
Qed.
Lemma Forall_upd (P : N -> Prop) v i x : Forall P v -> P x -> Forall P (upd v i x).
Proof.
  intros HF Hx. unfold upd. apply Forall_app. split; [|constructor; [assumption|]].
  - rewrite <- (firstn_skipn i v) in HF. apply Forall_app in HF. tauto.
  - rewrite <- (firstn_skipn (S i) v) in HF. apply Forall_app in HF. tauto.
Qed.

Lemma bserialize_ok : forall fuel st v,
  (btotal st <= fuel)%nat ->
  Forall (fun e => is_node (snd e) = true /\ (fst e < length v)%nat /\ nth_error v (fst e) = Some 0) st ->
  NoDup (map fst st) -> (0 < length v)%nat ->
  N.of_nat (length v + btotal st) <= 2 ^ 24 + N.of_nat (length st) ->
  exists v', bq_serialize_loop fuel st v = Ok v' /\ (length v' + length st = length v + btotal st)%nat /\
  (Forall (fun w => w < 2 ^ 32) v -> Forall (fun w => w < 2 ^ 32) v') /\
  (forall i, (i < length v)%nat -> ~ In i (map fst st) -> nth_error v' i = nth_error v i) /\
  Forall (fun e => brepr v' (fst e) (snd e)) st.
Proof.
  induction fuel as [|fuel IH]; intros st v HT HF HN H0 HB.
  { destruct st as [|[o n] st]; cbn [bq_serialize_loop].
    - eexists. split; [reflexivity|]. cbn. repeat split; try lia; auto.
    - inversion HF as [|? ? (A & _) _]; subst. cbn [snd] in A. destruct n; try discriminate. cbn in HT. lia. }
  destruct st as [|[o n] st]; cbn [bq_serialize_loop].
  { eexists. split; [reflexivity|]. cbn. repeat split; try lia; auto. }
  inversion HF as [|? ? (A & O1 & O2) HF']; subst. cbn [fst snd] in *.
  destruct n as [| |c0 c1 c2 c3]; try discriminate. clear A.
  cbn [map fst] in HN. inversion HN as [|? ? N1 N2]; subst.
  assert (ET : btotal ((o, BNode c0 c1 c2 c3) :: st) = (S (bcount c0 + bcount c1 + bcount c2 + bcount c3) + btotal st)%nat) by reflexivity.
  rewrite ET in *. cbn [length] in HB.
  assert (Hlt : (length st <= btotal st)%nat).
  { clear - HF'. induction HF' as [|[a b] st [H _] _ IH]; [cbn; lia|]. unfold btotal. cbn [fold_right length snd] in *. fold (btotal st).
    destruct b; try discriminate. cbn [bcount]. lia. }
  destruct (Nat.eq_dec (inn c0 + inn c1 + inn c2 + inn c3) 0) as [Hno|Hsome].
  - (* no inner child: nothing is pushed, the offset is irrelevant *)
    set (b := length v).
    assert (P : forall i c fl, is_node c = false -> N.land fl kOffsetMask = 0 ->
      bq_push o i c (st, upd v o fl) = Ok (st, upd v o (N.lor fl (flag i c)))).
    { intros i c fl Hc Hfl. assert (G : vget (upd v o fl) o = Ok fl) by (unfold vget; rewrite upd_nth by assumption; now rewrite Nat.eqb_refl).
      assert (S : forall x, vset (upd v o fl) o x = Ok (upd v o x)) by (intros x; rewrite vset_upd by (rewrite upd_length; assumption); now rewrite upd_upd).
      destruct c; try discriminate; cbn [bq_push flag]; rewrite G; cbn [bind]; rewrite S; reflexivity. }
    unfold inn in Hno. destruct (is_node c0) eqn:I0; [lia|]. destruct (is_node c1) eqn:I1; [lia|]. destruct (is_node c2) eqn:I2; [lia|]. destruct (is_node c3) eqn:I3; [lia|].
    assert (EV : (st, v) = (st, upd v o 0)) by (f_equal; symmetry; now apply upd_same). rewrite EV. clear EV.
    rewrite P by (try assumption; reflexivity). cbn [bind].
    rewrite P by (try assumption; rewrite N.land_lor_distr_l, flag_mask by lia; reflexivity). cbn [bind].
    rewrite P by (try assumption; rewrite !N.land_lor_distr_l, !flag_mask by lia; reflexivity). cbn [bind].
    rewrite P by (try assumption; rewrite !N.land_lor_distr_l, !flag_mask by lia; reflexivity). cbn [bind fst snd].
    fold (bflags c0 c1 c2 c3). set (v4 := upd v o (bflags c0 c1 c2 c3)).
    assert (L4 : length v4 = length v) by (unfold v4; now apply upd_length).
    assert (C0 : forall c, is_node c = false -> bcount c = 0%nat) by (intros []; [reflexivity | reflexivity | discriminate]).
    rewrite (C0 c0), (C0 c1), (C0 c2), (C0 c3) in * by assumption.
    destruct (IH st v4) as (v' & R1 & R2 & R3 & R4 & R5); try (rewrite ?L4; assumption || lia).
    { rewrite Forall_forall in HF' |- *. intros e He. destruct (HF' e He) as (Q1 & Q2 & Q3). rewrite L4. repeat split; try assumption.
      unfold v4. rewrite upd_nth by assumption. destruct (Nat.eqb_spec (fst e) o) as [E|E]; [|assumption]. exfalso. apply N1. rewrite <- E. now apply in_map. }
    exists v'. split; [assumption|]. split; [cbn [length]; lia|].
    assert (EW : bword 1 c0 c1 c2 c3 = bflags c0 c1 c2 c3).
    { unfold bword, inn. rewrite I0, I1, I2, I3. cbn [Nat.add pz Nat.eqb]. apply N.lor_0_r. }
    split; [|split].
    + intros HW. apply R3. apply Forall_upd; [assumption|]. rewrite <- EW. apply bword_small. reflexivity.
    + intros i Hi HO. cbn [map fst In] in HO. rewrite R4 by (rewrite ?L4; intuition). unfold v4. rewrite upd_nth by assumption.
      replace (i =? o)%nat with false by lia. reflexivity.
    + constructor; [|assumption]. cbn [fst snd brepr]. exists 1%nat. split; [lia|]. split.
      * rewrite R4 by (rewrite ?L4; assumption). unfold v4. rewrite upd_nth by assumption. rewrite Nat.eqb_refl. change (N.of_nat 1) with 1. now rewrite EW.
      * destruct c0, c1, c2, c3; try discriminate; cbn [brepr]; auto.
  - assert (HK : (inn c0 + inn c1 + inn c2 + inn c3 <= bcount c0 + bcount c1 + bcount c2 + bcount c3)%nat).
    { assert (X : forall c, (inn c <= bcount c)%nat) by (intros []; cbn; lia). pose proof (X c0). pose proof (X c1). pose proof (X c2). pose proof (X c3). lia. }
    assert (Hb : 0 < N.of_nat (length v) < 2 ^ 24) by lia.
    set (b := length v) in *.
    assert (E3 : (st, v) = ([] ++ st, upd v o (N.lor 0 (pz 0 (N.of_nat b))) ++ repeat 0 0)).
    { cbn [app repeat pz Nat.eqb]. rewrite app_nil_r. f_equal. symmetry. now apply upd_same. }
    rewrite E3. clear E3.
    rewrite (bpush_step o 0 c0 st v b 0 0 []) by (assumption || reflexivity). cbn [bind]. fold (bone (b + 0) c0).
    rewrite app_nil_l.
    rewrite (bpush_step o 1 c1 st v b _ _ (bone (b + 0) c0)) by (try assumption; try reflexivity; rewrite N.land_lor_distr_l, flag_mask by lia; reflexivity). cbn [bind].
    fold (bone (b + (0 + inn c0)) c1). rewrite app_assoc.
    rewrite (bpush_step o 2 c2 st v b _ _ (bone (b + (0 + inn c0)) c1 ++ bone (b + 0) c0)) by (try assumption; try reflexivity; rewrite !N.land_lor_distr_l, !flag_mask by lia; reflexivity). cbn [bind].
    fold (bone (b + (0 + inn c0 + inn c1)) c2). rewrite app_assoc.
    rewrite (bpush_step o 3 c3 st v b _ _ (bone (b + (0 + inn c0 + inn c1)) c2 ++ bone (b + (0 + inn c0)) c1 ++ bone (b + 0) c0)) by (try assumption; try reflexivity; rewrite !N.land_lor_distr_l, !flag_mask by lia; reflexivity). cbn [bind fst snd].
    fold (bone (b + (0 + inn c0 + inn c1 + inn c2)) c3). rewrite app_assoc. fold (bflags c0 c1 c2 c3).
    set (K := bone (b + (0 + inn c0 + inn c1 + inn c2)) c3 ++ bone (b + (0 + inn c0 + inn c1)) c2 ++ bone (b + (0 + inn c0)) c1 ++ bone (b + 0) c0).
    change (0 + inn c0 + inn c1 + inn c2 + inn c3)%nat with (inn c0 + inn c1 + inn c2 + inn c3)%nat.
    fold (bword (N.of_nat b) c0 c1 c2 c3). set (P := bword (N.of_nat b) c0 c1 c2 c3).
    set (kk := (inn c0 + inn c1 + inn c2 + inn c3)%nat) in *. set (v4 := upd v o P ++ repeat 0 kk).
    assert (L4 : length v4 = (b + kk)%nat) by (unfold v4; rewrite app_length, upd_length, repeat_length by assumption; reflexivity).
    assert (G4 : forall i, (i < b)%nat -> nth_error v4 i = if (i =? o)%nat then Some P else nth_error v i).
    { intros i Hi. unfold v4. rewrite nth_error_app1 by (rewrite upd_length; assumption). now apply upd_nth. }
    assert (Z4 : forall i, (b <= i < b + kk)%nat -> nth_error v4 i = Some 0).
    { intros i Hi. unfold v4. rewrite nth_error_app2 by (rewrite upd_length by assumption; lia). rewrite upd_length by assumption. apply nth_error_repeat. unfold b in Hi. lia. }
    assert (KT : btotal K = (bcount c0 + bcount c1 + bcount c2 + bcount c3)%nat) by (unfold K; rewrite !btotal_app, !bone_total; lia).
    assert (KL : length K = kk) by (unfold K; rewrite !app_length, !bone_length; unfold kk; lia).
    assert (KIN : forall e, In e K -> is_node (snd e) = true /\ (b <= fst e < b + kk)%nat).
    { intros e He. unfold kk. unfold K in He. rewrite !in_app_iff, !bone_in in He.
      assert (X : forall c, is_node c = true -> inn c = 1%nat) by (intros []; try discriminate; reflexivity).
      decompose [and or] He; subst e; cbn [fst snd]; (split; [assumption|]); rewrite (X _ ltac:(eassumption)); lia. }
    assert (KN : NoDup (map fst (K ++ st))).
    { rewrite map_app.
      assert (KND : NoDup (map fst K)).
      { unfold K. destruct c0, c1, c2, c3; cbn [bone is_node inn app map fst]; repeat (constructor; [cbn [In]; lia|]); constructor. }
      revert KND. assert (forall x, In x (map fst K) -> (b <= x)%nat) as KGE.
      { intros x Hx. apply in_map_iff in Hx. destruct Hx as (e & <- & He). now apply KIN. }
      revert KGE. generalize (map fst K) as ks. induction ks as [|k ks IHk]; intros KGE KND; [exact N2|].
      cbn [app]. inversion KND as [|? ? D1 D2]; subst. constructor; [|apply IHk; [intros; apply KGE; now right | assumption]].
      rewrite in_app_iff. intros [|HI]; [contradiction|]. apply in_map_iff in HI. destruct HI as (e & E & He).
      rewrite Forall_forall in HF'. destruct (HF' _ He) as (_ & Q & _). specialize (KGE k ltac:(now left)). unfold b in KGE. lia. }
    assert (NO : ~ In o (map fst (K ++ st))).
    { rewrite map_app, in_app_iff. intros [HI|HI]; [|contradiction]. apply in_map_iff in HI. destruct HI as (e & E & He). apply KIN in He. unfold b in He. lia. }
    destruct (IH (K ++ st) v4) as (v' & R1 & R2 & R3 & R4 & R5).
    { rewrite btotal_app, KT. lia. }
    { rewrite Forall_forall in HF' |- *. intros e He. apply in_app_iff in He. rewrite L4. destruct He as [He|He].
      - destruct (KIN _ He) as (Q1 & Q2). repeat split; try assumption; try lia. apply Z4. lia.
      - destruct (HF' _ He) as (Q1 & Q2 & Q3). repeat split; try assumption; try (unfold b; lia).
        rewrite G4 by assumption. destruct (Nat.eqb_spec (fst e) o) as [E|E]; [|assumption]. exfalso. apply N1. rewrite <- E. now apply in_map. }
    { assumption. }
    { lia. }
    { rewrite btotal_app, app_length, KT, KL, L4. lia. }
    rewrite btotal_app, app_length, KT, KL, L4 in R2.
    exists v'. split; [assumption|]. split; [cbn [length]; fold b; lia|]. split; [|split].
    + intros HW. apply R3. unfold v4. apply Forall_app. split; [apply Forall_upd; [assumption | apply bword_small; lia]|].
      apply Forall_forall. intros x Hx. apply repeat_spec in Hx. subst. reflexivity.
    + intros i Hi HO. cbn [map fst In] in HO. rewrite R4.
      * rewrite G4 by assumption. replace (i =? o)%nat with false by lia. reflexivity.
      * rewrite L4. unfold b. lia.
      * rewrite map_app, in_app_iff. intros [HI|HI]; [|tauto]. apply in_map_iff in HI. destruct HI as (e & E & He). apply KIN in He. unfold b in He. lia.
    + rewrite Forall_app in R5. destruct R5 as [RK RS]. constructor; [|assumption]. cbn [fst snd brepr].
      exists b. split; [assumption|]. split; [rewrite R4 by (rewrite ?L4; unfold b; try assumption; lia); rewrite G4 by assumption; now rewrite Nat.eqb_refl|].
      rewrite Forall_forall in RK.
      assert (RC : forall k c, (forall e, In e (bone k c) -> In e K) -> brepr v' k c).
      { intros k c HI. destruct c as [| |a0 a1 a2 a3]; [exact I | exact I|]. apply (RK (k, BNode a0 a1 a2 a3)). apply HI. now left. }
      unfold K in RC. split; [|split; [|split]].
      * replace b with (b + 0)%nat by lia. apply RC. intros e He. rewrite !in_app_iff. tauto.
      * replace (b + inn c0)%nat with (b + (0 + inn c0))%nat by lia. apply RC. intros e He. rewrite !in_app_iff. tauto.
      * replace (b + inn c0 + inn c1)%nat with (b + (0 + inn c0 + inn c1))%nat by lia. apply RC. intros e He. rewrite !in_app_iff. tauto.
      * replace (b + inn c0 + inn c1 + inn c2)%nat with (b + (0 + inn c0 + inn c1 + inn c2))%nat by lia. apply RC. intros e He. rewrite !in_app_iff. tauto.
Qed.

(** reading a word back *)
Lemma testbit_small p n : p < 2 ^ 24 -> 24 <= n -> N.testbit p n = false.
Proof.
  intros Hp Hn. destruct (N.eq_dec p 0) as [->|]; [apply N.bits_0|]. apply N.bits_above_log2.
  apply N.log2_lt_pow2 in Hp; lia.
Qed.
Definition kid4 (c0 c1 c2 c3 : btree) (i : N) : btree := kid i (BNode c0 c1 c2 c3).
Lemma pz_small k b : b < 2 ^ 24 -> pz k b < 2 ^ 24.
Proof. unfold pz. destruct (k =? 0)%nat; lia. Qed.
Lemma bword_false b c0 c1 c2 c3 i : b < 2 ^ 24 -> i < 4 ->
  bit_set (bword b c0 c1 c2 c3) (i + kFalseOffset) = match kid4 c0 c1 c2 c3 i with BNull => true | _ => false end.
Proof.
  intros Hb Hi. unfold bit_set, bword. rewrite N.lor_spec, (testbit_small (pz _ _)) by (try apply pz_small; unfold kFalseOffset; assumption || lia).
  rewrite orb_false_r. destruct (lt4_cases i Hi) as [->|[->|[->| ->]]]; destruct c0, c1, c2, c3; reflexivity.
Qed.
Lemma bword_true b c0 c1 c2 c3 i : b < 2 ^ 24 -> i < 4 ->
  bit_set (bword b c0 c1 c2 c3) (i + kTrueOffset) = match kid4 c0 c1 c2 c3 i with BLeaf => true | _ => false end.
Proof.
  intros Hb Hi. unfold bit_set, bword. rewrite N.lor_spec, (testbit_small (pz _ _)) by (try apply pz_small; unfold kTrueOffset; assumption || lia).
  rewrite orb_false_r. destruct (lt4_cases i Hi) as [->|[->|[->| ->]]]; destruct c0, c1, c2, c3; reflexivity.
Qed.
Lemma bword_ptr b c0 c1 c2 c3 : b < 2 ^ 24 -> (0 < inn c0 + inn c1 + inn c2 + inn c3)%nat -> N.land (bword b c0 c1 c2 c3) kOffsetMask = b.
Proof.
  intros Hb Hs. unfold bword, bflags. rewrite !N.land_lor_distr_l, !flag_mask by lia. rewrite (land_mask (pz _ _)) by now apply pz_small. rewrite N.land_0_l.
  cbn [N.lor]. unfold pz. replace (_ =? 0)%nat with false by lia. reflexivity.
Qed.
Lemma bword_before b c0 c1 c2 c3 n : b < 2 ^ 24 -> (n <= 4)%nat ->
  inner_before (bword b c0 c1 c2 c3) n 0 =
  N.of_nat (match n with 0 => 0 | 1 => inn c0 | 2 => inn c0 + inn c1 | 3 => inn c0 + inn c1 + inn c2 | _ => inn c0 + inn c1 + inn c2 + inn c3 end)%nat.
Proof.
  intros Hb Hn.
  assert (X : forall i, i < 4 -> (if negb (bit_set (bword b c0 c1 c2 c3) (i + kFalseOffset)) && negb (bit_set (bword b c0 c1 c2 c3) (i + kTrueOffset)) then 1 else 0) = N.of_nat (inn (kid4 c0 c1 c2 c3 i))).
  { intros i Hi. rewrite bword_false, bword_true by assumption. destruct (kid4 c0 c1 c2 c3 i); reflexivity. }
  destruct n as [|[|[|[|[|n]]]]]; try lia; cbn [inner_before]; rewrite ?X by lia; change (0 + 1) with 1; rewrite ?X by lia;
    change (1 + 1) with 2; rewrite ?X by lia; change (2 + 1) with 3; rewrite ?X by lia; cbn [kid4 kid]; lia.
Qed.
Lemma bword_not_empty b c0 c1 c2 c3 : 0 < b < 2 ^ 24 -> bword b c0 c1 c2 c3 <> 0.
Proof.
  intros Hb H. destruct (Nat.eq_dec (inn c0 + inn c1 + inn c2 + inn c3) 0) as [E|E].
  - pose proof (bword_false b c0 c1 c2 c3 0 ltac:(lia) ltac:(lia)) as HF. pose proof (bword_true b c0 c1 c2 c3 0 ltac:(lia) ltac:(lia)) as HT.
    rewrite H in HF, HT. unfold bit_set in HF, HT. rewrite N.bits_0 in HF, HT. cbn [kid4 kid] in HF, HT. destruct c0; discriminate || (cbn in E; lia).
  - pose proof (bword_ptr b c0 c1 c2 c3 ltac:(lia) ltac:(lia)) as HP. rewrite H, N.land_0_l in HP. lia.
Qed.
Lemma bword_not_full b c0 c1 c2 c3 : 0 < b < 2 ^ 24 -> bword b c0 c1 c2 c3 <> kFullRoot.
Proof.
  intros Hb H.
  pose proof (bword_false b c0 c1 c2 c3 0 ltac:(lia) ltac:(lia)) as HF. pose proof (bword_true b c0 c1 c2 c3 0 ltac:(lia) ltac:(lia)) as HT.
  rewrite H in HF, HT. change (bit_set kFullRoot (0 + kFalseOffset)) with true in HF. change (bit_set kFullRoot (0 + kTrueOffset)) with true in HT.
  cbn [kid4 kid] in HF, HT. destruct c0; discriminate.
Qed.

(** following one child pointer *)
Lemma brepr_kid v o c0 c1 c2 c3 w i : brepr v o (BNode c0 c1 c2 c3) -> nth_error v o = Some w -> i < 4 ->
  bit_set w (i + kFalseOffset) = (match kid4 c0 c1 c2 c3 i with BNull => true | _ => false end) /\
  bit_set w (i + kTrueOffset) = (match kid4 c0 c1 c2 c3 i with BLeaf => true | _ => false end) /\
  (is_node (kid4 c0 c1 c2 c3 i) = true ->
    let o' := N.to_nat (N.land w kOffsetMask + inner_before w (N.to_nat i) 0) in
    brepr v o' (kid4 c0 c1 c2 c3 i) /\ exists w', nth_error v o' = Some w').
Proof.
  cbn [brepr]. intros (b & Hb & HW & R0 & R1 & R2 & R3) Hw Hi. rewrite HW in Hw. injection Hw as <-.
  split; [apply bword_false; [lia | assumption]|]. split; [apply bword_true; [lia | assumption]|].
  intros Hn. cbv zeta.
  assert (Hs : (0 < inn c0 + inn c1 + inn c2 + inn c3)%nat).
  { destruct (lt4_cases i Hi) as [->|[->|[->| ->]]]; cbn [kid4 kid] in Hn; unfold inn; rewrite Hn; lia. }
  rewrite bword_ptr by (assumption || lia). rewrite bword_before by lia.
  assert (X : forall k c, brepr v k c -> is_node c = true -> brepr v k c /\ exists w', nth_error v k = Some w').
  { intros k c HR Hc. split; [assumption|]. destruct c; try discriminate. cbn [brepr] in HR. destruct HR as (b' & _ & HW' & _). eauto. }
  destruct (lt4_cases i Hi) as [->|[->|[->| ->]]]; cbn [kid4 kid] in *; apply X; try assumption.
  - match goal with |- brepr _ ?k _ => replace k with b by (change (N.to_nat 0) with 0%nat; cbv iota; lia) end. assumption.
  - match goal with |- brepr _ ?k _ => replace k with (b + inn c0)%nat by (change (N.to_nat 0) with 0%nat; change (N.to_nat 1) with 1%nat; cbv iota; lia) end. assumption.
  - match goal with |- brepr _ ?k _ => replace k with (b + inn c0 + inn c1)%nat by (change (N.to_nat 0) with 0%nat; change (N.to_nat 2) with 2%nat; cbv iota; lia) end. assumption.
  - match goal with |- brepr _ ?k _ => replace k with (b + inn c0 + inn c1 + inn c2)%nat by (change (N.to_nat 0) with 0%nat; change (N.to_nat 3) with 3%nat; cbv iota; lia) end. assumption.
Qed.
