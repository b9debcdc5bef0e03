(** Defragmenting the pack file. *)
From Coq Require Import Permutation Sorted.
From Verif Require Import Base BaseProof ModelTile ModelPackFile SpecPackFile ProofPackFile ModelRepack.
Open Scope N_scope.

Lemma sub64_ok a b : b <= a -> a < 2 ^ 64 -> sub64 a b = a - b.
Proof.
  intros H1 H2. unfold sub64. replace (a + 2 ^ 64 - b) with (a - b + 1 * 2 ^ 64) by lia.
  rewrite N.mod_add by lia. apply N.mod_small. lia.
Qed.

(** ** lists *)
Lemma ssort_app {A} (R : A -> A -> Prop) a b :
  StronglySorted R (a ++ b) <-> StronglySorted R a /\ StronglySorted R b /\ (forall x y, In x a -> In y b -> R x y).
Proof.
  induction a as [|h a IH]; cbn [app].
  - split; [intros H; repeat split; [constructor|exact H|intros ? ? []]|tauto].
  - split.
    + intros H. inversion H as [|? ? H1 H2]. subst. apply IH in H1 as (H1 & H3 & H4). rewrite Forall_app in H2. destruct H2 as [H2 H5].
      repeat split; [constructor; assumption|assumption|]. intros x y [->|Hx] Hy; [|auto]. rewrite Forall_forall in H5. auto.
    + intros (H1 & H2 & H3). inversion H1 as [|? ? H4 H5]. subst. constructor.
      * apply IH. repeat split; auto. intros x y Hx Hy. apply H3; [right; exact Hx|exact Hy].
      * rewrite Forall_app. split; [exact H5|]. rewrite Forall_forall. intros y Hy. apply H3; [left; reflexivity|exact Hy].
Qed.
Lemma ssort_ext {A} (R R' : A -> A -> Prop) l : (forall x y, In x l -> In y l -> R x y -> R' x y) -> StronglySorted R l -> StronglySorted R' l.
Proof.
  intros HE. induction 1 as [|x l H1 IH H2]; constructor.
  - apply IH. intros; apply HE; auto; right; auto.
  - rewrite Forall_forall in *. intros y Hy. apply HE; [left; reflexivity|right; exact Hy|auto].
Qed.
Lemma ssort_filter {A} (R : A -> A -> Prop) f l : StronglySorted R l -> StronglySorted R (filter f l).
Proof.
  induction 1 as [|x l H1 IH H2]; [constructor|]. cbn [filter]. destruct (f x); [|exact IH]. constructor; [exact IH|].
  rewrite Forall_forall in *. intros y Hy. apply filter_In in Hy. apply H2, Hy.
Qed.
Lemma snoc_last {A} (l : list A) d : l <> [] -> l = removelast l ++ [last l d].
Proof. apply app_removelast_last. Qed.
Lemma last_app_cons {A} (a : list A) x b d : last (a ++ x :: b) d = last (x :: b) d.
Proof. induction a as [|y a IH]; [reflexivity|]. cbn [app]. rewrite <- IH. destruct a; reflexivity. Qed.
Lemma removelast_app_cons {A} (a : list A) x b : removelast (a ++ x :: b) = a ++ removelast (x :: b).
Proof. apply removelast_app. discriminate. Qed.
Lemma skipn_split {A} (l : list A) i : (i < length l)%nat -> exists a x b, l = a ++ x :: b /\ length a = i /\ skipn i l = x :: b.
Proof.
  intros H. destruct (nth_error l i) as [x|] eqn:E; [|apply nth_error_None in E; lia]. apply nth_error_split in E as (a & b & E1 & E2).
  exists a, x, b. split; [exact E1|]. split; [exact E2|]. rewrite E1, <- E2, skipn_app, skipn_all, Nat.sub_diag. reflexivity.
Qed.

Definition live (k : nat) (l : list nat) : list nat := filter (fun i => (k <=? i)%nat) l.
Lemma live_app k a b : live k (a ++ b) = live k a ++ live k b.
Proof. apply filter_app. Qed.
Lemma live_In k l i : In i (live k l) <-> In i l /\ (k <= i)%nat.
Proof. unfold live. rewrite filter_In, Nat.leb_le. tauto. Qed.
Lemma live_dead k x l : (x < k)%nat -> live k (x :: l) = live k l.
Proof. intros H. unfold live. cbn [filter]. replace (k <=? x)%nat with false by lia. reflexivity. Qed.
Lemma live_cons k x l : (k <= x)%nat -> live k (x :: l) = x :: live k l.
Proof. intros H. unfold live. cbn [filter]. replace (k <=? x)%nat with true by lia. reflexivity. Qed.

Section Defrag.
Variable n : nat.
Variable sz : nat -> N.
Variable cont : nat -> bytes.
Variable S0 : N.
Fixpoint sumto (k : nat) : N := match k with O => 0 | S k' => sumto k' + sz k' end.
Hypothesis small : S0 < 2 ^ 64.
Hypothesis room : forall i, (i < n)%nat -> sz i + sumto n < S0.

Record core (pf : pfile) (rs : list pack_record) : Prop := {
  k_len : length rs = n;
  k_size : forall i, (i < n)%nat -> r_size (nth i rs no_rec) = sz i;
  k_end : forall i, (i < n)%nat -> end_of (nth i rs no_rec) <= S0;
  k_cont : forall i, (i < n)%nat -> slice (pf_mem pf) (r_off (nth i rs no_rec)) (sz i) = cont i;
  k_inv : pf_inv pf;
  k_fsize : pf_size pf = S0 }.

Definition rest (s : dfs) : list nat := skipn (d_idx s) (d_frag s).
Definition queue (s : dfs) : list nat := d_defrag s ++ rest s.
Definition before (s : dfs) (i j : nat) : Prop := end_of (rec_at s i) <= r_off (rec_at s j).

Record dinv (k : nat) (s : dfs) : Prop := {
  v_core : core (d_pf s) (d_recs s);
  v_k : (k <= n)%nat;
  v_end : d_end s + sumto k = S0;
  v_live : forall i, In i (live k (queue s)) <-> (k <= i < n)%nat;
  v_nodup : NoDup (queue s);
  v_lt : forall i, In i (queue s) -> (i < n)%nat;
  v_sort : StronglySorted (before s) (live k (queue s));
  v_bound : forall i, (k <= i < n)%nat -> end_of (rec_at s i) <= d_end s;
  v_done : forall i, (i < k)%nat -> r_off (rec_at s i) + sumto (S i) = S0 }.

Definition fresh (k : nat) (s : dfs) : Prop :=
  (exists x b, rest s = x :: b /\ (k <= x)%nat /\ (k <= last (x :: b) O)%nat) /\
  (d_defrag s = [] \/ (k <= last (d_defrag s) O)%nat).
Definition same (s s' : dfs) : Prop := d_pf s' = d_pf s /\ d_recs s' = d_recs s /\ d_end s' = d_end s.
Definition mu (k : nat) (s : dfs) : nat :=
  (length (rest s) + match d_last s with Some l => if (l =? k)%nat then 0 else n + 1 | None => n + 1 end)%nat.
Definition rho (s : dfs) : nat := (length (rest s) + 3 * length (d_defrag s) + (if is_nil (d_frag s) then 0 else 1))%nat.

Lemma queue_len k s : dinv k s -> (length (queue s) <= n)%nat.
Proof.
  intros D. rewrite <- (seq_length n 0). apply NoDup_incl_length; [apply (v_nodup k s D)|]. intros i Hi. apply in_seq. pose proof (v_lt k s D i Hi). lia.
Qed.
Lemma rho_le k s : dinv k s -> (rho s <= 3 * n + 1)%nat.
Proof. intros D. pose proof (queue_len k s D) as H. unfold queue in H. rewrite app_length in H. unfold rho. destruct (is_nil (d_frag s)); lia. Qed.

(** removing finished positions from the queue changes nothing *)
Lemma dinv_same k s s' : dinv k s -> same s s' -> live k (queue s') = live k (queue s) -> NoDup (queue s') ->
  (forall i, In i (queue s') -> In i (queue s)) -> dinv k s'.
Proof.
  intros [V1 V2 V3 V4 V5 V6 V7 V8 V9] (E1 & E2 & E3) EL HN HI. unfold before, rec_at in *.
  split; unfold before, rec_at; rewrite ?E1, ?E2, ?E3, ?EL; auto.
Qed.

Lemma nth_mid {A} (a : list A) x b d : nth (length a) (a ++ x :: b) d = x.
Proof. rewrite app_nth2 by lia. rewrite Nat.sub_diag. reflexivity. Qed.
Lemma last_In {A} (l : list A) d : l <> [] -> In (last l d) l.
Proof. intros H. rewrite (snoc_last l d H) at 2. apply in_elt. Qed.
Lemma live_removelast k l : l <> [] -> (last l O < k)%nat -> live k (removelast l) = live k l.
Proof. intros H1 H2. rewrite (snoc_last l O H1) at 2. rewrite live_app, live_dead by exact H2. apply eq_sym, app_nil_r. Qed.
Lemma removelast_In {A} (l : list A) x : In x (removelast l) -> In x l.
Proof. destruct l as [|y l]; [auto|]. intros H. rewrite (snoc_last (y :: l) y) by discriminate. apply in_app_iff. left. exact H. Qed.
Lemma removelast_len {A} (l : list A) : length (removelast l) = (length l - 1)%nat.
Proof. destruct l as [|x l]; [reflexivity|]. rewrite (snoc_last (x :: l) x) at 2 by discriminate. rewrite app_length. cbn [length]. lia. Qed.
Lemma NoDup_removelast {A} (a b : list A) : NoDup (a ++ b) -> NoDup (a ++ removelast b).
Proof.
  destruct b as [|x b]; [auto|]. rewrite (snoc_last (x :: b) x) at 1 by discriminate. rewrite app_assoc. intros H. apply NoDup_remove in H as [H _].
  now rewrite app_nil_r in H.
Qed.

Lemma refresh_spec k fuel : forall s, dinv k s -> (k < n)%nat -> (rho s < fuel)%nat ->
  refresh fuel k s = Throw \/
  exists s', refresh fuel k s = Ok s' /\ dinv k s' /\ fresh k s' /\ same s s' /\ (mu k s' <= mu k s)%nat.
Proof.
  induction fuel as [|f IH]; intros s D Hk Hr; [lia|]. destruct s as [pf rs e fr ix df la]. cbn [refresh].
  assert (Hlive : In k (live k (queue (Dfs pf rs e fr ix df la)))) by (apply (v_live k _ D); lia).
  destruct (is_nil fr && is_nil df) eqn:Enil.
  { exfalso. apply andb_true_iff in Enil as [E1 E2]. destruct fr; [|discriminate]. destruct df; [|discriminate].
    unfold queue, rest in Hlive. cbn [d_frag d_idx d_defrag] in Hlive. rewrite skipn_nil in Hlive. exact Hlive. }
  destruct (Nat.leb_spec (length fr) ix) as [Hle|Hlt].
  - (* swap *)
    assert (Er : rest (Dfs pf rs e fr ix df la) = []) by (unfold rest; cbn [d_frag d_idx]; apply skipn_all2; lia).
    destruct (match la with Some l => (l =? k)%nat | None => false end) eqn:El; cbn [negb verify bind]; [left; reflexivity|].
    assert (Eq : queue (Dfs pf rs e df 0 [] (Some k)) = queue (Dfs pf rs e fr ix df la)).
    { unfold queue. rewrite Er, app_nil_r. reflexivity. }
    assert (D' : dinv k (Dfs pf rs e df 0 [] (Some k))).
    { eapply dinv_same; [exact D|split; [reflexivity|split; reflexivity]|rewrite Eq; reflexivity|rewrite Eq; apply (v_nodup k _ D)|rewrite Eq; auto]. }
    assert (Hdf : df <> []). { intros ->. unfold queue in Hlive. rewrite Er in Hlive. exact Hlive. }
    assert (Hd1 : (1 <= length df)%nat) by (destruct df; [contradiction|cbn [length]; lia]).
    destruct (IH _ D' Hk) as [H|(s' & H1 & H2 & H3 & H4 & H5)].
    { unfold rho in *. rewrite Er in Hr. unfold rest. cbn [d_frag d_idx d_defrag skipn length] in *. destruct df; [contradiction|]. cbn [is_nil length] in *.
      destruct (is_nil fr); lia. }
    + left. exact H.
    + right. exists s'. split; [exact H1|]. split; [exact H2|]. split; [exact H3|]. split; [exact H4|]. etransitivity; [exact H5|]. unfold mu. rewrite Er. unfold rest. cbn [d_frag d_idx d_last skipn length].
      rewrite Nat.eqb_refl. pose proof (queue_len k _ D') as Hq. unfold queue, rest in Hq. cbn [d_defrag d_idx d_frag skipn app] in Hq.
      destruct la as [l|]; [rewrite El|]; lia.
  - destruct (skipn_split fr ix Hlt) as (a & x & b & Ea & Hla & Es). subst fr ix.
    rewrite nth_mid. rewrite last_app_cons.
    assert (Er : forall pf rs e df la, rest (Dfs pf rs e (a ++ x :: b) (length a) df la) = x :: b) by (intros; exact Es).
    destruct (Nat.ltb_spec x k) as [Hx|Hx].
    { (* front finished *)
      set (s1 := Dfs pf rs e (a ++ x :: b) (S (length a)) df la).
      assert (Er1 : rest s1 = b). { unfold rest, s1. cbn [d_frag d_idx]. rewrite skipn_app. rewrite skipn_all2 by lia. replace (S (length a) - length a)%nat with 1%nat by lia. reflexivity. }
      assert (D' : dinv k s1).
      { eapply dinv_same; [exact D|split; [reflexivity|split; reflexivity]|..].
        - unfold queue. rewrite Er, Er1. cbn [d_defrag s1]. rewrite !live_app. f_equal. now rewrite live_dead.
        - pose proof (v_nodup k _ D) as N. unfold queue in *. rewrite Er in N. rewrite Er1. cbn [d_defrag s1] in *. apply NoDup_remove in N. apply N.
        - unfold queue. rewrite Er, Er1. cbn [d_defrag s1]. intros i. rewrite !in_app_iff. cbn [In]. tauto. }
      destruct (IH _ D' Hk) as [H|(s' & H1 & H2 & H3 & H4 & H5)].
      { unfold rho in *. rewrite Er in Hr. rewrite Er1. cbn [d_defrag d_frag s1 length] in *. lia. }
      - left. exact H.
      - right. exists s'. split; [exact H1|]. split; [exact H2|]. split; [exact H3|]. split; [exact H4|]. etransitivity; [exact H5|]. unfold mu. rewrite Er, Er1. cbn [d_last s1 length]. lia. }
    destruct (Nat.ltb_spec (last (x :: b) O) k) as [Hy|Hy].
    { (* back finished *)
      rewrite removelast_app_cons.
      set (s1 := Dfs pf rs e (a ++ removelast (x :: b)) (length a) df la).
      assert (Er1 : rest s1 = removelast (x :: b)).
      { unfold rest, s1. cbn [d_frag d_idx]. rewrite skipn_app, skipn_all, Nat.sub_diag. reflexivity. }
      assert (D' : dinv k s1).
      { eapply dinv_same; [exact D|split; [reflexivity|split; reflexivity]|..].
        - unfold queue. rewrite Er, Er1. cbn [d_defrag s1]. rewrite !live_app. f_equal. apply live_removelast; [discriminate|exact Hy].
        - pose proof (v_nodup k _ D) as N. unfold queue in *. rewrite Er in N. rewrite Er1. cbn [d_defrag s1] in *. now apply NoDup_removelast.
        - unfold queue. rewrite Er, Er1. cbn [d_defrag s1]. intros i. rewrite !in_app_iff. intros [H|H]; [auto|]. right. now apply removelast_In. }
      destruct (IH _ D' Hk) as [H|(s' & H1 & H2 & H3 & H4 & H5)].
      { unfold rho in *. rewrite Er in Hr. rewrite Er1. rewrite removelast_len. cbn [d_defrag d_frag s1 length] in *.
        replace (is_nil (a ++ x :: b)) with false in Hr by (destruct a; reflexivity).
        destruct (is_nil (a ++ removelast (x :: b))); lia. }
      - left. exact H.
      - right. exists s'. split; [exact H1|]. split; [exact H2|]. split; [exact H3|]. split; [exact H4|]. etransitivity; [exact H5|]. unfold mu. rewrite Er, Er1, removelast_len. cbn [d_last s1 length]. lia. }
    destruct (negb (is_nil df) && (last df O <? k)%nat) eqn:Edf.
    { (* back of the moved ones finished *)
      apply andb_true_iff in Edf as [Ed1 Ed2]. apply Nat.ltb_lt in Ed2. assert (Hdf : df <> []) by (destruct df; [discriminate|discriminate]).
      set (s1 := Dfs pf rs e (a ++ x :: b) (length a) (removelast df) la).
      assert (Er1 : rest s1 = x :: b) by apply Er.
      assert (D' : dinv k s1).
      { eapply dinv_same; [exact D|split; [reflexivity|split; reflexivity]|..].
        - unfold queue. rewrite Er, Er1. cbn [d_defrag s1]. rewrite !live_app. f_equal. now apply live_removelast.
        - pose proof (v_nodup k _ D) as N. unfold queue in *. rewrite Er in N. rewrite Er1. cbn [d_defrag s1] in *.
          apply (Permutation_NoDup (Permutation_app_comm (x :: b) (removelast df))). apply NoDup_removelast.
          exact (Permutation_NoDup (Permutation_app_comm df (x :: b)) N).
        - unfold queue. rewrite Er, Er1. cbn [d_defrag s1]. intros i. rewrite !in_app_iff. intros [H|H]; [|auto]. left. now apply removelast_In. }
      destruct (IH _ D' Hk) as [H|(s' & H1 & H2 & H3 & H4 & H5)].
      { unfold rho in *. rewrite Er in Hr. rewrite Er1. cbn [d_defrag d_frag s1] in *. rewrite removelast_len. destruct df; [contradiction|]. cbn [length] in *. lia. }
      - left. exact H.
      - right. exists s'. split; [exact H1|]. split; [exact H2|]. split; [exact H3|]. split; [exact H4|]. exact H5. }
    right. eexists. split; [reflexivity|]. split; [exact D|]. split; [|split; [split; [reflexivity|split; reflexivity]|lia]].
    split. + exists x, b. split; [apply Er|]. split; assumption.
    + cbn [d_defrag]. destruct df as [|y df]; [left; reflexivity|right]. cbn [is_nil negb andb] in Edf. apply Nat.ltb_ge in Edf. exact Edf.
Qed.

(** ** moving a record *)
Lemma set_rec_nth rs i r j : (i < length rs)%nat -> nth j (set_rec rs i r) no_rec = if (j =? i)%nat then r else nth j rs no_rec.
Proof.
  intros H. destruct (skipn_split rs i H) as (a & x & b & E & Hl & _). unfold set_rec.
  assert (E1 : firstn i rs = a) by (rewrite E, firstn_app, <- Hl, firstn_all, Nat.sub_diag, firstn_O; apply app_nil_r).
  assert (E2 : skipn (S i) rs = b).
  { rewrite E, skipn_app. rewrite skipn_all2 by lia. replace (S i - length a)%nat with 1%nat by lia. reflexivity. }
  rewrite E1, E2, E. destruct (Nat.eqb_spec j i) as [->|Hj]; [rewrite <- Hl; apply nth_mid|].
  destruct (Nat.lt_ge_cases j i) as [Hlt|Hge]; [rewrite !app_nth1 by lia; reflexivity|]. rewrite !app_nth2 by lia.
  replace (j - length a)%nat with (S (j - length a - 1)) by lia. reflexivity.
Qed.
Lemma set_rec_len rs i r : (i < length rs)%nat -> length (set_rec rs i r) = length rs.
Proof. intros H. unfold set_rec. rewrite app_length. cbn [length]. rewrite firstn_length, skipn_length. lia. Qed.

Lemma move_core s i off : core (d_pf s) (d_recs s) -> (i < n)%nat -> off + sz i <= S0 ->
  (forall j, (j < n)%nat -> j <> i -> disjoint off (sz i) (r_off (rec_at s j)) (sz j)) ->
  exists pf, move_rec s off i = Ok (Dfs pf (set_rec (d_recs s) i (Rec off (sz i))) (d_end s) (d_frag s) (d_idx s) (d_defrag s) (d_last s)) /\
    core pf (set_rec (d_recs s) i (Rec off (sz i))).
Proof.
  intros [K1 K2 K3 K4 K5 K6] Hi Ho HD. unfold move_rec. unfold rec_at in *.
  destruct (move_spec (d_pf s) off (nth i (d_recs s) no_rec) K5) as (pf & Hm & M1 & M2 & M3 & M4 & M5).
  { rewrite K6. apply K3. exact Hi. }
  rewrite Hm. cbn [bind]. rewrite K2 in * by exact Hi. exists pf. split; [reflexivity|].
  assert (Hl : (i < length (d_recs s))%nat) by lia.
  split.
  - rewrite set_rec_len; assumption.
  - intros j Hj. rewrite set_rec_nth by assumption. destruct (Nat.eqb_spec j i) as [->|]; [reflexivity|]. now apply K2.
  - intros j Hj. rewrite set_rec_nth by assumption. destruct (Nat.eqb_spec j i) as [->|]; [exact Ho|]. now apply K3.
  - intros j Hj. rewrite set_rec_nth by assumption. destruct (Nat.eqb_spec j i) as [->|Hn].
    + cbn [r_off]. rewrite M3. now apply K4.
    + rewrite M4; [now apply K4| |now apply HD]. specialize (K3 j Hj). unfold end_of in K3. rewrite K2 in K3 by exact Hj. unfold pf_inv in K5. lia.
  - exact M1.
  - rewrite M2, K6. lia.
Qed.

(** ** what a refreshed state looks like *)
Record ffacts (k : nat) (s : dfs) (x : nat) (b : list nat) : Prop := {
  h_rest : rest s = x :: b;
  h_nil : is_nil (d_frag s) = false;
  h_next : nth_error (d_frag s) (d_idx s) = Some x;
  h_last : last (d_frag s) O = last (x :: b) O;
  h_split : exists a, d_frag s = a ++ x :: b /\ length a = d_idx s;
  h_x : (k <= x < n)%nat;
  h_y : (k <= last (x :: b) O < n)%nat;
  h_ins : insert_at s <= r_off (rec_at s x);
  h_front : forall i, In i (live k (d_defrag s)) -> end_of (rec_at s i) <= insert_at s;
  h_off : forall i, In i (live k (x :: b)) -> r_off (rec_at s x) <= r_off (rec_at s i);
  h_end : forall i, (k <= i < n)%nat -> end_of (rec_at s i) <= end_of (rec_at s (last (x :: b) O)) }.

Lemma fresh_facts k s : dinv k s -> fresh k s -> exists x b, ffacts k s x b.
Proof.
  intros [V1 V2 V3 V4 V5 V6 V7 V8 V9] [(x & b & Er & Hx & Hy) Hd]. exists x, b.
  assert (Hlt : (d_idx s < length (d_frag s))%nat).
  { destruct (Nat.lt_ge_cases (d_idx s) (length (d_frag s))) as [H|H]; [exact H|]. unfold rest in Er. rewrite skipn_all2 in Er by exact H. discriminate. }
  destruct (skipn_split _ _ Hlt) as (a & x' & b' & Ea & Hla & Es). unfold rest in Er. rewrite Er in Es. injection Es as <- <-.
  assert (Q : queue s = d_defrag s ++ x :: b) by (unfold queue, rest; now rewrite Er).
  rewrite Q in *. rewrite live_app in V4, V7. apply ssort_app in V7 as (W1 & W2 & W3).
  assert (Lx : In x (live k (x :: b))) by (apply live_In; split; [left; reflexivity|exact Hx]).
  assert (Ly : In (last (x :: b) O) (live k (x :: b))) by (apply live_In; split; [apply last_In; discriminate|exact Hy]).
  assert (Hxn : (k <= x < n)%nat) by (apply V4, in_app_iff; auto).
  assert (Hyn : (k <= last (x :: b) O < n)%nat) by (apply V4, in_app_iff; auto).
  split; auto.
  - destruct (d_frag s); [cbn [length] in Hlt; lia|reflexivity].
  - rewrite Ea, <- Hla. rewrite nth_error_app2 by lia. rewrite Nat.sub_diag. reflexivity.
  - rewrite Ea. apply last_app_cons.
  - exists a. split; assumption.
  - unfold insert_at. destruct (d_defrag s) as [|z df] eqn:E; [lia|]. rewrite <- E in *.
    assert (Hne : d_defrag s <> []) by (rewrite E; discriminate). destruct Hd as [Hd|Hd]; [contradiction|].
    apply W3; [|exact Lx]. apply live_In. split; [now apply last_In|exact Hd].
  - intros i Hi. unfold insert_at. destruct (d_defrag s) as [|z df] eqn:E; [destruct Hi|]. rewrite <- E in *.
    assert (Hne : d_defrag s <> []) by (rewrite E; discriminate). destruct Hd as [Hd|Hd]; [contradiction|].
    rewrite (snoc_last (d_defrag s) O Hne) in W1, Hi. rewrite live_app in W1, Hi. apply ssort_app in W1 as (_ & _ & W).
    rewrite (live_cons k _ []) in W, Hi by exact Hd. cbn [live filter] in W, Hi. apply in_app_iff in Hi as [Hi|[<-|[]]]; [|lia].
    specialize (W i (last (d_defrag s) O) Hi (or_introl eq_refl)). unfold before in W. unfold end_of in *. lia.
  - intros i Hi. rewrite live_cons in W2, Hi by exact Hx. destruct Hi as [<-|Hi]; [lia|]. inversion W2 as [|? ? _ F]. subst.
    pose proof (proj1 (Forall_forall _ _) F i Hi) as B. unfold before in B. unfold end_of in B. lia.
  - intros i Hi. apply V4 in Hi. apply in_app_iff in Hi as [Hi|Hi].
    + specialize (W3 i (last (x :: b) O) Hi Ly). unfold before in W3. unfold end_of in *. lia.
    + rewrite (snoc_last (x :: b) O) in W2, Hi by discriminate. rewrite live_app in W2, Hi. apply ssort_app in W2 as (_ & _ & W).
      rewrite (live_cons k _ []) in W, Hi by exact Hy. cbn [live filter] in W, Hi. apply in_app_iff in Hi as [Hi|[<-|[]]]; [|lia].
      specialize (W i (last (x :: b) O) Hi (or_introl eq_refl)). unfold before in W. unfold end_of in *. lia.
Qed.

Lemma begin_ok k s x b : ffacts k s x b -> begin_space s = Ok (r_off (rec_at s x) - insert_at s).
Proof.
  intros [H1 H2 H3 H4 H5 H6 H7 H8 H9 H10 H11]. unfold begin_space, next_frag. rewrite H2, H3. cbn [negb verify bind andb].
  destruct (d_defrag s) as [|z df] eqn:E; cbn [is_nil].
  - unfold insert_at. rewrite E. f_equal. lia.
  - replace (insert_at s <=? r_off (rec_at s x)) with true by lia. reflexivity.
Qed.
Lemma last_ok k s x b : ffacts k s x b -> last_frag s = Ok (last (x :: b) O).
Proof. intros [H1 H2 H3 H4 H5 H6 H7 H8 H9 H10 H11]. unfold last_frag. rewrite H2, H4. reflexivity. Qed.
Lemma next_ok k s x b : ffacts k s x b -> next_frag s = Ok x.
Proof. intros [H1 H2 H3 H4 H5 H6 H7 H8 H9 H10 H11]. unfold next_frag. rewrite H2, H3. reflexivity. Qed.

Lemma sumto_le i j : (i <= j)%nat -> sumto i <= sumto j.
Proof. induction 1; [lia|]. cbn [sumto]. lia. Qed.
Lemma done_behind k s j : dinv k s -> (j < k)%nat -> d_end s <= r_off (rec_at s j).
Proof. intros D Hj. pose proof (v_done k s D j Hj) as E. pose proof (v_end k s D) as E2. pose proof (sumto_le (S j) k ltac:(lia)). lia. Qed.
Lemma rec_end k s i : dinv k s -> (i < n)%nat -> end_of (rec_at s i) = r_off (rec_at s i) + sz i.
Proof. intros D Hi. unfold end_of. unfold rec_at. rewrite (k_size _ _ (v_core k s D) i Hi). reflexivity. Qed.

(** moving a live record into a free place at the front *)
Lemma front_move k s x b i l' la' fr' ix' off :
  dinv k s -> ffacts k s x b -> off = insert_at s -> (k <= i < n)%nat ->
  (forall j, In j (live k (x :: b)) -> j <> i -> off + sz i <= r_off (rec_at s j)) -> off + sz i <= d_end s ->
  In i (x :: b) -> skipn ix' fr' = l' -> Permutation (i :: l') (x :: b) -> (forall j, In j l' -> In j (x :: b)) ->
  StronglySorted (before s) (live k l') ->
  exists pf rs, move_rec (Dfs (d_pf s) (d_recs s) (d_end s) fr' ix' (d_defrag s) la') off i = Ok (Dfs pf rs (d_end s) fr' ix' (d_defrag s) la') /\
    dinv k (Dfs pf rs (d_end s) fr' ix' (d_defrag s ++ [i]) la').
Proof.
  intros D F Eo Hi HF HE HIn Hl HP HL HS.
  assert (NQ : NoDup (d_defrag s ++ i :: l')).
  { pose proof (v_nodup k s D) as N. unfold queue in N. rewrite (h_rest k s x b F) in N. eapply Permutation_NoDup; [|exact N].
    apply Permutation_app_head. symmetry. exact HP. }
  assert (LQ : forall j, (k <= j < n)%nat -> In j (live k (d_defrag s)) \/ In j (live k (x :: b))).
  { intros j Hj. apply (v_live k s D) in Hj. unfold queue in Hj. rewrite (h_rest k s x b F), live_app in Hj. now apply in_app_iff. }
  set (s1 := Dfs (d_pf s) (d_recs s) (d_end s) fr' ix' (d_defrag s) la').
  destruct (move_core s1 i off) as (pf & Hm & C).
  { apply (v_core k s D). } { lia. } { pose proof (v_end k s D). lia. }
  { intros j Hj Hn. unfold s1, rec_at. cbn [d_recs]. fold (rec_at s j). unfold disjoint.
    destruct (Nat.lt_ge_cases j k) as [Hk|Hk]. - left. pose proof (done_behind k s j D Hk). lia.
    - destruct (LQ j ltac:(lia)) as [H|H].
      + right. pose proof (h_front k s x b F j H) as B. rewrite (rec_end k s j D Hj) in B. lia.
      + left. apply HF; assumption. }
  exists pf, (set_rec (d_recs s) i (Rec off (sz i))). split; [exact Hm|].
  assert (Hlen : (i < length (d_recs s))%nat) by (rewrite (k_len _ _ (v_core k s D)); lia).
  set (s2 := Dfs pf (set_rec (d_recs s) i (Rec off (sz i))) (d_end s) fr' ix' (d_defrag s ++ [i]) la').
  assert (RA : forall j, rec_at s2 j = if (j =? i)%nat then Rec off (sz i) else rec_at s j).
  { intros j. unfold rec_at, s2. cbn [d_recs]. now apply set_rec_nth. }
  assert (RO : forall j, j <> i -> rec_at s2 j = rec_at s j). { intros j Hj. rewrite RA. replace (j =? i)%nat with false by lia. reflexivity. }
  assert (RI : rec_at s2 i = Rec off (sz i)). { rewrite RA, Nat.eqb_refl. reflexivity. }
  assert (Q2 : queue s2 = d_defrag s ++ i :: l').
  { unfold queue, rest, s2. cbn [d_defrag d_idx d_frag]. rewrite Hl, <- app_assoc. reflexivity. }
  assert (PQ : Permutation (queue s2) (queue s)).
  { rewrite Q2. unfold queue. rewrite (h_rest k s x b F). now apply Permutation_app_head. }
  split.
  - exact C.
  - apply (v_k k s D).
  - apply (v_end k s D).
  - intros j. rewrite <- (v_live k s D). rewrite !live_In. split; intros [H1 H2]; (split; [|exact H2]); [eapply Permutation_in; [exact PQ|exact H1]|].
    eapply Permutation_in; [symmetry; exact PQ|exact H1].
  - rewrite Q2. exact NQ.
  - intros j Hj. apply (v_lt k s D). eapply Permutation_in; [exact PQ|exact Hj].
  - rewrite Q2, live_app, live_cons by lia.
    assert (Ni : forall j, In j (live k (d_defrag s)) -> j <> i).
    { intros j Hj ->. apply live_In in Hj as [Hj _]. apply NoDup_remove in NQ as [_ NQ]. apply NQ, in_app_iff. auto. }
    assert (Nl : forall j, In j (live k l') -> j <> i).
    { intros j Hj ->. apply live_In in Hj as [Hj _]. apply NoDup_remove in NQ as [_ NQ]. apply NQ, in_app_iff. auto. }
    assert (Ll : forall j, In j (live k l') -> In j (live k (x :: b))).
    { intros j Hj. apply live_In in Hj as [H1 H2]. apply live_In. auto. }
    apply ssort_app. split; [|split].
    + pose proof (v_sort k s D) as W. unfold queue in W. rewrite live_app in W. apply ssort_app in W as (W & _ & _).
      eapply ssort_ext; [|exact W]. intros a c Ha Hc B. unfold before in *. rewrite !RO by auto. exact B.
    + constructor.
      * eapply ssort_ext; [|exact HS]. intros a c Ha Hc B. unfold before in *. rewrite !RO by auto. exact B.
      * apply Forall_forall. intros j Hj. unfold before. rewrite RI, RO by auto. cbn [end_of r_off r_size]. unfold end_of. cbn [r_off r_size]. apply HF; auto.
    + intros a c Ha [<-|Hc]; unfold before.
      * rewrite RI, RO by auto. cbn [r_off]. rewrite Eo. apply (h_front k s x b F a Ha).
      * rewrite !RO by auto. pose proof (v_sort k s D) as W. unfold queue in W. rewrite (h_rest k s x b F), live_app in W.
        apply ssort_app in W as (_ & _ & W). apply (W a c Ha). auto.
  - intros j Hj. rewrite RA. destruct (Nat.eqb_spec j i) as [->|]; [unfold end_of; cbn [r_off r_size d_end s2]; exact HE|]. apply (v_bound k s D j Hj).
  - intros j Hj. rewrite RO by lia. apply (v_done k s D j Hj).
Qed.

Definition spacious (k : nat) (s : dfs) : Prop := exists x b, ffacts k s x b /\ insert_at s + sz (last (x :: b) O) <= r_off (rec_at s x).

Lemma compact_spec k fuel : forall s, dinv k s -> (k < n)%nat -> (mu k s + 3 * n + 2 < fuel)%nat ->
  compact fuel k s = Throw \/
  exists s', compact fuel k s = Ok s' /\ dinv k s' /\ spacious k s' /\ d_end s' = d_end s /\ (mu k s' <= mu k s)%nat.
Proof.
  induction fuel as [|f IH]; intros s D Hk Hf; [lia|]. cbn [compact].
  destruct (refresh_spec k (S f) s D Hk) as [H|(s1 & H1 & D1 & F1 & E1 & M1)]; [pose proof (rho_le k s D); lia|rewrite H; left; reflexivity|].
  rewrite H1. cbn [bind]. destruct (fresh_facts k s1 D1 F1) as (x & b & F). pose proof F as [Hr _ _ _ (a & Ea & Hla) Hx Hy Hi Hfr Ho He].
  rewrite (begin_ok k s1 x b F), (last_ok k s1 x b F). cbn [bind].
  assert (Sy : r_size (rec_at s1 (last (x :: b) O)) = sz (last (x :: b) O)) by (apply (k_size _ _ (v_core k s1 D1)); lia).
  rewrite Sy. destruct E1 as (_ & _ & E3).
  destruct (N.ltb_spec (r_off (rec_at s1 x) - insert_at s1) (sz (last (x :: b) O))) as [Hlt|Hge].
  2:{ right. exists s1. split; [reflexivity|]. split; [exact D1|]. split; [|split; [exact E3|exact M1]]. exists x, b. split; [exact F|]. lia. }
  rewrite (next_ok k s1 x b F). cbn [bind]. replace (insert_at s1 <=? r_off (rec_at s1 x)) with true by lia. cbn [verify bind].
  pose proof (rec_end k s1 x D1 ltac:(lia)) as Rx.
  assert (Wb : StronglySorted (before s1) (live k b) /\ forall j, In j (live k b) -> end_of (rec_at s1 x) <= r_off (rec_at s1 j)).
  { pose proof (v_sort k s1 D1) as W. unfold queue in W. rewrite Hr, live_app in W. apply ssort_app in W as (_ & W & _). rewrite live_cons in W by lia.
    inversion W as [|? ? W1 W2]. subst. split; [exact W1|]. intros j Hj. exact (proj1 (Forall_forall _ _) W2 j Hj). }
  destruct Wb as [Wb1 Wb2].
  destruct (front_move k s1 x b x b (d_last s1) (d_frag s1) (S (d_idx s1)) (insert_at s1) D1 F eq_refl Hx) as (pf & rs & Hm & D2).
  { intros j Hj Hn. rewrite live_cons in Hj by lia. destruct Hj as [Hj|Hj]; [congruence|]. specialize (Wb2 j Hj). lia. }
  { pose proof (v_bound k s1 D1 x Hx). lia. }
  { left. reflexivity. }
  { rewrite Ea, <- Hla, skipn_app. rewrite skipn_all2 by lia. replace (S (length a) - length a)%nat with 1%nat by lia. reflexivity. }
  { reflexivity. } { intros j Hj. right. exact Hj. } { exact Wb1. }
  rewrite Hm. cbn [bind d_pf d_recs d_end d_frag d_idx d_defrag d_last].
  assert (M2 : (mu k (Dfs pf rs (d_end s1) (d_frag s1) (S (d_idx s1)) (d_defrag s1 ++ [x]) (d_last s1)) + 1 <= mu k s1)%nat).
  { unfold mu. rewrite Hr. unfold rest. cbn [d_frag d_idx d_last]. rewrite Ea, <- Hla, skipn_app. rewrite skipn_all2 by lia.
    replace (S (length a) - length a)%nat with 1%nat by lia. cbn [skipn app length]. lia. }
  destruct (IH _ D2 Hk) as [H|(s3 & H2 & D3 & F3 & E4 & M3)]; [lia|rewrite H; left; reflexivity|].
  right. exists s3. split; [exact H2|]. split; [exact D3|]. split; [exact F3|]. split; [cbn [d_end] in E4; congruence|lia].
Qed.

Lemma unblock_spec k fuel : forall s, dinv k s -> (k < n)%nat -> (mu k s + 3 * n + 2 < fuel)%nat ->
  unblock fuel k s = Throw \/
  exists s', unblock fuel k s = Ok s' /\ dinv k s' /\ (exists x b, ffacts k s' x b) /\ d_end s' = d_end s /\
    forall j, (k <= j < n)%nat -> end_of (rec_at s' j) + sz k <= d_end s'.
Proof.
  induction fuel as [|f IH]; intros s D Hk Hf; [lia|]. cbn [unblock].
  destruct (refresh_spec k (S f) s D Hk) as [H|(s1 & H1 & D1 & F1 & E1 & M1)]; [pose proof (rho_le k s D); lia|rewrite H; left; reflexivity|].
  rewrite H1. cbn [bind]. destruct (fresh_facts k s1 D1 F1) as (x & b & F). pose proof F as [Hr Hn _ Hla _ Hx Hy Hi Hfr Ho He]. destruct E1 as (_ & _ & E3).
  assert (Ke : d_end s1 <= S0) by (pose proof (v_end k s1 D1); lia).
  assert (Es : end_space s1 = d_end s1 - end_of (rec_at s1 (last (x :: b) O))).
  { unfold end_space. rewrite <- Hla in *. destruct (d_frag s1) as [|z l]; [discriminate|]. apply sub64_ok; [apply (v_bound k s1 D1); exact Hy|lia]. }
  rewrite Es. assert (Sk : r_size (rec_at s1 k) = sz k) by (apply (k_size _ _ (v_core k s1 D1)); lia). rewrite Sk.
  pose proof (v_bound k s1 D1 _ Hy) as By.
  destruct (N.ltb_spec (d_end s1 - end_of (rec_at s1 (last (x :: b) O))) (sz k)) as [Hlt|Hge].
  2:{ right. exists s1. split; [reflexivity|]. split; [exact D1|]. split; [exists x, b; exact F|]. split; [exact E3|]. intros j Hj. specialize (He j Hj). lia. }
  destruct (compact_spec k (S f) s1 D1 Hk) as [H|(s2 & H2 & D2 & (x2 & b2 & F2 & HS) & E2 & M2)]; [lia|rewrite H; left; reflexivity|].
  clear x b F Hr Hn Hla Hx Hy Hi Hfr Ho He Es By Hlt. rewrite H2. cbn [bind]. set (x := x2) in *. set (b := b2) in *.
  pose proof F2 as [Hr _ _ _ (a & Ea & Hla) Hx Hy Hi Hfr Ho He]. rewrite (last_ok k s2 x b F2). cbn [bind]. set (y := last (x :: b) O) in *.
  assert (Yb : r_off (rec_at s2 x) <= r_off (rec_at s2 y)). { apply Ho. apply live_In. split; [apply last_In; discriminate|lia]. }
  replace (insert_at s2 <=? r_off (rec_at s2 y)) with true by lia. cbn [verify bind].
  pose proof (rec_end k s2 y D2 ltac:(lia)) as Ry. pose proof (v_bound k s2 D2 y Hy) as By.
  destruct (front_move k s2 x b y (removelast (x :: b)) (d_last s2) (removelast (d_frag s2)) (d_idx s2) (insert_at s2) D2 F2 eq_refl Hy) as (pf & rs & Hm & D3).
  { intros j Hj Hn. specialize (Ho j Hj). lia. }
  { lia. }
  { apply last_In. discriminate. }
  { rewrite Ea, <- Hla, removelast_app_cons, skipn_app, skipn_all, Nat.sub_diag. reflexivity. }
  { rewrite (snoc_last (x :: b) O) at 2 by discriminate. apply Permutation_cons_append. }
  { intros j Hj. now apply removelast_In. }
  { pose proof (v_sort k s2 D2) as W. unfold queue in W. rewrite Hr in W. rewrite (snoc_last (x :: b) O) in W by discriminate.
    rewrite !live_app in W. apply ssort_app in W as (_ & W & _). apply ssort_app in W as (W & _ & _). exact W. }
  rewrite Hm. cbn [bind d_pf d_recs d_end d_frag d_idx d_defrag d_last].
  assert (M3 : (mu k (Dfs pf rs (d_end s2) (removelast (d_frag s2)) (d_idx s2) (d_defrag s2 ++ [y]) (d_last s2)) + 1 <= mu k s2)%nat).
  { unfold mu. rewrite Hr. unfold rest. cbn [d_frag d_idx d_last]. rewrite Ea, <- Hla, removelast_app_cons, skipn_app, skipn_all, Nat.sub_diag.
    cbn [skipn app]. rewrite removelast_len. cbn [length]. lia. }
  destruct (IH _ D3 Hk) as [H|(s3 & H3 & D4 & F3 & E4 & G)]; [lia|rewrite H; left; reflexivity|].
  right. exists s3. split; [exact H3|]. split; [exact D4|]. split; [exact F3|]. split; [cbn [d_end] in E4; congruence|exact G].
Qed.

Lemma move_end_spec k s x b : dinv k s -> ffacts k s x b -> (k < n)%nat ->
  (forall j, (k < j < n)%nat -> end_of (rec_at s j) + sz k <= d_end s) ->
  exists s', move_end k s = Ok s' /\ dinv (S k) s' /\ is_nil (d_frag s') = false.
Proof.
  intros D F Hk HE. unfold move_end. pose proof (v_core k s D) as C.
  assert (Sk : r_size (rec_at s k) = sz k) by (apply (k_size _ _ C); exact Hk). rewrite Sk.
  pose proof (v_end k s D) as Ed. pose proof (v_bound k s D k ltac:(lia)) as Bk. rewrite (rec_end k s k D Hk) in Bk.
  rewrite sub64_ok by lia. set (e := d_end s - sz k).
  destruct (move_core (Dfs (d_pf s) (d_recs s) e (d_frag s) (d_idx s) (d_defrag s) (d_last s)) k e C Hk) as (pf & Hm & C').
  { unfold e. lia. }
  { intros j Hj Hn. unfold rec_at. cbn [d_recs]. fold (rec_at s j). unfold disjoint, e. destruct (Nat.lt_ge_cases j k) as [H|H].
    - left. pose proof (done_behind k s j D H). lia.
    - right. specialize (HE j ltac:(lia)). rewrite (rec_end k s j D Hj) in HE. lia. }
  rewrite Hm. cbn [bind d_recs d_end d_frag d_idx d_defrag d_last].
  assert (Hlen : (k < length (d_recs s))%nat) by (rewrite (k_len _ _ C); exact Hk).
  set (s2 := Dfs pf (set_rec (d_recs s) k (Rec e (sz k))) e (d_frag s) (d_idx s) (d_defrag s) (d_last s)).
  assert (RA : forall j, rec_at s2 j = if (j =? k)%nat then Rec e (sz k) else rec_at s j).
  { intros j. unfold rec_at, s2. cbn [d_recs]. now apply set_rec_nth. }
  assert (RO : forall j, j <> k -> rec_at s2 j = rec_at s j). { intros j Hj. rewrite RA. replace (j =? k)%nat with false by lia. reflexivity. }
  assert (RI : rec_at s2 k = Rec e (sz k)). { rewrite RA, Nat.eqb_refl. reflexivity. }
  rewrite RI. cbn [r_off].
  assert (Hpos : 0 < e). { unfold e. pose proof (room k Hk). pose proof (sumto_le (S k) n ltac:(lia)) as L. cbn [sumto] in L. lia. }
  replace (e =? 0) with false by lia. cbn [negb verify bind]. exists s2. split; [reflexivity|]. split; [|apply (h_nil k s x b F)].
  assert (EQ : queue s2 = queue s) by reflexivity.
  split.
  - exact C'.
  - lia.
  - cbn [d_end s2 sumto]. unfold e. lia.
  - intros j. rewrite EQ, live_In. split.
    + intros [H1 H2]. assert (H3 : In j (live k (queue s))) by (apply live_In; split; [exact H1|lia]). apply (v_live k s D) in H3. lia.
    + intros H. assert (H3 : In j (live k (queue s))) by (apply (v_live k s D); lia). apply live_In in H3. split; [apply H3|lia].
  - rewrite EQ. apply (v_nodup k s D).
  - rewrite EQ. apply (v_lt k s D).
  - rewrite EQ. assert (EL : live (S k) (queue s) = filter (fun i => (S k <=? i)%nat) (live k (queue s))).
    { clear. unfold live. induction (queue s) as [|i l IH]; [reflexivity|]. cbn [filter]. destruct (Nat.leb_spec k i) as [H|H].
      - cbn [filter]. destruct (S k <=? i)%nat; [f_equal|]; exact IH. - replace (S k <=? i)%nat with false by lia. exact IH. }
    pose proof (ssort_filter _ (fun i => (S k <=? i)%nat) _ (v_sort k s D)) as W. rewrite <- EL in W.
    eapply ssort_ext; [|exact W]. intros i j Hi Hj B. apply live_In in Hi as [_ Hi], Hj as [_ Hj]. unfold before in *. rewrite !RO by lia. exact B.
  - intros j Hj. rewrite RO by lia. cbn [d_end s2]. unfold e. specialize (HE j ltac:(lia)). lia.
  - intros j Hj. destruct (Nat.eq_dec j k) as [->|Hn].
    + rewrite RI. cbn [r_off sumto]. unfold e. lia.
    + rewrite RO by exact Hn. apply (v_done k s D). lia.
Qed.

Lemma mu_le k s : dinv k s -> (mu k s <= 2 * n + 1)%nat.
Proof.
  intros D. pose proof (queue_len k s D) as H. unfold queue in H. rewrite app_length in H. unfold mu. destruct (d_last s) as [l|]; [destruct (l =? k)%nat|]; lia.
Qed.
Lemma one_spec k s fuel : dinv k s -> (k < n)%nat -> is_nil (d_frag s) = false -> (6 * n + 12 <= fuel)%nat ->
  defrag_one fuel k s = Throw \/ exists s', defrag_one fuel k s = Ok s' /\ dinv (S k) s' /\ is_nil (d_frag s') = false.
Proof.
  intros D Hk Hn Hf. unfold defrag_one. rewrite Hn. cbn [negb verify bind].
  destruct (refresh_spec k fuel s D Hk) as [H|(s1 & H1 & D1 & F1 & E1 & M1)]; [pose proof (rho_le k s D); lia|rewrite H; left; reflexivity|].
  rewrite H1. cbn [bind]. destruct (fresh_facts k s1 D1 F1) as (x & b & F). rewrite (last_ok k s1 x b F). cbn [bind].
  destruct (Nat.eqb_spec (last (x :: b) O) k) as [Ey|Ey].
  - right. apply (move_end_spec k s1 x b D1 F Hk). intros j Hj. pose proof F as [_ _ _ _ _ _ _ _ _ _ He].
    pose proof (v_bound k s1 D1 k ltac:(lia)) as B. rewrite (rec_end k s1 k D1 Hk) in B.
    (* everything else lies before the last record *)
    assert (In j (live k (queue s1))) as Hq by (apply (v_live k s1 D1); lia).
    pose proof (v_sort k s1 D1) as W. unfold queue in Hq, W. rewrite (h_rest k s1 x b F) in Hq, W.
    rewrite (snoc_last (x :: b) O) in Hq, W by discriminate. rewrite Ey in *. rewrite app_assoc in Hq, W. rewrite live_app in Hq, W.
    rewrite (live_cons k k []) in Hq, W by lia. cbn [live filter] in Hq, W. apply ssort_app in W as (_ & _ & W).
    apply in_app_iff in Hq as [Hq|[Hq|[]]]; [|lia]. specialize (W j k Hq (or_introl eq_refl)). unfold before in W. lia.
  - destruct (unblock_spec k fuel s1 D1 Hk) as [H|(s2 & H2 & D2 & (x2 & b2 & F2) & E2 & G)]; [pose proof (mu_le k s1 D1); lia|rewrite H; left; reflexivity|].
    rewrite H2. cbn [bind]. right. apply (move_end_spec k s2 x2 b2 D2 F2 Hk). intros j Hj. apply G. lia.
Qed.
Lemma all_spec fuel : (6 * n + 12 <= fuel)%nat -> forall m k s, (k + m = n)%nat -> dinv k s -> (m <> 0%nat -> is_nil (d_frag s) = false) ->
  defrag_all fuel (seq k m) s = Throw \/ exists s', defrag_all fuel (seq k m) s = Ok s' /\ dinv n s'.
Proof.
  intros Hf. induction m as [|m IH]; intros k s Hm D Hn; cbn [seq defrag_all].
  - right. exists s. split; [reflexivity|]. replace n with k by lia. exact D.
  - destruct (one_spec k s fuel D ltac:(lia) (Hn ltac:(lia)) Hf) as [H|(s1 & H1 & D1 & N1)]; [rewrite H; left; reflexivity|].
    rewrite H1. cbn [bind]. apply IH; [lia|exact D1|auto].
Qed.

(** records stored from the end of the file to its start in the order of the tasks: each one is
    the last when its turn comes *)
Lemma one_desc k s fuel : dinv k s -> (k < n)%nat -> (3 <= fuel)%nat -> d_idx s = O -> d_defrag s = [] ->
  (d_frag s = rev (seq k (n - k)) \/ (1 <= k)%nat /\ d_frag s = rev (seq k (n - k)) ++ [(k - 1)%nat]) ->
  exists s', defrag_one fuel k s = Ok s' /\ dinv (S k) s' /\ d_idx s' = O /\ d_defrag s' = [] /\ d_frag s' = rev (seq k (n - k)).
Proof.
  intros D Hk Hf Hi Hd HF. destruct s as [pf rs e fr ix df la]. cbn [d_idx d_defrag d_frag] in *. subst ix df.
  assert (EL : rev (seq k (n - k)) = rev (seq (S k) (n - S k)) ++ [k]). { replace (n - k)%nat with (S (n - S k)) by lia. reflexivity. }
  set (l := rev (seq k (n - k))) in *. assert (Hl : l <> []) by (rewrite EL; destruct (rev (seq (S k) (n - S k))); discriminate).
  assert (Hlast : last l O = k) by (rewrite EL; apply last_last).
  assert (Hge : forall i, In i l -> (k <= i < n)%nat). { intros i H. unfold l in H. apply in_rev in H. apply in_seq in H. lia. }
  assert (Hnth : (k <= nth 0 l O)%nat). { apply Hge. apply nth_In. destruct l; [contradiction|cbn [length]; lia]. }
  assert (Rf : forall f, refresh (S f) k (Dfs pf rs e l 0 [] la) = Ok (Dfs pf rs e l 0 [] la)).
  { intros f. cbn [refresh]. destruct l as [|y l']; [contradiction|]. cbn [is_nil andb length Nat.leb]. rewrite Hlast. replace (nth 0 (y :: l') O <? k)%nat with false by lia.
    replace (k <? k)%nat with false by lia. reflexivity. }
  assert (Rg : forall g, (1 <= k)%nat -> refresh (S g) k (Dfs pf rs e (l ++ [(k - 1)%nat]) 0 [] la) = refresh g k (Dfs pf rs e l 0 [] la)).
  { intros g Hk1. cbn [refresh]. rewrite app_length. replace (length l + length [(k - 1)%nat] <=? 0)%nat with false by (cbn [length]; lia).
    rewrite last_last, removelast_last. rewrite app_nth1 by (destruct l; [contradiction|cbn [length]; lia]). replace (nth 0 l O <? k)%nat with false by lia.
    replace (k - 1 <? k)%nat with true by lia. replace (is_nil (l ++ [(k - 1)%nat])) with false by (destruct l; reflexivity). reflexivity. }
  assert (Rs : is_nil fr = false /\ refresh fuel k (Dfs pf rs e fr 0 [] la) = Ok (Dfs pf rs e l 0 [] la) /\ (fr = l \/ (1 <= k)%nat /\ fr = l ++ [(k - 1)%nat])).
  { destruct HF as [->|[Hk1 ->]].
    - split; [destruct l; [contradiction|reflexivity]|]. split; [|left; reflexivity]. destruct fuel; [lia|]. apply Rf.
    - split; [destruct l; reflexivity|]. split; [|right; auto]. destruct fuel as [|fuel]; [lia|]. rewrite Rg by exact Hk1. destruct fuel as [|fuel]; [lia|]. apply Rf. }
  destruct Rs as (R1 & R2 & R3). unfold defrag_one. cbn [d_frag]. rewrite R1. cbn [negb verify bind]. rewrite R2. cbn [bind].
  assert (D' : dinv k (Dfs pf rs e l 0 [] la)).
  { destruct R3 as [E|[Hk1 E]]; [rewrite <- E; exact D|]. subst fr. eapply dinv_same; [exact D|split; [reflexivity|split; reflexivity]|..]; unfold queue, rest; cbn [d_defrag d_idx d_frag skipn app].
    - rewrite live_app, (live_dead k (k - 1)) by lia. cbn [live filter]. apply eq_sym, app_nil_r.
    - pose proof (v_nodup k _ D) as N. unfold queue, rest in N. cbn [d_defrag d_idx d_frag skipn app] in N. apply NoDup_remove in N as [N _]. now rewrite app_nil_r in N.
    - intros i H. apply in_app_iff. auto. }
  assert (F1 : fresh k (Dfs pf rs e l 0 [] la)).
  { split; [|left; reflexivity]. unfold rest. cbn [d_idx d_frag skipn]. destruct l as [|y l']; [contradiction|]. exists y, l'. split; [reflexivity|]. split; [exact Hnth|]. rewrite Hlast. lia. }
  destruct (fresh_facts k _ D' F1) as (x & b & F). pose proof (last_ok k _ x b F) as LO. rewrite LO. cbn [bind].
  assert (Ey : last (x :: b) O = k). { rewrite <- (h_last k _ x b F). exact Hlast. }
  rewrite Ey, Nat.eqb_refl.
  assert (Rs1 : rest (Dfs pf rs e l 0 [] la) = l) by reflexivity.
  destruct (move_end_spec k _ x b D' F Hk) as (s' & M1 & M2 & _).
  { intros j Hj. pose proof (v_bound k _ D' k ltac:(lia)) as B. rewrite (rec_end k _ k D' Hk) in B.
    assert (In j (live k (queue (Dfs pf rs e l 0 [] la)))) as Hq by (apply (v_live k _ D'); lia).
    pose proof (v_sort k _ D') as W. unfold queue in Hq, W. rewrite Rs1 in Hq, W. cbn [d_defrag app] in Hq, W.
    rewrite EL in Hq, W. rewrite live_app in Hq, W. rewrite (live_cons k k []) in Hq, W by lia. cbn [live filter] in Hq, W. apply ssort_app in W as (_ & _ & W).
    apply in_app_iff in Hq as [Hq|[Hq|[]]]; [|lia]. specialize (W j k Hq (or_introl eq_refl)). unfold before in W. eapply N.le_trans; [|exact B]. apply N.add_le_mono_r. exact W. }
  exists s'. split; [exact M1|]. split; [exact M2|]. unfold move_end, move_rec in M1. cbn [d_pf d_recs d_end d_frag d_idx d_defrag d_last] in M1.
  apply bind_ok in M1 as (s2 & M1 & M3). apply bind_ok in M1 as ([pf' r'] & _ & M1). apply Ok_inj in M1. subst s2. apply bind_ok in M3 as (u & _ & M3). apply Ok_inj in M3. subst s'.
  cbn [d_idx d_defrag d_frag]. auto.
Qed.
Lemma all_desc fuel : (3 <= fuel)%nat -> forall m k s, (k + m = n)%nat -> dinv k s -> d_idx s = O -> d_defrag s = [] ->
  (d_frag s = rev (seq k (n - k)) \/ (1 <= k)%nat /\ d_frag s = rev (seq k (n - k)) ++ [(k - 1)%nat]) ->
  exists s', defrag_all fuel (seq k m) s = Ok s'.
Proof.
  intros Hf. induction m as [|m IH]; intros k s Hm D Hi Hd HF; cbn [seq defrag_all]; [eauto|].
  destruct (one_desc k s fuel D ltac:(lia) Hf Hi Hd HF) as (s1 & H1 & D1 & I1 & Df1 & F1). rewrite H1. cbn [bind]. apply IH; [lia|exact D1|exact I1|exact Df1|].
  right. split; [lia|]. rewrite F1. replace (n - k)%nat with (S (n - S k)) by lia. cbn [seq rev]. replace (S k - 1)%nat with k by lia. reflexivity.
Qed.
End Defrag.
