(** Lemmas about Base: lists, slices, little-endian integers, bit arithmetic. *)
From Verif Require Import Base.
Ltac Zify.zify_post_hook ::= Z.div_mod_to_equations.

Arguments N.add : simpl never.
Arguments N.mul : simpl never.
Arguments N.div : simpl never.
Arguments N.modulo : simpl never.
Arguments N.pow : simpl never.
Arguments N.of_nat : simpl never.
Arguments N.to_nat : simpl never.

Lemma bind_ok {A B} (r : res A) (f : A -> res B) b :
  bind r f = Ok b -> exists a, r = Ok a /\ f a = Ok b.
Proof. destruct r; simpl; intros H; try discriminate. eauto. Qed.

Lemma Ok_inj {A} (a b : A) : Ok a = Ok b -> a = b.
Proof. congruence. Qed.

Lemma verify_ok b : verify b = Ok tt <-> b = true.
Proof. destruct b; simpl; split; intros; congruence. Qed.

Lemma bytes_eqb_eq a b : bytes_eqb a b = true <-> a = b.
Proof. unfold bytes_eqb. destruct (list_eq_dec N.eq_dec a b); split; congruence. Qed.

(** ** Lists *)
Lemma firstn_app_exact {A} (a b : list A) : firstn (length a) (a ++ b) = a.
Proof. rewrite firstn_app, Nat.sub_diag, firstn_all. simpl. apply app_nil_r. Qed.

Lemma skipn_app_exact {A} (a b : list A) : skipn (length a) (a ++ b) = b.
Proof. rewrite skipn_app, Nat.sub_diag, skipn_all. reflexivity. Qed.

Lemma firstn_app_exact' {A} n (a b : list A) : n = length a -> firstn n (a ++ b) = a.
Proof. intros ->. apply firstn_app_exact. Qed.

Lemma skipn_app_exact' {A} n (a b : list A) : n = length a -> skipn n (a ++ b) = b.
Proof. intros ->. apply skipn_app_exact. Qed.

Lemma skipn_skipn {A} n m (l : list A) : skipn n (skipn m l) = skipn (m + n) l.
Proof.
  revert l. induction m as [|m IH]; intros l; [reflexivity|].
  destruct l; simpl; [now rewrite skipn_nil | apply IH].
Qed.

Lemma nth_error_skipn {A} n m (l : list A) : nth_error (skipn n l) m = nth_error l (n + m).
Proof.
  revert l. induction n as [|n IH]; intros l; [reflexivity|].
  destruct l; simpl; [now destruct m | apply IH].
Qed.

Lemma nth_error_firstn {A} n m (l : list A) :
  (m < n)%nat -> nth_error (firstn n l) m = nth_error l m.
Proof.
  revert m l. induction n as [|n IH]; intros m l H; [lia|].
  destruct l; simpl; [reflexivity|]. destruct m; simpl; [reflexivity|]. apply IH. lia.
Qed.

Lemma list_ext {A} (a b : list A) : (forall i, nth_error a i = nth_error b i) -> a = b.
Proof.
  revert b. induction a as [|x a IH]; intros b H; destruct b as [|y b].
  - reflexivity.
  - specialize (H 0%nat). discriminate.
  - specialize (H 0%nat). discriminate.
  - f_equal.
    + specialize (H 0%nat). simpl in H. congruence.
    + apply IH. intros i. apply (H (S i)).
Qed.

Lemma Forall2_len {A B} (R : A -> B -> Prop) a b : Forall2 R a b -> length a = length b.
Proof. induction 1; cbn; congruence. Qed.

Lemma slice_app_exact (a b c : bytes) : slice (a ++ b ++ c) (blen a) (blen b) = b.
Proof.
  unfold slice, blen. rewrite !Nnat.Nat2N.id, skipn_app_exact. apply firstn_app_exact.
Qed.

Lemma slice_length l off len : (off + len <= blen l)%N -> length (slice l off len) = N.to_nat len.
Proof. unfold slice, blen. intros H. rewrite firstn_length, skipn_length. lia. Qed.

Lemma blen_app a b : blen (a ++ b) = (blen a + blen b)%N.
Proof. unfold blen. rewrite app_length. lia. Qed.

Lemma blen_nil : blen [] = 0%N. Proof. reflexivity. Qed.

Lemma blen_cons x l : blen (x :: l) = (1 + blen l)%N.
Proof. unfold blen. simpl length. lia. Qed.

Lemma slice_app_l a b off len : (off + len <= blen a)%N -> slice (a ++ b) off len = slice a off len.
Proof.
  unfold slice, blen. intros H.
  rewrite skipn_app, firstn_app.
  replace (N.to_nat len - length (skipn (N.to_nat off) a))%nat with 0%nat
    by (rewrite skipn_length; lia).
  simpl. apply app_nil_r.
Qed.

(** ** Little-endian *)
Lemma le_bytes_length n v : length (le_bytes n v) = n.
Proof. revert v; induction n as [|n IH]; intros v; simpl; [reflexivity | now rewrite IH]. Qed.

Lemma le_bytes_ok n v : bytes_ok (le_bytes n v).
Proof.
  revert v; induction n as [|n IH]; intros v; simpl; constructor; [|apply IH].
  unfold is_byte. apply N.mod_lt. discriminate.
Qed.

Lemma le_val_bytes n v : (v < 256 ^ N.of_nat n)%N -> le_val (le_bytes n v) = v.
Proof.
  revert v; induction n as [|n IH]; intros v Hv.
  - simpl in *. change (256 ^ N.of_nat 0)%N with 1%N in Hv. lia.
  - simpl. rewrite IH.
    + pose proof (N.div_mod v 256). lia.
    + apply N.div_lt_upper_bound; [discriminate|].
      replace (N.of_nat (S n)) with (N.succ (N.of_nat n)) in Hv by lia.
      rewrite N.pow_succ_r in Hv by lia. exact Hv.
Qed.

Lemma le_val_lt l : bytes_ok l -> (le_val l < 256 ^ blen l)%N.
Proof.
  induction l as [|b l IH]; intros H.
  - reflexivity.
  - inversion H as [|? ? Hb Hl]; subst. specialize (IH Hl). unfold is_byte in Hb.
    rewrite blen_cons. replace (1 + blen l)%N with (N.succ (blen l)) by lia.
    rewrite N.pow_succ_r by lia. simpl le_val.
    revert IH. generalize (256 ^ blen l)%N (le_val l). intros; nia.
Qed.

Lemma le_bytes_val l : bytes_ok l -> le_bytes (length l) (le_val l) = l.
Proof.
  induction l as [|b l IH]; intros H; [reflexivity|].
  inversion H as [|? ? Hb Hl]; subst. unfold is_byte in Hb. simpl.
  assert (E1 : ((b + 256 * le_val l) mod 256 = b)%N).
  { generalize (le_val l). intros. lia. }
  assert (E2 : ((b + 256 * le_val l) / 256 = le_val l)%N).
  { generalize (le_val l). intros. lia. }
  rewrite E1, E2, IH by assumption. reflexivity.
Qed.

(** ** Bits *)
Lemma land_ones_low a k : N.land a (N.ones k) = (a mod 2 ^ k)%N.
Proof. apply N.land_ones. Qed.

Lemma land_shift_zero a b k : (a < 2 ^ k)%N -> N.land a (N.shiftl b k) = 0%N.
Proof.
  intros Ha. apply N.bits_inj. intros n. rewrite N.land_spec, N.bits_0.
  destruct (N.ltb_spec n k) as [Hn|Hn].
  - rewrite N.shiftl_spec_low by assumption. apply andb_false_r.
  - replace (N.testbit a n) with false; [reflexivity|]. symmetry.
    destruct (N.eq_dec a 0) as [->|Hz]; [apply N.bits_0|].
    apply N.bits_above_log2. apply N.log2_lt_pow2; [lia|].
    eapply N.lt_le_trans; [exact Ha|]. apply N.pow_le_mono_r; lia.
Qed.

Lemma lor_shift_add a b k : (a < 2 ^ k)%N -> N.lor a (N.shiftl b k) = (a + b * 2 ^ k)%N.
Proof.
  intros Ha. rewrite <- N.shiftl_mul_pow2, N.add_nocarry_lxor, N.lxor_lor;
    auto using land_shift_zero.
Qed.

Lemma lor_add a b k : (a < 2 ^ k)%N -> (b mod 2 ^ k = 0)%N -> N.lor a b = (a + b)%N.
Proof.
  intros Ha Hb.
  assert (E : b = N.shiftl (b / 2 ^ k) k).
  { rewrite N.shiftl_mul_pow2. pose proof (N.div_mod b (2 ^ k)).
    assert (2 ^ k <> 0)%N by (apply N.pow_nonzero; lia). lia. }
  rewrite E at 1. rewrite lor_shift_add by assumption.
  rewrite <- N.shiftl_mul_pow2, <- E. reflexivity.
Qed.
