From Verif Require Import Base BaseProof ModelTile ModelCodec.
Open Scope N_scope.
Arguments varint_enc : simpl never.
Arguments varint_dec : simpl never.

Lemma pow2_pos k : 0 < 2 ^ k.
Proof. apply N.neq_0_lt_0, N.pow_nonzero. lia. Qed.

Lemma shl64_small a k : a * 2 ^ k < 2 ^ 64 -> shl64 a k = a * 2 ^ k.
Proof. intros H. unfold shl64. rewrite N.shiftl_mul_pow2. now apply N.mod_small. Qed.

Lemma lor_shl acc a k : acc < 2 ^ k -> a * 2 ^ k < 2 ^ 64 ->
  N.lor acc (shl64 a k) = acc + a * 2 ^ k.
Proof.
  intros H1 H2. rewrite shl64_small by assumption.
  apply lor_add with (k := k); [assumption|]. apply N.mod_mul. apply N.pow_nonzero. lia.
Qed.

Lemma varint_dec_enc_f fuel : forall shift acc v rest,
  acc < 2 ^ shift -> v * 2 ^ shift < 2 ^ 64 -> v < 2 ^ (7 * N.of_nat fuel) -> fuel <> O ->
  varint_dec_f fuel shift acc (varint_enc_f fuel v ++ rest) = Ok (acc + v * 2 ^ shift, rest).
Proof.
  induction fuel as [|f IH]; intros shift acc v rest Ha Hv Hf Hz; [congruence|].
  cbn [varint_enc_f]. destruct (N.ltb_spec v 128) as [H|H].
  - cbn [app varint_dec_f].
    change 127 with (N.ones 7). rewrite N.land_ones.
    change (2 ^ 7) with 128. rewrite N.mod_small by assumption.
    rewrite lor_shl by assumption.
    replace (v <? 128) with true by lia. reflexivity.
  - cbn [app varint_dec_f].
    change 127 with (N.ones 7). rewrite N.land_ones.
    change (2 ^ 7) with 128.
    replace ((v mod 128 + 128) mod 128) with (v mod 128) by lia.
    replace (v mod 128 + 128 <? 128) with false by lia.
    pose proof (pow2_pos shift) as Hp.
    rewrite lor_shl; [|assumption|].
    2:{ eapply N.le_lt_trans; [|exact Hv]. apply N.mul_le_mono_r. lia. }
    assert (E : 2 ^ (shift + 7) = 128 * 2 ^ shift) by (rewrite N.pow_add_r; lia).
    assert (D : v = 128 * (v / 128) + v mod 128) by lia.
    assert (M : v mod 128 < 128) by lia.
    rewrite IH.
    + f_equal. f_equal. rewrite E. revert D. generalize (v / 128) (v mod 128). intros; subst. lia.
    + rewrite E. revert M Ha Hp. generalize (v mod 128) (2 ^ shift). intros; nia.
    + rewrite E. eapply N.le_lt_trans; [|exact Hv].
      revert D. generalize (v / 128) (v mod 128) (2 ^ shift). intros; subst; nia.
    + replace (7 * N.of_nat (S f)) with (7 + 7 * N.of_nat f) in Hf by lia.
      rewrite N.pow_add_r in Hf. apply N.div_lt_upper_bound; [discriminate|]. exact Hf.
    + intros ->. change (7 * N.of_nat 1) with 7 in Hf. change (2 ^ 7) with 128 in Hf. lia.
Qed.

Lemma varint_roundtrip v rest : v < 2 ^ 64 -> varint_dec (varint_enc v ++ rest) = Ok (v, rest).
Proof.
  intros H. unfold varint_dec, varint_enc. rewrite varint_dec_enc_f.
  - f_equal. f_equal. change (2 ^ 0) with 1. lia.
  - reflexivity.
  - change (2 ^ 0) with 1. lia.
  - change (7 * N.of_nat 10) with 70. eapply N.lt_trans; [exact H|]. reflexivity.
  - discriminate.
Qed.

Lemma varint_len_f fuel : forall v, (length (varint_enc_f fuel v) <= fuel)%nat.
Proof.
  induction fuel as [|f IH]; intros v; cbn [varint_enc_f length]; [lia|].
  destruct (v <? 128); cbn [length]; [lia|]. specialize (IH (v / 128)). lia.
Qed.

Lemma varint_len_pos v : (1 <= length (varint_enc v))%nat.
Proof. unfold varint_enc. cbn [varint_enc_f]. destruct (v <? 128); cbn [length]; lia. Qed.

Lemma varint_nonempty v : exists b l, varint_enc v = b :: l.
Proof. pose proof (varint_len_pos v). destruct (varint_enc v) as [|b l]; [cbn in *; lia|]. eauto. Qed.

Lemma varint_len_bound k : forall fuel v, v < 2 ^ (7 * N.of_nat (S k)) ->
  (length (varint_enc_f fuel v) <= S k)%nat.
Proof.
  induction k as [|k IH]; intros fuel v H; destruct fuel as [|f]; cbn [varint_enc_f length]; try lia.
  - change (7 * N.of_nat 1) with 7 in H. change (2 ^ 7) with 128 in H.
    replace (v <? 128) with true by lia. cbn [length]. lia.
  - destruct (v <? 128); cbn [length]; [lia|].
    assert (v / 128 < 2 ^ (7 * N.of_nat (S k))).
    { replace (7 * N.of_nat (S (S k))) with (7 + 7 * N.of_nat (S k)) in H by lia.
      rewrite N.pow_add_r in H. apply N.div_lt_upper_bound; [discriminate|]. exact H. }
    specialize (IH f (v / 128) H0). lia.
Qed.

Lemma varint_bytes_ok v : v < 2 ^ 64 -> bytes_ok (varint_enc v).
Proof.
  intros _. unfold varint_enc. generalize 10%nat. intros n. revert v.
  induction n as [|n IH]; intros v; cbn [varint_enc_f]; [constructor|].
  destruct (N.ltb_spec v 128) as [H|H].
  - constructor; [unfold is_byte; lia | constructor].
  - constructor; [unfold is_byte; lia | apply IH].
Qed.

(** zigzag *)
Lemma zigzag_roundtrip z : unzigzag (zigzag z) = z.
Proof.
  unfold zigzag, unzigzag. destruct (Z.leb_spec 0 z) as [H|H].
  - replace (N.even (Z.to_N (2 * z))) with true.
    + lia.
    + symmetry. apply N.even_spec. exists (Z.to_N z). lia.
  - replace (N.even (Z.to_N (-2 * z - 1))) with false.
    + lia.
    + symmetry. rewrite <- N.negb_odd. apply negb_false_iff, N.odd_spec.
      exists (Z.to_N (- z - 1)). lia.
Qed.

Lemma unzigzag_roundtrip n : zigzag (unzigzag n) = n.
Proof.
  unfold zigzag, unzigzag. destruct (N.even n) eqn:E.
  - apply N.even_spec in E. destruct E as [m ->].
    replace (0 <=? Z.of_N (2 * m / 2))%Z with true by lia. lia.
  - rewrite <- N.negb_odd in E. apply negb_false_iff, N.odd_spec in E. destruct E as [m ->].
    replace (0 <=? - Z.of_N ((2 * m + 1 + 1) / 2))%Z with false by lia. lia.
Qed.

Lemma zigzag_bound z : int64_ok z = true -> zigzag z < 2 ^ 64.
Proof. unfold int64_ok, min64, max64, zigzag. intros H. destruct (0 <=? z)%Z eqn:E; lia. Qed.

Lemma next_sint_enc z rest : int64_ok z = true ->
  next_sint (varint_enc (zigzag z) ++ rest) = Ok (z, rest).
Proof.
  intros H. unfold next_sint. rewrite varint_roundtrip by now apply zigzag_bound.
  cbn [bind]. now rewrite zigzag_roundtrip.
Qed.

(** fields *)
Definition tag_ok (tag : N) : bool := (1 <=? tag) && (tag <? 19000).

Lemma next_field_enc tag wt rest :
  tag_ok tag = true -> (wt =? 0) || (wt =? 1) || (wt =? 2) || (wt =? 5) = true ->
  next_field (field_key tag wt ++ rest) = Ok (Some (tag, wt, rest)).
Proof.
  intros Ht Hw. unfold field_key, next_field.
  destruct (varint_nonempty (tag * 8 + wt)) as (b & l & E).
  rewrite E. cbn [app]. change (b :: l ++ rest) with ((b :: l) ++ rest). rewrite <- E.
  unfold tag_ok in Ht.
  rewrite varint_roundtrip by lia. cbn [bind].
  rewrite (N.mod_small _ (2 ^ 32)) by lia.
  replace ((tag * 8 + wt) / 8) with tag by lia.
  replace ((tag * 8 + wt) mod 8) with wt by lia.
  replace ((tag =? 0) || ((19000 <=? tag) && (tag <=? 19999))) with false by lia.
  cbn [negb verify bind]. unfold WT_VARINT, WT_I64, WT_LEN, WT_I32. rewrite Hw. reflexivity.
Qed.

Lemma next_field_varint tag v rest : tag_ok tag = true ->
  next_field (field_varint tag v ++ rest) = Ok (Some (tag, WT_VARINT, varint_enc v ++ rest)).
Proof. intros H. unfold field_varint. rewrite <- app_assoc. now apply next_field_enc. Qed.

Lemma next_field_bytes tag d rest : tag_ok tag = true ->
  next_field (field_bytes tag d ++ rest) = Ok (Some (tag, WT_LEN, varint_enc (blen d) ++ d ++ rest)).
Proof.
  intros H. unfold field_bytes. rewrite <- !app_assoc. now apply next_field_enc.
Qed.

Lemma get_len_enc d rest : blen d < 2 ^ 32 ->
  get_len WT_LEN (varint_enc (blen d) ++ d ++ rest) = Ok (d, rest).
Proof.
  intros H. unfold get_len. cbn [WT_LEN N.eqb Pos.eqb verify bind].
  rewrite varint_roundtrip by lia. cbn [bind].
  rewrite (N.mod_small _ (2 ^ 32)) by assumption.
  replace (blen d <=? blen (d ++ rest)) with true by (rewrite blen_app; lia).
  cbn [verify bind]. unfold blen. rewrite Nnat.Nat2N.id.
  now rewrite firstn_app_exact, skipn_app_exact.
Qed.

Lemma get_varint_enc v rest : v < 2 ^ 64 ->
  get_varint WT_VARINT (varint_enc v ++ rest) = Ok (v, rest).
Proof. intros H. unfold get_varint. cbn [WT_VARINT N.eqb verify bind]. now apply varint_roundtrip. Qed.

(** prefix-freeness: an encoded value followed by anything never parses as
    another value followed by something else *)
Lemma varint_prefix_free v w a b : v < 2 ^ 64 -> w < 2 ^ 64 ->
  varint_enc v ++ a = varint_enc w ++ b -> v = w /\ a = b.
Proof.
  intros Hv Hw E. pose proof (varint_roundtrip v a Hv) as E1.
  rewrite E, varint_roundtrip in E1 by assumption. injection E1 as -> ->. auto.
Qed.

Lemma field_bytes_pos tag d : (1 <= length (field_bytes tag d))%nat.
Proof. unfold field_bytes, field_key. rewrite app_length. pose proof (varint_len_pos (tag * 8 + WT_LEN)). lia. Qed.

Lemma varint_length v : v < 2 ^ 64 ->
  (1 <= length (varint_enc v) <= 10)%nat /\ (v < 2 ^ 32 -> (length (varint_enc v) <= 5)%nat).
Proof.
  intros H. split; [split; [apply varint_len_pos | apply varint_len_f]|].
  intros H2. unfold varint_enc. apply (varint_len_bound 4).
  change (2 ^ (7 * N.of_nat 5)) with (2 ^ 35). lia.
Qed.

Lemma zigzag_ok z : (- 2 ^ 63 <= z < 2 ^ 63)%Z -> zigzag z < 2 ^ 64 /\ unzigzag (zigzag z) = z.
Proof.
  intros H. split; [|apply zigzag_roundtrip]. apply zigzag_bound. unfold int64_ok, min64, max64. lia.
Qed.

Lemma unzigzag_ok n : n < 2 ^ 64 -> (- 2 ^ 63 <= unzigzag n < 2 ^ 63)%Z /\ zigzag (unzigzag n) = n.
Proof.
  intros H. split; [|apply unzigzag_roundtrip]. unfold unzigzag.
  destruct (N.even n) eqn:E; [lia|]. assert ((n + 1) / 2 <= 2 ^ 63) by lia. lia.
Qed.
