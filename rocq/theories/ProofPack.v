From Verif Require Import Base BaseProof ModelTile ModelCodec ProofCodec ModelGeom SpecGeom ProofGeom ModelFeature SpecFeature ProofFeature ModelPack SpecPack.
Open Scope N_scope.
Ltac bits_taut := repeat match goal with |- context [N.testbit ?a ?b] => destruct (N.testbit a b) end; reflexivity.

(** ** Round trip *)

(** the bytes of one span *)
Definition span_bytes (fs : list bytes) : bytes := flat_map (fun f => varint_enc (blen f) ++ f) fs ++ varint_enc 0.

Lemma append_each_ok fs : forall buf, Forall legal_feature fs ->
  append_each buf fs = Ok (buf ++ flat_map (fun f => varint_enc (blen f) ++ f) fs).
Proof.
  induction fs as [|f fs IH]; intros buf H; cbn [append_each flat_map].
  - now rewrite app_nil_r.
  - inversion H as [|? ? Hf Hfs]; subst. unfold append_feature.
    replace (32 <=? blen f) with true by (unfold legal_feature in Hf; lia). cbn [verify bind].
    rewrite IH by assumption. now rewrite <- !app_assoc.
Qed.

Lemma append_features_ok buf fs : Forall legal_feature fs ->
  append_features buf fs = Ok (buf ++ span_bytes fs).
Proof.
  intros H. unfold append_features. rewrite append_each_ok by assumption. cbn [bind].
  unfold append_span_end, span_bytes. now rewrite <- app_assoc.
Qed.

Lemma append_each_inv fs : forall buf b, append_each buf fs = Ok b ->
  Forall (fun f => 32 <= blen f) fs /\ b = buf ++ flat_map (fun f => varint_enc (blen f) ++ f) fs.
Proof.
  induction fs as [|f fs IH]; intros buf b H; cbn [append_each flat_map] in *.
  - apply Ok_inj in H. subst. split; [constructor | now rewrite app_nil_r].
  - apply bind_ok in H. destruct H as (b1 & E & H). unfold append_feature in E.
    destruct (N.leb_spec 32 (blen f)); [|discriminate]. cbn [verify bind] in E. apply Ok_inj in E. subst b1.
    apply IH in H. destruct H as [H1 ->]. split; [constructor; assumption | now rewrite <- !app_assoc].
Qed.

Lemma varint_zero rest : varint_enc 0 ++ rest = 0 :: rest.
Proof. reflexivity. Qed.

Lemma take_feature_app f rest : take_feature (blen f) (f ++ rest) = Ok (f, rest).
Proof.
  unfold take_feature. rewrite blen_app. replace (blen f <=? blen f + blen rest) with true by lia.
  unfold blen. rewrite Nnat.Nat2N.id, firstn_app_exact, skipn_app_exact. reflexivity.
Qed.

Lemma next_size_some n v rest fuel : 0 < v < 2 ^ 64 -> (n < fuel)%nat ->
  next_size fuel (repeat 0 n ++ varint_enc v ++ rest) = Ok (v, rest).
Proof.
  intros Hv. revert fuel. induction n as [|n IH]; intros fuel Hf; (destruct fuel as [|fuel]; [lia|]).
  - cbn [repeat app next_size]. rewrite varint_roundtrip by lia. cbn [bind].
    replace (v =? 0) with false by lia. reflexivity.
  - cbn [repeat app next_size].
    assert (E : forall r, varint_dec (0 :: r) = Ok (0, r)) by (intros r; reflexivity).
    rewrite E. cbn [bind N.eqb]. apply IH. lia.
Qed.

(** [n] null features, then features, each followed by any number of null features *)
Fixpoint with_nulls (fs : list (bytes * nat)) : bytes :=
  match fs with
  | [] => []
  | (f, n) :: fs' => varint_enc (blen f) ++ f ++ repeat 0 n ++ with_nulls fs'
  end.

Lemma unpack_loop_ok fs : forall n rest,
  Forall (fun fn => 0 < blen (fst fn) < 2 ^ 64) fs ->
  exists r, unpack_loop (length fs) (repeat 0 n ++ with_nulls fs ++ rest) = Ok (map fst fs, r).
Proof.
  induction fs as [|[f k] fs IH]; intros n rest H; cbn [length unpack_loop map].
  - eauto.
  - inversion H as [|? ? Hf Hfs]; subst. cbn [fst] in *. cbn [with_nulls].
    rewrite <- !app_assoc.
    rewrite next_size_some; [|assumption|].
    2:{ rewrite app_length, repeat_length. lia. }
    cbn [bind]. rewrite take_feature_app. cbn [bind].
    destruct (IH k rest Hfs) as (r & ->). cbn [bind]. eauto.
Qed.

Lemma header_ok segs count : count < 2 ^ 32 ->
  pack_header segs count = Ok (le_bytes 4 count ++ [N.of_nat (length segs)] ++ flat_map (fun id => id :: le_bytes 4 0) segs).
Proof. intros H. unfold pack_header. replace (count <? 2 ^ 32) with true by lia. reflexivity. Qed.

Lemma seg_table_len segs : length (flat_map (fun id : N => id :: le_bytes 4 0) segs) = (5 * length segs)%nat.
Proof. induction segs as [|s segs IH]; [reflexivity|]. cbn [flat_map]. rewrite app_length, IH. cbn [length le_bytes]. lia. Qed.

(** reading behind any header of the right shape *)
Lemma unpack_features_shape count (table data : bytes) segs :
  count < 2 ^ 32 -> length table = (5 * length segs)%nat -> (length segs < 256)%nat ->
  unpack_features (le_bytes 4 count ++ [N.of_nat (@length N segs)] ++ table ++ data)
  = unpack_loop (N.to_nat count) data.
Proof.
  intros Hc Ht Hs. unfold unpack_features.
  set (bs := le_bytes 4 count ++ [N.of_nat (length segs)] ++ table ++ data).
  assert (HL : blen bs = 5 + blen table + blen data).
  { unfold bs. rewrite !blen_app. unfold blen at 1. rewrite le_bytes_length. cbn. unfold blen. cbn. lia. }
  replace (5 <=? blen bs) with true by lia. cbn [verify bind].
  assert (E1 : le_val (firstn 4 bs) = count).
  { unfold bs. rewrite firstn_app_exact' by now rewrite le_bytes_length.
    apply le_val_bytes. exact Hc. }
  assert (E2 : nth 4 bs 0 = N.of_nat (length segs)).
  { unfold bs. rewrite app_nth2; rewrite le_bytes_length; [reflexivity | lia]. }
  rewrite E1, E2.
  assert (HT : blen table = 5 * N.of_nat (length segs)) by (unfold blen; lia).
  replace ((N.of_nat (length segs) + 1) * 5 <=? blen bs) with true by lia.
  f_equal. unfold bs. rewrite !app_assoc. apply skipn_app_exact'.
  rewrite !app_length, le_bytes_length, Ht. cbn [length]. lia.
Qed.

Lemma pack_unpack fs : Forall legal_feature fs -> N.of_nat (length fs) < 2 ^ 32 ->
  exists bs, pack_features fs = Ok bs /\ exists rest, unpack_features bs = Ok (fs, rest).
Proof.
  intros HF HL. unfold pack_features. rewrite header_ok by assumption. cbn [bind].
  rewrite append_features_ok by assumption. cbn [bind]. eexists. split; [reflexivity|].
  unfold pack_finish. cbn [flat_map length].
  set (tail := le_bytes 4 (crc32 _)). rewrite <- !app_assoc.
  assert (HS := unpack_features_shape (N.of_nat (length fs)) [] (span_bytes fs ++ tail) [] HL eq_refl ltac:(cbn; lia)).
  match goal with |- exists rest, ?a = _ => match type of HS with ?b = _ => change a with b end end.
  rewrite HS. rewrite Nnat.Nat2N.id.
  unfold span_bytes. rewrite <- !app_assoc. rewrite varint_zero.
  destruct (unpack_loop_ok (map (fun f => (f, O)) fs) 0 (0 :: tail)) as (r & E).
  { rewrite Forall_map. eapply Forall_impl; [|exact HF]. intros f Hf. cbn. unfold legal_feature in Hf. lia. }
  rewrite map_length, map_map in E. cbn [fst repeat app] in E. rewrite map_id in E.
  exists r. rewrite <- E. f_equal. f_equal.
  clear. induction fs as [|f fs IH]; [reflexivity|]. cbn [flat_map map with_nulls repeat app].
  rewrite IH. now rewrite <- app_assoc.
Qed.

(** packing fails exactly on a too short feature (or 2^32 features) *)
Lemma pack_features_rejects fs :
  (exists f, In f fs /\ blen f < 32) -> pack_features fs = Throw.
Proof.
  intros (f & HI & Hf). unfold pack_features, pack_header.
  destruct (_ <? 2 ^ 32); [|reflexivity]. cbn [verify bind]. unfold append_features.
  match goal with |- context [append_each ?b fs] => generalize b end. intros b.
  assert (E : forall b, append_each b fs = Throw).
  { clear b. induction fs as [|g fs IH]; [contradiction|]. intros b. cbn [append_each]. unfold append_feature.
    destruct (N.leb_spec 32 (blen g)) as [Hg|Hg]; [|reflexivity]. cbn [verify bind].
    apply IH. destruct HI as [->|]; [lia | assumption]. }
  now rewrite E.
Qed.

Definition N_le_dec (a b : N) : {a <= b} + {~ a <= b}.
Proof. destruct (a <=? b) eqn:E; [left | right]; lia. Defined.

Lemma pack_features_succeeds fs : Forall (fun f => 32 <= blen f) fs -> N.of_nat (length fs) < 2 ^ 32 ->
  exists bs, pack_features fs = Ok bs.
Proof.
  intros HF HL. unfold pack_features. rewrite header_ok by assumption. cbn [bind]. unfold append_features.
  match goal with |- context [append_each ?b fs] => generalize b end. intros b.
  assert (E : forall b, exists b', append_each b fs = Ok b').
  { clear - HF. induction HF as [|g fs Hg HF IH]; intros b; [eexists; reflexivity|]. cbn [append_each]. unfold append_feature.
    replace (32 <=? blen g) with true by lia. cbn [verify bind]. apply IH. }
  destruct (E b) as [b' ->]. cbn [bind]. eexists. reflexivity.
Qed.

Lemma pack_features_throws_iff fs : N.of_nat (length fs) < 2 ^ 32 ->
  pack_features fs = Throw <-> exists f, In f fs /\ blen f < 32.
Proof.
  intros HL. split; [|apply pack_features_rejects].
  intros HT. destruct (Forall_dec (fun f => 32 <= blen f) (fun f => N_le_dec 32 (blen f)) fs) as [HF|HN].
  - destruct (pack_features_succeeds fs HF HL) as [bs E]. congruence.
  - apply neg_Forall_Exists_neg in HN; [|intros f; apply N_le_dec].
    apply Exists_exists in HN. destruct HN as (f & HI & Hf). exists f. split; [assumption|lia].
Qed.

(** ** CRC *)
Definition bit_n (b : bool) : N := if b then 1 else 0.
Fixpoint pack_bits (bits : list bool) : N :=
  match bits with [] => 0 | b :: bs => bit_n b + 2 * pack_bits bs end.

Definition crc_shift (s : N) : N := crc_step s false.
Fixpoint crc_shifts (n : nat) (s : N) : N := match n with O => s | S n' => crc_shifts n' (crc_shift s) end.

Lemma crc_step_lxor s b : crc_step s b = crc_shift (N.lxor s (bit_n b)).
Proof.
  unfold crc_shift, crc_step. rewrite xorb_false_r.
  assert (E1 : N.testbit (N.lxor s (bit_n b)) 0 = xorb (N.testbit s 0) b).
  { rewrite N.lxor_spec. destruct b; reflexivity. }
  assert (E2 : N.shiftr (N.lxor s (bit_n b)) 1 = N.shiftr s 1).
  { rewrite N.shiftr_lxor. destruct b; cbn; apply N.lxor_0_r. }
  now rewrite E1, E2.
Qed.

Lemma crc_shift_lxor a b : crc_shift (N.lxor a b) = N.lxor (crc_shift a) (crc_shift b).
Proof.
  unfold crc_shift, crc_step. rewrite !xorb_false_r, N.lxor_spec, N.shiftr_lxor.
  destruct (N.testbit a 0), (N.testbit b 0); cbn [xorb];
    apply N.bits_inj; intros n; rewrite ?N.lxor_spec; bits_taut.
Qed.

Lemma crc_shift_double v : crc_shift (2 * v) = v.
Proof.
  unfold crc_shift, crc_step. rewrite xorb_false_r, N.testbit_even_0.
  rewrite N.shiftr_div_pow2. change (2 ^ 1) with 2. lia.
Qed.

Lemma lxor_lt a b n : a < 2 ^ n -> b < 2 ^ n -> N.lxor a b < 2 ^ n.
Proof.
  intros Ha Hb. destruct (N.eq_dec (N.lxor a b) 0) as [->|Hz]; [lia|].
  apply N.log2_lt_pow2; [lia|]. eapply N.le_lt_trans; [apply N.log2_lxor|].
  destruct (N.eq_dec a 0) as [->|]; destruct (N.eq_dec b 0) as [->|]; cbn [N.log2 N.max].
  - cbn in Hz. congruence.
  - rewrite N.max_r by lia. apply N.log2_lt_pow2; lia.
  - rewrite N.max_l by lia. apply N.log2_lt_pow2; lia.
  - apply N.max_lub_lt; apply N.log2_lt_pow2; lia.
Qed.

Lemma crc_shift_lt s : s < 2 ^ 32 -> crc_shift s < 2 ^ 32.
Proof.
  intros H. unfold crc_shift, crc_step. rewrite xorb_false_r, N.shiftr_div_pow2. change (2 ^ 1) with 2.
  destruct (N.testbit s 0); [|lia]. apply lxor_lt; [lia | vm_compute; reflexivity].
Qed.

Lemma crc_shift_zero s : s < 2 ^ 32 -> crc_shift s = 0 -> s = 0.
Proof.
  intros H E. unfold crc_shift, crc_step in E. rewrite xorb_false_r, N.shiftr_div_pow2 in E.
  change (2 ^ 1) with 2 in E. destruct (N.testbit s 0) eqn:EB.
  - apply N.lxor_eq in E. unfold crc_poly in E. lia.
  - rewrite N.bit0_odd in EB. rewrite <- N.negb_even, negb_false_iff, N.even_spec in EB.
    destruct EB as [m ->]. lia.
Qed.

Lemma crc_shifts_lt n : forall s, s < 2 ^ 32 -> crc_shifts n s < 2 ^ 32.
Proof. induction n; cbn [crc_shifts]; auto using crc_shift_lt. Qed.
Lemma crc_shifts_zero n : forall s, s < 2 ^ 32 -> crc_shifts n s = 0 -> s = 0.
Proof.
  induction n as [|n IH]; cbn [crc_shifts]; intros s H E; [assumption|].
  apply crc_shift_zero; [assumption|]. apply IH; [now apply crc_shift_lt | assumption].
Qed.
Lemma crc_shifts_lxor n : forall a b, crc_shifts n (N.lxor a b) = N.lxor (crc_shifts n a) (crc_shifts n b).
Proof. induction n as [|n IH]; cbn [crc_shifts]; intros; [reflexivity|]. now rewrite crc_shift_lxor, IH. Qed.

Lemma pack_bits_lt bits : pack_bits bits < 2 ^ N.of_nat (length bits).
Proof.
  induction bits as [|b bits IH]; [reflexivity|]. cbn [pack_bits length].
  rewrite Nnat.Nat2N.inj_succ, N.pow_succ_r by lia. destruct b; cbn [bit_n]; lia.
Qed.

Lemma lxor_bit_double b v : N.lxor (bit_n b) (2 * v) = bit_n b + 2 * v.
Proof.
  destruct b; cbn [bit_n]; [|reflexivity].
  destruct v; [reflexivity|]. cbn. reflexivity.
Qed.

(** at most 32 message bits can be moved into the register *)
Lemma crc_run_pack bits : forall s, (length bits <= 32)%nat ->
  crc_run s bits = crc_shifts (length bits) (N.lxor s (pack_bits bits)).
Proof.
  induction bits as [|b bits IH]; intros s H.
  - cbn. now rewrite N.lxor_0_r.
  - cbn [length] in H. unfold crc_run in *. cbn [fold_left length crc_shifts pack_bits].
    rewrite IH by lia. f_equal.
    rewrite crc_step_lxor. rewrite <- lxor_bit_double, <- N.lxor_assoc, (crc_shift_lxor (N.lxor s (bit_n b))), crc_shift_double.
    reflexivity.
Qed.

Lemma crc_run_app s a b : crc_run s (a ++ b) = crc_run (crc_run s a) b.
Proof. apply fold_left_app. Qed.

(** difference of two runs over the same bits *)
Lemma crc_run_diff bits : forall s d, crc_run (N.lxor s d) bits = N.lxor (crc_run s bits) (crc_shifts (length bits) d).
Proof.
  induction bits as [|b bits IH]; intros s d; [reflexivity|].
  unfold crc_run in *. cbn [fold_left length crc_shifts]. rewrite <- IH. f_equal.
  rewrite !crc_step_lxor. rewrite <- crc_shift_lxor. f_equal.
  apply N.bits_inj. intros n. rewrite !N.lxor_spec. bits_taut.
Qed.

Lemma crc_step_lt s b : s < 2 ^ 32 -> crc_step s b < 2 ^ 32.
Proof.
  intros H. rewrite crc_step_lxor. apply crc_shift_lt, lxor_lt; [assumption|]. destruct b; cbn; lia.
Qed.
Lemma crc_run_lt bits : forall s, s < 2 ^ 32 -> crc_run s bits < 2 ^ 32.
Proof. induction bits as [|b bits IH]; intros s H; [assumption|]. apply IH. now apply crc_step_lt. Qed.

Lemma pack_bits_inj a : forall b, length a = length b -> pack_bits a = pack_bits b -> a = b.
Proof.
  induction a as [|x a IH]; intros [|y b] HL HE; try discriminate; [reflexivity|].
  injection HL as HL. cbn [pack_bits] in HE.
  assert (x = y) as -> by (destruct x, y; cbn [bit_n] in HE; try reflexivity; lia).
  f_equal. apply IH; [assumption|]. lia.
Qed.

(** a changed burst changes the register for good *)
Lemma crc_burst pre a b post : length a = length b -> (length a <= 32)%nat -> a <> b ->
  crc_run crc_ones (pre ++ a ++ post) <> crc_run crc_ones (pre ++ b ++ post).
Proof.
  intros HL H32 Hne. rewrite !crc_run_app.
  set (s := crc_run crc_ones pre).
  assert (Hs : s < 2 ^ 32) by (apply crc_run_lt; vm_compute; reflexivity).
  rewrite (crc_run_pack a), (crc_run_pack b) by lia. rewrite <- HL.
  set (d := N.lxor (pack_bits a) (pack_bits b)).
  assert (Hp : pack_bits b = N.lxor (pack_bits a) d).
  { subst d. now rewrite <- N.lxor_assoc, N.lxor_nilpotent, N.lxor_0_l. }
  rewrite Hp, <- N.lxor_assoc, (crc_shifts_lxor (length a) (N.lxor s (pack_bits a)) d).
  rewrite (crc_run_diff post). intros E.
  assert (HB : forall l, (length l <= 32)%nat -> pack_bits l < 2 ^ 32).
  { intros l Hl. eapply N.lt_le_trans; [apply pack_bits_lt|]. apply N.pow_le_mono_r; lia. }
  assert (Hd : d < 2 ^ 32) by (apply lxor_lt; apply HB; lia).
  set (base := crc_run (crc_shifts (length a) (N.lxor s (pack_bits a))) post) in *.
  assert (E0 : crc_shifts (length post) (crc_shifts (length a) d) = 0).
  { rewrite <- (N.lxor_0_l (crc_shifts _ _)), <- (N.lxor_nilpotent base), N.lxor_assoc, <- E.
    reflexivity. }
  apply crc_shifts_zero in E0; [|now apply crc_shifts_lt].
  apply crc_shifts_zero in E0; [|assumption].
  subst d. apply N.lxor_eq in E0. apply Hne. now apply pack_bits_inj.
Qed.

(** ** Validity as a property of the bit string *)
Lemma bits_of_app a b : bits_of (a ++ b) = bits_of a ++ bits_of b.
Proof. apply flat_map_app. Qed.
Lemma bits_of_len l : length (bits_of l) = (8 * length l)%nat.
Proof. unfold bits_of. induction l as [|b l IH]; [reflexivity|]. cbn [flat_map length]. rewrite app_length, IH. cbn [byte_bits map length]. lia. Qed.

Lemma byte_bits_pack b : b < 256 -> pack_bits (byte_bits b) = b.
Proof.
  intros H. assert (HA : forall n, (n < 256)%nat -> pack_bits (byte_bits (N.of_nat n)) = N.of_nat n).
  { assert (HB : forallb (fun n => pack_bits (byte_bits (N.of_nat n)) =? N.of_nat n) (seq 0 256) = true)
      by (vm_compute; reflexivity).
    rewrite forallb_forall in HB. intros n Hn. apply N.eqb_eq, HB, in_seq. lia. }
  rewrite <- (Nnat.N2Nat.id b). apply HA. lia.
Qed.

Lemma pack_bits_app a b : pack_bits (a ++ b) = pack_bits a + 2 ^ N.of_nat (length a) * pack_bits b.
Proof.
  induction a as [|x a IH]; [cbn [app length pack_bits]; change (2 ^ N.of_nat 0) with 1; lia|].
  cbn [app length pack_bits]. rewrite IH, Nnat.Nat2N.inj_succ, N.pow_succ_r by lia. lia.
Qed.

Lemma pack_bits_of l : bytes_ok l -> pack_bits (bits_of l) = le_val l.
Proof.
  induction 1 as [|b l Hb HF IH]; [reflexivity|]. unfold bits_of in *. cbn [flat_map le_val].
  rewrite pack_bits_app, IH, byte_bits_pack by exact Hb. reflexivity.
Qed.

Lemma valid_spec bs : bytes_ok bs -> (4 <= length bs)%nat ->
  feature_pack_valid bs = true <-> crc_run crc_ones (bits_of bs) = crc_shifts 32 crc_ones.
Proof.
  intros HB HL. unfold feature_pack_valid. replace (length bs <? 4)%nat with false by (symmetry; apply Nat.ltb_ge; lia).
  set (n := (length bs - 4)%nat). rewrite <- (firstn_skipn n bs) at 3.
  rewrite bits_of_app, crc_run_app. set (c := skipn n bs). set (m := firstn n bs).
  assert (Hc : length c = 4%nat) by (unfold c; rewrite skipn_length; lia).
  assert (HBc : bytes_ok c).
  { rewrite <- (firstn_skipn n bs) in HB. apply Forall_app in HB. tauto. }
  rewrite crc_run_pack by (rewrite bits_of_len, Hc; lia).
  rewrite bits_of_len, Hc, pack_bits_of by assumption. change (8 * 4)%nat with 32%nat.
  unfold crc32. fold m. set (s := crc_run crc_ones (bits_of m)).
  assert (Hs : s < 2 ^ 32) by (apply crc_run_lt; vm_compute; reflexivity).
  assert (Hv : le_val c < 2 ^ 32).
  { pose proof (le_val_lt c HBc) as H. unfold blen in H. rewrite Hc in H. exact H. }
  rewrite N.eqb_eq. split.
  - intros ->. f_equal. now rewrite <- N.lxor_assoc, N.lxor_nilpotent, N.lxor_0_l.
  - intros E.
    assert (E2 : crc_shifts 32 (N.lxor (N.lxor s (le_val c)) crc_ones) = 0)
      by (rewrite crc_shifts_lxor, E; apply N.lxor_nilpotent).
    apply crc_shifts_zero in E2.
    + apply N.lxor_eq in E2.
      rewrite <- E2, <- N.lxor_assoc, N.lxor_nilpotent. reflexivity.
    + apply lxor_lt; [now apply lxor_lt | vm_compute; reflexivity].
Qed.

Lemma crc32_lt bs : crc32 bs < 2 ^ 32.
Proof. unfold crc32. apply lxor_lt; [apply crc_run_lt|]; vm_compute; reflexivity. Qed.

Lemma finish_valid buf : feature_pack_valid (pack_finish buf) = true.
Proof.
  unfold pack_finish, feature_pack_valid. rewrite app_length, le_bytes_length.
  replace (length buf + 4 <? 4)%nat with false by (symmetry; apply Nat.ltb_ge; lia).
  replace (length buf + 4 - 4)%nat with (length buf) by lia.
  rewrite skipn_app_exact, firstn_app_exact. rewrite le_val_bytes; [apply N.eqb_refl | exact (crc32_lt buf)].
Qed.

Lemma pack_valid fs bs : pack_features fs = Ok bs -> feature_pack_valid bs = true.
Proof.
  unfold pack_features. intros H. apply bind_ok in H. destruct H as (h & _ & H).
  apply bind_ok in H. destruct H as (b & _ & H). apply Ok_inj in H. subst. apply finish_valid.
Qed.

Lemma crc_detects a b : bytes_ok a -> bytes_ok b -> length a = length b -> differ_in_window 32 a b ->
  feature_pack_valid a = true -> feature_pack_valid b = false.
Proof.
  intros Ha Hb HL (pre & x & y & post & E1 & E2 & H1 & H2 & H3) HV.
  destruct (Nat.lt_ge_cases (length a) 4) as [Hs|Hs].
  { unfold feature_pack_valid in HV. replace (length a <? 4)%nat with true in HV by (symmetry; now apply Nat.ltb_lt).
    discriminate. }
  apply (valid_spec a Ha Hs) in HV.
  destruct (feature_pack_valid b) eqn:EB; [|reflexivity].
  apply (valid_spec b Hb ltac:(lia)) in EB. exfalso.
  rewrite E1 in HV. rewrite E2 in EB.
  apply (crc_burst pre x y post H1 H2 H3). congruence.
Qed.

(** changing up to four adjacent bytes is such a window *)
Lemma bytes_differ_window p x y q : bytes_ok x -> bytes_ok y -> length x = length y -> (length x <= 4)%nat -> x <> y ->
  differ_in_window 32 (p ++ x ++ q) (p ++ y ++ q).
Proof.
  intros Hx Hy HL H4 Hne. exists (bits_of p), (bits_of x), (bits_of y), (bits_of q).
  rewrite !bits_of_app, !bits_of_len. repeat split; [lia | lia |].
  intros E. apply Hne. rewrite <- (le_bytes_val x Hx), <- (le_bytes_val y Hy).
  rewrite <- (pack_bits_of x Hx), <- (pack_bits_of y Hy), E. now rewrite HL.
Qed.

(** ** Sizes of serialized features *)
Lemma varint_len_lower k : forall fuel v, 2 ^ (7 * N.of_nat k) <= v -> v < 2 ^ (7 * N.of_nat fuel) ->
  (S k <= length (varint_enc_f fuel v))%nat.
Proof.
  induction k as [|k IH]; intros fuel v H1 H2.
  - destruct fuel as [|fuel]; [change (2 ^ (7 * N.of_nat 0)) with 1 in *; lia|].
    cbn [varint_enc_f]. destruct (v <? 128); cbn [length]; lia.
  - replace (7 * N.of_nat (S k)) with (7 + 7 * N.of_nat k) in H1 by lia.
    rewrite N.pow_add_r in H1. change (2 ^ 7) with 128 in H1.
    assert (0 < 2 ^ (7 * N.of_nat k)) by apply pow2_pos.
    destruct fuel as [|fuel]; [change (2 ^ (7 * N.of_nat 0)) with 1 in *; lia|].
    replace (7 * N.of_nat (S fuel)) with (7 + 7 * N.of_nat fuel) in H2 by lia.
    rewrite N.pow_add_r in H2. change (2 ^ 7) with 128 in H2.
    cbn [varint_enc_f]. destruct (N.ltb_spec v 128) as [Hv|Hv]; [lia|]. cbn [length].
    apply le_n_S. apply IH.
    + apply N.div_le_lower_bound; lia.
    + apply N.div_lt_upper_bound; lia.
Qed.

Lemma zigzag_far d : far d -> int64_ok d = true -> 4 <= blen (varint_enc (zigzag d)).
Proof.
  intros H1 H2. unfold blen. enough (4 <= length (varint_enc (zigzag d)))%nat by lia.
  apply varint_len_lower.
  - change (2 ^ (7 * N.of_nat 3)) with (2 ^ 21). unfold far in H1. unfold zigzag.
    destruct (0 <=? d)%Z eqn:E; lia.
  - change (2 ^ (7 * N.of_nat 10)) with (2 ^ 70). pose proof (zigzag_bound d H2). lia.
Qed.

Lemma blen_varint_pos v : 1 <= blen (varint_enc v).
Proof. pose proof (varint_len_pos v). unfold blen. lia. Qed.

Lemma field_bytes_blen tag d : blen (field_bytes tag d) >= 2 + blen d.
Proof.
  unfold field_bytes, field_key. rewrite !blen_app.
  pose proof (blen_varint_pos (tag * 8 + WT_LEN)). pose proof (blen_varint_pos (blen d)). lia.
Qed.

Lemma first_two cx cy x y ps ds c : enc_points cx cy ((x, y) :: ps) = Ok (ds, c) ->
  exists ds', ds = (x - cx)%Z :: (y - cy)%Z :: ds' /\ int64_ok (x - cx) = true /\ int64_ok (y - cy) = true.
Proof.
  intros H. cbn [enc_points] in H. apply bind_ok in H. destruct H as (dx & E1 & H).
  apply bind_ok in H. destruct H as (dy & E2 & H). apply bind_ok in H. destruct H as ([ds' c'] & _ & H).
  apply Ok_inj in H. injection H as <- _. apply sub64_ok in E1, E2.
  destruct E1 as [-> I1], E2 as [-> I2]. eauto.
Qed.

Lemma packed_two a b ds : far a -> far b -> int64_ok a = true -> int64_ok b = true ->
  8 <= blen (packed_sint (a :: b :: ds)).
Proof.
  intros. unfold packed_sint. cbn [flat_map]. rewrite !blen_app.
  pose proof (zigzag_far a H H1). pose proof (zigzag_far b H0 H2). lia.
Qed.

Lemma packed_cons_len a ds : 1 + blen (packed_sint ds) <= blen (packed_sint (a :: ds)).
Proof. unfold packed_sint. cbn [flat_map]. rewrite blen_app. pose proof (blen_varint_pos (zigzag a)). lia. Qed.

Lemma geom_far_size g bs : serialize_geom g = Ok bs -> geom_far g -> 13 <= blen bs.
Proof.
  intros H HF. destruct g as [|ps|ls|ps]; cbn [serialize_geom geom_far first_point] in *; try discriminate.
  - destruct ps as [|[x y] ps]; [contradiction|]. destruct HF as [F1 F2].
    cbn [negb verify bind] in H. unfold serialize_points in H. cbn [fst snd] in *.
    apply bind_ok in H. destruct H as ([ds c] & E & H). apply bind_ok in E. destruct E as ([ds0 c0] & E & E').
    apply Ok_inj in E'. injection E' as <- _. apply Ok_inj in H. subst bs.
    destruct (first_two _ _ _ _ _ _ _ E) as (ds' & -> & I1 & I2).
    rewrite blen_app. cbn [field_packed_sint64].
    match goal with |- context [packed_sint (?a :: ?x :: ?y :: ?t)] =>
      pose proof (field_bytes_blen TAG_GEOMETRY (packed_sint (a :: x :: y :: t)));
      pose proof (packed_cons_len a (x :: y :: t));
      pose proof (packed_two _ _ t F1 F2 I1 I2) end.
    assert (blen (field_varint TAG_TYPE 1) = 2) by reflexivity.
    lia.
  - destruct ls as [|[|[x y] l] ls]; try contradiction. destruct HF as [F1 F2].
    cbn [negb verify bind serialize_lines] in H. unfold serialize_points at 1 in H. cbn [fst snd] in *.
    apply bind_ok in H. destruct H as ([ds c] & E & H).
    apply bind_ok in E. destruct E as ([d1 c1] & E1 & E).
    apply bind_ok in E1. destruct E1 as ([ds0 c0] & E1 & E').
    apply Ok_inj in E'. injection E' as <- <-.
    apply bind_ok in E. destruct E as ([d2 c2] & _ & E). apply Ok_inj in E. injection E as <- _.
    apply Ok_inj in H. subst bs.
    destruct (first_two _ _ _ _ _ _ _ E1) as (ds' & -> & I1 & I2).
    rewrite blen_app. cbn [field_packed_sint64 app].
    match goal with |- context [packed_sint (?a :: ?b :: ?x :: ?y :: ?t)] =>
      pose proof (field_bytes_blen TAG_GEOMETRY (packed_sint (a :: b :: x :: y :: t)));
      pose proof (packed_cons_len a (b :: x :: y :: t)); pose proof (packed_cons_len b (x :: y :: t));
      pose proof (packed_two _ _ t F1 F2 I1 I2) end.
    assert (blen (field_varint TAG_TYPE 2) = 2) by reflexivity. lia.
  - destruct ps as [|[[|[x y] l] is] ps]; try contradiction. destruct HF as [F1 F2].
    cbn [negb verify bind serialize_polys] in H. unfold serialize_points at 1 in H. cbn [fst snd] in *.
    apply bind_ok in H. destruct H as ([ds c] & E & H).
    apply bind_ok in E. destruct E as ([d1 c1] & E1 & E).
    apply bind_ok in E1. destruct E1 as ([ds0 c0] & E1 & E').
    apply Ok_inj in E'. injection E' as <- <-.
    apply bind_ok in E. destruct E as ([d2 c2] & _ & E).
    apply bind_ok in E. destruct E as ([d3 c3] & _ & E). apply Ok_inj in E. injection E as <- _.
    apply Ok_inj in H. subst bs.
    destruct (first_two _ _ _ _ _ _ _ E1) as (ds' & -> & I1 & I2).
    rewrite blen_app. cbn [field_packed_sint64 app].
    match goal with |- context [packed_sint (?a :: ?b :: ?x :: ?y :: ?t)] =>
      pose proof (field_bytes_blen TAG_GEOMETRY (packed_sint (a :: b :: x :: y :: t)));
      pose proof (packed_cons_len a (b :: x :: y :: t)); pose proof (packed_cons_len b (x :: y :: t));
      pose proof (packed_two _ _ t F1 F2 I1 I2) end.
    assert (blen (field_varint TAG_TYPE 3) = 2) by reflexivity. lia.
Qed.

Lemma feature_far_size enc mk fast f bs : serialize_feature enc mk fast f = Ok bs ->
  geom_far (f_geom f) -> box_far (bounding_box (f_geom f)) -> 32 <= blen bs.
Proof.
  intros H HG [B1 B2]. unfold serialize_feature in H.
  apply bind_ok in H. destruct H as (hd & EH & H). apply bind_ok in H. destruct H as (g & EG & H).
  apply Ok_inj in H. subst bs. rewrite !blen_app.
  pose proof (geom_far_size _ _ EG HG). pose proof (field_bytes_blen F_GEOMETRY g).
  assert (2 <= blen (field_varint F_ID (f_id f))).
  { unfold field_varint, field_key. rewrite blen_app. pose proof (blen_varint_pos (f_id f)).
    pose proof (blen_varint_pos (F_ID * 8 + WT_VARINT)). lia. }
  enough (15 <= blen (field_packed_sint64 F_HEADER hd)) by lia.
  unfold feature_header in EH.
  apply bind_ok in EH. destruct EH as (x1 & E1 & EH). apply bind_ok in EH. destruct EH as (x2 & E2 & EH).
  apply bind_ok in EH. destruct EH as (y1 & E3 & EH). apply bind_ok in EH. destruct EH as (y2 & E4 & EH).
  apply Ok_inj in EH. subst hd. apply sub64_ok in E1, E3. destruct E1 as [-> I1], E3 as [-> I3].
  cbn [field_packed_sint64].
  match goal with |- _ <= blen (field_bytes _ ?d) => pose proof (field_bytes_blen F_HEADER d) end.
  enough (13 <= blen (packed_sint [Z.of_N (f_minz f); Z.of_N (f_maxz f); (bminx (bounding_box (f_geom f)) - kMagicOffset)%Z; x2;
     (bminy (bounding_box (f_geom f)) - kMagicOffset)%Z; y2; to_i64 (f_layer f)])) by lia.
  unfold packed_sint. cbn [flat_map]. rewrite !blen_app.
  pose proof (zigzag_far _ B1 I1). pose proof (zigzag_far _ B2 I3).
  pose proof (blen_varint_pos (zigzag (Z.of_N (f_minz f)))). pose proof (blen_varint_pos (zigzag (Z.of_N (f_maxz f)))).
  pose proof (blen_varint_pos (zigzag x2)). pose proof (blen_varint_pos (zigzag y2)).
  pose proof (blen_varint_pos (zigzag (to_i64 (f_layer f)))). lia.
Qed.

Lemma far_features_pack enc mk fast (fs : list feature) (bss : list bytes) :
  N.of_nat (length fs) < 2 ^ 32 ->
  Forall2 (fun f bs => serialize_feature enc mk fast f = Ok bs) fs bss ->
  Forall (fun f => geom_far (f_geom f) /\ box_far (bounding_box (f_geom f))) fs ->
  exists p, pack_features bss = Ok p.
Proof.
  intros HL H2 HF. apply pack_features_succeeds.
  - clear HL. induction H2 as [|f bs fs bss E H2 IH]; [constructor|].
    inversion HF as [|? ? [HG HB] HF']; subst. constructor; [|auto].
    eapply feature_far_size; eauto.
  - replace (length bss) with (length fs); [assumption|]. clear - H2. induction H2; cbn [length]; congruence.
Qed.

Lemma crc_detects_bytes p x y q : bytes_ok p -> bytes_ok x -> bytes_ok y -> bytes_ok q ->
  length x = length y -> (length x <= 4)%nat -> x <> y ->
  feature_pack_valid (p ++ x ++ q) = true -> feature_pack_valid (p ++ y ++ q) = false.
Proof.
  intros Hp Hx Hy Hq HL H4 HN HV. eapply crc_detects; [..|exact HV].
  - apply Forall_app; split; [assumption|]. apply Forall_app; now split.
  - apply Forall_app; split; [assumption|]. apply Forall_app; now split.
  - rewrite !app_length. lia.
  - now apply bytes_differ_window.
Qed.
