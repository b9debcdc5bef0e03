From Verif Require Import Base BaseProof ModelTile SpecTile ProofTile ModelPackFile SpecPackFile.
Open Scope N_scope.

Lemma zeros_length n : length (zeros n) = N.to_nat n.
Proof. apply repeat_length. Qed.

Lemma blen_zeros n : blen (zeros n) = n.
Proof. unfold blen. rewrite zeros_length. lia. Qed.

Lemma write_at_length m off d : off + blen d <= blen m -> blen (write_at m off d) = blen m.
Proof.
  unfold write_at, blen. intros H. rewrite !app_length, firstn_length, skipn_length. lia.
Qed.

Lemma write_at_same m off d : off + blen d <= blen m -> slice (write_at m off d) off (blen d) = d.
Proof.
  intros H. unfold write_at.
  replace off with (blen (firstn (N.to_nat off) m)) at 3.
  - apply slice_app_exact.
  - unfold blen in *. rewrite firstn_length. lia.
Qed.

Lemma nth_error_write m off d i :
  off + blen d <= blen m ->
  nth_error (write_at m off d) i =
  if (N.to_nat off <=? i)%nat && (i <? N.to_nat off + length d)%nat
  then nth_error d (i - N.to_nat off) else nth_error m i.
Proof.
  intros H. unfold write_at, blen in *.
  assert (L : length (firstn (N.to_nat off) m) = N.to_nat off) by (rewrite firstn_length; lia).
  destruct (Nat.leb_spec (N.to_nat off) i) as [H1|H1]; cbn [andb].
  - rewrite nth_error_app2 by lia. rewrite L.
    destruct (Nat.ltb_spec i (N.to_nat off + length d)) as [H2|H2].
    + rewrite nth_error_app1 by lia. reflexivity.
    + rewrite nth_error_app2 by lia. rewrite nth_error_skipn. f_equal. lia.
  - rewrite nth_error_app1 by lia. apply nth_error_firstn. lia.
Qed.

Lemma nth_error_slice l off len i :
  nth_error (slice l off len) i =
  if (i <? N.to_nat len)%nat then nth_error l (N.to_nat off + i) else None.
Proof.
  unfold slice. destruct (Nat.ltb_spec i (N.to_nat len)) as [H|H].
  - rewrite nth_error_firstn by assumption. apply nth_error_skipn.
  - apply nth_error_None. rewrite firstn_length. lia.
Qed.

Lemma write_at_other m off d o n :
  off + blen d <= blen m -> disjoint off (blen d) o n ->
  slice (write_at m off d) o n = slice m o n.
Proof.
  intros H Hd. apply list_ext. intros i. rewrite !nth_error_slice.
  destruct (Nat.ltb_spec i (N.to_nat n)) as [Hi|Hi]; [|reflexivity].
  rewrite nth_error_write by assumption. unfold disjoint, blen in *.
  replace ((N.to_nat off <=? N.to_nat o + i)%nat && (N.to_nat o + i <? N.to_nat off + length d)%nat)
    with false; [reflexivity|].
  symmetry. apply andb_false_iff.
  destruct Hd; [right|left]; [apply Nat.ltb_ge | apply Nat.leb_gt]; lia.
Qed.

Lemma pf_resize_inv s n : pf_inv (pf_resize s n).
Proof. unfold pf_inv, pf_resize. cbn. rewrite blen_app, blen_zeros. lia. Qed.

Lemma pf_resize_mem_len s n : blen (pf_mem (pf_resize s n)) = N.max (blen (pf_mem s)) n.
Proof. unfold pf_resize. cbn. rewrite blen_app, blen_zeros. lia. Qed.

Lemma pf_resize_slice s n o l : o + l <= blen (pf_mem s) ->
  slice (pf_mem (pf_resize s n)) o l = slice (pf_mem s) o l.
Proof. intros H. unfold pf_resize. cbn. now apply slice_app_l. Qed.

Lemma pf_get_inside s r : pf_inv s -> pf_size s < 2 ^ 64 -> inside s r ->
  pf_get s r = Ok (slice (pf_mem s) (r_off r) (r_size r)).
Proof.
  intros Hi Hs [H1 H2]. unfold pf_get, pf_inv in *.
  rewrite N.mod_small by lia.
  replace (r_off r <? pf_size s) with true by lia.
  replace (r_off r + r_size r <=? pf_size s) with true by lia. cbn [andb verify bind].
  replace (r_off r + r_size r <=? blen (pf_mem s)) with true by lia. reflexivity.
Qed.

(** C05, single operations *)
Lemma insert_spec s off d :
  pf_inv s ->
  let '(s', r) := pf_insert s off d in
  pf_inv s' /\ r = Rec off (blen d) /\ pf_size s' = N.max (pf_size s) (off + blen d) /\
  slice (pf_mem s') off (blen d) = d /\
  (forall o n, o + n <= blen (pf_mem s) -> disjoint off (blen d) o n ->
     slice (pf_mem s') o n = slice (pf_mem s) o n) /\
  blen (pf_mem s) <= blen (pf_mem s').
Proof.
  intros Hi. unfold pf_insert. cbn [r_off r_size fst snd].
  set (n := N.max (pf_size s) (off + blen d)).
  pose proof (pf_resize_mem_len s n) as L.
  assert (Hw : off + blen d <= blen (pf_mem (pf_resize s n))) by (unfold n in *; lia).
  unfold pf_inv. cbn [pf_mem pf_size].
  rewrite write_at_length by assumption.
  split. { unfold pf_inv, pf_resize in *. cbn in *. unfold n in *. lia. }
  split; [reflexivity|]. split; [reflexivity|].
  split; [now apply write_at_same|]. split; [|unfold n in *; lia].
  intros o k Ho Hd. rewrite write_at_other by assumption.
  now apply pf_resize_slice.
Qed.

Lemma move_spec s off from :
  pf_inv s -> r_off from + r_size from <= pf_size s ->
  exists s', pf_move s off from = Ok (s', Rec off (r_size from)) /\
  pf_inv s' /\ pf_size s' = N.max (pf_size s) (off + r_size from) /\
  slice (pf_mem s') off (r_size from) = slice (pf_mem s) (r_off from) (r_size from) /\
  (forall o n, o + n <= blen (pf_mem s) -> disjoint off (r_size from) o n ->
     slice (pf_mem s') o n = slice (pf_mem s) o n) /\
  blen (pf_mem s) <= blen (pf_mem s').
Proof.
  intros Hi Hf. unfold pf_move. cbn [r_off r_size].
  set (n := N.max (pf_size s) (off + r_size from)).
  pose proof (pf_resize_mem_len s n) as L.
  replace (r_off from + r_size from <=? blen (pf_mem (pf_resize s n))) with true
    by (unfold pf_inv in Hi; lia).
  set (d := slice (pf_mem (pf_resize s n)) (r_off from) (r_size from)).
  assert (Ld : blen d = r_size from).
  { unfold blen, d. rewrite slice_length by (unfold pf_inv in Hi; lia). lia. }
  assert (Hw : off + blen d <= blen (pf_mem (pf_resize s n))) by (unfold n in *; lia).
  eexists. split; [reflexivity|]. unfold pf_inv. cbn [pf_mem pf_size].
  rewrite write_at_length by assumption.
  split. { unfold pf_inv, pf_resize in *. cbn in *. unfold n in *. lia. }
  split; [reflexivity|].
  split.
  { rewrite <- Ld at 1. rewrite write_at_same by assumption. unfold d.
    apply pf_resize_slice. unfold pf_inv in Hi. lia. }
  split; [|unfold n in *; lia].
  intros o k Ho Hd. rewrite write_at_other by (first [assumption | rewrite Ld; assumption]).
  now apply pf_resize_slice.
Qed.

(** ** Reopening *)
Lemma trimmed_len_le l : (trimmed_len l <= length l)%nat.
Proof.
  induction l as [|b l IH]; [cbn; lia|]. cbn [trimmed_len length].
  destruct (trimmed_len l); [destruct (b =? 0)|]; lia.
Qed.

Lemma trimmed_len_ge l i b : nth_error l i = Some b -> b <> 0 -> (i < trimmed_len l)%nat.
Proof.
  revert i. induction l as [|c l IH]; intros i H Hb; [destruct i; discriminate|].
  cbn [trimmed_len]. destruct i as [|i].
  - cbn in H. injection H as ->.
    destruct (trimmed_len l); [|lia]. replace (b =? 0) with false by lia. lia.
  - cbn in H. specialize (IH i H Hb). destruct (trimmed_len l); lia.
Qed.

Lemma trimmed_len_zero_after l i b : nth_error l i = Some b -> (trimmed_len l <= i)%nat -> b = 0.
Proof.
  intros H Hi. destruct (N.eq_dec b 0) as [E|E]; [exact E|].
  pose proof (trimmed_len_ge l i b H E). lia.
Qed.

Lemma pf_open_inv disk : pf_inv (pf_open disk).
Proof. unfold pf_inv, pf_open, blen. cbn. pose proof (trimmed_len_le disk). lia. Qed.

(** after a clean close the reopened size is at least the old size and the
    bytes of the old file are unchanged *)
Lemma reopen_spec s : pf_inv s ->
  let s' := pf_open (pf_close s) in
  pf_inv s' /\ pf_size s <= pf_size s' /\
  (forall o n, o + n <= pf_size s -> slice (pf_mem s') o n = slice (pf_mem s) o n).
Proof.
  intros Hi s'. split; [apply pf_open_inv|].
  unfold s', pf_open, pf_close. cbn [pf_mem pf_size].
  destruct ((pf_size s =? 0) || (nth (N.to_nat (pf_size s - 1)) (pf_mem s) 0 =? 0)) eqn:E.
  - pose proof (insert_spec s (pf_size s) [97] Hi) as HI.
    unfold pf_append in *. destruct (pf_insert s (pf_size s) [97]) as [s2 r] eqn:E2.
    destruct HI as (Hinv & -> & Hsz & Hsl & Hother & Hlen). cbn [fst].
    change (blen [97]) with 1 in *.
    split.
    + assert (Hn : nth_error (pf_mem s2) (N.to_nat (pf_size s)) = Some 97).
      { pose proof (nth_error_slice (pf_mem s2) (pf_size s) 1 0) as Hn.
        rewrite Hsl in Hn. cbn in Hn. rewrite Nat.add_0_r in Hn. auto. }
      apply trimmed_len_ge in Hn; [lia | discriminate].
    + intros o n Ho. unfold pf_inv in Hi. apply Hother; [lia|]. unfold disjoint. lia.
  - split; [|reflexivity].
    unfold pf_inv, blen in Hi. apply orb_false_iff in E. destruct E as [E1 E2].
    assert (Hn : nth_error (pf_mem s) (N.to_nat (pf_size s - 1))
                 = Some (nth (N.to_nat (pf_size s - 1)) (pf_mem s) 0))
      by (apply nth_error_nth'; lia).
    apply trimmed_len_ge in Hn; lia.
Qed.

Lemma step_spec s o : pf_inv s -> op_ok s o ->
  exists s' r, pf_step s o = Ok (s', r) /\ pf_inv s' /\ pf_size s <= pf_size s' /\
  forall q n, q + n <= pf_size s -> disjoint (fst (op_span s o)) (snd (op_span s o)) q n ->
     slice (pf_mem s') q n = slice (pf_mem s) q n.
Proof.
  intros Hi Ho. destruct o as [d|off d|off from|]; cbn [pf_step op_span fst snd].
  - pose proof (insert_spec s (pf_size s) d Hi) as HI. unfold pf_append.
    destruct (pf_insert s (pf_size s) d) as [s' r]. destruct HI as (H1 & H2 & H3 & H4 & H5 & H6).
    exists s', (Some r). repeat split; try assumption; [lia|].
    intros q n Hq Hd. apply H5; [unfold pf_inv in Hi; lia | assumption].
  - pose proof (insert_spec s off d Hi) as HI.
    destruct (pf_insert s off d) as [s' r]. destruct HI as (H1 & H2 & H3 & H4 & H5 & H6).
    exists s', (Some r). repeat split; try assumption; [lia|].
    intros q n Hq Hd. apply H5; [unfold pf_inv in Hi; lia | assumption].
  - destruct (move_spec s off from Hi Ho) as (s' & E & H1 & H2 & H3 & H4 & H5).
    rewrite E. cbn [bind]. eexists _, _. split; [reflexivity|]. repeat split; try assumption; [lia|].
    intros q n Hq Hd. apply H4; [unfold pf_inv in Hi; lia | assumption].
  - destruct (reopen_spec s Hi) as (H1 & H2 & H3).
    eexists _, _. split; [reflexivity|]. repeat split; try assumption.
    intros q n Hq _. now apply H3.
Qed.

Lemma run_preserves os : forall s o n,
  pf_inv s -> o + n <= pf_size s -> pf_safe s os o n ->
  exists s', pf_run s os = Ok s' /\ pf_inv s' /\ pf_size s <= pf_size s' /\
             slice (pf_mem s') o n = slice (pf_mem s) o n.
Proof.
  induction os as [|op os IH]; intros s o n Hi Hs HS.
  - exists s. repeat split; auto. lia.
  - destruct HS as (Hok & Hd & HS).
    destruct (step_spec s op Hi Hok) as (s1 & r & E & Hi1 & Hsz & Hsl).
    cbn [pf_run]. rewrite E. cbn [bind].
    destruct (IH s1 o n Hi1 ltac:(lia) (HS s1 r E)) as (s2 & E2 & Hi2 & Hsz2 & Hsl2).
    exists s2. repeat split; auto; [lia|]. rewrite Hsl2. now apply Hsl.
Qed.

Lemma run_inv os : forall s s', pf_inv s -> pf_run s os = Ok s' ->
  (forall s o s' r, pf_inv s -> pf_step s o = Ok (s', r) -> pf_inv s') -> pf_inv s'.
Proof.
  induction os as [|o os IH]; intros s s' Hi H HP; cbn [pf_run] in H.
  - injection H as <-. exact Hi.
  - apply bind_ok in H. destruct H as ([s1 r] & E & H). eauto.
Qed.

Lemma step_inv s o s' r : pf_inv s -> pf_step s o = Ok (s', r) -> pf_inv s'.
Proof.
  intros Hi H. destruct o as [d|off d|off from|]; cbn [pf_step] in H.
  - pose proof (insert_spec s (pf_size s) d Hi) as HI. unfold pf_append in H.
    destruct (pf_insert s (pf_size s) d). injection H as <- _. tauto.
  - pose proof (insert_spec s off d Hi) as HI.
    destruct (pf_insert s off d). injection H as <- _. tauto.
  - apply bind_ok in H. destruct H as ([s1 r1] & E & H). injection H as <- _.
    unfold pf_move in E. cbn [r_off r_size] in E.
    set (n := N.max (pf_size s) (off + r_size from)) in *.
    destruct (N.leb_spec (r_off from + r_size from) (blen (pf_mem (pf_resize s n)))) as [HL|HL];
      [|discriminate].
    injection E as <- _. unfold pf_inv. cbn [pf_mem pf_size].
    pose proof (pf_resize_mem_len s n) as L.
    assert (Ld : blen (slice (pf_mem (pf_resize s n)) (r_off from) (r_size from)) = r_size from)
      by (unfold blen at 1; rewrite slice_length by assumption; lia).
    change (pf_mem s ++ zeros (n - blen (pf_mem s))) with (pf_mem (pf_resize s n)).
    rewrite write_at_length by (rewrite Ld; unfold n in *; lia).
    pose proof (pf_resize_inv s n) as HR. exact HR.
  - injection H as <- _. apply pf_open_inv.
Qed.

(** Main C05 statement: from any reachable state, append [d], continue with any
    legal history that leaves the span alone: reading gives [d]. *)
Lemma append_then_get s0 pre s d post s' :
  pf_inv s0 -> pf_run s0 pre = Ok s -> d <> [] ->
  let '(s1, r) := pf_append s d in
  pf_safe s1 post (r_off r) (r_size r) -> pf_run s1 post = Ok s' -> pf_size s' < 2 ^ 64 ->
  r_off r = pf_size s /\ pf_get s' r = Ok d.
Proof.
  intros Hi0 Hrun Hd.
  assert (Hi : pf_inv s) by (eapply run_inv; eauto using step_inv).
  pose proof (insert_spec s (pf_size s) d Hi) as HI. unfold pf_append.
  destruct (pf_insert s (pf_size s) d) as [s1 r].
  destruct HI as (H1 & -> & H3 & H4 & _ & _). cbn [r_off r_size].
  intros HS HR Hb. split; [reflexivity|].
  destruct (run_preserves post s1 (pf_size s) (blen d) H1 ltac:(lia) HS) as (s2 & E2 & Hi2 & Hsz2 & Hsl2).
  rewrite HR in E2. injection E2 as <-.
  rewrite pf_get_inside; try assumption.
  - cbn [r_off r_size]. now rewrite Hsl2, H4.
  - unfold inside. cbn [r_off r_size]. destruct d; [congruence|]. rewrite blen_cons in *. lia.
Qed.

(** C07 *)
Lemma reopen_get s r d :
  pf_inv s -> pf_size s + 1 < 2 ^ 64 -> r_off r + r_size r <= pf_size s ->
  pf_get s r = Ok d ->
  pf_size s <= pf_size (pf_open (pf_close s)) /\
  (pf_size (pf_open (pf_close s)) < 2 ^ 64 -> pf_get (pf_open (pf_close s)) r = Ok d).
Proof.
  intros Hi Hb Hr Hg. destruct (reopen_spec s Hi) as (H1 & H2 & H3).
  split; [exact H2|]. intros Hb2.
  assert (HI : inside s r).
  { unfold pf_get in Hg. apply bind_ok in Hg. destruct Hg as (? & Hv & _).
    destruct x. apply verify_ok in Hv. split; lia. }
  rewrite pf_get_inside in Hg by (first [assumption | lia]). injection Hg as <-.
  rewrite pf_get_inside; try assumption.
  - now rewrite H3.
  - unfold inside in *. lia.
Qed.

(** conditional crash safety: last byte not '\0' *)
Lemma crash_safe_if_last_nonzero s r d :
  pf_inv s -> pf_size s < 2 ^ 64 -> pf_size s <> 0 ->
  nth (N.to_nat (pf_size s - 1)) (pf_mem s) 0 <> 0 ->
  r_off r + r_size r <= pf_size s -> pf_get s r = Ok d ->
  pf_size (pf_open (pf_crash s)) < 2 ^ 64 ->
  pf_size s <= pf_size (pf_open (pf_crash s)) /\ pf_get (pf_open (pf_crash s)) r = Ok d.
Proof.
  intros Hi Hb H0 Hn Hr Hg Hb2. unfold pf_crash in *.
  assert (HS : pf_size s <= pf_size (pf_open (pf_mem s))).
  { cbn. unfold pf_inv, blen in Hi.
    assert (He : nth_error (pf_mem s) (N.to_nat (pf_size s - 1))
                 = Some (nth (N.to_nat (pf_size s - 1)) (pf_mem s) 0))
      by (apply nth_error_nth'; lia).
    apply trimmed_len_ge in He; lia. }
  split; [exact HS|].
  assert (HI : inside s r).
  { unfold pf_get in Hg. apply bind_ok in Hg. destruct Hg as (? & Hv & _).
    destruct x. apply verify_ok in Hv. split; lia. }
  rewrite pf_get_inside in Hg by (first [assumption | lia]). injection Hg as <-.
  rewrite pf_get_inside; try assumption.
  - reflexivity.
  - apply pf_open_inv.
  - unfold inside in *. lia.
Qed.

(** get never returns bytes of a record outside the file unless the sum wraps *)
Lemma get_rejects_outside s r :
  pf_inv s -> pf_size s < 2 ^ 64 -> r_off r + r_size r < 2 ^ 64 ->
  ~ inside s r -> pf_get s r = Throw.
Proof.
  intros Hi Hb Hw Hn. unfold pf_get, inside in *. rewrite N.mod_small by assumption.
  replace ((r_off r <? pf_size s) && (r_off r + r_size r <=? pf_size s)) with false by lia.
  reflexivity.
Qed.

Lemma pack_file_name_spec f :
  (exists base, f = base ++ [46; 109; 100; 98] /\ pack_file_name f = base ++ [46; 112; 99; 107]) \/
  ((~ exists base, f = base ++ [46; 109; 100; 98]) /\ pack_file_name f = f ++ [46; 112; 99; 107]).
Proof.
  unfold pack_file_name.
  destruct (Nat.leb_spec 4 (length f)) as [H|H]; cbn [andb].
  - destruct (bytes_eqb (skipn (length f - 4) f) [46; 109; 100; 98]) eqn:E.
    + left. apply bytes_eqb_eq in E. exists (firstn (length f - 4) f).
      split; [|reflexivity]. rewrite <- E. symmetry. apply firstn_skipn.
    + right. split; [|reflexivity]. intros (base & ->).
      assert (bytes_eqb (skipn (length (base ++ [46;109;100;98]) - 4) (base ++ [46;109;100;98])) [46;109;100;98] = true).
      { apply bytes_eqb_eq. rewrite app_length. cbn [length].
        apply skipn_app_exact'. lia. }
      congruence.
  - right. split; [|reflexivity]. intros (base & ->). rewrite app_length in H. cbn [length] in H. lia.
Qed.

(** data inserted behind the end leaves zeros *)
Lemma insert_behind s off d o n : pf_inv s -> blen (pf_mem s) <= o -> o + n <= off ->
  slice (pf_mem (fst (pf_insert s off d))) o n = repeat 0 (N.to_nat n).
Proof.
  unfold pf_inv, pf_insert, pf_resize, write_at, zeros, slice. cbn [fst pf_mem pf_size r_off r_size]. intros I Ho Hn.
  set (k := N.max (pf_size s) (off + blen d) - blen (pf_mem s)).
  assert (Hk : blen (pf_mem s) + k >= off) by (subst k; lia). clearbody k.
  unfold blen in *. set (m := pf_mem s) in *. clearbody m.
  rewrite firstn_app. rewrite (firstn_all2 m) by lia.
  assert (E : firstn (N.to_nat off - length m) (repeat 0 (N.to_nat k)) = repeat 0 (N.to_nat off - length m)).
  { assert (N.to_nat off - length m <= N.to_nat k)%nat as L by lia. revert L. generalize (N.to_nat off - length m)%nat, (N.to_nat k).
    clear. intros a b. revert b. induction a as [|a IH]; intros [|b] L; cbn [firstn repeat]; [reflexivity|reflexivity|lia|]. f_equal. apply IH. lia. }
  rewrite E. rewrite <- app_assoc, skipn_app. rewrite (skipn_all2 m) by lia. cbn [app].
  set (j := (N.to_nat o - length m)%nat). assert (L2 : (j + N.to_nat n <= N.to_nat off - length m)%nat) by (subst j; lia). clearbody j.
  revert L2. generalize (N.to_nat off - length m)%nat, (N.to_nat n). generalize (d ++ skipn (N.to_nat off + length d) (m ++ repeat 0 (N.to_nat k))). clear.
  intros t a. revert j. induction a as [|a IH]; intros j n L; [replace n with 0%nat by lia; reflexivity|].
  destruct j as [|j]; cbn [repeat app skipn].
  - destruct n as [|n]; [reflexivity|]. cbn [firstn repeat]. f_equal. apply (IH 0%nat). lia.
  - apply IH. lia.
Qed.
