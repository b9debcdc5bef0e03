(** The node index: what the builder writes, single lookups. *)
From Coq Require Import Sorted.
From Verif Require Import Base BaseProof ModelCodec ProofCodec ModelNodeIdx SpecNodeIdx.
Open Scope Z_scope.

(** consecutive nodes *)
Fixpoint number (c : Z) (cs : list npos) : list (Z * npos) :=
  match cs with [] => [] | p :: cs' => (c, p) :: number (c + 1) cs' end.
Definition find_id (ns : list (Z * npos)) (q : Z) : option npos := option_map snd (find (fun n => fst n =? q) ns).
Notation zlen l := (Z.of_nat (length l)).

Lemma number_len c cs : length (number c cs) = length cs.
Proof. revert c. induction cs as [|p cs IH]; intros c; cbn [number length]; [reflexivity|]. now rewrite IH. Qed.
Lemma number_ids c cs : Forall (fun n => c <= fst n < c + zlen cs) (number c cs).
Proof.
  revert c. induction cs as [|p cs IH]; intros c; cbn [number length]; constructor; [cbn [fst]; lia|].
  eapply Forall_impl; [|apply IH]. cbn beta. intros. lia.
Qed.
Lemma number_app c a b : number c (a ++ b) = number c a ++ number (c + zlen a) b.
Proof.
  revert c. induction a as [|p a IH]; intros c; cbn [number app length]; [f_equal; lia|]. rewrite IH. do 2 f_equal. f_equal. lia.
Qed.

Lemma find_id_app a b q : find_id (a ++ b) q = match find_id a q with Some p => Some p | None => find_id b q end.
Proof. unfold find_id. induction a as [|n a IH]; cbn [app find]; [reflexivity|]. destruct (fst n =? q); [reflexivity|]. exact IH. Qed.
Lemma find_id_none a q : Forall (fun n => fst n <> q) a -> find_id a q = None.
Proof. unfold find_id. induction 1 as [|n a H F IH]; cbn [find]; [reflexivity|]. destruct (Z.eqb_spec (fst n) q); [contradiction|]. exact IH. Qed.
Lemma find_id_skip a b q : Forall (fun n => fst n <> q) a -> find_id (a ++ b) q = find_id b q.
Proof. intros H. now rewrite find_id_app, find_id_none. Qed.
Lemma find_id_cons c p ns q : find_id ((c, p) :: ns) q = if c =? q then Some p else find_id ns q.
Proof. unfold find_id. cbn [find fst]. now destruct (c =? q). Qed.

(** [part t e c ns bs]: the bytes [bs], read from the id [c] on, describe the nodes [ns] up to the
    id [e] and continue with [t] *)
Inductive part (t : bytes) (e : Z) : Z -> list (Z * npos) -> bytes -> Prop :=
| part_end : part t e e [] t
| part_gap c g ns bs : 0 < g -> c + g < 2 ^ 63 -> part t e (c + g) ns bs -> part t e c ns (varint_enc (Z.to_N (g * 2) + 1) ++ bs)
| part_coords c x y cs ns bs : Forall pos_ok ((x, y) :: cs) -> c + 1 + zlen cs < 2 ^ 63 ->
    part t e (c + 1 + zlen cs) ns bs ->
    part t e c ((c, (x, y)) :: number (c + 1) cs ++ ns)
      (varint_enc (N.of_nat (length cs) * 2) ++ fixed_enc x ++ fixed_enc y ++ span_deltas x y cs ++ bs).

Lemma part_ids t e c ns bs : part t e c ns bs -> c <= e /\ Forall (fun n => c <= fst n < e) ns.
Proof.
  induction 1 as [|c g ns bs G B H [IH1 IH2]|c x y cs ns bs F B H [IH1 IH2]].
  - split; [lia|constructor].
  - split; [lia|]. eapply Forall_impl; [|exact IH2]. cbn beta. intros. lia.
  - split; [lia|]. constructor; [cbn [fst]; lia|]. apply Forall_app. split; [|eapply Forall_impl; [|exact IH2]; cbn beta; intros; lia].
    eapply Forall_impl; [|apply number_ids]. cbn beta. intros. lia.
Qed.
Lemma part_app t e m c ns1 b1 ns2 b2 : part [] m c ns1 b1 -> part t e m ns2 b2 -> part t e c (ns1 ++ ns2) (b1 ++ b2).
Proof.
  intros H1 H2. induction H1 as [|c g ns bs G B H IH|c x y cs ns bs F B H IH].
  - exact H2.
  - rewrite <- app_assoc. now constructor.
  - rewrite <- app_comm_cons. rewrite <- !app_assoc. now constructor.
Qed.

(** ** reading primitives *)
Lemma fixed_read v bs : 0 <= v < 2 ^ 32 -> read_fixed (fixed_enc v ++ bs) = Ok (v, bs).
Proof.
  intros H. unfold fixed_enc. assert (E : le_val (le_bytes 4 (to_u32 v)) = Z.to_N v).
  { unfold to_u32. rewrite Z.mod_small by exact H. apply le_val_bytes. change (256 ^ N.of_nat 4)%N with (Z.to_N (2 ^ 32)). lia. }
  revert E. cbn [le_bytes]. intros E. cbn [app read_fixed]. rewrite E. do 2 f_equal. lia.
Qed.
Lemma fixed_len v : length (fixed_enc v) = 4%nat.
Proof. apply le_bytes_length. Qed.
Lemma delta_small a b : 0 <= a < 2 ^ 32 -> 0 <= b < 2 ^ 32 -> int64_ok (b - a) = true /\ int64_ok b = true.
Proof. unfold int64_ok, min64, max64. change (2 ^ 32) with 4294967296. change (2 ^ 63) with 9223372036854775808. lia. Qed.
Lemma delta_read a b bs : 0 <= a < 2 ^ 32 -> 0 <= b < 2 ^ 32 -> read_delta a (varint_enc (zigzag (b - a)) ++ bs) = Ok (b, bs).
Proof.
  intros Ha Hb. destruct (delta_small a b Ha Hb) as [E1 E2]. unfold read_delta. rewrite varint_roundtrip by now apply zigzag_bound. cbn [bind].
  rewrite zigzag_roundtrip. unfold add64. replace (a + (b - a)) with b by lia. rewrite E2. reflexivity.
Qed.
Lemma skip_enc_f k : forall fuel v bs, (v < 2 ^ (7 * N.of_nat (S k)))%N -> (k < fuel)%nat -> skip_varint k (varint_enc_f fuel v ++ bs) = Ok bs.
Proof.
  induction k as [|k IH]; intros fuel v bs Hv Hf; destruct fuel as [|fuel]; try lia; cbn [varint_enc_f].
  - change (2 ^ (7 * N.of_nat 1))%N with 128%N in Hv. destruct (N.ltb_spec v 128); [|lia]. cbn [app skip_varint]. destruct (N.ltb_spec v 128); [reflexivity|lia].
  - destruct (N.ltb_spec v 128) as [H|H]; cbn [app skip_varint].
    + destruct (N.ltb_spec v 128); [reflexivity|lia].
    + destruct (N.ltb_spec (v mod 128 + 128) 128); [lia|]. apply IH; [|lia].
      apply N.div_lt_upper_bound; [lia|]. eapply N.lt_le_trans; [exact Hv|]. change 128%N with (2 ^ 7)%N. rewrite <- N.pow_add_r. apply N.pow_le_mono_r; lia.
Qed.
Lemma skip_enc v bs : (v < 2 ^ 64)%N -> skip_varint 9 (varint_enc v ++ bs) = Ok bs.
Proof. intros H. apply skip_enc_f; [|lia]. eapply N.lt_le_trans; [exact H|]. apply N.pow_le_mono_r; lia. Qed.

Lemma add64_ok a b : -2 ^ 63 <= a + b < 2 ^ 63 -> add64 a b = Ok (a + b).
Proof. intros H. unfold add64, int64_ok, min64, max64. destruct (Z.leb_spec (-2 ^ 63) (a + b)); [|lia]. destruct (Z.leb_spec (a + b) (2 ^ 63 - 1)); [reflexivity|lia]. Qed.
Lemma sub64_ok a b : -2 ^ 63 <= a - b < 2 ^ 63 -> sub64 a b = Ok (a - b).
Proof. intros H. unfold sub64, int64_ok, min64, max64. destruct (Z.leb_spec (-2 ^ 63) (a - b)); [|lia]. destruct (Z.leb_spec (a - b) (2 ^ 63 - 1)); [reflexivity|lia]. Qed.
Lemma wrap64_ok a : -2 ^ 63 <= a < 2 ^ 63 -> wrap64 a = a.
Proof.
  intros H. unfold wrap64, to_i64, to_u64. assert (P : 0 <= a mod 2 ^ 64 < 2 ^ 64) by (apply Z.mod_pos_bound; lia).
  rewrite N.mod_small by (change (2 ^ 64)%N with (Z.to_N (2 ^ 64)); lia). rewrite Z2N.id by lia.
  destruct (Z.ltb_spec a 0) as [L|L].
  - rewrite <- (Z.mod_add a 1) by lia. rewrite Z.mod_small by lia. destruct (Z.ltb_spec (a + 1 * 2 ^ 64) (2 ^ 63)); lia.
  - rewrite Z.mod_small by lia. destruct (Z.ltb_spec a (2 ^ 63)); lia.
Qed.
Lemma abs64_ok z : -2 ^ 63 < z -> abs64 z = Ok (Z.abs z).
Proof. intros H. unfold abs64, min64. destruct (Z.eqb_spec z (-2 ^ 63)); [lia|reflexivity]. Qed.

(** ** writing spans *)
Lemma span_more_le x y cs : (span_more x y cs <= length cs)%nat.
Proof. revert x y. induction cs as [|[x' y'] cs IH]; intros x y; cbn [span_more length]; [lia|]. destruct (9 <? _)%N; [lia|]. specialize (IH x' y'). lia. Qed.

Lemma coord_spans_part fuel : forall cs c, (length cs <= fuel)%nat -> Forall pos_ok cs -> c + zlen cs < 2 ^ 63 ->
  exists d, coord_spans fuel cs = Ok d /\ part [] (c + zlen cs) c (number c cs) d.
Proof.
  induction fuel as [|fuel IH]; intros cs c Hf F Hb.
  - destruct cs as [|[x y] cs]; [|cbn [length] in Hf; lia]. exists []. split; [reflexivity|]. cbn [number length]. replace (c + Z.of_nat 0) with c by lia. constructor.
  - destruct cs as [|[x y] tl]; [exists []; split; [reflexivity|]; cbn [number length]; replace (c + Z.of_nat 0) with c by lia; constructor|].
    cbn [coord_spans]. pose proof (span_more_le x y tl) as Hn. set (n := span_more x y tl) in *. clearbody n.
    inversion F as [|? ? F1 F2]. subst. rewrite <- (firstn_skipn n tl) in F2. apply Forall_app in F2 as [F2 F3].
    assert (L1 : length (firstn n tl) = n) by now apply firstn_length_le.
    assert (L2 : length (skipn n tl) = (length tl - n)%nat) by apply skipn_length.
    cbn [length] in Hf, Hb. destruct (IH (skipn n tl) (c + 1 + zlen (firstn n tl))) as (d & D1 & D2); [lia|exact F3|lia|].
    rewrite D1. cbn [bind]. eexists. split; [reflexivity|].
    replace (c + zlen ((x, y) :: tl)) with (c + 1 + zlen (firstn n tl) + zlen (skipn n tl)) by (cbn [length]; lia).
    assert (EN : number c ((x, y) :: tl) = (c, (x, y)) :: number (c + 1) (firstn n tl) ++ number (c + 1 + zlen (firstn n tl)) (skipn n tl)).
    { cbn [number]. f_equal. rewrite <- number_app, firstn_skipn. reflexivity. }
    rewrite EN. replace (N.of_nat n) with (N.of_nat (length (firstn n tl))) by now rewrite L1. apply part_coords; [constructor; assumption|lia|exact D2].
Qed.

(** ** single lookups *)
Lemma walk_spec cs : forall fuel c x y bs q, (length cs < fuel)%nat -> Forall pos_ok ((x, y) :: cs) -> 0 <= c -> c + zlen cs < 2 ^ 63 ->
  walk_span fuel (N.of_nat (length cs)) c x y (span_deltas x y cs ++ bs) q =
  Ok (match find_id (number c cs) q with Some p => inl p | None => inr (c + zlen cs, bs) end).
Proof.
  induction cs as [|[x' y'] cs IH]; intros fuel c x y bs q Hf F Hc Hb; (destruct fuel as [|fuel]; [lia|]); cbn [walk_span length] in *.
  - change (N.of_nat 0 =? 0)%N with true. cbv iota. cbn [number span_deltas app]. unfold find_id. cbn [find option_map]. do 3 f_equal. lia.
  - destruct (N.eqb_spec (N.of_nat (S (length cs))) 0) as [E|_]; [lia|]. cbn [span_deltas]. rewrite <- !app_assoc.
    inversion F as [|? ? [F1 F2] F3]. subst. inversion F3 as [|? ? [F4 F5] F6]. subst. cbn [fst snd] in *.
    rewrite delta_read by assumption. cbn [bind]. rewrite delta_read by assumption. cbn [bind]. cbn [number]. rewrite find_id_cons.
    destruct (Z.eqb_spec c q); [reflexivity|]. rewrite add64_ok by lia. cbn [bind].
    replace (N.of_nat (S (length cs)) - 1)%N with (N.of_nat (length cs)) by lia.
    rewrite IH; [|lia|exact F3|lia|lia]. replace (c + 1 + zlen cs) with (c + Z.of_nat (S (length cs))) by lia. reflexivity.
Qed.

Lemma gap_header g : 0 < g -> g < 2 ^ 63 -> (Z.to_N (g * 2) + 1 < 2 ^ 64)%N /\ N.odd (Z.to_N (g * 2) + 1) = true /\ ((Z.to_N (g * 2) + 1) / 2)%N = Z.to_N g.
Proof.
  intros H1 H2. assert (E : (Z.to_N (g * 2) = 2 * Z.to_N g)%N) by lia. rewrite E. split; [|split].
  - change (2 ^ 64)%N with (Z.to_N (2 ^ 64)). lia.
  - rewrite N.odd_add, N.odd_mul. reflexivity.
  - rewrite N.add_comm, N.mul_comm, N.div_add by lia. change (1 / 2)%N with 0%N. lia.
Qed.
Lemma coord_header n : Z.of_nat n < 2 ^ 63 -> (N.of_nat n * 2 < 2 ^ 64)%N /\ N.odd (N.of_nat n * 2) = false /\ (N.of_nat n * 2 / 2)%N = N.of_nat n.
Proof.
  intros H. split; [|split].
  - change (2 ^ 64)%N with (Z.to_N (2 ^ 64)). lia.
  - rewrite N.odd_mul. apply andb_false_r.
  - now rewrite N.div_mul.
Qed.
Lemma varint_app_nonnil v bs : no_bytes (varint_enc v ++ bs) = false.
Proof. destruct (varint_nonempty v) as (b & l & ->). reflexivity. Qed.
Lemma deltas_len cs : forall x y, (length cs <= length (span_deltas x y cs))%nat.
Proof. induction cs as [|[x' y'] cs IH]; intros x y; cbn [span_deltas length]; [lia|]. rewrite !app_length. specialize (IH x' y'). pose proof (varint_len_pos (zigzag (x' - x))). lia. Qed.

Lemma look_spec e c ns bs : part [1%N] e c ns bs -> forall fuel q, (length bs < fuel)%nat -> 0 <= c -> q < 2 ^ 63 ->
  look fuel c bs q = Ok (find_id ns q).
Proof.
  induction 1 as [|c g ns bs G B H IH|c x y cs ns bs F B H IH]; intros fuel q Hf Hc Hq; (destruct fuel as [|fuel]; [lia|]); cbn [look].
  - unfold find_id. cbn [find option_map no_bytes negb]. rewrite andb_true_r. destruct (e <=? q); reflexivity.
  - rewrite varint_app_nonnil. cbn [negb]. rewrite andb_true_r. rewrite app_length in Hf. pose proof (varint_len_pos (Z.to_N (g * 2) + 1)) as HL.
    destruct (Z.leb_spec c q) as [L|L].
    + destruct (gap_header g G) as (E1 & E2 & E3); [lia|]. rewrite varint_roundtrip by exact E1. cbn [bind]. rewrite E2, E3.
      destruct (N.eqb_spec (Z.to_N g) 0); [lia|]. rewrite Z2N.id by lia. rewrite wrap64_ok by lia. apply IH; lia.
    + rewrite find_id_none; [reflexivity|]. eapply Forall_impl; [|exact (proj2 (part_ids _ _ _ _ _ H))]. cbn beta. intros. lia.
  - rewrite varint_app_nonnil. cbn [negb]. rewrite andb_true_r. rewrite !app_length in Hf. pose proof (varint_len_pos (N.of_nat (length cs) * 2)) as HL.
    destruct (coord_header (length cs)) as (E1 & E2 & E3); [lia|].
    inversion F as [|? ? [F1 F2] F3]. subst. cbn [fst snd] in *.
    destruct (Z.leb_spec c q) as [L|L].
    + rewrite varint_roundtrip by exact E1. cbn [bind]. rewrite E2, E3. rewrite fixed_read by exact F1. cbn [bind]. rewrite fixed_read by exact F2. cbn [bind].
      rewrite find_id_cons. destruct (Z.eqb_spec c q) as [Ec|Ec]; [reflexivity|]. rewrite add64_ok by lia. cbn [bind].
      rewrite walk_spec; [|rewrite app_length; pose proof (deltas_len cs x y); lia|exact F|lia|lia]. cbn [bind]. rewrite find_id_app.
      destruct (find_id (number (c + 1) cs) q); [reflexivity|]. apply IH; lia.
    + rewrite find_id_none; [reflexivity|]. constructor; [cbn [fst]; lia|]. apply Forall_app. split.
      * eapply Forall_impl; [|apply number_ids]. cbn beta. intros. lia.
      * eapply Forall_impl; [|exact (proj2 (part_ids _ _ _ _ _ H))]. cbn beta. intros. lia.
Qed.

(** ** the index *)
Definition entry_ok (t : bytes) (e : Z) (ns : list (Z * npos)) (dat : bytes) (i : Z * N) : Prop :=
  0 <= fst i /\ exists na nb da db, ns = na ++ nb /\ dat = da ++ db /\ blen da = snd i /\ Forall (fun n => fst n < fst i) na /\ part t e (fst i) nb db.
Definition index_ok (t : bytes) (e : Z) (idx : list (Z * N)) (dat : bytes) (ns : list (Z * npos)) : Prop :=
  StronglySorted (fun a b => fst a < fst b) idx /\
  match idx with [] => ns = [] | (f, _) :: _ => Forall (fun n => f <= fst n) ns end /\
  Forall (entry_ok t e ns dat) idx.

Lemma bound_spec idx q : StronglySorted (fun a b => fst a < fst b) idx -> forall fuel first len, (len < fuel)%nat -> (first + len <= length idx)%nat ->
  (forall i p, (i < first)%nat -> nth_error idx i = Some p -> fst p < q) ->
  (forall i p, (first + len <= i)%nat -> nth_error idx i = Some p -> q <= fst p) ->
  let k := idx_bound fuel first len idx q in
  (k <= length idx)%nat /\
  (forall i p, (i < k)%nat -> nth_error idx i = Some p -> fst p < q) /\
  (forall i p, (k <= i)%nat -> nth_error idx i = Some p -> q <= fst p).
Proof.
  intros Hw.
  assert (NS : forall i j x y, (i < j)%nat -> nth_error idx i = Some x -> nth_error idx j = Some y -> fst x < fst y).
  { clear -Hw. induction Hw as [|a l S IH F]; intros i j x y Hij Hx Hy; [destruct i; discriminate|].
    destruct j as [|j]; [lia|]. cbn [nth_error] in Hy. destruct i as [|i]; cbn [nth_error] in Hx.
    - injection Hx as ->. exact (proj1 (Forall_forall _ _) F y (nth_error_In _ _ Hy)).
    - eapply IH; [|exact Hx|exact Hy]. lia. }
  induction fuel as [|fuel IH]; intros first len Hf Hl H1 H2; [lia|]. cbv zeta. cbn [idx_bound].
  destruct (Nat.eqb_spec len 0) as [->|Hn].
  - split; [lia|]. split; [assumption|]. intros i p Hi. apply H2. lia.
  - assert (Hh : (Nat.div2 len < len)%nat) by (apply Nat.lt_div2; lia).
    set (half := Nat.div2 len) in *. destruct (nth_error idx (first + half)) as [p|] eqn:E.
    2:{ apply nth_error_None in E. lia. }
    destruct (Z.ltb_spec (fst p) q) as [L|L].
    + apply IH; [lia|lia| |].
      * intros i r Hi Hr. destruct (Nat.eq_dec i (first + half)) as [->|Hne]; [congruence|].
        assert (Hlt : (i < first + half)%nat) by lia. pose proof (NS _ _ _ _ Hlt Hr E). lia.
      * intros i r Hi. apply H2. lia.
    + apply IH; [lia|lia|assumption|].
      intros i r Hi Hr. destruct (Nat.eq_dec i (first + half)) as [->|Hne]; [rewrite E in Hr; injection Hr as <-; exact L|].
      assert (Hlt : (first + half < i)%nat) by lia. pose proof (NS _ _ _ _ Hlt E Hr). lia.
Qed.
Lemma find_entry_spec idx q : StronglySorted (fun a b => fst a < fst b) idx ->
  match find_entry idx q with
  | Some i => In i idx /\ fst i <= q
  | None => match idx with [] => True | (f, _) :: _ => q < f end
  end.
Proof.
  intros Hw. unfold find_entry. destruct (bound_spec idx q Hw (S (length idx)) 0 (length idx)) as (K0 & K1 & K2); [lia|lia|intros; lia| |].
  { intros i p Hi Hp. assert (nth_error idx i <> None) by congruence. apply nth_error_Some in H. lia. }
  set (k := idx_bound (S (length idx)) 0 (length idx) idx q) in *. clearbody k.
  assert (PK : match k with O => True | S k' => exists p, nth_error idx k' = Some p /\ In p idx /\ fst p <= q end).
  { destruct k as [|k']; [exact I|]. destruct (nth_error idx k') as [p|] eqn:E; [|apply nth_error_None in E; lia]. exists p. split; [reflexivity|]. split; [now apply nth_error_In in E|].
    specialize (K1 k' p). assert (fst p < q); [apply K1; [lia|exact E]|lia]. }
  destruct (nth_error idx k) as [p|] eqn:E.
  - destruct (Z.eqb_spec (fst p) q) as [Eq|Nq].
    + split; [now apply nth_error_In in E|lia].
    + destruct k as [|k']; [|destruct PK as (p' & -> & H1 & H2); auto]. destruct idx as [|[f o] idx']; [exact I|]. cbn [nth_error] in E. injection E as <-.
      specialize (K2 0%nat (f, o)). cbn [fst] in *. assert (q <= f); [apply K2; [lia|reflexivity]|lia].
  - destruct k as [|k']; [|destruct PK as (p' & -> & H1 & H2); auto]. destruct idx as [|i idx']; [exact I|discriminate].
Qed.

Lemma get_coords_spec e idx dat ns id : index_ok [1%N] e idx dat ns -> -2 ^ 63 < id < 2 ^ 63 ->
  get_coords idx dat id = Ok (find_id ns (Z.abs id)).
Proof.
  intros (Hs & Hf & He) Hid. unfold get_coords. pose proof (find_entry_spec idx (Z.abs id) Hs) as FE. destruct idx as [|[f o] idx]; [now rewrite Hf|].
  rewrite abs64_ok by lia. cbn [bind].
  destruct (find_entry ((f, o) :: idx) (Z.abs id)) as [[c off]|].
  - destruct FE as [F1 F2]. cbn [fst] in F2. destruct (proj1 (Forall_forall _ _) He _ F1) as (Hc & na & nb & da & db & E1 & E2 & E3 & E4 & E5). cbn [fst snd] in *. subst ns dat off.
    destruct (N.ltb_spec (blen (da ++ db)) (blen da)) as [L|_]; [rewrite blen_app in L; lia|]. rewrite skipn_app_exact' by (unfold blen; lia).
    rewrite find_id_skip by (eapply Forall_impl; [|exact E4]; cbn beta; intros; lia).
    eapply look_spec; [exact E5|rewrite app_length; lia|exact Hc|lia].
  - rewrite find_id_none; [reflexivity|]. eapply Forall_impl; [|exact Hf]. cbn beta. intros. lia.
Qed.

(** ** the builder *)
Lemma index_extend t e s idx dat ns ns2 d : idx <> [] -> index_ok [] s idx dat ns -> part t e s ns2 d -> index_ok t e idx (dat ++ d) (ns ++ ns2).
Proof.
  intros Hne (H1 & H2 & H3) Hp. split; [exact H1|]. split.
  - destruct idx as [|[f o] idx]; [contradiction|]. apply Forall_app. split; [exact H2|]. inversion H3 as [|? ? E ?]. subst.
    destruct E as (_ & na & nb & da & db & _ & _ & _ & _ & P). cbn [fst] in P. pose proof (part_ids _ _ _ _ _ P) as [L _]. eapply Forall_impl; [|exact (proj2 (part_ids _ _ _ _ _ Hp))]. cbn beta. intros. lia.
  - eapply Forall_impl; [|exact H3]. intros i (E0 & na & nb & da & db & E1 & E2 & E3 & E4 & P). split; [exact E0|]. exists na, (nb ++ ns2), da, (db ++ d). subst ns dat. rewrite <- !app_assoc. repeat (split; [auto|]). exact (part_app _ _ _ _ _ _ _ _ P Hp).
Qed.
Lemma index_new t e s idx dat ns ns2 d : 0 <= s -> Forall (fun n => fst n < s) ns -> Forall (fun i => fst i < s) idx -> (idx = [] -> ns = []) ->
  index_ok [] s idx dat ns -> part t e s ns2 d -> index_ok t e (idx ++ [(s, blen dat)]) (dat ++ d) (ns ++ ns2).
Proof.
  intros Hs Hn Hi Hz H Hp. assert (EN : entry_ok t e (ns ++ ns2) (dat ++ d) (s, blen dat)).
  { split; [exact Hs|]. exists ns, ns2, dat, d. cbn [fst snd]. auto. }
  destruct idx as [|i0 idx].
  - rewrite Hz by reflexivity. cbn [app]. split; [repeat constructor|]. split; [|constructor; [|constructor]].
    + eapply Forall_impl; [|exact (proj2 (part_ids _ _ _ _ _ Hp))]. cbn beta. intros. lia.
    + rewrite Hz in EN by reflexivity. exact EN.
  - assert (Hne : i0 :: idx <> []) by discriminate. destruct (index_extend t e s _ dat ns ns2 d Hne H Hp) as (H1 & H2 & H3). split; [|split].
    + clear -H1 Hi. revert H1 Hi. generalize (i0 :: idx). clear. induction l as [|i l IH]; intros H1 Hi; cbn [app]; [repeat constructor|].
      inversion H1 as [|? ? H2 H3]. inversion Hi as [|? ? H4 H5]. subst. constructor; [now apply IH|]. apply Forall_app. split; [exact H3|]. repeat constructor. exact H4.
    + destruct i0. exact H2.
    + apply Forall_app. split; [exact H3|]. repeat constructor; [exact Hs|]. exact (proj2 EN).
Qed.

(** between two pushes: the nodes so far *)
Definition start_of (b : nbuilder) : Z := nb_last b - zlen (nb_span b) + 1.
Definition builder_ok (b : nbuilder) (ns : list (Z * npos)) : Prop :=
  (ns = [] /\ b = nb_init) \/
  (nb_span b <> [] /\ Forall pos_ok (nb_span b) /\ 0 <= start_of b /\ nb_last b < 2 ^ 63 /\ last (nb_span b) (0, 0) = nb_pos b /\
   (nb_idx b = [] -> nb_dat b = []) /\
   exists na, ns = na ++ number (start_of b) (nb_span b) /\ Forall (fun n => fst n < start_of b) na /\ Forall (fun i => fst i < start_of b) (nb_idx b) /\
     index_ok [] (start_of b) (nb_idx b) (nb_dat b) na).

Lemma push_span_spec b ns : builder_ok b ns -> nb_span b <> [] -> nb_last b < 2 ^ 63 - 1 ->
  exists idx d w, push_coord_span b = Ok (NB idx d (nb_last b) (nb_pos b) [] w) /\ idx <> [] /\
    index_ok [] (nb_last b + 1) idx d ns /\ Forall (fun i => fst i < nb_last b + 1) idx /\ Forall (fun n => fst n < nb_last b + 1) ns.
Proof.
  intros [[-> ->]|H] Hne Hl; [contradiction|]. destruct H as (_ & Fp & Hs & _ & Hp & Hd & na & -> & Hna & Hi & HI).
  destruct (coord_spans_part (length (nb_span b)) (nb_span b) (start_of b)) as (d & D1 & D2); [lia|exact Fp|unfold start_of; lia|].
  assert (Ee : start_of b + zlen (nb_span b) = nb_last b + 1) by (unfold start_of; lia). rewrite Ee in D2.
  assert (Lp : (0 < length (nb_span b))%nat) by (destruct (nb_span b); [contradiction|cbn [length]; lia]).
  assert (Es : wrap64 (nb_last b - zlen (nb_span b) + 1) = start_of b) by (unfold start_of in *; apply wrap64_ok; lia).
  assert (Fn : Forall (fun n => fst n < nb_last b + 1) (na ++ number (start_of b) (nb_span b))).
  { apply Forall_app. split; [eapply Forall_impl; [|exact Hna]; cbn beta; intros; unfold start_of in *; lia|]. eapply Forall_impl; [|apply number_ids]. cbn beta. intros. lia. }
  assert (Fi : Forall (fun i => fst i < nb_last b + 1) (nb_idx b)) by (eapply Forall_impl; [|exact Hi]; cbn beta; intros; unfold start_of in *; lia).
  assert (Hz : nb_idx b = [] -> na = []) by (intros E; destruct HI as (_ & HI & _); rewrite E in HI; exact HI).
  unfold push_coord_span. rewrite Es, D1. destruct (nb_span b) as [|p0 sp] eqn:Esp; [contradiction|]. rewrite <- Esp in *. clear Esp p0 sp.
  destruct (match nb_idx b with [] => true | _ => false end || (1024 <? nb_written b)%N) eqn:EW.
  - cbn [bind]. eexists _, _, _. split; [reflexivity|]. split; [destruct (nb_idx b); discriminate|]. split; [|split; [|exact Fn]].
    + apply (index_new [] (nb_last b + 1) (start_of b)); assumption.
    + apply Forall_app. split; [exact Fi|]. repeat constructor. cbn [fst]. unfold start_of in *. lia.
  - cbn [bind]. eexists _, _, _. split; [reflexivity|]. assert (Hx : nb_idx b <> []) by (destruct (nb_idx b); [discriminate|discriminate]).
    split; [exact Hx|]. split; [|split; [exact Fi|exact Fn]]. exact (index_extend _ _ _ _ _ _ _ _ Hx HI D2).
Qed.

Lemma last_snoc_ {A} (l : list A) a d : last (l ++ [a]) d = a.
Proof. induction l as [|x l IH]; [reflexivity|]. cbn [app]. destruct l; [reflexivity|]. exact IH. Qed.

(** one push *)
Lemma push_spec b ns id p : builder_ok b ns -> Z.abs id < 2 ^ 63 - 1 -> pos_ok p ->
  (ns = [] \/ nb_last b < Z.abs id -> exists b', nb_push b id p = Ok b' /\ builder_ok b' (ns ++ [(Z.abs id, p)]) /\ nb_last b' = Z.abs id /\ nb_pos b' = p) /\
  (ns <> [] -> nb_last b = Z.abs id -> nb_pos b = p -> nb_push b id p = Ok b).
Proof.
  intros HB Hid Hp. unfold nb_push.
  assert (Ev : ((0 <=? fst p) && (0 <=? snd p) && (fst p <=? 2 ^ 32 - 1) && (snd p <=? 2 ^ 32 - 1)) = true) by (destruct Hp; lia).
  rewrite Ev. cbn [verify bind]. rewrite abs64_ok by lia. cbn [bind]. split.
  - intros Hlt. assert (Hl : nb_last b < Z.abs id /\ - 2 ^ 63 <= nb_last b).
    { destruct HB as [[-> ->]|H]; [unfold nb_init, min64; cbn [nb_last]; lia|]. destruct H as (H0 & _ & H1 & _ & _ & _ & na & E & _). destruct Hlt as [->|Hlt].
      - symmetry in E. apply app_eq_nil in E as [_ E]. destruct (nb_span b); [contradiction|discriminate].
      - split; [exact Hlt|]. unfold start_of in H1. lia. }
    destruct Hl as [Hl Hl2]. destruct (Z.eqb_spec (Z.abs id) (nb_last b)) as [E|_]; [lia|].
    destruct (Z.ltb_spec (nb_last b) (Z.abs id)) as [_|?]; [|lia]. cbn [verify bind]. rewrite add64_ok by lia. cbn [bind].
    destruct HB as [[-> ->]|H].
    + cbn [nb_init nb_span negb andb]. rewrite andb_false_r. cbn [bind]. eexists. split; [reflexivity|]. split; [|split; reflexivity]. right.
      unfold start_of. cbn [nb_init nb_span nb_last nb_idx nb_dat nb_pos app length last]. replace (Z.abs id - Z.of_nat 1 + 1) with (Z.abs id) by lia.
      split; [discriminate|]. split; [repeat constructor; apply Hp|].
      split; [lia|]. split; [lia|]. split; [reflexivity|]. split; [reflexivity|]. exists [].
      split; [reflexivity|]. split; [constructor|]. split; [constructor|]. split; [constructor|]. split; [reflexivity|constructor].
    + pose proof H as H'. destruct H as (H0 & Fp & Hs & _ & Hpos & Hd & na & E & Hna & Hi & HI).
      assert (Ne : match nb_span b with [] => true | _ => false end = false) by (destruct (nb_span b); [contradiction|reflexivity]). rewrite Ne. cbn [negb]. rewrite andb_true_r.
      destruct (Z.eqb_spec (nb_last b + 1) (Z.abs id)) as [Eq|Nq]; cbn [negb bind].
      * eexists. split; [reflexivity|]. split; [|split; reflexivity]. right. unfold start_of. cbn [nb_span nb_last nb_idx nb_dat nb_pos].
        assert (Es : Z.abs id - zlen (nb_span b ++ [p]) + 1 = start_of b) by (rewrite app_length; cbn [length]; unfold start_of; lia). rewrite Es.
        split; [destruct (nb_span b); discriminate|]. split; [apply Forall_app; split; [exact Fp|repeat constructor; apply Hp]|]. split; [exact Hs|]. split; [lia|]. split; [apply last_snoc_|]. split; [exact Hd|]. exists na.
        split; [|split; [exact Hna|split; [exact Hi|exact HI]]]. rewrite number_app, E, <- app_assoc. do 2 f_equal. cbn [number]. do 2 f_equal. unfold start_of. lia.
      * destruct (push_span_spec b ns (or_intror H') H0) as (idx & d & w & P1 & P2 & P3 & P4 & P5); [lia|]. rewrite P1. cbn [bind].
        unfold push_empty_span. cbn [nb_idx nb_dat nb_last nb_pos nb_span nb_written].
        assert (L0 : 0 <= nb_last b + 1). { unfold start_of in Hs. lia. }
        rewrite sub64_ok by lia. cbn [bind]. rewrite sub64_ok by lia. cbn [bind]. eexists. split; [reflexivity|]. split; [|split; reflexivity]. right.
        unfold start_of. cbn [nb_span nb_last nb_idx nb_dat nb_pos app length last]. replace (Z.abs id - Z.of_nat 1 + 1) with (Z.abs id) by lia.
        set (g := Z.abs id - nb_last b - 1) in *.
        assert (Eg : to_u64 (g * 2) = Z.to_N (g * 2)). { unfold to_u64. rewrite Z.mod_small; [reflexivity|]. subst g. lia. } rewrite Eg.
        assert (Pg : part [] (Z.abs id) (nb_last b + 1) [] (varint_enc (Z.to_N (g * 2) + 1))).
        { rewrite <- (app_nil_r (varint_enc _)). apply part_gap; [subst g; lia|subst g; lia|]. replace (nb_last b + 1 + g) with (Z.abs id) by (subst g; lia). constructor. }
        split; [discriminate|]. split; [repeat constructor; apply Hp|]. split; [lia|]. split; [lia|]. split; [reflexivity|]. split; [intros Ei; contradiction|]. exists ns.
        split; [reflexivity|]. split; [eapply Forall_impl; [|exact P5]; cbn beta; intros; lia|]. split; [eapply Forall_impl; [|exact P4]; cbn beta; intros; lia|].
        pose proof (index_extend _ _ _ _ _ _ _ _ P2 P3 Pg) as R. rewrite app_nil_r in R. exact R.
  - intros Hn El Ep. rewrite El, Z.eqb_refl. subst p. rewrite !Z.eqb_refl. reflexivity.
Qed.

(** ** the whole stream *)
Lemma build_spec_gen m (Hm63 : m <= 2 ^ 63 - 1) ns : forall b ms, builder_ok b ms ->
  (ms <> [] -> match ns with [] => True | n :: _ => nb_last b < Z.abs (fst n) \/ nb_last b = Z.abs (fst n) /\ nb_pos b = snd n end) ->
  valid_stream m ns -> (ms <> [] -> nb_last b < m) ->
  exists b' ms', push_nodes b ns = Ok b' /\ builder_ok b' ms' /\ (ms' <> [] -> nb_last b' < m) /\
    (length ms' <= length ms + length ns)%nat /\
    forall q, find_id ms' (Z.abs q) = match find_id ms (Z.abs q) with Some p => Some p | None => node_of ns q end.
Proof.
  induction ns as [|[id p] ns IH]; intros b ms HB Hh [HF HS] HL; cbn [push_nodes].
  - exists b, ms. split; [reflexivity|]. split; [exact HB|]. split; [exact HL|]. split; [lia|]. intros q. unfold node_of. cbn [find option_map]. destruct (find_id ms (Z.abs q)); reflexivity.
  - inversion HF as [|? ? [F1 F2] F3]. subst. cbn [fst snd] in *. inversion HS as [|? ? S1 S2]. subst. cbn [fst snd] in *.
    destruct (push_spec b ms id p HB ltac:(lia) F2) as [P1 P2].
    assert (Hfin : forall b1 ms1, nb_push b id p = Ok b1 -> builder_ok b1 ms1 -> nb_last b1 = Z.abs id -> nb_pos b1 = p ->
       (length ms1 <= S (length ms))%nat ->
       (forall q, find_id ms1 (Z.abs q) = match find_id ms (Z.abs q) with Some p0 => Some p0 | None => if Z.abs id =? Z.abs q then Some p else None end) ->
       exists b' ms', (do b0 <- nb_push b id p; push_nodes b0 ns) = Ok b' /\ builder_ok b' ms' /\ (ms' <> [] -> nb_last b' < m) /\
         (length ms' <= length ms + length ((id, p) :: ns))%nat /\
         forall q, find_id ms' (Z.abs q) = match find_id ms (Z.abs q) with Some p0 => Some p0 | None => node_of ((id, p) :: ns) q end).
    { intros b1 ms1 E1 B1 L1 Q1 Ln Fq. rewrite E1. cbn [bind]. destruct (IH b1 ms1 B1) as (b' & ms' & R1 & R2 & R3 & R3' & R4).
      - intros _. rewrite L1, Q1. clear -S2. destruct ns as [|n1 ns1]; [exact I|]. inversion S2 as [|? ? T]. exact T.
      - split; assumption.
      - intros _. lia.
      - exists b', ms'. split; [exact R1|]. split; [exact R2|]. split; [exact R3|]. split; [cbn [length]; lia|]. intros q. rewrite R4, Fq. unfold node_of. cbn [find fst].
        destruct (find_id ms (Z.abs q)); [reflexivity|]. destruct (Z.abs id =? Z.abs q); reflexivity. }
    assert (Dec : ms = [] \/ nb_last b < Z.abs id \/ (ms <> [] /\ nb_last b = Z.abs id /\ nb_pos b = p)).
    { destruct ms as [|m0 ms0]; [auto|]. right. assert (Hm : m0 :: ms0 <> []) by discriminate. destruct (Hh Hm) as [H|[H1 H2]]; [auto|]. right. auto. }
    destruct Dec as [E|[E|(E1 & E2 & E3)]].
    + destruct (P1 (or_introl E)) as (b1 & Q1 & Q2 & Q3 & Q4). apply (Hfin b1 (ms ++ [(Z.abs id, p)])); auto; [rewrite app_length; cbn [length]; lia|].
      intros q. rewrite find_id_app, find_id_cons. reflexivity.
    + destruct (P1 (or_intror E)) as (b1 & Q1 & Q2 & Q3 & Q4). apply (Hfin b1 (ms ++ [(Z.abs id, p)])); auto; [rewrite app_length; cbn [length]; lia|].
      intros q. rewrite find_id_app, find_id_cons. reflexivity.
    + apply (Hfin b ms); auto.
      intros q. destruct (find_id ms (Z.abs q)) eqn:Eq; [reflexivity|]. destruct (Z.eqb_spec (Z.abs id) (Z.abs q)) as [Eid|]; [|reflexivity]. exfalso.
      destruct HB as [[-> _]|HB]; [contradiction|]. destruct HB as (H0 & _ & _ & _ & _ & _ & na & -> & _). rewrite find_id_app in Eq. destruct (find_id na (Z.abs q)); [discriminate|].
      assert (Lp : (0 < length (nb_span b))%nat) by (destruct (nb_span b); [contradiction|cbn [length]; lia]).
      assert (Hl : nb_last b = start_of b + zlen (nb_span b) - 1) by (unfold start_of; lia). rewrite <- Eid, <- E2, Hl in Eq.
      clear -Eq Lp. revert Eq Lp. generalize (start_of b). induction (nb_span b) as [|x l IHl]; intros c Eq Lp; cbn [length] in *; [lia|]. cbn [number] in Eq. rewrite find_id_cons in Eq.
      destruct (Z.eqb_spec c (c + Z.of_nat (S (length l)) - 1)); [discriminate|]. apply (IHl (c + 1)); [|destruct l; cbn [length] in *; lia].
      replace (c + 1 + Z.of_nat (length l) - 1) with (c + Z.of_nat (S (length l)) - 1) by lia. exact Eq.
Qed.

Lemma build_spec m ns : m <= 2 ^ 63 - 1 -> valid_stream m ns ->
  exists idx dat e ms, build_index ns = Ok (idx, dat) /\ index_ok [1%N] e idx dat ms /\ (idx <> [] -> e <= m) /\ (length ms <= length ns)%nat /\ (idx <> [] -> Forall (fun n => fst n < e) ms) /\
    forall q, find_id ms (Z.abs q) = node_of ns q.
Proof.
  intros Hm63 HV. destruct (build_spec_gen m Hm63 ns nb_init [] (or_introl (conj eq_refl eq_refl))) as (b & ms & H1 & H2 & H3 & H3' & H4); [intros H; contradiction|exact HV|intros H; contradiction|].
  unfold build_index. rewrite H1. cbn [bind]. unfold nb_finish.
  assert (Ex : forall n, part [1%N] (n + 1) (n + 1) [] [1%N]) by (intros; constructor).
  destruct H2 as [[-> ->]|H2].
  - cbn [push_coord_span nb_init nb_span bind nb_last]. exists [], [1%N], 0, []. split; [reflexivity|]. split; [|split; [intros E; contradiction|split; [cbn [length]; lia|split; [intros E; contradiction|]]]]; [|exact H4].
    split; [constructor|]. split; [reflexivity|constructor].
  - pose proof H2 as H2'. destruct H2 as (H0 & _ & Hs & _ & _ & _ & na & Ems & _).
    assert (Hm : ms <> []). { rewrite Ems. destruct (nb_span b); [contradiction|]. cbn [number]. intros E. apply app_eq_nil in E as [_ E]. discriminate. }
    destruct (push_span_spec b ms (or_intror H2') H0 ltac:(specialize (H3 Hm); lia)) as (idx & d & w & P1 & P2 & P3 & P4 & P5). rewrite P1. cbn [bind nb_last].
    assert (L0 : 0 <= nb_last b + 1). { unfold start_of in Hs. lia. }
    pose proof (H3 Hm) as Hlt. rewrite add64_ok by lia. cbn [bind]. unfold push_empty_span. cbn [nb_idx nb_dat nb_last nb_pos nb_span nb_written].
    rewrite sub64_ok by lia. cbn [bind]. rewrite sub64_ok by lia. cbn [bind]. replace (nb_last b + 1 - nb_last b - 1) with 0 by lia.
    exists idx, (d ++ [1%N]), (nb_last b + 1), ms. split; [reflexivity|]. split; [|split; [lia|split; [cbn [length] in H3'; lia|split; [intros _; exact P5|exact H4]]]].
    pose proof (index_extend _ _ _ _ _ _ _ _ P2 P3 (Ex (nb_last b))) as R. rewrite app_nil_r in R. exact R.
Qed.
