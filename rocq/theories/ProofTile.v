From Verif Require Import Base BaseProof ModelTile SpecTile.
Open Scope N_scope.

Lemma mask_check a k : (N.land a (N.ones k) =? a) = (a <? 2 ^ k).
Proof.
  rewrite N.land_ones. destruct (N.ltb_spec a (2 ^ k)) as [H|H].
  - rewrite N.mod_small by assumption. apply N.eqb_refl.
  - apply N.eqb_neq. intros E.
    pose proof (N.mod_lt a (2 ^ k) ltac:(apply N.pow_nonzero; lia)). lia.
Qed.

Definition key_of (z y x n : N) : N := z * 2 ^ 59 + y * 2 ^ 38 + x * 2 ^ 17 + n.

Lemma tile_to_key_spec t n :
  tile_to_key t n =
    if (tx t <? 2 ^ 21) && (ty t <? 2 ^ 21) && (tz t <? 2 ^ 5) && (n <? 2 ^ 17)
    then Ok (key_of (tz t) (ty t) (tx t) n) else Throw.
Proof.
  unfold tile_to_key, kZMask, kYMask, kXMask, kNMask.
  change (N.shiftl 1 5 - 1) with (N.ones 5).
  change (N.shiftl 1 21 - 1) with (N.ones 21).
  change (N.shiftl 1 17 - 1) with (N.ones 17).
  rewrite !mask_check.
  destruct (tx t <? 2 ^ 21) eqn:Hx; [|reflexivity].
  destruct (ty t <? 2 ^ 21) eqn:Hy; [|reflexivity].
  destruct (tz t <? 2 ^ 5) eqn:Hz; [|reflexivity].
  destruct (n <? 2 ^ 17) eqn:Hn; [|reflexivity].
  apply N.ltb_lt in Hx, Hy, Hz, Hn.
  cbn [andb verify bind].
  rewrite !N.land_ones, !N.mod_small by assumption.
  unfold shl64, kZShift, kYShift, kXShift, kNShift.
  rewrite N.lor_0_l, !N.shiftl_mul_pow2.
  rewrite !(N.mod_small _ (2 ^ 64)) by lia.
  f_equal. unfold key_of.
  rewrite (N.lor_comm (tz t * 2 ^ 59)).
  rewrite (lor_add (ty t * 2 ^ 38) _ 59) by lia.
  rewrite (N.lor_comm _ (tx t * 2 ^ 17)).
  rewrite (lor_add (tx t * 2 ^ 17) _ 38) by lia.
  rewrite (N.lor_comm _ (n * 2 ^ 0)).
  rewrite (lor_add (n * 2 ^ 0) _ 17) by lia.
  lia.
Qed.

Lemma key_to_tile_of z y x n :
  y < 2 ^ 21 -> x < 2 ^ 21 -> n < 2 ^ 17 -> z < 2 ^ 5 ->
  key_to_tile (key_of z y x n) = Tile x y z.
Proof.
  intros Hy Hx Hn Hz. unfold key_to_tile, kZMask, kYMask, kXMask, kXShift, kYShift, kZShift, key_of.
  change (N.shiftl 1 5 - 1) with (N.ones 5).
  change (N.shiftl 1 21 - 1) with (N.ones 21).
  rewrite !N.land_ones, !N.shiftr_div_pow2. f_equal; lia.
Qed.

Lemma key_to_n_of z y x n : n < 2 ^ 17 -> key_to_n (key_of z y x n) = n.
Proof.
  intros Hn. unfold key_to_n, kNMask, kNShift, key_of.
  change (N.shiftl 1 17 - 1) with (N.ones 17).
  rewrite N.land_ones, N.shiftr_0_r. lia.
Qed.

Lemma key_decompose k : k < 2 ^ 64 ->
  exists z y x n, k = key_of z y x n /\ y < 2 ^ 21 /\ x < 2 ^ 21 /\ n < 2 ^ 17 /\ z < 2 ^ 5.
Proof.
  intros Hk. exists (k / 2 ^ 59), (k / 2 ^ 38 mod 2 ^ 21), (k / 2 ^ 17 mod 2 ^ 21), (k mod 2 ^ 17).
  unfold key_of. repeat split; lia.
Qed.

(** C01 *)
Lemma tile_key_roundtrip t n :
  tx t < 2 ^ 32 -> ty t < 2 ^ 32 -> tz t < 2 ^ 32 -> n < 2 ^ 64 ->
  (tile_to_key t n = Throw /\ ~ key_range t n) \/
  (exists k, tile_to_key t n = Ok k /\ k < 2 ^ 64 /\ key_to_tile k = t /\ key_to_n k = n /\ key_range t n).
Proof.
  intros _ _ _ _. rewrite tile_to_key_spec. unfold key_range.
  destruct (tx t <? 2 ^ 21) eqn:Hx; [|left; split; [reflexivity | lia]].
  destruct (ty t <? 2 ^ 21) eqn:Hy; [|left; split; [reflexivity | lia]].
  destruct (tz t <? 2 ^ 5) eqn:Hz; [|left; split; [reflexivity | lia]].
  destruct (n <? 2 ^ 17) eqn:Hn; [|left; split; [reflexivity | lia]].
  right. eexists. split; [reflexivity|].
  apply N.ltb_lt in Hx, Hy, Hz, Hn.
  rewrite key_to_tile_of, key_to_n_of by assumption.
  destruct t; cbn in *. unfold key_of. repeat split; lia.
Qed.

Lemma tile_key_injective t n t' n' k :
  tile_to_key t n = Ok k -> tile_to_key t' n' = Ok k -> t = t' /\ n = n'.
Proof.
  rewrite !tile_to_key_spec.
  repeat match goal with |- context [?a <? ?b] => destruct (N.ltb_spec a b) end;
    cbn [andb]; try discriminate.
  intros [= E1] [= E2].
  assert (E : Tile (tx t) (ty t) (tz t) = Tile (tx t') (ty t') (tz t')).
  { rewrite <- (key_to_tile_of (tz t) (ty t) (tx t) n) by assumption.
    rewrite <- (key_to_tile_of (tz t') (ty t') (tx t') n') by assumption.
    rewrite E1, E2. reflexivity. }
  split.
  - destruct t, t'; cbn in *; exact E.
  - rewrite <- (key_to_n_of (tz t) (ty t) (tx t) n) by assumption.
    rewrite <- (key_to_n_of (tz t') (ty t') (tx t') n') by assumption.
    rewrite E1, E2. reflexivity.
Qed.

(** C02 *)
Lemma key_order t n t' n' k k' :
  tile_to_key t n = Ok k -> tile_to_key t' n' = Ok k' ->
  (k < k' <-> lex_lt t n t' n').
Proof.
  rewrite !tile_to_key_spec.
  repeat match goal with |- context [?a <? ?b] => destruct (N.ltb_spec a b) end;
    cbn [andb]; try discriminate.
  intros [= <-] [= <-]. unfold key_of, lex_lt. split; intros HH; lia.
Qed.

Lemma record_bytes_length r : length (record_bytes r) = 16%nat.
Proof. unfold record_bytes. now rewrite app_length, !le_bytes_length. Qed.

Lemma serialize_length rs : length (pack_records_serialize rs) = (16 * length rs)%nat.
Proof.
  unfold pack_records_serialize. induction rs as [|r rs IH]; [reflexivity|].
  cbn [flat_map length]. rewrite app_length, IH, record_bytes_length. lia.
Qed.

Lemma read_record_exact r (b c : bytes) i :
  rec_ok r -> length b = (16 * i)%nat -> read_nth_record (b ++ record_bytes r ++ c) i = Ok r.
Proof.
  intros [H1 H2] Hb. unfold read_nth_record.
  rewrite !app_length, record_bytes_length, Hb.
  destruct (Nat.leb_spec (16 * i + 16) (16 * i + (16 + length c))) as [_|HH]; [|lia].
  rewrite (skipn_app_exact' (16 * i)) by (symmetry; exact Hb).
  rewrite (firstn_app_exact' 16) by (symmetry; apply record_bytes_length).
  unfold record_bytes.
  rewrite (firstn_app_exact' 8) by (now rewrite le_bytes_length).
  rewrite (skipn_app_exact' 8) by (now rewrite le_bytes_length).
  rewrite !le_val_bytes by assumption. destruct r; reflexivity.
Qed.

Lemma deserialize_map pre rs :
  Forall rec_ok rs ->
  map_res (read_nth_record (pack_records_serialize (pre ++ rs))) (seq (length pre) (length rs)) = Ok rs.
Proof.
  revert pre; induction rs as [|r rs IH]; intros pre H; [reflexivity|].
  inversion H as [|? ? Hr Hrs]; subst. cbn [length seq map_res].
  assert (E : read_nth_record (pack_records_serialize (pre ++ r :: rs)) (length pre) = Ok r).
  { unfold pack_records_serialize at 1. rewrite flat_map_app. cbn [flat_map].
    apply read_record_exact; [assumption|]. apply serialize_length. }
  rewrite E. cbn [bind].
  specialize (IH (pre ++ [r]) Hrs).
  rewrite <- app_assoc in IH. cbn [app] in IH.
  rewrite app_length in IH. cbn [length] in IH. rewrite Nat.add_1_r in IH.
  rewrite IH. reflexivity.
Qed.

Lemma deserialize_serialize rs :
  Forall rec_ok rs -> pack_records_deserialize (pack_records_serialize rs) = Ok rs.
Proof.
  intros H. unfold pack_records_deserialize, blen.
  rewrite serialize_length.
  replace (N.of_nat (16 * length rs) mod 16 =? 0) with true by lia.
  cbn [verify bind].
  replace (16 * length rs / 16)%nat with (length rs) by lia.
  exact (deserialize_map [] rs H).
Qed.

(** every byte string of legal length is the image of exactly one record list *)
Lemma bytes_ok_app a b : bytes_ok (a ++ b) <-> bytes_ok a /\ bytes_ok b.
Proof. apply Forall_app. Qed.

Lemma firstn_bytes_ok n l : bytes_ok l -> bytes_ok (firstn n l).
Proof.
  intros H. rewrite <- (firstn_skipn n l) in H. apply bytes_ok_app in H. tauto.
Qed.
Lemma skipn_bytes_ok n l : bytes_ok l -> bytes_ok (skipn n l).
Proof.
  intros H. rewrite <- (firstn_skipn n l) in H. apply bytes_ok_app in H. tauto.
Qed.

Lemma serialize_surj n : forall dat, bytes_ok dat -> length dat = (16 * n)%nat ->
  exists rs, dat = pack_records_serialize rs /\ Forall rec_ok rs.
Proof.
  induction n as [|n IH]; intros dat Hb Hl.
  - exists []. destruct dat; [|discriminate]. split; [reflexivity | constructor].
  - destruct (IH (skipn 16 dat)) as (rs & E & Hrs).
    + now apply skipn_bytes_ok.
    + rewrite skipn_length. lia.
    + set (b1 := firstn 8 dat). set (b2 := firstn 8 (skipn 8 dat)).
      assert (L1 : length b1 = 8%nat) by (unfold b1; rewrite firstn_length; lia).
      assert (L2 : length b2 = 8%nat) by (unfold b2; rewrite firstn_length, skipn_length; lia).
      assert (B1 : bytes_ok b1) by now apply firstn_bytes_ok.
      assert (B2 : bytes_ok b2) by now apply firstn_bytes_ok, skipn_bytes_ok.
      exists (Rec (le_val b1) (le_val b2) :: rs). split.
      * unfold pack_records_serialize. cbn [flat_map]. fold (pack_records_serialize rs).
        rewrite <- E. unfold record_bytes. cbn [r_off r_size].
        rewrite <- L1 at 1. rewrite le_bytes_val by assumption.
        rewrite <- L2 at 1. rewrite le_bytes_val by assumption.
        unfold b1, b2. rewrite <- app_assoc.
        rewrite <- (firstn_skipn 8 dat) at 1. f_equal.
        rewrite <- (firstn_skipn 8 (skipn 8 dat)) at 1. f_equal.
        rewrite skipn_skipn. reflexivity.
      * constructor; [|assumption]. split; cbn.
        -- pose proof (le_val_lt b1 B1) as HH. unfold blen in HH. rewrite L1 in HH. exact HH.
        -- pose proof (le_val_lt b2 B2) as HH. unfold blen in HH. rewrite L2 in HH. exact HH.
Qed.

Lemma serialize_app a b :
  pack_records_serialize (a ++ b) = pack_records_serialize a ++ pack_records_serialize b.
Proof. apply flat_map_app. Qed.

Lemma deserialize_dichotomy dat :
  bytes_ok dat ->
  (blen dat mod 16 <> 0 /\ pack_records_deserialize dat = Throw
     /\ forall r, pack_records_update dat r = Throw) \/
  (exists rs, Forall rec_ok rs /\ dat = pack_records_serialize rs
     /\ pack_records_deserialize dat = Ok rs
     /\ forall r, rec_ok r -> exists dat', pack_records_update dat r = Ok dat'
                  /\ pack_records_deserialize dat' = Ok (rs ++ [r])).
Proof.
  intros Hb. destruct (blen dat mod 16 =? 0) eqn:E.
  - right. destruct (serialize_surj (length dat / 16) dat Hb) as (rs & -> & Hrs).
    { unfold blen in E. lia. }
    exists rs. split; [assumption|]. split; [reflexivity|].
    split; [now apply deserialize_serialize|].
    intros r Hr. unfold pack_records_update. rewrite E. cbn [verify bind].
    eexists. split; [reflexivity|].
    replace (record_bytes r) with (pack_records_serialize [r])
      by (unfold pack_records_serialize; cbn [flat_map]; apply app_nil_r).
    rewrite <- serialize_app. apply deserialize_serialize.
    apply Forall_app; auto.
  - left. split; [lia|]. unfold pack_records_deserialize, pack_records_update.
    rewrite E. split; reflexivity.
Qed.

(** ** Table scan *)
Lemma set_range_filter k t : table_sorted t ->
  set_range k t = filter (fun e => k <=? fst e) t.
Proof.
  induction t as [|[k' v] t IH]; intros Hs; [reflexivity|].
  destruct Hs as [Hh Hs]. cbn [set_range filter fst].
  destruct (N.ltb_spec k' k) as [H|H].
  - replace (k <=? k') with false by lia. auto.
  - replace (k <=? k') with true by lia. f_equal. symmetry.
    clear -Hh H. induction t as [|[k2 v2] t IH]; [reflexivity|].
    inversion Hh as [|? ? H1 H2]; subst. cbn [filter fst] in *.
    replace (k <=? k2) with true by lia. f_equal. auto.
Qed.

Definition decode_entry (e : N * bytes) (rs : list pack_record) : list (tile * pack_record) :=
  map (fun r => (key_to_tile (fst e), r)) rs.

(** Expected output of visiting the entries [es] in order. *)
Fixpoint visit (es : table) : res (list (tile * pack_record)) :=
  match es with
  | [] => Ok []
  | e :: es' =>
      do rs <- pack_records_deserialize (snd e);
      do rest <- visit es';
      Ok (map (fun r => (key_to_tile (fst e), r)) rs ++ rest)
  end.

Lemma scan_row_visit ke t : table_sorted t ->
  scan_row ke t = visit (filter (fun e => fst e <? ke) t).
Proof.
  induction t as [|[k v] t IH]; intros Hs; [reflexivity|].
  destruct Hs as [Hh Hs]. cbn [scan_row filter fst].
  destruct (N.ltb_spec k ke) as [H|H].
  - cbn [visit snd fst]. now rewrite IH.
  - replace (filter (fun e => fst e <? ke) t) with (@nil (N * bytes)); [reflexivity|].
    clear -Hh H. induction t as [|[k2 v2] t IH]; [reflexivity|].
    inversion Hh as [|? ? H1 H2]; subst. cbn [filter fst] in *.
    replace (k2 <? ke) with false by lia. auto.
Qed.

Lemma table_sorted_filter f t : table_sorted t -> table_sorted (filter f t).
Proof.
  induction t as [|[k v] t IH]; intros Hs; [exact I|].
  destruct Hs as [Hh Hs]. cbn [filter]. destruct (f (k, v)); [|auto].
  split; [|auto]. rewrite Forall_forall in *. intros e He.
  apply filter_In in He. now apply Hh.
Qed.

Lemma filter_filter {A} (f g : A -> bool) l :
  filter f (filter g l) = filter (fun x => g x && f x) l.
Proof.
  induction l as [|a l IH]; [reflexivity|]. cbn [filter].
  destruct (g a); cbn [filter andb]; [destruct (f a); now rewrite IH | exact IH].
Qed.

Lemma visit_app a b :
  visit (a ++ b) = bind (visit a) (fun ra => bind (visit b) (fun rb => Ok (ra ++ rb))).
Proof.
  induction a as [|e a IH]; cbn [app visit].
  - cbn. now destruct (visit b).
  - destruct (pack_records_deserialize (snd e)); try reflexivity. cbn [bind].
    rewrite IH. destruct (visit a); try reflexivity. cbn [bind].
    destruct (visit b); try reflexivity. cbn [bind]. now rewrite app_assoc.
Qed.

Lemma filter_all_false {A} (f : A -> bool) l : Forall (fun a => f a = false) l -> filter f l = [].
Proof. induction 1 as [|a l Ha Hl IH]; [reflexivity|]. cbn [filter]. now rewrite Ha. Qed.

Lemma filter_split (P Q : N * bytes -> bool) t :
  table_sorted t ->
  (forall a b, In a t -> In b t -> P a = true -> Q b = true -> fst a < fst b) ->
  filter P t ++ filter Q t = filter (fun e => P e || Q e) t.
Proof.
  induction t as [|[k v] t IH]; intros Hs H; [reflexivity|].
  destruct Hs as [Hh Hs].
  assert (IH' := IH Hs ltac:(intros; apply H; try assumption; now right)).
  cbn [filter]. destruct (P (k, v)) eqn:EP.
  - cbn [orb app]. destruct (Q (k, v)) eqn:EQ.
    + specialize (H (k, v) (k, v) (or_introl eq_refl) (or_introl eq_refl) EP EQ). lia.
    + now rewrite IH'.
  - cbn [orb]. destruct (Q (k, v)) eqn:EQ; [|exact IH'].
    assert (EF : filter P t = []).
    { apply filter_all_false. rewrite Forall_forall in *. intros e He.
      destruct (P e) eqn:E; [|reflexivity].
      specialize (Hh e He). cbn in Hh.
      specialize (H e (k, v) (or_intror He) (or_introl eq_refl) E EQ). cbn in H. lia. }
    rewrite EF in *. cbn [app] in *. now rewrite IH'.
Qed.

Definition in_row (x0 x1 y : N) (e : N * bytes) : bool :=
  (key_of 10 y x0 0 <=? fst e) && (fst e <? key_of 10 y x1 0).

Fixpoint in_rows (x0 x1 y : N) (n : nat) (e : N * bytes) : bool :=
  match n with
  | O => false
  | S n' => in_row x0 x1 y e || in_rows x0 x1 (y + 1) n' e
  end.

Lemma in_rows_lt x0 x1 y n e : x0 < 2 ^ 21 -> in_rows x0 x1 y n e = true ->
  key_of 10 y x0 0 <= fst e.
Proof.
  revert y; induction n as [|n IH]; intros y Hx H; [discriminate|].
  cbn [in_rows] in H. apply orb_true_iff in H. destruct H as [H|H].
  - unfold in_row in H. lia.
  - apply IH in H; [|assumption]. unfold key_of in *. lia.
Qed.

Lemma filter_none {A} (l : list A) : filter (fun _ => false) l = [].
Proof. induction l; auto. Qed.

Lemma scan_rows_visit tbl x0 x1 y n :
  table_sorted tbl -> x0 < 2 ^ 21 -> x1 < 2 ^ 21 -> y + N.of_nat n <= 2 ^ 21 ->
  scan_rows tbl x0 x1 y n = visit (filter (in_rows x0 x1 y n) tbl).
Proof.
  intros Hs Hx0 Hx1. revert y. induction n as [|n IH]; intros y Hy.
  - cbn [scan_rows in_rows]. now rewrite filter_none.
  - cbn [scan_rows]. rewrite !tile_to_key_spec. cbn [tx ty tz].
    unfold kTileDefaultIndexZoomLvl.
    replace (x0 <? 2 ^ 21) with true by lia.
    replace (x1 <? 2 ^ 21) with true by lia.
    replace (y <? 2 ^ 21) with true by lia.
    change (10 <? 2 ^ 5) with true. change (0 <? 2 ^ 17) with true.
    cbn [andb bind].
    rewrite set_range_filter, scan_row_visit, filter_filter by auto using table_sorted_filter.
    rewrite IH by lia.
    cbn [in_rows].
    rewrite <- (filter_split (in_row x0 x1 y) (in_rows x0 x1 (y + 1) n)).
    + rewrite visit_app. reflexivity.
    + assumption.
    + intros a b _ _ Ha Hb. apply in_rows_lt in Hb; [|assumption].
      unfold in_row in Ha. unfold key_of in *. lia.
Qed.

Lemma coversb_spec a b : coversb a b = true <-> covers a b.
Proof. unfold coversb, covers. rewrite !andb_true_iff, N.leb_le, !N.eqb_eq. tauto. Qed.

Lemma relatedb_spec a b : relatedb a b = true <-> related a b.
Proof. unfold relatedb, related. rewrite orb_true_iff, !coversb_spec. reflexivity. Qed.

Lemma in_rows_spec x0 x1 y n e :
  in_rows x0 x1 y n e = true <->
  exists y', y <= y' < y + N.of_nat n /\ in_row x0 x1 y' e = true.
Proof.
  revert y; induction n as [|n IH]; intros y; cbn [in_rows].
  - split; [discriminate|]. intros (y' & H & _). lia.
  - rewrite orb_true_iff, IH. split.
    + intros [H|(y' & H1 & H2)].
      * exists y. split; [lia|assumption].
      * exists y'. split; [lia|assumption].
    + intros (y' & H1 & H2). destruct (N.eq_dec y y') as [->|Hne]; [now left|].
      right. exists y'. split; [lia|assumption].
Qed.

Lemma in_row_key z y x n x0 x1 y' v :
  y < 2 ^ 21 -> x < 2 ^ 21 -> n < 2 ^ 17 -> x0 < 2 ^ 21 -> x1 < 2 ^ 21 -> y' < 2 ^ 21 ->
  in_row x0 x1 y' (key_of z y x n, v) = true <-> (z = 10 /\ y = y' /\ x0 <= x < x1).
Proof.
  intros. unfold in_row. cbn [fst]. rewrite andb_true_iff, N.leb_le, N.ltb_lt.
  unfold key_of. split; intros HH; lia.
Qed.

(** C03 *)
Lemma foreach_exact tbl q :
  table_sorted tbl -> Forall (fun e => fst e < 2 ^ 64) tbl ->
  tz q <= 20 -> valid_tile q ->
  pack_records_foreach tbl q =
  visit (filter (fun e => (tz (key_to_tile (fst e)) =? 10) && relatedb (key_to_tile (fst e)) q) tbl).
Proof.
  intros Hs Hk Hz [Hx Hy].
  assert (Hp : 0 < 2 ^ tz q) by (apply N.neq_0_lt_0, N.pow_nonzero; lia).
  unfold pack_records_foreach, bounds_on_z, kTileDefaultIndexZoomLvl.
  set (b := if 10 <? tz q then _ else _).
  assert (Hb : minx b < 2 ^ 21 /\ maxx b < 2 ^ 21 /\ miny b <= maxy b <= 2 ^ 21 /\
     forall X Y, minx b <= X < maxx b /\ miny b <= Y < maxy b <-> related (Tile X Y 10) q).
  { subst b. destruct (N.ltb_spec 10 (tz q)) as [H|H]; cbn [minx miny maxx maxy].
    - rewrite !N.shiftr_div_pow2.
      assert (E : 2 ^ tz q = 2 ^ (tz q - 10) * 1024).
      { change 1024 with (2 ^ 10). rewrite <- N.pow_add_r. f_equal. lia. }
      assert (P0 : 2 ^ (tz q - 10) <> 0) by (apply N.pow_nonzero; lia).
      assert (Bx : tx q / 2 ^ (tz q - 10) < 1024) by (apply N.div_lt_upper_bound; lia).
      assert (By : ty q / 2 ^ (tz q - 10) < 1024) by (apply N.div_lt_upper_bound; lia).
      split; [lia|]. split; [lia|]. split; [lia|].
      intros X Y. unfold related, covers. cbn [tx ty tz]. split; [lia|].
      intros [HH|HH]; lia.
    - rewrite !N.shiftl_mul_pow2.
      assert (E : 2 ^ (10 - tz q) * 2 ^ tz q = 1024).
      { change 1024 with (2 ^ 10). rewrite <- N.pow_add_r. f_equal. lia. }
      assert (P0 : 0 < 2 ^ (10 - tz q)) by (apply N.neq_0_lt_0, N.pow_nonzero; lia).
      set (p := 2 ^ (10 - tz q)) in *. set (s := 2 ^ tz q) in *.
      assert (B1 : (tx q + 1) * p <= 1024) by nia.
      assert (B2 : (ty q + 1) * p <= 1024) by nia.
      split; [nia|]. split; [nia|]. split; [nia|].
      intros X Y. unfold related, covers. cbn [tx ty tz]. fold p.
      assert (D : forall a c, (a * p <= c < (a + 1) * p) <-> (a = c / p)).
      { intros a c. split.
        - intros HH. apply N.div_unique with (r := c - a * p); nia.
        - intros ->. pose proof (N.div_mod c p). pose proof (N.mod_lt c p). nia. }
      rewrite !D. split.
      + intros [E1 E2]. right. split; [lia|]. auto.
      + intros [(L & E1 & E2)|(L & E1 & E2)]; [|auto].
        assert (tz q = 10) by lia.
        assert (p = 1) by (unfold p; replace (10 - tz q) with 0 by lia; reflexivity).
        replace (tz q - 10) with 0 in * by lia. rewrite N.pow_0_r, N.div_1_r in *.
        replace p with 1 by congruence. rewrite !N.div_1_r. auto. }
  destruct Hb as (Hb1 & Hb2 & Hb3 & Hb4).
  rewrite scan_rows_visit by (try assumption; lia).
  f_equal. apply filter_ext_in. intros e He.
  rewrite Forall_forall in Hk. specialize (Hk e He).
  destruct (key_decompose (fst e) Hk) as (z & y & x & n & E & Ry & Rx & Rn & Rz).
  rewrite E, key_to_tile_of by assumption. cbn [tz].
  apply eq_true_iff_eq. rewrite in_rows_spec, andb_true_iff, N.eqb_eq, relatedb_spec.
  destruct e as [k v]. cbn [fst] in E. subst k. split.
  - intros (y' & Hy' & Hr). apply in_row_key in Hr; try assumption; [|lia].
    destruct Hr as (-> & <- & Hr). split; [reflexivity|]. apply Hb4. lia.
  - intros (-> & HR). apply Hb4 in HR. exists y. split; [lia|].
    apply in_row_key; try assumption; lia.
Qed.

(** every stored value decodes, so the scan succeeds with exactly these *)
Lemma visit_ok es :
  Forall (fun e => exists rs, Forall rec_ok rs /\ snd e = pack_records_serialize rs) es ->
  exists out, visit es = Ok out.
Proof.
  induction 1 as [|e es (rs & Hrs & E) Hes (out & IH)]; [now exists []|].
  cbn [visit]. rewrite E, deserialize_serialize by assumption. cbn [bind].
  rewrite IH. cbn [bind]. eauto.
Qed.

Lemma tile_to_key_ok t n k : tile_to_key t n = Ok k -> key_to_tile k = t /\ k < 2 ^ 64.
Proof.
  rewrite tile_to_key_spec.
  destruct (N.ltb_spec (tx t) (2 ^ 21)); [|discriminate].
  destruct (N.ltb_spec (ty t) (2 ^ 21)); [|discriminate].
  destruct (N.ltb_spec (tz t) (2 ^ 5)); [|discriminate].
  destruct (N.ltb_spec n (2 ^ 17)); [|discriminate].
  cbn [andb]. intros [= <-]. rewrite key_to_tile_of by assumption.
  split; [now destruct t|]. unfold key_of. lia.
Qed.

Lemma visit_stores (P : tile -> bool) db tbl :
  Forall2 stores db tbl ->
  visit (filter (fun e => P (key_to_tile (fst e))) tbl) =
  Ok (flat_map (fun d => map (fun r => (fst (fst d), r)) (snd d))
       (filter (fun d => P (fst (fst d))) db)).
Proof.
  induction 1 as [|d e db tbl (H1 & H2 & H3) HF IH]; [reflexivity|].
  cbn [filter]. destruct (tile_to_key_ok _ _ _ H1) as [-> _].
  destruct (P (fst (fst d))); [|exact IH].
  cbn [visit flat_map]. rewrite H3, deserialize_serialize by assumption. cbn [bind].
  rewrite IH. cbn [bind]. destruct (tile_to_key_ok _ _ _ H1) as [-> _]. reflexivity.
Qed.

Lemma foreach_exact_db db tbl q :
  Forall2 stores db tbl -> table_sorted tbl -> tz q <= 20 -> valid_tile q ->
  pack_records_foreach tbl q =
  Ok (flat_map (fun d => map (fun r => (fst (fst d), r)) (snd d))
       (filter (fun d => (tz (fst (fst d)) =? 10) && relatedb (fst (fst d)) q) db)).
Proof.
  intros HF Hs Hz Hv. rewrite foreach_exact; try assumption.
  - exact (visit_stores (fun t => (tz t =? 10) && relatedb t q) db tbl HF).
  - clear -HF. induction HF as [|d e db tbl (H1 & _) HF IH]; constructor; [|exact IH].
    now apply tile_to_key_ok in H1.
Qed.

Lemma row_interval x0 x1 y z t n k0 k1 k :
  tile_to_key (Tile x0 y z) 0 = Ok k0 -> tile_to_key (Tile x1 y z) 0 = Ok k1 ->
  tile_to_key t n = Ok k ->
  (k0 <= k < k1 <-> tz t = z /\ ty t = y /\ x0 <= tx t < x1).
Proof.
  rewrite !tile_to_key_spec. cbn [tx ty tz].
  repeat match goal with |- context [?a <? ?b] => destruct (N.ltb_spec a b) end;
    cbn [andb]; try discriminate.
  intros [= <-] [= <-] [= <-]. unfold key_of. split; intros HH; lia.
Qed.
