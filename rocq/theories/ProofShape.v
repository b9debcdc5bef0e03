(** Proofs about reading shapefiles. *)
From Coq Require FinFun.
From Verif Require Import Base BaseProof ModelTile ModelCodec ModelGeom ModelShape SpecShape.
Open Scope N_scope.

Lemma slice_at (a x b buf : bytes) off len : buf = a ++ x ++ b -> off = blen a -> len = blen x -> slice buf off len = x.
Proof. intros -> -> ->. apply slice_app_exact. Qed.
Lemma fits (a x b buf : bytes) off len : buf = a ++ x ++ b -> off = blen a -> len = blen x -> (off + len <=? blen buf) = true.
Proof. intros -> -> ->. rewrite !blen_app. lia. Qed.
Lemma le32_len v : blen (le32 v) = 4.
Proof. unfold blen, le32. now rewrite le_bytes_length. Qed.
Lemma be32_len v : blen (be32 v) = 4.
Proof. unfold blen, be32. now rewrite rev_length, le_bytes_length. Qed.
Lemma i32_small v : v < 2 ^ 31 -> i32 v = Z.of_N v.
Proof. intros H. unfold i32. now replace (v <? 2 ^ 31) with true by lia. Qed.

Lemma read_le a v b buf off : buf = a ++ le32 v ++ b -> off = blen a -> v < 2 ^ 31 -> read_int_little buf off = Ok (Z.of_N v).
Proof.
  intros E O V. unfold read_int_little. rewrite (fits a (le32 v) b) by (auto; now rewrite le32_len).
  rewrite (slice_at a (le32 v) b) by (auto; now rewrite le32_len). unfold le32. rewrite le_val_bytes by (change (256 ^ N.of_nat 4) with (2 ^ 32); lia).
  now rewrite i32_small.
Qed.
Lemma read_be a v b buf off : buf = a ++ be32 v ++ b -> off = blen a -> v < 2 ^ 31 -> read_int_big buf off = Ok (Z.of_N v).
Proof.
  intros E O V. unfold read_int_big. rewrite (fits a (be32 v) b) by (auto; now rewrite be32_len).
  rewrite (slice_at a (be32 v) b) by (auto; now rewrite be32_len). unfold be32. rewrite rev_involutive.
  rewrite le_val_bytes by (change (256 ^ N.of_nat 4) with (2 ^ 32); lia). now rewrite i32_small.
Qed.

Lemma point_bytes_len p : point_ok p -> blen (point_bytes p) = 16.
Proof. intros [A B]. unfold blen, point_bytes. rewrite app_length, A, B. reflexivity. Qed.
Lemma points_len ps : Forall point_ok ps -> blen (flat_map point_bytes ps) = 16 * N.of_nat (length ps).
Proof. induction 1 as [|p ps H _ IH]; [reflexivity|]. cbn [flat_map length]. rewrite blen_app, point_bytes_len, IH by auto. lia. Qed.
Lemma starts_len n parts : blen (flat_map le32 (part_starts n parts)) = 4 * N.of_nat (length parts).
Proof. revert n. induction parts as [|p r IH]; intros n; [reflexivity|]. cbn [part_starts flat_map length]. rewrite blen_app, le32_len, IH. lia. Qed.
Lemma starts_app a : forall n b, part_starts n (a ++ b) = part_starts n a ++ part_starts (n + N.of_nat (length (concat a))) b.
Proof.
  induction a as [|p a IH]; intros n b; cbn [app part_starts concat].
  - f_equal. cbn [length]. lia.
  - rewrite IH, app_length. do 3 f_equal. lia.
Qed.

Section Read.
  Context (tf : bytes -> bytes -> pt).

  Lemma read_points_spec buf : forall n a ps b off, buf = a ++ flat_map point_bytes ps ++ b -> off = blen a ->
    Forall point_ok ps -> (n <= length ps)%nat -> read_points tf buf n off = Ok (ring_points tf (firstn n ps)).
  Proof.
    induction n as [|n IH]; intros a ps b off E O F L; [reflexivity|].
    destruct ps as [|[lng lat] ps]; [cbn in L; lia|]. pose proof (Forall_inv F) as [Llng Llat]. pose proof (Forall_inv_tail F) as F'.
    cbn [fst snd] in *. cbn [flat_map] in E. unfold point_bytes at 1 in E. cbn [fst snd] in E.
    assert (L1 : blen lng = 8) by (unfold blen; now rewrite Llng). assert (L2 : blen lat = 8) by (unfold blen; now rewrite Llat).
    cbn [read_points]. unfold read_double_little.
    rewrite (fits a lng (lat ++ flat_map point_bytes ps ++ b)) by (rewrite ?E, <- ?app_assoc; try reflexivity; try assumption; lia).
    rewrite (slice_at a lng (lat ++ flat_map point_bytes ps ++ b)) by (rewrite ?E, <- ?app_assoc; try reflexivity; try assumption; lia). cbn [bind].
    rewrite (fits (a ++ lng) lat (flat_map point_bytes ps ++ b)) by (rewrite ?blen_app, ?E, <- ?app_assoc; try reflexivity; lia).
    rewrite (slice_at (a ++ lng) lat (flat_map point_bytes ps ++ b)) by (rewrite ?blen_app, ?E, <- ?app_assoc; try reflexivity; lia). cbn [bind].
    rewrite (IH (a ++ lng ++ lat) ps b); auto.
    - now rewrite E, <- !app_assoc.
    - rewrite !blen_app. lia.
    - cbn [length] in L. lia.
  Qed.

  (** what read_ring adds *)
  Definition add_ring (p : poly) (r : line) : poly :=
    match fst p with [] => (r, snd p) | _ => (fst p, snd p ++ [r]) end.
  (** what is read for a part of length [n]: points from the first one on *)
  Definition misread (parts : list (list shp_point)) (n : nat) : line := ring_points tf (firstn n (concat parts)).

  Lemma read_rings_spec pre post bbox parts buf : forall rest done p i,
    buf = pre ++ flat_map le32 (part_starts 0 parts) ++ flat_map point_bytes (concat parts) ++ post ->
    parts = done ++ rest -> i = N.of_nat (length done) -> length bbox = 32%nat ->
    Forall (Forall point_ok) parts -> blen (shp_content bbox parts) < 2 ^ 31 - 8 ->
    read_rings tf buf (blen pre) (blen pre + 4 * N.of_nat (length parts)) (Z.of_nat (length (concat parts))) (length rest) i p =
    Ok (fold_left add_ring (map (fun part => misread parts (length part)) rest) p).
  Proof.
    induction rest as [|part rest IH]; intros done p i E EP I LB F SZ; [reflexivity|].
    assert (FC : Forall point_ok (concat parts)) by (clear -F; induction F; [constructor|cbn [concat]; apply Forall_app; auto]).
    assert (LEN : 44 + 4 * N.of_nat (length parts) + 16 * N.of_nat (length (concat parts)) < 2 ^ 31 - 8).
    { unfold shp_content in SZ. rewrite !blen_app, !le32_len, starts_len, points_len in SZ by auto. unfold blen at 1 in SZ. lia. }
    cbn [length read_rings].
    set (s := N.of_nat (length (concat done))).
    assert (ST : part_starts 0 parts = part_starts 0 done ++ s :: part_starts (s + N.of_nat (length part)) rest).
    { rewrite EP, starts_app. cbn [part_starts]. rewrite N.add_0_l. reflexivity. }
    assert (CC : (length (concat parts) = length (concat done) + (length part + length (concat rest)))%nat).
    { rewrite EP, concat_app. cbn [concat]. rewrite !app_length. lia. }
    rewrite (read_le (pre ++ flat_map le32 (part_starts 0 done)) s
       (flat_map le32 (part_starts (s + N.of_nat (length part)) rest) ++ flat_map point_bytes (concat parts) ++ post)).
    2:{ rewrite E, ST, flat_map_app. cbn [flat_map]. now rewrite <- !app_assoc. }
    2:{ rewrite blen_app, starts_len. lia. }
    2:{ unfold s. lia. }
    cbn [bind].
    assert (UBD : match length rest with O => Ok (Z.of_nat (length (concat parts))) | S _ => read_int_little buf (blen pre + 4 * i + 4) end
       = Ok (Z.of_N (s + N.of_nat (length part)))).
    { destruct rest as [|part2 rest].
      - cbn [length]. f_equal. cbn [concat length] in CC. unfold s. lia.
      - cbn [length]. apply (read_le (pre ++ flat_map le32 (part_starts 0 done) ++ le32 s) (s + N.of_nat (length part))
          (flat_map le32 (part_starts (s + N.of_nat (length part) + N.of_nat (length part2)) rest) ++ flat_map point_bytes (concat parts) ++ post)).
        + rewrite E, ST, flat_map_app. cbn [flat_map part_starts]. now rewrite <- !app_assoc.
        + rewrite !blen_app, starts_len, le32_len. lia.
        + unfold s. lia. }
    cbn [length] in UBD |- *. rewrite UBD. cbn [bind].
    unfold read_ring. replace (Z.of_N (s + N.of_nat (length part)) - Z.of_N s)%Z with (Z.of_nat (length part)) by lia.
    unfold int_arith, int_ok. replace ((- 2 ^ 31 <=? Z.of_nat (length part)) && (Z.of_nat (length part) <? 2 ^ 31))%Z with true by lia.
    cbn [bind]. replace (0 <=? Z.of_nat (length part))%Z with true by lia. cbn [verify bind].
    replace (2 ^ 27 <? Z.of_nat (length part))%Z with false by lia. rewrite Nat2Z.id.
    rewrite (read_points_spec buf (length part) (pre ++ flat_map le32 (part_starts 0 parts)) (concat parts) post);
      [|now rewrite E, <- !app_assoc|rewrite blen_app, starts_len; lia|exact FC|lia].
    cbn [bind map fold_left]. apply (IH (done ++ [part])); auto.
    - rewrite EP, <- app_assoc. reflexivity.
    - rewrite app_length. cbn [length]. lia.
  Qed.

  Definition read_as (parts : list (list shp_point)) : poly :=
    fold_left add_ring (map (fun part => misread parts (length part)) parts) ([], []).
  Lemma read_as_cons part rest : part <> [] ->
    read_as (part :: rest) = (ring_points tf part, map (fun q => misread (part :: rest) (length q)) rest).
  Proof.
    intros H. unfold read_as. cbn [map fold_left add_ring fst snd].
    assert (M : misread (part :: rest) (length part) = ring_points tf part) by (unfold misread; cbn [concat]; now rewrite firstn_app_exact).
    rewrite M. assert (G : forall l o is, o <> [] -> fold_left add_ring l (o, is) = (o, is ++ l)).
    { induction l as [|r l IH]; intros o is Ho; cbn [fold_left]; [now rewrite app_nil_r|].
      unfold add_ring at 2. cbn [fst snd]. destruct o as [|x o]; [congruence|]. rewrite IH by discriminate. now rewrite <- app_assoc. }
    rewrite G; [reflexivity|]. unfold ring_points. destruct part; [congruence|discriminate].
  Qed.

  Lemma read_polygon_spec buf pre post bbox parts : buf = pre ++ shp_content bbox parts ++ post -> record_ok (bbox, parts) ->
    read_polygon tf buf (blen pre) = Ok (read_as parts).
  Proof.
    intros E (LB & NE & NP & F & SZ). cbn [fst snd] in *.
    assert (FC : Forall point_ok (concat parts)) by (clear -F; induction F; [constructor|cbn [concat]; apply Forall_app; auto]).
    assert (LEN : 44 + 4 * N.of_nat (length parts) + 16 * N.of_nat (length (concat parts)) < 2 ^ 31 - 8).
    { unfold shp_content in SZ. rewrite !blen_app, !le32_len, starts_len, points_len in SZ by auto. unfold blen at 1 in SZ. lia. }
    assert (LBB : blen bbox = 32) by (unfold blen; now rewrite LB).
    assert (P1 : (1 <= length parts)%nat) by (destruct parts; [congruence|cbn; lia]).
    assert (P2 : (1 <= length (concat parts))%nat).
    { destruct parts as [|part r]; [congruence|]. pose proof (Forall_inv NP) as H. destruct part; [congruence|]. cbn. lia. }
    unfold shp_content in E. unfold read_polygon.
    rewrite (read_le pre 5 (bbox ++ le32 (N.of_nat (length parts)) ++ le32 (N.of_nat (length (concat parts))) ++
      flat_map le32 (part_starts 0 parts) ++ flat_map point_bytes (concat parts) ++ post)); [|now rewrite E, <- !app_assoc|auto|lia].
    cbn [bind]. change (5 =? Z.of_N 5)%Z with true. cbn [verify bind].
    rewrite (read_le (pre ++ le32 5 ++ bbox) (N.of_nat (length parts)) (le32 (N.of_nat (length (concat parts))) ++
      flat_map le32 (part_starts 0 parts) ++ flat_map point_bytes (concat parts) ++ post));
      [|now rewrite E, <- !app_assoc|rewrite !blen_app, le32_len; lia|lia].
    cbn [bind].
    rewrite (read_le (pre ++ le32 5 ++ bbox ++ le32 (N.of_nat (length parts))) (N.of_nat (length (concat parts)))
      (flat_map le32 (part_starts 0 parts) ++ flat_map point_bytes (concat parts) ++ post));
      [|now rewrite E, <- !app_assoc|rewrite !blen_app, !le32_len; lia|lia].
    cbn [bind].
    replace (0 <? Z.of_N (N.of_nat (length parts)))%Z with true by lia. cbn [verify bind].
    replace (0 <? Z.of_N (N.of_nat (length (concat parts))))%Z with true by lia. cbn [verify bind].
    unfold int_arith, int_ok. replace ((- 2 ^ 31 <=? 4 * Z.of_N (N.of_nat (length parts))) && (4 * Z.of_N (N.of_nat (length parts)) <? 2 ^ 31))%Z with true by lia.
    cbn [bind].
    set (pre' := pre ++ le32 5 ++ bbox ++ le32 (N.of_nat (length parts)) ++ le32 (N.of_nat (length (concat parts)))).
    replace (blen pre + 44) with (blen pre') by (unfold pre'; rewrite !blen_app, !le32_len; lia).
    replace (Z.to_N (4 * Z.of_N (N.of_nat (length parts)))) with (4 * N.of_nat (length parts)) by lia.
    replace (Z.of_N (N.of_nat (length (concat parts)))) with (Z.of_nat (length (concat parts))) by lia.
    replace (Z.to_nat (Z.of_N (N.of_nat (length parts)))) with (length parts) by lia.
    rewrite (read_rings_spec pre' post bbox parts buf parts []); auto.
    2:{ rewrite E. unfold pre'. now rewrite <- !app_assoc. }
    cbn [bind]. fold (read_as parts).
    destruct parts as [|part rest]; [congruence|]. pose proof (Forall_inv NP) as Hp. rewrite (read_as_cons part rest Hp). cbn [fst].
    destruct part; [congruence|]. reflexivity.
  Qed.

  Lemma content_even bbox parts : length bbox = 32%nat -> Forall (Forall point_ok) parts -> 2 * (blen (shp_content bbox parts) / 2) = blen (shp_content bbox parts).
  Proof.
    intros LB F. assert (FC : Forall point_ok (concat parts)) by (clear -F; induction F; [constructor|cbn [concat]; apply Forall_app; auto]).
    unfold shp_content. rewrite !blen_app, !le32_len, starts_len, points_len by auto. replace (blen bbox) with 32 by (unfold blen; now rewrite LB).
    set (a := N.of_nat (length parts)). set (b := N.of_nat (length (concat parts))).
    replace (4 + (32 + (4 + (4 + (4 * a + 16 * b))))) with ((22 + 2 * a + 8 * b) * 2) by lia. rewrite N.div_mul by lia. lia.
  Qed.

  Lemma read_records_spec buf : forall rs pre idx fuel, buf = pre ++ shp_records (idx + 1) rs -> Forall record_ok rs ->
    idx + N.of_nat (length rs) < 2 ^ 31 - 1 -> blen buf < 2 ^ 64 -> (length rs < fuel)%nat ->
    read_records tf fuel buf (Z.of_N idx) (blen pre) = Ok (map (fun r => read_as (snd r)) rs).
  Proof.
    induction rs as [|[bbox parts] rs IH]; intros pre idx fuel E F I LB FU; (destruct fuel as [|fuel]; [cbn in FU; lia|]); cbn [read_records].
    - rewrite E at 1. cbn [shp_records]. rewrite app_nil_r. now replace (blen pre <=? blen pre) with true by lia.
    - pose proof (Forall_inv F) as R. pose proof (Forall_inv_tail F) as F'. cbn [shp_records] in E. unfold shp_record in E.
      pose proof R as (LBB & NE & NP & FP & SZ). cbn [fst snd] in *. pose proof (content_even bbox parts LBB FP) as EV.
      set (c := shp_content bbox parts) in *. cbn [length] in I.
      assert (BL : blen buf = blen pre + (8 + blen c) + blen (shp_records (idx + 1 + 1) rs)).
      { rewrite E, !blen_app, !be32_len. lia. }
      replace (blen buf <=? blen pre) with false by lia.
      unfold int_arith, int_ok. replace ((- 2 ^ 31 <=? Z.of_N idx + 1) && (Z.of_N idx + 1 <? 2 ^ 31))%Z with true by lia. cbn [bind].
      rewrite (read_be pre (idx + 1) (be32 (blen c / 2) ++ c ++ shp_records (idx + 1 + 1) rs)); [|now rewrite E, <- !app_assoc|auto|lia].
      cbn [bind]. replace (Z.of_N idx + 1 =? Z.of_N (idx + 1))%Z with true by lia. cbn [verify bind].
      replace (blen pre + 8) with (blen (pre ++ be32 (idx + 1) ++ be32 (blen c / 2))) by (rewrite !blen_app, !be32_len; lia).
      rewrite (read_polygon_spec buf (pre ++ be32 (idx + 1) ++ be32 (blen c / 2)) (shp_records (idx + 1 + 1) rs) bbox parts);
        [|rewrite E; fold c; now rewrite <- !app_assoc|exact R].
      cbn [bind].
      assert (H2 : blen c / 2 < 2 ^ 31) by lia.
      rewrite (read_be (pre ++ be32 (idx + 1)) (blen c / 2) (c ++ shp_records (idx + 1 + 1) rs));
        [|now rewrite E, <- !app_assoc|now rewrite blen_app, be32_len|exact H2].
      cbn [bind]. replace (Z.of_N (blen c / 2) * 2)%Z with (Z.of_N (blen c)) by lia.
      replace ((- 2 ^ 31 <=? Z.of_N (blen c)) && (Z.of_N (blen c) <? 2 ^ 31))%Z with true by lia. cbn [bind].
      replace ((- 2 ^ 31 <=? 8 + Z.of_N (blen c)) && (8 + Z.of_N (blen c) <? 2 ^ 31))%Z with true by lia. cbn [bind].
      rewrite Z.mod_small by lia.
      replace (Z.to_N (Z.of_N (blen pre) + (8 + Z.of_N (blen c)))) with (blen (pre ++ be32 (idx + 1) ++ be32 (blen c / 2) ++ c))
        by (rewrite !blen_app, !be32_len; lia).
      replace (blen (pre ++ be32 (idx + 1) ++ be32 (blen c / 2) ++ c) <=? blen buf) with true by (rewrite !blen_app, !be32_len; lia).
      cbn [verify bind]. replace (Z.of_N idx + 1)%Z with (Z.of_N (idx + 1)) by lia.
      rewrite (IH (pre ++ be32 (idx + 1) ++ be32 (blen c / 2) ++ c) (idx + 1) fuel); auto; try lia.
      + rewrite E, <- !app_assoc. reflexivity.
      + cbn [length] in FU. lia.
  Qed.

  Lemma records_count rs : forall idx, Forall record_ok rs -> N.of_nat (length rs) <= blen (shp_records idx rs).
  Proof.
    induction rs as [|[b p] rs IH]; intros idx F; [cbn; lia|]. cbn [shp_records length]. rewrite blen_app.
    specialize (IH (idx + 1) (Forall_inv_tail F)). unfold shp_record. rewrite blen_app, be32_len. lia.
  Qed.
  Lemma read_shapefile_spec unused rest rs : file_ok unused rest rs ->
    read_shapefile tf (shp_file unused rest rs) = Ok (map (fun r => read_as (snd r)) rs).
  Proof.
    intros (LU & LR & F & NR & SZ). assert (BU : blen unused = 24) by (unfold blen; now rewrite LU). assert (BR : blen rest = 64) by (unfold blen; now rewrite LR).
    set (buf := shp_file unused rest rs) in *. assert (E : buf = shp_file unused rest rs) by reflexivity. unfold shp_file in E. unfold read_shapefile.
    rewrite (read_be [] 9994 (unused ++ le32 1000 ++ le32 5 ++ rest ++ shp_records 1 rs)); [|exact E|reflexivity|lia]. cbn [bind].
    change (9994 =? Z.of_N 9994)%Z with true. cbn [verify bind].
    rewrite (read_le (be32 9994 ++ unused) 1000 (le32 5 ++ rest ++ shp_records 1 rs)); [|now rewrite E, <- !app_assoc|now rewrite blen_app, be32_len, BU|lia].
    cbn [bind]. change (1000 =? Z.of_N 1000)%Z with true. cbn [verify bind].
    rewrite (read_le (be32 9994 ++ unused ++ le32 1000) 5 (rest ++ shp_records 1 rs));
      [|now rewrite E, <- !app_assoc|now rewrite !blen_app, be32_len, BU, le32_len|lia].
    cbn [bind]. change (5 =? Z.of_N 5)%Z with true. cbn [verify bind].
    replace 100 with (blen (be32 9994 ++ unused ++ le32 1000 ++ le32 5 ++ rest)) by (rewrite !blen_app, be32_len, BU, !le32_len, BR; reflexivity).
    apply (read_records_spec buf rs (be32 9994 ++ unused ++ le32 1000 ++ le32 5 ++ rest) 0); auto.
    - rewrite E, <- !app_assoc. reflexivity.
    - pose proof (records_count rs 1 F). assert (blen (shp_records 1 rs) <= blen buf) by (rewrite E, !blen_app; lia). unfold blen in *. lia.
  Qed.
End Read.

(** ** termination on arbitrary bytes: the record number read at an offset never
    changes, so no offset is visited twice *)
Lemma read_records_fuel tf buf : forall fuel index off (seen : list N),
  (forall o, In o seen -> o < blen buf /\ exists i, read_int_big buf o = Ok i /\ (i <= index)%Z) -> NoDup seen ->
  (length buf < fuel + length seen)%nat -> read_records tf fuel buf index off <> Fuel.
Proof.
  assert (NF : forall z, int_arith z <> Fuel) by (intros z; unfold int_arith; destruct (int_ok z); discriminate).
  assert (NV : forall b, verify b <> Fuel) by (intros []; discriminate).
  assert (NB : forall pos, read_int_big buf pos <> Fuel) by (intros pos; unfold read_int_big; destruct (_ <=? _); discriminate).
  assert (NL : forall pos, read_int_little buf pos <> Fuel) by (intros pos; unfold read_int_little; destruct (_ <=? _); discriminate).
  assert (NBI : forall A B (r : res A) (f : A -> res B), r <> Fuel -> (forall a, r = Ok a -> f a <> Fuel) -> bind r f <> Fuel).
  { intros A B r f H1 H2. destruct r; cbn [bind]; try discriminate; [now apply H2|congruence]. }
  assert (NPt : forall n off, read_points tf buf n off <> Fuel).
  { induction n as [|n IH]; intros off; cbn [read_points]; [discriminate|].
    apply NBI; [unfold read_double_little; destruct (_ <=? _); discriminate|]. intros lng _.
    apply NBI; [unfold read_double_little; destruct (_ <=? _); discriminate|]. intros lat _.
    apply NBI; [apply IH|]. discriminate. }
  assert (NRs : forall left po pp np i p, read_rings tf buf po pp np left i p <> Fuel).
  { induction left as [|left IH]; intros po pp np i p; cbn [read_rings]; [discriminate|].
    apply NBI; [apply NL|]. intros lb _. apply NBI; [destruct left; [discriminate|apply NL]|]. intros ub _.
    apply NBI; [|intros; apply IH]. unfold read_ring. apply NBI; [apply NF|]. intros c _. apply NBI; [apply NV|]. intros _ _.
    apply NBI; [destruct (_ <? _)%Z; [discriminate|apply NPt]|]. discriminate. }
  assert (NP : forall off, read_polygon tf buf off <> Fuel).
  { intros off. unfold read_polygon. apply NBI; [apply NL|]. intros ty _. apply NBI; [apply NV|]. intros _ _.
    apply NBI; [apply NL|]. intros np _. apply NBI; [apply NL|]. intros npt _. apply NBI; [apply NV|]. intros _ _.
    apply NBI; [apply NV|]. intros _ _. apply NBI; [apply NF|]. intros np4 _. apply NBI; [apply NRs|]. intros p _.
    apply NBI; [apply NV|]. discriminate. }
  assert (BND : forall l : list N, NoDup l -> (forall o, In o l -> o < blen buf) -> (length l <= length buf)%nat).
  { intros l ND HB. rewrite <- (map_length N.to_nat l), <- (seq_length (length buf) 0). apply NoDup_incl_length.
    - apply FinFun.Injective_map_NoDup; [|exact ND]. intros x y. apply N2Nat.inj.
    - intros x I. apply in_map_iff in I as (o & <- & I). apply HB in I. apply in_seq. unfold blen in I. lia. }
  induction fuel as [|fuel IH]; intros index off seen HS ND L; cbn [read_records].
  - exfalso. pose proof (BND seen ND (fun o I => proj1 (HS o I))). lia.
  - destruct (blen buf <=? off) eqn:B; [discriminate|].
    apply NBI; [apply NF|]. intros index' Ei. unfold int_arith in Ei. destruct (int_ok (index + 1)); [|discriminate]. apply Ok_inj in Ei. subst index'.
    apply NBI; [apply NB|]. intros idx Eidx. destruct (index + 1 =? idx)%Z eqn:EI; cbn [verify bind]; [|discriminate].
    apply NBI; [apply NP|]. intros p _. apply NBI; [apply NB|]. intros len _. apply NBI; [apply NF|]. intros len2 _. apply NBI; [apply NF|]. intros step _.
    apply NBI; [apply NV|]. intros _ _. apply NBI; [|discriminate]. apply Z.eqb_eq in EI. subst idx.
    apply (IH _ _ (off :: seen)).
    + intros o [<-|I]; [split; [lia|exists (index + 1)%Z; split; [exact Eidx|lia]]|]. destruct (HS o I) as (A & i & Ri & Li).
      split; [exact A|]. exists i. split; [exact Ri|lia].
    + constructor; [|exact ND]. intros I. destruct (HS off I) as (_ & i & Ri & Li). rewrite Eidx in Ri. apply Ok_inj in Ri. lia.
    + cbn [length]. lia.
Qed.
