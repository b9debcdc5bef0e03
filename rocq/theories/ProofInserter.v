(** Proofs about the feature inserter: buckets, jobs of a call, storing packs. *)
From Coq Require Import Permutation Sorted.
From Coq Require FinFun.
From Verif Require Import Base BaseProof ModelTile SpecTile ProofTile ModelPackFile SpecPackFile ProofPackFile ModelGeom ModelFeature ModelCodec ModelPack SpecPack ProofPack
  ModelTable ProofTable ModelRender ModelPrepare ProofPrepare ProofPacker ModelInserter SpecInserter.
Open Scope N_scope.

(** ** the bucket of a tile *)
Lemma tile_eqb_eq a b : tile_eqb a b = true <-> a = b.
Proof.
  unfold tile_eqb. destruct a as [x1 y1 z1], b as [x2 y2 z2]. cbn [tx ty tz]. split.
  - intros H. f_equal; lia.
  - intros H. injection H as -> -> ->. lia.
Qed.

Lemma bound_spec bs t (k : nat) : (k <= length bs)%nat ->
  (forall i b, nth_error bs i = Some b -> tile_before (b_tile b) t = (i <? k)%nat) ->
  forall fuel first len, (len < fuel)%nat -> (first + len <= length bs)%nat -> (first <= k <= first + len)%nat ->
  bucket_bound fuel first len bs t = k.
Proof.
  intros Hk Hb. induction fuel as [|fuel IH]; intros first len Hf Hl Hr; [lia|]. cbn [bucket_bound].
  destruct (Nat.eqb_spec len 0) as [->|Hn]; [lia|].
  assert (Hh : (Nat.div2 len < len)%nat) by (apply Nat.lt_div2; lia).
  set (half := Nat.div2 len) in *. destruct (nth_error bs (first + half)) as [b|] eqn:E.
  2:{ apply nth_error_None in E. lia. }
  rewrite (Hb _ _ E). destruct (Nat.ltb_spec (first + half) k); apply IH; lia.
Qed.

Lemma nrange_nth a n i : nth_error (nrange a n) i = if (i <? N.to_nat n)%nat then Some (a + N.of_nat i) else None.
Proof.
  unfold nrange. destruct (Nat.ltb_spec i (N.to_nat n)).
  - rewrite (map_nth_error _ i _ (d := i)); [reflexivity|].
    rewrite (nth_error_nth' _ 0%nat) by (rewrite seq_length; lia). rewrite seq_nth by lia. reflexivity.
  - apply nth_error_None. rewrite map_length, seq_length. lia.
Qed.
Lemma nrange_len a n : length (nrange a n) = N.to_nat n.
Proof. unfold nrange. rewrite map_length, seq_length. reflexivity. Qed.

Lemma nth_flat {A B} (f : A -> list B) w l : (forall x, In x l -> length (f x) = w) -> (0 < w)%nat ->
  forall i, nth_error (flat_map f l) i = match nth_error l (i / w) with Some x => nth_error (f x) (i mod w) | None => None end.
Proof.
  intros Hl Hw. induction l as [|x l IH]; intros i; cbn [flat_map].
  - destruct i as [|i], (nth_error (@nil A) _) as [x|] eqn:E; try reflexivity; apply nth_error_In in E; destruct E.
  - assert (E : length (f x) = w) by (apply Hl; left; reflexivity).
    destruct (Nat.ltb_spec i w) as [H|H].
    + rewrite nth_error_app1 by lia. rewrite Nat.div_small, Nat.mod_small by assumption. reflexivity.
    + rewrite nth_error_app2 by lia. rewrite E, IH by (intros y Hy; apply Hl; right; exact Hy).
      assert (Ei : exists j, i = (j + 1 * w)%nat) by (exists (i - w)%nat; lia). destruct Ei as [j ->].
      rewrite Nat.div_add, Nat.mod_add by lia. replace (j + 1 * w - w)%nat with j by lia.
      rewrite Nat.add_1_r. reflexivity.
Qed.

Definition wide (z : N) : nat := N.to_nat (2 ^ z).
Lemma wide_pos z : (0 < wide z)%nat.
Proof. unfold wide. pose proof (N.pow_nonzero 2 z). lia. Qed.
Definition world_tiles (z : N) : list tile := range_tiles (TBounds 0 0 (2 ^ z) (2 ^ z)) z.
Lemma world_nth z i : nth_error (world_tiles z) i =
  if (i / wide z <? wide z)%nat then Some (Tile (N.of_nat (i mod wide z)) (N.of_nat (i / wide z)) z) else None.
Proof.
  unfold world_tiles, range_tiles. cbn [minx miny maxx maxy]. pose proof (wide_pos z).
  rewrite (nth_flat _ (wide z)) by (try assumption; intros y _; rewrite map_length, nrange_len, N.sub_0_r; reflexivity).
  rewrite nrange_nth, N.sub_0_r. fold (wide z).
  destruct (Nat.ltb_spec (i / wide z) (wide z)); [|reflexivity].
  erewrite map_nth_error. 2:{ rewrite nrange_nth. fold (wide z).
    destruct (Nat.ltb_spec (i mod wide z) (wide z)) as [_|Hm]; [reflexivity|].
    pose proof (Nat.mod_upper_bound i (wide z)). lia. }
  rewrite !N.add_0_l. reflexivity.
Qed.
Lemma world_len z : length (world_tiles z) = (wide z * wide z)%nat.
Proof.
  unfold world_tiles, range_tiles. cbn [minx miny maxx maxy]. rewrite N.sub_0_r.
  assert (E : forall l, length (flat_map (fun y => map (fun x => Tile x y z) (nrange 0 (2 ^ z))) l) = (length l * wide z)%nat).
  { induction l as [|y l IH]; [reflexivity|]. cbn [flat_map length]. rewrite app_length, map_length, nrange_len, IH. fold (wide z). lia. }
  rewrite E, nrange_len. reflexivity.
Qed.
Lemma world_In z t : In t (world_tiles z) <-> index_tile z t.
Proof. unfold world_tiles, index_tile. rewrite range_tiles_In. cbn [minx miny maxx maxy]. lia. Qed.

Lemma bucket_tile bs i b l : map b_tile bs = l -> nth_error bs i = Some b -> nth_error l i = Some (b_tile b).
Proof. intros <- H. now apply map_nth_error. Qed.

Lemma get_bucket_ok z bs t : map b_tile bs = world_tiles z -> index_tile z t ->
  exists i b, get_bucket bs t = Ok i /\ nth_error bs i = Some b /\ b_tile b = t.
Proof.
  intros Hm (Hz & Hx & Hy). pose proof (wide_pos z) as Hw.
  set (w := wide z) in *. set (k := (N.to_nat (ty t) * w + N.to_nat (tx t))%nat).
  assert (Hxw : (N.to_nat (tx t) < w)%nat) by (unfold w, wide; lia).
  assert (Hyw : (N.to_nat (ty t) < w)%nat) by (unfold w, wide; lia).
  assert (Kd : (k / w = N.to_nat (ty t))%nat) by (unfold k; rewrite Nat.div_add_l, Nat.div_small by lia; lia).
  assert (Km : (k mod w = N.to_nat (tx t))%nat) by (unfold k; rewrite Nat.add_comm, Nat.mod_add, Nat.mod_small by lia; lia).
  assert (Hlen : length bs = (w * w)%nat) by (rewrite <- (map_length b_tile), Hm; apply world_len).
  assert (Hk : (k < length bs)%nat) by (rewrite Hlen; unfold k; clear - Hxw Hyw; nia).
  assert (B : bucket_bound (S (length bs)) 0 (length bs) bs t = k).
  { apply bound_spec; try lia. intros i b Hi. pose proof (bucket_tile _ _ _ _ Hm Hi) as Hn. rewrite world_nth in Hn. fold w in Hn.
    destruct (Nat.ltb_spec (i / w) w) as [Hd|]; [|discriminate]. injection Hn as Hn. rewrite <- Hn.
    unfold tile_before. cbn [tx ty].
    pose proof (Nat.div_mod i w) as Di. pose proof (Nat.mod_upper_bound i w) as Mi. specialize (Di ltac:(lia)). specialize (Mi ltac:(lia)).
    remember (i / w)%nat as q eqn:Eq. remember (i mod w)%nat as r eqn:Er. clear Eq Er Kd Km Hn Hd Hlen Hm.
    subst i. unfold k in *.
    destruct (Nat.ltb_spec (w * q + r) (N.to_nat (ty t) * w + N.to_nat (tx t))) as [L|L].
    - destruct (N.ltb_spec (N.of_nat q) (ty t)); [reflexivity|]. cbn [orb].
      assert (q = N.to_nat (ty t)) by nia. subst q. rewrite Nnat.N2Nat.id, N.eqb_refl. cbn [andb]. apply N.ltb_lt. nia.
    - destruct (N.ltb_spec (N.of_nat q) (ty t)). { exfalso. nia. } cbn [orb].
      destruct (N.eqb_spec (N.of_nat q) (ty t)); [|reflexivity]. cbn [andb]. apply N.ltb_ge. nia. }
  destruct (nth_error bs k) as [b|] eqn:E. 2:{ apply nth_error_None in E. lia. }
  assert (Et : b_tile b = t).
  { pose proof (bucket_tile _ _ _ _ Hm E) as Hn. rewrite world_nth in Hn. fold w in Hn. rewrite Kd, Km in Hn.
    destruct (Nat.ltb_spec (N.to_nat (ty t)) w); [|discriminate]. injection Hn as <-.
    rewrite !Nnat.N2Nat.id, <- Hz. destruct t; reflexivity. }
  exists k, b. split; [|split; assumption].
  unfold get_bucket. rewrite B, E, Et, (proj2 (tile_eqb_eq t t) eq_refl). reflexivity.
Qed.

Lemma get_bucket_cases bs t : get_bucket bs t = Throw \/ exists i b, get_bucket bs t = Ok i /\ nth_error bs i = Some b /\ b_tile b = t.
Proof.
  unfold get_bucket. set (i := bucket_bound _ _ _ _ _). destruct (nth_error bs i) as [b|] eqn:E; [|auto].
  destruct (tile_eqb t (b_tile b)) eqn:Et; [|auto]. right. exists i, b. apply tile_eqb_eq in Et. auto.
Qed.

(** ** the jobs of a call *)
Definition vals (t : tile) (js : list (tile * bytes)) : list bytes := map snd (filter (fun j => tile_eqb t (fst j)) js).
Lemma vals_app t a b : vals t (a ++ b) = vals t a ++ vals t b.
Proof. unfold vals. now rewrite filter_app, map_app. Qed.
Lemma vals_perm t a b : Permutation a b -> Permutation (vals t a) (vals t b).
Proof.
  intros H. unfold vals. apply Permutation_map. induction H as [|x l l' _ IH|x y l|l l' l'' _ IH1 _ IH2]; cbn [filter].
  - constructor. - destruct (tile_eqb t (fst x)); auto.
  - destruct (tile_eqb t (fst x)), (tile_eqb t (fst y)); auto. constructor. - now rewrite IH1.
Qed.
Lemma vals_none t (l : list tile) (v : bytes) : ~ In t l -> vals t (map (fun u => (u, v)) l) = [].
Proof.
  induction l as [|u l IH]; intros H; [reflexivity|]. unfold vals in *. cbn [map filter fst].
  destruct (tile_eqb t u) eqn:E. { apply tile_eqb_eq in E. subst. contradiction H. left. reflexivity. }
  apply IH. intros Hi. apply H. right. exact Hi.
Qed.
Lemma vals_once t (l : list tile) (v : bytes) : NoDup l -> In t l -> vals t (map (fun u => (u, v)) l) = [v].
Proof.
  induction 1 as [|u l Hu _ IH]; intros []; unfold vals in *; cbn [map filter fst].
  - subst. rewrite (proj2 (tile_eqb_eq t t) eq_refl). cbn [map snd]. f_equal. now apply vals_none.
  - destruct (tile_eqb t u) eqn:E. { apply tile_eqb_eq in E. subst. contradiction. } now apply IH.
Qed.

Lemma corner_spec z c : z <= 20 -> (0 <= c < 2 ^ 32)%Z ->
  Z.to_N (Z.quot (Z.shiftr c (Z.of_N (20 - z))) 4096 mod 2 ^ 32) = Z.to_N (c / side z).
Proof.
  intros Hz Hc. unfold side. rewrite Z.shiftr_div_pow2 by lia.
  assert (P : (0 < 2 ^ Z.of_N (20 - z))%Z) by (apply Z.pow_pos_nonneg; lia).
  rewrite Z.quot_div_nonneg by (try lia; apply Z.div_pos; lia).
  rewrite Z.div_div by lia. change 4096%Z with (2 ^ 12)%Z. rewrite <- Z.pow_add_r by lia.
  replace (Z.of_N (20 - z) + 12)%Z with (32 - Z.of_N z)%Z by lia. f_equal.
  assert (P2 : (0 < 2 ^ (32 - Z.of_N z))%Z) by (apply Z.pow_pos_nonneg; lia).
  apply Z.mod_small. split; [apply Z.div_pos; lia|].
  apply Z.div_lt_upper_bound; [lia|]. nia.
Qed.

Lemma side_pos z : z <= 20 -> (0 < side z)%Z.
Proof. intros. unfold side. apply Z.pow_pos_nonneg; lia. Qed.
Lemma side_full z : z <= 20 -> (side z * Z.of_N (2 ^ z) = 2 ^ 32)%Z.
Proof.
  intros H. unfold side. rewrite N2Z.inj_pow. change (Z.of_N 2) with 2%Z. rewrite <- Z.pow_add_r by lia. f_equal. lia.
Qed.

Definition job_range (z : N) (f : feature) : list tile :=
  let '(x1, y1, x2, y2) := make_tile_range (bounding_box (f_geom f)) z in range_tiles (TBounds x1 y1 (x2 + 1) (y2 + 1)) z.
Lemma jobs_form z f js : insert_jobs z f = Ok js <-> exists v, ser f = Ok v /\ js = map (fun t => (t, v)) (job_range z f) /\ job_range z f <> [].
Proof.
  unfold insert_jobs, job_range. destruct (make_tile_range (bounding_box (f_geom f)) z) as [[[x1 y1] x2] y2].
  destruct (range_tiles _ _) as [|t r] eqn:E; cbn [verify bind].
  - split; [discriminate|]. intros (v & _ & _ & H). contradiction.
  - split.
    + intros H. apply bind_ok in H as (v & Hv & H). apply Ok_inj in H. exists v. split; [exact Hv|]. split; [congruence|discriminate].
    + intros (v & Hv & -> & _). rewrite Hv. reflexivity.
Qed.

Lemma mul_le_div a b c : (0 < b -> a * b <= c <-> a <= c / b)%Z.
Proof.
  intros Hb. split; intros H. - apply Z.div_le_lower_bound; lia.
  - pose proof (Z.mul_div_le c b Hb). nia.
Qed.
Lemma range_in z f t : z <= 20 -> in_world (bounding_box (f_geom f)) -> index_tile z t ->
  (In t (job_range z f) <-> meets z t (bounding_box (f_geom f)) = true).
Proof.
  intros Hz (X1 & X2 & Y1 & Y2) (Tz & Tx & Ty). unfold job_range, make_tile_range. set (b := bounding_box (f_geom f)) in *.
  rewrite !corner_spec by lia. rewrite range_tiles_In. cbn [minx miny maxx maxy]. unfold meets.
  pose proof (side_pos z Hz) as P. set (s := side z) in *.
  rewrite !Bool.andb_true_iff, !Z.leb_le, !Z.ltb_lt.
  assert (Dx1 : (0 <= bminx b / s)%Z) by (apply Z.div_pos; lia). assert (Dx2 : (0 <= bmaxx b / s)%Z) by (apply Z.div_pos; lia).
  assert (Dy1 : (0 <= bminy b / s)%Z) by (apply Z.div_pos; lia). assert (Dy2 : (0 <= bmaxy b / s)%Z) by (apply Z.div_pos; lia).
  pose proof (mul_le_div (Z.of_N (tx t)) s (bmaxx b) P) as Ex.
  pose proof (mul_le_div (Z.of_N (ty t)) s (bmaxy b) P) as Ey.
  pose proof (mul_le_div (Z.of_N (tx t) + 1) s (bminx b) P) as Fx.
  pose proof (mul_le_div (Z.of_N (ty t) + 1) s (bminy b) P) as Fy.
  remember (bminx b / s)%Z as a1. remember (bmaxx b / s)%Z as a2. remember (bminy b / s)%Z as c1. remember (bmaxy b / s)%Z as c2.
  clear Heqa1 Heqa2 Heqc1 Heqc2. lia.
Qed.
Lemma range_world z f t : z <= 20 -> in_world (bounding_box (f_geom f)) -> In t (job_range z f) -> index_tile z t.
Proof.
  intros Hz (X1 & X2 & Y1 & Y2) H. unfold job_range, make_tile_range in H. set (b := bounding_box (f_geom f)) in *.
  rewrite !corner_spec in H by lia. rewrite range_tiles_In in H. cbn [minx miny maxx maxy] in H.
  pose proof (side_pos z Hz) as P. pose proof (side_full z Hz) as F. set (s := side z) in *.
  assert (Bx : (bmaxx b / s < Z.of_N (2 ^ z))%Z) by (apply Z.div_lt_upper_bound; nia).
  assert (By : (bmaxy b / s < Z.of_N (2 ^ z))%Z) by (apply Z.div_lt_upper_bound; nia).
  assert (Dx2 : (0 <= bmaxx b / s)%Z) by (apply Z.div_pos; lia). assert (Dy2 : (0 <= bmaxy b / s)%Z) by (apply Z.div_pos; lia).
  unfold index_tile.
  remember (bminx b / s)%Z as a1. remember (bmaxx b / s)%Z as a2. remember (bminy b / s)%Z as c1. remember (bmaxy b / s)%Z as c2.
  clear Heqa1 Heqa2 Heqc1 Heqc2. lia.
Qed.
Lemma range_NoDup z f : NoDup (job_range z f).
Proof. unfold job_range. destruct (make_tile_range _ z) as [[[x1 y1] x2] y2]. apply range_tiles_NoDup. Qed.
Lemma range_nonempty z f : z <= 20 -> in_world (bounding_box (f_geom f)) -> job_range z f <> [].
Proof.
  intros Hz HW. pose proof HW as (X1 & X2 & Y1 & Y2). set (b := bounding_box (f_geom f)) in *.
  pose proof (side_pos z Hz) as P. pose proof (side_full z Hz) as F. set (s := side z) in *.
  set (t := Tile (Z.to_N (bminx b / s)) (Z.to_N (bminy b / s)) z).
  assert (Bx : (bminx b / s < Z.of_N (2 ^ z))%Z) by (apply Z.div_lt_upper_bound; nia).
  assert (By : (bminy b / s < Z.of_N (2 ^ z))%Z) by (apply Z.div_lt_upper_bound; nia).
  assert (Dx1 : (0 <= bminx b / s)%Z) by (apply Z.div_pos; lia). assert (Dy1 : (0 <= bminy b / s)%Z) by (apply Z.div_pos; lia).
  assert (Hi : index_tile z t). { unfold index_tile, t. cbn [tx ty tz]. 
    remember (bminx b / s)%Z as a1. remember (bminy b / s)%Z as c1. clear Heqa1 Heqc1. lia. }
  assert (Hin : In t (job_range z f)).
  { apply range_in; auto. fold b. unfold meets, t. cbn [tx ty]. fold s. rewrite !Z2N.id by assumption.
    pose proof (Z.mul_div_le (bminx b) s P). pose proof (Z.mul_div_le (bminy b) s P).
    pose proof (Z.mul_succ_div_gt (bminx b) s P). pose proof (Z.mul_succ_div_gt (bminy b) s P).
    remember (bminx b / s)%Z as a1. remember (bminy b / s)%Z as c1. clear Heqa1 Heqc1.
    rewrite !Bool.andb_true_iff, !Z.leb_le, !Z.ltb_lt. repeat split; nia. }
  intros E. rewrite E in Hin. destruct Hin.
Qed.

(** ** storing a pack *)
Definition grows (s s' : pfile) : Prop := pf_inv s /\ pf_inv s' /\ pf_size s <= pf_size s' /\ blen (pf_mem s) <= blen (pf_mem s') /\
  forall o n, o + n <= pf_size s -> slice (pf_mem s') o n = slice (pf_mem s) o n.
Lemma grows_refl s : pf_inv s -> grows s s.
Proof. intros. repeat split; auto; lia. Qed.
Lemma grows_trans a b c : grows a b -> grows b c -> grows a c.
Proof. intros (A1 & A2 & A3 & A4 & A5) (B1 & B2 & B3 & B4 & B5). repeat split; auto; try lia. intros o n H. rewrite B5, A5 by lia. reflexivity. Qed.
Lemma append_grows s d : pf_inv s -> grows s (fst (pf_append s d)).
Proof.
  intros Hi. pose proof (insert_spec s (pf_size s) d Hi) as H. unfold pf_append. destruct (pf_insert s (pf_size s) d) as [s' r]. cbn [fst].
  destruct H as (H1 & _ & H3 & _ & H5 & H6). unfold pf_inv in *. repeat split; auto; try lia.
  intros o n Hn. apply H5; [lia|]. right. lia.
Qed.
Lemma get_grows s s' r p : grows s s' -> blen (pf_mem s') < 2 ^ 64 -> pf_get s r = Ok p -> pf_get s' r = Ok p.
Proof.
  intros (H1 & H2 & H3 & H4 & H5) Hb H. unfold pf_inv in *.
  assert (HI : inside s r /\ p = slice (pf_mem s) (r_off r) (r_size r)).
  { unfold pf_get in H. apply bind_ok in H as ([] & Hv & H). apply verify_ok in Hv.
    destruct (N.leb_spec (r_off r + r_size r) (blen (pf_mem s))) as [Hl|]; [|discriminate]. apply Ok_inj in H.
    rewrite N.mod_small in Hv by lia. split; [|auto]. unfold inside. lia. }
  destruct HI as [HI ->]. rewrite pf_get_inside; [|assumption|lia|].
  - f_equal. apply H5. apply HI. - destruct HI. split; lia.
Qed.

Lemma Forall2_weaken {A B} (P Q : A -> B -> Prop) a b : (forall x y, P x y -> Q x y) -> Forall2 P a b -> Forall2 Q a b.
Proof. intros H. induction 1; constructor; auto. Qed.
Lemma stored_file T s s' t vs : grows s s' -> blen (pf_mem s') < 2 ^ 64 -> stored T s t vs -> stored T s' t vs.
Proof.
  intros G Hb (k & Hk & H). exists k. split; [exact Hk|]. destruct (table_get T k) as [v|]; [|exact H].
  destruct H as (rs & ps & fss & E1 & E2 & E3). exists rs, ps, fss. split; [exact E1|]. split; [|exact E3].
  eapply Forall2_weaken; [|exact E2]. cbn beta. intros r p Hp. eapply get_grows; eauto.
Qed.

Lemma deser_app v rs r : pack_records_deserialize v = Ok rs -> rec_ok r -> pack_records_deserialize (v ++ record_bytes r) = Ok (rs ++ [r]).
Proof.
  unfold pack_records_deserialize. intros H Hr. apply bind_ok in H as ([] & Hv & H). apply verify_ok in Hv.
  assert (Hl : length v = (16 * (length v / 16))%nat) by (unfold blen in Hv; lia).
  assert (Hb : blen (v ++ record_bytes r) = blen v + 16) by (rewrite blen_app; f_equal; unfold blen; now rewrite record_bytes_length).
  rewrite Hb. replace ((blen v + 16) mod 16 =? 0) with true by lia. cbn [verify bind].
  replace (length (v ++ record_bytes r) / 16)%nat with (length v / 16 + 1)%nat by (rewrite app_length, record_bytes_length; lia).
  rewrite seq_app, map_res_app. cbn [Nat.add seq map_res].
  assert (E : map_res (read_nth_record (v ++ record_bytes r)) (seq 0 (length v / 16)) = Ok rs).
  { rewrite <- H. assert (A : forall l, Forall (fun i => (16 * i + 16 <= length v)%nat) l ->
      map_res (read_nth_record (v ++ record_bytes r)) l = map_res (read_nth_record v) l).
    { induction 1 as [|i l Hi _ IH]; [reflexivity|]. cbn [map_res]. rewrite IH.
      assert (Ei : read_nth_record (v ++ record_bytes r) i = read_nth_record v i); [|now rewrite Ei].
      unfold read_nth_record. rewrite app_length.
      destruct (Nat.leb_spec (16 * i + 16) (length v)); [|lia]. destruct (Nat.leb_spec (16 * i + 16) (length v + length (record_bytes r))); [|lia].
      rewrite skipn_app. replace (16 * i - length v)%nat with 0%nat by lia. rewrite skipn_O, firstn_app.
      replace (16 - length (skipn (16 * i) v))%nat with 0%nat by (rewrite skipn_length; lia). rewrite firstn_O, app_nil_r. reflexivity. }
    apply A. apply Forall_forall. intros i Hi. apply in_seq in Hi. lia. }
  rewrite E. cbn [bind].
  replace (v ++ record_bytes r) with (v ++ record_bytes r ++ []) by now rewrite app_nil_r.
  rewrite read_record_exact by assumption. reflexivity.
Qed.

Lemma Forall2_snoc {A B} (R : A -> B -> Prop) a b x y : Forall2 R a b -> R x y -> Forall2 R (a ++ [x]) (b ++ [y]).
Proof. intros. apply Forall2_app; auto. Qed.

Lemma pack_ok fs p : pack_features fs = Ok p -> blen p < 2 ^ 64 ->
  p <> [] /\ feature_pack_valid p = true /\ exists rest, unpack_features p = Ok (fs, rest).
Proof.
  intros H Hb. pose proof (pack_valid _ _ H) as HV. pose proof H as H0. unfold pack_features, pack_header in H0.
  destruct (N.ltb_spec (N.of_nat (length fs)) (2 ^ 32)) as [Hl|]; [|discriminate]. cbn [verify bind] in H0.
  apply bind_ok in H0 as (b & Hb0 & H0). apply Ok_inj in H0. unfold append_features in Hb0. apply bind_ok in Hb0 as (b' & Hb1 & Hb0).
  apply Ok_inj in Hb0. apply append_each_inv in Hb1 as [F E]. cbn [flat_map app] in E.
  assert (Hlen : Forall (fun f => blen f < 2 ^ 64) fs).
  { apply Forall_forall. intros f Hf. subst p b b'. unfold pack_finish, append_span_end in Hb. rewrite !blen_app in Hb.
    apply in_split in Hf as (l1 & l2 & ->). rewrite flat_map_app in Hb. cbn [flat_map] in Hb. rewrite !blen_app in Hb. lia. }
  destruct (pack_unpack fs) as (bs & E1 & E2).
  { apply Forall_forall. intros f Hf. split; [exact (proj1 (Forall_forall _ _) F f Hf)|exact (proj1 (Forall_forall _ _) Hlen f Hf)]. }
  { exact Hl. }
  rewrite H in E1. apply Ok_inj in E1. subst bs. split; [|auto].
  intros ->. clear - HV. vm_compute in HV. discriminate.
Qed.

Lemma flush_put_spec W s t fs W' s' : flush_put W s t fs = Ok (W', s') -> table_sorted W -> pf_inv s ->
  table_sorted W' /\ grows s s'.
Proof.
  intros H HS Hi. unfold flush_put in H. apply bind_ok in H as (k & Hk & H). apply bind_ok in H as (p & Hp & H).
  pose proof (append_grows s p Hi) as G. destruct (pf_append s p) as [s1 r]. cbn [fst] in G.
  destruct (table_get W k) as [el|].
  - apply bind_ok in H as (v & Hv & H). apply Ok_inj in H. injection H as <- <-. split; [now apply table_put_sorted|exact G].
  - apply Ok_inj in H. injection H as <- <-. split; [now apply table_put_sorted|exact G].
Qed.
Lemma flush_put_stored W s t fs W' s' : flush_put W s t fs = Ok (W', s') -> table_sorted W -> pf_inv s -> blen (pf_mem s') < 2 ^ 64 ->
  (forall vs, stored W s t vs -> stored W' s' t (vs ++ fs)) /\
  (forall t' vs, t' <> t -> stored W s t' vs -> stored W' s' t' vs) /\
  (forall k, tile_to_key t 0 <> Ok k -> table_get W' k = table_get W k).
Proof.
  intros H HS Hi Hb. unfold flush_put in H. apply bind_ok in H as (k & Hk & H). apply bind_ok in H as (p & Hp & H).
  pose proof (append_grows s p Hi) as G. pose proof (insert_spec s (pf_size s) p Hi) as IS. unfold pf_append in *.
  destruct (pf_insert s (pf_size s) p) as [s1 r]. cbn [fst] in G. destruct IS as (I1 & Ir & I3 & I4 & _ & _).
  assert (Hput : exists nv, W' = table_put W k nv /\ s' = s1 /\
     match table_get W k with Some el => pack_records_update el r = Ok nv | None => nv = pack_records_serialize [r] end).
  { destruct (table_get W k) as [el|].
    - apply bind_ok in H as (v & Hv & H). apply Ok_inj in H. injection H as <- <-. eauto.
    - apply Ok_inj in H. injection H as <- <-. eauto. }
  destruct Hput as (nv & -> & -> & Hnv). clear H.
  unfold pf_inv in I1. assert (Hp64 : blen p < 2 ^ 64) by lia.
  destruct (pack_ok _ _ Hp Hp64) as (Pn & Pv & Pu).
  assert (Hpos : 0 < blen p) by (destruct p; [contradiction|rewrite blen_cons; lia]).
  assert (Hr : rec_ok r) by (subst r; split; cbn [r_off r_size]; lia).
  assert (Hget : pf_get s1 r = Ok p).
  { rewrite pf_get_inside; [|exact I1|lia|]. - subst r. cbn [r_off r_size]. now rewrite I4.
    - subst r. split; cbn [r_off r_size]; lia. }
  split; [|split].
  - intros vs (k' & Hk' & HT). rewrite Hk in Hk'. apply Ok_inj in Hk'. subst k'. exists k. split; [exact Hk|].
    rewrite table_get_put, N.eqb_refl by assumption. destruct (table_get W k) as [el|].
    + destruct HT as (rs & ps & fss & D1 & D2 & D3 & ->). exists (rs ++ [r]), (ps ++ [p]), (fss ++ [fs]).
      unfold pack_records_update in Hnv. apply bind_ok in Hnv as ([] & _ & Hnv). apply Ok_inj in Hnv. subst nv.
      split; [now apply deser_app|]. split; [|split].
      * apply Forall2_snoc; [|exact Hget]. eapply Forall2_weaken; [|exact D2]. cbn beta. intros q y Hq. eapply get_grows; eauto.
      * apply Forall2_snoc; auto.
      * rewrite concat_app. cbn [concat]. now rewrite app_nil_r.
    + subst vs nv. exists [r], [p], [fs]. split; [apply deserialize_serialize; auto|]. split; [auto|]. split; [auto|].
      cbn [concat]. now rewrite app_nil_r.
  - intros t' vs Hne (k' & Hk' & HT). apply (stored_file _ s); auto. exists k'. split; [exact Hk'|].
    rewrite table_get_put by assumption. destruct (N.eqb_spec k k') as [->|]; [|exact HT].
    exfalso. apply Hne. destruct (tile_key_injective _ _ _ _ _ Hk' Hk). auto.
  - intros k' Hk'. rewrite table_get_put by assumption. destruct (N.eqb_spec k k') as [->|]; [contradiction|reflexivity].
Qed.

Lemma flush_put_total W s t fs : (exists r, flush_put W s t fs = Ok r) \/ flush_put W s t fs = Throw.
Proof.
  unfold flush_put, tile_to_key. destruct (verify _) as [[]| | |] eqn:E; cbn [bind]; auto.
  2-3: exfalso; unfold verify in E; match type of E with (if ?b then _ else _) = _ => destruct b; discriminate end.
  assert (P : (exists p, pack_features fs = Ok p) \/ pack_features fs = Throw).
  { destruct (N.ltb_spec (N.of_nat (length fs)) (2 ^ 32)) as [Hl|Hl].
    - destruct (Forall_dec (fun f => 32 <= blen f) (fun f => N_le_dec 32 (blen f)) fs) as [F|F].
      + left. now apply pack_features_succeeds.
      + right. apply pack_features_rejects. apply neg_Forall_Exists_neg in F; [|intros f; apply N_le_dec].
        apply Exists_exists in F as (f & Hf & Hn). exists f. split; [exact Hf|lia].
    - right. unfold pack_features, pack_header. replace (N.of_nat (length fs) <? 2 ^ 32) with false by lia. reflexivity. }
  destruct P as [(p & ->)| ->]; cbn [bind]; [|auto]. destruct (pf_append s p) as [s1 r].
  destruct (table_get W _) as [el|]; [|eauto]. unfold pack_records_update. destruct (blen el mod 16 =? 0); cbn [verify bind]; eauto.
Qed.
