(** What the feature inserter guarantees. *)
From Coq Require Import Permutation Sorted.
From Verif Require Import Base BaseProof ModelTile SpecTile ProofTile ModelPackFile SpecPackFile ProofPackFile ModelGeom ModelFeature ModelCodec ModelPack SpecPack ProofPack
  ModelTable ProofTable ModelRender ModelPrepare ProofPrepare ProofPerm ProofDrain ModelInserter SpecInserter ProofInserter ProofInserterInv.
Open Scope N_scope.

Section Top.
Variables z upper lower : N.
Variable srt : list (N * nat) -> list (N * nat).
Hypothesis srt_perm : forall l, Permutation (srt l) l.
Variable T0 : table.
Variable s0 : pfile.
Variable n : nat.
Hypothesis T0_sorted : table_sorted T0.
Hypothesis s0_inv : pf_inv s0.
Variable old : tile -> list bytes.
Hypothesis old_ok : forall t, index_tile z t -> stored T0 s0 t (old t).
Hypothesis low_up : lower <= upper.
Hypothesis z20 : z <= 20.
Notation step := (istep z upper lower srt).
Notation reach := (ireach z upper lower srt T0 s0 n).
Ltac proj := cbn [i_cache i_buckets i_flock i_wlock i_table i_file i_threads i_calls i_final th_pc th_counted fst snd] in *.
Ltac step_cases St :=
  destruct St as [c bs fl wl T s t1 t2 m cs f js Hj|c bs fl wl T s t1 t2 m cs f Hj|c bs fl wl T s t1 t2 m cs fin j js
    |c b1 b b2 fl wl T s t1 t2 m cs fin j js Hg|c bs fl wl T s t1 t2 m cs fin j js Hg|c bs fl wl T s t1 t2 m cs fin
    |c bs fl wl T s t1 t2 m cs fin d Hc|c bs fl wl T s t1 t2 m cs fin d Hc|c bs wl T s t1 t2 m cs fin d
    |c bs fl wl T s t1 t2 m cs fin d Hc|c bs fl wl T s t1 t2 m cs fin d Hc|c bs fl wl T s t1 t2 m cs fin d acc i rest b Hb
    |c bs fl wl T s t1 t2 m cs fin d acc|c bs fl wl T s t1 t2 m cs fin d e l q Hc|c bs fl wl T s t1 t2 m cs fin d e l q Hc
    |c bs fl wl T s t1 t2 m cs fin d q|c b1 b b2 fl wl T s t1 t2 m cs fin d l q|c bs fl T s t1 t2 m cs fin d q
    |c bs fl wl T s t1 t2 m cs fin d dn e rest W W' s' Hf|c bs fl wl T s t1 t2 m cs fin d dn e rest W Hf
    |c bs fl wl T s t1 t2 m cs fin d dn W|c bs fl wl T s ts cs Hq].

(** ** serialized features are not empty *)
Lemma ser_nonempty f v : ser f = Ok v -> 0 < blen v.
Proof.
  unfold ser, serialize_feature. intros H. apply bind_ok in H as (h & _ & H). apply bind_ok in H as (g & _ & H). apply Ok_inj in H. subst v.
  rewrite !blen_app. pose proof (field_bytes_blen F_GEOMETRY g). lia.
Qed.
Lemma all_jobs_In fs t v : In (t, v) (all_jobs z fs) -> (exists f, In (CFeature f) fs /\ ser f = Ok v /\ In t (job_range z f)) \/ In (CValue t v) fs.
Proof.
  unfold all_jobs. intros H. apply in_flat_map in H as (f & Hf & H). destruct (call_jobs z f) as [js| | |] eqn:E; try (destruct H; fail).
  destruct f as [f|t' v']; cbn [call_jobs] in E; [|apply Ok_inj in E; subst js; destruct H as [H|[]]; injection H as -> ->; right; exact Hf].
  left. apply jobs_form in E as (v' & Ev & -> & _). apply in_map_iff in H as (t' & E & Ht). injection E as -> ->. eauto.
Qed.

Lemma vals_jobs t fs : index_tile z t -> Forall proper fs ->
  vals t (all_jobs z fs) = values_for z t fs.
Proof.
  intros Ht. induction 1 as [|f fs Hf _ IH]; [reflexivity|]. unfold all_jobs, values_for in *. cbn [flat_map]. rewrite vals_app, IH. f_equal.
  destruct f as [f|t' v']; cbn [call_jobs proper] in *.
  2:{ unfold vals. cbn [filter map fst snd]. destruct (tile_eqb t t'); reflexivity. }
  destruct (insert_jobs z f) as [js| | |] eqn:E.
  - apply jobs_form in E as (v & Ev & -> & _). rewrite Ev. pose proof (range_in z f t z20 Hf Ht) as R.
    destruct (meets z t (bounding_box (f_geom f))).
    + apply vals_once; [apply range_NoDup|]. apply R. reflexivity.
    + apply vals_none. intros Hi. apply R in Hi. discriminate.
  - destruct (ser f) as [v| | |] eqn:Ev; auto. exfalso.
    assert (insert_jobs z f = Ok (map (fun t => (t, v)) (job_range z f))); [|congruence].
    apply jobs_form. exists v. split; [exact Ev|]. split; [reflexivity|]. now apply range_nonempty.
  - destruct (ser f) as [v| | |] eqn:Ev; auto. exfalso.
    assert (insert_jobs z f = Ok (map (fun t => (t, v)) (job_range z f))); [|congruence].
    apply jobs_form. exists v. split; [exact Ev|]. split; [reflexivity|]. now apply range_nonempty.
  - destruct (ser f) as [v| | |] eqn:Ev; auto. exfalso.
    assert (insert_jobs z f = Ok (map (fun t => (t, v)) (job_range z f))); [|congruence].
    apply jobs_form. exists v. split; [exact Ev|]. split; [reflexivity|]. now apply range_nonempty.
Qed.

Lemma lost_vals t s : vals t (flat_map ljobs (i_threads s)) = lost_values t s.
Proof.
  unfold lost_values. induction (i_threads s) as [|th l IH]; [reflexivity|]. cbn [flat_map]. rewrite vals_app, IH. f_equal.
  unfold ljobs. destruct (th_pc th); try reflexivity.
  induction lost as [|e q IHq]; [reflexivity|]. change (e :: q) with ([e] ++ q). rewrite qjobs_app, vals_app, IHq, vals_q. reflexivity.
Qed.

(** ** at the end everything is stored *)
Lemma empty_buckets s : reach s -> Forall proper (i_calls s) -> sumN b_size (i_buckets s) = 0 -> flat_map bjobs (i_buckets s) = [].
Proof.
  intros R HW H. destruct (reachC z upper lower srt srt_perm T0 s0 n T0_sorted s0_inv low_up s R) as [Cs _ _ _ _].
  destruct (reachB z upper lower srt srt_perm T0 s0 n T0_sorted s0_inv old old_ok s R) as (comm & P & _). unfold conserve in P.
  assert (N : forall b, In b (i_buckets s) -> bjobs b = []).
  { intros b Hb. pose proof (sumN_In b_size _ b Hb) as L. pose proof (proj1 (Forall_forall _ _) Cs b Hb) as E. cbn beta in E.
    unfold bjobs. destruct (b_mem b) as [|v l] eqn:Em; [reflexivity|]. exfalso.
    assert (Hv : 0 < blen v).
    { assert (Hin : In (b_tile b, v) (all_jobs z (i_calls s))).
      { eapply Permutation_in; [symmetry; exact P|]. apply in_app_iff. left. apply in_flat_map. exists b. split; [exact Hb|].
        unfold bjobs. rewrite Em. left. reflexivity. }
      apply all_jobs_In in Hin as [(f & _ & Hs & _)|Hin]; [eapply ser_nonempty; eauto|].
      pose proof (proj1 (Forall_forall _ _) HW _ Hin) as Hp. cbn [proper] in Hp. destruct v; [congruence|]. unfold blen. cbn [length]. lia. }
    unfold mem_bytes in E. rewrite Em in E. cbn [fold_right] in E. lia. }
  clear - N. induction (i_buckets s) as [|b l IH]; [reflexivity|]. cbn [flat_map]. rewrite (N b) by (left; reflexivity).
  apply IH. intros b' Hb'. apply N. right. exact Hb'.
Qed.

Lemma persisted s : reach s -> destroyed s -> blen (pf_mem (i_file s)) < 2 ^ 64 ->
  Forall proper (i_calls s) ->
  (forall t, index_tile z t -> exists new, stored (i_table s) (i_file s) t (old t ++ new) /\
     Permutation (values_for z t (i_calls s)) (new ++ lost_values t s)) /\
  (forall k, (forall t, index_tile z t -> tile_to_key t 0 <> Ok k) -> table_get (i_table s) k = table_get T0 k).
Proof.
  intros R (th & Hth & Hd) Hs HW.
  pose proof (reachD z upper lower srt srt_perm T0 s0 n T0_sorted s0_inv low_up s R) as D. unfold invD in D.
  destruct (reachB z upper lower srt srt_perm T0 s0 n T0_sorted s0_inv old old_ok s R) as (comm & P & C). unfold conserve in P.
  destruct (C Hs) as [[C1 C2] _].
  destruct (i_final s).
  2:{ exfalso. pose proof (proj1 (Forall_forall _ _) D th Hth) as N. cbn beta in N. rewrite Hd in N. apply N. exact I. }
  destruct D as [D0 D]. apply in_split in Hth as (t1 & t2 & E). rewrite E in D0, D. rewrite sumN_mid in D0.
  apply Forall_mid in D as [[Dq|[_ Dz]] _]; [unfold quiet in Dq; rewrite Hd in Dq; contradiction|]. rewrite Hd in Dz. cbn [dz] in Dz.
  assert (Q : flat_map pjobs (i_threads s) = []).
  { rewrite E. rewrite flat_map_app. cbn [flat_map]. unfold pjobs at 2. rewrite Hd. cbn [app].
    assert (N : forall l, sumN active l = 0 -> flat_map pjobs l = []).
    { induction l as [|x l IH]; intros Hl; [reflexivity|]. cbn [sumN fold_right] in Hl. fold (sumN active l) in Hl. cbn [flat_map]. rewrite IH by lia.
      unfold pjobs, active in *. destruct (th_pc x); auto; lia. }
    unfold active at 1 in D0. rewrite Hd in D0. rewrite !N by lia. reflexivity. }
  rewrite (empty_buckets s R HW Dz), Q in P. cbn [app] in P.
  split; [|exact C2]. intros t Ht. exists (vals t comm). split; [apply C1; exact Ht|].
  rewrite <- vals_jobs by assumption. rewrite (vals_perm t _ _ P), vals_app, lost_vals. apply Permutation_app_comm.
Qed.

(** ** at any time *)
Lemma committed s : reach s -> blen (pf_mem (i_file s)) < 2 ^ 64 ->
  Forall proper (i_calls s) ->
  (forall t, index_tile z t -> exists new rest, stored (i_table s) (i_file s) t (old t ++ new) /\
     Permutation (values_for z t (i_calls s)) (new ++ rest)) /\
  (forall k, (forall t, index_tile z t -> tile_to_key t 0 <> Ok k) -> table_get (i_table s) k = table_get T0 k).
Proof.
  intros R Hs HW.
  destruct (reachB z upper lower srt srt_perm T0 s0 n T0_sorted s0_inv old old_ok s R) as (comm & P & C). unfold conserve in P.
  destruct (C Hs) as [[C1 C2] _]. split; [|exact C2]. intros t Ht.
  exists (vals t comm), (vals t (flat_map bjobs (i_buckets s) ++ flat_map pjobs (i_threads s) ++ flat_map ljobs (i_threads s))).
  split; [auto|]. rewrite <- vals_jobs by assumption. rewrite (vals_perm t _ _ P), !vals_app. perm.
Qed.

(** a crash in the middle of a write: the file is what it was up to its old size, arbitrary behind *)
Lemma torn s f' : reach s -> pf_inv f' -> blen (pf_mem f') < 2 ^ 64 -> pf_size (i_file s) <= pf_size f' ->
  (forall i, (i < N.to_nat (pf_size (i_file s)))%nat -> nth_error (pf_mem f') i = nth_error (pf_mem (i_file s)) i) ->
  forall t vs, blen (pf_mem (i_file s)) < 2 ^ 64 -> stored (i_table s) (i_file s) t vs -> stored (i_table s) f' t vs.
Proof.
  intros R Hi' Hm Hl He t vs Hb H.
  destruct (reachA z upper lower srt srt_perm T0 s0 n T0_sorted s0_inv s R) as [_ _ Af _ _ _].
  destruct H as (k & Hk & H). exists k. split; [exact Hk|]. destruct (table_get (i_table s) k) as [v|]; [|exact H].
  destruct H as (rs & ps & fss & E1 & E2 & E3). exists rs, ps, fss. split; [exact E1|]. split; [|exact E3].
  eapply Forall2_weaken; [|exact E2]. cbn beta. intros r p Hp.
  assert (HI : inside (i_file s) r /\ p = slice (pf_mem (i_file s)) (r_off r) (r_size r)).
  { unfold pf_get in Hp. apply bind_ok in Hp as ([] & Hv & Hp). apply verify_ok in Hv.
    destruct (N.leb_spec (r_off r + r_size r) (blen (pf_mem (i_file s)))) as [Hl'|]; [|discriminate]. apply Ok_inj in Hp.
    rewrite N.mod_small in Hv by lia. split; [|auto]. unfold inside. lia. }
  destruct HI as [[I1 I2] ->]. rewrite pf_get_inside; unfold pf_inv, inside in *; try lia.
  f_equal. apply list_ext. intros i. rewrite !nth_error_slice. destruct (Nat.ltb_spec i (N.to_nat (r_size r))); [|reflexivity].
  apply He. lia.
Qed.

(** ** size of the cache *)
Lemma accounting s : reach s -> Forall (fun t => ~ failed t) (i_threads s) ->
  i_cache s = cached_bytes s + fold_right (fun t k => match th_pc t with IPut j _ => blen (snd j) | _ => 0 end + k) 0 (i_threads s).
Proof.
  intros R HF. destruct (reachC z upper lower srt srt_perm T0 s0 n T0_sorted s0_inv low_up s R) as [Cs Cl Ch _ _].
  assert (E : sumN hold (i_threads s) = sumN hold0 (i_threads s)).
  { clear - HF. induction HF as [|t l H _ IH]; [reflexivity|]. cbn [sumN fold_right]. fold (sumN hold l). fold (sumN hold0 l). rewrite IH. f_equal.
    unfold hold, hold0, failed in *. destruct (th_pc t); auto. exfalso. auto. }
  assert (E2 : cached_bytes s = sumN b_size (i_buckets s)).
  { unfold cached_bytes. clear - Cs. induction Cs as [|b l H _ IH]; [reflexivity|]. cbn [sumN fold_right]. fold (sumN b_size l). rewrite <- IH, H. reflexivity. }
  rewrite E2. change (fold_right (fun t k => match th_pc t with IPut j _ => blen (snd j) | _ => 0 end + k) 0 (i_threads s)) with (sumN hold0 (i_threads s)). lia.
Qed.
Lemma bounded s : reach s -> i_cache s <= upper + counted_bytes s.
Proof. intros R. destruct (reachC z upper lower srt srt_perm T0 s0 n T0_sorted s0_inv low_up s R) as [_ _ _ Cb _]. exact Cb. Qed.
Lemma bounded_idle s : reach s -> Forall idle (i_threads s) -> i_cache s <= upper.
Proof.
  intros R HF. pose proof (bounded s R) as B. destruct (reachA z upper lower srt srt_perm T0 s0 n T0_sorted s0_inv s R) as [_ _ _ _ _ Ao].
  assert (E : counted_bytes s = 0); [|lia]. change (sumN th_counted (i_threads s) = 0). apply sumN_zero. intros t Ht.
  pose proof (proj1 (Forall_forall _ _) HF t Ht) as Hi. destruct (proj1 (Forall_forall _ _) Ao t Ht) as [_ O]. unfold idle in Hi. rewrite Hi in O. exact O.
Qed.

(** ** no deadlock *)
Lemma sumN_pos {A} (f : A -> N) l : sumN f l <> 0 -> exists l1 x l2, l = l1 ++ x :: l2 /\ f x <> 0.
Proof.
  induction l as [|x l IH]; intros H; [contradiction|]. destruct (N.eq_dec (f x) 0) as [E|E].
  - cbn [sumN fold_right] in H. fold (sumN f l) in H. destruct IH as (l1 & y & l2 & -> & Hy); [lia|]. exists (x :: l1), y, l2. auto.
  - exists [], x, l. auto.
Qed.
Definition goes (s : ist) : Prop := exists s', step s s' /\ i_calls s' = i_calls s /\ i_final s' = i_final s.

Lemma split_at {A} (l : list A) i x : nth_error l i = Some x -> exists l1 l2, l = l1 ++ x :: l2 /\ length l1 = i.
Proof. intros H. apply nth_error_split in H. destruct H as (l1 & l2 & H1 & H2). eauto. Qed.

Lemma goes_scan c bs fl wl T f t1 t t2 cs fin : tok z (length bs) t -> scanning t <> 0 -> goes (Ist c bs fl wl T f (t1 ++ t :: t2) cs fin).
Proof.
  destruct t as [pc m]. unfold scanning. intros [O1 O2] Hs. cbn [th_pc th_counted] in *. destruct pc; try contradiction.
  - destruct (N.le_gt_cases c (up upper d)); (eexists; split; [first [apply s_check2_low; assumption|apply s_check2_high; assumption]|auto]).
  - destruct rest as [|i rest]. + eexists. split; [apply s_scan_end|auto].
    + cbn [claimed] in O1. apply Forall_app in O1 as [_ O1]. apply Forall_inv in O1.
      destruct (nth_error bs i) as [b|] eqn:E; [|apply nth_error_None in E; lia]. eexists. split; [eapply s_scan; exact E|auto].
  - destruct l as [|e l]. + eexists. split; [apply s_all|auto].
    + destruct (N.lt_ge_cases c (low lower d)); (eexists; split; [first [apply s_enough; assumption|apply s_more; assumption]|auto]).
  - cbn [claimed] in O1. apply Forall_inv in O1. destruct (nth_error bs i) as [b|] eqn:E; [|apply nth_error_None in E; lia].
    apply split_at in E as (b1 & b2 & -> & <-). eexists. split; [apply s_take|auto].
Qed.
Lemma goes_write c bs fl wl T f t1 t t2 cs fin : writing t <> 0 -> goes (Ist c bs fl wl T f (t1 ++ t :: t2) cs fin).
Proof.
  destruct t as [pc m]. unfold writing. cbn [th_pc]. destruct pc; intros Hs; try contradiction.
  destruct rest as [|e rest]. - eexists. split; [apply s_commit|auto].
  - destruct (flush_put_total tbl f (fst e) (snd e)) as [([W' f'] & E)|E].
    + eexists. split; [eapply s_write; exact E|auto]. + eexists. split; [eapply s_write_fail; exact E|auto].
Qed.

Lemma no_deadlock s : reach s -> (exists t, In t (i_threads s) /\ ~ quiet t /\ th_pc t <> IDone) -> goes s.
Proof.
  intros R (t & Ht & Hq & Hd). pose proof (reachA z upper lower srt srt_perm T0 s0 n T0_sorted s0_inv s R) as A.
  destruct A as [At As Af Al Aw Ao]. pose proof (proj1 (Forall_forall _ _) Ao t Ht) as Ot.
  destruct s as [c bs fl wl T f ts cs fin]. proj. apply in_split in Ht as (t1 & t2 & ->).
  destruct (N.eq_dec (scanning t) 0) as [Es|Es]; [|now apply goes_scan].
  destruct (N.eq_dec (writing t) 0) as [Ew|Ew]; [|now apply goes_write].
  destruct t as [pc m]. unfold quiet, scanning, writing in Hq, Es, Ew. cbn [th_pc] in *. destruct pc; try (exfalso; auto; fail); try discriminate.
  - destruct js as [|j js]. + eexists. split; [apply s_flush|auto]. + eexists. split; [apply s_count|auto].
  - destruct (get_bucket_cases bs (fst j)) as [E|(i & b & E & Hn & Hb)].
    + eexists. split; [apply s_put_fail; exact E|auto].
    + apply split_at in Hn as (b1 & b2 & -> & <-). eexists. split; [apply s_put; exact E|auto].
  - destruct (N.le_gt_cases c (up upper d)); (eexists; split; [first [apply s_check1_low; assumption|apply s_check1_high; assumption]|auto]).
  - destruct fl.
    + destruct (sumN_pos scanning (t1 ++ ITh (FLock d) m :: t2)) as (l1 & x & l2 & E & Hx); [lia|]. rewrite E in *.
      apply goes_scan; [|exact Hx]. apply Forall_mid in Ao. apply Ao.
    + eexists. split; [apply s_lock|auto].
  - destruct wl.
    + destruct (sumN_pos writing (t1 ++ ITh (FBegin d q) m :: t2)) as (l1 & x & l2 & E & Hx); [lia|]. rewrite E in *. now apply goes_write.
    + eexists. split; [apply s_begin|auto].
Qed.

(** ** legal features never fail *)
Variable M : N.
Hypothesis fits_pack : upper + N.of_nat n * M < 2 ^ 37.
Definition jsum (js : list (tile * bytes)) : N := sumN (fun j => blen (snd j)) js.
Definition qshort (q : list (tile * list bytes)) : Prop := Forall (fun e => N.of_nat (length (snd e)) < 2 ^ 32) q.
Definition entries (T : table) : Prop :=
  forall t k v, index_tile z t -> tile_to_key t 0 = Ok k -> table_get T k = Some v -> blen v mod 16 = 0.
Definition eok (t : ithread) : Prop :=
  match th_pc t with
  | ICount js | IPut _ js => th_counted t + jsum js <= M
  | FLoop _ _ q | FTake _ _ _ q | FBegin _ q => qshort q /\ th_counted t <= M
  | FPut _ _ rest W => qshort rest /\ entries W /\ th_counted t <= M
  | IFailed _ => False
  | _ => th_counted t <= M
  end.
Record invE (s : ist) : Prop := {
  e_len : i_final s = false -> length (i_threads s) = n;
  e_sum : sumN th_counted (i_threads s) <= N.of_nat n * M;
  e_ok : Forall eok (i_threads s);
  e_tab : entries (i_table s) }.

Lemma eok_le t : eok t -> th_counted t <= M.
Proof. unfold eok. destruct (th_pc t); intros H; try (destruct H; lia); try lia; try (destruct H as (_ & _ & H); exact H). Qed.
Lemma eok_sum ts : Forall eok ts -> sumN th_counted ts <= N.of_nat (length ts) * M.
Proof. induction 1 as [|t l H _ IH]; [cbn; lia|]. cbn [sumN fold_right length]. fold (sumN th_counted l). apply eok_le in H. lia. Qed.

Lemma tile_key_ok t : index_tile z t -> exists k, tile_to_key t 0 = Ok k.
Proof.
  intros (E & X & Y). rewrite tile_to_key_spec.
  assert (2 ^ z <= 2 ^ 20) by (apply N.pow_le_mono_r; lia). change (2 ^ 20) with 1048576 in *.
  replace (tz t <? 2 ^ 5) with true by lia. replace (ty t <? 2 ^ 21) with true by lia. replace (tx t <? 2 ^ 21) with true by lia.
  cbn [andb]. eexists. reflexivity.
Qed.
Lemma flush_put_ok W s t fs : index_tile z t -> Forall (fun f => 32 <= blen f) fs -> N.of_nat (length fs) < 2 ^ 32 -> entries W ->
  flush_put W s t fs <> Throw.
Proof.
  intros Ht HF HL HE. unfold flush_put. destruct (tile_key_ok t Ht) as [k Hk]. rewrite Hk. cbn [bind].
  destruct (pack_features_succeeds fs HF HL) as [p ->]. cbn [bind]. destruct (pf_append s p) as [s1 r].
  destruct (table_get W k) as [v|] eqn:E; [|discriminate]. unfold pack_records_update. rewrite (HE t k v Ht Hk E). discriminate.
Qed.
Lemma flush_put_entries W s t fs W' s' : flush_put W s t fs = Ok (W', s') -> table_sorted W -> entries W -> entries W'.
Proof.
  intros H HS HE. unfold flush_put in H. apply bind_ok in H as (k & Hk & H). apply bind_ok in H as (p & Hp & H). destruct (pf_append s p) as [s1 r].
  assert (E : exists v, W' = table_put W k v /\ blen v mod 16 = 0).
  { destruct (table_get W k) as [el|].
    - apply bind_ok in H as (v & Hv & H). apply Ok_inj in H. injection H as <- <-. exists v. split; [reflexivity|].
      unfold pack_records_update in Hv. apply bind_ok in Hv as ([] & Hm & Hv). apply verify_ok in Hm. apply Ok_inj in Hv. subst v.
      rewrite blen_app. unfold blen in *. rewrite record_bytes_length. lia.
    - apply Ok_inj in H. apply (f_equal fst) in H. cbn [fst] in H. exists (pack_records_serialize [r]). split; [symmetry; exact H|].
      unfold blen. rewrite serialize_length. reflexivity. }
  destruct E as (v & -> & Hv). intros t' k' v' Ht' Hk'. rewrite table_get_put by assumption. destruct (k =? k'); intros E; [|eauto].
  injection E as <-. exact Hv.
Qed.

Lemma jobs_good fs : Forall (insertable z M) fs -> Forall (fun j => index_tile z (fst j) /\ 32 <= blen (snd j)) (all_jobs z fs).
Proof.
  intros HF. apply Forall_forall. intros [t v] H. apply all_jobs_In in H as [(f & Hf & Hs & Ht)|H]; cbn [fst snd].
  2:{ destruct (proj1 (Forall_forall _ _) HF _ H) as (H1 & H2 & _). auto. }
  destruct (proj1 (Forall_forall _ _) HF _ Hf) as (HW & v' & Hs' & H32 & _). rewrite Hs in Hs'. apply Ok_inj in Hs'. subst v'.
  split; [|exact H32]. eapply range_world; eauto.
Qed.
Lemma jsum_map ts (v : bytes) : jsum (map (fun t => (t, v)) ts) = N.of_nat (length ts) * blen v.
Proof. unfold jsum. induction ts as [|t l IH]; [reflexivity|]. cbn [map sumN fold_right length snd]. fold (sumN (fun j : tile * bytes => blen (snd j)) (map (fun t => (t, v)) l)). rewrite IH. lia. Qed.

Lemma eok_flushed (d : bool) : eok (ITh (flushed d) 0).
Proof. destruct d; cbn; lia. Qed.
Lemma len_mem l : Forall (fun v => 32 <= blen v) l -> 32 * N.of_nat (length l) <= fold_right (fun v k => blen v + k) 0 l.
Proof. induction 1 as [|v l H _ IH]; cbn [length fold_right]; lia. Qed.

Lemma stepE s s' : reach s -> invE s -> step s s' -> Forall (insertable z M) (i_calls s') -> invE s'.
Proof.
  intros R [El Es Eo Et] St HG.
  pose proof (reachA z upper lower srt srt_perm T0 s0 n T0_sorted s0_inv s R) as [At As Af Al Aw Ao].
  pose proof (reachC z upper lower srt srt_perm T0 s0 n T0_sorted s0_inv low_up s R) as [Cs Cl Ch Cb Cc].
  pose proof (reachD z upper lower srt srt_perm T0 s0 n T0_sorted s0_inv low_up s R) as D.
  destruct (reachB z upper lower srt srt_perm T0 s0 n T0_sorted s0_inv old old_ok s R) as (comm & P & _). unfold conserve in P.
  assert (HG0 : Forall (insertable z M) (i_calls s)).
  { destruct St; proj; auto; apply Forall_app in HG; apply HG. }
  pose proof (jobs_good _ HG0) as JG.
  assert (JP : forall j, In j (flat_map pjobs (i_threads s)) \/ In j (flat_map bjobs (i_buckets s)) -> index_tile z (fst j) /\ 32 <= blen (snd j)).
  { intros j Hj. apply (proj1 (Forall_forall _ _) JG). eapply Permutation_in; [symmetry; exact P|]. rewrite !in_app_iff. tauto. }
  clear P.
  step_cases St; proj.
  all: try (rewrite sumN_mid in Es; apply Forall_mid in Eo as [E1 E2]; apply Forall_mid in Ao as [[_ Oo] Ao]; rewrite app_length in El; cbn [length] in El; unfold eok in E1; cbn [th_pc th_counted] in E1, Oo, Es).
  all: try (split; proj; [intros Hn; rewrite app_length; apply El; exact Hn|rewrite sumN_mid; cbn [th_counted]; lia|apply Forall_mid; split; [|exact E2]; unfold eok; cbn [th_pc th_counted]; try apply eok_flushed; auto; try lia|assumption]; fail).
  - (* call *)
    apply Forall_app in HG as [_ HG]. apply Forall_inv in HG. destruct f as [f|t0 v0]; cbn [call_jobs] in Hj.
    2:{ apply Ok_inj in Hj. subst js. destruct HG as (Hi & H32 & HM).
        split; proj; [intros Hn; rewrite app_length; apply El; exact Hn|rewrite sumN_mid; cbn [th_counted]; lia| |assumption].
        apply Forall_mid; split; [|exact E2]. unfold eok. cbn [th_pc th_counted]. unfold jsum. cbn [sumN fold_right snd]. lia. }
    destruct HG as (HW & v & Hs & H32 & HM).
    apply jobs_form in Hj as (v' & Hs' & -> & _). rewrite Hs in Hs'. apply Ok_inj in Hs'. subst v'.
    split; proj; [intros Hn; rewrite app_length; apply El; exact Hn|rewrite sumN_mid; cbn [th_counted]; lia| |assumption].
    apply Forall_mid; split; [|exact E2]. unfold eok. cbn [th_pc th_counted]. rewrite jsum_map, N.add_0_l. apply HM; [apply range_NoDup|].
    apply Forall_forall. intros t Ht. assert (It : index_tile z t) by (eapply range_world; eauto). split; [exact It|]. now apply range_in.
  - (* call fails *)
    exfalso. apply Forall_app in HG as [_ HG]. apply Forall_inv in HG. destruct f as [f|t0 v0]; cbn [call_jobs] in Hj; [|discriminate]. destruct HG as (HW & v & Hs & H32 & HM).
    assert (insert_jobs z f = Ok (map (fun t => (t, v)) (job_range z f))); [|congruence].
    apply jobs_form. exists v. split; [exact Hs|]. split; [reflexivity|]. now apply range_nonempty.
  - (* count *)
    unfold invD in D. proj. destruct fin.
    { exfalso. destruct D as [_ D]. apply Forall_mid in D as [[Dq|[Dq _]] _]; exact Dq. }
    assert (Eo' : Forall eok (t1 ++ ITh (IPut j js) (m + blen (snd j)) :: t2)).
    { apply Forall_mid. split; [|exact E2]. unfold eok. cbn [th_pc th_counted]. unfold jsum in E1. cbn [sumN fold_right] in E1. unfold jsum, sumN. lia. }
    split; proj; [intros Hn; rewrite app_length; apply El; exact Hn| |exact Eo'|assumption].
    pose proof (eok_sum _ Eo') as L. rewrite app_length in L. cbn [length] in L. rewrite El in L by reflexivity. exact L.
  - (* put fails *)
    exfalso. destruct (JP j) as [Hj _]. { left. apply in_flat_map. eexists. split; [apply in_elt|]. left. reflexivity. }
    destruct (get_bucket_ok z bs (fst j) At Hj) as (i & b & Hi & _). congruence.
  - (* end of the scan *)
    unfold after_scan. destruct acc as [|x acc]; cbn [scan_keeps].
    + split; proj; [intros Hn; rewrite app_length; apply El; exact Hn|rewrite sumN_mid; cbn [th_counted]; lia| |assumption].
      apply Forall_mid; split; [|exact E2]. apply eok_flushed.
    + split; proj; [intros Hn; rewrite app_length; apply El; exact Hn|rewrite sumN_mid; cbn [th_counted]; lia| |assumption].
      apply Forall_mid; split; [|exact E2]. unfold eok. cbn [th_pc th_counted]. split; [constructor|exact E1].
  - split; proj; [intros Hn; rewrite app_length; apply El; exact Hn|rewrite sumN_mid; cbn [th_counted]; lia| |assumption].
    apply Forall_mid; split; [|exact E2]. unfold eok. cbn [th_pc th_counted]. split; [apply E1|lia].
  - split; proj; [intros Hn; rewrite app_length; apply El; exact Hn|rewrite sumN_mid; cbn [th_counted]; lia| |assumption].
    apply Forall_mid; split; [|exact E2]. unfold eok. cbn [th_pc th_counted]. split; [apply E1|lia].
  - (* take *)
    split; proj; [intros Hn; rewrite app_length; apply El; exact Hn|rewrite sumN_mid; cbn [th_counted]; lia| |assumption].
    apply Forall_mid; split; [|exact E2]. unfold eok. cbn [th_pc th_counted]. split; [|apply E1]. apply Forall_app. split; [apply E1|].
    constructor; [|constructor]. cbn [snd].
    assert (H32 : Forall (fun v => 32 <= blen v) (b_mem b)).
    { apply Forall_forall. intros v Hv. destruct (JP (b_tile b, v)) as [_ J]; [|exact J]. right. apply in_flat_map. exists b. split; [apply in_elt|].
      unfold bjobs. apply in_map. exact Hv. }
    apply len_mem in H32. apply Forall_mid in Cs as [Cs _]. unfold mem_bytes in Cs. rewrite <- Cs in H32.
    pose proof (sumN_In b_size (b1 ++ b :: b2) b (in_elt _ _ _)) as L.
    rewrite sumN_mid in Cb. cbn [th_counted] in Cb. change (2 ^ 37) with (32 * 2 ^ 32) in fits_pack. lia.
  - (* begin *)
    split; proj; [intros Hn; rewrite app_length; apply El; exact Hn|rewrite sumN_mid; cbn [th_counted]; lia| |assumption].
    apply Forall_mid; split; [|exact E2]. unfold eok. cbn [th_pc th_counted]. split; [apply E1|]. split; [exact Et|apply E1].
  - (* write *)
    destruct E1 as (E1 & E3 & E4). destruct Oo as (_ & _ & OW & _).
    split; proj; [intros Hn; rewrite app_length; apply El; exact Hn|rewrite sumN_mid; cbn [th_counted]; lia| |assumption].
    apply Forall_mid; split; [|exact E2]. unfold eok. cbn [th_pc th_counted]. apply Forall_cons_iff in E1 as [_ E1]. split; [exact E1|]. split; [|exact E4].
    eapply flush_put_entries; eauto.
  - (* write fails *)
    exfalso. destruct E1 as (E1 & E3 & E4). destruct Oo as (_ & OQ & _ & _). apply Forall_cons_iff in E1 as [E1 _].
    apply qtiles_cons in OQ as [OQ _]. refine (flush_put_ok W s (fst e) (snd e) OQ _ E1 E3 Hf).
    apply Forall_forall. intros v Hv. destruct (JP (fst e, v)) as [_ J]; [|exact J]. left. apply in_flat_map. eexists. split; [apply in_elt|].
    unfold pjobs. cbn [th_pc]. apply in_app_iff. right. unfold qjobs. cbn [flat_map]. apply in_app_iff. left. apply in_map. exact Hv.
  - (* commit *)
    destruct E1 as (E1 & E3 & E4).
    split; proj; [intros Hn; rewrite app_length; apply El; exact Hn|rewrite sumN_mid; cbn [th_counted]; lia| |exact E3].
    apply Forall_mid; split; [|exact E2]. apply eok_flushed.
  - (* destructor *)
    split; proj; [discriminate| | |assumption].
    + rewrite sumN_app. cbn [sumN fold_right th_counted]. lia.
    + apply Forall_app. split; [exact Eo|]. constructor; [|constructor]. unfold eok. cbn [th_pc th_counted]. lia.
Qed.

Lemma old_entries : entries T0.
Proof.
  intros t k v Ht Hk Hv. destruct (old_ok t Ht) as (k' & Hk' & H). rewrite Hk in Hk'. apply Ok_inj in Hk'. subst k'. rewrite Hv in H.
  destruct H as (rs & _ & _ & H & _). unfold pack_records_deserialize in H. apply bind_ok in H as ([] & H & _). apply verify_ok in H. lia.
Qed.
Lemma initE : invE (ist_init z T0 s0 n).
Proof.
  unfold ist_init. split; proj.
  - intros _. apply repeat_length.
  - replace (sumN th_counted (repeat (ITh IIdle 0) n)) with 0; [lia|]. symmetry. apply sumN_zero. intros t Ht. apply repeat_spec in Ht. subst t. reflexivity.
  - apply Forall_forall. intros t Ht. apply repeat_spec in Ht. subst t. unfold eok. cbn [th_pc th_counted]. lia.
  - exact old_entries.
Qed.
Lemma calls_grow s s' : step s s' -> Forall (insertable z M) (i_calls s') -> Forall (insertable z M) (i_calls s).
Proof. intros St HG. destruct St; proj; auto; apply Forall_app in HG; apply HG. Qed.
Lemma reachE s : reach s -> Forall (insertable z M) (i_calls s) -> invE s.
Proof. induction 1 as [|s s' R IH St]; intros HG; [exact initE|]. eapply stepE; eauto. apply IH. eapply calls_grow; eauto. Qed.

Lemma no_failure s : reach s -> Forall (insertable z M) (i_calls s) -> Forall (fun t => ~ failed t) (i_threads s).
Proof.
  intros R HG. destruct (reachE s R HG) as [_ _ Eo _]. eapply Forall_impl; [|exact Eo]. intros t Ht Hf. unfold failed, eok in *.
  destruct (th_pc t); auto.
Qed.
Lemma no_loss t s : reach s -> Forall (insertable z M) (i_calls s) -> lost_values t s = [].
Proof.
  intros R HG. pose proof (no_failure s R HG) as F. unfold lost_values. induction F as [|th l H _ IH]; [reflexivity|]. cbn [flat_map]. rewrite IH.
  unfold failed in H. destruct (th_pc th); auto. exfalso. auto.
Qed.

End Top.

Section Ends.
Variables z upper lower : N.
Variable srt : list (N * nat) -> list (N * nat).
Hypothesis srt_perm : forall l, Permutation (srt l) l.
Notation step := (istep z upper lower srt).
Ltac proj := cbn [i_cache i_buckets i_flock i_wlock i_table i_file i_threads i_calls i_final th_pc th_counted fst snd] in *.
Ltac step_cases St :=
  destruct St as [c bs fl wl T s t1 t2 m cs f js Hj|c bs fl wl T s t1 t2 m cs f Hj|c bs fl wl T s t1 t2 m cs fin j js
    |c b1 b b2 fl wl T s t1 t2 m cs fin j js Hg|c bs fl wl T s t1 t2 m cs fin j js Hg|c bs fl wl T s t1 t2 m cs fin
    |c bs fl wl T s t1 t2 m cs fin d Hc|c bs fl wl T s t1 t2 m cs fin d Hc|c bs wl T s t1 t2 m cs fin d
    |c bs fl wl T s t1 t2 m cs fin d Hc|c bs fl wl T s t1 t2 m cs fin d Hc|c bs fl wl T s t1 t2 m cs fin d acc i rest b Hb
    |c bs fl wl T s t1 t2 m cs fin d acc|c bs fl wl T s t1 t2 m cs fin d e l q Hc|c bs fl wl T s t1 t2 m cs fin d e l q Hc
    |c bs fl wl T s t1 t2 m cs fin d q|c b1 b b2 fl wl T s t1 t2 m cs fin d l q|c bs fl T s t1 t2 m cs fin d q
    |c bs fl wl T s t1 t2 m cs fin d dn e rest W W' s' Hf|c bs fl wl T s t1 t2 m cs fin d dn e rest W Hf
    |c bs fl wl T s t1 t2 m cs fin d dn W|c bs fl wl T s ts cs Hq].

(** ** calls end *)
Definition toil (len : nat) (t : ithread) : nat :=
  match th_pc t with
  | IIdle | IFailed _ | IDone => 0
  | ICount js => 2 * length js + 4 * len + 9
  | IPut _ js => 2 * length js + 1 + 4 * len + 9
  | FCheck1 _ => 4 * len + 8
  | FLock _ => 4 * len + 7
  | FCheck2 _ => 4 * len + 6
  | FScan _ acc rest => 3 * length acc + 4 * length rest + 5
  | FLoop _ l q => 3 * length l + length q + 3
  | FTake _ _ l q => 3 * length l + 2 + length q + 3
  | FBegin _ q => length q + 2
  | FPut _ _ rest _ => length rest + 1
  end%nat.
Definition toils (s : ist) : nat := list_sum (map (toil (length (i_buckets s))) (i_threads s)).
Lemma toil_flushed len (d : bool) m : toil len (ITh (flushed d) m) = 0%nat.
Proof. destruct d; reflexivity. Qed.
Lemma toils_mid len t1 t t2 t' : (toil len t' < toil len t)%nat ->
  (list_sum (map (toil len) (t1 ++ t' :: t2)) < list_sum (map (toil len) (t1 ++ t :: t2)))%nat.
Proof. intros H. rewrite !map_app, !list_sum_app. cbn [map].
  replace (list_sum (toil len t' :: map (toil len) t2)) with (toil len t' + list_sum (map (toil len) t2))%nat by reflexivity.
  replace (list_sum (toil len t :: map (toil len) t2)) with (toil len t + list_sum (map (toil len) t2))%nat by reflexivity. lia.
Qed.
Lemma toils_step s s' : step s s' -> i_calls s' = i_calls s -> i_final s' = i_final s -> (toils s' < toils s)%nat.
Proof.
  intros St HC HF. unfold toils. step_cases St; proj.
  1-2: exfalso; apply (f_equal (@length icall)) in HC; rewrite app_length in HC; cbn [length] in HC; lia.
  all: try discriminate.
  all: rewrite ?app_length; cbn [length]; apply toils_mid; rewrite ?toil_flushed; cbn [toil th_pc length]; rewrite ?seq_length, ?app_length; cbn [length].
  all: try lia.
  - destruct (0 <? b_size b); rewrite ?app_length; cbn [length]; lia.
  - unfold after_scan. destruct acc as [|e acc]; [rewrite toil_flushed; lia|]. cbn [toil th_pc]. rewrite (Permutation_length (srt_perm (e :: acc))). cbn [length]. lia.
Qed.
Lemma calls_end s : Acc (fun b a => step a b /\ i_calls b = i_calls a /\ i_final b = i_final a) s.
Proof.
  assert (H : forall k s, (toils s < k)%nat -> Acc (fun b a => step a b /\ i_calls b = i_calls a /\ i_final b = i_final a) s).
  { induction k as [|k IH]; intros a Hk; [lia|]. constructor. intros b (St & HC & HF). apply IH. pose proof (toils_step a b St HC HF). lia. }
  eapply H. apply Nat.lt_succ_diag_r.
Qed.
End Ends.
