(** The feature inserter: any calls can be completed; how large the pack file becomes. *)
From Coq Require Import Permutation Sorted.
From Verif Require Import Base BaseProof ModelTile SpecTile ProofTile ModelPackFile SpecPackFile ProofPackFile ModelGeom ModelFeature ModelCodec ProofCodec ModelPack SpecPack ProofPack
  ModelTable ProofTable ModelRender ModelPrepare ProofPrepare ProofPerm ProofDrain ModelInserter SpecInserter ProofInserter ProofInserterInv ProofInserterTop.
Open Scope N_scope.

(** ** sizes *)
Definition cost (v : bytes) : N := blen v + 20.
Definition jcost (js : list (tile * bytes)) : N := sumN (fun j => cost (snd j)) js.
Lemma jcost_app a b : jcost (a ++ b) = jcost a + jcost b.
Proof. apply sumN_app. Qed.
Lemma jcost_cons j js : jcost (j :: js) = cost (snd j) + jcost js.
Proof. reflexivity. Qed.
Lemma jcost_pairs (t : tile) vs : jcost (map (pair t) vs) = sumN cost vs.
Proof. induction vs as [|v vs IH]; [reflexivity|]. cbn [map]. rewrite jcost_cons, IH. reflexivity. Qed.
Lemma qcost_cons e q : jcost (qjobs (e :: q)) = sumN cost (snd e) + jcost (qjobs q).
Proof. unfold qjobs. cbn [flat_map]. now rewrite jcost_app, jcost_pairs. Qed.

Lemma pack_size fs p : pack_features fs = Ok p -> fs <> [] -> blen p <= sumN cost fs.
Proof.
  unfold pack_features, pack_header, append_features. intros H Hn. apply bind_ok in H as (h & Hh & H). apply bind_ok in Hh as ([] & _ & Hh). apply Ok_inj in Hh. subst h.
  apply bind_ok in H as (b & Hb & H). apply Ok_inj in H. subst p. apply bind_ok in Hb as (b' & Hb' & Hb). apply Ok_inj in Hb. subst b.
  apply append_each_inv in Hb' as [_ ->]. unfold pack_finish, append_span_end. rewrite !blen_app. cbn [length flat_map app].
  assert (L4 : forall x, blen (le_bytes 4 x) = 4) by (intros x; unfold blen; rewrite le_bytes_length; reflexivity). rewrite !L4.
  change (blen (varint_enc 0)) with 1. change (blen [N.of_nat 0]) with 1. change (blen []) with 0.
  assert (E : blen (flat_map (fun f => varint_enc (blen f) ++ f) fs) + 10 * N.of_nat (length fs) <= sumN cost fs).
  { clear. induction fs as [|f fs IH]; [vm_compute; discriminate|]. cbn [flat_map length sumN fold_right]. fold (sumN cost fs). rewrite !blen_app. unfold cost at 1.
    pose proof (varint_len_f 10 (blen f)) as V. assert (blen (varint_enc (blen f)) <= 10) by (unfold varint_enc, blen at 1; lia). lia. }
  destruct fs as [|f fs]; [contradiction|]. cbn [length] in E. lia.
Qed.
Lemma append_size s d : pf_inv s -> blen (pf_mem (fst (pf_append s d))) <= blen (pf_mem s) + blen d.
Proof.
  unfold pf_inv, pf_append, pf_insert, pf_resize, write_at, zeros. cbn [fst pf_mem r_off r_size]. intros I.
  unfold blen in *. rewrite !app_length, firstn_length, skipn_length, app_length, repeat_length. lia.
Qed.
Lemma flush_size W s t fs W' s' : flush_put W s t fs = Ok (W', s') -> pf_inv s -> fs <> [] -> blen (pf_mem s') <= blen (pf_mem s) + sumN cost fs.
Proof.
  unfold flush_put. intros H I Hn. apply bind_ok in H as (k & _ & H). apply bind_ok in H as (p & Hp & H). pose proof (append_size s p I) as A. pose proof (pack_size fs p Hp Hn) as P.
  destruct (pf_append s p) as [s1 r]. cbn [fst] in A. assert (E : s' = s1).
  { destruct (table_get W k); [apply bind_ok in H as (v & _ & H)|]; apply Ok_inj in H; congruence. }
  subst s'. lia.
Qed.

Section Finish.
Variables z upper lower : N.
Variable srt : list (N * nat) -> list (N * nat).
Hypothesis srt_perm : forall l, Permutation (srt l) l.
Variable T0 : table.
Variable s0 : pfile.
Variable n : nat.
Hypothesis T0_sorted : table_sorted T0.
Hypothesis s0_inv : pf_inv s0.
Hypothesis low_up : lower <= upper.
Hypothesis z20 : z <= 20.
Notation step := (istep z upper lower srt).
Notation reach := (ireach z upper lower srt T0 s0 n).
Ltac proj := cbn [i_cache i_buckets i_flock i_wlock i_table i_file i_threads i_calls i_final th_pc th_counted fst snd] in *.
Ltac step_cases St :=
  destruct St as [c bs fl wl T s t1 t2 m cs f js Hj|c bs fl wl T s t1 t2 m cs f Hj|c bs fl wl T s t1 t2 m cs fin j js
    |c b1 b b2 fl wl T s t1 t2 m cs fin j js Hg|c bs fl wl T s t1 t2 m cs fin j js Hg|c bs fl wl T s t1 t2 m cs fin
    |c bs fl wl T s t1 t2 m cs fin d Hc|c bs fl wl T s t1 t2 m cs fin d Hc|c bs wl T s t1 t2 m cs fin d
    |c bs fl wl T s t1 t2 m cs fin d Hc|c bs fl wl T s t1 t2 m cs fin d Hc|c bs fl wl T s t1 t2 m cs fin d acc i rest b Hb
    |c bs fl wl T s t1 t2 m cs fin d acc|c bs fl wl T s t1 t2 m cs fin d e l q Hc|c bs fl wl T s t1 t2 m cs fin d e l q Hc
    |c bs fl wl T s t1 t2 m cs fin d q|c b1 b b2 fl wl T s t1 t2 m cs fin d l q|c bs fl T s t1 t2 m cs fin d q
    |c bs fl wl T s t1 t2 m cs fin d dn e rest W W' s' Hf|c bs fl wl T s t1 t2 m cs fin d dn e rest W Hf
    |c bs fl wl T s t1 t2 m cs fin d dn W|c bs fl wl T s ts cs Hq].

(** ** nothing empty is packed *)
Definition found (pc : ipc) : list nat :=
  match pc with FScan _ acc _ => map snd acc | FLoop _ l _ => map snd l | FTake _ i l _ => i :: map snd l | _ => [] end.
Definition queued (pc : ipc) : list (tile * list bytes) :=
  match pc with FLoop _ _ q | FTake _ _ _ q | FBegin _ q => q | FPut _ _ rest _ => rest | _ => [] end.
Definition filled (bs : list bucket) (i : nat) : Prop := exists b, nth_error bs i = Some b /\ 0 < b_size b.
Definition gok (bs : list bucket) (t : ithread) : Prop :=
  NoDup (claimed (th_pc t)) /\ Forall (filled bs) (found (th_pc t)) /\ Forall (fun e => snd e <> []) (queued (th_pc t)).
Definition invG (s : ist) : Prop := Forall (gok (i_buckets s)) (i_threads s).

Lemma gok_flushed bs (d : bool) m : gok bs (ITh (flushed d) m).
Proof. destruct d; repeat split; cbn; constructor. Qed.
Lemma gok_mono bs bs' t : (forall i, filled bs i -> filled bs' i) -> gok bs t -> gok bs' t.
Proof. intros H (A & B & C). split; [exact A|]. split; [|exact C]. eapply Forall_impl; [|exact B]. exact H. Qed.
Lemma filled_add b1 b b2 v i : filled (b1 ++ b :: b2) i -> filled (b1 ++ bucket_add b v :: b2) i.
Proof.
  intros (x & Hx & Hp). destruct (Nat.lt_trichotomy i (length b1)) as [H|[->|H]].
  - rewrite nth_error_app1 in Hx by assumption. exists x. rewrite nth_error_app1 by assumption. auto.
  - rewrite nth_error_app2 in Hx by lia. rewrite Nat.sub_diag in Hx. cbn [nth_error] in Hx. injection Hx as <-. exists (bucket_add b v). rewrite nth_error_app2 by lia. rewrite Nat.sub_diag. split; [reflexivity|].
    unfold bucket_add. cbn [b_size]. lia.
  - rewrite nth_error_app2 in Hx by lia. exists x. rewrite nth_error_app2 by lia. split; [|assumption]. destruct (i - length b1)%nat eqn:E; [lia|]. exact Hx.
Qed.
Lemma filled_take b1 b b2 i : i <> length b1 -> filled (b1 ++ b :: b2) i -> filled (b1 ++ bucket_take b :: b2) i.
Proof.
  intros Hi (x & Hx & Hp). exists x. split; [|assumption]. destruct (Nat.lt_trichotomy i (length b1)) as [H|[->|H]]; [|congruence|].
  - rewrite nth_error_app1 in * by assumption. exact Hx.
  - rewrite nth_error_app2 in * by lia. destruct (i - length b1)%nat eqn:E; [lia|]. exact Hx.
Qed.
Lemma not_found ts t : sumN scanning ts = 0 -> In t ts -> found (th_pc t) = [].
Proof. intros H Ht. pose proof (sumN_In scanning ts t Ht) as L. rewrite H in L. unfold scanning in L. destruct (th_pc t); try reflexivity; lia. Qed.

Lemma stepG s s' : reach s -> invG s -> step s s' -> invG s'.
Proof.
  intros R G St.
  pose proof (reachA z upper lower srt srt_perm T0 s0 n T0_sorted s0_inv s R) as [At As Af Al Aw Ao].
  pose proof (reachC z upper lower srt srt_perm T0 s0 n T0_sorted s0_inv low_up s R) as [Cs Cl Ch Cb Cc].
  unfold invG in *. step_cases St; proj.
  all: try (apply Forall_mid in G as [(G1 & G2 & G3) G]; cbn [th_pc claimed found queued] in G1, G2, G3).
  all: try (apply Forall_mid; split; [|exact G]).
  all: try (now apply gok_flushed).
  all: try (repeat split; cbn [th_pc claimed found queued]; auto using NoDup_nil, Forall_nil; fail).
  - (* put *) apply Forall_mid. split; [repeat split; cbn [th_pc claimed found queued]; constructor|]. eapply Forall_impl; [|exact G]. intros t. apply gok_mono. intros i. apply filled_add.
  - (* start of the scan *) repeat split; cbn [th_pc claimed found queued map app]; [apply seq_NoDup|constructor|constructor].
  - (* scan *) cbn [map app] in *. destruct (N.ltb_spec 0 (b_size b)) as [Hp|Hp].
    + repeat split; cbn [th_pc claimed found queued]; rewrite ?map_app; cbn [map snd]; [rewrite <- app_assoc; exact G1| |constructor]. apply Forall_app. split; [exact G2|]. constructor; [|constructor]. exists b. auto.
    + repeat split; cbn [th_pc claimed found queued]; [|exact G2|constructor]. apply NoDup_remove_1 in G1. exact G1.
  - (* end of the scan *) rewrite app_nil_r in G1. destruct acc as [|e acc]; cbn [after_scan scan_keeps]; [apply gok_flushed|]. repeat split; cbn [th_pc claimed found queued].
    + eapply Permutation_NoDup; [|exact G1]. apply Permutation_map. symmetry. apply srt_perm.
    + eapply Permutation_Forall; [|exact G2]. apply Permutation_map. symmetry. apply srt_perm.
    + constructor.
  - (* take *) rewrite sumN_mid in Al. cbn [scanning th_pc] in Al. apply NoDup_cons_iff in G1 as [G0 G1]. apply Forall_cons_iff in G2 as [G2' G2].
    apply Forall_mid. split.
    + repeat split; cbn [th_pc claimed found queued]; [exact G1| |].
      * apply Forall_forall. intros i Hi. apply filled_take; [intros ->; contradiction|]. exact (proj1 (Forall_forall _ _) G2 i Hi).
      * apply Forall_app. split; [exact G3|]. constructor; [|constructor]. cbn [snd]. destruct G2' as (x & Hx & Hp). rewrite nth_error_app2 in Hx by lia. rewrite Nat.sub_diag in Hx. cbn [nth_error] in Hx. injection Hx as <-.
        apply Forall_mid in Cs as [Cs _]. intros E. unfold mem_bytes in Cs. rewrite E in Cs. cbn [fold_right] in Cs. lia.
    + assert (Z : sumN scanning (t1 ++ t2) = 0) by (rewrite sumN_app; destruct fl; lia). apply Forall_forall. intros t Ht. destruct (proj1 (Forall_forall _ _) G t Ht) as (H1 & H2 & H3).
      split; [exact H1|]. split; [|exact H3]. rewrite (not_found _ _ Z Ht). constructor.
  - (* write *) apply Forall_cons_iff in G3 as [_ G3]. repeat split; cbn [th_pc claimed found queued]; [constructor|constructor|exact G3].
  - (* destructor *) apply Forall_app. split; [exact G|]. constructor; [|constructor]. repeat split; cbn [th_pc claimed found queued]; constructor.
Qed.
Lemma reachG s : reach s -> invG s.
Proof.
  induction 1 as [|s s' R IH St]; [|eapply stepG; eauto]. unfold invG, ist_init. proj. apply Forall_forall. intros t Ht. apply repeat_spec in Ht. subst t. repeat split; constructor.
Qed.

(** ** the file *)
Definition tcost (t : ithread) : N :=
  match th_pc t with
  | ICount js => jcost js | IPut j js => jcost (j :: js)
  | FLoop _ _ q | FTake _ _ _ q | FBegin _ q | FPut _ _ q _ => jcost (qjobs q)
  | _ => 0
  end.
Definition bcost (b : bucket) : N := sumN cost (b_mem b).
Definition invS (s : ist) : Prop :=
  blen (pf_mem (i_file s)) + (sumN bcost (i_buckets s) + sumN tcost (i_threads s)) <= blen (pf_mem s0) + jcost (all_jobs z (i_calls s)).
Lemma tcost_flushed (d : bool) m : tcost (ITh (flushed d) m) = 0.
Proof. destruct d; reflexivity. Qed.
Lemma calls_snoc cs f : jcost (all_jobs z (cs ++ [f])) = jcost (all_jobs z cs) + match call_jobs z f with Ok js => jcost js | _ => 0 end.
Proof. unfold all_jobs. rewrite flat_map_app, jcost_app. cbn [flat_map]. rewrite app_nil_r. destruct (call_jobs z f); reflexivity. Qed.

Lemma stepS s s' : reach s -> invS s -> step s s' -> invS s'.
Proof.
  intros R IS St. pose proof (reachG s R) as G.
  pose proof (reachA z upper lower srt srt_perm T0 s0 n T0_sorted s0_inv s R) as [At As Af Al Aw Ao].
  unfold invS, invG in *. step_cases St; proj; rewrite ?sumN_mid in *; cbn [tcost th_pc] in *; rewrite ?tcost_flushed in *; try lia.
  - rewrite calls_snoc, Hj. lia.
  - rewrite calls_snoc, Hj. lia.
  - unfold bcost at 1 in IS. unfold bcost at 1. cbn [bucket_add b_mem]. rewrite sumN_app. cbn [sumN fold_right]. rewrite jcost_cons in IS. lia.
  - destruct acc as [|e acc]; cbn [after_scan]; rewrite ?tcost_flushed; [lia|]. cbn [tcost th_pc]. change (jcost (qjobs [])) with 0. lia.
  - cbn [bucket_take b_mem] in *. unfold bcost at 1. cbn [bucket_take b_mem sumN fold_right]. rewrite qjobs_app, jcost_app, qcost_cons. cbn [snd]. change (jcost (qjobs [])) with 0. unfold bcost at 1 in IS. lia.
  - apply Forall_mid in G as [(_ & _ & G) _]. cbn [th_pc queued] in G. apply Forall_cons_iff in G as [G _]. pose proof (flush_size _ _ _ _ _ _ Hf Af G) as F. rewrite qcost_cons in IS. lia.
  - change (sumN tcost []) with 0. lia.
Qed.
Lemma file_bound s : reach s -> blen (pf_mem (i_file s)) <= blen (pf_mem s0) + jcost (all_jobs z (i_calls s)).
Proof.
  intros R. enough (invS s) by (unfold invS in *; lia). induction R as [|s s' R IH St]; [|eapply stepS; eauto]. unfold invS, ist_init. proj.
  replace (sumN bcost (init_buckets z)) with 0; [|symmetry; apply sumN_zero; intros b Hb; unfold init_buckets in Hb; apply in_map_iff in Hb as (t & <- & _); reflexivity].
  replace (sumN tcost (repeat (ITh IIdle 0) n)) with 0; [cbn; lia|]. symmetry. apply sumN_zero. intros t Ht. apply repeat_spec in Ht. subst t. reflexivity.
Qed.

(** ** calls can be completed *)
Lemma settle s : reach s -> exists s', reach s' /\ i_calls s' = i_calls s /\ i_final s' = i_final s /\ Forall (fun t => quiet t \/ th_pc t = IDone) (i_threads s').
Proof.
  intros R. revert R. induction (calls_end z upper lower srt srt_perm s) as [s _ IH]. intros R.
  destruct (Exists_dec (fun t => ~ (quiet t \/ th_pc t = IDone)) (i_threads s)) as [E|E].
  { intros [pc m]. unfold quiet. cbn [th_pc]. destruct pc; try (left; intros [[]|X]; discriminate X); right; intros H; apply H; auto. }
  - apply Exists_exists in E as (t & Ht & Hq). destruct (no_deadlock z upper lower srt srt_perm T0 s0 n T0_sorted s0_inv low_up z20 s R) as (s1 & S1 & C1 & F1); [exists t; split; [assumption|]; split; intros X; apply Hq; auto|].
    destruct (IH s1 (conj S1 (conj C1 F1))) as (s2 & R2 & C2 & F2 & Q2); [eapply ir_step; eauto|]. exists s2. split; [assumption|]. split; [congruence|]. split; [congruence|assumption].
  - exists s. split; [assumption|]. split; [reflexivity|]. split; [reflexivity|]. apply Forall_forall. intros t Ht. destruct (th_pc t) eqn:Et; unfold quiet; rewrite Et; auto; exfalso; apply E; apply Exists_exists; exists t; (split; [assumption|]); unfold quiet; rewrite Et; intros [[]|X]; discriminate X.
Qed.

(** the destructor's thread *)
Definition invF (s : ist) : Prop := i_final s = true -> Exists (fun t => th_pc t <> IIdle) (i_threads s).
Lemma Exists_at {A} (P : A -> Prop) a x b : P x -> Exists P (a ++ x :: b).
Proof. intros H. apply Exists_app. right. now left. Qed.
Lemma stepF s s' : reach s -> invF s -> step s s' -> invF s'.
Proof.
  intros R F St. pose proof (reachD z upper lower srt srt_perm T0 s0 n T0_sorted s0_inv low_up s R) as D.
  unfold invF, invD in *. step_cases St; proj; try discriminate; intros Hfin; try (subst fin; destruct D as [_ D]; apply Forall_mid in D as [[[]|[D _]] _]; cbn [th_pc destr] in D); try contradiction; try subst d.
  all: try (apply Exists_at; cbn [th_pc flushed]; discriminate).
  destruct acc; apply Exists_at; cbn [after_scan flushed th_pc]; discriminate.
Qed.
Lemma reachF s : reach s -> invF s.
Proof. induction 1 as [|s s' R IH St]; [|eapply stepF; eauto]. unfold invF, ist_init. proj. discriminate. Qed.

Variable old : tile -> list bytes.
Hypothesis old_ok : forall t, index_tile z t -> stored T0 s0 t (old t).
Variable M : N.
Hypothesis fits_pack : upper + N.of_nat n * M < 2 ^ 37.
Hypothesis n_pos : (0 < n)%nat.

Lemma call_ok c : insertable z M c -> exists js, call_jobs z c = Ok js.
Proof.
  destruct c as [f|t v]; cbn [insertable call_jobs]; [|eauto]. intros (W & v & Hs & _). eexists. apply jobs_form. exists v. split; [exact Hs|]. split; [reflexivity|]. now apply range_nonempty.
Qed.
Lemma run_calls cs : Forall (insertable z M) cs -> exists s, reach s /\ i_calls s = cs /\ i_final s = false /\ Forall idle (i_threads s) /\ length (i_threads s) = n.
Proof.
  induction cs as [|c cs IH] using rev_ind; intros H.
  - exists (ist_init z T0 s0 n). split; [apply ir_init|]. unfold ist_init. proj. repeat (split; [reflexivity|]). split; [|apply repeat_length]. apply Forall_forall. intros t Ht. apply repeat_spec in Ht. subst t. reflexivity.
  - pose proof H as HA. apply Forall_app in H as [H1 H2]. apply Forall_cons_iff in H2 as [H2 _]. destruct (IH H1) as (s & R & C & F & I & L).
    destruct (call_ok c H2) as (js & Hjs). destruct s as [ca bs fl wl T f ts cs0 fin]. proj. subst cs0 fin. destruct ts as [|[pc m] ts]; [cbn [length] in L; lia|].
    apply Forall_cons_iff in I as [I1 I2]. unfold idle in I1. cbn [th_pc] in I1. subst pc.
    pose proof (ir_step z upper lower srt T0 s0 n _ _ R (s_call z upper lower srt ca bs fl wl T f [] ts m cs c js Hjs)) as R1.
    destruct (settle _ R1) as (s2 & R2 & C2 & F2 & Q2). proj. exists s2. split; [assumption|]. split; [assumption|]. split; [assumption|].
    rewrite <- C2 in HA. pose proof (no_failure z upper lower srt srt_perm T0 s0 n T0_sorted s0_inv old old_ok low_up z20 M fits_pack s2 R2 HA) as NF.
    pose proof (reachD z upper lower srt srt_perm T0 s0 n T0_sorted s0_inv low_up s2 R2) as D. unfold invD in D. rewrite F2 in D.
    destruct (reachE z upper lower srt srt_perm T0 s0 n T0_sorted s0_inv old old_ok low_up z20 M fits_pack s2 R2 HA) as [EL _ _ _]. split; [|auto].
    apply Forall_forall. intros t Ht. pose proof (proj1 (Forall_forall _ _) Q2 t Ht) as Q. pose proof (proj1 (Forall_forall _ _) NF t Ht) as N1. pose proof (proj1 (Forall_forall _ _) D t Ht) as N2. cbn beta in *.
    unfold idle, quiet, failed, destr in *. destruct Q as [Q|Q]; destruct (th_pc t); try contradiction; try discriminate; try reflexivity; exfalso; auto.
Qed.
Lemma finish cs : Forall (insertable z M) cs -> exists s, reach s /\ i_calls s = cs /\ destroyed s /\ Forall (fun t => ~ failed t) (i_threads s).
Proof.
  intros H. destruct (run_calls cs H) as (s & R & C & F & I & L). destruct s as [ca bs fl wl T f ts cs0 fin]. proj. subst cs0 fin.
  assert (Q : Forall quiet ts). { eapply Forall_impl; [|exact I]. intros t E. unfold quiet. rewrite E. exact Logic.I. }
  pose proof (ir_step z upper lower srt T0 s0 n _ _ R (s_destroy z upper lower srt ca bs fl wl T f ts cs Q)) as R1.
  destruct (settle _ R1) as (s2 & R2 & C2 & F2 & Q2). proj. exists s2. split; [assumption|]. split; [assumption|].
  assert (HA : Forall (insertable z M) (i_calls s2)) by now rewrite C2.
  pose proof (no_failure z upper lower srt srt_perm T0 s0 n T0_sorted s0_inv old old_ok low_up z20 M fits_pack s2 R2 HA) as NF. split; [|assumption].
  pose proof (reachF s2 R2 F2) as X. apply Exists_exists in X as (t & Ht & Hi). exists t. split; [assumption|].
  pose proof (proj1 (Forall_forall _ _) Q2 t Ht) as Q3. pose proof (proj1 (Forall_forall _ _) NF t Ht) as N1. cbn beta in *.
  unfold quiet, failed in *. destruct Q3 as [Q3|Q3]; [|assumption]. destruct (th_pc t); try contradiction; exfalso; auto.
Qed.
End Finish.
