(** The layout of the features table and the pack file while features are inserted. *)
From Coq Require Import Permutation Sorted.
From Verif Require Import Base BaseProof ModelTile SpecTile ProofTile ModelPackFile SpecPackFile ProofPackFile ModelGeom ModelFeature ModelCodec ModelPack SpecPack ProofPack
  ModelTable ProofTable ModelRender ModelPrepare ProofPrepare ProofPerm ProofDrain ModelInserter SpecInserter ProofInserter ProofInserterInv ProofInserterTop SpecRepack ProofRepackRun SpecLayout.
Open Scope N_scope.

Lemma apart_sym a b : apart a b -> apart b a.
Proof. unfold apart. lia. Qed.

Lemma laid_grows z T s s' db : grows s s' -> blen (pf_mem s') < 2 ^ 64 -> laid z T s db -> laid z T s' db.
Proof.
  intros G Hb (L1 & L2 & L3 & L4 & L5). split; [exact L1|]. split; [exact L2|]. split; [|split; [|exact L5]].
  - eapply Forall_impl; [|exact L3]. cbv beta. intros d (H1 & H2 & H3). split; [exact H1|]. split; [exact H2|].
    eapply Forall_impl; [|exact H3]. cbv beta. intros p (B & P1 & P2). exists B. split; [exact P1|]. eapply get_grows; eauto.
  - destruct G as (_ & _ & G & _). eapply Forall_impl; [|exact L4]. cbv beta. intros r [H1 H2]. lia.
Qed.

(** putting an entry that was there or was not *)
Lemma put_split (T : table) k v : table_sorted T ->
  (exists T1 v0 T2, T = T1 ++ (k, v0) :: T2 /\ table_put T k v = T1 ++ (k, v) :: T2 /\ table_get T k = Some v0) \/
  (exists T1 T2, T = T1 ++ T2 /\ table_put T k v = T1 ++ (k, v) :: T2 /\ table_get T k = None).
Proof.
  induction T as [|[k0 v0] T IH]; intros HS.
  - right. exists [], []. auto.
  - destruct HS as [H1 H2]. cbn [table_put table_get]. rewrite (N.eqb_sym k0 k). destruct (N.eqb_spec k k0) as [->|Hn].
    + left. exists [], v0, T. auto.
    + destruct (N.ltb_spec k k0) as [Hl|Hl].
      * right. exists [], ((k0, v0) :: T). split; [reflexivity|]. split; [reflexivity|].
        destruct (table_get T k) as [w|] eqn:E; [|reflexivity]. apply table_get_In in E. pose proof (proj1 (Forall_forall _ _) H1 _ E) as L. cbn [fst] in L. lia.
      * destruct (IH H2) as [(T1 & w & T2 & -> & E & G)|(T1 & T2 & -> & E & G)].
        -- left. exists ((k0, v0) :: T1), w, T2. rewrite E. auto.
        -- right. exists ((k0, v0) :: T1), T2. rewrite E. auto.
Qed.

Lemma Forall2_app_r {A B} (R : A -> B -> Prop) l m1 m2 : Forall2 R l (m1 ++ m2) -> exists l1 l2, l = l1 ++ l2 /\ Forall2 R l1 m1 /\ Forall2 R l2 m2.
Proof. intros H. apply Forall2_app_inv_r in H as (l1 & l2 & H1 & H2 & ->). eauto. Qed.

Lemma serialize_snoc rs r : pack_records_serialize (rs ++ [r]) = pack_records_serialize rs ++ record_bytes r.
Proof. unfold pack_records_serialize. rewrite flat_map_app. cbn [flat_map]. now rewrite app_nil_r. Qed.

Lemma flush_laid z W s t fs W' s' db : flush_put W s t fs = Ok (W', s') -> pf_inv s -> blen (pf_mem s') < 2 ^ 64 -> index_tile z t ->
  laid z W s db -> exists db', laid z W' s' db'.
Proof.
  intros H Hi Hb Ht L. unfold flush_put in H. apply bind_ok in H as (k & Hk & H). apply bind_ok in H as (p & Hp & H).
  pose proof (append_grows s p Hi) as G. pose proof (insert_spec s (pf_size s) p Hi) as IS. unfold pf_append in *.
  destruct (pf_insert s (pf_size s) p) as [s1 r]. cbn [fst] in G. destruct IS as (I1 & Ir & I3 & I4 & _ & _).
  assert (Hput : exists nv, W' = table_put W k nv /\ s' = s1 /\
     match table_get W k with Some el => pack_records_update el r = Ok nv | None => nv = pack_records_serialize [r] end).
  { destruct (table_get W k) as [el|].
    - apply bind_ok in H as (v & Hv & H). apply Ok_inj in H. injection H as <- <-. eauto.
    - apply Ok_inj in H. injection H as <- <-. eauto. }
  destruct Hput as (nv & -> & -> & Hnv). clear H.
  unfold pf_inv in I1. assert (Hp64 : blen p < 2 ^ 64) by lia.
  destruct (pack_ok _ _ Hp Hp64) as (Pn & _ & _).
  assert (Hpos : 0 < blen p) by (destruct p; [contradiction|rewrite blen_cons; lia]).
  assert (Hr : rec_ok r) by (subst r; split; cbn [r_off r_size]; lia).
  assert (Hget : pf_get s1 r = Ok p).
  { rewrite pf_get_inside; [|exact I1|lia|]. - subst r. cbn [r_off r_size]. now rewrite I4.
    - subst r. split; cbn [r_off r_size]; lia. }
  pose proof L as (_ & _ & _ & [LI _]).
  assert (Hap : forall q, In q (flat_map (fun d => snd (entry_row d)) db) -> apart r q).
  { intros q Hq. pose proof (proj1 (Forall_forall _ _) LI q Hq) as [_ Hq2]. right. subst r. cbn [r_off]. exact Hq2. }
  assert (Hin : 0 < r_size r /\ r_off r + r_size r <= pf_size s1) by (subst r; cbn [r_off r_size]; lia).
  clear LI. apply (laid_grows z W s s1 db G Hb) in L. destruct L as (L1 & L2 & L3 & L4 & L5).
  pose proof (table_put_sorted W k nv L2) as HS.
  destruct (put_split W k nv L2) as [(T1 & v0 & T2 & EW & EP & EG)|(T1 & T2 & EW & EP & EG)]; rewrite EG in Hnv; rewrite EP in *; subst W.
  - apply Forall2_app_r in L1 as (m1 & m2 & Em & F1 & F2). apply map_eq_app in Em as (d1 & d2 & -> & <- & <-).
    destruct d2 as [|d d2]; [inversion F2|]. cbn [map] in F2. inversion F2 as [|? ? ? ? F3 F4]; subst. clear F2.
    destruct F3 as (S1 & S2 & S3). cbn [fst snd entry_row] in S1, S2, S3.
    assert (Ed : fst d = t) by (destruct (tile_key_injective _ _ _ _ _ S1 Hk); auto).
    exists (d1 ++ (fst d, snd d ++ [(Rec (pf_size s) (blen p), fs)]) :: d2). split; [|split; [exact HS|split]].
    + rewrite map_app. cbn [map]. apply Forall2_app; [exact F1|]. constructor; [|exact F4]. split; [exact S1|]. cbn [fst snd entry_row].
      rewrite map_app. cbn [map fst]. split; [apply Forall_app; auto|]. rewrite serialize_snoc, <- S3.
      unfold pack_records_update in Hnv. apply bind_ok in Hnv as ([] & _ & Hnv). apply Ok_inj in Hnv. now subst nv.
    + apply Forall_app in L3 as [A1 A2]. apply Forall_cons_iff in A2 as [(B1 & B2 & B3) A2]. apply Forall_app. split; [exact A1|]. constructor; [|exact A2].
      cbn [fst snd]. split; [exact B1|]. split; [now destruct (snd d)|]. apply Forall_app. split; [exact B3|]. constructor; [|constructor]. exists p. cbn [fst snd]. auto.
    + assert (HP : Permutation (Rec (pf_size s) (blen p) :: flat_map (fun d => snd (entry_row d)) (d1 ++ d :: d2))
        (flat_map (fun d => snd (entry_row d)) (d1 ++ (fst d, snd d ++ [(Rec (pf_size s) (blen p), fs)]) :: d2))).
      { rewrite !flat_map_app. cbn [flat_map entry_row snd]. rewrite map_app. cbn [map fst]. rewrite <- !app_assoc. cbn [app].
        rewrite !app_assoc. apply Permutation_middle. }
      split; [rewrite <- HP; constructor; [exact Hin|exact L4]|]. apply (fop_perm apart apart_sym _ _ HP). constructor; [|exact L5].
      apply Forall_forall. exact Hap.
  - apply Forall2_app_r in L1 as (m1 & m2 & Em & F1 & F2). apply map_eq_app in Em as (d1 & d2 & -> & <- & <-).
    exists (d1 ++ (t, [(r, fs)]) :: d2). split; [|split; [exact HS|split]].
    + rewrite map_app. cbn [map]. apply Forall2_app; [exact F1|]. constructor; [|exact F2]. split; [exact Hk|]. cbn [fst snd entry_row map]. subst nv. auto.
    + apply Forall_app in L3 as [A1 A2]. apply Forall_app. split; [exact A1|]. constructor; [|exact A2]. cbn [fst snd]. split; [exact Ht|]. split; [discriminate|].
      constructor; [|constructor]. exists p. cbn [fst snd]. auto.
    + assert (HP : Permutation (r :: flat_map (fun d => snd (entry_row d)) (d1 ++ d2)) (flat_map (fun d => snd (entry_row d)) (d1 ++ (t, [(r, fs)]) :: d2))).
      { rewrite !flat_map_app. cbn [flat_map entry_row snd map fst app]. apply Permutation_middle. }
      split; [rewrite <- HP; constructor; [exact Hin|exact L4]|]. apply (fop_perm apart apart_sym _ _ HP). constructor; [|exact L5].
      apply Forall_forall. exact Hap.
Qed.

Section Run.
Variables z upper lower : N.
Variable srt : list (N * nat) -> list (N * nat).
Hypothesis srt_perm : forall l, Permutation (srt l) l.
Variable T0 : table.
Variable s0 : pfile.
Variable n : nat.
Variable db0 : list entry.
Hypothesis s0_inv : pf_inv s0.
Hypothesis laid0 : laid z T0 s0 db0.

Definition wlaid (s : pfile) (t : ithread) : Prop := match th_pc t with FPut _ _ _ W => exists db, laid z W s db | _ => True end.
Definition all_laid (s : ist) : Prop := blen (pf_mem (i_file s)) < 2 ^ 64 ->
  (exists db, laid z (i_table s) (i_file s) db) /\ Forall (wlaid (i_file s)) (i_threads s).

Lemma wlaid_grows s s' t : grows s s' -> blen (pf_mem s') < 2 ^ 64 -> wlaid s t -> wlaid s' t.
Proof. unfold wlaid. destruct (th_pc t); auto. intros G Hb (db & L). exists db. eapply laid_grows; eauto. Qed.
Lemma wlaid_flushed s d m : wlaid s (ITh (flushed d) m).
Proof. unfold wlaid. destruct d; exact I. Qed.

Lemma laid_reach s : ireach z upper lower srt T0 s0 n s -> all_laid s.
Proof.
  intros R. pose proof laid0 as (_ & T0_sorted & _). induction R as [|s s' R IH St].
  - intros _. split; [exists db0; exact laid0|]. cbn [ist_init i_threads i_file]. apply Forall_forall. intros t Ht. apply repeat_spec in Ht. subst t. exact I.
  - destruct (reachA z upper lower srt srt_perm T0 s0 n T0_sorted s0_inv s R) as [_ _ Af _ _ Ak]. clear R.
    destruct St; intros Hb; cbn [i_cache i_buckets i_flock i_wlock i_table i_file i_threads i_calls i_final] in *; unfold all_laid in IH; cbn [i_table i_file i_threads] in IH.
    all: try (specialize (IH Hb) as [IH1 IH2]; split; [exact IH1|]; apply Forall_mid in IH2 as [_ IH2]; apply Forall_mid; split; [first [exact I | apply wlaid_flushed]|exact IH2]).
    + (* scan end *) specialize (IH Hb) as [IH1 IH2]. split; [exact IH1|]. apply Forall_mid in IH2 as [_ IH2]. apply Forall_mid. split; [|exact IH2].
      unfold after_scan. destruct acc; [apply wlaid_flushed|exact I].
    + (* begin *) specialize (IH Hb) as [IH1 IH2]. split; [exact IH1|]. apply Forall_mid in IH2 as [_ IH2]. apply Forall_mid. split; [|exact IH2]. exact IH1.
    + (* write *) apply Forall_mid in Ak as [Ak _]. unfold tok in Ak. cbn [th_pc] in Ak. destruct Ak as (_ & _ & Q & HS & _). apply Forall_cons_iff in Q as [Q _].
      destruct (flush_put_spec _ _ _ _ _ _ H HS Af) as [_ G]. assert (Hb' : blen (pf_mem s) < 2 ^ 64) by (destruct G as (_ & _ & _ & G & _); lia).
      specialize (IH Hb') as [(db & L) IH2]. split; [exists db; eapply laid_grows; eauto|].
      apply Forall_mid in IH2 as [(dw & LW) IH2]. apply Forall_mid. split.
      * unfold wlaid. cbn [th_pc]. eapply flush_laid; eauto.
      * eapply Forall_impl; [|exact IH2]. intros t. now apply wlaid_grows.
    + (* commit *) specialize (IH Hb) as [IH1 IH2]. apply Forall_mid in IH2 as [IW IH2]. split; [exact IW|]. apply Forall_mid. split; [apply wlaid_flushed|exact IH2].
    + (* destroy *) specialize (IH Hb) as [IH1 IH2]. split; [exact IH1|]. apply Forall_app. split; [exact IH2|]. constructor; [exact I|constructor].
Qed.
End Run.

(** the contents, as seen by [stored] *)
Lemma entry_get T db z s t k : laid z T s db -> tile_to_key t 0 = Ok k ->
  match table_get T k with
  | None => entry_values db t = []
  | Some v => exists d, In d db /\ fst d = t /\ v = pack_records_serialize (map fst (snd d)) /\ Forall rec_ok (map fst (snd d)) /\ entry_values db t = concat (map snd (snd d))
  end.
Proof.
  intros (L1 & L2 & _ & _) Hk. revert T L1 L2. induction db as [|d db IH]; intros T L1 L2; cbn [map] in L1; inversion L1 as [|? [k0 v0] ? T' S F]; subst; [reflexivity|].
  destruct S as (S1 & S2 & S3). cbn [fst snd entry_row] in S1, S2, S3. destruct L2 as [HF HS]. cbn [table_get].
  assert (HT : fst d = t <-> k0 = k).
  { split; [intros <-; rewrite S1 in Hk; now apply Ok_inj in Hk|]. intros ->. destruct (tile_key_injective _ _ _ _ _ S1 Hk). auto. }
  unfold entry_values. cbn [flat_map]. fold (entry_values db t). specialize (IH T' F HS). destruct (N.eqb_spec k0 k) as [E|E].
  - exists d. split; [left; reflexivity|]. split; [now apply HT|]. split; [exact S3|]. split; [exact S2|].
    replace (tile_eqb (fst d) t) with true by (symmetry; apply tile_eqb_eq, HT, E).
    assert (HN : table_get T' k = None).
    { destruct (table_get T' k) eqn:EG; [|reflexivity]. apply table_get_In in EG. pose proof (proj1 (Forall_forall _ _) HF _ EG) as HH. cbn [fst] in HH. lia. }
    rewrite HN in IH. rewrite IH. now rewrite app_nil_r.
  - replace (tile_eqb (fst d) t) with false by (symmetry; destruct (tile_eqb (fst d) t) eqn:EE; [|reflexivity]; exfalso; apply E, HT, tile_eqb_eq, EE).
    cbn [app]. destruct (table_get T' k); [|exact IH]. destruct IH as (d' & D1 & D2). exists d'. split; [right; exact D1|exact D2].
Qed.

Lemma index_key z t : z <= 20 -> index_tile z t -> exists k, tile_to_key t 0 = Ok k.
Proof.
  intros Hz (E & X & Y). rewrite tile_to_key_spec.
  assert (2 ^ z <= 2 ^ 20) by (apply N.pow_le_mono_r; lia). change (2 ^ 20) with 1048576 in *.
  replace (tz t <? 2 ^ 5) with true by lia. replace (ty t <? 2 ^ 21) with true by lia. replace (tx t <? 2 ^ 21) with true by lia.
  cbn [andb]. eexists. reflexivity.
Qed.

Lemma laid_stored z T s db t : z <= 20 -> laid z T s db -> pf_inv s -> blen (pf_mem s) < 2 ^ 64 -> index_tile z t -> stored T s t (entry_values db t).
Proof.
  intros Hz L Hi Hb Ht. destruct (index_key z t Hz Ht) as (k & Hk).
  exists k. split; [exact Hk|]. pose proof (entry_get T db z s t k L Hk) as E. destruct (table_get T k) as [v|]; [|exact E].
  destruct E as (d & D1 & D2 & -> & D4 & ->). destruct L as (_ & _ & L3 & _). pose proof (proj1 (Forall_forall _ _) L3 d D1) as (_ & _ & L).
  cbv beta in L. assert (HF : exists ps, Forall2 (fun r p => pf_get s r = Ok p) (map fst (snd d)) ps /\
    Forall2 (fun p fs => feature_pack_valid p = true /\ exists rest, unpack_features p = Ok (fs, rest)) ps (map snd (snd d))).
  { clear - L Hb Hi. induction L as [|[r fs] l (B & P1 & P2) _ (ps & F1 & F2)]; [exists []; split; constructor|]. cbn [fst snd] in *.
    exists (B :: ps). cbn [map fst snd]. split; [now constructor|]. constructor; [|exact F2].
    assert (HB : blen B < 2 ^ 64).
    { unfold pf_get in P2. apply bind_ok in P2 as ([] & _ & P2). destruct (N.leb_spec (r_off r + r_size r) (blen (pf_mem s))); [|discriminate]. apply Ok_inj in P2. subst B.
      unfold slice, blen. rewrite firstn_length. unfold blen in *. rewrite skipn_length. lia. }
    destruct (pack_ok _ _ P1 HB) as (_ & A & B'). auto. }
  destruct HF as (ps & F1 & F2). exists (map fst (snd d)), ps, (map snd (snd d)). split; [now apply deserialize_serialize|]. auto.
Qed.

Lemma stored_fun T s t a b : stored T s t a -> stored T s t b -> a = b.
Proof.
  intros (k & Hk & H1) (k' & Hk' & H2). rewrite Hk in Hk'. apply Ok_inj in Hk'. subst k'. destruct (table_get T k) as [v|]; [|congruence].
  destruct H1 as (rs & ps & fss & A1 & A2 & A3 & ->). destruct H2 as (rs' & ps' & fss' & B1 & B2 & B3 & ->). rewrite A1 in B1. apply Ok_inj in B1. subst rs'.
  f_equal. assert (ps = ps').
  { clear - A2 B2. revert ps' B2. induction A2 as [|r p l m H _ IH]; intros ps' B; inversion B; subst; [reflexivity|]. f_equal; [congruence|auto]. }
  subst ps'. clear - A3 B3. revert fss' B3. induction A3 as [|p fs l m [_ (r1 & H)] _ IH]; intros f' B; inversion B as [|? ? ? ? [_ (r2 & H')]]; subst; [reflexivity|].
  f_equal; [congruence|auto].
Qed.

Lemma laid_fitting z T s db : z <= 20 -> laid z T s db -> pf_inv s -> blen (pf_mem s) < 2 ^ 64 -> fitting z T s (entry_values db).
Proof. intros Hz L Hi Hb. split; [apply L|]. split; [exact Hi|]. intros t Ht. now apply (laid_stored z). Qed.

Lemma reach_grows z upper lower srt (srt_perm : forall l, Permutation (srt l) l) T0 s0 n s : table_sorted T0 -> pf_inv s0 ->
  ireach z upper lower srt T0 s0 n s -> grows s0 (i_file s).
Proof.
  intros HT HI R. induction R as [|s s' R IH St]; [apply grows_refl; exact HI|].
  destruct (reachA z upper lower srt srt_perm T0 s0 n HT HI s R) as [_ _ Af _ _ Ak].
  destruct St; cbn [i_file i_threads] in *; try exact IH.
  apply Forall_mid in Ak as [Ak _]. unfold tok in Ak. cbn [th_pc] in Ak. destruct Ak as (_ & _ & _ & HS & _).
  destruct (flush_put_spec _ _ _ _ _ _ H HS Af) as [_ G]. eapply grows_trans; eauto.
Qed.

Lemma laid_contents z upper lower srt T0 s0 db0 n s :
  (forall l, Permutation (srt l) l) -> pf_inv s0 -> laid z T0 s0 db0 -> z <= 20 ->
  ireach z upper lower srt T0 s0 n s -> blen (pf_mem (i_file s)) < 2 ^ 64 ->
  Forall proper (i_calls s) ->
  exists db, laid z (i_table s) (i_file s) db /\
    forall t, index_tile z t -> exists new others, entry_values db t = entry_values db0 t ++ new /\
      Permutation (values_for z t (i_calls s)) (new ++ others).
Proof.
  intros HP HI L HZ R Hb HW. pose proof L as (_ & HT & _).
  pose proof (reach_grows z upper lower srt HP T0 s0 n s HT HI R) as G.
  assert (Hb0 : blen (pf_mem s0) < 2 ^ 64) by (destruct G as (_ & _ & _ & G & _); lia).
  assert (HI' : pf_inv (i_file s)) by (destruct G as (_ & G & _); exact G).
  destruct (laid_reach z upper lower srt HP T0 s0 n db0 HI L s R Hb) as [(db & L') _]. exists db. split; [exact L'|]. intros t Ht.
  destruct (laid_fitting z T0 s0 db0 HZ L HI Hb0) as (_ & _ & Hs).
  destruct (committed z upper lower srt HP T0 s0 n HT HI (entry_values db0) Hs HZ s R Hb HW) as [H _].
  destruct (H t Ht) as (new & others & H1 & H2). exists new, others. split; [|exact H2].
  exact (stored_fun _ _ _ _ _ (laid_stored z _ _ _ _ HZ L' HI' Hb Ht) H1).
Qed.

Lemma none_lost t s : Forall (fun th => ~ failed th) (i_threads s) -> lost_values t s = [].
Proof.
  unfold lost_values. induction 1 as [|th l H _ IH]; [reflexivity|]. cbn [flat_map]. rewrite IH, app_nil_r. unfold failed in H. destruct (th_pc th); tauto.
Qed.
Lemma laid_complete z upper lower srt T0 s0 db0 n s :
  (forall l, Permutation (srt l) l) -> pf_inv s0 -> laid z T0 s0 db0 -> lower <= upper -> z <= 20 ->
  ireach z upper lower srt T0 s0 n s -> destroyed s -> Forall (fun t => ~ failed t) (i_threads s) ->
  blen (pf_mem (i_file s)) < 2 ^ 64 -> Forall proper (i_calls s) ->
  exists db, laid z (i_table s) (i_file s) db /\
    forall t, index_tile z t -> exists new, entry_values db t = entry_values db0 t ++ new /\
      Permutation (values_for z t (i_calls s)) new.
Proof.
  intros HP HI L HL HZ R HD HF Hb HW. pose proof L as (_ & HT & _).
  pose proof (reach_grows z upper lower srt HP T0 s0 n s HT HI R) as G.
  assert (Hb0 : blen (pf_mem s0) < 2 ^ 64) by (destruct G as (_ & _ & _ & G & _); lia).
  assert (HI' : pf_inv (i_file s)) by (destruct G as (_ & G & _); exact G).
  destruct (laid_reach z upper lower srt HP T0 s0 n db0 HI L s R Hb) as [(db & L') _]. exists db. split; [exact L'|]. intros t Ht.
  destruct (laid_fitting z T0 s0 db0 HZ L HI Hb0) as (_ & _ & Hs).
  destruct (persisted z upper lower srt HP T0 s0 n HT HI (entry_values db0) Hs HL HZ s R HD Hb HW) as [H _].
  destruct (H t Ht) as (new & H1 & H2). exists new. rewrite (none_lost t s HF), app_nil_r in H2. split; [|exact H2].
  exact (stored_fun _ _ _ _ _ (laid_stored z _ _ _ _ HZ L' HI' Hb Ht) H1).
Qed.
