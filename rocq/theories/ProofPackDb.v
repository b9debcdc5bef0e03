(** pack_features(db): from the table to the tasks and back. *)
From Coq Require Import Permutation Sorted.
From Verif Require Import Base BaseProof ModelTile SpecTile ProofTile ModelPackFile SpecPackFile ModelTable ModelRender ProofRender ProofTable ModelRepack SpecRepack ProofRepack ProofRepackRun.
From Verif Require ProofQuadTree.
Open Scope N_scope.

Definition dbent : Type := tile * N * list pack_record.
Definition dtile (d : dbent) : tile := fst (fst d).

Lemma key_between t n k t2 n2 k2 n3 k3 : tile_to_key t n = Ok k -> tile_to_key t2 n2 = Ok k2 -> tile_to_key t n3 = Ok k3 ->
  k < k2 -> k2 < k3 -> t2 = t.
Proof.
  intros H1 H2 H3 L1 L2. apply (key_order _ _ _ _ _ _ H1 H2) in L1. apply (key_order _ _ _ _ _ _ H2 H3) in L2. unfold lex_lt in *.
  destruct t as [x y z], t2 as [x2 y2 z2]. cbn [tx ty tz] in *. f_equal; lia.
Qed.

Lemma tile_records_app a b t : tile_records (a ++ b) t = tile_records a t ++ tile_records b t.
Proof. unfold tile_records. now rewrite filter_app, flat_map_app. Qed.
Lemma tile_records_one d t : tile_records [d] t = if tile_eqb (dtile d) t then snd d else [].
Proof. unfold tile_records, dtile. cbn [filter]. destruct (tile_eqb (fst (fst d)) t); [apply app_nil_r|reflexivity]. Qed.
Lemma tile_records_none db t : (forall d, In d db -> dtile d <> t) -> tile_records db t = [].
Proof.
  intros H. induction db as [|d db IH]; [reflexivity|]. change (d :: db) with ([d] ++ db). rewrite tile_records_app, tile_records_one.
  destruct (ProofQuadTree.tile_eqb_spec (dtile d) t) as [E|E]; [destruct (H d (or_introl eq_refl) E)|]. cbn [app]. apply IH. intros e He. apply H. right. exact He.
Qed.
Lemma tile_records_some db t d : In d db -> dtile d = t -> snd d <> [] -> tile_records db t <> [].
Proof.
  intros Hin E Hn. apply in_split in Hin as (a & b & ->). rewrite tile_records_app. change (d :: b) with ([d] ++ b). rewrite tile_records_app, tile_records_one, E.
  destruct (ProofQuadTree.tile_eqb_spec t t) as [_|H]; [|contradiction]. destruct (tile_records a t); [|discriminate]. cbn [app]. destruct (snd d); [contradiction|discriminate].
Qed.

(** the tasks *)
Record grouped (db : list dbent) (acc : list task) : Prop := {
  gr_nodup : NoDup (map fst acc);
  gr_recs : forall t rs, In (t, rs) acc -> rs = tile_records db t;
  gr_all : forall d, In d db -> In (dtile d) (map fst acc);
  gr_from : forall t, In t (map fst acc) -> exists d, In d db /\ dtile d = t;
  gr_flat : flat_map snd acc = flat_map snd db }.

Lemma add_same db acc t0 rs0 d : grouped db (acc ++ [(t0, rs0)]) -> dtile d = t0 -> grouped (db ++ [d]) (acc ++ [(t0, rs0 ++ snd d)]).
Proof.
  intros [G1 G2 G3 G5 G4] E. rewrite map_app in G1, G3, G5. cbn [map fst] in G1, G3, G5. split.
  - rewrite map_app. exact G1.
  - intros t rs Hin. rewrite tile_records_app, tile_records_one, E. apply in_app_iff in Hin as [Hin|[Hin|[]]].
    + destruct (ProofQuadTree.tile_eqb_spec t0 t) as [->|Hn].
      * exfalso. apply NoDup_remove in G1 as [_ G1]. apply G1. rewrite app_nil_r. apply in_map_iff. exists (t, rs). auto.
      * rewrite app_nil_r. apply G2. apply in_app_iff. auto.
    + apply (f_equal fst) in Hin as E1. apply (f_equal snd) in Hin as E2. cbn [fst snd] in E1, E2. subst t rs.
      destruct (ProofQuadTree.tile_eqb_spec t0 t0) as [_|Hn]; [|contradiction]. f_equal. apply G2. apply in_elt.
  - intros d' Hin. rewrite map_app. cbn [map fst]. apply in_app_iff in Hin as [Hin|[<-|[]]]; [now apply G3|]. rewrite E. apply in_elt.
  - intros t Hin. rewrite map_app in Hin. cbn [map fst] in Hin. destruct (G5 t Hin) as (d' & H1 & H2). exists d'. split; [apply in_app_iff; auto|exact H2].
  - rewrite !flat_map_app in *. cbn [flat_map snd] in *. rewrite !app_nil_r in *. rewrite app_assoc. f_equal. exact G4.
Qed.
Lemma add_new db acc d : grouped db acc -> ~ In (dtile d) (map fst acc) -> grouped (db ++ [d]) (acc ++ [(dtile d, snd d)]).
Proof.
  intros [G1 G2 G3 G5 G4] Hn. split.
  - rewrite map_app. cbn [map fst]. eapply Permutation_NoDup; [apply Permutation_cons_append|]. now constructor.
  - intros t rs Hin. rewrite tile_records_app, tile_records_one. apply in_app_iff in Hin as [Hin|[Hin|[]]].
    + destruct (ProofQuadTree.tile_eqb_spec (dtile d) t) as [E|_].
      * exfalso. apply Hn. apply in_map_iff. exists (t, rs). auto.
      * rewrite app_nil_r. now apply G2.
    + apply (f_equal fst) in Hin as E1. apply (f_equal snd) in Hin as E2. cbn [fst snd] in E1, E2. subst t rs.
      destruct (ProofQuadTree.tile_eqb_spec (dtile d) (dtile d)) as [_|H]; [|contradiction]. rewrite tile_records_none; [reflexivity|].
      intros d' Hin' E. apply Hn. rewrite <- E. now apply G3.
  - intros d' Hin. rewrite map_app. cbn [map fst]. apply in_app_iff in Hin as [Hin|[<-|[]]]; [apply in_app_iff; left; now apply G3|apply in_elt].
  - intros t Hin. rewrite map_app in Hin. cbn [map fst] in Hin. apply in_app_iff in Hin as [Hin|[<-|[]]].
    + destruct (G5 t Hin) as (d' & H1 & H2). exists d'. split; [apply in_app_iff; auto|exact H2].
    + exists d. split; [apply in_elt|reflexivity].
  - rewrite !flat_map_app. cbn [flat_map snd]. rewrite !app_nil_r. f_equal. exact G4.
Qed.

Lemma add_records_ne acc t rs : acc <> [] ->
  add_records acc t rs = if tile_eqb (fst (last acc (t, []))) t then removelast acc ++ [(fst (last acc (t, [])), snd (last acc (t, [])) ++ rs)] else acc ++ [(t, rs)].
Proof. intros H. unfold add_records. destruct acc as [|a acc]; [contradiction|]. destruct (last (a :: acc) (t, [])). reflexivity. Qed.
Lemma read_tasks_spec tbl : forall db2 db1 acc, Forall2 stores db2 tbl -> table_sorted tbl -> Forall (fun d : dbent => snd d <> []) db2 ->
  grouped db1 acc ->
  (forall t d, In t (map fst (removelast acc)) -> In d db2 -> dtile d <> t) ->
  (acc <> [] -> exists n k, tile_to_key (fst (last acc (Tile 0 0 0, []))) n = Ok k /\ Forall (fun e => k < fst e) tbl) ->
  exists tasks, read_tasks acc tbl = Ok tasks /\ grouped (db1 ++ db2) tasks.
Proof.
  induction tbl as [|[key v] tbl IH]; intros db2 db1 acc HF HS HN G H1 H2; inversion HF as [|d e db2' ? HF1 HF2]; subst; cbn [read_tasks].
  - exists acc. rewrite app_nil_r. split; [reflexivity|exact G].
  - destruct HF1 as (K1 & K2 & K3). cbn [fst snd] in *. inversion HN as [|? ? N1 N2]. subst. destruct HS as [S1 S2].
    rewrite deserialize_serialize by exact K2. cbn [bind]. replace (negb (is_nil (snd d))) with true by (destruct (snd d); [contradiction|reflexivity]). cbn [verify bind].
    destruct (tile_to_key_ok _ _ _ K1) as [Kt _]. rewrite Kt. fold (dtile d) in *.
    change (d :: db2') with ([d] ++ db2'). rewrite app_assoc.
    assert (Kl : forall d', In d' db2' -> exists n' k', tile_to_key (dtile d') n' = Ok k' /\ key < k').
    { intros d' Hin. destruct (Forall2_in_l _ _ _ _ HF2 Hin) as (e' & He' & Hs). destruct Hs as (Q1 & _). eexists _, _. split; [exact Q1|]. apply (proj1 (Forall_forall _ _) S1 _ He'). }
    destruct acc as [|a0 acc0] eqn:Eacc.
    + cbn [add_records]. apply (IH db2' (db1 ++ [d]) [(dtile d, snd d)] HF2 S2 N2).
      * apply (add_new db1 [] d G). intros [].
      * intros t d' [].
      * intros _. exists (snd (fst d)), key. split; [exact K1|exact S1].
    + rewrite <- Eacc in *. assert (Hne : acc <> []) by congruence. clear a0 acc0 Eacc.
      destruct (H2 Hne) as (n0 & k0 & Q1 & Q2). pose proof (snoc_last acc (Tile 0 0 0, []) Hne) as EA. set (l0 := last acc (Tile 0 0 0, [])) in *. set (pre := removelast acc) in *.
      assert (EL : last acc (dtile d, []) = l0). { rewrite EA. apply last_last. }
      rewrite add_records_ne by exact Hne. rewrite EL. fold pre. clear EL. clearbody l0 pre. destruct l0 as [t0 rs0]. cbn [fst snd] in *.
      destruct (ProofQuadTree.tile_eqb_spec t0 (dtile d)) as [E|E].
      * apply (IH db2' (db1 ++ [d]) (pre ++ [(t0, rs0 ++ snd d)]) HF2 S2 N2).
        -- apply add_same; [exact (eq_ind _ (grouped db1) G _ EA)|now symmetry].
        -- rewrite removelast_last. intros t d' Ht Hd. apply H1; [exact Ht|right; exact Hd].
        -- intros _. rewrite last_last. cbn [fst]. exists (snd (fst d)), key. split; [rewrite E; exact K1|exact S1].
      * apply (IH db2' (db1 ++ [d]) (acc ++ [(dtile d, snd d)]) HF2 S2 N2).
        -- apply add_new; [exact G|]. rewrite EA, map_app. cbn [map fst]. intros Hin. apply in_app_iff in Hin as [Hin|[Hin|[]]].
           ++ exact (H1 _ d Hin (or_introl eq_refl) eq_refl). ++ exact (E Hin).
        -- rewrite removelast_last. intros t d' Hin Hd. rewrite EA, map_app in Hin. cbn [map fst] in Hin. apply in_app_iff in Hin as [Hin|[<-|[]]]; [apply H1; [exact Hin|right; exact Hd]|].
           intros Et. destruct (Kl d' Hd) as (n' & k' & Q3 & Q4). rewrite Et in Q3. inversion Q2 as [|? ? Q5 _]. subst. cbn [fst] in Q5. apply E. symmetry. exact (key_between _ _ _ _ _ _ _ _ Q1 K1 Q3 Q5 Q4).
        -- intros _. rewrite last_last. cbn [fst]. exists (snd (fst d)), key. split; [exact K1|exact S1].
Qed.

Lemma tasks_of_db db tbl : Forall2 stores db tbl -> table_sorted tbl -> Forall (fun d : dbent => snd d <> []) db ->
  exists tasks, read_tasks [] tbl = Ok tasks /\ grouped db tasks.
Proof.
  intros H1 H2 H3. apply (read_tasks_spec tbl db [] [] H1 H2 H3).
  - split; [constructor|intros ? ? []|intros ? []|intros ? []|reflexivity].
  - intros ? ? [].
  - contradiction.
Qed.

(** writing the updates *)
Lemma put_all_spec us : forall T, table_sorted T -> NoDup (map fst us) -> (forall u, In u us -> exists k, tile_to_key (fst u) 0 = Ok k) ->
  exists T', put_all T us = Ok T' /\ table_sorted T' /\
    (forall t r k, In (t, r) us -> tile_to_key t 0 = Ok k -> table_get T' k = Some (pack_records_serialize [r])) /\
    (forall k, (forall t r, In (t, r) us -> tile_to_key t 0 <> Ok k) -> table_get T' k = table_get T k).
Proof.
  induction us as [|[t r] us IH]; intros T HS HN HK; cbn [put_all].
  - exists T. split; [reflexivity|]. split; [exact HS|]. split; [intros ? ? ? []|reflexivity].
  - cbn [map fst] in HN. inversion HN as [|? ? N1 N2]. subst. destruct (HK (t, r) (or_introl eq_refl)) as (k & Hk). cbn [fst] in Hk. rewrite Hk. cbn [bind].
    destruct (IH (table_put T k (pack_records_serialize [r]))) as (T' & Q1 & Q2 & Q3 & Q4); [now apply table_put_sorted|exact N2|intros u Hu; apply HK; now right|].
    exists T'. split; [exact Q1|]. split; [exact Q2|]. split.
    + intros t1 r1 k1 Hin H1. destruct Hin as [E|Hin]; [|now apply (Q3 t1 r1 k1)]. apply (f_equal fst) in E as E1. apply (f_equal snd) in E as E2. cbn [fst snd] in E1, E2. subst t1 r1.
      rewrite Hk in H1. apply Ok_inj in H1. subst k1. rewrite Q4.
      * rewrite table_get_put by exact HS. now rewrite N.eqb_refl.
      * intros t2 r2 Hin H2. destruct (tile_key_injective _ _ _ _ _ Hk H2) as [E' _]. subst t2. apply N1. apply in_map_iff. exists (t, r2). auto.
    + intros k1 H1. rewrite Q4; [|intros t2 r2 Hin; apply (H1 t2 r2); now right]. rewrite table_get_put by exact HS. destruct (N.eqb_spec k k1) as [->|]; [|reflexivity].
      destruct (H1 t r (or_introl eq_refl) Hk).
Qed.

Lemma Forall2_map_fst {A B C} (R : A -> B -> Prop) (f : A -> C) (g : B -> C) l m : (forall a b, R a b -> f a = g b) -> Forall2 R l m -> map f l = map g m.
Proof. intros H. induction 1 as [|a b l m HR F IH]; [reflexivity|]. cbn [map]. f_equal; auto. Qed.

Lemma fop_app_l {A} (R : A -> A -> Prop) a b : ForallOrdPairs R (a ++ b) -> ForallOrdPairs R a.
Proof.
  induction a as [|x a IH]; intros H; [constructor|]. cbn [app] in H. inversion H as [|? ? Q1 Q2]. apply Forall_app in Q1 as [Q1 _]. constructor; [exact Q1 | exact (IH Q2)].
Qed.
Lemma NoDup_app_r {A} (a b : list A) : NoDup (a ++ b) -> NoDup b.
Proof. induction a as [|x a IH]; [auto|]. cbn [app]. intros H. inversion H; subst. auto. Qed.
Lemma NoDup_app_l {A} (a b : list A) : NoDup (a ++ b) -> NoDup a.
Proof. induction a as [|x l IH]; [constructor|]. cbn [app]. intros H. inversion H as [|? ? H1 H2]; subst. constructor; [|auto]. intros H'. apply H1, in_app_iff. auto. Qed.

Section Db.
Variable qsort : (nat -> nat -> bool) -> list nat -> list nat.
Variable rsort : list pack_record -> list pack_record.
Variable tsort : list task -> list task.
Variable pack : tile -> list bytes -> bytes.
Variable limit : N.
Variable batch : nat.
Hypothesis Hq : sorts_positions qsort.
Hypothesis Hr : reorders rsort.
Hypothesis Ht : reorders tsort.
Hypothesis Hp : forall t ps, pack t ps <> [].
Variable pf0 : pfile.
Variable db : list dbent.
Variable tbl : table.
Hypothesis Hs : Forall2 stores db tbl.
Hypothesis HT : table_sorted tbl.
Hypothesis Hne : Forall (fun d : dbent => snd d <> []) db.
Hypothesis I0 : pf_inv pf0.
Hypothesis S0small : pf_size pf0 < 2 ^ 64.
Hypothesis L0 : valid_layout pf0 (flat_map snd db).
Variable tasks : list task.
Hypothesis HR : read_tasks [] tbl = Ok tasks.

Lemma tasks_grouped : grouped db tasks.
Proof. destruct (tasks_of_db db tbl Hs HT Hne) as (ts & H & G). rewrite HR in H. apply Ok_inj in H. now subst ts. Qed.
Lemma tasks_layout : valid_layout pf0 (flat_map snd tasks).
Proof. rewrite (gr_flat _ _ tasks_grouped). exact L0. Qed.
Lemma tasks_filled : filled tasks = tasks.
Proof.
  pose proof tasks_grouped as G. unfold filled. assert (F : forall t, In t tasks -> snd t <> []).
  { intros [t rs] Hin. cbn [snd]. rewrite (gr_recs _ _ G t rs Hin). destruct (gr_from _ _ G t) as (d & H1 & H2); [apply in_map_iff; exists (t, rs); auto|].
    apply (tile_records_some db t d H1 H2). exact (proj1 (Forall_forall _ _) Hne d H1). }
  clear -F. induction tasks as [|t l IH]; [reflexivity|]. cbn [filter]. destruct (snd t) eqn:E; [destruct (F t (or_introl eq_refl) E)|]. apply (f_equal (cons t)). apply IH. intros x Hx. apply F. now right.
Qed.
Lemma tile_key0 d : In d db -> exists k, tile_to_key (dtile d) 0 = Ok k.
Proof.
  intros Hin. destruct (Forall2_in_l _ _ _ _ Hs Hin) as (e & _ & (K & _)). fold (dtile d) in K. rewrite tile_to_key_spec in *.
  destruct (tx (dtile d) <? 2 ^ 21); [|discriminate]. destruct (ty (dtile d) <? 2 ^ 21); [|discriminate]. destruct (tz (dtile d) <? 2 ^ 5); [|discriminate]. cbn [andb] in *.
  replace (0 <? 2 ^ 17) with true by reflexivity. eexists. reflexivity.
Qed.

Lemma repacked_good pf task u : In task tasks -> repacked pack pf0 pf task u -> good_entry pack pf0 db pf (fst u) (pack_records_serialize [snd u]) /\ In (fst u) (map fst tasks).
Proof.
  intros Hin (E & ps & H1 & H2). destruct task as [t rs]. cbn [fst] in *. rewrite E. split; [|apply in_map_iff; exists (t, rs); auto].
  exists (snd u), ps. split; [reflexivity|]. split; [|exact H2]. unfold packs_of in H1. cbn [snd] in H1. rewrite <- (gr_recs _ _ tasks_grouped t rs Hin). exact H1.
Qed.

(** the updates of all callbacks up to some state: a part of the tiles, each once *)
Lemma out_nodup s : rp_reach qsort rsort tsort pack limit batch pf0 tasks s -> NoDup (map fst (assigned s)).
Proof.
  intros HRe. pose proof (reach_inv qsort rsort tsort pack limit batch Hq Hr Ht Hp pf0 tasks I0 S0small tasks_layout s HRe) as ((dn & A1 & A2) & _).
  assert (N1 : NoDup (map fst (map (content pf0) (g_tasks (mgr_init rsort tsort pf0 tasks))))).
  { eapply Permutation_NoDup; [apply Permutation_map, Permutation_sym, (items_perm rsort tsort Ht)|]. unfold origin_tasks. rewrite tasks_filled, !map_map. cbn [content fst]. exact (gr_nodup _ _ tasks_grouped). }
  assert (N2 : NoDup (map fst dn)).
  { apply (Permutation_map fst) in A1. eapply Permutation_NoDup in N1; [|exact A1]. rewrite !map_app in N1. rewrite app_assoc in N1.
    exact (NoDup_app_r _ _ N1). }
  apply (Permutation_map fst) in A2. rewrite map_map in A2. cbn [fst] in A2. rewrite map_map in A2. cbn [read_as fst] in A2.
  eapply Permutation_NoDup in N2; [|exact A2]. rewrite map_app in N2. exact (NoDup_app_r _ _ N2).
Qed.

Lemma table_now s : rp_reach qsort rsort tsort pack limit batch pf0 tasks s ->
  exists T, packed_table (r_out s) = Ok T /\ table_sorted T /\
    (forall t r, In (t, r) (concat (r_out s)) -> exists k, tile_to_key t 0 = Ok k /\ table_get T k = Some (pack_records_serialize [r])) /\
    (forall k v, table_get T k = Some v -> exists t r, In (t, r) (concat (r_out s)) /\ tile_to_key t 0 = Ok k /\ v = pack_records_serialize [r]) /\
    (forall t r, In (t, r) (concat (r_out s)) -> good_entry pack pf0 db (g_pf (r_mgr s)) t (pack_records_serialize [r]) /\ In t (map fst tasks)).
Proof.
  intros HRe. pose proof (out_nodup s HRe) as ND. unfold assigned in ND. rewrite map_app in ND.
  assert (ND1 : NoDup (map fst (concat (r_out s)))). { exact (NoDup_app_l _ _ ND). }
  pose proof (reach_inv qsort rsort tsort pack limit batch Hq Hr Ht Hp pf0 tasks I0 S0small tasks_layout s HRe) as HI.
  assert (GE : forall t r, In (t, r) (concat (r_out s)) -> good_entry pack pf0 db (g_pf (r_mgr s)) t (pack_records_serialize [r]) /\ In t (map fst tasks)).
  { intros t r Hin. destruct (assigned_ok rsort tsort pack Hr Ht pf0 tasks S0small s (t, r) HI) as (task & H1 & H2); [unfold assigned; apply in_app_iff; auto|]. rewrite tasks_filled in H1.
    exact (repacked_good _ task (t, r) H1 H2). }
  assert (KE : forall u, In u (concat (r_out s)) -> exists k, tile_to_key (fst u) 0 = Ok k).
  { intros [t r] Hin. destruct (GE t r Hin) as [_ Hm]. destruct (gr_from _ _ tasks_grouped t Hm) as (d & H1 & H2). cbn [fst]. rewrite <- H2. now apply tile_key0. }
  destruct (put_all_spec (concat (r_out s)) [] I ND1 KE) as (T & Q1 & Q2 & Q3 & Q4). exists T. split; [exact Q1|]. split; [exact Q2|]. split; [|split; [|exact GE]].
  - intros t r Hin. destruct (KE (t, r) Hin) as (k & Hk). exists k. split; [exact Hk|]. exact (Q3 t r k Hin Hk).
  - intros k v Hv.
    destruct (Exists_dec (fun u : single => tile_to_key (fst u) 0 = Ok k) (concat (r_out s))) as [HE|HE].
    { intros u. destruct (tile_to_key (fst u) 0) as [k'| | |]; [destruct (N.eq_dec k' k) as [->|Hn]; [left; reflexivity|right; congruence]|right; discriminate..]. }
    + apply Exists_exists in HE as ([t r] & Hin & Hk). cbn [fst] in Hk. exists t, r. split; [exact Hin|]. split; [exact Hk|]. rewrite (Q3 t r k Hin Hk) in Hv. congruence.
    + rewrite Q4 in Hv; [discriminate|]. intros t r Hin Hk. apply HE, Exists_exists. exists (t, r). auto.
Qed.

Lemma table_done s : rp_reach qsort rsort tsort pack limit batch pf0 tasks s -> r_pc s = RpDone ->
  exists T, packed_table (r_out s) = Ok T /\ table_sorted T /\
    (forall t k, tile_to_key t 0 = Ok k ->
       (tile_records db t = [] /\ table_get T k = None) \/
       (tile_records db t <> [] /\ exists v, table_get T k = Some v /\ good_entry pack pf0 db (g_pf (r_mgr s)) t v)) /\
    (forall k v, In (k, v) T -> exists t, tile_to_key t 0 = Ok k).
Proof.
  intros HRe Hd. destruct (table_now s HRe) as (T & Q1 & Q2 & Q3 & Q4 & Q5). exists T. split; [exact Q1|]. split; [exact Q2|]. split.
  - intros t k Hk. destruct (in_dec N.eq_dec k (map (fun d => match tile_to_key (dtile d) 0 with Ok k' => k' | _ => k + 1 end) db)) as [Hin|Hnin].
    + right. apply in_map_iff in Hin as (d & E & Hin). destruct (tile_key0 d Hin) as (k' & Hk'). rewrite Hk' in E. subst k'.
      destruct (tile_key_injective _ _ _ _ _ Hk Hk') as [Et _]. split; [apply (tile_records_some db t d Hin (eq_sym Et)); exact (proj1 (Forall_forall _ _) Hne d Hin)|].
      pose proof (reach_inv qsort rsort tsort pack limit batch Hq Hr Ht Hp pf0 tasks I0 S0small tasks_layout s HRe) as HI.
      destruct (complete rsort tsort pack Hr Ht pf0 tasks S0small s HI Hd) as (ts & P & F). rewrite (done_flushed qsort rsort tsort pack limit batch pf0 tasks s HRe (or_introl Hd)), app_nil_r in F. rewrite tasks_filled in P.
      assert (Hm : In t (map fst ts)). { apply (Permutation_in _ (Permutation_map fst (Permutation_sym P))). rewrite Et. exact (gr_all _ _ tasks_grouped d Hin). }
      assert (EM : map fst ts = map fst (concat (r_out s))) by (apply (Forall2_map_fst (repacked pack pf0 (g_pf (r_mgr s)))); [intros a b (H & _); now symmetry|exact F]).
      assert (Hm' : In t (map fst (concat (r_out s)))) by (rewrite <- EM; exact Hm). clear Hm. rename Hm' into Hm.
      apply in_map_iff in Hm as ([t1 r] & E1 & Hu). cbn [fst] in E1. subst t1. destruct (Q3 t r Hu) as (k1 & K1 & K2). rewrite Hk in K1. apply Ok_inj in K1. subst k1.
      eexists. split; [exact K2|]. apply (Q5 t r Hu).
    + left. assert (HN : forall d, In d db -> dtile d <> t).
      { intros d Hin E. apply Hnin. apply in_map_iff. exists d. rewrite E, Hk. auto. }
      split; [now apply tile_records_none|]. destruct (table_get T k) as [v|] eqn:Ev; [|reflexivity]. exfalso. destruct (Q4 k v Ev) as (t1 & r & Hin & K1 & _).
      destruct (tile_key_injective _ _ _ _ _ Hk K1) as [Et _]. subst t1. destruct (Q5 t r Hin) as [_ Hm]. destruct (gr_from _ _ tasks_grouped t Hm) as (d & H1 & H2). exact (HN d H1 H2).
  - intros k v Hin. apply (table_get_in _ _ _ Q2) in Hin. destruct (Q4 k v Hin) as (t & r & _ & Hk & _). exists t. exact Hk.
Qed.

(** the file afterwards *)
Lemma done_layout s : rp_reach qsort rsort tsort pack limit batch pf0 tasks s -> r_pc s = RpDone ->
  pf_inv (g_pf (r_mgr s)) /\ valid_layout (g_pf (r_mgr s)) (map snd (concat (r_out s))) /\ NoDup (map fst (concat (r_out s))).
Proof.
  intros HRe Hd. pose proof (reach_inv qsort rsort tsort pack limit batch Hq Hr Ht Hp pf0 tasks I0 S0small tasks_layout s HRe) as HI.
  pose proof (done_flushed qsort rsort tsort pack limit batch pf0 tasks s HRe (or_introl Hd)) as E.
  pose proof (out_nodup s HRe) as ND. unfold assigned in ND. rewrite E, app_nil_r in ND.
  pose proof (proj2 (compacted rsort tsort pack pf0 tasks S0small s HI Hd)) as HA. unfold assigned in HA. rewrite E, app_nil_r in HA.
  destruct HI as (_ & (Z1 & _ & _ & Z4) & P). unfold phase in P. rewrite Hd in P. destruct P as [(_ & _ & P) _].
  apply Forall_app in Z4 as [_ Z4]. unfold assigned in Z4, P. rewrite E, app_nil_r in Z4, P.
  split; [exact Z1|]. split; [|exact ND]. split; [|exact HA]. apply Forall_forall. intros r Hin. pose proof (chain_in _ _ _ _ P Hin) as [_ C]. unfold end_of in C.
  apply in_map_iff in Hin as (u & <- & Hu). split; [exact (proj1 (Forall_forall _ _) Z4 u Hu)|exact C].
Qed.
Lemma now_layout s : rp_reach qsort rsort tsort pack limit batch pf0 tasks s ->
  Forall (fun r => 0 < r_size r) (map snd (concat (r_out s))) /\ ForallOrdPairs apart (map snd (concat (r_out s))) /\ NoDup (map fst (concat (r_out s))).
Proof.
  intros HRe. pose proof (reach_inv qsort rsort tsort pack limit batch Hq Hr Ht Hp pf0 tasks I0 S0small tasks_layout s HRe) as HI.
  pose proof (out_nodup s HRe) as ND. unfold assigned in ND. rewrite map_app in ND. destruct HI as (_ & (_ & _ & _ & Z4) & P).
  apply Forall_app in Z4 as [_ Z4]. unfold assigned in Z4. apply Forall_app in Z4 as [Z4 _]. split; [now apply Forall_map|]. split; [|exact (NoDup_app_l _ _ ND)].
  assert (HA : ForallOrdPairs apart (map snd (assigned s))).
  { assert (HX : phase_a pf0 s \/ phase_b s \/ phase_c s) by (unfold phase in P; destruct (r_pc s); tauto). destruct HX as [(_ & _ & _ & E1 & E2 & _)|[(e & lo & _ & C & _)|(_ & _ & C)]].
    - unfold assigned. rewrite E1, E2. constructor.
    - exact (chain_apart pf0 S0small _ _ _ C).
    - exact (chain_apart pf0 S0small _ _ _ C). }
  unfold assigned in HA. rewrite map_app in HA. exact (fop_app_l _ _ _ HA).
Qed.
Lemma out_good s t r : rp_reach qsort rsort tsort pack limit batch pf0 tasks s -> In (t, r) (concat (r_out s)) ->
  exists ps, Permutation ps (map (bytes_of pf0) (tile_records db t)) /\ pf_get (g_pf (r_mgr s)) r = Ok (pack t ps).
Proof.
  intros HRe Hin. pose proof (reach_inv qsort rsort tsort pack limit batch Hq Hr Ht Hp pf0 tasks I0 S0small tasks_layout s HRe) as HI.
  destruct (assigned_ok rsort tsort pack Hr Ht pf0 tasks S0small s (t, r) HI) as (task & H1 & H2); [unfold assigned; apply in_app_iff; auto|]. rewrite tasks_filled in H1.
  destruct H2 as (E & ps & H2 & H3). destruct task as [t1 rs]. cbn [fst snd] in *. subst t1. exists ps. split; [|exact H3].
  unfold packs_of in H2. cbn [snd] in H2. rewrite <- (gr_recs _ _ tasks_grouped t rs H1). exact H2.
Qed.
End Db.
