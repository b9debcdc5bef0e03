(** A server that goes on while an import works. *)
From Coq Require Import Permutation String Ascii Sorting.Sorted.
From Coq Require Import List.
From Verif Require Import Base BaseProof ModelTile SpecTile ProofTile ModelPackFile SpecPackFile ProofPackFile ModelTable ProofTable ModelCodec ModelGeom SpecGeom ModelFeature SpecFeature ProofFeature
  ModelPack ModelPacker SpecPacker ProofPackerProps ModelBqTree SpecBqTree ProofBqQuery ModelMvt SpecMvt ModelRender SpecRender ProofRender ModelPrepare SpecPrepare ProofPrepare ProofServe
  ModelInserter SpecInserter ProofInserter ProofInserterTop ModelDict SpecDict ProofDict
  ModelOsm SpecOsm ModelDrain ModelCoast SpecCoast ProofCoastEx SpecLayout ProofLayout ModelRepack SpecRepack ProofRepack ProofRepackRun ProofPackDb ModelServer ModelImport SpecImport
  ProofImportObjects ProofImportLoad ProofImportRun ProofImportPack ProofImportServe ProofImportFinish2 ModelCrash SpecCrash ProofCrash ModelLive.
Import ListNotations.
Open Scope N_scope.

(** ** Reading packs *)
Lemma map_res_same {A B} (f g : A -> res B) l : (forall a, In a l -> f a = g a) -> map_res f l = map_res g l.
Proof.
  induction l as [|a l IH]; intros H; cbn [map_res]; [reflexivity|]. rewrite (H a) by now left. rewrite IH; [reflexivity|]. intros b Hb. apply H. now right.
Qed.
Lemma map_res_or {A B} (f g : A -> res B) l : (forall a, In a l -> f a = Throw \/ (f a = g a /\ exists b, g a = Ok b)) -> map_res f l = Throw \/ map_res f l = map_res g l.
Proof.
  induction l as [|a l IH]; intros H; cbn [map_res]; [now right|]. destruct (H a (or_introl eq_refl)) as [E|[E (b & Eb)]]; rewrite E; [left; reflexivity|]. rewrite Eb. cbn [bind].
  destruct IH as [E'|E']; [intros; apply H; now right | rewrite E'; left; reflexivity | rewrite E'; right; reflexivity].
Qed.
(** the records that are read for a tile *)
Lemma rows_records L raw d D fs T pf rows t : binv L raw d D fs T pf rows -> tz t <= 20 -> valid_tile t ->
  exists rs, pack_records_foreach T t = Ok rs /\ forall tr, In tr rs -> In (snd tr) (flat_map (fun r => map fst (row_packs r)) rows) /\ exists b, pf_get pf (snd tr) = Ok b.
Proof.
  intros HB Hz Hv. pose proof HB as [[B1 [B2 B3]] _ _ _ _ _ _]. eexists. split; [exact (foreach_exact_db _ _ t B1 B2 Hz Hv)|].
  intros [i r] Hin. apply in_flat_map in Hin as (q & Hq & Hr). apply filter_In in Hq as [Hq _]. apply in_map_iff in Hr as (r' & E & Hr). injection E as _ <-.
  apply in_map_iff in Hq as (w & <- & Hw). unfold row_index in Hr. cbn [snd] in *. split; [apply in_flat_map; eauto|].
  apply in_map_iff in Hr as (rf & <- & Hrf). destruct (proj1 (Forall_forall _ _) B3 _ Hw) as (_ & _ & Z3). destruct (proj1 (Forall_forall _ _) Z3 _ Hrf) as [_ P2]. destruct raw.
  - destruct P2 as (strs & B & _ & _ & Q3). eauto.
  - destruct P2 as (packs & fss & B & _ & _ & _ & _ & Q5). eauto.
Qed.
Lemma get_shorter m n n' r b : pf_get (PFile m n) r = Ok b -> r_off r + r_size r <= n -> n < 2 ^ 64 ->
  pf_get (PFile m n') r = Throw \/ pf_get (PFile m n') r = Ok b.
Proof.
  unfold pf_get. cbn [pf_mem pf_size]. intros H Hr Hn. apply bind_ok in H as ([] & _ & H).
  destruct ((r_off r <? n') && ((r_off r + r_size r) mod 2 ^ 64 <=? n')); cbn [verify bind]; [right; exact H | left; reflexivity].
Qed.

(** ** A run that writes no packs *)
Lemma max_same L m : meta_get m kMaxPrepared = Some (lit "10") -> make_render_ctx L (meta_put m kMaxPrepared (lit "10")) = make_render_ctx L m.
Proof. intros H. unfold make_render_ctx. rewrite meta_get_put, H. rewrite ?meta_get_put_other by (apply key_neq; reflexivity). reflexivity. Qed.

Lemma open_close b : pf_close (pf_open b) = b \/ pf_size (pf_open b) = 0.
Proof.
  unfold pf_close. destruct (N.eqb_spec (pf_size (pf_open b)) 0) as [E|E]; [right; exact E|]. cbn [orb]. destruct (N.eqb_spec (nth (N.to_nat (pf_size (pf_open b) - 1)) (pf_mem (pf_open b)) 0) 0) as [E'|E']; [|left; reflexivity].
  exfalso. cbn [pf_open pf_size pf_mem] in *.
  assert (HN : forall l, trimmed_len l <> O -> nth (trimmed_len l - 1) l 0 <> 0).
  { clear. induction l as [|x l IH]; cbn [trimmed_len]; [congruence|]. destruct (trimmed_len l) as [|n] eqn:E.
    - destruct (N.eqb_spec x 0); [congruence|]. intros _. exact n.
    - intros _. replace (S (S n) - 1)%nat with (S (S n - 1)) by lia. cbn [nth]. apply IH. discriminate. }
  apply (HN b); [lia|]. replace (trimmed_len b - 1)%nat with (N.to_nat (N.of_nat (trimmed_len b) - 1)) by lia. exact E'.
Qed.
Lemma left_open killed b m : left_file killed (pf_open b) m -> m = b \/ pf_size (pf_open b) = 0.
Proof. unfold left_file. intros ->. destruct killed; [left; reflexivity | exact (open_close b)]. Qed.

Lemma quiet_during L tasks j st0 st : loads tasks = false -> has_any_task tasks [lit "pack"] = false -> during L tasks j st0 st ->
  st_features st = st_features st0 /\ (st_pack st = st_pack st0 \/ pf_size (pf_open (st_pack st0)) = 0) /\
  (st_meta st = st_meta st0 \/ st_meta st = meta_put (st_meta st0) kMaxPrepared (lit "10")).
Proof.
  intros Hl Hp [(killed & pk & pr & wh & HS)|HR].
  - destruct HS as [s1 m R1 HF | s1 d' rtasks s T m R1 Hpk Ed ER HR HN ET HM | s1 s2 p x s m R1 R2 Hti Em Ex HR HF | s1 s2 s3 m R1 R2 R3 HF]; rewrite Hl in R1; apply (load_nothing _ _ _ _ _ Hl) in R1; subst s1.
    + apply left_open in HF. split; [reflexivity|]. split; [exact HF | left; reflexivity].
    + rewrite Hp in Hpk. discriminate.
    + rewrite Hp in R2. subst s2. apply left_open in HF. split; [reflexivity|]. split; [exact HF | left; reflexivity].
    + rewrite Hp in R2. subst s2. cbn [st_pack st_features st_meta]. destruct (has_any_task tasks [lit "tiles"]).
      * destruct R3 as (m2 & x & s & _ & _ & _ & _ & ->). apply left_open in HF. split; [reflexivity|]. split; [exact HF | right; reflexivity].
      * subst s3. apply left_open in HF. split; [reflexivity|]. split; [exact HF | left; reflexivity].
  - destruct HR as (s1 & s2 & s3 & R1 & _ & R2 & R3 & -> & _). rewrite Hl in R1. apply (load_nothing _ _ _ _ _ Hl) in R1. subst s1. rewrite Hp in R2. subst s2.
    assert (HK : ss_features s3 = st_features st0 /\ ss_file s3 = pf_open (st_pack st0) /\ (ss_meta s3 = st_meta st0 \/ ss_meta s3 = meta_put (st_meta st0) kMaxPrepared (lit "10"))).
    { destruct (has_any_task tasks [lit "tiles"]); [|subst s3; split; [reflexivity|]; split; [reflexivity | left; reflexivity]].
      destruct R3 as (m & x & s & _ & _ & _ & _ & ->). split; [reflexivity|]. split; [reflexivity | right; reflexivity]. }
    destruct HK as (K1 & K2 & K3). cbn [close_session st_features st_pack st_meta]. rewrite K1, K2. split; [reflexivity|]. split; [|exact K3].
    exact (open_close _).
Qed.

Lemma sinv_binv L j co fe raw prep whole ss : sinv L j co fe raw prep whole ss -> exists d D fs rows, binv L raw d D fs (ss_features ss) (ss_file ss) rows.
Proof. intros (D & ks & fs & names & d & sea & v & rows & _ & _ & _ & HB & _). eauto. Qed.
Lemma sinv_ctx L j co fe raw prep whole ss : sinv L j co fe raw prep whole ss -> exists v names d, make_render_ctx L (ss_meta ss) = Ok (server_ctx L v names d prep) /\
  meta_get (ss_meta ss) kMaxPrepared = if prep then Some (lit "10") else None.
Proof. intros (D & ks & fs & names & d & sea & v & rows & _ & HM & Hv & _). exists v, names, d. split; [eapply ctx_of; eauto | exact (m_max _ _ _ _ _ HM)]. Qed.

(** two databases that give the same packs *)
Lemma tile_same tiles tiles' F p p' x t : foreach_pack F p t = foreach_pack F p' t -> (tiles = tiles' \/ x_max_prepared x = (-1)%Z) ->
  get_tile tiles F p x t = get_tile tiles' F p' x t.
Proof.
  intros E H. unfold get_tile. rewrite E. destruct H as [->|H]; [reflexivity|]. rewrite H. replace (Z.of_N (tz t) <=? -1)%Z with false by lia. now rewrite andb_false_r.
Qed.
Lemma foreach_same L raw d D fs T pf rows p p' t : binv L raw d D fs T pf rows -> tz t <= 20 -> valid_tile t ->
  (forall r, r_off r + r_size r <= pf_size pf -> 0 < r_size r -> pf_get p r = pf_get p' r) -> foreach_pack T p t = foreach_pack T p' t.
Proof.
  intros HB Hz Hv H. destruct (rows_records _ _ _ _ _ _ _ _ t HB Hz Hv) as (rs & E & Hr). unfold foreach_pack. rewrite E. cbn [bind]. apply map_res_same. intros tr Htr.
  destruct (Hr tr Htr) as [Hin _]. destruct (b_lay _ _ _ _ _ _ _ _ HB) as [LV _]. destruct (proj1 (Forall_forall _ _) LV _ Hin) as [L1 L2]. now rewrite (H (snd tr)).
Qed.

Lemma live_quiet L j co fe raw prep whole st0 tasks j' st : libs_ok L -> job_ok L j -> interrupted L j co fe raw prep whole st0 ->
  loads tasks = false -> has_any_task tasks [lit "pack"] = false -> during L tasks j' st0 st -> 
  forall t, tz t <= 20 -> valid_tile t -> live_serve L st0 st t = serve_tile L (if prep then st else st0) t.
Proof.
  intros HL HJ HI Hl Hp HD t Hz Hv. destruct (quiet_during _ _ _ _ _ Hl Hp HD) as (Q1 & Q2 & Q3).
  pose proof (interrupted_sinv _ _ _ _ _ _ _ _ HL HJ HI) as HS. destruct (sinv_binv _ _ _ _ _ _ _ _ HS) as (d & D & fs & rows & HB). cbn [open_store ss_features ss_file] in HB.
  destruct (sinv_ctx _ _ _ _ _ _ _ _ HS) as (v & names & d' & Ex & Em). cbn [open_store ss_meta] in Ex, Em.
  assert (HG : forall r, r_off r + r_size r <= pf_size (pf_open (st_pack st0)) -> 0 < r_size r ->
    pf_get (live_file st0 st) r = pf_get (pf_open (st_pack st0)) r /\ pf_get (live_file st0 st) r = pf_get (pf_open (st_pack st)) r).
  { intros r H1 H2. destruct Q2 as [Q2|Q2]; [|rewrite Q2 in H1; lia]. unfold live_file. rewrite Q2. split; reflexivity. }
  unfold live_serve. destruct prep.
  - unfold serve_tile. assert (E : make_render_ctx L (st_meta st) = make_render_ctx L (st_meta st0)) by (destruct Q3 as [->| ->]; [reflexivity | now apply max_same]). rewrite E, Ex. cbn [bind].
    apply tile_same; [|left; reflexivity]. rewrite Q1. eapply foreach_same; eauto. intros r H1 H2. apply HG; assumption.
  - unfold serve_tile. rewrite Ex. cbn [bind]. rewrite Q1. apply tile_same; [|right; reflexivity]. eapply foreach_same; eauto. intros r H1 H2. apply HG; assumption.
Qed.

(** ** A run that packs *)
Lemma live_either L j co fe raw prep whole st0 st : sinv L j co fe raw prep whole (open_store st) -> st_meta st = st_meta st0 ->
  forall t, tz t <= 20 -> valid_tile t -> live_serve L st0 st t = Throw \/ live_serve L st0 st t = serve_tile L st t.
Proof.
  intros HS Em t Hz Hv. destruct (sinv_binv _ _ _ _ _ _ _ _ HS) as (d & D & fs & rows & HB). cbn [open_store ss_features ss_file] in HB.
  unfold live_serve, serve_tile. rewrite Em. destruct (make_render_ctx L (st_meta st0)) as [x| | |]; cbn [bind]; try (right; reflexivity).
  assert (HF : foreach_pack (st_features st) (live_file st0 st) t = Throw \/ foreach_pack (st_features st) (live_file st0 st) t = foreach_pack (st_features st) (pf_open (st_pack st)) t).
  { destruct (rows_records _ _ _ _ _ _ _ _ t HB Hz Hv) as (rs & E & Hr). unfold foreach_pack. rewrite E. cbn [bind]. apply map_res_or. intros tr Htr. destruct (Hr tr Htr) as [Hin (b & Hb)].
    destruct (b_lay _ _ _ _ _ _ _ _ HB) as [LV _]. destruct (proj1 (Forall_forall _ _) LV _ Hin) as [L1 L2].
    destruct (get_shorter (st_pack st) (pf_size (pf_open (st_pack st))) (pf_size (pf_open (st_pack st0))) (snd tr) b Hb L2 (b_size _ _ _ _ _ _ _ _ HB)) as [G|G];
      unfold live_file; rewrite G; cbn [bind]; [left; reflexivity|right]. rewrite Hb. cbn [bind]. split; [reflexivity|]. eauto. }
  destruct HF as [HF|HF]; [|right; now apply tile_same; [|left]].
  unfold get_tile. rewrite HF. cbn [bind]. destruct (verify _); cbn [bind]; try (right; reflexivity).
  destruct (negb _ && _); [right; reflexivity | left; reflexivity].
Qed.

Lemma pack_meta L a b : pack_phase L a b -> ss_meta b = ss_meta a.
Proof. intros (d & ts & s & T & _ & _ & _ & _ & _ & _ & ->). reflexivity. Qed.
(** the same files with the metadata of before are those of a run that was stopped a moment earlier *)
Lemma moment_before L tasks j st0 killed pk pr wh st : loads tasks = false -> stopped_run L tasks j st0 killed pk pr wh st -> kept killed st ->
  exists st1, stopped_run L tasks j st0 killed pk false wh st1 /\ kept killed st1 /\ st_meta st1 = st_meta st0 /\
    st_features st1 = st_features st /\ st_tiles st1 = st_tiles st /\ st_pack st1 = st_pack st.
Proof.
  intros Hl HS HK. pose proof HS as HS0. destruct HS as [s1 m R1 HF | s1 d' rtasks s T m R1 Hpk Ed ER HR HN ET HM | s1 s2 p x s m R1 R2 Hti Em Ex HR HF | s1 s2 s3 m R1 R2 R3 HF].
  - eexists. split; [exact HS0|]. split; [exact HK|]. rewrite Hl in R1. apply (load_nothing _ _ _ _ _ Hl) in R1. subst s1. repeat split.
  - eexists. split; [exact HS0|]. split; [exact HK|]. rewrite Hl in R1. apply (load_nothing _ _ _ _ _ Hl) in R1. subst s1. repeat split.
  - eexists. split; [exact HS0|]. split; [exact HK|]. rewrite Hl in R1. apply (load_nothing _ _ _ _ _ Hl) in R1. subst s1.
    assert (E : ss_meta s2 = st_meta st0) by (destruct (has_any_task tasks [lit "pack"]); [now apply pack_meta in R2 | now subst s2]). repeat split. exact E.
  - assert (E : ss_meta s2 = st_meta st0).
    { rewrite Hl in R1. apply (load_nothing _ _ _ _ _ Hl) in R1. subst s1. destruct (has_any_task tasks [lit "pack"]); [now apply pack_meta in R2 | now subst s2]. }
    destruct (has_any_task tasks [lit "tiles"]) eqn:Et.
    + destruct R3 as (p & x & s & T1 & T2 & T3 & T4 & ->). cbn [ss_meta ss_features ss_tiles ss_file] in *.
      exists (Store (ss_meta s2) (ss_features s2) (p_tiles s) m). split; [exact (sr_preparing L tasks j st0 killed s1 s2 p x s m R1 R2 Et T1 T2 T3 HF)|].
      split; [destruct HK as (K1 & K2 & K3); split; [exact K1|]; split; [exact K2 | exact K3]|]. repeat split. exact E.
    + subst s3. eexists. split; [exact HS0|]. split; [exact HK|]. repeat split. exact E.
Qed.

Lemma live_any L j co fe raw prep whole st0 tasks j' killed pk pr wh st : libs_ok L -> job_ok L j -> interrupted L j co fe raw prep whole st0 ->
  loads tasks = false -> stopped_run L tasks j' st0 killed pk pr wh st -> kept killed st ->
  (has_any_task tasks [lit "pack"] = true -> prep = false /\ st_tiles st0 = []) ->
  exists st1, interrupted L j co fe (raw && negb pk) prep (whole && wh) st1 /\
    st_meta st1 = st_meta st0 /\ st_features st1 = st_features st /\ st_tiles st1 = st_tiles st /\ st_pack st1 = st_pack st /\
    forall t, tz t <= 20 -> valid_tile t -> live_serve L st0 st t = Throw \/ live_serve L st0 st t = serve_tile L st1 t.
Proof.
  intros HL HJ HI Hl HS HK Hp. destruct (moment_before _ _ _ _ _ _ _ _ _ Hl HS HK) as (st1 & S1 & S2 & S3 & S4 & S5 & S6).
  assert (HI1 : interrupted L j co fe (raw && negb pk) prep (whole && wh) st1).
  { pose proof (i_stop_more L j tasks j' co fe raw prep whole st0 st1 killed pk false wh HI Hl S1 S2 Hp) as H. now rewrite orb_false_r in H. }
  exists st1. split; [exact HI1|]. split; [assumption|]. split; [assumption|]. split; [assumption|]. split; [assumption|].
  intros t Hz Hv. pose proof (live_either _ _ _ _ _ _ _ st0 st1 (interrupted_sinv _ _ _ _ _ _ _ _ HL HJ HI1) S3 t Hz Hv) as H.
  assert (E : live_serve L st0 st t = live_serve L st0 st1 t) by (unfold live_serve, live_file; now rewrite S4, S5, S6). now rewrite E.
Qed.

(** ** What goes wrong *)
(** without features and sea there is nothing on a tile *)
Lemma empty_tile x t : x_seaside x = [kEmptyRoot] -> x_ignore_seaside x = false -> (exists s, make_tile_spec t = Ok s) -> render_tile x t [] = Ok None.
Proof.
  intros E1 E2 (s & Es). unfold render_tile, make_builder, seaside_features, render_features. rewrite Es, E1, E2. cbn [bind].
  assert (E : bq_all_leafs [kEmptyRoot] t = Ok []) by reflexivity. rewrite E. cbn [bind map_res concat app]. reflexivity.
Qed.
Lemma plain_ctx L m x : make_render_ctx L m = Ok x -> meta_get m kMaxPrepared = None -> meta_get m kSeasideTree = None ->
  x_seaside x = [kEmptyRoot] /\ x_ignore_seaside x = false /\ x_max_prepared x = (-1)%Z.
Proof.
  intros H E1 E2. unfold make_render_ctx in H. rewrite E1, E2 in H. cbn [bind] in H. apply bind_ok in H as (n & _ & H). apply bind_ok in H as (d & _ & H). apply Ok_inj in H. subst x. repeat split.
Qed.
Lemma no_pack_tile tiles F p x t : tz t <= 20 -> (exists s, make_tile_spec t = Ok s) -> x_seaside x = [kEmptyRoot] -> x_ignore_seaside x = false -> x_max_prepared x = (-1)%Z ->
  pack_records_foreach F t = Ok [] -> get_tile tiles F p x t = Ok None.
Proof.
  intros Hz Hs E1 E2 E3 E. unfold get_tile, foreach_pack, kMaxZoomLevel. replace (tz t <=? 20) with true by lia. cbn [verify bind]. rewrite E3. replace (Z.of_N (tz t) <=? -1)%Z with false by lia.
  rewrite andb_false_r, E. cbn [bind map_res]. now apply empty_tile.
Qed.

Lemma pack_begins L j co fe raw whole st0 : libs_ok L -> job_ok L j -> interrupted L j co fe raw false whole st0 -> st_tiles st0 = [] -> blen (st_pack st0) < 2 ^ 64 ->
  stopped_run L [lit "pack"] (Job [] []) st0 true true false false (Store (st_meta st0) [] [] (st_pack st0)).
Proof.
  intros HL HJ HI Ht Hb. pose proof (interrupted_sinv _ _ _ _ _ _ _ _ HL HJ HI) as (D & ks & fs & names & d & sea & v & rows & _ & HM & _ & HB & _).
  destruct (rows_stores _ _ _ _ _ _ _ _ HB) as [B1 B2]. destruct (tasks_of_db _ _ B1 B2 (rows_filled _ _ _ _ _ _ _ _ HB)) as (tasks & ER & _).
  replace (Store (st_meta st0) [] [] (st_pack st0)) with (Store (ss_meta (open_store st0)) [] (ss_tiles (open_store st0)) (st_pack st0)) by (cbn [open_store ss_meta ss_tiles]; now rewrite Ht).
  apply (sr_packing L [lit "pack"] (Job [] []) st0 true (open_store st0) d tasks (rst_start (l_recsort L) (l_tasksort L) (ss_file (open_store st0)) tasks) [] (st_pack st0)).
  - apply ProofImportFinish2.load_none; [assumption | reflexivity | exact Hb].
  - reflexivity.
  - exact (m_dict _ _ _ _ _ HM).
  - exact ER.
  - apply rp_init.
  - intros u [].
  - reflexivity.
  - apply mf_between. reflexivity.
Qed.

(** packing begins: everything but the sea is gone *)
Lemma pack_hides L j raw whole st0 : libs_ok L -> job_ok L j -> interrupted L j false true raw false whole st0 -> st_tiles st0 = [] -> blen (st_pack st0) + 1 < 2 ^ 64 ->
  meta_get (st_meta st0) kSeasideTree = None ->
  exists st, stopped_run L [lit "pack"] (Job [] []) st0 true true false false st /\ kept true st /\
    forall t, tz t <= 20 -> valid_tile t -> live_serve L st0 st t = Ok None.
Proof.
  intros HL HJ HI Ht Hb Hs. exists (Store (st_meta st0) [] [] (st_pack st0)). split; [apply (pack_begins L j false true raw whole); try assumption; lia|]. split; [split; [intros k v rs [] |]; split; [exact Hb|]; intros _ k v rs r []|].
  intros t Hz Hv. unfold live_serve. destruct (sinv_ctx _ _ _ _ _ _ _ _ (interrupted_sinv _ _ _ _ _ _ _ _ HL HJ HI)) as (v & names & d & Ex & Em). cbn [open_store ss_meta] in Ex, Em.
  rewrite Ex. cbn [bind st_tiles st_features]. destruct (plain_ctx _ _ _ Ex Em Hs) as (P1 & P2 & P3).
  destruct (square_ctx t Hz Hv) as (sp & Esp & _). apply no_pack_tile; try assumption; [eexists; exact Esp|].
  exact (foreach_exact_db [] [] t (Forall2_nil _) I Hz Hv).
Qed.

(** a server that was started on an empty database *)
Lemma live_empty L st t : tz t <= 20 -> (exists s, make_tile_spec t = Ok s) -> 
  (exists rs, pack_records_foreach (st_features st) t = Ok rs /\ rs <> []) -> live_serve L empty_store st t = Throw.
Proof.
  intros Hz Hs (rs & E & Hn). unfold live_serve. assert (Ex : exists x, make_render_ctx L (st_meta empty_store) = Ok x /\ x_max_prepared x = (-1)%Z) by (eexists; split; reflexivity).
  destruct Ex as (x & Ex & E3). rewrite Ex. cbn [bind]. unfold get_tile, foreach_pack, kMaxZoomLevel. replace (tz t <=? 20) with true by lia. cbn [verify bind]. rewrite E3. replace (Z.of_N (tz t) <=? -1)%Z with false by lia.
  rewrite andb_false_r, E. cbn [bind]. destruct rs as [|tr rs]; [congruence|]. cbn [map_res]. unfold pf_get, live_file. cbn [pf_size pf_open empty_store st_pack trimmed_len N.of_nat].
  change (N.of_nat 0) with 0. replace (r_off (snd tr) <? 0) with false by lia. rewrite ?andb_false_r. cbn [andb verify bind]. reflexivity.
Qed.

(** a run that loads only features *)
Lemma features_meta L j st st' : import_run L [lit "features"] j st st' -> meta_get (st_meta st') kSeasideTree = None /\ meta_get (st_meta st') kMaxPrepared = None /\ st_tiles st' = [] /\ blen (st_pack st') + 1 < 2 ^ 64.
Proof.
  intros (s1 & s2 & s3 & R1 & _ & R2 & R3 & -> & Hb). change (s2 = s1) in R2. change (s3 = s2) in R3. subst s3 s2.
  destruct R1 as (cc & m1 & oc & m2 & n & s & Hco & Hfe & _ & _ & _ & _ & _ & ->). change (cc = [] /\ m1 = []) in Hco. destruct Hco as [-> ->].
  change (exists names dict, load_osm L (j_objs j) oc names dict /\ m2 = meta_put (meta_put [] kLayerNames names) kMetaCoding dict) in Hfe. destruct Hfe as (names & dict & _ & ->).
  cbn [close_session st_meta st_tiles st_pack ss_meta ss_tiles] in *. rewrite !meta_get_put_other by (apply key_neq; reflexivity). repeat split. exact Hb.
Qed.
Lemma live_stale L j co fe raw prep whole st t z : libs_ok L -> job_ok L j -> interrupted L j co fe raw prep whole st -> meta_get (st_meta st) kSeasideTree = None -> meta_get (st_meta st) kMaxPrepared = None ->
  tz t <= 20 -> valid_tile t -> serve_tile L st t = Ok (Some z) -> live_serve L empty_store st t = Throw.
Proof.
  intros HL HJ HI Hs Hm Hz Hv E. destruct (square_ctx t Hz Hv) as (sp & Esp & _). apply live_empty; [assumption | eexists; exact Esp|].
  destruct (sinv_binv _ _ _ _ _ _ _ _ (interrupted_sinv _ _ _ _ _ _ _ _ HL HJ HI)) as (d & D & fs & rows & HB). cbn [open_store ss_features ss_file] in HB.
  destruct (rows_records _ _ _ _ _ _ _ _ t HB Hz Hv) as (rs & Er & _). exists rs. split; [assumption|]. intros ->. unfold serve_tile in E.
  apply bind_ok in E as (x & Ex & E). destruct (plain_ctx _ _ _ Ex Hm Hs) as (P1 & P2 & P3).
  rewrite (no_pack_tile _ _ _ x t Hz (ex_intro _ _ Esp) P1 P2 P3 Er) in E. discriminate.
Qed.

(** a server that was just started *)
Lemma live_same L st t : live_serve L st st t = serve_tile L st t.
Proof. reflexivity. Qed.
