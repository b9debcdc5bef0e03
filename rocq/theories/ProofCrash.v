(** Imports that were stopped. *)
From Coq Require Import Permutation String Ascii Sorting.Sorted.
From Coq Require Import List.
From Verif Require Import Base BaseProof ModelTile SpecTile ProofTile ModelPackFile SpecPackFile ProofPackFile ModelTable ProofTable ModelCodec ModelGeom SpecGeom ModelFeature SpecFeature ProofFeature
  ModelPack ModelPacker SpecPacker ProofPackerProps ModelBqTree SpecBqTree ProofBqQuery ModelMvt SpecMvt ModelRender SpecRender ProofRender ModelPrepare SpecPrepare ProofPrepare ProofServe
  ModelInserter SpecInserter ProofInserter ProofInserterTop ModelDict SpecDict ProofDict
  ModelOsm SpecOsm ModelDrain ModelCoast SpecCoast ProofCoastEx SpecLayout ProofLayout ModelRepack SpecRepack ProofRepack ProofRepackRun ProofPackDb ModelServer ModelImport SpecImport
  ProofImportObjects ProofImportLoad ProofImportRun ProofImportPack ProofImportServe ModelCrash SpecCrash.
Import ListNotations.
Open Scope N_scope.

(** ** Writes that were interrupted *)
Lemma torn_slice a off n m o l : torn a off n m -> o + l <= blen a -> o + l <= off \/ off + n <= o -> slice m o l = slice a o l.
Proof.
  intros [HL HN] Ho Hd. unfold blen in Ho. apply list_ext. intros i. rewrite !nth_error_slice. destruct (Nat.ltb_spec i (N.to_nat l)) as [Hi|]; [|reflexivity].
  rewrite !(nth_error_nth' _ 0) by lia. f_equal. apply HN. lia.
Qed.
Lemma torn_len a off n m : torn a off n m -> blen a <= blen m.
Proof. intros [H _]. unfold blen. lia. Qed.

Lemma move_keeps pf off from pf' to : pf_inv pf -> pf_move pf off from = Ok (pf', to) ->
  pf_inv pf' /\ blen (pf_mem pf) <= blen (pf_mem pf') /\ forall o n, o + n <= blen (pf_mem pf) -> o + n <= off -> slice (pf_mem pf') o n = slice (pf_mem pf) o n.
Proof.
  intros HI. unfold pf_move. cbn [r_off r_size]. set (n := N.max (pf_size pf) (off + r_size from)). pose proof (pf_resize_mem_len pf n) as L.
  destruct (N.leb_spec (r_off from + r_size from) (blen (pf_mem (pf_resize pf n)))) as [H|]; [|discriminate]. intros E. apply Ok_inj in E.
  set (d := slice (pf_mem (pf_resize pf n)) (r_off from) (r_size from)) in *. assert (Ld : blen d = r_size from) by (unfold blen, d; rewrite slice_length by assumption; lia).
  assert (Hw : off + blen d <= blen (pf_mem (pf_resize pf n))) by (unfold n in *; lia). apply (f_equal fst) in E. cbn [fst] in E. subst pf'. unfold pf_inv. cbn [pf_mem pf_size]. rewrite write_at_length by assumption.
  split; [unfold pf_resize in *; cbn in *; unfold pf_inv, n in *; lia|]. split; [unfold n in *; lia|]. intros o k Ho Hd. rewrite write_at_other by (try assumption; right; assumption). now apply pf_resize_slice.
Qed.
Lemma stash_keeps st : forall pf off upd pf' off' upd', pf_inv pf -> move_stash pf off upd st = Ok (pf', off', upd') ->
  off <= off' /\ blen (pf_mem pf) <= blen (pf_mem pf') /\ forall o n, o + n <= blen (pf_mem pf) -> o + n <= off -> slice (pf_mem pf') o n = slice (pf_mem pf) o n.
Proof.
  induction st as [|[t r] st IH]; intros pf off upd pf' off' upd' HI H; cbn [move_stash] in H.
  - apply Ok_inj in H. injection H as <- <- <-. split; [lia|]. split; [lia|]. reflexivity.
  - apply bind_ok in H as ([pf1 r1] & H1 & H). destruct (move_keeps _ _ _ _ _ HI H1) as (K1 & K2 & K3). destruct (IH _ _ _ _ _ _ K1 H) as (J1 & J2 & J3).
    split; [lia|]. split; [lia|]. intros o n Ho Hd. rewrite J3 by lia. now apply K3.
Qed.

(** what is in the file at least *)
Definition holds (pf : pfile) (m : bytes) (r : pack_record) : Prop := r_off r + r_size r <= blen m /\ slice m (r_off r) (r_size r) = bytes_of pf r.
Lemma left_holds killed pf m r : pf_inv pf -> left_file killed pf m -> r_off r + r_size r <= pf_size pf -> holds pf m r.
Proof.
  unfold left_file. intros HI -> Hr. destruct killed; unfold holds, bytes_of, pf_crash.
  - unfold pf_inv in HI. split; [lia | reflexivity].
  - destruct (reopen_spec pf HI) as (R1 & R2 & R3). unfold pf_inv, pf_open in *. cbn [pf_mem pf_size] in *. split; [lia|]. now apply R3.
Qed.

Section Mid.
Context (qsort : (nat -> nat -> bool) -> list nat -> list nat) (rsort : list pack_record -> list pack_record) (tsort : list task -> list task)
  (pack : tile -> list bytes -> bytes) (limit : N) (batch : nat) (pf0 : pfile) (tasks : list task).
Hypothesis Hq : sorts_positions qsort.
Hypothesis Hr : reorders rsort.
Hypothesis Ht : reorders tsort.
Hypothesis Hp : forall t ps, pack t ps <> [].
Hypothesis I0 : pf_inv pf0.
Hypothesis S0 : pf_size pf0 < 2 ^ 64.
Hypothesis L0 : valid_layout pf0 (flat_map snd tasks).

Lemma mid_holds s m killed u : rp_reach qsort rsort tsort pack limit batch pf0 tasks s -> mid_file pack s m killed -> In u (concat (r_out s)) ->
  holds (g_pf (r_mgr s)) m (snd u) /\ (killed = false -> r_off (snd u) + r_size (snd u) <= pf_size (pf_open m)).
Proof.
  intros HR HM Hu. destruct (reach_inv qsort rsort tsort pack limit batch Hq Hr Ht Hp pf0 tasks I0 S0 L0 s HR) as (_ & (Z1 & _) & P).
  assert (Hin : In (snd u) (map snd (assigned s))) by (apply in_map; unfold assigned; apply in_app_iff; auto).
  assert (HE : end_of (snd u) <= pf_size (g_pf (r_mgr s))).
  { assert (P' : phase_a pf0 s \/ phase_b s \/ phase_c s) by (unfold phase in P; destruct (r_pc s); tauto).
    destruct P' as [(P1 & P2 & P3 & P4 & P5 & P6)|[(e & lo & P1 & P2 & P3 & P4)|(P1 & P2 & P3)]].
    - unfold assigned in Hin. rewrite P4, P5 in Hin. destruct Hin.
    - apply (chain_in _ _ _ _ P2) in Hin. apply chain_le in P4. apply stack_le in P1. lia.
    - apply (chain_in _ _ _ _ P3) in Hin. lia. }
  unfold end_of in HE. destruct HM as [->|t ps Hpc Hf HT|killed Hpc|st1 t r st2 pf off upd Hpc Hst HS HT|Hpc ->]; try (split; [|discriminate]).
  - now apply (left_holds true).
  - assert (HD : end_of (snd u) <= insert_place (r_mgr s) (pack t ps)).
    { unfold insert_place. destruct Hpc as [(n & Hpc)|Hpc]; unfold phase in P; rewrite Hpc in P.
      - destruct P as [(e & lo & P1 & P2 & P3 & P4) _]. apply (chain_in _ _ _ _ P2) in Hin. destruct (g_tasks (r_mgr s)); [exact HE|]. destruct (_ <? _); [exact HE | apply Hin].
      - destruct P as (P1 & _ & _). rewrite P1. exact HE. }
    unfold end_of in HD. unfold pf_inv in Z1. split; [apply torn_len in HT; lia|]. apply (torn_slice _ _ _ _ _ _ HT); lia.
  - exfalso. unfold phase in P. rewrite Hpc in P. destruct P as (_ & _ & _ & P4 & _). rewrite P4 in Hu. destruct Hu.
  - unfold phase in P. rewrite Hpc in P. destruct P as [(e & lo & P1 & P2 & P3 & P4) _]. apply (chain_in _ _ _ _ P2) in Hin. unfold end_of in Hin. destruct (stash_keeps _ _ _ _ _ _ _ Z1 HS) as (K1 & K2 & K3).
    unfold pf_inv in Z1. split; [apply torn_len in HT; lia|]. rewrite (torn_slice _ _ _ _ _ _ HT) by lia. apply K3; lia.
  - split; [now apply (left_holds false)|]. intros _. destruct (reopen_spec _ Z1) as (_ & R2 & _). lia.
Qed.
End Mid.

(** opening what is left *)
Lemma tail_open m r : (exists i b, r_off r + r_size r <= N.of_nat i + 1 /\ nth_error m i = Some b /\ b <> 0) -> r_off r + r_size r <= pf_size (pf_open m).
Proof. intros (i & b & Hi & Hb & Hn). pose proof (trimmed_len_ge _ _ _ Hb Hn) as HT. unfold pf_open. cbn [pf_size]. lia. Qed.
Lemma open_get pf m r B : holds pf m r -> blen m + 1 < 2 ^ 64 -> 0 < r_size r -> r_off r + r_size r <= pf_size (pf_open m) ->
  pf_get pf r = Ok B -> pf_get (pf_open m) r = Ok B /\ r_off r + r_size r <= pf_size (pf_open m).
Proof.
  intros [H1 H2] Hm Hs HE HG. pose proof (trimmed_len_le m) as HT'. unfold blen in *. split; [|assumption].
  apply pf_get_bytes in HG as [-> _]. rewrite <- H2. change m with (pf_mem (pf_open m)) at 2. apply pf_get_inside; [apply pf_open_inv | unfold pf_open; cbn [pf_size]; lia|]. unfold inside. split; [|assumption].
  apply N.lt_le_trans with (r_off r + r_size r); [lia | assumption].
Qed.

(** the same database in another file *)
Lemma file_binv L raw d D fs T s s' rows : binv L raw d D fs T s rows -> pf_inv s' -> pf_size s' < 2 ^ 64 ->
  (forall x B, In x (flat_map (fun r => map fst (row_packs r)) rows) -> pf_get s x = Ok B -> pf_get s' x = Ok B /\ r_off x + r_size x <= pf_size s') ->
  binv L raw d D fs T s' rows.
Proof.
  intros [[B1 [B2 B3]] B4 B5 B5' B6 B7 [B8 B9]] HI Hsz HG.
  assert (HX : forall x, In x (flat_map (fun r => map fst (row_packs r)) rows) -> exists B, pf_get s x = Ok B).
  { intros x Hx. apply in_flat_map in Hx as (r & Hr & Hx). apply in_map_iff in Hx as (p & <- & Hp). destruct (proj1 (Forall_forall _ _) B3 _ Hr) as (_ & _ & Z3).
    destruct (proj1 (Forall_forall _ _) Z3 _ Hp) as [_ P2]. destruct raw; [destruct P2 as (strs & B & _ & _ & Q3) | destruct P2 as (packs & fss & B & _ & _ & _ & _ & Q3)]; eauto. }
  constructor; try assumption.
  - split; [assumption|]. split; [assumption|]. apply Forall_forall. intros r Hr. destruct (proj1 (Forall_forall _ _) B3 _ Hr) as (Z1 & Z2 & Z3). split; [assumption|]. split; [assumption|].
    apply Forall_forall. intros rf Hrf. destruct (proj1 (Forall_forall _ _) Z3 _ Hrf) as [P1 P2]. split; [assumption|].
    assert (Hin : In (fst rf) (flat_map (fun r => map fst (row_packs r)) rows)) by (apply in_flat_map; exists r; split; [assumption | now apply in_map]).
    destruct raw.
    + destruct P2 as (strs & B & Q1 & Q2 & Q3). exists strs, B. split; [assumption|]. split; [assumption|]. now apply HG.
    + destruct P2 as (packs & fss & B & Q1 & Q2 & Q3 & Q4 & Q5). exists packs, fss, B. repeat (split; [assumption|]). now apply HG.
  - split; [|assumption]. apply Forall_forall. intros x Hx. destruct (HX x Hx) as (B & HB). destruct (HG x B Hx HB). split; [apply (proj1 (Forall_forall _ _) B8 _ Hx) | assumption].
Qed.

(** the records of the table *)
Lemma row_record L raw d D fs T s rows x : binv L raw d D fs T s rows -> In x (flat_map (fun r => map fst (row_packs r)) rows) ->
  exists k v rs, In (k, v) T /\ pack_records_deserialize v = Ok rs /\ In x rs.
Proof.
  intros [[B1 _] _ _ _ _ _ _] Hx. apply in_flat_map in Hx as (r & Hr & Hx). destruct (Forall2_in_l _ _ _ _ B1 (in_map row_index _ _ Hr)) as ([k v] & He & (_ & HR & HV)).
  unfold row_index in HR, HV. cbn [fst snd] in HR, HV. exists k, v, (map fst (row_packs r)). split; [assumption|]. split; [|assumption]. rewrite HV. now apply deserialize_serialize.
Qed.

Lemma left_binv L raw d D fs m1 T tiles s m rows killed : binv L raw d D fs T s rows -> left_file killed s m -> blen m + 1 < 2 ^ 64 ->
  (killed = true -> tail_kept (Store m1 T tiles m)) -> binv L raw d D fs T (pf_open m) rows.
Proof.
  intros HB HF Hm HK. apply (file_binv L raw d D fs T s); [assumption | apply pf_open_inv | pose proof (trimmed_len_le m); unfold blen in Hm; cbn [pf_open pf_size]; lia|].
  intros x B Hx HG. destruct (row_record _ _ _ _ _ _ _ _ x HB Hx) as (k & v & rs & H1 & H2 & H3).
  destruct (b_lay _ _ _ _ _ _ _ _ HB) as [LV _]. destruct (proj1 (Forall_forall _ _) LV _ Hx) as [L1 L2].
  apply (open_get s m x B); try assumption; [apply (left_holds killed); [exact (b_inv _ _ _ _ _ _ _ _ HB) | assumption | assumption]|]. destruct killed.
  - apply tail_open. exact (HK eq_refl k v rs x H1 H2 H3).
  - unfold left_file in HF. subst m. destruct (reopen_spec s (b_inv _ _ _ _ _ _ _ _ HB)) as (_ & R2 & _). lia.
Qed.

(** packing was stopped *)
Lemma packing_binv L raw d D fs F0 pf0 rows m1 tiles tasks s T m killed : libs_ok L -> N.of_nat (length d) < 2 ^ 64 -> binv L raw d D fs F0 pf0 rows ->
  read_tasks [] F0 = Ok tasks -> rp_reach (l_possort L) (l_recsort L) (l_tasksort L) (packs_with L d) (2 ^ 30) 32 pf0 tasks s ->
  (forall u, In u (concat (r_out s)) -> pf_get (g_pf (r_mgr s)) (snd u) <> Ok failed_pack) -> packed_table (r_out s) = Ok T ->
  mid_file (packs_with L d) s m killed -> kept killed (Store m1 T tiles m) -> exists rows', binv L false d D fs T (pf_open m) rows'.
Proof.
  intros HL Hd HB ER HR HN ET HM (K1 & K2 & K3). cbn [st_pack] in K2. destruct (rows_stores L raw d D fs F0 pf0 rows HB) as [B1 B2].
  destruct (packed_updates L raw d D fs F0 pf0 rows HL HB tasks s T ER HR ET) as [TN1 TN2].
  pose proof (tasks_layout pf0 (map row_index rows) F0 B1 B2 (rows_filled _ _ _ _ _ _ _ _ HB) (rows_layout _ _ _ _ _ _ _ _ HB) tasks ER) as HLy.
  assert (HH : forall u, In u (concat (r_out s)) -> holds (g_pf (r_mgr s)) m (snd u) /\ (killed = false -> r_off (snd u) + r_size (snd u) <= pf_size (pf_open m))).
  { intros u Hu. exact (mid_holds _ _ _ _ _ _ _ _ (ok_possort _ HL) (ok_recsort _ HL) (ok_tasksort _ HL) (packs_with_nonempty L d) (b_inv _ _ _ _ _ _ _ _ HB) (b_size _ _ _ _ _ _ _ _ HB) HLy s m killed u HR HM Hu). }
  assert (HO : forall u, In u (concat (r_out s)) -> rec_ok (snd u)) by (intros u Hu; destruct (HH u Hu) as [[H1 _] _]; split; lia).
  assert (HD : forall u, In u (concat (r_out s)) -> exists k, In (k, pack_records_serialize [snd u]) T /\ pack_records_deserialize (pack_records_serialize [snd u]) = Ok [snd u]).
  { intros [t rec] Hu. destruct (TN1 t rec Hu) as (k & _ & Hg). apply table_get_In in Hg. exists k. split; [exact Hg|]. apply deserialize_serialize. constructor; [exact (HO _ Hu) | constructor]. }
  assert (HSz : forall u, In u (concat (r_out s)) -> rec_ok (snd u) /\ r_size (snd u) < 2 ^ 30).
  { intros u Hu. split; [auto|]. destruct (HD u Hu) as (k & D1 & D2). pose proof (K1 k _ _ D1 D2) as Q. now inversion Q. }
  destruct (now_layout _ _ _ _ _ _ (ok_possort _ HL) (ok_recsort _ HL) (ok_tasksort _ HL) (packs_with_nonempty L d) _ (map row_index rows) F0 B1 B2 (rows_filled _ _ _ _ _ _ _ _ HB) (b_inv _ _ _ _ _ _ _ _ HB) (b_size _ _ _ _ _ _ _ _ HB) (rows_layout _ _ _ _ _ _ _ _ HB) tasks ER s HR) as (LS & _ & _).
  assert (HG : forall u B, In u (concat (r_out s)) -> pf_get (g_pf (r_mgr s)) (snd u) = Ok B -> pf_get (pf_open m) (snd u) = Ok B /\ r_off (snd u) + r_size (snd u) <= pf_size (pf_open m)).
  { intros u B Hu HGu. destruct (HD u Hu) as (k & D1 & D2). destruct (HH u Hu) as [J1 J2].
    apply (open_get (g_pf (r_mgr s)) m (snd u) B); [assumption | assumption | exact (proj1 (Forall_forall _ _) LS _ (in_map snd _ _ Hu)) | | assumption].
    destruct killed; [|now apply J2]. apply tail_open. exact (K3 eq_refl k _ _ (snd u) D1 D2 (or_introl eq_refl)). }
  destruct (packed_rows L raw d D fs F0 pf0 rows HL Hd HB tasks s T ER HR HN ET HSz) as (TS & rows' & HF). exists rows'.
  apply (packed_binv L raw d D fs F0 pf0 rows HL HB tasks s T ER HR ET); try assumption.
  - eapply Forall2_mono; [|exact HF]. intros r e. apply packed_row_file. intros u B Hu HGu. now apply HG.
  - apply Forall_forall. intros [t rec] Hu. destruct (TN2 t rec Hu) as (B & HB'). now apply (HG (t, rec) B).
  - apply pf_open_inv.
  - pose proof (trimmed_len_le m). unfold blen in K2. cbn [pf_open pf_size]. lia.
Qed.

(** preparing tiles was stopped *)
Lemma prepare_any_time features max m n tiles render s :
  make_prepare_manager features max = Ok m -> prep_reach render m n tiles s -> table_sorted tiles ->
  table_sorted (p_tiles s) /\ exists st, Forall (fun e => tz (fst e) <= max /\ render (fst e) = Ok (snd e)) st /\
  (forall t r k, In (t, r) st -> tile_to_key t 0 = Ok k -> table_get (p_tiles s) k = match r with Some b => Some b | None => table_get tiles k end) /\
  (forall k, (forall t r, In (t, r) st -> tile_to_key t 0 <> Ok k) -> table_get (p_tiles s) k = table_get tiles k).
Proof.
  intros Hm R Hs. destruct (manager_ok _ _ _ Hm) as (x0 & y0 & x1 & y1 & -> & Hx1 & Hy1 & _ & Hr).
  assert (M : man_ok (pm_make (base_of x0 y0 x1 y1) max)).
  { split; cbn [pm_make pm_base pm_rest]; [intros z|]; apply on_z_nonempty; auto. }
  destruct (prep_reach_inv _ _ _ _ _ M R) as [_ Ha He (st & S1 & S2 & S3)]. destruct (todo_all x0 y0 x1 y1 max Hx1 Hy1) as [T1 T2].
  apply Forall_app in S3 as [S3 _]. rewrite map_app in S2.
  assert (N1 : NoDup (map fst st)).
  { apply (Permutation_NoDup Ha) in T1. apply NoDup_app_l in T1. apply (Permutation_NoDup S2) in T1. now apply NoDup_app_l in T1. }
  destruct (put_results_get st tiles (p_tiles s) Hs S1 N1) as (P1 & P2 & P3). split; [exact P1|]. exists st. split; [|split].
  - apply Forall_forall. intros [t r] Ht. cbn [fst snd]. split; [|exact (proj1 (Forall_forall _ _) S3 _ Ht)].
    assert (Hin : In t (todo (pm_make (base_of x0 y0 x1 y1) max))). { apply (Permutation_in _ (Permutation_sym Ha)), in_app_iff. left. apply (Permutation_in _ (Permutation_sym S2)), in_app_iff. left. apply in_map_iff. exists (t, r). auto. }
    apply T2 in Hin. apply Hin.
  - intros t r k Ht Hk. exact (P2 t r k Ht Hk).
  - intros k Hk. apply P3. exact Hk.
Qed.
Lemma preparing_say L raw prep D fs names d sea v rows a m x s n : meta_says (ss_meta a) names d sea prep ->
  make_bq_tree sea = Ok v -> binv L raw d D fs (ss_features a) (ss_file a) rows -> tiles_say L raw prep d D fs names v (ss_features a) (ss_tiles a) ->
  make_prepare_manager (ss_features a) 10 = Ok m -> make_render_ctx L (ss_meta a) = Ok x ->
  prep_reach (prepare_tile (ss_features a) (ss_file a) x) m n (ss_tiles a) s -> tiles_say L raw prep d D fs names v (ss_features a) (p_tiles s).
Proof.
  intros HM Hv HB [HT1 HT2] Em Ex HR. rewrite (ctx_of L _ names d sea prep v HM Hv) in Ex. apply Ok_inj in Ex. subst x.
  destruct (prepare_any_time _ _ _ _ _ _ _ Em HR (proj1 HT1)) as (D3 & st & D1 & D4 & D5).
  assert (HK : forall k, (exists t r, In (t, r) st /\ tile_to_key t 0 = Ok k) \/ (forall t r, In (t, r) st -> tile_to_key t 0 <> Ok k)).
  { intros k. destruct (find (fun e => match tile_to_key (fst e) 0 with Ok k' => k' =? k | _ => false end) st) as [[t r]|] eqn:EF.
    - apply find_some in EF as [Ht Hk]. cbn [fst] in Hk. left. exists t, r. split; [assumption|]. destruct (tile_to_key t 0) as [k'| | |]; try discriminate Hk. apply N.eqb_eq in Hk. now subst.
    - right. intros t r Ht Hk. apply (find_none _ _ EF) in Ht. cbn [fst] in Ht. rewrite Hk, N.eqb_refl in Ht. discriminate Ht. }
  split; [split; [assumption|]|].
  - apply Forall_forall. intros [k b0] He. cbn [fst]. destruct (HK k) as [(t & r & Ht & Hk)|Hn].
    + apply tile_to_key_ok in Hk as [Ek _]. rewrite Ek. exact (proj1 (proj1 (Forall_forall _ _) D1 _ Ht)).
    + apply (table_get_in _ _ _ D3) in He. rewrite (D5 k Hn) in He. apply table_get_In in He. exact (proj1 (Forall_forall _ _) (proj2 HT1) _ He).
  - intros t k Hz Ht Hk. destruct (HK k) as [(t' & r & Hin & Hk')|Hn].
    + destruct (tile_key_injective _ _ _ _ _ Hk Hk') as [<- _]. destruct (proj1 (Forall_forall _ _) D1 _ Hin) as [_ Er]. cbn [fst snd] in Er. rewrite prepare_any in Er.
      rewrite (D4 t r k Hin Hk). destruct r as [b0|]; [left; eauto|]. destruct (HT2 t k Hz Ht Hk) as [Q|[Q _]]; [left; exact Q|]. left. exists (ss_file a), rows. split; [assumption|]. now rewrite Q.
    + rewrite (D5 k Hn). now apply HT2.
Qed.

(** ** A run that was stopped *)
Lemma tail_opened L raw d D fs m1 T tiles m rows : binv L raw d D fs T (pf_open m) rows -> tail_kept (Store m1 T tiles m).
Proof.
  intros HB k v rs r He Hd Hin. destruct (b_db _ _ _ _ _ _ _ _ HB) as (B1 & _ & _). destruct (Forall2_in_r _ _ _ _ B1 He) as (x & Hx & (_ & HR & HV)). cbn [snd] in HV.
  apply in_map_iff in Hx as (w & <- & Hw). unfold row_index in HR, HV. cbn [snd] in HR, HV. rewrite HV, deserialize_serialize in Hd by assumption. apply Ok_inj in Hd. subst rs.
  destruct (b_lay _ _ _ _ _ _ _ _ HB) as [LV _]. destruct (proj1 (Forall_forall _ _) LV r) as [L1 L2]; [apply in_flat_map; eauto|].
  unfold pf_open in L2. cbn [pf_size] in L2. cbn [st_pack].
  assert (HN : forall l, trimmed_len l <> O -> exists b, nth_error l (trimmed_len l - 1) = Some b /\ b <> 0).
  { clear. induction l as [|b l IH]; cbn [trimmed_len]; [congruence|]. destruct (trimmed_len l) as [|n] eqn:E.
    - destruct (N.eqb_spec b 0); [congruence|]. intros _. exists b. split; [reflexivity | assumption].
    - intros _. destruct IH as (b' & H1 & H2); [discriminate|]. exists b'. split; [|assumption]. replace (S (S n) - 1)%nat with (S (S n - 1)) by lia. exact H1. }
  destruct (HN m) as (b & H1 & H2); [lia|]. exists (trimmed_len m - 1)%nat, b. split; [lia|]. auto.
Qed.
(** a run that writes no packs *)
Lemma quiet_kept L j co fe raw prep whole st tasks j' pk pr wh st' : sinv L j co fe raw prep whole (open_store st) -> small_packs st -> blen (st_pack st) + 1 < 2 ^ 64 ->
  loads tasks = false -> has_any_task tasks [lit "pack"] = false -> stopped_run L tasks j' st true pk pr wh st' -> kept true st' /\ st_pack st' = st_pack st /\ st_features st' = st_features st.
Proof.
  intros (D & ks & fs & names & d & sea & v & rows & _ & _ & _ & HB & _) Hs Hb Hl Hp HS.
  assert (HK : st_pack st' = st_pack st /\ st_features st' = st_features st).
  { destruct HS as [s1 m R1 HF | s1 d' rtasks s T m R1 Hpk Ed ER HR HN ET HM | s1 s2 p x s m R1 R2 Hti Em Ex HR HF | s1 s2 s3 m R1 R2 R3 HF]; rewrite Hl in R1; apply (load_nothing _ _ _ _ _ Hl) in R1; subst s1.
    - unfold left_file in HF. subst m. split; reflexivity.
    - rewrite Hp in Hpk. discriminate.
    - rewrite Hp in R2. subst s2. unfold left_file in HF. subst m. split; reflexivity.
    - rewrite Hp in R2. subst s2. cbn [st_pack st_features]. unfold left_file in HF. subst m. unfold pf_crash.
      assert (HK : ss_features s3 = st_features st /\ ss_file s3 = ss_file (open_store st)) by (destruct (has_any_task tasks [lit "tiles"]); [now apply tiles_keep in R3 | subst s3; split; reflexivity]).
      destruct HK as [K1 K2]. rewrite K1, K2. split; reflexivity. }
  destruct HK as [K1 K2]. split; [|auto]. split; [intros k w rs; rewrite K2; apply Hs|]. split; [now rewrite K1|]. intros _.
  destruct st' as [m2 T2 t2 f2], st as [m T t f]. cbn [st_pack st_features open_store ss_file ss_features] in *. subst f2 T2. eapply tail_opened; eauto.
Qed.

Lemma stopped_sinv L j co fe raw prep whole tasks st0 j' killed pk pr wh st' : libs_ok L ->
  (forall s1, load_phase L tasks j' (open_store (if loads tasks then empty_store else st0)) s1 -> sinv L j co fe raw prep whole s1 /\ (has_any_task tasks [lit "pack"] = true -> prep = false /\ ss_tiles s1 = [])) ->
  stopped_run L tasks j' st0 killed pk pr wh st' -> kept killed st' -> sinv L j co fe (raw && negb pk) (prep || pr) (whole && wh) (open_store st').
Proof.
  intros HL H1 HS (K1 & K2 & K3). destruct HS as [s1 m R1 HF | s1 d' rtasks s T m R1 Hpk Ed ER HR HN ET HM | s1 s2 p x s m R1 R2 Hti Em Ex HR HF | s1 s2 s3 m R1 R2 R3 HF]; destruct (H1 s1 R1) as [S1 Ht1]; cbn [st_pack] in K2.
  - destruct S1 as (D & ks & fs & names & d & sea & v & rows & HC & HMs & Hv & HB & HW & HT). cbn [negb]. rewrite andb_true_r, orb_false_r, andb_true_r. exists D, ks, fs, names, d, sea, v, rows.
    cbn [open_store ss_meta ss_features ss_tiles ss_file st_meta st_features st_tiles st_pack]. repeat (split; [assumption|]). split; [|auto]. eapply left_binv; eauto.
  - destruct S1 as (D & ks & fs & names & d & sea & v & rows & HC & HMs & Hv & HB & HW & HT). destruct (Ht1 Hpk) as [-> Ht]. rewrite (m_dict _ _ _ _ _ HMs) in Ed. apply Ok_inj in Ed. subst d'.
    destruct (packing_binv L raw d D fs _ _ rows _ _ rtasks s T m killed HL (n_dict _ _ _ _ _ _ _ _ _ _ HC) HB ER HR HN ET HM (conj K1 (conj K2 K3))) as (rows' & HB').
    cbn [negb]. rewrite !andb_false_r. cbn [orb]. exists D, ks, fs, names, d, sea, v, rows'. cbn [open_store ss_meta ss_features ss_tiles ss_file st_meta st_features st_tiles st_pack]. rewrite Ht.
    repeat (split; [assumption|]). split; [discriminate | apply no_tiles_say].
  - assert (H2 : sinv L j co fe (raw && negb (has_any_task tasks [lit "pack"])) prep whole s2).
    { destruct (has_any_task tasks [lit "pack"]); cbn [negb]; [|rewrite andb_true_r; now subst]. destruct (Ht1 eq_refl) as [-> Ht]. rewrite andb_false_r. apply (pack_step L j co fe raw whole s1 s2); try assumption.
      pose proof (pack_inv _ _ _ _ _ _ _ _ _ HL S1 R2) as HI. unfold left_file in HF; subst m; destruct killed; [unfold pf_crash in K2; unfold pf_inv in HI; lia | pose proof (close_size _ HI); lia]. }
    destruct H2 as (D & ks & fs & names & d & sea & v & rows & HC & HMs & Hv & HB & HW & HT). rewrite orb_false_r, andb_true_r. exists D, ks, fs, names, d, sea, v, rows.
    cbn [open_store ss_meta ss_features ss_tiles ss_file st_meta st_features st_tiles st_pack]. repeat (split; [assumption|]). split; [eapply left_binv; eauto|]. split; [assumption|]. eapply preparing_say; eauto.
  - assert (HK : ss_features s3 = ss_features s2 /\ ss_file s3 = ss_file s2) by (destruct (has_any_task tasks [lit "tiles"]); [now apply tiles_keep in R3 | now subst]).
    destruct HK as [HK1 HK2].
    assert (H2 : sinv L j co fe (raw && negb (has_any_task tasks [lit "pack"])) prep whole s2).
    { destruct (has_any_task tasks [lit "pack"]); cbn [negb]; [|rewrite andb_true_r; now subst]. destruct (Ht1 eq_refl) as [-> Ht]. rewrite andb_false_r. apply (pack_step L j co fe raw whole s1 s2); try assumption.
      - pose proof (pack_inv _ _ _ _ _ _ _ _ _ HL S1 R2) as HI. rewrite HK2 in HF. unfold left_file in HF; subst m; destruct killed; [unfold pf_crash in K2; unfold pf_inv in HI; lia | pose proof (close_size _ HI); lia].
      - rewrite <- HK1. exact K1. }
    assert (H3 : sinv L j co fe (raw && negb (has_any_task tasks [lit "pack"])) (prep || has_any_task tasks [lit "tiles"]) whole s3).
    { destruct (has_any_task tasks [lit "tiles"]); [rewrite orb_true_r; eapply tiles_step; eauto | rewrite orb_false_r; now subst]. }
    destruct H3 as (D & ks & fs & names & d & sea & v & rows & HC & HMs & Hv & HB & HW & HT). rewrite andb_true_r. exists D, ks, fs, names, d, sea, v, rows.
    cbn [open_store ss_meta ss_features ss_tiles ss_file st_meta st_features st_tiles st_pack]. repeat (split; [assumption|]). split; [eapply left_binv; eauto|]. auto.
Qed.

Lemma interrupted_sinv L j co fe raw prep whole st : libs_ok L -> job_ok L j -> interrupted L j co fe raw prep whole st -> sinv L j co fe raw prep whole (open_store st).
Proof.
  intros HL HJ H. induction H as [tasks st st' Hl HR Hsm | tasks st st' killed pk pr wh Hl HS HK | tasks j' co fe raw prep whole st st' H IH Hl HR Hsm Hra | tasks j' co fe raw prep whole st st' killed pk pr wh H IH Hl HS HK Hra].
  - destruct HR as (s1 & s2 & s3 & R1 & R2 & R3 & R4 & R5 & R6). rewrite Hl in R1. destruct (loaded_sinv L tasks j s1 HL HJ R1) as [S1 S2]. apply (run_rest L j _ _ true false true tasks s1 s2 s3 st'); auto.
  - apply (stopped_sinv L j _ _ true false true tasks st j killed pk pr wh st' HL); [|assumption|assumption]. intros s1 R1. rewrite Hl in R1. destruct (loaded_sinv L tasks j s1 HL HJ R1) as [S1 S2]. auto.
  - destruct HR as (s1 & s2 & s3 & R1 & R2 & R3 & R4 & R5 & R6). rewrite Hl in R1. apply load_nothing in R1; [|assumption]. subst s1. eapply run_rest; eauto.
  - apply (stopped_sinv L j co fe raw prep whole tasks st j' killed pk pr wh st' HL); [|assumption|assumption]. intros s1 R1. rewrite Hl in R1. apply load_nothing in R1; [|assumption]. subst s1. split; [assumption|]. exact Hra.
Qed.

Lemma quiet_flags L tasks j st killed pk pr wh st' : has_any_task tasks [lit "pack"] = false -> stopped_run L tasks j st killed pk pr wh st' -> pk = false /\ wh = true.
Proof. intros Hp HS. destruct HS; try rewrite Hp; auto. congruence. Qed.
Lemma kill_preparing L j co fe raw prep whole st tasks j' pk pr wh st' : libs_ok L -> job_ok L j -> interrupted L j co fe raw prep whole st ->
  small_packs st -> blen (st_pack st) + 1 < 2 ^ 64 -> loads tasks = false -> has_any_task tasks [lit "pack"] = false ->
  stopped_run L tasks j' st true pk pr wh st' ->
  interrupted L j co fe raw (prep || pr) whole st' /\ st_pack st' = st_pack st /\ st_features st' = st_features st.
Proof.
  intros HL HJ HI Hs Hb Hl Hp HS. destruct (quiet_kept L j co fe raw prep whole st tasks j' pk pr wh st' (interrupted_sinv _ _ _ _ _ _ _ _ HL HJ HI) Hs Hb Hl Hp HS) as [HK HE]. split; [|exact HE].
  destruct (quiet_flags _ _ _ _ _ _ _ _ _ Hp HS) as [-> ->].
  pose proof (i_stop_more L j tasks j' co fe raw prep whole st st' true false pr true HI Hl HS HK) as H. cbn [negb] in H. rewrite !andb_true_r in H. apply H. congruence.
Qed.

(** runs that are not stopped *)
Lemma history_interrupted L j co fe raw prep st : libs_ok L -> job_ok L j -> history L j co fe raw prep st -> interrupted L j co fe raw prep true st.
Proof.
  intros HL HJ H. induction H as [tasks st st' Hl HR Hsm | tasks j' co fe raw prep st st' H IH Hl HR Hsm Hra].
  - exact (i_run L j tasks st st' Hl HR Hsm).
  - apply (i_run_more L j tasks j' co fe raw prep true st st' IH Hl HR Hsm). intros E. specialize (Hra E). split; [assumption|]. exact (history_tiles _ _ _ _ _ _ _ HL HJ H Hra).
Qed.
