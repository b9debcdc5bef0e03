(** Whole imports: statistics of the database. *)
From Coq Require Import Permutation String Ascii Sorting.Sorted.
From Coq Require Import List.
From Verif Require Import Base BaseProof ModelTile SpecTile ProofTile ModelPackFile SpecPackFile ModelTable ModelCodec ModelGeom SpecGeom ModelFeature SpecFeature
  ModelPack ProofPack ModelPacker SpecPacker ProofPackerProps ModelBqTree ModelMvt ModelRender SpecRender ProofRender ModelPrepare SpecPrepare
  ModelInserter SpecInserter ModelDict SpecDict ProofDict ModelOsm SpecOsm ModelDrain ModelCoast SpecCoast SpecLayout ModelRepack SpecRepack ModelServer ModelImport SpecImport
  ProofStats ProofImportObjects ProofImportLoad ProofImportRun ProofImportPack ProofImportServe.
Import ListNotations.
Open Scope N_scope.

Lemma map_res_tt {A} (f : A -> res unit) l : (forall a, In a l -> f a = Ok tt) -> exists us, map_res f l = Ok us.
Proof. intros H. apply map_res_total. intros a Ha. exists tt. now apply H. Qed.

Lemma record_ok L raw d root s rf : libs_ok L -> N.of_nat (length d) < 2 ^ 64 -> tz root = 10 -> valid_tile root ->
  record_holds raw (dict_encode (coder_make (l_psort L) d)) (dict_decode d) (l_mk L) (l_rd L) (l_qsort L) s root rf -> record_stats s (fst rf) = Ok tt.
Proof.
  intros HL Hd Hz Hv [HF HH].
  assert (HP : exists B strs rest, pf_get s (fst rf) = Ok B /\ feature_pack_valid B = true /\ unpack_features B = Ok (strs, rest) /\
    Forall (fun str => exists enc mk fast f, serialize_feature enc mk fast f = Ok str /\ f_id f < 2 ^ 64 /\ blen str < 2 ^ 32) strs).
  { destruct raw.
    - destruct HH as (strs & B & H1 & H2 & H3). destruct (raw_unpacks _ _ _ _ H2 H1) as (rest & E). exists B, strs, rest. split; [assumption|]. split; [eapply pack_valid; eassumption|]. split; [assumption|].
      apply Forall_forall. intros str Hs. destruct (Forall2_in_r _ _ _ _ H1 Hs) as (f & Hf & E1 & E2). exists (fun _ => None), (fun _ => []), true, f. split; [assumption|]. split; [|assumption].
      apply (proj1 (Forall_forall _ _) HF _ Hf).
    - destruct HH as (packs & fss & B & H1 & H2 & H3 & H4 & H5). rewrite H1 in HF.
      destruct (packer_written _ _ _ _ _ root (ok_qsort _ HL) packs fss B ltac:(rewrite Hz; discriminate) Hv H2 HF H3 H4) as (V & fs & out & rest & PM & EU & FW).
      exists B, out, rest. split; [assumption|]. split; [assumption|]. split; [assumption|]. apply Forall_forall. intros str Hs. destruct (Forall2_in_r _ _ _ _ FW Hs) as (f & Hf & f' & _ & [P _] & E1 & E2).
      exists (dict_encode (coder_make (l_psort L) d)), (l_mk L), false, f'. split; [assumption|]. split; [apply P|]. change (2 ^ 30) with 1073741824 in E2. change (2 ^ 32) with 4294967296. lia. }
  destruct HP as (B & strs & rest & E1 & E2 & E3 & E4). unfold record_stats. rewrite E1. cbn [bind]. rewrite E2. cbn [verify bind]. rewrite E3. cbn [bind].
  destruct (map_res_tt (fun str => field_stats (S (length str)) str) strs) as (us & ->); [|reflexivity].
  intros str Hs. destruct (proj1 (Forall_forall _ _) E4 _ Hs) as (enc & mk & fast & f & S1 & S2 & S3). eapply stats_feature; eassumption.
Qed.

Lemma stats_ok L j co fe raw prep whole ss : libs_ok L -> sinv L j co fe raw prep whole ss -> database_stats ss = Ok tt.
Proof.
  intros HL (D & ks & fs & names & d & sea & v & rows & HC & HM & Hv & HB & _ & (HT1 & HT1') & HT2). unfold database_stats.
  destruct (map_res_total (fun e => do rs <- pack_records_deserialize (snd e); map_res (record_stats (ss_file ss)) rs) (ss_features ss)) as (us & ->).
  { intros e He. destruct HB as [[B1 [B2 B3]] _ _ _ _ _ _]. destruct (Forall2_in_r _ _ _ _ B1 He) as (dr & Hdr & (_ & R1 & R2)). apply in_map_iff in Hdr as (r & <- & Hr).
    unfold row_index in R1, R2. cbn [snd] in R1, R2. rewrite R2, (deserialize_serialize _ R1). cbn [bind]. destruct (proj1 (Forall_forall _ _) B3 _ Hr) as (Z1 & Z2 & Z3).
    apply map_res_tt. intros x Hx. apply in_map_iff in Hx as (rf & <- & Hrf). eapply record_ok; try eassumption; [exact (n_dict _ _ _ _ _ _ _ _ _ _ HC) | exact (proj1 (Forall_forall _ _) Z3 _ Hrf)]. }
  cbn [bind]. rewrite (m_max _ _ _ _ _ HM). destruct prep; [|reflexivity].
  assert (E10 : stoi (lit "10") = Ok 10%Z) by (vm_compute; reflexivity). rewrite E10. cbn [bind]. change (to_u32 10) with 10.
  match goal with |- context [map_res ?f ?l] => destruct (map_res_tt f l) as (us' & ->); [|reflexivity] end.
  intros e He. cbn beta. pose proof (proj1 (Forall_forall _ _) HT1' _ He) as H. cbn beta in H. change ((10 + 1) mod 2 ^ 32) with 11.
  replace (tz (key_to_tile (fst e)) <=? 10) with true by lia. cbn [verify bind]. replace (tz (key_to_tile (fst e)) <? 11) with true by lia. reflexivity.
Qed.
