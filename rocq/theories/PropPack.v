(** Properties C09-C11: feature packs. *)
From Verif Require Import Base ModelTile ModelCodec ModelGeom SpecGeom ModelFeature SpecFeature
  ModelPack SpecPack ProofPack.
Open Scope N_scope.

(** C09 *)
Theorem c09_pack_unpack : forall fs,
  Forall legal_feature fs -> N.of_nat (length fs) < 2 ^ 32 ->
  exists bs, pack_features fs = Ok bs /\ exists rest, unpack_features bs = Ok (fs, rest).
Proof. exact pack_unpack. Qed.
Print Assumptions c09_pack_unpack.

Definition c09_fs : list bytes := [repeat 7 32; repeat 0 200].
Example c09_ex_hyps : Forall legal_feature c09_fs.
Proof. repeat constructor; vm_compute; congruence. Qed.
Example c09_ex : exists bs, pack_features c09_fs = Ok bs /\ blen bs = 245.
Proof. eexists. split; [vm_compute; reflexivity | vm_compute; reflexivity]. Qed.

(** C10 *)
Theorem c10_fresh_pack_valid : forall fs bs, pack_features fs = Ok bs -> feature_pack_valid bs = true.
Proof. exact pack_valid. Qed.
Print Assumptions c10_fresh_pack_valid.

Theorem c10_any_finished_pack_valid : forall buf, feature_pack_valid (pack_finish buf) = true.
Proof. exact finish_valid. Qed.
Print Assumptions c10_any_finished_pack_valid.

Theorem c10_burst_detected : forall a b, bytes_ok a -> bytes_ok b -> length a = length b ->
  differ_in_window 32 a b -> feature_pack_valid a = true -> feature_pack_valid b = false.
Proof. exact crc_detects. Qed.
Print Assumptions c10_burst_detected.

(** in particular: up to four adjacent bytes, anywhere including the checksum *)
Theorem c10_bytes_detected : forall p x y q, bytes_ok p -> bytes_ok x -> bytes_ok y -> bytes_ok q ->
  length x = length y -> (length x <= 4)%nat -> x <> y ->
  feature_pack_valid (p ++ x ++ q) = true -> feature_pack_valid (p ++ y ++ q) = false.
Proof. exact crc_detects_bytes. Qed.
Print Assumptions c10_bytes_detected.

(** the standard check value of CRC-32 *)
Example c10_ex_check : crc32 [49; 50; 51; 52; 53; 54; 55; 56; 57] = 0xCBF43926.
Proof. vm_compute. reflexivity. Qed.
Example c10_ex : exists bs, pack_features [repeat 7 32] = Ok bs /\ feature_pack_valid bs = true /\
  feature_pack_valid (firstn 10 bs ++ [8] ++ skipn 11 bs) = false.
Proof. eexists. split; [vm_compute; reflexivity|]. split; vm_compute; reflexivity. Qed.

(** C11: false in general: this point in the middle of the map, without
    metadata, serializes to fewer than 32 bytes, so packing it throws. *)
Definition c11_f : feature := Feature 1 0 0 20 [] (GPoint [(2147483647, 2147483647)]%Z).
Theorem c11_every_feature_packs_refuted :
  exists f bs, feature_ok f /\ serialize_feature (fun _ => None) (fun _ => []) true f = Ok bs /\
    pack_features [bs] = Throw.
Proof.
  exists c11_f. eexists. split.
  { do 4 (split; [vm_compute; reflexivity|]).
    apply Forall_cons; [split; vm_compute; reflexivity | apply Forall_nil]. }
  split; [vm_compute; reflexivity | vm_compute; reflexivity].
Qed.
Print Assumptions c11_every_feature_packs_refuted.

(** It holds for every feature whose first point and lower box corner are more
    than 2^20 pixels (256 tiles of level 20) away from the map centre. *)
Theorem c11_far_features_pack_partial : forall enc mk fast (fs : list feature) (bss : list bytes),
  N.of_nat (length fs) < 2 ^ 32 ->
  Forall2 (fun f bs => serialize_feature enc mk fast f = Ok bs) fs bss ->
  Forall (fun f => geom_far (f_geom f) /\ box_far (bounding_box (f_geom f))) fs ->
  exists p, pack_features bss = Ok p.
Proof. exact far_features_pack. Qed.
Print Assumptions c11_far_features_pack_partial.
Theorem c11_throws_iff_short_feature : forall fs, N.of_nat (length fs) < 2 ^ 32 ->
  pack_features fs = Throw <-> exists f, In f fs /\ blen f < 32.
Proof. exact pack_features_throws_iff. Qed.
Print Assumptions c11_throws_iff_short_feature.
Example c11_ex : geom_far (GPoint [(2250000000, 1400000000)]%Z) /\
  box_far (bounding_box (GPoint [(2250000000, 1400000000)]%Z)).
Proof. split; split; unfold far; vm_compute; auto. Qed.
