(** How many bytes a stored feature has. *)
From Coq Require Import Permutation.
From Verif Require Import Base BaseProof ModelCodec ProofCodec ModelGeom SpecGeom ModelFeature SpecFeature ModelPack ProofPack.
Import ListNotations.
Open Scope N_scope.

Lemma varint_blen v : 1 <= blen (varint_enc v) <= 10.
Proof. unfold blen. pose proof (varint_len_pos v). pose proof (varint_len_f 10 v) as H2. fold (varint_enc v) in H2. lia. Qed.
Lemma bytes_field_size tag d : 2 + blen d <= blen (field_bytes tag d) <= 20 + blen d.
Proof. unfold field_bytes, field_key. rewrite !blen_app. pose proof (varint_blen (tag * 8 + WT_LEN)). pose proof (varint_blen (blen d)). lia. Qed.
Lemma varint_field_size tag v : 2 <= blen (field_varint tag v) <= 20.
Proof. unfold field_varint, field_key. rewrite !blen_app. pose proof (varint_blen (tag * 8 + WT_VARINT)). pose proof (varint_blen v). lia. Qed.
Lemma varints_size vs : N.of_nat (length vs) <= blen (flat_map varint_enc vs) <= 10 * N.of_nat (length vs).
Proof. induction vs as [|v vs IH]; [try split; vm_compute; discriminate|]. cbn [flat_map length]. rewrite blen_app. pose proof (varint_blen v). lia. Qed.
Lemma packed_size vs : N.of_nat (length vs) <= blen (packed_sint vs) <= 10 * N.of_nat (length vs).
Proof. unfold packed_sint. induction vs as [|v vs IH]; [try split; vm_compute; discriminate|]. cbn [flat_map length]. rewrite blen_app. pose proof (varint_blen (zigzag v)). lia. Qed.
Lemma header_size tag h : h <> [] -> N.of_nat (length h) + 2 <= blen (field_packed_sint64 tag h) <= 20 + 10 * N.of_nat (length h).
Proof. destruct h as [|z h]; [contradiction|]. intros _. unfold field_packed_sint64. pose proof (bytes_field_size tag (packed_sint (z :: h))). pose proof (packed_size (z :: h)). lia. Qed.

(** what the metadata takes at most *)
Definition meta_cost (ms : list meta) : N := fold_right (fun m n => 50 + blen (fst m) + blen (snd m) + n) 20 ms.
Lemma meta_cost_cons m ms : meta_cost (m :: ms) = 50 + blen (fst m) + blen (snd m) + meta_cost ms.
Proof. reflexivity. Qed.
Lemma meta_cost_perm a b : Permutation a b -> meta_cost a = meta_cost b.
Proof. induction 1; rewrite ?meta_cost_cons; try lia; reflexivity. Qed.
Lemma rest_size (ms : list meta) : blen (flat_map (fun m => field_bytes F_KEYS (fst m)) ms) + blen (flat_map (fun m => field_bytes F_VALUES (snd m)) ms) + 20 + 10 * N.of_nat (length ms) <= meta_cost ms.
Proof.
  induction ms as [|m ms IH]; [try split; vm_compute; discriminate|]. rewrite meta_cost_cons. cbn [flat_map length]. rewrite !blen_app. pose proof (bytes_field_size F_KEYS (fst m)). pose proof (bytes_field_size F_VALUES (snd m)). lia.
Qed.
Lemma split_size enc ms : 10 * N.of_nat (length (fst (split_meta enc ms))) + meta_cost (snd (split_meta enc ms)) <= meta_cost ms.
Proof.
  induction ms as [|m ms IH]; [try split; vm_compute; discriminate|]. cbn [split_meta]. destruct (split_meta enc ms) as [ids rest]. cbn [fst snd] in IH. rewrite meta_cost_cons. destruct (enc m); cbn [fst snd length]; rewrite ?meta_cost_cons; lia.
Qed.
Lemma ids_size tag vs : blen (field_packed_u64 tag vs) <= 20 + 10 * N.of_nat (length vs).
Proof. destruct vs as [|v vs]; [try split; vm_compute; discriminate|]. unfold field_packed_u64. pose proof (bytes_field_size tag (flat_map varint_enc (v :: vs))). pose proof (varints_size (v :: vs)). lia. Qed.
Lemma meta_size enc fast ms : blen (meta_fields enc fast ms) <= meta_cost ms.
Proof.
  unfold meta_fields. destruct fast.
  - cbn [field_packed_u64]. rewrite !blen_app. pose proof (rest_size ms). change (blen []) with 0. lia.
  - pose proof (split_size enc ms) as H. destruct (split_meta enc ms) as [ids rest]. cbn [fst snd] in H. rewrite !blen_app. pose proof (rest_size rest). pose proof (ids_size F_META_PAIRS ids). lia.
Qed.
Definition masks_cost (ms : list bytes) : N := fold_right (fun m n => 20 + blen m + n) 0 ms.
Lemma masks_size ms : blen (flat_map (field_bytes F_MASKS) ms) <= masks_cost ms.
Proof. induction ms as [|m ms IH]; [try split; vm_compute; discriminate|]. cbn [flat_map masks_cost fold_right]. fold (masks_cost ms). rewrite blen_app. pose proof (bytes_field_size F_MASKS m). lia. Qed.

Lemma feature_size enc mk fast f v : serialize_feature enc mk fast f = Ok v ->
  exists g, serialize_geom (f_geom f) = Ok g /\ 13 + blen g <= blen v <= 130 + meta_cost (f_meta f) + masks_cost (make_masks mk (f_geom f)) + blen g.
Proof.
  unfold serialize_feature. intros H. apply bind_ok in H as (h & Eh & H). apply bind_ok in H as (g & Eg & H). apply Ok_inj in H. subst v. exists g. split; [exact Eg|].
  assert (Hh : length h = 7%nat). { unfold feature_header in Eh. repeat (apply bind_ok in Eh as (? & _ & Eh)). apply Ok_inj in Eh. subst h. reflexivity. }
  rewrite !blen_app. pose proof (header_size F_HEADER h ltac:(intros ->; discriminate Hh)) as Q1. rewrite Hh in Q1. pose proof (varint_field_size F_ID (f_id f)). pose proof (meta_size enc fast (f_meta f)).
  pose proof (bytes_field_size F_GEOMETRY g). match goal with |- context [blen ?x] => match x with (if fast then _ else _) => set (M := blen x) end end; assert (HM : M <= masks_cost (make_masks mk (f_geom f))).
  { unfold M. destruct fast; [change (blen []) with 0; lia | apply masks_size]. }
  clearbody M. change (N.of_nat 7) with 7 in Q1. lia.
Qed.
