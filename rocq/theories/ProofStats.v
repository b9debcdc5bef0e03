(** Printing statistics: the packs an import writes can be read. *)
From Coq Require Import Permutation String Ascii Sorting.Sorted.
From Coq Require Import List.
From Verif Require Import Base BaseProof ModelCodec ProofCodec ModelGeom ModelFeature SpecFeature ProofFeature ModelPackFile ModelImport.
Import ListNotations.
Open Scope N_scope.

Inductive fieldv := FV (tag v : N) | FB (tag : N) (d : bytes).
Definition put_field (f : fieldv) : bytes := match f with FV t v => field_varint t v | FB t d => field_bytes t d end.
Definition field_ok (f : fieldv) : Prop :=
  match f with FV t v => tag_ok t = true /\ v < 2 ^ 64 /\ t <> F_MASKS /\ t <> F_GEOMETRY | FB t d => tag_ok t = true /\ blen d < 2 ^ 32 end.

Lemma stats_fields fs : Forall field_ok fs -> forall n, (length (flat_map put_field fs) < n)%nat -> field_stats n (flat_map put_field fs) = Ok tt.
Proof.
  induction 1 as [|f fs H F IH]; intros n Hn; (destruct n as [|n]; [cbn in Hn; lia|]); cbn [flat_map field_stats].
  - reflexivity.
  - cbn [flat_map] in Hn. rewrite app_length in Hn. destruct f as [t v|t d]; cbn [put_field field_ok] in *.
    + destruct H as (H1 & H2 & H3 & H4). rewrite next_field_varint by assumption. cbn [bind]. replace ((t =? F_MASKS) || (t =? F_GEOMETRY)) with false by lia.
      unfold skip_field. change (WT_VARINT =? WT_VARINT) with true. cbn iota. rewrite varint_roundtrip by assumption. cbn [bind]. apply IH.
      unfold field_varint, field_key in Hn. rewrite !app_length in Hn. pose proof (varint_len_pos (t * 8 + WT_VARINT)). lia.
    + destruct H as (H1 & H2). rewrite next_field_bytes by assumption. cbn [bind].
      match goal with |- context [if ?c then ?a else ?b] => replace (if c then a else b) with (Ok (flat_map put_field fs)) end.
      * cbn [bind]. apply IH. pose proof (field_bytes_pos t d). lia.
      * unfold skip_field. change (WT_LEN =? WT_VARINT) with false. change (WT_LEN =? WT_I64) with false. change (WT_LEN =? WT_LEN) with true. cbn iota. rewrite get_len_enc by assumption. cbn [bind]. now destruct (_ || _).
Qed.

Lemma field_bytes_le tag d : blen d <= blen (field_bytes tag d).
Proof. unfold field_bytes. rewrite !blen_app. lia. Qed.
Lemma put_le fs f : In f fs -> blen (put_field f) <= blen (flat_map put_field fs).
Proof. induction fs as [|g fs IH]; [intros []|]. intros [->|H]; cbn [flat_map]; rewrite blen_app; [lia | specialize (IH H); lia]. Qed.

Definition fields_of (enc : meta -> option N) (mk : line -> bytes) (fast : bool) (f : feature) (h : list Z) (g : bytes) : list fieldv :=
  let '(ids, rest) := if fast then ([], f_meta f) else split_meta enc (f_meta f) in
  (match h with [] => [] | _ => [FB F_HEADER (packed_sint h)] end) ++ [FV F_ID (f_id f)] ++
  (match ids with [] => [] | _ => [FB F_META_PAIRS (flat_map varint_enc ids)] end) ++ map (fun m => FB F_KEYS (fst m)) rest ++ map (fun m => FB F_VALUES (snd m)) rest ++
  (if fast then [] else map (FB F_MASKS) (make_masks mk (f_geom f))) ++ [FB F_GEOMETRY g].
Lemma put_map {A} (k : A -> fieldv) l : flat_map put_field (map k l) = flat_map (fun a => put_field (k a)) l.
Proof. induction l as [|a l IH]; [reflexivity|]. cbn [map flat_map]. now rewrite IH. Qed.

Lemma stats_feature enc mk fast f v : serialize_feature enc mk fast f = Ok v -> f_id f < 2 ^ 64 -> blen v < 2 ^ 32 -> field_stats (S (length v)) v = Ok tt.
Proof.
  intros E Hid Hb. unfold serialize_feature in E. apply bind_ok in E as (h & Eh & E). apply bind_ok in E as (g & Eg & E). apply Ok_inj in E.
  assert (EV : v = flat_map put_field (fields_of enc mk fast f h g)).
  { rewrite <- E. unfold fields_of, meta_fields. destruct (if fast then ([], f_meta f) else split_meta enc (f_meta f)) as [ids rest]. rewrite !flat_map_app, !put_map. cbn [flat_map put_field]. rewrite !app_nil_r, <- !app_assoc.
    f_equal; [destruct h; [reflexivity|]; cbn [flat_map put_field field_packed_sint64]; now rewrite app_nil_r|]. f_equal.
    f_equal; [destruct ids; [reflexivity|]; cbn [flat_map put_field field_packed_u64]; now rewrite app_nil_r|]. f_equal. f_equal. f_equal.
    destruct fast; [reflexivity|]. now rewrite put_map. }
  assert (HF : Forall field_ok (fields_of enc mk fast f h g)).
  { apply Forall_forall. intros x Hx. pose proof (put_le _ _ Hx) as HP. rewrite <- EV in HP.
    assert (Hd : forall t d, x = FB t d -> tag_ok t = true -> field_ok x). { intros t d -> Ht. split; [assumption|]. cbn [put_field] in HP. pose proof (field_bytes_le t d). lia. }
    unfold fields_of in Hx. destruct (if fast then ([], f_meta f) else split_meta enc (f_meta f)) as [ids rest].
    apply in_app_or in Hx as [Hx|Hx]; [destruct h; [destruct Hx|]; destruct Hx as [<-|[]]; now apply (Hd _ _ eq_refl)|].
    apply in_app_or in Hx as [Hx|Hx]; [destruct Hx as [<-|[]]; repeat split; try assumption; discriminate|].
    apply in_app_or in Hx as [Hx|Hx]; [destruct ids; [destruct Hx|]; destruct Hx as [<-|[]]; now apply (Hd _ _ eq_refl)|].
    apply in_app_or in Hx as [Hx|Hx]; [apply in_map_iff in Hx as (m & <- & _); now apply (Hd _ _ eq_refl)|].
    apply in_app_or in Hx as [Hx|Hx]; [apply in_map_iff in Hx as (m & <- & _); now apply (Hd _ _ eq_refl)|].
    apply in_app_or in Hx as [Hx|Hx]; [destruct fast; [destruct Hx|]; apply in_map_iff in Hx as (m & <- & _); now apply (Hd _ _ eq_refl)|].
    destruct Hx as [<-|[]]; now apply (Hd _ _ eq_refl). }
  rewrite EV. apply stats_fields; [assumption|]. lia.
Qed.
