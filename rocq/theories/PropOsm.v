(** C45, C46, C49, C50: from OSM objects to features. *)
From Coq Require Import Permutation Sorting.Sorted.
From Verif Require Import Base ModelTile ModelCodec ModelGeom ModelFeature ModelDict ModelOsm SpecDict SpecMvt SpecOsm
  ProofDict ProofOsm.
Open Scope N_scope.

(** C45: values added directly keep their type and value *)
Theorem c45_direct_values : forall stod dbl area o p k,
  (forall b, exists v, run_call stod dbl area o p (CAddBool k b) = Ok (add_meta p k v) /\ meta_value v = Some (MBool b)) /\
  (forall s, exists v, run_call stod dbl area o p (CAddString k s) = Ok (add_meta p k v) /\ meta_value v = Some (MString s)) /\
  (forall z, int64_ok z = true ->
     exists v, run_call stod dbl area o p (CAddInteger k z) = Ok (add_meta p k v) /\ meta_value v = Some (MInt z)) /\
  (forall d, length d = 8%nat ->
     exists v, run_call stod dbl area o p (CAddNumeric k d) = Ok (add_meta p k v) /\ meta_value v = Some (MDouble d)).
Proof.
  intros. split; [|split; [|split]].
  - intros b. exists (encode_bool b). split; [reflexivity|]. now destruct b.
  - intros s. exists (encode_string s). split; reflexivity.
  - intros z Hz. exists (encode_integer z). split; [reflexivity|now apply value_integer].
  - intros d Hd. exists (encode_numeric d). split; [reflexivity|]. cbn [meta_value encode_numeric]. now rewrite Hd.
Qed.
Print Assumptions c45_direct_values.

(** C45: a tag added as string is that string *)
Theorem c45_tag_string : forall stod dbl area o p k s, tag_value (o_tags o) k = Some s ->
  exists v, run_call stod dbl area o p (CTagString k) = Ok (add_meta p k v) /\ meta_value v = Some (MString s).
Proof. intros stod dbl area o p k s H. cbn [run_call]. rewrite H. exists (encode_string s). split; reflexivity. Qed.
Print Assumptions c45_tag_string.

(** C45 (finding): a tag added as boolean is stored as true exactly when its
    value is NOT "true" *)
Theorem c45_tag_bool_inverted : forall stod dbl area o p k s, tag_value (o_tags o) k = Some s ->
  exists v b, run_call stod dbl area o p (CTagBool k) = Ok (add_meta p k v) /\ meta_value v = Some (MBool b) /\
    (b = true <-> s <> text_true).
Proof.
  change text_true with TRUE. intros stod dbl area o p k s H. cbn [run_call]. rewrite H. exists (encode_bool (negb (bytes_eqb TRUE s))), (negb (bytes_eqb TRUE s)).
  split; [reflexivity|]. split; [now destruct (bytes_eqb TRUE s)|].
  destruct (bytes_eqb TRUE s) eqn:E; cbn [negb].
  - apply BaseProof.bytes_eqb_eq in E. subst s. split; [discriminate|easy].
  - split; [intros _ ->|reflexivity]. assert (bytes_eqb TRUE TRUE = true) by now apply BaseProof.bytes_eqb_eq. congruence.
Qed.
Print Assumptions c45_tag_bool_inverted.
Theorem c45_tag_bool_refuted : ~ (forall stod dbl area o p k, tag_value (o_tags o) k = Some text_true ->
  exists v, run_call stod dbl area o p (CTagBool k) = Ok (add_meta p k v) /\ meta_value v = Some (MBool true)).
Proof.
  intros H. destruct (H (fun _ => None) (fun _ => []) 0%Z (OsmObj 1 [([111], text_true)]) pending0 [111] eq_refl) as (v & E & M).
  cbn [run_call o_tags tag_value] in E. apply BaseProof.Ok_inj in E. injection E as <-. discriminate.
Qed.
Print Assumptions c45_tag_bool_refuted.

(** C45 (finding): a tag added as integer is parsed to the right integer but
    stored as floating point number, never as integer *)
Theorem c45_tag_integer_is_double : forall stod dbl area o p k s z, tag_value (o_tags o) k = Some s ->
  integer_text s z -> int64_ok z = true -> length (dbl z) = 8%nat ->
  exists v, run_call stod dbl area o p (CTagInteger k) = Ok (add_meta p k v) /\ meta_value v = Some (MDouble (dbl z)).
Proof.
  intros stod dbl area o p k s z H T Z L. cbn [run_call]. rewrite H, (from_chars_text s z T Z).
  exists (encode_numeric (dbl z)). split; [reflexivity|]. cbn [meta_value encode_numeric]. now rewrite L.
Qed.
Print Assumptions c45_tag_integer_is_double.
Theorem c45_tag_integer_refuted : forall stod dbl area, (forall z, length (dbl z) = 8%nat) ->
  ~ (forall o p k s z, tag_value (o_tags o) k = Some s -> integer_text s z -> int64_ok z = true ->
     exists v, run_call stod dbl area o p (CTagInteger k) = Ok (add_meta p k v) /\ meta_value v = Some (MInt z)).
Proof.
  intros stod dbl area L H.
  destruct (H (OsmObj 1 [([111], [55])]) pending0 [111] [55] 7%Z eq_refl (int_pos _ _ (num_digit 55 ltac:(lia))) eq_refl) as (v & E & M).
  destruct (c45_tag_integer_is_double stod dbl area (OsmObj 1 [([111], [55])]) pending0 [111] [55] 7%Z eq_refl
    (int_pos _ _ (num_digit 55 ltac:(lia))) eq_refl (L 7%Z)) as (v' & E' & M').
  rewrite E in E'. apply BaseProof.Ok_inj in E'. injection E' as ->. congruence.
Qed.
Print Assumptions c45_tag_integer_refuted.

Example c45_ex : integer_text [45; 52; 50] (-42) /\ from_chars64 [45; 52; 50; 109] = Some (-42)%Z.
Proof.
  split; [|reflexivity]. apply (int_neg [52; 50] 42). apply (num_more [52] 50 4); [|lia]. apply (num_digit 52). lia.
Qed.

(** C46: metadata is sorted with one (the smallest) value per key, and no key is lost *)
Theorem c46_one_value_per_key : forall srt ms, sorts meta_ltb srt ->
  one_per_key ms (finish_metadata srt ms) /\
  forall k v, In (k, v) ms -> exists v', In (k, v') (finish_metadata srt ms).
Proof.
  intros srt ms H. split; [now apply finish_spec|]. intros k v Hin. eapply one_per_key_present; [now apply finish_spec|eauto].
Qed.
Print Assumptions c46_one_value_per_key.

Example c46_ex : finish_metadata (isort meta_ltb) [([98], [2; 66]); ([97], [1]); ([98], [0]); ([97], [1])] = [([97], [1]); ([98], [0])].
Proof. vm_compute. reflexivity. Qed.

(** C49: an object is inserted iff the profile approved it and it has a geometry;
    with its id, the index of the layer set last, the zoom range approved last,
    its geometry and the added metadata.  Approving without layer throws. *)
Theorem c49_inserted_as_approved : forall srt stod dbl area o g cs names, sorts meta_ltb srt -> script_ok cs ->
  match last_some (approval (area g)) cs with
  | None => handle_feature srt stod dbl area o g cs names = Ok (None, names)
  | Some mn =>
      match last_some layer_of cs with
      | None | Some [] => handle_feature srt stod dbl area o g cs names = Throw
      | Some n =>
          (g = GNull -> handle_feature srt stod dbl area o g cs names = Ok (None, names)) /\
          (g <> GNull -> exists ms,
             handle_feature srt stod dbl area o g cs names =
               Ok (Some (Feature (to_u64 (o_id o)) (fst (get_layer_idx names n)) mn 21 ms g), snd (get_layer_idx names n)) /\
             one_per_key (flat_map (added stod dbl o) cs) ms)
      end
  end.
Proof. exact handle_spec. Qed.
Print Assumptions c49_inserted_as_approved.

(** C49: a script error keeps the effect of the calls before it *)
Theorem c49_script_error : forall srt stod dbl area o g cs1 args cs2 names, Nat.even (length args) = false ->
  handle_feature srt stod dbl area o g (cs1 ++ CApproveMinByArea args :: cs2) names =
  handle_feature srt stod dbl area o g cs1 names.
Proof. intros. unfold handle_feature. now rewrite run_script_error. Qed.
Print Assumptions c49_script_error.

Example c49_ex : handle_feature (isort meta_ltb) (fun _ => None) (fun _ => []) (fun _ => 7%Z)
  (OsmObj (-5) [([110], [65])]) (GPoint [(1, 2)]%Z)
  [CLayer [114]; CApproveMinByArea [12; 5; 9; 8; 3; -1]%Z; CTagString [110]; CAddBool [97] true] nm_init =
  Ok (Some (Feature 18446744073709551611 1 9 21 [([97], [1]); ([110], [2; 65])] (GPoint [(1, 2)]%Z)), [(coastline, 0); ([114], 1)]).
Proof. vm_compute. reflexivity. Qed.

(** C50: a way becomes the line of its known node locations (if at least two) *)
Theorem c50_way : forall ns,
  ((2 <= length (known ns))%nat -> read_way ns = GLine [known ns]) /\ ((length (known ns) < 2)%nat -> read_way ns = GNull).
Proof.
  intros ns. unfold read_way. rewrite nodes_known. split; intros H.
  - replace (length (known ns) <? 2)%nat with false by lia. reflexivity.
  - replace (length (known ns) <? 2)%nat with true by lia. reflexivity.
Qed.
Print Assumptions c50_way.

(** C50: an area whose rings all have enough known points becomes the polygons of
    its closed rings, inner rings with their outer ring, in order, whatever other items
    (tags) there are *)
Theorem c50_area : forall items parts rings, parts <> [] -> filter is_ring items = area_items parts ->
  Forall2 (fun p r => closes (known (fst p)) (fst r) /\ (3 <= length (fst r))%nat /\
                      Forall2 (fun i ri => closes (known i) ri /\ (3 <= length ri)%nat) (snd p) (snd r)) parts rings ->
  read_area items = Ok (GPoly rings).
Proof. exact area_spec. Qed.
Print Assumptions c50_area.

(** C50 (finding): an inner ring without any known location is undefined
    behaviour, and this is the only way to get there *)
Theorem c50_defined_refuted : ~ (forall items, read_area items <> UB).
Proof. intros H. apply (H [AOuter [Some (0, 0); Some (9, 0); Some (0, 9)]%Z; AInner [None; None; None]]). reflexivity. Qed.
Print Assumptions c50_defined_refuted.
Theorem c50_ub_only_unknown_inner : forall items, read_area items = UB -> exists ns, In (AInner ns) items /\ known ns = [].
Proof. exact area_ub. Qed.
Print Assumptions c50_ub_only_unknown_inner.

(** C50 (finding): a too short inner ring is not dropped; it stays as an unclosed
    ring of fewer points *)
Theorem c50_short_inner_dropped_refuted : ~ (forall items ps, read_area items = Ok (GPoly ps) ->
  Forall (fun p => Forall (fun r => (3 <= length r)%nat) (snd p)) ps).
Proof.
  intros H. specialize (H [AOuter [Some (0, 0); Some (9, 0); Some (0, 9)]%Z; AInner [Some (1, 1); None]%Z] _ eq_refl).
  apply Forall_inv in H. cbn [snd] in H. apply Forall_inv in H. cbn in H. lia.
Qed.
Print Assumptions c50_short_inner_dropped_refuted.

Example c50_ex : read_area (area_items [([Some (0, 0); Some (9, 0); None; Some (0, 9)], [[Some (1, 1); Some (2, 1); Some (1, 2); Some (1, 1)]])]%Z) =
  Ok (GPoly [([(0, 0); (9, 0); (0, 9); (0, 0)], [[(1, 1); (2, 1); (1, 2); (1, 1)]])]%Z).
Proof. reflexivity. Qed.
