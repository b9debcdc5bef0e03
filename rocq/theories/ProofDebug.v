(** The debug layer. *)
From Verif Require Import Base BaseProof ModelTile ModelCodec ProofCodec ModelGeom ModelFeature ModelMvt SpecMvt ProofMvt ProofMvtGeom ProofMvtTile.
From Verif Require Import ModelServer SpecServer ModelDebug SpecDebug.
From Coq Require Import String.
From Coq Require Import List.
Import ListNotations.
Open Scope N_scope.

Lemma dec_digits_spec f : forall v, v < 10 ^ N.of_nat f -> (0 < f)%nat -> decimal (dec_digits f v) v.
Proof.
  induction f as [|f IH]; intros v H Hf; [lia|]. cbn [dec_digits]. destruct (N.ltb_spec v 10) as [L|L].
  - replace v with (48 + v - 48) at 2 by lia. constructor. lia.
  - pose proof (N.mod_lt v 10 ltac:(lia)) as M. pose proof (N.div_mod v 10 ltac:(lia)) as D.
    replace v with (v / 10 * 10 + (48 + v mod 10 - 48)) at 3 by lia. constructor; [|lia]. apply IH.
    + replace (N.of_nat (S f)) with (N.of_nat f + 1) in H by lia. rewrite N.pow_add_r in H. apply N.div_lt_upper_bound; lia.
    + destruct f; [|lia]. change (10 ^ N.of_nat 1) with 10 in H. lia.
Qed.
Lemma fmt_spec v : v < 2 ^ 32 -> decimal (fmt_u32 v) v.
Proof. intros H. apply dec_digits_spec; [|lia]. eapply N.lt_trans; [exact H|]. reflexivity. Qed.
Lemma dec_digits_len f : forall v, (length (dec_digits f v) <= f)%nat.
Proof. induction f as [|f IH]; intros v; cbn [dec_digits length]; [lia|]. destruct (v <? 10); [cbn [length]; lia|]. rewrite app_length. specialize (IH (v / 10)). cbn [length]. lia. Qed.
Lemma label_len t : blen (tile_label t) < 2 ^ 10.
Proof.
  unfold tile_label, fmt_u32, blen. rewrite !app_length.
  pose proof (dec_digits_len 10 (tx t)). pose proof (dec_digits_len 10 (ty t)). pose proof (dec_digits_len 10 (tz t)).
  change (length (lit "[x=")) with 3%nat. change (length (lit ", y=")) with 4%nat. change (length (lit ", z=")) with 4%nat. change (length (lit "]")) with 1%nat. lia.
Qed.

(** reading with and without ids *)
Lemma obind_some {A B} (o : option A) (f : A -> option B) r : obind o f = Some r -> exists a, o = Some a /\ f a = Some r.
Proof. destruct o as [a|]; [|discriminate]. intros H. exists a. auto. Qed.
Lemma all_some_in {A} (l : list (option A)) : forall r, all_some l = Some r -> l = map Some r.
Proof.
  induction l as [|[a|] l IH]; intros r H; cbn [all_some] in H; [injection H as <-; reflexivity| |discriminate].
  destruct (all_some l) as [r0|]; [|discriminate]. injection H as <-. cbn [map]. now rewrite (IH r0).
Qed.
Lemma read_feature_ids ks vs b v : decode_feature ks vs b = Some v -> read_feature ks vs b = Some (with_id v).
Proof.
  unfold decode_feature, read_feature. intros H. apply obind_some in H as (m & -> & H). cbn [obind].
  apply obind_some in H as (id & Hid & H). apply obind_some in Hid as (w & Hw & Hid).
  destruct (field_all 1 m) as [|w0 [|]]; try discriminate. injection Hw as ->. destruct w; try discriminate. injection Hid as ->. cbn [obind].
  apply obind_some in H as (ty & -> & H). cbn [obind]. apply obind_some in H as (cm & -> & H). cbn [obind]. apply obind_some in H as (t & -> & H). cbn [obind].
  apply obind_some in H as (g & -> & H). cbn [obind]. apply obind_some in H as (tags & -> & H). cbn [obind]. injection H as <-. reflexivity.
Qed.
Lemma all_some_lift {A B C} (f : A -> option B) (g : A -> option C) (h : B -> C) l r :
  (forall a b, f a = Some b -> g a = Some (h b)) -> all_some (map f l) = Some r -> all_some (map g l) = Some (map h r).
Proof.
  intros H. revert r. induction l as [|a l IH]; intros r E; cbn [map all_some] in *; [injection E as <-; reflexivity|].
  destruct (f a) as [b|] eqn:F; [|discriminate]. rewrite (H _ _ F). destruct (all_some (map f l)) as [r0|]; [|discriminate]. injection E as <-.
  now rewrite (IH r0).
Qed.
Lemma read_layer_ids b l : decode_layer b = Some l -> read_layer b = Some (with_ids l).
Proof.
  unfold decode_layer, read_layer. intros H. apply obind_some in H as (m & -> & H). cbn [obind].
  apply obind_some in H as (v & -> & H). cbn [obind]. apply obind_some in H as (n & -> & H). cbn [obind]. apply obind_some in H as (e & -> & H). cbn [obind].
  apply obind_some in H as (ks & -> & H). cbn [obind]. apply obind_some in H as (vs & -> & H). cbn [obind]. apply obind_some in H as (fs & Hf & H). injection H as <-.
  erewrite all_some_lift; [reflexivity| |exact Hf]. intros w f. cbn beta. destruct (as_len w) as [x|]; [|discriminate]. cbn [obind]. apply read_feature_ids.
Qed.

Lemma debug_label_bytes t spec : make_tile_spec t = Ok spec ->
  debug_label spec = Ok (enc_msg [(2, WLen [0; 0]); (3, WInt 1); (4, WLen [9; 128; 32; 128; 32])]).
Proof.
  unfold make_tile_spec. intros H. apply bind_ok in H as ([] & _ & H). apply bind_ok in H as ([] & _ & H). apply Ok_inj in H. subst spec.
  unfold debug_label, encode_geometry. cbn [px_bounds bminx bminy bmaxx bmaxy encode_deltas fst snd].
  set (x := Z.of_N (tx t)). set (y := Z.of_N (ty t)).
  replace ((x + 1) * 4096 - x * 4096)%Z with 4096%Z by lia. replace ((y + 1) * 4096 - y * 4096)%Z with 4096%Z by lia.
  change (Z.quot 4096 2) with 2048%Z. unfold sub64.
  replace (x * 4096 + 2048 - x * 4096)%Z with 2048%Z by lia. replace (y * 4096 + 2048 - y * 4096)%Z with 2048%Z by lia. reflexivity.
Qed.
Lemma debug_outline_bytes t spec : make_tile_spec t = Ok spec ->
  exists b, debug_outline spec = Ok b /\ b = enc_msg [(3, WInt 2); (4, WLen [9; 0; 0; 34; 0; 128; 64; 128; 64; 0; 0; 255; 63; 255; 63; 0])].
Proof.
  unfold make_tile_spec. intros H. apply bind_ok in H as ([] & _ & H). apply bind_ok in H as ([] & _ & H). apply Ok_inj in H. subst spec.
  eexists. split; [|reflexivity]. unfold debug_outline, encode_geometry. cbn [px_bounds bminx bminy bmaxx bmaxy encode_paths].
  unfold encode_path. cbn [length firstn skipn Nat.sub encode_deltas fst snd].
  set (x := Z.of_N (tx t)). set (y := Z.of_N (ty t)). unfold sub64.
  change (1 <? N.of_nat 5) with true.
  assert (E1 : (x * 4096 - x * 4096)%Z = 0%Z) by lia. assert (E2 : (y * 4096 - y * 4096)%Z = 0%Z) by lia.
  assert (E3 : ((x + 1) * 4096 - (x + 1) * 4096)%Z = 0%Z) by lia. assert (E4 : ((y + 1) * 4096 - (y + 1) * 4096)%Z = 0%Z) by lia.
  assert (E5 : ((x + 1) * 4096 - x * 4096)%Z = 4096%Z) by lia. assert (E6 : ((y + 1) * 4096 - y * 4096)%Z = 4096%Z) by lia.
  assert (E7 : (x * 4096 - (x + 1) * 4096)%Z = (-4096)%Z) by lia. assert (E8 : (y * 4096 - (y + 1) * 4096)%Z = (-4096)%Z) by lia.
  do 12 (cbn [verify bind fst snd negb orb]; rewrite ?E1, ?E2, ?E3, ?E4, ?E5, ?E6, ?E7, ?E8;
    change (int64_ok 0) with true; change (int64_ok 4096) with true; change (int64_ok (-4096)) with true; cbv iota).
  cbn [verify bind fst snd negb orb]. reflexivity.
Qed.

Definition debug_msg (label : bytes) : list (N * wire) :=
  [(15, WInt 2); (1, WLen (lit "tiles_debug_info")); (5, WInt 4096);
   (2, WLen (enc_msg [(2, WLen [0; 0]); (3, WInt 1); (4, WLen [9; 128; 32; 128; 32])]));
   (2, WLen (enc_msg [(3, WInt 2); (4, WLen [9; 0; 0; 34; 0; 128; 64; 128; 64; 0; 0; 255; 63; 255; 63; 0])]));
   (3, WLen (lit "tile_id")); (4, WLen (enc_field (1, WLen label)))].

Lemma debug_layer_bytes t spec : make_tile_spec t = Ok spec -> debug_layer spec t = Ok (enc_msg (debug_msg (tile_label t))).
Proof.
  intros H. unfold debug_layer. rewrite (debug_label_bytes t spec H). cbn [bind].
  destruct (debug_outline_bytes t spec H) as (b & -> & ->). cbn [bind].
  set (f1 := enc_msg [(2, WLen [0; 0]); (3, WInt 1); (4, WLen [9; 128; 32; 128; 32])]).
  set (f2 := enc_msg [(3, WInt 2); _]). unfold lb_finish. cbn [lb_vals lb_keys lb_buf encode_values]. unfold encode_value. change (2 =? 0) with false. change (2 =? 1) with false. change (2 =? 2) with true.
  cbv iota. cbn [bind]. unfold debug_msg. fold f1. fold f2. clearbody f1 f2. set (lab := tile_label t). clearbody lab.
  unfold enc_msg. cbn [flat_map layer_builder_init lb_buf enc_field fst snd]. rewrite !app_nil_r, <- !app_assoc. reflexivity.
Qed.

Lemma enc_field_len tag d : blen (enc_field (tag, WLen d)) <= blen d + 20.
Proof.
  unfold enc_field. cbn [fst snd]. unfold field_bytes, field_key, blen. rewrite !app_length.
  pose proof (varint_len_f 10 (tag * 8 + WT_LEN)). pose proof (varint_len_f 10 (N.of_nat (length d))). unfold varint_enc. lia.
Qed.
Lemma debug_msg_ok label : blen label < 2 ^ 10 -> Forall wire_ok (debug_msg label).
Proof.
  intros H. unfold debug_msg. repeat constructor; try reflexivity. cbn [snd]. pose proof (enc_field_len 1 label). lia.
Qed.
Lemma enc_msg_len m : forall n, Forall (fun f => blen (enc_field f) <= n) m -> blen (enc_msg m) <= N.of_nat (length m) * n.
Proof.
  induction m as [|f m IH]; intros n H; [unfold blen; cbn; lia|]. inversion H. subst. unfold enc_msg in *. cbn [flat_map length]. rewrite blen_app. specialize (IH n H3). lia.
Qed.
Lemma debug_msg_len label : blen label < 2 ^ 10 -> blen (enc_msg (debug_msg label)) < 2 ^ 20.
Proof.
  intros H. assert (F : Forall (fun f => blen (enc_field f) <= 2 ^ 11) (debug_msg label)).
  { unfold debug_msg. repeat (constructor; [vm_compute; discriminate|]). constructor; [|constructor].
    pose proof (enc_field_len 4 (enc_field (1, WLen label))). pose proof (enc_field_len 1 label). lia. }
  apply enc_msg_len in F. change (N.of_nat (length (debug_msg label))) with 7 in F. lia.
Qed.

Lemma debug_layer_reads label : blen label < 2 ^ 10 -> read_layer (enc_msg (debug_msg label)) = Some (debug_info label).
Proof.
  intros H. unfold read_layer. rewrite parse_msg_enc by now apply debug_msg_ok. cbn [obind].
  set (f1 := enc_msg [(2, WLen [0; 0]); (3, WInt 1); (4, WLen [9; 128; 32; 128; 32])]).
  set (f2 := enc_msg [(3, WInt 2); (4, WLen [9; 0; 0; 34; 0; 128; 64; 128; 64; 0; 0; 255; 63; 255; 63; 0])]).
  assert (V : decode_value (enc_field (1, WLen label)) = Some (MString label)).
  { unfold decode_value. replace (enc_field (1, WLen label)) with (enc_msg [(1, WLen label)]) by (unfold enc_msg; cbn [flat_map]; apply app_nil_r).
    rewrite parse_msg_enc; [reflexivity|]. constructor; [|constructor]. split; [reflexivity|]. cbn [snd]. lia. }
  unfold debug_msg. fold f1 f2.
  assert (R1 : read_feature [lit "tile_id"] [MString label] f1 = Some (AFeature None (VPoints [(2048, 2048)%Z]) [(lit "tile_id", MString label)])).
  { unfold read_feature, f1. rewrite parse_msg_enc by (repeat constructor; reflexivity). reflexivity. }
  assert (R2 : read_feature [lit "tile_id"] [MString label] f2 = Some (AFeature None (VLines [[(0, 0); (0, 4096); (4096, 4096); (4096, 0); (0, 0)]%Z]) [])).
  { unfold read_feature, f2. rewrite parse_msg_enc by (repeat constructor; reflexivity). reflexivity. }
  clearbody f1 f2. set (fv := enc_field (1, WLen label)) in *. clearbody fv.
  unfold field_all. cbn [map filter fst snd N.eqb Pos.eqb field_one obind as_int as_len all_some].
  rewrite V. cbn [all_some obind]. rewrite R1, R2. reflexivity.
Qed.

Lemma debug_tile c t fs buf vls : make_tile_spec t = Ok (c_spec c) -> tx t < 2 ^ 32 -> ty t < 2 ^ 32 -> tz t < 2 ^ 32 ->
  build_tile c fs = Ok buf -> decode_tile buf = Some vls -> 
  (exists m, buf = enc_msg m /\ Forall wire_ok m) ->
  exists buf' label, build_tile_debug c t fs = Ok buf' /\ names_tile t label /\ read_tile buf' = Some (map with_ids vls ++ [debug_info label]).
Proof.
  intros Hs Hx Hy Hz Hb Hd (m & -> & Hm). unfold build_tile in Hb. apply bind_ok in Hb as (tb & T1 & T2). unfold build_tile_debug. rewrite T1. cbn [bind]. rewrite T2. cbn [bind].
  rewrite (debug_layer_bytes t _ Hs). cbn [bind]. eexists _, (tile_label t). split; [reflexivity|]. split.
  { exists (fmt_u32 (tx t)), (fmt_u32 (ty t)), (fmt_u32 (tz t)). split; [now apply fmt_spec|]. split; [now apply fmt_spec|]. split; [now apply fmt_spec|]. reflexivity. }
  pose proof (label_len t) as Ll. set (d := enc_msg (debug_msg (tile_label t))).
  replace (enc_msg m ++ field_bytes MT_LAYERS d) with (enc_msg (m ++ [(3, WLen d)])).
  2:{ unfold enc_msg. rewrite flat_map_app. cbn [flat_map]. now rewrite app_nil_r. }
  unfold read_tile, decode_tile in *. rewrite parse_msg_enc in Hd by exact Hm. rewrite parse_msg_enc.
  2:{ apply Forall_app. split; [exact Hm|]. constructor; [|constructor]. split; [reflexivity|]. cbn [snd]. pose proof (debug_msg_len _ Ll) as L. fold d in L. lia. }
  cbn [obind] in *. rewrite map_app. 
  assert (A : all_some (map (fun f => if fst f =? 3 then obind (as_len (snd f)) read_layer else None) m) = Some (map with_ids vls)).
  { eapply all_some_lift; [|exact Hd]. intros f l. cbn beta. destruct (fst f =? 3); [|discriminate]. destruct (as_len (snd f)); [|discriminate]. cbn [obind]. apply read_layer_ids. }
  assert (C : forall l, all_some (l ++ [Some (debug_info (tile_label t))]) = match all_some l with Some r => Some (r ++ [debug_info (tile_label t)]) | None => None end).
  { clear. induction l as [|[a|] l IH]; cbn [app all_some]; [reflexivity| |reflexivity]. rewrite IH. destruct (all_some l); reflexivity. }
  cbn [map fst snd N.eqb Pos.eqb as_len obind]. unfold d. rewrite debug_layer_reads by exact Ll. rewrite C, A. reflexivity.
Qed.

(** ** a finished tile is a protobuf message *)
Lemma tile_message c t fs buf : ctx_for c t -> Forall (fun f => f_id f < 2 ^ 64) fs -> aggregate_ok (c_aggregate c) ->
  build_tile c fs = Ok buf -> blen buf < 2 ^ 29 -> exists m, buf = enc_msg m /\ Forall wire_ok m.
Proof.
  intros Hc Hid Ha H Hb. unfold build_tile in H. apply bind_ok in H as (tb & E & H).
  destruct (tb_add_features_spec c fs [] [] tb (tb_inv_init c) E) as (I1 & I2 & I3). cbn [app] in *.
  assert (Hl : forall i lb, In (i, lb) tb -> lookup i tb = Some lb).
  { clear - I1. unfold sorted_tb, keys in I1. induction tb as [|[j lb0] tb IH]; intros i lb Hin; [destruct Hin|].
    cbn [map fst] in I1. apply Sorted.StronglySorted_inv in I1 as [S1 S2]. rewrite Forall_forall in S2. cbn [lookup].
    destruct Hin as [Hin|Hin].
    - injection Hin as -> ->. now rewrite N.eqb_refl.
    - assert (In i (map fst tb)) by (apply in_map_iff; exists (i, lb); auto).
      specialize (S2 _ H). replace (i =? j) with false by lia. now apply IH. }
  destruct (tb_finish_spec c fs tb buf I1) as (ls & vls & bs & A1 & A2 & A3 & A4 & A5); try assumption.
  { intros i lb Hin. apply I3. now apply Hl. }
  { intros i ws. now apply content_presentable with (t := t). }
  exists (map (fun b => (3, WLen b)) bs). split; [exact A1|].
  apply Forall_map, Forall_forall. intros b Hbn. split; [reflexivity|]. cbn [snd].
  assert (In (3, WLen b) (map (fun b => (3, WLen b)) bs)) by (apply in_map_iff; eauto).
  apply blen_in in H0. rewrite <- A1 in H0. lia.
Qed.

Lemma exists_coords t spec : make_tile_spec t = Ok spec -> tx t < 2 ^ 32 /\ ty t < 2 ^ 32 /\ tz t < 2 ^ 32.
Proof.
  unfold make_tile_spec. intros H. apply bind_ok in H as ([] & V & H). apply verify_ok in V.
  apply bind_ok in H as ([] & W & H). apply verify_ok in W. apply andb_true_iff in W as [W1 W2].
  apply N.leb_le in V. apply N.ltb_lt in W1, W2. rewrite N.shiftl_1_l in W1, W2. unfold kMaxZoomLevel in V.
  assert (2 ^ tz t <= 2 ^ 20) by (apply N.pow_le_mono_r; lia). change (2 ^ 20) with 1048576 in *. change (2 ^ 32) with 4294967296. lia.
Qed.

Lemma debug_tile_content c t fs buf : ctx_for c t -> Forall (fun f => f_id f < 2 ^ 64) fs -> aggregate_ok (c_aggregate c) ->
  build_tile c fs = Ok buf -> blen buf < 2 ^ 29 ->
  exists buf' vls label, build_tile_debug c t fs = Ok buf' /\ decode_tile buf = Some vls /\ names_tile t label /\
    read_tile buf = Some (map with_ids vls) /\
    read_tile buf' = Some (map with_ids vls ++ [debug_info label]) /\ firstn (length buf) buf' = buf.
Proof.
  intros Hc Hid Ha Hb Hl. destruct (tile_message c t fs buf Hc Hid Ha Hb Hl) as (m & Em & Hm).
  destruct (tile_decodes c t fs buf Hc Hid Ha Hb Hl) as (ls & vls & D & _).
  pose proof Hc as [Hs _]. destruct (exists_coords _ _ Hs) as (X & Y & Z).
  destruct (debug_tile c t fs buf vls Hs X Y Z Hb D (ex_intro _ m (conj Em Hm))) as (buf' & label & E1 & E2 & E3).
  exists buf', vls, label. split; [exact E1|]. split; [exact D|]. split; [exact E2|]. split; [|split; [exact E3|]].
  - unfold read_tile, decode_tile in *. rewrite Em, parse_msg_enc in * by exact Hm. cbn [obind] in *.
    eapply all_some_lift; [|exact D]. intros f l. cbn beta. destruct (fst f =? 3); [|discriminate]. destruct (as_len (snd f)); [|discriminate]. cbn [obind]. apply read_layer_ids.
  - unfold build_tile in Hb. apply bind_ok in Hb as (tb & T1 & T2). unfold build_tile_debug in E1. rewrite T1 in E1. cbn [bind] in E1. rewrite T2 in E1. cbn [bind] in E1.
    apply bind_ok in E1 as (d & _ & E1). apply Ok_inj in E1. subst buf'. rewrite firstn_app, Nat.sub_diag, firstn_all. cbn [firstn]. apply app_nil_r.
Qed.

Lemma debug_same_outcome c t fs : make_tile_spec t = Ok (c_spec c) ->
  match build_tile c fs with
  | Ok _ => exists buf', build_tile_debug c t fs = Ok buf'
  | Throw => build_tile_debug c t fs = Throw
  | UB => build_tile_debug c t fs = UB
  | Fuel => build_tile_debug c t fs = Fuel
  end.
Proof.
  intros Hs. unfold build_tile, build_tile_debug. destruct (tb_add_features c [] fs) as [tb| | |]; cbn [bind]; try reflexivity.
  destruct (tb_finish c tb) as [b| | |]; cbn [bind]; try reflexivity. rewrite (debug_layer_bytes t _ Hs). cbn [bind]. eauto.
Qed.
