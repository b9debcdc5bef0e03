(** Properties C12-C14: feature packs with a quad tree index. *)
From Coq Require Import Permutation.
From Verif Require Import Base ModelTile SpecTile ModelCodec ModelGeom SpecGeom ModelFeature SpecFeature
  ModelQuadTree SpecQuadTree ModelPack SpecPack ProofPack ModelPacker SpecPacker ProofQuadOrder ProofBestTile ProofPackerProps PropCodec.
Open Scope N_scope.

(** C12: whatever sorting function is used *)
Theorem c12_packer_keeps_everything : forall enc dec mk rd srt root,
  sorts_by_key srt -> coder_ok enc dec -> forall packs fss B,
  tz root <= 20 -> valid_tile root ->
  Forall2 (pack_holds dec) packs fss -> Forall plain_feature (concat fss) ->
  pack_features_quad enc dec mk rd srt root packs = Ok B -> blen B < 2 ^ 30 ->
  feature_pack_valid B = true /\
  exists fs out rest, Permutation fs (concat fss) /\ unpack_features B = Ok (out, rest) /\
    Forall2 (reads_as dec rd) fs out.
Proof. exact packer_keeps. Qed.
Print Assumptions c12_packer_keeps_everything.

Theorem c12_packer_succeeds : forall enc dec mk rd srt root,
  sorts_by_key srt -> forall packs fss,
  tz root <= 20 -> valid_tile root ->
  Forall2 (pack_holds dec) packs fss -> Forall (fits enc mk root) (concat fss) ->
  N.of_nat (length (concat fss)) < 2 ^ 32 ->
  exists B, pack_features_quad enc dec mk rd srt root packs = Ok B.
Proof. exact packer_succeeds. Qed.
Print Assumptions c12_packer_succeeds.

(** C12: a pack written by the packer holds the features again, so that it can be packed again *)
Theorem c12_can_be_packed_again : forall enc dec mk rd srt root,
  sorts_by_key srt -> coder_ok enc dec -> forall packs fss B,
  tz root <= 20 -> valid_tile root ->
  Forall2 (pack_holds dec) packs fss -> Forall plain_feature (concat fss) ->
  pack_features_quad enc dec mk rd srt root packs = Ok B -> blen B < 2 ^ 30 ->
  exists fs, Permutation fs (concat fss) /\ pack_holds dec B fs.
Proof. exact packed_again. Qed.
Print Assumptions c12_can_be_packed_again.

(** C13 *)
Theorem c13_indexed_unpack : forall enc dec mk rd srt root,
  sorts_by_key srt -> coder_ok enc dec -> forall packs fss B q,
  tz root <= 20 -> valid_tile root ->
  Forall2 (pack_holds dec) packs fss -> Forall plain_feature (concat fss) ->
  pack_features_quad enc dec mk rd srt root packs = Ok B -> blen B < 2 ^ 30 ->
  tz q <= 20 -> related root q ->
  exists out found missed, unpack_features_for root B q = Ok out /\
    Permutation (found ++ missed) (concat fss) /\ Forall2 (reads_as dec rd) found out /\
    Forall (fun f => f_minz f <= N.max (tz root) (tz q) /\ node_related root f q) found /\
    Forall (fun f => ~ must_find root q f) missed.
Proof. exact indexed_finds. Qed.
Print Assumptions c13_indexed_unpack.

(** C14 *)
Theorem c14_best_tile : forall root fb,
  tz root <= 20 -> valid_tile root -> box_wf fb -> touches fb (tile_area root) ->
  exists b, find_best_tile root fb = Ok b /\ covers root b /\ tz b <= 20 /\ touches fb (tile_area b) /\
    forall s, covers root s -> tz s <= 20 -> touches fb (tile_area s) -> related b s.
Proof. exact best_tile_ok. Qed.
Print Assumptions c14_best_tile.
Theorem c14_best_tile_rejects : forall root fb,
  tz root < 20 -> valid_tile root -> ~ touches fb (tile_area root) -> find_best_tile root fb = Throw.
Proof. exact best_tile_rejects. Qed.
Print Assumptions c14_best_tile_rejects.

(** a concrete sorting function: insertion sort *)
Fixpoint ins (x : qfeature) (l : list qfeature) : list qfeature :=
  match l with
  | [] => [x]
  | y :: l' => if lex_leb (qf_key x) (qf_key y) then x :: l else y :: ins x l'
  end.
Definition isort (l : list qfeature) : list qfeature := fold_right ins [] l.

Definition c12_root : tile := Tile 550 340 10.
Definition c12_f1 : feature := Feature 7 1 5 12 [([1], [2]); ([7], [8])]
  (GLine [[(2306867200, 1426063360); (2306868200, 1426064360); (2306869999, 1426063399)]]%Z).
Definition c12_f2 : feature := Feature 8 1 12 20 [] (GPoint [(2310000000, 1426063360)]%Z).
Definition c12_f3 : feature := Feature 9 2 0 20 []
  (GPoly [([(2306867200, 1426063360); (2310867200, 1426063360); (2310867200, 1429063360); (2306867200, 1426063360)], [])]%Z).
Definition c12_pack (fs : list feature) : res bytes :=
  do ss <- map_res (serialize_feature c21_enc c21_mk true) fs; pack_features ss.
Definition c12_result : res bytes :=
  do p1 <- c12_pack [c12_f1; c12_f2]; do p2 <- c12_pack [c12_f3];
  pack_features_quad c21_enc c21_dec c21_mk c21_rd isort c12_root [p1; p2].
Definition ids_of (ss : list bytes) : res (list N) :=
  map_res (fun s => do o <- deserialize_feature c21_dec c21_rd no_hints s; match o with Some f => Ok (f_id f) | None => Throw end) ss.
Example c12_ex : exists B, c12_result = Ok B /\ (blen B <? 2 ^ 30) = true /\ feature_pack_valid B = true /\
  (do (out, _) <- unpack_features B; ids_of out) = Ok [9; 7; 8].
Proof. eexists. split; [vm_compute; reflexivity|]. split; [vm_compute; reflexivity|]. split; vm_compute; reflexivity. Qed.
Example c13_ex : exists B, c12_result = Ok B /\
  (do out <- unpack_features_for c12_root B (Tile 1100 680 11); ids_of out) = Ok [9; 7] /\
  (do out <- unpack_features_for c12_root B (Tile 2202 1360 12); ids_of out) = Ok [9; 8] /\
  (do out <- unpack_features_for c12_root B (Tile 2203 1361 12); ids_of out) = Ok [9] /\
  (do out <- unpack_features_for c12_root B c12_root; ids_of out) = Ok [9; 7].
Proof. eexists. do 4 (split; [vm_compute; reflexivity|]). vm_compute; reflexivity. Qed.
Example c14_ex : find_best_tile c12_root (bounding_box (f_geom c12_f2)) = Ok (Tile 563964 348160 20) /\
  find_best_tile c12_root (bounding_box (f_geom c12_f3)) = Ok c12_root.
Proof. split; vm_compute; reflexivity. Qed.

(** the hypotheses of C12 and C13 are met by this case *)
Lemma ins_perm x l : Permutation (ins x l) (x :: l).
Proof. induction l as [|y l IH]; [reflexivity|]. cbn [ins]. destruct (lex_leb _ _); [reflexivity|]. rewrite IH. constructor. Qed.
Example c12_ex_sort : sorts_by_key isort.
Proof.
  intros l. induction l as [|x l [IH1 IH2]]; [split; constructor|]. cbn [isort fold_right]. fold (isort l). split.
  - rewrite ins_perm. now constructor.
  - clear IH1. induction IH2 as [|y m HS IH HF]; cbn [ins].
    { constructor; constructor. }
    destruct (lex_leb (qf_key x) (qf_key y)) eqn:E.
    + constructor; [now constructor|]. constructor; [assumption|]. eapply Forall_impl; [|exact HF]. cbv beta. intros z Hz. eapply lex_trans; eauto.
    + constructor; [assumption|]. eapply Permutation_Forall; [symmetry; apply ins_perm|]. constructor; [|assumption].
      destruct (lex_total (qf_key x) (qf_key y)); congruence.
Qed.
Example c12_ex_features : Forall plain_feature [c12_f1; c12_f2; c12_f3].
Proof.
  repeat apply Forall_cons; [..|apply Forall_nil]; split; try discriminate;
    try (split; [discriminate|]; apply Forall_cons; [split; [vm_compute; apply le_n | apply Forall_nil] | apply Forall_nil]);
    do 4 (split; [vm_compute; reflexivity|]); repeat (apply Forall_cons; [split; vm_compute; reflexivity|]); apply Forall_nil.
Qed.
Example c12_ex_packs : exists p1 p2, c12_pack [c12_f1; c12_f2] = Ok p1 /\ c12_pack [c12_f3] = Ok p2 /\
  Forall2 (pack_holds c21_dec) [p1; p2] [[c12_f1; c12_f2]; [c12_f3]].
Proof.
  eexists _, _. split; [vm_compute; reflexivity|]. split; [vm_compute; reflexivity|].
  assert (HC : coder_ok c21_enc c21_dec) by apply c21_ex.
  assert (HX : forall f s, serialize_feature c21_enc c21_mk true f = Ok s -> (blen s <? 2 ^ 32) = true -> stored_as c21_dec f s).
  { intros f s H1 H2. split; [now apply N.ltb_lt|]. exists f, c21_enc, c21_mk, true. split; [repeat split; apply Permutation_refl|]. split; assumption. }
  constructor; [|constructor; [|constructor]].
  - eexists _, _. split; [vm_compute; reflexivity|]. repeat constructor; apply HX; vm_compute; reflexivity.
  - eexists _, _. split; [vm_compute; reflexivity|]. repeat constructor; apply HX; vm_compute; reflexivity.
Qed.
Example c12_ex_fits : Forall (fits c21_enc c21_mk c12_root) [c12_f1; c12_f2; c12_f3].
Proof.
  assert (HF : forall f, plain_feature f -> (f_minz f <=? 20) = true -> boxes_touch (bounding_box (f_geom f)) (tile_area c12_root) = true ->
    geom_far (f_geom f) -> box_far (bounding_box (f_geom f)) -> fits c21_enc c21_mk c12_root f).
  { intros f H1 H2 H3 H4 H5. split; [assumption|]. split; [now apply N.leb_le|]. split; [now apply boxes_touch_spec|].
    intros f' s (_ & _ & _ & _ & _ & E) HS. rewrite <- E in H4, H5. eapply feature_far_size; eassumption. }
  pose proof c12_ex_features as HP. inversion HP as [|? ? P1 HP1]; subst. inversion HP1 as [|? ? P2 HP2]; subst. inversion HP2 as [|? ? P3 _]; subst.
  repeat apply Forall_cons; [..|apply Forall_nil]; apply HF; try assumption; try (vm_compute; reflexivity); split; unfold far; vm_compute; auto.
Qed.
