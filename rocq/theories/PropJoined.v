(** C78: lines on prepared tiles. *)
From Coq Require Import Permutation String Ascii.
From Coq Require Import List.
From Verif Require Import Base BaseProof ModelTile SpecTile ModelPacker SpecPacker ModelCodec ModelGeom SpecGeom ModelFeature SpecFeature ModelMvt SpecMvt SpecLines ModelRender SpecRender ProofRender ModelInserter SpecInserter
  ModelDict SpecDict ModelOsm SpecOsm ModelServer ModelImport SpecImport SpecJoined
  ProofImportServe ProofJoinedTop ProofImportEx PropFinish ModelCrash SpecCrash ProofCrash.
From Verif Require ModelAggregate SpecAggregate PropAggregate.
Import ListNotations.
Open Scope N_scope.

(** C78: after every history with prepared tiles, on every tile up to zoom level 10: an object with lines that the profile approves and that
    reaches the tile is drawn together with other objects of the layer that have the same metadata: their lines are joined (C41), cut at the tile,
    and if anything of it is left then the tile has it, with that metadata and the smallest of the ids; *)
Theorem c78_line_shown : forall L j co raw st simp, libs_ok L -> joins_by simp (l_aggregate L) -> job_ok L j -> history L j co true raw true st ->
  forall t i layer mn, tz t <= 10 -> valid_tile t -> In i (j_objs j) -> imported L i layer mn -> kind (snd (fst i)) = 2 ->
  (forall i' mn', In i' (j_objs j) -> imported L i' layer mn' -> to_u64 (o_id (fst (fst i'))) = to_u64 (o_id (fst (fst i))) -> kind (snd (fst i')) = 2 -> i' = i) ->
  mn <= tz t -> meets (tz t) t (bounding_box (snd (fst i))) = true ->
  exists os ls g', In i os /\ strip L j simp raw t layer os ls /\ clip (l_cut L) (draw_area t) (GLine ls) = Ok g' /\
    (shift_geom (tz t) g' <> GNull -> answers_with L st t (fun vls => exists vl v, In vl vls /\ In v (vl_features vl) /\ vl_name vl = layer /\ shows_strip L t os g' v)).
Proof.
  intros L j co raw st simp HL HS HJ H t i layer mn H1 H2 H3 H4 H5 H6 H7 H8.
  exact (strip_shown L j co raw true st simp HL HS (history_sinv _ _ _ _ _ _ _ HL HJ H) t i layer mn H1 H2 H3 H4 H5 H6 H7 H8 (or_introl eq_refl)).
Qed.
Print Assumptions c78_line_shown.

(** and these tiles have no other lines. *)
Theorem c78_lines_only : forall L j co raw st simp, libs_ok L -> joins_by simp (l_aggregate L) -> job_ok L j -> history L j co true raw true st ->
  forall t z, tz t <= 10 -> valid_tile t -> serve_tile L st t = Ok (Some z) ->
  exists buf, l_deflate L buf = Ok z /\ (blen buf < 2 ^ 29 -> exists vls, decode_tile buf = Some vls /\ forall vl v, In vl vls -> In v (vl_features vl) -> vkind (v_geom v) = 2 ->
    exists os ls g', strip L j simp raw t (vl_name vl) os ls /\ clip (l_cut L) (draw_area t) (GLine ls) = Ok g' /\ shows_strip L t os g' v).
Proof. intros L j co raw st simp HL HS HJ H. exact (strip_only L j co raw true st simp HL HS (history_sinv _ _ _ _ _ _ _ HL HJ H)). Qed.
Print Assumptions c78_lines_only.

(** Both hold after runs that were stopped, the first for index tiles that have their entry. *)
Theorem c78_line_shown_stopped : forall L j co raw whole st simp, libs_ok L -> joins_by simp (l_aggregate L) -> job_ok L j -> interrupted L j co true raw true whole st ->
  forall t i layer mn, tz t <= 10 -> valid_tile t -> In i (j_objs j) -> imported L i layer mn -> kind (snd (fst i)) = 2 ->
  (forall i' mn', In i' (j_objs j) -> imported L i' layer mn' -> to_u64 (o_id (fst (fst i'))) = to_u64 (o_id (fst (fst i))) -> kind (snd (fst i')) = 2 -> i' = i) ->
  mn <= tz t -> meets (tz t) t (bounding_box (snd (fst i))) = true ->
  (whole = true \/ exists ix, index_tile 10 ix /\ related ix t /\ meets 10 ix (bounding_box (snd (fst i))) = true /\ has_entry (st_features st) ix) ->
  exists os ls g', In i os /\ strip L j simp raw t layer os ls /\ clip (l_cut L) (draw_area t) (GLine ls) = Ok g' /\
    (shift_geom (tz t) g' <> GNull -> answers_with L st t (fun vls => exists vl v, In vl vls /\ In v (vl_features vl) /\ vl_name vl = layer /\ shows_strip L t os g' v)).
Proof. intros L j co raw whole st simp HL HS HJ H. exact (strip_shown L j co raw whole st simp HL HS (interrupted_sinv _ _ _ _ _ _ _ _ HL HJ H)). Qed.
Print Assumptions c78_line_shown_stopped.
Theorem c78_lines_only_stopped : forall L j co raw whole st simp, libs_ok L -> joins_by simp (l_aggregate L) -> job_ok L j -> interrupted L j co true raw true whole st ->
  forall t z, tz t <= 10 -> valid_tile t -> serve_tile L st t = Ok (Some z) ->
  exists buf, l_deflate L buf = Ok z /\ (blen buf < 2 ^ 29 -> exists vls, decode_tile buf = Some vls /\ forall vl v, In vl vls -> In v (vl_features vl) -> vkind (v_geom v) = 2 ->
    exists os ls g', strip L j simp raw t (vl_name vl) os ls /\ clip (l_cut L) (draw_area t) (GLine ls) = Ok g' /\ shows_strip L t os g' v).
Proof. intros L j co raw whole st simp HL HS HJ H. exact (strip_only L j co raw whole st simp HL HS (interrupted_sinv _ _ _ _ _ _ _ _ HL HJ H)). Qed.
Print Assumptions c78_lines_only_stopped.

(** The line joiner of the project joins like this. *)
Theorem c78_fits : forall srt_f srt_e simp, SpecDict.sorts ModelAggregate.feature_ltb srt_f -> SpecDict.sorts ModelAggregate.lentry_ltb srt_e ->
  joins_by simp (ModelAggregate.aggregate_line_features srt_f srt_e simp).
Proof.
  intros srt_f srt_e simp H1 H2 fs z r Hf E. destruct (PropAggregate.c41_features srt_f srt_e simp fs z H1 H2 Hf) as (r' & E' & H & _). rewrite E in E'. apply Ok_inj in E'. now subst r'.
Qed.
Print Assumptions c78_fits.

(** Where lines are joined without simplifying them, no segment is lost and none is added. *)
Theorem c78_segments : forall L j raw t layer os ls, libs_ok L -> job_ok L j -> tz t <= 20 -> strip L j (fun l _ => l) raw t layer os ls ->
  Permutation (segments_of ls) (segments_of (all_lines L raw t os)).
Proof.
  intros L j raw t layer os ls HL [HJ _] Hz HS. apply (strip_segments L j raw t layer os ls HL Hz); [|assumption].
  pose proof (sp_objects _ _ _ _ _ _ _ _ HS) as HO. apply Forall_forall. intros i Hi. destruct (proj1 (Forall_forall _ _) HO _ Hi) as (Hj & _ & _ & mn & Him & _). pose proof (proj1 (Forall_forall _ _) HJ _ Hj) as H.
  destruct i as [[o g] cs]. destruct H as [_ H]. now destruct (H _ _ Him) as (_ & _ & HU & _).
Qed.
Print Assumptions c78_segments.

(** ** A concrete case: the road on the prepared tile of zoom level 10: no other object has lines, so it is drawn alone, from its start to its end or back *)
Definition c78_t : tile := Tile 513 513 10.
Definition c78_way : line := [(2151700000, 2151700000); (2151700100, 2151700900); (2151701100, 2151702900); (2151704100, 2151702000); (2151705100, 2151707900)]%Z.
Example c78_ex : forall st, history ex_libs c61_job true true false true st -> exists l, (l = c78_way \/ l = rev c78_way) /\
  answers_with ex_libs st c78_t (fun vls => exists vl v, In vl vls /\ In v (vl_features vl) /\ vl_name vl = lit "road" /\ v_id v = 7 /\ shows_tags ex_libs c61_road v /\
    relative_geom (tile_corner c78_t) (shift_geom 10 (GLine [l])) = Some (v_geom v)).
Proof.
  intros st H. destruct (c78_line_shown ex_libs c61_job true false st (fun l _ => l) ex_libs_ok (c78_fits _ _ _ PropAggregate.c41_ex_sort_f PropAggregate.c41_ex_sort_e) c61_ex_job H c78_t c61_road (lit "road") 6)
    as (os & ls & g' & O1 & O2 & O3 & O4).
  - vm_compute; discriminate.
  - split; vm_compute; reflexivity.
  - left; reflexivity.
  - apply c61_road_ok.
  - reflexivity.
  - intros i' mn' [Hi|[Hi|[Hi|[]]]] Him Eo Ek; [now symmetry | subst i'; discriminate Eo | subst i'; discriminate Eo].
  - discriminate.
  - vm_compute. reflexivity.
  - assert (Eo : os = [c61_road]).
    { destruct O2 as [P1 _ P3 _]. assert (HA : Forall (fun i => i = c61_road) os).
      { eapply Forall_impl; [|exact P1]. cbn beta. intros i (Hi & Hk & _). destruct Hi as [Hi|[Hi|[Hi|[]]]]; subst i; [reflexivity | discriminate Hk | discriminate Hk]. }
      destruct os as [|a [|b os]]; [destruct O1 | |].
      - inversion HA; subst. reflexivity.
      - inversion HA as [|? ? E1 HA2]; subst. inversion HA2 as [|? ? E2 _]; subst. cbn [map] in P3. inversion P3 as [|? ? N _]; subst. destruct N. left; reflexivity. }
    subst os. destruct (sp_lines _ _ _ _ _ _ _ _ O2) as (js & J1 & _ & El). replace (all_lines ex_libs false c78_t [c61_road]) with [c78_way] in J1 by (vm_compute; reflexivity).
    change (SpecAggregate.simplified (fun l _ => l) (tz c78_t) js) with (map (fun l : line => l) js) in El. rewrite map_id in El. subst ls.
    assert (E1 : clip (l_cut ex_libs) (draw_area c78_t) (GLine [c78_way]) = Ok (GLine [c78_way])) by (vm_compute; reflexivity).
    assert (E2 : clip (l_cut ex_libs) (draw_area c78_t) (GLine [rev c78_way]) = Ok (GLine [rev c78_way])) by (vm_compute; reflexivity).
    assert (HG : exists l, (l = c78_way \/ l = rev c78_way) /\ g' = GLine [l]).
    { destruct (joined_single _ _ J1) as [-> | ->]; [rewrite E1 in O3 | rewrite E2 in O3]; apply Ok_inj in O3; eauto. }
    destruct HG as (l & Hl & ->). exists l. split; [assumption|]. destruct O4 as (buf & z & A1 & A2 & A3); [destruct Hl as [-> | ->]; vm_compute; discriminate|].
    exists buf, z. split; [assumption|]. split; [assumption|]. intros Hb. destruct (A3 Hb) as (vls & D1 & vl & v & V1 & V2 & V3 & (S1 & _ & S3 & S4)). exists vls. split; [assumption|]. exists vl, v.
    split; [assumption|]. split; [assumption|]. split; [assumption|]. split; [destruct S1 as [<-|[]]; reflexivity|]. split; [now apply Forall_inv in S3|]. exact S4.
Qed.
