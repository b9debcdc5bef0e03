(** C84, C85: a server that goes on while an import works on its database. *)
From Coq Require Import String Ascii.
From Coq Require Import List.
From Verif Require Import Base BaseProof ModelTile SpecTile ModelBqTree SpecBqTree ModelPacker SpecPacker ModelCodec ModelGeom SpecGeom ModelFeature SpecFeature ModelPackFile ModelTable ModelMvt SpecMvt ModelRender SpecRender ModelInserter SpecInserter
  ModelDict SpecDict ModelOsm SpecOsm ModelDrain ModelCoast SpecCoast ModelPrepare ModelRepack ModelServer ModelImport SpecImport SpecFinish SpecTileForm
  ProofImportServe ProofImportFinish2 ProofImportEx ModelCrash SpecCrash ProofCrash ModelLive ProofLive PropImport PropFinish PropCrash.
Import ListNotations.
Open Scope N_scope.

(** C84: while another process prepares tiles or computes statistics, and afterwards, a server that goes on answers every request exactly as
    a server that is started at that moment, if tiles had been prepared when it was started, and as at its start, if not.  In
    both cases these are answers of a database of a (perhaps stopped) import, see C76 and C77. *)
Theorem c84_preparing : forall L j co fe raw prep whole st0 tasks j' st, libs_ok L -> job_ok L j -> interrupted L j co fe raw prep whole st0 ->
  loads tasks = false -> has_any_task tasks [lit "pack"] = false -> during L tasks j' st0 st ->
  forall t, tz t <= 20 -> valid_tile t ->
  live_serve L st0 st t = serve_tile L (if prep then st else st0) t.
Proof. exact live_quiet. Qed.
Print Assumptions c84_preparing.

(** (concrete: an exception when the first tile was prepared; a server is started, tiles are prepared again and all of that is finished) *)
Example c84_ex : exists st0 st, interrupted ex_libs c61_job true true false false true st0 /\ st_features st0 <> [] /\
  (blen (st_pack st0) + 2 < 2 ^ 64 -> during ex_libs [lit "tiles"] (Job [] []) st0 st) /\
  (blen (st_pack st0) + 2 < 2 ^ 64 -> live_serve ex_libs st0 st (Tile 2052 2052 12) = serve_tile ex_libs st0 (Tile 2052 2052 12)) /\
  answers_with ex_libs st0 (Tile 2052 2052 12) (fun vls => exists vl v, In vl vls /\ In v (vl_features vl) /\ vl_name vl = lit "road" /\
    shows_object ex_libs (Tile 2052 2052 12) c61_road (snd (fst c61_road)) v).
Proof.
  destruct c76_ex_preparing as (st & H1 & H2 & H3 & H4).
  assert (HA : answers_with ex_libs st (Tile 2052 2052 12) (fun vls => exists vl v, In vl vls /\ In v (vl_features vl) /\ vl_name vl = lit "road" /\
    shows_object ex_libs (Tile 2052 2052 12) c61_road (snd (fst c61_road)) v)).
  { apply (c77_object_shown ex_libs c61_job true false false true st ex_libs_ok c61_ex_job H1 (Tile 2052 2052 12) (fst (fst c61_road)) (snd (fst c61_road)) (snd c61_road) (lit "road") 6).
    - discriminate.
    - split; vm_compute; reflexivity.
    - left; reflexivity.
    - apply c61_road_ok.
    - discriminate.
    - intros o' h cs' mn' [Hi|[Hi|[Hi|[]]]] Him Eo Ek; [now symmetry | injection Hi as <- <- <-; discriminate Eo | injection Hi as <- <- <-; discriminate Eo].
    - discriminate.
    - vm_compute. reflexivity.
    - left; reflexivity.
    - vm_compute. reflexivity.
    - vm_compute. discriminate.
    - intros Hp. discriminate Hp. }
  assert (HD : exists st', blen (st_pack st) + 2 < 2 ^ 64 -> during ex_libs [lit "tiles"] (Job [] []) st st').
  { destruct (N.lt_ge_cases (blen (st_pack st) + 2) (2 ^ 64)) as [Hb|Hb].
    - destruct (c77_completes_after ex_libs [lit "tiles"] c61_job (Job [] []) _ _ _ _ _ st ex_libs_ok c61_ex_job H1 H4 eq_refl eq_refl (fun _ => H3) Hb) as (st' & R & _).
      exists st'. intros _. right. exact R.
    - exists st. intros Hb'. exfalso. clear -Hb Hb'. lia. }
  destruct HD as (st' & HD). exists st, st'. split; [assumption|]. split; [assumption|]. split; [assumption|]. split; [|assumption].
  intros Hb. exact (c84_preparing ex_libs c61_job true true false false true st [lit "tiles"] (Job [] []) st' ex_libs_ok c61_ex_job H1 eq_refl eq_refl (HD Hb)
    (Tile 2052 2052 12) ltac:(discriminate) ltac:(split; vm_compute; reflexivity)).
Qed.

(** C85: while the other process packs (and prepares tiles, ...), or after it was stopped there, every request of the server is answered
    with an error or as by a server that is started then, on the database that the run leaves behind if it is stopped; *)
Theorem c85_packing : forall L j co fe raw prep whole st0 tasks j' killed pk pr wh st, libs_ok L -> job_ok L j -> interrupted L j co fe raw prep whole st0 ->
  loads tasks = false -> stopped_run L tasks j' st0 killed pk pr wh st -> kept killed st ->
  (has_any_task tasks [lit "pack"] = true -> prep = false /\ st_tiles st0 = []) ->
  exists st1, interrupted L j co fe (raw && negb pk) prep (whole && wh) st1 /\
    st_meta st1 = st_meta st0 /\ st_features st1 = st_features st /\ st_tiles st1 = st_tiles st /\ st_pack st1 = st_pack st /\
    forall t, tz t <= 20 -> valid_tile t -> live_serve L st0 st t = Throw \/ live_serve L st0 st t = serve_tile L st1 t.
Proof. exact live_any. Qed.
Print Assumptions c85_packing.

(** but not every tile is answered as before or as afterwards: when packing begins, a tile that shows a road becomes empty; *)
Definition c85_run (st : store) : Prop := import_run ex_libs [lit "features"] c61_job empty_store st /\ interrupted ex_libs c61_job false true true false true st.
Lemma c85_start : exists st, c85_run st /\ exists z, serve_tile ex_libs st (Tile 2052 2052 12) = Ok (Some z).
Proof.
  assert (HM : moderate ex_libs [lit "features"] c61_job 8 1000 4).
  { constructor.
    - intros Hc. discriminate Hc.
    - intros _. split; [discriminate|]. repeat apply Forall_cons; [apply c61_road_ok | apply c61_lake_ok | apply c61_bench_ok | apply Forall_nil].
    - intros Hc. discriminate Hc.
    - split; [discriminate|]. split; vm_compute; reflexivity. }
  destruct (c65_import_completes ex_libs [lit "features"] c61_job 8 1000 4 empty_store ex_libs_ok c61_ex_job eq_refl HM) as (st & H1 & H2).
  pose proof (h_load ex_libs c61_job [lit "features"] empty_store st eq_refl H1 H2) as HH. change (history ex_libs c61_job false true true false st) in HH.
  exists st. split; [split; [assumption | exact (history_interrupted _ _ _ _ _ _ _ ex_libs_ok c61_ex_job HH)]|].
  assert (HA : answers_with ex_libs st (Tile 2052 2052 12) (fun vls => exists vl v, In vl vls /\ In v (vl_features vl) /\ vl_name vl = lit "road" /\
    shows_object ex_libs (Tile 2052 2052 12) c61_road (snd (fst c61_road)) v)).
  { apply (c62_object_shown ex_libs c61_job false true false st ex_libs_ok c61_ex_job HH (Tile 2052 2052 12) (fst (fst c61_road)) (snd (fst c61_road)) (snd c61_road) (lit "road") 6).
    - discriminate.
    - split; vm_compute; reflexivity.
    - left; reflexivity.
    - apply c61_road_ok.
    - discriminate.
    - intros o' h cs' mn' [Hi|[Hi|[Hi|[]]]] Him Eo Ek; [now symmetry | injection Hi as <- <- <-; discriminate Eo | injection Hi as <- <- <-; discriminate Eo].
    - discriminate.
    - vm_compute. reflexivity.
    - vm_compute. reflexivity.
    - vm_compute. discriminate.
    - intros Hp. discriminate Hp. }
  destruct HA as (buf & z & E & _). exists z. exact E.
Qed.
Theorem c85_packing_refuted : exists L j st0 st t z, libs_ok L /\ job_ok L j /\ interrupted L j false true true false true st0 /\
  stopped_run L [lit "pack"] (Job [] []) st0 true true false false st /\ kept true st /\ tz t <= 20 /\ valid_tile t /\
  live_serve L st0 st0 t = Ok (Some z) /\ live_serve L st0 st t = Ok None.
Proof.
  destruct c85_start as (st0 & [H1 H2] & z & E). destruct (features_meta _ _ _ _ H1) as (M1 & M2 & M3 & M4).
  destruct (pack_hides ex_libs c61_job true true st0 ex_libs_ok c61_ex_job H2 M3 M4 M1) as (st & S1 & S2 & S3).
  exists ex_libs, c61_job, st0, st, (Tile 2052 2052 12), z. split; [exact ex_libs_ok|]. split; [exact c61_ex_job|]. do 3 (split; [assumption|]).
  split; [discriminate|]. split; [split; vm_compute; reflexivity|]. split; [|apply S3; [discriminate | split; vm_compute; reflexivity]].
  rewrite (live_same ex_libs st0). exact E.
Qed.
Print Assumptions c85_packing_refuted.

(** and a server that was started too early answers with errors until it is started again: here it was started on an empty database,
    and the features were loaded afterwards. *)
Theorem c85_restart_refuted : exists L j st t z, libs_ok L /\ job_ok L j /\ import_run L [lit "features"] j empty_store st /\ tz t <= 20 /\ valid_tile t /\
  serve_tile L st t = Ok (Some z) /\ live_serve L empty_store st t = Throw.
Proof.
  destruct c85_start as (st & [H1 H2] & z & E). destruct (features_meta _ _ _ _ H1) as (M1 & M2 & M3 & M4).
  exists ex_libs, c61_job, st, (Tile 2052 2052 12), z. split; [exact ex_libs_ok|]. split; [exact c61_ex_job|]. split; [assumption|].
  split; [discriminate|]. split; [split; vm_compute; reflexivity|]. split; [assumption|].
  apply (live_stale ex_libs c61_job false true true false true st _ z ex_libs_ok c61_ex_job H2 M1 M2); [discriminate | split; vm_compute; reflexivity | assumption].
Qed.
Print Assumptions c85_restart_refuted.
