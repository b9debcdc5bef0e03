(** C79: imports that fail while the OSM file is loaded. *)
From Coq Require Import Permutation String Ascii.
From Coq Require Import List.
From Verif Require Import Base BaseProof ModelTile SpecTile ModelGeom SpecGeom ModelFeature ModelPackFile ModelTable ModelPacker SpecPacker ModelRender SpecRender ModelInserter SpecInserter ModelDict SpecDict ModelOsm SpecOsm ModelDrain ModelCoast SpecCoast
  ModelServer ModelImport SpecImport SpecFinish ProofImportServe ProofImportTop ProofCoastEx ProofCoastClip PropCoast ProofImportEx PropFinish ModelAbort ProofAbort.
Import ListNotations.
Open Scope N_scope.

(** If an import ends with an exception while the OSM file is read (the file is broken near its end, for instance), a server of the database
    should answer for every tile or for none.  Instead: it starts, and fails for every tile an object already handled (of another layer than
    the sea) is to be drawn on; *)
Theorem c79_serves_refuted : forall L tasks j done st, libs_ok L -> job_ok L j -> failed_load L tasks j done st ->
  forall t i layer mn, tz t <= 20 -> valid_tile t -> In i done -> imported L i layer mn -> layer <> coastline -> mn <= tz t -> meets (tz t) t (bounding_box (snd (fst i))) = true ->
  forall r, serve_tile L st t <> Ok r.
Proof. exact failed_load_fails. Qed.
Print Assumptions c79_serves_refuted.

(** but for no tile away from these objects (none of them meets a tile of zoom level 10 above or below it); *)
Theorem c79_elsewhere : forall L tasks j done st, libs_ok L -> job_ok L j -> failed_load L tasks j done st ->
  forall t, tz t <= 20 -> valid_tile t ->
  (forall e i layer mn, index_tile 10 e -> related e t -> In i done -> imported L i layer mn -> layer <> coastline -> meets 10 e (bounding_box (snd (fst i))) = false) ->
  exists r, serve_tile L st t = Ok r.
Proof. exact failed_load_total. Qed.
Print Assumptions c79_elsewhere.

(** another run that loads (of a moderate size) can be completed, and then the server answers for every tile. *)
Theorem c79_repaired : forall L tasks j done st tasks' j' K B W, libs_ok L -> failed_load L tasks j done st -> job_ok L j' -> loads tasks' = true -> moderate L tasks' j' K B W ->
  exists st', import_run L tasks' j' st st' /\ forall t, tz t <= 20 -> valid_tile t -> exists r, serve_tile L st' t = Ok r.
Proof.
  intros L tasks j done st tasks' j' K B W HL _ HJ Hl HM. destruct (c65_import_completes L tasks' j' K B W st HL HJ Hl HM) as (st' & H1 & H2).
  exists st'. split; [assumption|]. exact (shown_total L j' _ _ _ _ true st' HL (history_sinv _ _ _ _ _ _ _ HL HJ (h_load L j' tasks' st st' Hl H1 H2))).
Qed.
Print Assumptions c79_repaired.

(** Imports can fail like this, after any part of the objects. *)
Theorem c79_happens : forall L tasks polys objs done rest K B W, libs_ok L -> job_ok L (Job polys objs) -> has_any_task tasks [lit "features"] = true ->
  Permutation (done ++ rest) objs -> moderate L tasks (Job polys done) K B W -> exists st, failed_load L tasks (Job polys objs) done st.
Proof. exact failed_load_exists. Qed.
Print Assumptions c79_happens.

(** ** A concrete case *)
(** the lake is never reached *)
Example c79_ex_moderate : moderate ex_libs [lit "features"] (Job c57_isle [c61_road]) 8 1000 4.
Proof.
  constructor.
  - intros H. discriminate H.
  - intros _. split; [discriminate|]. repeat apply Forall_cons; [apply c61_road_ok | apply Forall_nil].
  - intros H. discriminate H.
  - split; [discriminate|]. split; vm_compute; reflexivity.
Qed.
Example c79_ex : exists st, failed_load ex_libs [lit "features"] c61_job [c61_road] st /\
  (forall r, serve_tile ex_libs st (Tile 2052 2052 12) <> Ok r) /\ exists r, serve_tile ex_libs st (Tile 100 200 14) = Ok r.
Proof.
  destruct (c79_happens ex_libs [lit "features"] c57_isle [c61_road; c61_lake; c61_bench] [c61_road] [c61_lake; c61_bench] 8 1000 4 ex_libs_ok c61_ex_job eq_refl (Permutation_refl _) c79_ex_moderate) as (st & H).
  exists st. split; [exact H|]. split.
  - apply (c79_serves_refuted ex_libs [lit "features"] c61_job [c61_road] st ex_libs_ok c61_ex_job H (Tile 2052 2052 12) c61_road (lit "road") 6).
    + discriminate.
    + split; vm_compute; reflexivity.
    + left; reflexivity.
    + apply c61_road_ok.
    + discriminate.
    + discriminate.
    + vm_compute. reflexivity.
  - apply (c79_elsewhere ex_libs [lit "features"] c61_job [c61_road] st ex_libs_ok c61_ex_job H (Tile 100 200 14)).
    + discriminate.
    + split; vm_compute; reflexivity.
    + intros e i layer mn [He _] Hr [<-|[]] _ _. destruct e as [ex ey ez]. cbn [tz] in He. subst ez. unfold meets. cbn [tx ty].
      assert (E : ex = 6 /\ ey = 12). { unfold related, covers in Hr. cbn [tx ty tz] in Hr. destruct Hr as [(_ & A & B)|(A & _)]; [|lia]. revert A B. vm_compute (2 ^ (14 - 10)). intros A B. vm_compute in A, B. now subst. }
      destruct E as [-> ->]. vm_compute. reflexivity.
Qed.
