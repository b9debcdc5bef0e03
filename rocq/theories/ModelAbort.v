(** Imports that end with an exception while the OSM file is loaded, or are killed while loading: src/import.cc:69-96,
    src/osm/load_osm.cc:78-150, src/osm/load_coastlines.cc:243-341. *)
From Coq Require Import Permutation String Ascii.
From Coq Require Import List.
From Verif Require Import Base ModelTile ModelPackFile ModelTable ModelCodec ModelGeom ModelFeature ModelInserter ModelDict ModelOsm ModelDrain ModelCoast SpecCoast ModelServer ModelImport ModelCrash SpecInserter.
Import ListNotations.
Open Scope N_scope.

(** An exception leaves the pipeline of load_osm.cc:110-137 (thrown by the reader: the file is broken; or by the profile) after the
    objects [done] were handled, before the names of the layers and the dictionary are stored (:139-150).  The database was cleared
    (import.cc:71-75), the coastlines are complete if they were loaded (:86-89).  The destructor of feature_inserter_mt writes
    everything it was given (feature_inserter_mt.h:49), the destructor of pack_handle closes the file (pack_file.h:114-120).
    Simplified: the object whose handling throws has not used the inserter or the names of the layers (the profile is called before that,
    feature_handler.cc:80-84); the calls of the other threads are completed (TBB waits for running tasks when it cancels a pipeline). *)
Definition failed_load (L : libs) (tasks : list bytes) (j : job) (done : list osm_input) (st' : store) : Prop :=
  exists cc m objs fs names oc n s rest,
    has_any_task tasks [lit "features"] = true /\
    (if has_any_task tasks [lit "coastlines"]
     then exists e, load_coastlines L (j_polys j) cc e /\ m = meta_put (st_meta empty_store) kSeasideTree e
     else cc = [] /\ m = st_meta empty_store) /\
    Permutation (done ++ rest) (j_objs j) /\
    Permutation objs done /\ handle_all L objs nm_init = Ok (fs, names) /\ Permutation oc (map CFeature fs) /\
    ireach kTileDefaultIndexZoomLvl (2 ^ 30) (2 ^ 30 / 4 * 3) (l_isort L) (st_features empty_store) (pf_open (st_pack empty_store)) n s /\
    destroyed s /\ Forall (fun t => ~ failed t) (i_threads s) /\ i_calls s = cc ++ oc /\
    blen (pf_mem (i_file s)) < 2 ^ 64 /\
    st' = close_session (Session m (i_table s) [] (i_file s)) /\ blen (st_pack st') + 1 < 2 ^ 64.

(** ** The process is killed *)
(** feature_inserter_mt.h:37-167: features table and pack file when the process is killed while the inserter was given [calls] (some of which may not
    have returned).  Transactions that were committed are kept; if pack_file.h:126-136 was writing, the bytes behind the end of the
    file may be anything. *)
Definition inserting (L : libs) (calls : list icall) (T : table) (m : bytes) : Prop :=
  exists n s k, ireach kTileDefaultIndexZoomLvl (2 ^ 30) (2 ^ 30 / 4 * 3) (l_isort L) (st_features empty_store) (pf_open (st_pack empty_store)) n s /\
    i_calls s = calls /\ T = i_table s /\ blen (pf_mem (i_file s)) < 2 ^ 64 /\ torn (pf_mem (i_file s)) (pf_size (i_file s)) k m.
(** import.cc:84-88, complete *)
Definition coast_done (L : libs) (tasks : list bytes) (j : job) (cc : list icall) (m1 : list (bytes * bytes)) : Prop :=
  if has_any_task tasks [lit "coastlines"] then exists e, load_coastlines L (j_polys j) cc e /\ m1 = meta_put (st_meta empty_store) kSeasideTree e
  else cc = [] /\ m1 = st_meta empty_store.
Inductive stage := LCoast (inserted : list (tile * feature)) | LOsm (done : list osm_input) | LEnd.
Inductive killed_load (L : libs) (tasks : list bytes) (j : job) : stage -> store -> Prop :=
(** load_coastlines.cc:243-341, before the tree of the sea is stored *)
| kl_coast s cc T m : has_any_task tasks [lit "coastlines"] = true ->
    creach (coast_proc (l_ccut L) (l_cdiff L) (l_fix_rings L)) (coast_tasks (j_polys j)) (l_threads L) s ->
    no_exception (l_ccut L) (l_cdiff L) (l_fix_rings L) (coast_tasks (j_polys j)) ->
    Forall2 (fun d c => exists v, ser (snd d) = Ok v /\ c = CValue (fst d) v) (c_inserted s) cc ->
    inserting L cc T m -> killed_load L tasks j (LCoast (c_inserted s)) (Store (st_meta empty_store) T [] m)
(** load_osm.cc:78-145, before names and dictionary are stored; [others] were not inserted yet *)
| kl_osm cc m1 objs fs names oc others done rest T m : coast_done L tasks j cc m1 -> has_any_task tasks [lit "features"] = true ->
    Permutation (done ++ rest) (j_objs j) -> Permutation objs done -> handle_all L objs nm_init = Ok (fs, names) ->
    Permutation (oc ++ others) (map CFeature fs) ->
    inserting L (cc ++ oc) T m -> killed_load L tasks j (LOsm done) (Store m1 T [] m)
(** import.cc:96, while the destructor of the inserter writes the rest *)
| kl_end cc m1 oc m2 T m : coast_done L tasks j cc m1 ->
    (if has_any_task tasks [lit "features"]
     then exists names dict, load_osm L (j_objs j) oc names dict /\ m2 = meta_put (meta_put m1 kLayerNames names) kMetaCoding dict else oc = [] /\ m2 = m1) ->
    inserting L (cc ++ oc) T m -> killed_load L tasks j LEnd (Store m2 T [] m).
