(** Specification vocabulary for imports that were stopped. *)
From Coq Require Import String Ascii.
From Coq Require Import List.
From Verif Require Import Base ModelTile ModelPackFile ModelTable ModelRepack ModelServer ModelImport ModelCrash SpecImport.
Import ListNotations.
Open Scope N_scope.

(** The size of the pack file is not stored; when it is opened, it is the position after its last byte other than '\0'.  A
    destructor that was run takes care of this; if the process was killed, this must hold (C08): some byte behind the end of each
    pack, or its last byte, is not '\0'. *)
Definition tail_kept (st : store) : Prop :=
  forall k v rs r, In (k, v) (st_features st) -> pack_records_deserialize v = Ok rs -> In r rs ->
    exists i b, r_off r + r_size r <= N.of_nat i + 1 /\ nth_error (st_pack st) i = Some b /\ b <> 0.
Definition kept (killed : bool) (st : store) : Prop := small_packs st /\ blen (st_pack st) + 1 < 2 ^ 64 /\ (killed = true -> tail_kept st).

(** Histories with runs that were stopped.  The first run loads coastlines ([co]) or features ([fe]) or both, whatever
    was there before, and at least gets that far; the others load nothing.  [raw]: packing was never begun; [prep]: tiles were prepared;
    [whole]: packing was never stopped.  The database is not packed after preparing tiles (or after trying to). *)
Inductive interrupted (L : libs) (j : job) : forall co fe raw prep whole : bool, store -> Prop :=
| i_run tasks st st' : loads tasks = true -> import_run L tasks j st st' -> small_packs st' ->
    interrupted L j (has_any_task tasks [lit "coastlines"]) (has_any_task tasks [lit "features"])
      (negb (has_any_task tasks [lit "pack"])) (has_any_task tasks [lit "tiles"]) true st'
| i_stop tasks st st' killed pk pr wh : loads tasks = true -> stopped_run L tasks j st killed pk pr wh st' -> kept killed st' ->
    interrupted L j (has_any_task tasks [lit "coastlines"]) (has_any_task tasks [lit "features"]) (negb pk) pr wh st'
| i_run_more tasks j' co fe raw prep whole st st' : interrupted L j co fe raw prep whole st ->
    loads tasks = false -> import_run L tasks j' st st' -> small_packs st' ->
    (has_any_task tasks [lit "pack"] = true -> prep = false /\ st_tiles st = []) ->
    interrupted L j co fe (raw && negb (has_any_task tasks [lit "pack"])) (prep || has_any_task tasks [lit "tiles"]) whole st'
| i_stop_more tasks j' co fe raw prep whole st st' killed pk pr wh : interrupted L j co fe raw prep whole st ->
    loads tasks = false -> stopped_run L tasks j' st killed pk pr wh st' -> kept killed st' ->
    (has_any_task tasks [lit "pack"] = true -> prep = false /\ st_tiles st = []) ->
    interrupted L j co fe (raw && negb pk) (prep || pr) (whole && wh) st'.
