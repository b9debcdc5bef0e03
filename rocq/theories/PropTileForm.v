(** C75: every tile the server sends is a well-formed vector tile. *)
From Coq Require Import String Ascii.
From Coq Require Import List.
From Verif Require Import Base ModelTile SpecTile ModelCodec ModelGeom SpecGeom ModelFeature ModelMvt SpecMvt ModelRender SpecRender ModelOsm SpecOsm
  ModelServer ModelImport SpecImport ProofImportEx ProofImportServe SpecTileForm ProofTileForm PropFinish.
Import ListNotations.
Open Scope N_scope.

(** C75: in any history of runs, whatever is sent for a tile of the map is the compressed form of a non-empty vector tile that an
    independent reader can read: layers of version 2 and extent 4096 with different names, none of them empty; keys of a layer's
    table all different, values too (if texts are made of bytes); in a layer no two features with the same id and kind of geometry; in every feature
    no key twice, and a non-empty geometry of lines with at least two points and closed rings with at least three, without repeated
    points, that stays within the tile and its border *)
Theorem c75_tile_fine : forall L j co fe raw prep st, libs_ok L -> job_ok L j -> history L j co fe raw prep st ->
  forall t z, tz t <= 20 -> valid_tile t -> serve_tile L st t = Ok (Some z) ->
  exists buf, buf <> [] /\ l_deflate L buf = Ok z /\ (blen buf < 2 ^ 29 -> exists vls, decode_tile buf = Some vls /\ tile_fine (tz t) vls /\
    ((fe = true -> Forall (says_bytes L) (j_objs j)) -> Forall (fun vl => NoDup (vl_values vl)) vls)).
Proof. intros L j co fe raw prep st HL HJ H. exact (served_fine L j co fe raw prep true st HL (history_sinv _ _ _ _ _ _ _ HL HJ H)). Qed.
Print Assumptions c75_tile_fine.

(** the tile with the road of the example import is sent (C62), so this applies; everything there is made of bytes *)
Example c75_ex : forall st, history ex_libs c61_job true true false true st ->
  exists buf z, serve_tile ex_libs st (Tile 2052 2052 12) = Ok (Some z) /\ l_deflate ex_libs buf = Ok z /\
    (blen buf < 2 ^ 29 -> exists vls, decode_tile buf = Some vls /\ tile_fine 12 vls /\ Forall (fun vl => NoDup (vl_values vl)) vls).
Proof.
  intros st H. destruct (c62_ex st H) as (buf0 & z & E & _). 
  destruct (c75_tile_fine ex_libs c61_job true true false true st ex_libs_ok c61_ex_job H (Tile 2052 2052 12) z) as (buf & _ & B2 & B3);
    [discriminate | split; vm_compute; reflexivity | exact E |].
  exists buf, z. split; [assumption|]. split; [assumption|]. intros Hb. destruct (B3 Hb) as (vls & V1 & V2 & V3). exists vls. split; [assumption|]. split; [exact V2|]. apply V3.
  intros _. apply Forall_forall. intros i Hi. assert (HB : forallb (fun i => forallb (fun m => forallb (fun b => b <? 256) (snd m)) (metadata ex_libs i)) (j_objs c61_job) = true) by (vm_compute; reflexivity).
  rewrite forallb_forall in HB. specialize (HB i Hi). rewrite forallb_forall in HB. apply Forall_forall. intros m Hm. specialize (HB m Hm). rewrite forallb_forall in HB.
  apply Forall_forall. intros b Hb'. specialize (HB b Hb'). unfold is_byte. lia.
Qed.
(** the border: at zoom level 14 it is 64 pixels wide, at level 20 a whole tile *)
Example c75_ex_border : sea_box 14 = FBox (-64) (-64) 4160 4160 /\ sea_box 20 = FBox (-4096) (-4096) 8192 8192 /\ sea_box 0 = FBox (-1) (-1) 4096 4096.
Proof. vm_compute. auto. Qed.
