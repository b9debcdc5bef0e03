(** C83: the debug layer of a tile. *)
From Verif Require Import Base ModelTile ModelCodec ModelGeom SpecGeom ModelFeature ModelMvt SpecMvt PropMvt.
From Verif Require Import ModelServer SpecServer ModelDebug SpecDebug ProofDebug.
From Coq Require Import String.
From Coq Require Import List.
Import ListNotations.
Open Scope N_scope.

(** C83: with the debug switch on, the tile is the tile one gets without it (byte for byte), followed by
    exactly one layer: "tiles_debug_info" with a point in the middle of the tile labelled with its x, y and z
    in decimal, and the outline of the tile.  A vector tile reader still reads the whole. *)
Theorem c83_debug_tile : forall c t fs buf, ctx_for c t -> Forall (fun f => f_id f < 2 ^ 64) fs -> aggregate_ok (c_aggregate c) ->
  build_tile c fs = Ok buf -> blen buf < 2 ^ 29 ->
  exists buf' vls label, build_tile_debug c t fs = Ok buf' /\ decode_tile buf = Some vls /\ names_tile t label /\
    read_tile buf = Some (map with_ids vls) /\
    read_tile buf' = Some (map with_ids vls ++ [debug_info label]) /\ firstn (length buf) buf' = buf.
Proof. exact debug_tile_content. Qed.
Print Assumptions c83_debug_tile.

(** C83: the switch never makes building fail, nor does it hide a failure. *)
Theorem c83_same_outcome : forall c t fs, make_tile_spec t = Ok (c_spec c) ->
  match build_tile c fs with
  | Ok _ => exists buf', build_tile_debug c t fs = Ok buf'
  | Throw => build_tile_debug c t fs = Throw
  | UB => build_tile_debug c t fs = UB
  | Fuel => build_tile_debug c t fs = Fuel
  end.
Proof. exact debug_same_outcome. Qed.
Print Assumptions c83_same_outcome.

Example c83_ex : ctx_for ex_ctx (Tile 0 0 0) /\ exists buf', build_tile_debug ex_ctx (Tile 0 0 0) ex_feats = Ok buf' /\
  read_tile buf' = Some
    [ALayer 2 [114; 100] 4096 [[110]; [111]] [MString [65]; MBool true]
       [AFeature (Some 8) (VLines [[(0, 0); (2, 0)]]%Z) [([110], MString [65]); ([111], MBool true)]];
     ALayer 2 [112] 4096 [[110]] [MString [65]]
       [AFeature (Some 7) (VPoints [(1, 2)]%Z) [([110], MString [65])]];
     debug_info (lit "[x=0, y=0, z=0]")].
Proof. split; [exact (proj1 c26_ex_ctx)|]. eexists. split; [vm_compute; reflexivity|vm_compute; reflexivity]. Qed.
