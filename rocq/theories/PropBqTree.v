(** C16-C18: the tree of covered tiles. *)
From Verif Require Import Base BaseProof ModelTile SpecTile ModelQuadTree ModelBqTree SpecBqTree ProofBqQuery.
Open Scope N_scope.

(** C16: for all valid input tiles and queries, [contains] is true exactly if
    the query tile lies in an input tile. *)
Theorem c16_contains tiles : Forall (fun t => tz t < 2 ^ 31 /\ valid_tile t) tiles -> tree_fits tiles ->
  exists v, make_bq_tree tiles = Ok v /\
    forall q, valid_tile q -> tz q <= 23 -> exists b, bq_contains v q = Ok b /\ (b = true <-> covered tiles q).
Proof. exact (contains_ok tiles). Qed.
Print Assumptions c16_contains.

(** the zoom limit of C16 is real: deeper queries are refused *)
Theorem c16_deep_query_refused tiles : Forall (fun t => tz t < 2 ^ 31 /\ valid_tile t) tiles -> tree_fits tiles ->
  tiles <> [] -> ~ In (Tile 0 0 0) tiles ->
  exists v, make_bq_tree tiles = Ok v /\
    forall q, 23 < tz q -> tz q < 2 ^ 32 -> bq_contains v q = Throw /\ bq_all_leafs v q = Throw.
Proof. exact (contains_deep tiles). Qed.
Print Assumptions c16_deep_query_refused.

(** when the size hypothesis is met *)
Theorem c16_when_it_fits tiles z : Forall (fun t => tz t <= z) tiles -> N.of_nat (length tiles) * z <= 2 ^ 24 -> tree_fits tiles.
Proof. exact (fits_by_zoom tiles z). Qed.
Print Assumptions c16_when_it_fits.

(** C17: [all_leafs] gives the tile itself if it is covered, else the maximal
    input tiles strictly below it, without repetition; together they cover
    exactly what the input covers. *)
Theorem c17_all_leafs tiles : Forall (fun t => tz t < 2 ^ 31 /\ valid_tile t) tiles -> tree_fits tiles ->
  exists v, make_bq_tree tiles = Ok v /\
    forall q, valid_tile q -> tz q <= 23 -> exists L, bq_all_leafs v q = Ok L /\ NoDup L /\
      (covered tiles q -> L = [q]) /\
      (~ covered tiles q -> forall e, In e L <-> maximal tiles e /\ covers q e /\ e <> q) /\
      (forall u, covers q u -> (covered tiles u <-> exists e, In e L /\ covers e u)).
Proof. exact (leafs_result tiles). Qed.
Print Assumptions c17_all_leafs.

(** C18: stored and loaded, the tree is the same, so it answers the same. *)
Theorem c18_storage tiles : Forall (fun t => tz t < 2 ^ 31 /\ valid_tile t) tiles -> tree_fits tiles ->
  exists v, make_bq_tree tiles = Ok v /\ bq_of_string (bq_string v) = Ok v.
Proof. exact (stored_result tiles). Qed.
Print Assumptions c18_storage.
Theorem c18_bad_length_rejected bs : (length bs mod 4 <> 0)%nat -> bq_of_string bs = Throw.
Proof. exact (bad_length bs). Qed.
Print Assumptions c18_bad_length_rejected.
Theorem c18_loading_keeps_the_bytes bs : (length bs mod 4 = 0)%nat -> bytes_ok bs ->
  exists v, bq_of_string bs = Ok v /\ bq_string v = bs.
Proof. exact (any_string bs). Qed.
Print Assumptions c18_loading_keeps_the_bytes.

(** a nested, a repeated and two separate tiles *)
Definition c16_tiles : list tile := [Tile 0 0 1; Tile 1 1 2; Tile 3 3 2; Tile 3 3 2; Tile 5 0 3].
Example c16_ex_hyps : Forall (fun t => tz t < 2 ^ 31 /\ valid_tile t) c16_tiles /\ tree_fits c16_tiles.
Proof.
  split.
  - repeat (apply Forall_cons; [split; [vm_compute; reflexivity | split; vm_compute; reflexivity]|]). apply Forall_nil.
  - apply (c16_when_it_fits _ 3); [|vm_compute; discriminate]. repeat (apply Forall_cons; [vm_compute; discriminate|]). apply Forall_nil.
Qed.
Example c16_ex : exists v, make_bq_tree c16_tiles = Ok v /\
  bq_contains v (Tile 3 2 3) = Ok true /\ bq_contains v (Tile 5 0 3) = Ok true /\ bq_contains v (Tile 4 0 3) = Ok false /\
  bq_contains v (Tile 0 0 0) = Ok false /\ bq_all_leafs v (Tile 2 0 2) = Ok [Tile 5 0 3] /\
  bq_all_leafs v (Tile 0 0 0) = Ok [Tile 0 0 1; Tile 3 3 2; Tile 5 0 3].
Proof. eexists. split; [vm_compute; reflexivity|]. do 5 (split; [vm_compute; reflexivity|]). vm_compute; reflexivity. Qed.
