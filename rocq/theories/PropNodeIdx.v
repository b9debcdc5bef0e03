(** The node index: C38, C39, C40. *)
From Coq Require Import Permutation Sorted.
From Verif Require Import Base BaseProof ModelCodec ModelNodeIdx SpecNodeIdx SpecDict ProofDict ProofRender ProofNodeIdx ProofNodeBatch.
Open Scope Z_scope.

(** ** C38 *)
(** Building succeeds for every valid stream, and afterwards every id is found exactly as pushed. *)
Theorem c38_lookup : forall ns, valid_stream (2 ^ 63 - 1) ns ->
  exists idx dat, build_index ns = Ok (idx, dat) /\
    forall id, -2 ^ 63 < id < 2 ^ 63 -> get_coords idx dat id = Ok (node_of ns id).
Proof.
  intros ns H. destruct (build_spec (2 ^ 63 - 1) ns (Z.le_refl _) H) as (idx & dat & e & ms & H1 & H2 & _ & _ & _ & H3). exists idx, dat. split; [exact H1|].
  intros id Hid. rewrite (get_coords_spec e idx dat ms id H2 Hid), H3. reflexivity.
Qed.
Print Assumptions c38_lookup.

(** Every other stream is rejected with an exception (or undefined, for the largest ids). *)
Theorem c38_rejects : forall ns r, Forall (fun n => Z.abs (fst n) < 2 ^ 63) ns -> build_index ns = Ok r -> valid_stream (2 ^ 63) ns.
Proof.
  intros ns r HF H. unfold build_index in H. apply bind_ok in H as (b & H1 & _). destruct (accepted_gen ns nb_init b H1 HF) as (I1 & I2 & _). split; assumption.
Qed.
Print Assumptions c38_rejects.

(** ** C39 *)
(** The batch lookup sets every location to what the single lookup gives, and leaves it alone if
    there is no such node; for every sort, query order and repetition of ids. *)
Theorem c39_batch : forall srt ns idx dat, sorts query_ltb srt -> valid_stream (2 ^ 62) ns -> Z.of_nat (length ns) < 2 ^ 31 -> build_index ns = Ok (idx, dat) ->
  forall qs, Forall (fun q => -2 ^ 63 < fst q < 2 ^ 63) qs -> NoDup (map snd qs) ->
  exists ws, get_batch idx dat srt qs = Ok ws /\ NoDup (map fst ws) /\ (forall s, In s (map fst ws) -> In s (map snd qs)) /\
    forall id s, In (id, s) qs -> assoc_slot s ws = node_of ns id /\ get_coords idx dat id = Ok (assoc_slot s ws).
Proof.
  exact batch_main.
Qed.
Print Assumptions c39_batch.

(** ** C40 *)
(** A way handler gets every location back, wherever it is. *)
Theorem c40_way : forall nodes idx dat refs, Forall (fun n => loc_ok (snd n)) nodes ->
  valid_stream (2 ^ 63 - 1) (map (fun n => (fst n, node_pos (snd n))) nodes) ->
  build_index (map (fun n => (fst n, node_pos (snd n))) nodes) = Ok (idx, dat) ->
  forall locs, Forall2 (fun id l => -2 ^ 63 < id < 2 ^ 63 /\ node_of nodes id = Some l) refs locs -> way_locations idx dat refs = Ok locs.
Proof. exact way_main. Qed.
Print Assumptions c40_way.

(** update_locations (which load_osm uses) gives every location west of 34.7483648 degrees back; the
    rest of the world is missing (c40_refuted). *)
Theorem c40_partial : forall srt nodes idx dat refs, sorts query_ltb srt -> Forall (fun n => loc_ok (snd n)) nodes ->
  valid_stream (2 ^ 62) (map (fun n => (fst n, node_pos (snd n))) nodes) -> Z.of_nat (length nodes) < 2 ^ 31 ->
  build_index (map (fun n => (fst n, node_pos (snd n))) nodes) = Ok (idx, dat) ->
  forall locs, Forall2 (fun r l => -2 ^ 63 < fst r < 2 ^ 63 /\ node_of nodes (fst r) = Some l /\ fst l < 347483648) refs locs ->
  update_locations srt idx dat refs = Ok locs.
Proof. exact update_main. Qed.
Print Assumptions c40_partial.

(** If the compiler lets int32_t wrap around (which the language does not promise), all of the world comes back. *)
Theorem c40_wrapping : forall srt nodes idx dat refs, sorts query_ltb srt -> Forall (fun n => loc_ok (snd n)) nodes ->
  valid_stream (2 ^ 62) (map (fun n => (fst n, node_pos (snd n))) nodes) -> Z.of_nat (length nodes) < 2 ^ 31 ->
  build_index (map (fun n => (fst n, node_pos (snd n))) nodes) = Ok (idx, dat) ->
  forall locs, Forall2 (fun r l => -2 ^ 63 < fst r < 2 ^ 63 /\ node_of nodes (fst r) = Some l) refs locs ->
  update_with wsub32 srt idx dat refs = Ok locs.
Proof. exact update_wrapping. Qed.
Print Assumptions c40_wrapping.

(** East of it the int32 subtraction overflows: undefined behaviour. *)
Theorem c40_refuted : forall srt l, sorts query_ltb srt -> loc_ok l -> 347483648 <= fst l ->
  exists idx dat, build_index [(1, node_pos l)] = Ok (idx, dat) /\ update_locations srt idx dat [(1, (undef_coord, undef_coord))] = UB.
Proof. exact update_east. Qed.
Print Assumptions c40_refuted.

(** A node that is not in the index: its undefined location becomes a defined one. *)
Theorem c40_missing_refuted : forall srt ns idx dat id, sorts query_ltb srt -> valid_stream (2 ^ 62) ns -> Z.of_nat (length ns) < 2 ^ 31 ->
  build_index ns = Ok (idx, dat) -> -2 ^ 63 < id < 2 ^ 63 -> node_of ns id = None ->
  update_locations srt idx dat [(id, (undef_coord, undef_coord))] = Ok [(347483647, 1247483647)].
Proof. exact update_missing. Qed.
Print Assumptions c40_missing_refuted.

(** ** examples *)
Definition ex_sort : list nquery -> list nquery := isort query_ltb.
Lemma ex_sort_sorts : sorts query_ltb ex_sort.
Proof. apply isort_sorts; unfold query_ltb; intros; lia. Qed.
(** consecutive nodes, a span split by a large jump, a gap, a repeated and a negative id *)
Definition ex_nodes : list (Z * npos) :=
  [(3, (100, 200)); (-4, (101, 199)); (4, (101, 199)); (5, (4294967295, 0)); (900, (7, 7)); (901, (0, 4294967295))].
Example c38_ex : valid_stream (2 ^ 62) ex_nodes /\
  exists idx dat, build_index ex_nodes = Ok (idx, dat) /\ length idx = 1%nat /\
    map (get_coords idx dat) [2; 3; -4; 5; 6; 899; 900; 901; 902] =
    map Ok [None; Some (100, 200); Some (101, 199); Some (4294967295, 0); None; None; Some (7, 7); Some (0, 4294967295); None] /\
    get_batch idx dat ex_sort [(901, 0%nat); (4, 1%nat); (6, 2%nat); (900, 3%nat); (-4, 4%nat); (5000, 5%nat); (1, 6%nat)] =
    Ok [(1%nat, (101, 199)); (4%nat, (101, 199)); (3%nat, (7, 7)); (0%nat, (0, 4294967295))].
Proof.
  split.
  - split; [repeat (constructor; [vm_compute; repeat split; try reflexivity; discriminate|]); constructor|].
    repeat (constructor; [|constructor; vm_compute; first [left; reflexivity|right; split; reflexivity]]); repeat constructor.
  - eexists _, _. split; [vm_compute; reflexivity|]. vm_compute. auto.
Qed.
(** two index entries: more than 1024 coordinates between them *)
Example c38_ex2 : exists idx dat, build_index (map (fun i => (Z.of_nat i, (Z.of_nat i * 3, 5))) (seq 10 1030) ++ [(2000, (1, 1)); (3000, (2, 2))]) = Ok (idx, dat) /\
  map fst idx = [10; 2000] /\ get_coords idx dat 3000 = Ok (Some (2, 2)) /\ get_coords idx dat 1039 = Ok (Some (3117, 5)) /\ get_coords idx dat 1040 = Ok None.
Proof. eexists _, _. split; [vm_compute; reflexivity|]. vm_compute. auto. Qed.
