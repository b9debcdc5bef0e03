(** Properties C01-C08: tile keys, table scan, record lists, pack file. *)
From Verif Require Import Base ModelTile SpecTile ModelPackFile SpecPackFile ProofTile ProofPackFile.
Open Scope N_scope.

(** C01: a key either cannot be made because a component does not fit, or it
    gives back exactly the tile and n. *)
Theorem c01_tile_key_roundtrip : forall t n,
  tx t < 2 ^ 32 -> ty t < 2 ^ 32 -> tz t < 2 ^ 32 -> n < 2 ^ 64 ->
  (tile_to_key t n = Throw /\ ~ key_range t n) \/
  (exists k, tile_to_key t n = Ok k /\ k < 2 ^ 64 /\ key_to_tile k = t /\ key_to_n k = n
             /\ key_range t n).
Proof. exact tile_key_roundtrip. Qed.
Print Assumptions c01_tile_key_roundtrip.

Theorem c01_tile_key_injective : forall t n t' n' k,
  tile_to_key t n = Ok k -> tile_to_key t' n' = Ok k -> t = t' /\ n = n'.
Proof. exact tile_key_injective. Qed.
Print Assumptions c01_tile_key_injective.

Example c01_ex_ok : tile_to_key (Tile 2097151 5 20) 131071 = Ok (20 * 2^59 + 5 * 2^38 + (2^38 - 1)).
Proof. vm_compute. reflexivity. Qed.
Example c01_ex_throw : tile_to_key (Tile 2097152 5 20) 0 = Throw.
Proof. vm_compute. reflexivity. Qed.

(** C02: integer order on keys is the (z, y, x, n) order; a row segment is an
    interval of keys. *)
Theorem c02_key_order : forall t n t' n' k k',
  tile_to_key t n = Ok k -> tile_to_key t' n' = Ok k' ->
  (k < k' <-> lex_lt t n t' n').
Proof. exact key_order. Qed.
Print Assumptions c02_key_order.

Theorem c02_row_interval : forall x0 x1 y z t n k0 k1 k,
  tile_to_key (Tile x0 y z) 0 = Ok k0 -> tile_to_key (Tile x1 y z) 0 = Ok k1 ->
  tile_to_key t n = Ok k ->
  (k0 <= k < k1 <-> tz t = z /\ ty t = y /\ x0 <= tx t < x1).
Proof. exact row_interval. Qed.
Print Assumptions c02_row_interval.

Example c02_ex : exists k k', tile_to_key (Tile 3 4 10) 7 = Ok k /\ tile_to_key (Tile 2 5 10) 0 = Ok k' /\ k < k'.
Proof. eexists _, _. repeat split; vm_compute; reflexivity. Qed.

(** C03: the scan reports exactly the records stored for index tiles (zoom 10)
    that contain or are contained in the query tile, each once, in key order. *)
Theorem c03_tile_query_visits_exactly_overlapping : forall db tbl q,
  Forall2 stores db tbl -> table_sorted tbl -> tz q <= 20 -> valid_tile q ->
  pack_records_foreach tbl q =
  Ok (flat_map (fun d => map (fun r => (fst (fst d), r)) (snd d))
       (filter (fun d => (tz (fst (fst d)) =? 10) && relatedb (fst (fst d)) q) db)).
Proof. exact foreach_exact_db. Qed.
Print Assumptions c03_tile_query_visits_exactly_overlapping.

Theorem c03_relatedb_meaning : forall a b, relatedb a b = true <-> covers a b \/ covers b a.
Proof. exact relatedb_spec. Qed.
Print Assumptions c03_relatedb_meaning.

Definition c03_db : list (tile * N * list pack_record) :=
  [(Tile 0 0 10, 0, [Rec 0 5]); (Tile 1 0 10, 0, [Rec 5 1; Rec 6 2]); (Tile 2 0 10, 0, [Rec 9 9]);
   (Tile 1 1 10, 0, [Rec 20 1])].
Definition c03_tbl : table :=
  map (fun d => (match tile_to_key (fst (fst d)) (snd (fst d)) with Ok k => k | _ => 0 end,
                 pack_records_serialize (snd d))) c03_db.
Example c03_ex_hyps : Forall2 stores c03_db c03_tbl /\ table_sorted c03_tbl /\
  valid_tile (Tile 0 0 9).
Proof.
  split; [|split].
  - repeat constructor; try (vm_compute; reflexivity).
  - vm_compute. repeat constructor.
  - split; vm_compute; reflexivity.
Qed.
Example c03_ex : pack_records_foreach c03_tbl (Tile 0 0 9) =
  Ok [(Tile 0 0 10, Rec 0 5); (Tile 1 0 10, Rec 5 1); (Tile 1 0 10, Rec 6 2); (Tile 1 1 10, Rec 20 1)].
Proof. vm_compute. reflexivity. Qed.
Example c03_ex_deep : pack_records_foreach c03_tbl (Tile 2050 3 20) = Ok [(Tile 2 0 10, Rec 9 9)].
Proof. vm_compute. reflexivity. Qed.

(** C04: record list codec; every byte string is either rejected by all
    functions or is the image of a record list, and update appends. *)
Theorem c04_records_roundtrip : forall rs,
  Forall rec_ok rs -> pack_records_deserialize (pack_records_serialize rs) = Ok rs.
Proof. exact deserialize_serialize. Qed.
Print Assumptions c04_records_roundtrip.

Theorem c04_records_total : forall dat, bytes_ok dat ->
  (blen dat mod 16 <> 0 /\ pack_records_deserialize dat = Throw
     /\ forall r, pack_records_update dat r = Throw) \/
  (exists rs, Forall rec_ok rs /\ dat = pack_records_serialize rs
     /\ pack_records_deserialize dat = Ok rs
     /\ forall r, rec_ok r -> exists dat', pack_records_update dat r = Ok dat'
                  /\ pack_records_deserialize dat' = Ok (rs ++ [r])).
Proof. exact deserialize_dichotomy. Qed.
Print Assumptions c04_records_total.

Example c04_ex : pack_records_deserialize (pack_records_serialize [Rec 258 3; Rec (2^64-1) 0])
                 = Ok [Rec 258 3; Rec (2^64-1) 0].
Proof. vm_compute. reflexivity. Qed.
Example c04_ex_empty : pack_records_update [] (Rec 1 2) = Ok (pack_records_serialize [Rec 1 2]).
Proof. vm_compute. reflexivity. Qed.

(** C05: open any file, run any history, append [d], run any further history
    that does not write into the record's span: the record reads back as [d].
    Every operation that is legal (moves read inside the file) succeeds. *)
Theorem c05_append_then_get : forall disk pre s d post s',
  pf_run (pf_open disk) pre = Ok s -> d <> [] ->
  let '(s1, r) := pf_append s d in
  pf_safe s1 post (r_off r) (r_size r) -> pf_run s1 post = Ok s' -> pf_size s' < 2 ^ 64 ->
  r_off r = pf_size s /\ pf_get s' r = Ok d.
Proof.
  exact (fun disk pre s d post s' => append_then_get (pf_open disk) pre s d post s' (pf_open_inv disk)).
Qed.
Print Assumptions c05_append_then_get.

Theorem c05_insert : forall s off d, pf_inv s ->
  let '(s', r) := pf_insert s off d in
  pf_inv s' /\ r = Rec off (blen d) /\ pf_size s' = N.max (pf_size s) (off + blen d) /\
  slice (pf_mem s') off (blen d) = d /\
  (forall o n, o + n <= blen (pf_mem s) -> disjoint off (blen d) o n ->
     slice (pf_mem s') o n = slice (pf_mem s) o n) /\
  blen (pf_mem s) <= blen (pf_mem s').
Proof. exact insert_spec. Qed.
Print Assumptions c05_insert.

Theorem c05_move : forall s off from, pf_inv s -> r_off from + r_size from <= pf_size s ->
  exists s', pf_move s off from = Ok (s', Rec off (r_size from)) /\
  pf_inv s' /\ pf_size s' = N.max (pf_size s) (off + r_size from) /\
  slice (pf_mem s') off (r_size from) = slice (pf_mem s) (r_off from) (r_size from) /\
  (forall o n, o + n <= blen (pf_mem s) -> disjoint off (r_size from) o n ->
     slice (pf_mem s') o n = slice (pf_mem s) o n) /\
  blen (pf_mem s) <= blen (pf_mem s').
Proof. exact move_spec. Qed.
Print Assumptions c05_move.

Definition c05_pre := [OAppend [1; 2; 0]; OReopen; OInsert 1 [9; 9]].
Definition c05_post := [OAppend [5; 5]; OMove 1 (Rec 0 3); OReopen].
Example c05_ex_hyps : exists s,
  pf_run (pf_open []) c05_pre = Ok s /\
  pf_safe (fst (pf_append s [7; 8; 0])) c05_post 4 3 /\
  exists s', pf_run (fst (pf_append s [7; 8; 0])) c05_post = Ok s' /\ pf_get s' (Rec 4 3) = Ok [7; 8; 0].
Proof.
  eexists. split; [vm_compute; reflexivity|]. split.
  - unfold c05_post. cbn [pf_safe].
    repeat (split; [first [exact I | vm_compute; discriminate]|
            split; [first [right; vm_compute; discriminate | left; vm_compute; discriminate]|
            intros ? ? HH; vm_compute in HH; injection HH as <- _]]).
    exact I.
  - eexists. split; vm_compute; reflexivity.
Qed.

(** C06: reads are confined to the file as long as offset+size does not wrap... *)
Theorem c06_get_confined_partial : forall s r,
  pf_inv s -> pf_size s < 2 ^ 64 -> r_off r + r_size r < 2 ^ 64 ->
  ~ inside s r -> pf_get s r = Throw.
Proof. exact get_rejects_outside. Qed.
Print Assumptions c06_get_confined_partial.
Example c06_ex : pf_get (PFile [1; 2; 3] 3) (Rec 1 3) = Throw /\ pf_get (PFile [1; 2; 3] 3) (Rec 1 2) = Ok [2; 3].
Proof. vm_compute. auto. Qed.

(** ... but not in general: a record with size 2^64-1 passes the check. *)
Theorem c06_get_confined_refuted :
  exists s r, pf_inv s /\ pf_size s < 2 ^ 64 /\ rec_ok r /\ ~ inside s r /\ pf_get s r = UB.
Proof.
  exists (PFile [1; 2; 3] 3), (Rec 1 (2 ^ 64 - 1)).
  split; [vm_compute; discriminate|]. split; [vm_compute; reflexivity|].
  split; [split; vm_compute; reflexivity|]. split; [|vm_compute; reflexivity].
  intros [_ H]. vm_compute in H. apply H. reflexivity.
Qed.
Print Assumptions c06_get_confined_refuted.

(** C05: the bytes between the end of the file and data that is inserted behind it are zero *)
Theorem c05_insert_behind : forall s off d o n, pf_inv s -> blen (pf_mem s) <= o -> o + n <= off ->
  slice (pf_mem (fst (pf_insert s off d))) o n = repeat 0 (N.to_nat n).
Proof. exact insert_behind. Qed.
Print Assumptions c05_insert_behind.
Example c05_behind_ex : pf_get (fst (pf_insert (PFile [1; 2] 2) 5 [7])) (Rec 1 5) = Ok [2; 0; 0; 0; 7].
Proof. reflexivity. Qed.

(** C07: clean close and reopen. *)
Theorem c07_reopen_preserves : forall disk ops s r d,
  pf_run (pf_open disk) ops = Ok s -> pf_size s + 1 < 2 ^ 64 -> r_off r + r_size r <= pf_size s ->
  pf_get s r = Ok d ->
  pf_size s <= pf_size (pf_open (pf_close s)) /\
  (pf_size (pf_open (pf_close s)) < 2 ^ 64 -> pf_get (pf_open (pf_close s)) r = Ok d).
Proof.
  exact (fun disk ops s r d HR => reopen_get s r d
          (run_inv ops (pf_open disk) s (pf_open_inv disk) HR step_inv)).
Qed.
Print Assumptions c07_reopen_preserves.
Example c07_ex : exists s, pf_run (pf_open []) [OAppend [3; 0; 0]] = Ok s /\
  pf_get s (Rec 0 3) = Ok [3; 0; 0] /\ pf_get (pf_open (pf_close s)) (Rec 0 3) = Ok [3; 0; 0].
Proof. eexists. repeat split; vm_compute; reflexivity. Qed.

(** C08: without the destructor this fails: a record whose last byte is '\0' is
    cut off, and the next append overwrites its tail, so that it silently reads
    back as different bytes. *)
Theorem c08_crash_keeps_records_refuted :
  exists d s r, d <> [] /\ pf_append pf_empty d = (s, r) /\ pf_get s r = Ok d /\
    pf_get (pf_open (pf_crash s)) r = Throw /\
    exists d2 d3, pf_get (fst (pf_append (pf_open (pf_crash s)) d2)) r = Ok d3 /\ d3 <> d.
Proof.
  exists [1; 0], (PFile [1; 0] 2), (Rec 0 2).
  split; [discriminate|]. split; [vm_compute; reflexivity|].
  split; [vm_compute; reflexivity|]. split; [vm_compute; reflexivity|].
  exists [7], [1; 7]. split; [vm_compute; reflexivity | discriminate].
Qed.
Print Assumptions c08_crash_keeps_records_refuted.

(** C08, the part that holds: if the last byte in use is not '\0'. *)
Theorem c08_crash_keeps_records_partial : forall s r d,
  pf_inv s -> pf_size s < 2 ^ 64 -> pf_size s <> 0 ->
  nth (N.to_nat (pf_size s - 1)) (pf_mem s) 0 <> 0 ->
  r_off r + r_size r <= pf_size s -> pf_get s r = Ok d ->
  pf_size (pf_open (pf_crash s)) < 2 ^ 64 ->
  pf_size s <= pf_size (pf_open (pf_crash s)) /\ pf_get (pf_open (pf_crash s)) r = Ok d.
Proof. exact crash_safe_if_last_nonzero. Qed.
Print Assumptions c08_crash_keeps_records_partial.
Example c08_ex : pf_get (pf_open (pf_crash (PFile [1; 0; 2] 3))) (Rec 0 3) = Ok [1; 0; 2].
Proof. vm_compute. reflexivity. Qed.

(** Pack file name: ".mdb" is replaced, otherwise ".pck" is appended (part of C05's API). *)
Theorem c05_pack_file_name : forall f,
  (exists base, f = base ++ [46; 109; 100; 98] /\ pack_file_name f = base ++ [46; 112; 99; 107]) \/
  ((~ exists base, f = base ++ [46; 109; 100; 98]) /\ pack_file_name f = f ++ [46; 112; 99; 107]).
Proof. exact pack_file_name_spec. Qed.
Print Assumptions c05_pack_file_name.
