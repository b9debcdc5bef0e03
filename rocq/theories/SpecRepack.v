(** Specification vocabulary for repacking. *)
From Coq Require Import Permutation Sorted.
From Verif Require Import Base ModelTile ModelPackFile ModelTable ModelRepack.
Open Scope N_scope.

(** the bytes a record refers to *)
Definition bytes_of (pf : pfile) (r : pack_record) : bytes := slice (pf_mem pf) (r_off r) (r_size r).

(** two records have no byte in common *)
Definition apart (a b : pack_record) : Prop := r_off a + r_size a <= r_off b \/ r_off b + r_size b <= r_off a.

(** the records of a database: non-empty, inside the file, no two overlap *)
Definition valid_layout (pf : pfile) (rs : list pack_record) : Prop :=
  Forall (fun r => 0 < r_size r /\ r_off r + r_size r <= pf_size pf) rs /\ ForallOrdPairs apart rs.

(** the bytes in use, and the size of the largest record *)
Definition total_size (rs : list pack_record) : N := fold_right (fun r n => r_size r + n) 0 rs.
Definition largest_size (rs : list pack_record) : N := fold_right (fun r n => N.max (r_size r) n) 0 rs.

(** the tasks of which a result is expected *)
Definition filled (tasks : list task) : list task := filter (fun t => match snd t with [] => false | _ => true end) tasks.

(** the packs [ps] are those of the task [t] as they were in the file [pf] *)
Definition packs_of (pf : pfile) (t : task) (ps : list bytes) : Prop := Permutation ps (map (bytes_of pf) (snd t)).

(** [c]: a tile of the input with its packs *)
Definition is_input (pf0 : pfile) (tasks : list task) (c : tile * list bytes) : Prop :=
  exists t, In t (filled tasks) /\ fst c = fst t /\ packs_of pf0 t (snd c).

(** the update [u] refers, in the file [pf], to what [pack] makes of the packs the task [t] had in
    the file [pf0] *)
Definition repacked (pack : tile -> list bytes -> bytes) (pf0 pf : pfile) (t : task) (u : single) : Prop :=
  fst u = fst t /\ exists ps, packs_of pf0 t ps /\ pf_get pf (snd u) = Ok (pack (fst t) ps).

(** std::sort of positions by the records at these positions *)
Definition sorts_positions (qsort : (nat -> nat -> bool) -> list nat -> list nat) : Prop :=
  forall rs l, let lt i j := rec_ltb (nth i rs no_rec) (nth j rs no_rec) in
    Permutation (qsort lt l) l /\ StronglySorted (fun a b => lt b a = false) (qsort lt l).
(** std::sort only reorders *)
Definition reorders {A} (srt : list A -> list A) : Prop := forall l, Permutation (srt l) l.

(** ** the database *)
(** a database entry: tile, n, records; all records of a tile *)
Definition tile_records (db : list (tile * N * list pack_record)) (t : tile) : list pack_record :=
  flat_map snd (filter (fun d => tile_eqb (fst (fst d)) t) db).

(** the entry [v] of the tile [t] refers, in the file [pf], to what [pack] makes of all packs the
    database [db] had for this tile in the file [pf0] *)
Definition good_entry (pack : tile -> list bytes -> bytes) (pf0 : pfile) (db : list (tile * N * list pack_record)) (pf : pfile) (t : tile) (v : bytes) : Prop :=
  exists r ps, v = pack_records_serialize [r] /\ Permutation ps (map (bytes_of pf0) (tile_records db t)) /\ pf_get pf r = Ok (pack t ps).
