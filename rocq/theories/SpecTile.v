(** Specification vocabulary for tiles, independent of the model's functions:
    plain arithmetic on coordinates. *)
From Verif Require Import Base ModelTile.
Open Scope N_scope.

(** [a] is [b] or an ancestor of [b]: b's coordinates scaled down to a's zoom
    level are a's coordinates. *)
Definition covers (a b : tile) : Prop :=
  tz a <= tz b /\ tx a = tx b / 2 ^ (tz b - tz a) /\ ty a = ty b / 2 ^ (tz b - tz a).

Definition coversb (a b : tile) : bool :=
  (tz a <=? tz b) && (tx a =? tx b / 2 ^ (tz b - tz a)) && (ty a =? ty b / 2 ^ (tz b - tz a)).

(** one of the two contains the other *)
Definition related (a b : tile) : Prop := covers a b \/ covers b a.
Definition relatedb (a b : tile) : bool := coversb a b || coversb b a.

(** the tile exists on its zoom level *)
Definition valid_tile (t : tile) : Prop := tx t < 2 ^ tz t /\ ty t < 2 ^ tz t.

(** components fit their bit fields *)
Definition key_range (t : tile) (n : N) : Prop :=
  tz t < 2 ^ 5 /\ ty t < 2 ^ 21 /\ tx t < 2 ^ 21 /\ n < 2 ^ 17.

(** lexicographic order on (z, y, x, n) *)
Definition lex_lt (a : tile) (n : N) (b : tile) (m : N) : Prop :=
  tz a < tz b \/ (tz a = tz b /\
  (ty a < ty b \/ (ty a = ty b /\
  (tx a < tx b \/ (tx a = tx b /\ n < m))))).

(** strictly increasing keys *)
Fixpoint table_sorted (t : table) : Prop :=
  match t with
  | [] => True
  | (k, _) :: t' => Forall (fun e => k < fst e) t' /\ table_sorted t'
  end.

(** record members are 64-bit *)
Definition rec_ok (r : pack_record) : Prop := r_off r < 2 ^ 64 /\ r_size r < 2 ^ 64.

(** Table whose entries are given by tile, n and record list. *)
Definition stores (d : tile * N * list pack_record) (e : N * bytes) : Prop :=
  tile_to_key (fst (fst d)) (snd (fst d)) = Ok (fst e) /\
  Forall rec_ok (snd d) /\ snd e = pack_records_serialize (snd d).
