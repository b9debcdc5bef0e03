(** Specification vocabulary for the quad tree: what a walk should report. *)
From Coq Require Export Sorted.
From Verif Require Import Base ModelTile SpecTile ModelQuadTree.
Open Scope N_scope.

(** entries whose tile is [t] or below it *)
Definition under (t : tile) (es : list quad_input) : list quad_input :=
  filter (fun e => coversb t (qi_tile e)) es.

Definition total_size (es : list quad_input) : N := fold_right (fun e s => qi_size e + s) 0 es.
Definition min_off (es : list quad_input) : N := fold_right (fun e s => N.min (qi_off e) s) (2 ^ 32 - 1) es.

(** entries on zoom level [z] whose tile contains [q] *)
Definition above_at (z : N) (q : tile) (es : list quad_input) : list quad_input :=
  filter (fun e => (tz (qi_tile e) =? z) && coversb (qi_tile e) q) es.
(** entries strictly above [q], topmost first *)
Definition above (q : tile) (es : list quad_input) : list quad_input :=
  flat_map (fun z => above_at (N.of_nat z) q es) (seq 0 (N.to_nat (tz q))).

(** one span per entry above the query, then one span for everything below *)
Definition walk_spec (q : tile) (es : list quad_input) : list (N * N) :=
  map (fun e => (qi_off e, qi_size e)) (above q es)
  ++ match under q es with [] => [] | l => [(min_off l, total_size l)] end.

(** the documented layout (quad_tree.h:62-67): the data of a tile lies before the
    data of all tiles below it *)
Definition parents_first (es : list quad_input) : Prop :=
  forall e e', In e es -> In e' es -> covers (qi_tile e) (qi_tile e') -> qi_off e <= qi_off e'.

(** legal input: no two entries for one tile, nothing empty, 32 bit ranges *)
Definition entries_ok (es : list quad_input) : Prop :=
  NoDup (map qi_tile es) /\
  Forall (fun e => qi_off e < 2 ^ 32 /\ 0 < qi_size e /\ tz (qi_tile e) < 2 ^ 31) es /\
  total_size es < 2 ^ 32.

(** ** Order along the z curve *)
(** position (0..3) inside its parent of the ancestor of [t] on zoom level [l] *)
Definition digit (t : tile) (l : N) : N :=
  (tx t / 2 ^ (tz t - l)) mod 2 + 2 * ((ty t / 2 ^ (tz t - l)) mod 2).
(** the way from [root] down to [t] *)
Definition zpath (root t : tile) : list N :=
  map (fun i => digit t (tz root + 1 + N.of_nat i)) (seq 0 (N.to_nat (tz t - tz root))).
(** lexicographic order, a prefix comes first *)
Fixpoint lex_leb (a b : list N) : bool :=
  match a, b with
  | [], _ => true
  | _ :: _, [] => false
  | x :: a', y :: b' => (x <? y) || ((x =? y) && lex_leb a' b')
  end.
Definition z_le (root a b : tile) : Prop := lex_leb (zpath root a) (zpath root b) = true.

(** the layout demanded by quad_tree.h:62-67: entries in z order, their data
    consecutive in memory *)
Fixpoint consecutive (pos : N) (es : list quad_input) : Prop :=
  match es with
  | [] => True
  | e :: es' => qi_off e = pos /\ consecutive (pos + qi_size e) es'
  end.
Definition z_sorted (root : tile) (es : list quad_input) : Prop :=
  StronglySorted (fun a b => z_le root (qi_tile a) (qi_tile b)) es.

(** the memory cells of a span *)
Definition cells (s : N * N) : list N :=
  map N.of_nat (seq (N.to_nat (fst s)) (N.to_nat (snd s))).
Definition entry_cells (e : quad_input) : list N := cells (qi_off e, qi_size e).
