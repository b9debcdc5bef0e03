(** Specification vocabulary for preparing tiles. *)
From Verif Require Import Base ModelTile SpecTile ModelPrepare.
Open Scope N_scope.

(** [i] is an index tile inside the rectangle spanned by the index tiles that occur in the
    features table *)
Definition in_rectangle (features : table) (i : tile) : Prop :=
  tz i = 10 /\
  (exists e, In e features /\ tx (key_to_tile (fst e)) <= tx i) /\ (exists e, In e features /\ tx i <= tx (key_to_tile (fst e))) /\
  (exists e, In e features /\ ty (key_to_tile (fst e)) <= ty i) /\ (exists e, In e features /\ ty i <= ty (key_to_tile (fst e))).
(** the tile overlaps that rectangle *)
Definition in_bounds (features : table) (t : tile) : Prop := exists i, in_rectangle features i /\ related i t.

(** all threads are done *)
Definition all_exited (s : prep) : Prop := Forall (fun p => p = TExit) (p_threads s).

(** ** contexts tiles are rendered with *)
From Verif Require Import ModelRender.

(** the server after tiles up to [max] were prepared: prepared tiles are used, fully
    seaside tiles are drawn, everything else as in [x] *)
Definition serving (x : rctx) (max : N) : rctx :=
  RCtx (Z.of_N max) (x_seaside x) (x_names x) (x_dec x) (x_compress x) false false (x_agg_lines x) (x_agg_polys x)
    (x_drop_subpixel x) (x_deflate x) (x_cut x) (x_area x) (x_aggregate x) (x_rd x).
(** rendering without prepared tiles, lines and polygons joined *)
Definition on_demand (x : rctx) : rctx :=
  RCtx (x_max_prepared x) (x_seaside x) (x_names x) (x_dec x) (x_compress x) true false true true
    (x_drop_subpixel x) (x_deflate x) (x_cut x) (x_area x) (x_aggregate x) (x_rd x).
