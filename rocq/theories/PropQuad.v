(** Property C15: the quad tree index. *)
From Coq Require Import Permutation.
From Verif Require Import Base ModelTile SpecTile ModelQuadTree SpecQuadTree ProofQuadWalk ProofQuadOrder.
Open Scope N_scope.

(** with the documented layout, the spans reported for a query cover exactly the
    memory of the entries that contain the query tile or lie in it, once each *)
Theorem c15_walk_covers_exactly_related : forall root es bs rest q p,
  entries_ok es -> z_sorted root es -> consecutive p es ->
  tz root < 2 ^ 31 -> tz q < 2 ^ 31 -> make_quad_tree root es = Ok bs -> blen bs < 2 ^ 30 ->
  exists spans, walk_quad_tree (bs ++ rest) root q = Ok spans /\
    Permutation (flat_map cells spans) (flat_map entry_cells (filter (fun e => relatedb (qi_tile e) q) es)).
Proof. exact walk_cells. Qed.
Print Assumptions c15_walk_covers_exactly_related.

(** without any assumption on gaps: the exact sequence of calls *)
Theorem c15_walk_exact : forall root es bs rest q,
  entries_ok es -> parents_first es -> tz root < 2 ^ 31 -> tz q < 2 ^ 31 ->
  make_quad_tree root es = Ok bs -> blen bs < 2 ^ 30 ->
  walk_quad_tree (bs ++ rest) root q = Ok (walk_spec q es).
Proof. exact walk_exact. Qed.
Print Assumptions c15_walk_exact.

Theorem c15_below_is_contiguous : forall root q es,
  z_sorted root es -> Forall (fun e => covers root (qi_tile e)) es ->
  exists a b, es = a ++ under q es ++ b.
Proof. exact under_contiguous. Qed.
Print Assumptions c15_below_is_contiguous.

(** construction succeeds iff all entries lie in the root, otherwise it throws *)
Theorem c15_ok_iff_inside_root : forall root es, entries_ok es ->
  (exists bs, make_quad_tree root es = Ok bs) <-> Forall (fun e => covers root (qi_tile e)) es.
Proof. exact make_quad_tree_ok_iff. Qed.
Print Assumptions c15_ok_iff_inside_root.
Theorem c15_ok_or_throw : forall root es, entries_ok es ->
  (exists bs, make_quad_tree root es = Ok bs) \/ make_quad_tree root es = Throw.
Proof. exact make_quad_tree_total. Qed.
Print Assumptions c15_ok_or_throw.

Definition c15_root : tile := Tile 1 1 1.
Definition c15_es : list quad_input :=
  [QIn (Tile 1 1 1) 100 2; QIn (Tile 4 4 3) 102 5; QIn (Tile 5 5 3) 107 1; QIn (Tile 3 3 2) 108 4].
Example c15_ex_hyps : entries_ok c15_es /\ z_sorted c15_root c15_es /\ consecutive 100 c15_es.
Proof.
  split; [|split].
  - split; [|split; [|vm_compute; reflexivity]].
    + repeat (apply NoDup_cons; [intros H; cbn in H; intuition discriminate|]). apply NoDup_nil.
    + repeat (apply Forall_cons; [split; [vm_compute; reflexivity|]; split; vm_compute; reflexivity|]). apply Forall_nil.
  - repeat (apply SSorted_cons; [|repeat (apply Forall_cons; [vm_compute; reflexivity|]); apply Forall_nil]). apply SSorted_nil.
  - repeat (split; [vm_compute; reflexivity|]). exact I.
Qed.
Example c15_ex : exists bs, make_quad_tree c15_root c15_es = Ok bs /\ blen bs = 80 /\
  walk_quad_tree bs c15_root (Tile 0 0 0) = Ok [(100, 12)] /\
  walk_quad_tree bs c15_root (Tile 2 2 2) = Ok [(100, 2); (102, 6)] /\
  walk_quad_tree bs c15_root (Tile 20 21 5) = Ok [(100, 2); (107, 1)] /\
  walk_quad_tree bs c15_root (Tile 0 0 2) = Ok [] /\
  make_quad_tree c15_root [QIn (Tile 0 0 2) 0 1] = Throw.
Proof. eexists. split; [vm_compute; reflexivity|]. do 5 (split; [vm_compute; reflexivity|]). vm_compute; reflexivity. Qed.

(** the layout is needed: with a child stored before its parent, the walk for a
    tile that touches only the parent delivers the child's data *)
Theorem c15_layout_is_needed : exists root es bs q,
  entries_ok es /\ make_quad_tree root es = Ok bs /\ walk_quad_tree bs root q <> Ok (walk_spec q es).
Proof.
  exists c15_root, [QIn (Tile 2 2 2) 0 1; QIn (Tile 1 1 1) 1 1]. eexists. exists (Tile 3 3 2).
  split; [|split; [vm_compute; reflexivity | vm_compute; discriminate]].
  split; [|split; [|vm_compute; reflexivity]].
  - repeat (apply NoDup_cons; [intros H; cbn in H; intuition discriminate|]). apply NoDup_nil.
  - repeat (apply Forall_cons; [split; [vm_compute; reflexivity|]; split; vm_compute; reflexivity|]). apply Forall_nil.
Qed.
Print Assumptions c15_layout_is_needed.
