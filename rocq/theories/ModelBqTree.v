(** Binary quad tree of fully covered tiles: include/tiles/db/bq_tree.h, src/db/bq_tree.cc *)
From Verif Require Import Base ModelTile ModelQuadTree.
Open Scope N_scope.

(** bq_tree.cc:29-39 *)
Definition kTrueOffset : N := 28.
Definition kFalseOffset : N := 24.
Definition kOffsetMask : N := N.shiftl 1 24 - 1.
Definition kEmptyRoot : N := 0.
Definition kFullRoot : N := 2 ^ 32 - 1.
Definition kInvalidNode : N := 2 ^ 32 - 2.

(** bq_tree.cc:48-55 bq_tree(string_view) *)
Fixpoint u32_words (n : nat) (bs : bytes) : list N :=
  match n with
  | O => []
  | S n' => le_val (firstn 4 bs) :: u32_words n' (skipn 4 bs)
  end.
Definition bq_of_string (bs : bytes) : res (list N) :=
  do _ <- verify (blen bs mod 4 =? 0);
  Ok (u32_words (length bs / 4) bs).
(** bq_tree.cc:136-139 string_view() *)
Definition bq_string (nodes : list N) : bytes := u32_bytes nodes.

(** ** Queries *)
(** bq_tree.cc:67-73: the trace, most recent tile first (so already reversed).
    The verify bounds the number of iterations by 23. *)
Fixpoint bq_trace (fuel : nat) (trace : list tile) : res (list tile) :=
  match fuel, trace with
  | _, [] => UB
  | O, _ => Fuel
  | S f, b :: _ =>
      if tile_eqb (tile_parent b) (Tile 0 0 0) then Ok trace
      else do _ <- verify (length trace <=? 22)%nat; bq_trace f (tile_parent b :: trace)
  end.

(** bq_tree.cc:88-93: number of child nodes before position [n] *)
Fixpoint inner_before (curr : N) (n : nat) (i : N) : N :=
  match n with
  | O => 0
  | S n' => (if negb (bit_set curr (i + kFalseOffset)) && negb (bit_set curr (i + kTrueOffset)) then 1 else 0)
            + inner_before curr n' (i + 1)
  end.

(** bq_tree.cc:75-97: the descent; (decision, node) *)
Fixpoint bq_descend (nodes : list N) (curr : N) (trace : list tile) : res (option bool * N) :=
  match trace with
  | [] => Ok (None, curr)
  | t :: rest =>
      if bit_set curr (quad_pos t + kFalseOffset) then Ok (Some false, kInvalidNode)
      else if bit_set curr (quad_pos t + kTrueOffset) then Ok (Some true, kInvalidNode)
      else
        let offset := N.land curr kOffsetMask + inner_before curr (N.to_nat (quad_pos t)) 0 in
        do c <- vget nodes (N.to_nat offset);
        bq_descend nodes c rest
  end.

(** bq_tree.cc:57-100 find_parent_leaf *)
Definition find_parent_leaf (nodes : list N) (q : tile) : res (option bool * N) :=
  do root <- vget nodes 0;
  if root =? kFullRoot then Ok (Some true, kInvalidNode)
  else if root =? kEmptyRoot then Ok (Some false, kInvalidNode)
  else if tile_eqb q (Tile 0 0 0) then Ok (None, root)
  else
    do trace <- bq_trace 24 [q];
    bq_descend nodes root trace.

(** bq_tree.cc:102-105 contains *)
Definition bq_contains (nodes : list N) (q : tile) : res bool :=
  do (d, _) <- find_parent_leaf nodes q;
  Ok (match d with Some b => b | None => false end).

(** bq_tree.cc:118-133: the loop over the children of one node; the tile range
    iterator (third party) gives the four children in quad_pos order *)
Fixpoint leaf_children (nodes : list N) (node : N) (cs : list tile) (count : N)
    (st : list (tile * N)) (result : list tile) : res (list (tile * N) * list tile) :=
  match cs with
  | [] => Ok (st, result)
  | c :: cs' =>
      if bit_set node (quad_pos c + kTrueOffset) then leaf_children nodes node cs' count st (result ++ [c])
      else if bit_set node (quad_pos c + kFalseOffset) then leaf_children nodes node cs' count st result
      else
        do n <- vget nodes (N.to_nat (N.land node kOffsetMask + count));
        leaf_children nodes node cs' (count + 1) ((c, n) :: st) result
  end.
(** bq_tree.cc:113-134: the stack loop.  A damaged tree can make it run forever:
    [Fuel]. *)
Fixpoint leaf_loop (fuel : nat) (nodes : list N) (st : list (tile * N)) (result : list tile) : res (list tile) :=
  match st with
  | [] => Ok result
  | (t, node) :: st' =>
      match fuel with
      | O => Fuel
      | S f =>
          do (st'', result') <- leaf_children nodes node (direct_children t) 0 st' result;
          leaf_loop f nodes st'' result'
      end
  end.
(** bq_tree.cc:107-134 all_leafs *)
Definition bq_all_leafs (nodes : list N) (q : tile) : res (list tile) :=
  do (d, node) <- find_parent_leaf nodes q;
  match d with
  | Some b => Ok (if b then [q] else [])
  | None => leaf_loop (length nodes) nodes [(q, node)] []
  end.

(** ** Construction *)
(** bq_tree.cc:149-152 bq_tmp_node_t; a leaf never has children (:207-209).
    As for the other quad tree a node contains its children. *)
Inductive btree : Type :=
| BNull
| BLeaf
| BNode (c0 c1 c2 c3 : btree).

(** parent.children_[pos] = c unless the parent is a leaf (:207-209) *)
Definition bq_set_child (pos : N) (c p : btree) : btree :=
  match p with
  | BNode c0 c1 c2 c3 =>
      match pos with
      | 0 => BNode c c1 c2 c3
      | 1 => BNode c0 c c2 c3
      | 2 => BNode c0 c1 c c3
      | _ => BNode c0 c1 c2 c
      end
  | _ => p
  end.
(** bq_tree.cc:204-210: nodes[z - 1][parent] value-initialises a missing entry:
    not a leaf, no children *)
Definition bq_attach (m : tmap btree) (e : tile * btree) : tmap btree :=
  let p := tile_parent (fst e) in
  let old := match tget m p with Some n => n | None => BNode BNull BNull BNull BNull end in
  tput m p (bq_set_child (quad_pos (fst e)) (snd e) old).
(** bq_tree.cc:203-212 *)
Fixpoint bq_build (ls : list (tmap btree)) : tmap btree :=
  match ls with
  | [] => []
  | [l] => l
  | l :: deeper => fold_left bq_attach (bq_build deeper) l
  end.
(** bq_tree.cc:195-201 *)
Fixpoint bq_insert (ls : list (tmap btree)) (tiles : list tile) : list (tmap btree) :=
  match tiles with
  | [] => ls
  | t :: tiles' => bq_insert (put_level ls (N.to_nat (tz t)) t BLeaf) tiles'
  end.

(** bq_tree.cc:167-183: one child of the node stored at [offset] *)
Definition bq_push (offset : nat) (i : N) (c : btree) (sv : list (nat * btree) * list N) :
  res (list (nat * btree) * list N) :=
  let (st, v) := sv in
  do s <- vget v offset;
  match c with
  | BNull => do v <- vset v offset (N.lor s (N.shiftl 1 (i + kFalseOffset))); Ok (st, v)
  | BLeaf => do v <- vset v offset (N.lor s (N.shiftl 1 (i + kTrueOffset))); Ok (st, v)
  | BNode _ _ _ _ =>
      let s := if N.land s kOffsetMask =? 0 then N.lor s (N.of_nat (length v) mod 2 ^ 32) else s in
      do v <- vset v offset s;
      Ok ((length v, c) :: st, v ++ [0])
  end.
(** bq_tree.cc:154-187 serialize_bq_tree *)
Fixpoint bq_serialize_loop (fuel : nat) (st : list (nat * btree)) (v : list N) : res (list N) :=
  match st with
  | [] => Ok v
  | (o, BNode c0 c1 c2 c3) :: st' =>
      match fuel with
      | O => Fuel
      | S f =>
          do sv <- bq_push o 0 c0 (st', v);
          do sv <- bq_push o 1 c1 sv;
          do sv <- bq_push o 2 c2 sv;
          do sv <- bq_push o 3 c3 sv;
          bq_serialize_loop f (fst sv) (snd sv)
      end
  | _ => UB
  end.
(** inner nodes: one iteration each *)
Fixpoint bcount (t : btree) : nat :=
  match t with
  | BNode c0 c1 c2 c3 => S (bcount c0 + bcount c1 + bcount c2 + bcount c3)
  | _ => 0
  end.
Definition bq_serialize (root : btree) : res (list N) :=
  bq_serialize_loop (bcount root) [(O, root)] [0].

(** bq_tree.cc:189-221 make_bq_tree *)
Definition make_bq_tree (tiles : list tile) : res (list N) :=
  match tiles with
  | [] => Ok [kEmptyRoot]
  | _ =>
      match bq_build (bq_insert [[]] tiles) with
      | [(_, BLeaf)] => Ok [kFullRoot]
      | [(_, root)] => bq_serialize root
      | _ => Throw
      end
  end.
