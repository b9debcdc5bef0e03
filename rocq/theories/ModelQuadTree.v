(** Quad tree index: include/tiles/db/quad_tree.h, src/db/quad_tree.cc *)
From Verif Require Import Base ModelTile.
Open Scope N_scope.

(** ** Maps keyed by tile *)
(** std::map<geo::tile, T> (standard library).  The iteration order of the map
    is not modelled: entries are kept in insertion order (the loops over these
    maps are insensitive to it, which the proofs establish). *)
Section TMap.
  Context {A : Type}.
  Definition tmap := list (tile * A).
  Fixpoint tget (m : tmap) (t : tile) : option A :=
    match m with
    | [] => None
    | (k, a) :: m' => if tile_eqb k t then Some a else tget m' t
    end.
  (** m[t] = a *)
  Fixpoint tput (m : tmap) (t : tile) (a : A) : tmap :=
    match m with
    | [] => [(t, a)]
    | (k, b) :: m' => if tile_eqb k t then (k, a) :: m' else (k, b) :: tput m' t a
    end.

  (** std::vector<std::map<...>>: nodes[j] after nodes.resize(j + 1) if needed *)
  Fixpoint put_level (ls : list tmap) (j : nat) (t : tile) (a : A) : list tmap :=
    match j, ls with
    | O, [] => [tput [] t a]
    | O, l :: ls' => tput l t a :: ls'
    | S j', [] => [] :: put_level [] j' t a
    | S j', l :: ls' => l :: put_level ls' j' t a
    end.
End TMap.
Arguments tmap : clear implicits.

(** ** The temporary tree *)
(** quad_tree.cc:9-12 tmp_quad_node_t; children are pointers into the map of the
    next level, which is no longer modified once a pointer is taken: the node
    contains the child itself.  [QNull] is the null pointer. *)
Inductive qtree : Type :=
| QNull
| QNode (c0 c1 c2 c3 : qtree) (off self sub : N).

(** quad_tree.h:68-71 quad_tree_input *)
Record quad_input := QIn { qi_tile : tile; qi_off : N; qi_size : N }.

Definition kU32Max : N := 2 ^ 32 - 1.

(** quad_tree.cc:44-46: parent.children_[pos] = child; parent.offset_ = min(...);
    parent.size_subtree_ += ... (uint32_t) *)
Definition add_child (pos : N) (c p : qtree) : qtree :=
  match p, c with
  | QNode c0 c1 c2 c3 off self sub, QNode _ _ _ _ coff _ csub =>
      let off' := N.min off coff in
      let sub' := (sub + csub) mod 2 ^ 32 in
      match pos with
      | 0 => QNode c c1 c2 c3 off' self sub'
      | 1 => QNode c0 c c2 c3 off' self sub'
      | 2 => QNode c0 c1 c c3 off' self sub'
      | _ => QNode c0 c1 c2 c off' self sub'
      end
  | _, _ => p
  end.

(** quad_tree.cc:36-42: the entry inserted for a missing parent *)
Definition empty_node : qtree := QNode QNull QNull QNull QNull kU32Max 0 0.

(** quad_tree.cc:32-47: one iteration of the inner loop *)
Definition attach (m : tmap qtree) (e : tile * qtree) : tmap qtree :=
  let p := tile_parent (fst e) in
  let old := match tget m p with Some n => n | None => empty_node end in
  tput m p (add_child (quad_pos (fst e)) (snd e) old).

(** quad_tree.cc:31-48: the loop over levels, deepest first; the result is the
    map of level 0 *)
Fixpoint build_levels (ls : list (tmap qtree)) : tmap qtree :=
  match ls with
  | [] => []
  | [l] => l
  | l :: deeper => fold_left attach (build_levels deeper) l
  end.

(** quad_tree.cc:18-29: the loop over the input *)
Fixpoint insert_inputs (root : tile) (ls : list (tmap qtree)) (input : list quad_input) :
  res (list (tmap qtree)) :=
  match input with
  | [] => Ok ls
  | e :: input' =>
      let t := qi_tile e in
      do _ <- verify (tz root <=? tz t);
      do _ <- verify (negb (tz root =? tz t) || tile_eqb root t);
      let rel_z := tz t - tz root in
      insert_inputs root
        (put_level ls (N.to_nat rel_z) t
           (QNode QNull QNull QNull QNull (qi_off e) (qi_size e) (qi_size e))) input'
  end.

(** quad_tree.cc:16-53 make_tmp_quad_tree: the root node *)
Definition make_tmp_quad_tree (root : tile) (input : list quad_input) : res qtree :=
  do ls <- insert_inputs root [[]] input;
  match build_levels ls with
  | [(t, n)] => do _ <- verify (tile_eqb t root); Ok n
  | _ => Throw
  end.

(** ** Serialization *)
(** vec.at(i) = x *)
Definition vset (v : list N) (i : nat) (x : N) : res (list N) :=
  if (i <? length v)%nat then Ok (firstn i v ++ x :: skipn (S i) v) else Throw.
(** vec.at(i) *)
Definition vget (v : list N) (i : nat) : res N :=
  match nth_error v i with Some x => Ok x | None => Throw end.

(** quad_tree.h:51 kQuadChildOffset, :52-53 kQuadOffsetMask *)
Definition kQuadChildOffset : N := 28.
Definition kQuadOffsetMask : N := N.shiftl 1 28 - 1.

Definition qstack := list (nat * qtree).

(** quad_tree.cc:80-92: one iteration of the loop over the children of the node
    at [offset]; size_t narrows to uint32_t *)
Definition push_child (offset : nat) (i : N) (c : qtree) (sv : qstack * list N) :
  res (qstack * list N) :=
  let (st, v) := sv in
  match c with
  | QNull => Ok (st, v)
  | QNode _ _ _ _ _ _ _ =>
      do s <- vget v offset;
      let s := if s =? 0 then N.of_nat (length v) mod 2 ^ 32 else s in
      do v <- vset v offset (N.lor s (N.shiftl 1 (i + kQuadChildOffset)));
      Ok ((length v, c) :: st, v ++ [0; 0; 0; 0])
  end.

(** quad_tree.cc:71-94 the stack loop *)
Fixpoint serialize_loop (fuel : nat) (st : qstack) (v : list N) : res (list N) :=
  match st with
  | [] => Ok v
  | (_, QNull) :: _ => UB
  | (o, QNode c0 c1 c2 c3 off self sub) :: st' =>
      match fuel with
      | O => Fuel
      | S f =>
          do v <- vset v (o + 1) off;
          do v <- vset v (o + 2) self;
          do v <- vset v (o + 3) sub;
          do sv <- push_child o 0 c0 (st', v);
          do sv <- push_child o 1 c1 sv;
          do sv <- push_child o 2 c2 sv;
          do sv <- push_child o 3 c3 sv;
          serialize_loop f (fst sv) (snd sv)
      end
  end.

(** number of nodes: bounds the number of iterations *)
Fixpoint qcount (t : qtree) : nat :=
  match t with
  | QNull => 0
  | QNode c0 c1 c2 c3 _ _ _ => S (qcount c0 + qcount c1 + qcount c2 + qcount c3)
  end.

(** quad_tree.cc:55-96 serialize_quad_tree *)
Definition serialize_quad_tree (root : qtree) : res (list N) :=
  serialize_loop (qcount root) [(O, root)] [0; 0; 0; 0].

(** a vector of uint32_t in memory *)
Definition u32_bytes (v : list N) : bytes := flat_map (le_bytes 4) v.

(** quad_tree.cc:98-118 make_quad_tree *)
Definition make_quad_tree (root : tile) (input : list quad_input) : res bytes :=
  match input with
  | [] => Ok (u32_bytes [0; 0; 0; 0])
  | _ =>
      do n <- make_tmp_quad_tree root input;
      do v <- serialize_quad_tree n;
      Ok (u32_bytes v)
  end.

(** ** Walking *)
(** bin_utils.h:22-32 read_nth<uint32_t>(base, i); outside of the buffer: UB *)
Definition read_u32 (base : bytes) (i : N) : res N :=
  if 4 * i + 4 <=? blen base then Ok (le_val (slice base (4 * i) 4)) else UB.

(** bin_utils.h:34-36 bit_set *)
Definition bit_set (v i : N) : bool := N.testbit v i.

(** quad_tree.h:83-95: is query the root or one of its ancestors? *)
Fixpoint reaches_up (fuel : nat) (p q : tile) : bool :=
  if tile_eqb p q then true
  else match fuel with
       | O => false
       | S f => if tz p =? 0 then false else reaches_up f (tile_parent p) q
       end.

(** quad_tree.h:98-105: [trace] with the most recent tile first (so the result
    is the reversed vector including the root), None for the early return *)
Fixpoint trace_up (fuel : nat) (root : tile) (trace : list tile) : res (option (list tile)) :=
  match fuel, trace with
  | _, [] => UB
  | O, _ => Fuel
  | S f, b :: _ =>
      if tile_eqb (tile_parent b) root then Ok (Some (root :: trace))
      else if (tz b =? 0) || (tz b <? tz root) then Ok None
      else trace_up f root (tile_parent b :: trace)
  end.

(** quad_tree.h:138-143: entries to skip *)
Fixpoint count_bits (curr : N) (n : nat) (i : N) : N :=
  match n with
  | O => 0
  | S n' => (if bit_set curr (kQuadChildOffset + i) then 4 else 0) + count_bits curr n' (i + 1)
  end.

(** quad_tree.h:108-144: the loop over the trace; result: the calls fn(offset, count) *)
Fixpoint walk_trace (base : bytes) (query : tile) (offset : N) (trace : list tile) :
  res (list (N * N)) :=
  match trace with
  | [] => Ok []
  | t :: rest =>
      if tile_eqb t query then
        do o <- read_u32 base (offset + 1);
        do n <- read_u32 base (offset + 3);
        Ok [(o, n)]
      else
        do n <- read_u32 base (offset + 2);
        do own <- (if n =? 0 then Ok [] else
                   do o <- read_u32 base (offset + 1); Ok [(o, n)]);
        do curr <- read_u32 base offset;
        if curr =? 0 then Ok own
        else match rest with
             | [] => Throw
             | next :: _ =>
                 if negb (bit_set curr (kQuadChildOffset + quad_pos next)) then Ok own
                 else
                   let off' := (N.land curr kQuadOffsetMask
                                + count_bits curr (N.to_nat (quad_pos next)) 0) mod 2 ^ 32 in
                   do more <- walk_trace base query off' rest;
                   Ok (own ++ more)
             end
  end.

(** quad_tree.h:75-146 walk_quad_tree *)
Definition walk_quad_tree (base : bytes) (root query : tile) : res (list (N * N)) :=
  do total <- read_u32 base 3;
  if total =? 0 then Ok []
  else if reaches_up (N.to_nat (tz root)) root query then
    do o <- read_u32 base 1;
    Ok [(o, total)]
  else
    do tr <- trace_up (S (N.to_nat (tz query))) root [query];
    match tr with
    | None => Ok []
    | Some tr => walk_trace base query 0 tr
    end.
